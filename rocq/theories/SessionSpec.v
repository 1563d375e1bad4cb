(* What is known of a session from the calls made so far and their replies,
   the last one first. *)
From Verif Require Import Base PluginModel SessionModel.

Fixpoint session_of {D} (id : str) (past : list (call D * reply D)) : option (session D) :=
  match past with
  | [] => None
  | (Create id' d now, Accepted true) :: l => if str_eqb id' id then Some (Session d now 0) else session_of id l
  | (Switch id' now, Accepted true) :: l =>
    match session_of id l with
    | Some s => Some (if str_eqb id' id then Session (s_document s) now (s_operations s) else s)
    | None => None
    end
  | (Remove id', Gave (Some _)) :: l => if str_eqb id' id then None else session_of id l
  | (Edit id' f, Edited (Some ok)) :: l =>
    match session_of id l with
    | Some s =>
      Some (if str_eqb id' id then Session (fst (f (s_document s))) (s_accessed s) (if ok then s_operations s + 1 else s_operations s) else s)
    | None => None
    end
  | (CleanupNext _, Dropped id' true) :: l => if str_eqb id' id then None else session_of id l
  | _ :: l => session_of id l
  end.
(* The names in use, each once. *)
Definition live {D} (past : list (call D * reply D)) (names : list str) : Prop :=
  NoDup names /\ forall id, In id names <-> session_of id past <> None.
(* The session made current last, None after it is removed; the first one
   created while there is none. *)
Fixpoint active_of {D} (past : list (call D * reply D)) : option str :=
  match past with
  | [] => None
  | (Create id _ _, Accepted true) :: l => match active_of l with Some a => Some a | None => Some id end
  | (Switch id _, Accepted true) :: l => Some id
  | (Remove id, Gave (Some _)) :: l => match active_of l with Some a => if str_eqb a id then None else Some a | None => None end
  | (CleanupNext _, Dropped id true) :: l => match active_of l with Some a => if str_eqb a id then None else Some a | None => None end
  | _ :: l => active_of l
  end.
(* What a reply must be, given the past. *)
Definition right_reply {D} (c : session_config) (past : list (call D * reply D)) (x : call D) (a : reply D) : Prop :=
  match x, a with
  | Create _ _ _, Accepted ok => forall names, live past names -> ok = (List.length names <? max_sessions c)
  | Switch id _, Accepted ok => ok = true <-> session_of id past <> None
  | Remove id, Gave s => s = session_of id past
  | Edit id f, Edited ok => ok = option_map (fun s => snd (f (s_document s))) (session_of id past)
  | CleanupBegin _ now age _, Begun ids =>
    if auto_cleanup c then forall id, In id ids -> exists s, session_of id past = Some s /\ age < now - s_accessed s else ids = []
  | CleanupNext _, Dropped id was => was = true <-> session_of id past <> None
  | CleanupNext _, CleanedUp _ => True
  | CleanupNext _, Idle => True
  | _, _ => False
  end.
Fixpoint right_replies {D} (c : session_config) (past : list (call D * reply D)) (calls : list (call D)) (out : list (reply D)) : Prop :=
  match calls, out with
  | [], [] => True
  | x :: l, a :: o => right_reply c past x a /\ right_replies c ((x, a) :: past) l o
  | _, _ => False
  end.
(* The shuffles of the hash map reorder only. *)
Definition fair {D} (x : call D) : Prop := match x with CleanupBegin _ _ _ shuffle => forall l, Permutation l (shuffle l) | _ => True end.
(* How many sessions the cleanup of this thread has dropped. *)
Fixpoint dropped_by {D} (who : nat) (past : list (call D * reply D)) : nat :=
  match past with
  | [] => 0
  | (CleanupBegin w _ _ _, _) :: l => if w =? who then 0 else dropped_by who l
  | (CleanupNext w, Dropped _ true) :: l => if w =? who then S (dropped_by who l) else dropped_by who l
  | _ :: l => dropped_by who l
  end.
