(* The extension manager as its users see it, told by what happened so far, the
   newest event first: no tables, only the past. *)
From Verif Require Import Base ExtModel.

Section Spec.
  Context {X V : Type} (K : methods X V).
  Notation event := (@event X V).

  (* a method talking to a context, from its state to a result *)
  Inductive plays {S R} (h : handler S) : S -> script R -> R -> Prop :=
  | plays_end s r : plays h s (Return r) r
  | plays_call s c k a s' r : h s c = Some (a, s') -> plays h s' (k a) r -> plays h s (Ask c k) r.
  Definition method {R} (c : context) (p : script R) (r : R) : Prop := plays (c_handler c) (c_now c) p r.

  (* the extension under a name, as its methods left it *)
  Fixpoint object (n : str) (l : list event) : option X :=
    match l with
    | [] => None
    | Inserted _ x true :: l' => if str_eqb n (x_name K x) then Some x else object n l'
    | Initialized _ m _ (Some (x, _)) :: l' | Stopped _ m _ (Some (x, _)) :: l' | Executed _ m _ _ _ (Some (x, _)) :: l' => if str_eqb n m then Some x else object n l'
    | Removed _ m :: l' => if str_eqb n m then None else object n l'
    | _ :: l' => object n l'
    end.
  Definition after_initialize (out : option (X * ending)) : ext_state :=
    match out with Some (_, Good) => Active | Some (_, Bad) => Faulty | Some (_, Panicked) | None => Initializing end.
  Definition after_shutdown (out : option (X * ending)) : ext_state := match out with Some (_, Good) => Shutdown | _ => ShuttingDown end.
  Fixpoint status (n : str) (l : list event) : option ext_state :=
    match l with
    | [] => None
    | Inserted _ x true :: l' => if str_eqb n (x_name K x) then Some Uninitialized else status n l'
    | Initialized _ m _ out :: l' => if str_eqb n m then Some (after_initialize out) else status n l'
    | Stopped _ m _ out :: l' => if str_eqb n m then Some (after_shutdown out) else status n l'
    | Removed _ m :: l' => if str_eqb n m then None else status n l'
    | _ :: l' => status n l'
    end.
  (* the last command with an identifier in a list *)
  Definition last_named (id : str) (l : list command) : option command := find (fun c => str_eqb id (cmd_id c)) (rev l).
  (* who runs a command: the last to announce it, until it is unloaded *)
  Fixpoint offered (id : str) (l : list event) : option (str * command) :=
    match l with
    | [] => None
    | Initialized _ m _ (Some (x, Good)) :: l' => match last_named id (x_commands K x) with Some c => Some (m, c) | None => offered id l' end
    | Removed _ m :: l' => match offered id l' with Some (o, c) => if str_eqb o m then None else Some (o, c) | None => None end
    | _ :: l' => offered id l'
    end.
  Definition owner (id : str) (l : list event) : option str := option_map fst (offered id l).
  Fixpoint setting (k : str) (l : list event) : option str :=
    match l with
    | [] => None
    | ConfigPut _ k' v :: l' => if str_eqb k k' then Some v else setting k l'
    | _ :: l' => setting k l'
    end.
  Fixpoint note (n k : str) (l : list event) : option str :=
    match l with
    | [] => None
    | DataPut _ m k' v :: l' => if str_eqb n m && str_eqb k k' then Some v else note n k l'
    | Removed _ m :: l' => if str_eqb n m then None else note n k l'
    | _ :: l' => note n k l'
    end.

  (* the last event of a thread *)
  Definition actor (e : event) : nat :=
    match e with
    | Checked t _ _ | Inserted t _ _ | Initialized t _ _ _ | Stopped t _ _ _ | Removed t _ | Found t _ _ _ _ | Executed t _ _ _ _ _ | ConfigPut t _ _ | DataPut t _ _ _ => t
    end.
  Fixpoint latest (t : nat) (l : list event) : option event :=
    match l with [] => None | e :: l' => if Nat.eqb t (actor e) then Some e else latest t l' end.
  (* a call that is between its two halves *)
  Definition open_after (e : option event) (p : pending) : Prop :=
    match e, p with
    | Some (Checked _ x true), ToInsert y => x = y
    | Some (Stopped _ n _ out), ToRemove m => n = m /\ (forall x e, out = Some (x, e) -> e = Good)
    | Some (Found _ id args c (Some o)), ToRun n id' args' c' => id = id' /\ args = args' /\ c = c' /\ o = n
    | _, _ => False
    end.
  Definition closed_after (e : option event) : Prop :=
    match e with
    | Some (Checked _ _ true) => False
    | Some (Stopped _ _ _ None) | Some (Stopped _ _ _ (Some (_, Good))) => False
    | Some (Found _ _ _ _ (Some _)) => False
    | _ => True
    end.

  (* what each event may say, given what came before *)
  Definition right_method {R} (n : str) (l : list event) (c : context) (p : X -> script (X * R)) (out : option (X * R)) : Prop :=
    match object n l with
    | None => out = None
    | Some x => exists r, out = Some r /\ method c (p x) r
    end.
  Definition right (e : event) (l : list event) : Prop :=
    match e with
    | Checked _ x ok => ok = true <-> forall d, In d (x_dependencies K x) -> status d l <> None
    | Inserted t x ok => open_after (latest t l) (ToInsert x) /\ (ok = true <-> object (x_name K x) l = None)
    | Initialized t n c out => right_method n l c (x_initialize K) out
    | Stopped t n c out => right_method n l c (x_shutdown K) out
    | Removed t n => open_after (latest t l) (ToRemove n)
    | Found t id _ _ o => o = owner id l
    | Executed t n id args c out => open_after (latest t l) (ToRun n id args c) /\ right_method n l c (fun x => x_execute K x id args) out
    | ConfigPut _ _ _ | DataPut _ _ _ _ => True
    end.
  (* a call starts only when the thread's last one is over *)
  Definition starts (e : event) : bool := match e with Inserted _ _ _ | Removed _ _ | Executed _ _ _ _ _ _ => false | _ => true end.
  Fixpoint lawful (l : list event) : Prop :=
    match l with [] => True | e :: l' => right e l' /\ (starts e = true -> closed_after (latest (actor e) l')) /\ lawful l' end.
End Spec.

(* a method that makes no call needing the manager *)
Definition needs_manager (c : call) : Prop := match c with GetConfig _ | SetConfig _ _ | GetData _ _ | SetData _ _ => True | _ => False end.
Inductive undemanding {R} : script R -> Prop :=
| und_end r : undemanding (Return r)
| und_call c k : ~ needs_manager c -> undemanding (k None) -> undemanding (Ask c k).

(* the event a move leaves behind *)
Definition tells {X V} (t : nat) (a : move) (e : @event X V) : Prop :=
  actor e = t /\
  match a, e with
  | Begin (Load x), Checked _ y _ => x = y
  | Begin (Initialize n c), Initialized _ m d _ | Begin (Unload n c), Stopped _ m d _ => n = m /\ c = d
  | Begin (Execute id args c), Found _ id' args' c' _ => id = id' /\ args = args' /\ c = c'
  | Begin (PutConfig k v), ConfigPut _ k' v' => k = k' /\ v = v'
  | Begin (PutData n k v), DataPut _ m k' v' => n = m /\ k = k' /\ v = v'
  | GoOn, Inserted _ _ _ | GoOn, Removed _ _ | GoOn, Executed _ _ _ _ _ _ => True
  | _, _ => False
  end.
(* a call of a method that never returns *)
Definition endless {X R} (o : option X) (c : context) (p : X -> script (X * R)) : Prop := exists x, o = Some x /\ forall r, ~ method c (p x) r.
