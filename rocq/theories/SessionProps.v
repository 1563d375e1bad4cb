(* The session manager: C49. *)
From Verif Require Import Base BaseLemmas PluginModel PluginProofs SessionModel SessionSpec SessionProofs.

(* The state after a history, and the history with its replies, last first. *)
Definition after {D} (c : session_config) (calls : list (call D)) : manager D := fst (run_calls (new_manager c) calls).
Definition past_of {D} (c : session_config) (calls : list (call D)) : list (call D * reply D) :=
  rev (combine calls (snd (run_calls (new_manager c) calls))).
Lemma after_knows {D} c (calls : list (call D)) : Forall fair calls -> knows_sessions c (past_of c calls) (after c calls).
Proof. intros F. destruct (run_right c calls [] (new_manager c) F (new_knows_sessions c)) as [_ K]. now rewrite app_nil_r in K. Qed.

(* Whatever the threads do, in whatever order, every reply is right (none is a
   panic): sessions are refused exactly when the limit is reached, ... *)
Theorem session_replies : forall D c (calls : list (call D)), Forall fair calls ->
  right_replies c [] calls (snd (run_calls (new_manager c) calls)).
Proof. intros D c calls F. exact (proj1 (run_right c calls [] (new_manager c) F (new_knows_sessions c))). Qed.
(* ... there are never more than allowed, and those listed are those that
   live, each once, ... *)
Theorem session_limit : forall D c (calls : list (call D)) names, Forall fair calls ->
  Permutation names (hm_keys (m_sessions (after c calls))) -> live (past_of c calls) names /\ List.length names <= max_sessions c.
Proof.
  intros D c calls names F P. pose proof (after_knows c calls F) as K. split; [split|].
  - eapply Permutation_NoDup; [symmetry; exact P|apply K].
  - intros id. rewrite <- (k_get _ _ _ K), <- in_keys. split; apply Permutation_in; [exact P|now symmetry].
  - rewrite (Permutation_length P). unfold hm_keys. rewrite map_length. apply K.
Qed.
(* ... a reader sees the document as the history left it, ... *)
Theorem session_read : forall D R c (calls : list (call D)) id (f : D -> R), Forall fair calls ->
  with_document id f (after c calls) = option_map (fun s => f (s_document s)) (session_of id (past_of c calls)).
Proof. intros D R c calls id f F. unfold with_document. rewrite (k_get _ _ _ (after_knows c calls F)). now destruct (session_of id _). Qed.
(* ... and the active session is the one made active last, and lives. *)
Theorem session_active : forall D c (calls : list (call D)), Forall fair calls ->
  m_active (after c calls) = active_of (past_of c calls) /\
  forall id, m_active (after c calls) = Some id -> session_of id (past_of c calls) <> None.
Proof.
  intros D c calls F. pose proof (after_knows c calls F) as K. split; [apply K|]. intros id H. rewrite <- (k_get _ _ _ K). now apply (k_alive _ _ _ K).
Qed.
(* A document that no one creates anew, edits, removes or drops stays. *)
Definition leaves {D} (id : str) (x : call D * reply D) : Prop :=
  match x with
  | (Create i _ _, Accepted true) => i <> id
  | (Remove i, Gave (Some _)) => i <> id
  | (Edit i _, Edited (Some _)) => i <> id
  | (CleanupNext _, Dropped i true) => i <> id
  | _ => True
  end.
Theorem session_kept : forall D id (recent past : list (call D * reply D)), Forall (leaves id) recent ->
  option_map s_document (session_of id (recent ++ past)) = option_map s_document (session_of id past).
Proof.
  intros D id recent past H. induction H as [|[x a] l Hx H IH]; cbn [app]; [reflexivity|]. rewrite <- IH. clear IH H.
  destruct x as [i d now|i now|i|i f|who now age sh|who], a as [[|]|[s|]|[[|]|]|ids|i' [|]|n| |]; cbn [session_of leaves] in *;
    try reflexivity; try (rewrite (proj2 (name_eqb_neq _ _) Hx); try reflexivity; now destruct (session_of id (l ++ past))).
  destruct (session_of id (l ++ past)); [|reflexivity]. cbn [option_map]. now destruct (str_eqb i id).
Qed.
(* Whatever the other threads do, a cleanup says how many sessions it dropped:
   those that were already gone do not count. *)
Lemma other_cleanup who w l : cleanup_of w (other_cleanups who l) = if who =? w then None else cleanup_of w l.
Proof.
  induction l as [|[x p] l IH]; cbn [other_cleanups filter cleanup_of]; [now destruct (who =? w)|]. fold (other_cleanups who l). cbn [fst]. destruct (x =? who) eqn:E; cbn [negb].
  - rewrite IH. apply Nat.eqb_eq in E. subst x. now destruct (who =? w).
  - cbn [cleanup_of]. rewrite IH. destruct (x =? w) eqn:F; [|reflexivity]. apply Nat.eqb_eq in F. subst x. now rewrite Nat.eqb_sym, E.
Qed.
Lemma counted_step {D} past (m : manager D) x : (forall w ids n, cleanup_of w (m_cleanups m) = Some (ids, n) -> n = dropped_by w past) ->
  forall w ids n, cleanup_of w (m_cleanups (fst (step m x))) = Some (ids, n) -> n = dropped_by w ((x, snd (step m x)) :: past).
Proof.
  intros K w ids n. destruct x as [i d now|i now|i|i f|who now age sh|who]; cbn [step].
  - unfold create_session. repeat match goal with |- context [if ?b then _ else _] => destruct b end; cbn [fst snd m_cleanups dropped_by]; apply K.
  - unfold switch_session. destruct (hm_get i (m_sessions m)); cbn [fst snd m_cleanups dropped_by]; apply K.
  - unfold remove_session. destruct (hm_get i (m_sessions m)); [destruct (m_count m)|]; cbn [fst snd m_cleanups dropped_by]; apply K.
  - unfold with_document_mut. destruct (hm_get i (m_sessions m)) as [s|]; [destruct (f (s_document s))|]; cbn [fst snd m_cleanups dropped_by]; apply K.
  - cbn [fst snd set_cleanups m_cleanups cleanup_of dropped_by]. rewrite other_cleanup. destruct (who =? w); [now intros [= _ <-]|apply K].
  - destruct (cleanup_of who (m_cleanups m)) as [[[|id l] k]|] eqn:E.
    + cbn [fst snd set_cleanups m_cleanups dropped_by]. rewrite other_cleanup. destruct (who =? w); [discriminate|apply K].
    + apply K in E. unfold remove_session. destruct (hm_get id (m_sessions m)) as [s|]; [destruct (m_count m) as [|c]|]; cbn [fst snd set_cleanups m_cleanups cleanup_of dropped_by]; [apply K| |];
        rewrite other_cleanup; (destruct (who =? w) eqn:F; [|apply K]); apply Nat.eqb_eq in F; subst w; intros [= _ <-]; lia.
    + cbn [fst snd dropped_by]. apply K.
Qed.
Lemma counted_run {D} : forall calls past (m : manager D), (forall w ids n, cleanup_of w (m_cleanups m) = Some (ids, n) -> n = dropped_by w past) ->
  forall w ids n, cleanup_of w (m_cleanups (fst (run_calls m calls))) = Some (ids, n) -> n = dropped_by w (rev (combine calls (snd (run_calls m calls))) ++ past).
Proof.
  intros calls. induction calls as [|x l IH]; intros past m K; cbn [run_calls]; [exact K|]. pose proof (counted_step past m x K) as K1. destruct (step m x) as [m1 a]. cbn [fst snd] in K1. specialize (IH ((x, a) :: past) m1 K1). destruct (run_calls m1 l) as [m2 out]. cbn [fst snd combine rev] in *. rewrite <- app_assoc. exact IH.
Qed.
Theorem cleanup_count : forall D c (calls : list (call D)) who n, snd (step (after c calls) (CleanupNext who)) = CleanedUp n -> n = dropped_by who (past_of c calls).
Proof.
  intros D c calls who n H. assert (K : forall w ids k, cleanup_of w (m_cleanups (after c calls)) = Some (ids, k) -> k = dropped_by w (past_of c calls)).
  { unfold past_of, after. rewrite <- (app_nil_r (rev _)). apply counted_run. cbn [new_manager m_cleanups cleanup_of]. discriminate. }
  cbn [step] in H. destruct (cleanup_of who _) as [[[|id l] k]|] eqn:E.
  - injection H as <-. exact (K _ _ _ E).
  - destruct (remove_session _ _) as [[?|] ?]; discriminate H.
  - discriminate H.
Qed.
Print Assumptions cleanup_count.
Example cleanup_count_instance : let c := SessionConfig 4 true in
  let calls := [Create (lit "a") 0 0; Create (lit "b") 0 0; CleanupBegin 1 9 5 (fun l => l); Remove (lit "a"); CleanupNext 1; CleanupNext 1] in
  snd (step (after c calls) (CleanupNext 1)) = CleanedUp 1 /\ dropped_by 1 (past_of c calls) = 1.
Proof. vm_compute. split; reflexivity. Qed.
(* A cleanup that no other thread disturbs removes the stale sessions, no
   others, and says how many. *)
Theorem cleanup_exact : forall D c (calls : list (call D)) who now age shuffle, Forall fair calls -> (forall l, Permutation l (shuffle l)) ->
  auto_cleanup c = true ->
  let m := after c calls in
  let ids := stale_ids now age shuffle m in
  exists m' out, run_calls m (CleanupBegin who now age shuffle :: repeat (CleanupNext who) (S (List.length ids))) = (m', out ++ [CleanedUp (List.length ids)]) /\
    forall id, hm_get id (m_sessions m') =
      match hm_get id (m_sessions m) with Some s => if age <? now - s_accessed s then None else Some s | None => None end.
Proof.
  intros D c calls who now age shuffle F Hs Ha m ids. pose proof (after_knows c calls F) as K. fold m in K.
  assert (P : Permutation (map fst (filter (fun e => is_stale now age (snd e)) (m_sessions m))) ids).
  { unfold ids, stale_ids. rewrite (k_config _ _ _ K), Ha. apply Hs. }
  assert (I : forall id, In id ids <-> exists s, hm_get id (m_sessions m) = Some s /\ is_stale now age s = true).
  { intros id. transitivity (In id (map fst (filter (fun e => is_stale now age (snd e)) (m_sessions m)))).
    - split; apply Permutation_in; [now symmetry|exact P].
    - pose proof (k_keys _ _ _ K) as N. revert N. generalize (m_sessions m). intros l. induction l as [|[a v] l IH]; [intros _; cbn; split; [intros []|intros (s & Q & _); discriminate]|].
      unfold hm_keys. cbn [map fst filter snd hm_get]. intros N. inversion N as [|? ? N1 N2]; subst. specialize (IH N2).
      destruct (str_eqb id a) eqn:E.
      + apply str_eqb_eq in E. subst a. split.
        * intros Q. exists v. split; [reflexivity|]. destruct (is_stale now age v) eqn:S; [reflexivity|].
          exfalso. apply N1. apply in_map_iff in Q as ([i w] & Q1 & Q2). apply filter_In in Q2 as [Q2 _]. cbn [fst] in Q1. subst i. apply in_map_iff. now exists (id, w).
        * intros (s & [= <-] & S). rewrite S. now left.
      + apply name_eqb_neq in E. destruct (is_stale now age v); [|exact IH]. cbn [map fst In]. rewrite IH. split; [intros [Q|Q]; [congruence|exact Q]|auto]. }
  assert (ND : NoDup ids).
  { eapply Permutation_NoDup; [exact P|]. pose proof (k_keys _ _ _ K) as N. revert N. generalize (m_sessions m). intros l. induction l as [|[a v] l IH]; [constructor|].
    unfold hm_keys. cbn [map fst filter snd]. intros N. inversion N as [|? ? N1 N2]; subst. destruct (is_stale now age v); [|now apply IH].
    cbn [map fst]. constructor; [|now apply IH]. intros Q. apply N1. apply in_map_iff in Q as (e & Q1 & Q2). apply filter_In in Q2 as [Q2 _]. apply in_map_iff. now exists e. }
  change (run_calls m (CleanupBegin who now age shuffle :: repeat (CleanupNext who) (S (List.length ids))))
    with (let '(m2, out) := run_calls (set_cleanups m ((who, (ids, 0)) :: other_cleanups who (m_cleanups m))) (repeat (CleanupNext who) (S (List.length ids))) in (m2, Begun ids :: out)).
  destruct (cleanup_rest ids (set_cleanups m ((who, (ids, 0)) :: other_cleanups who (m_cleanups m))) who 0) as (m' & out & R & G).
  - cbn [set_cleanups m_cleanups cleanup_of]. now rewrite Nat.eqb_refl.
  - exact ND.
  - intros id Hid. apply I in Hid as (s & Q & _). cbn [set_cleanups m_sessions]. congruence.
  - cbn [set_cleanups m_sessions m_count]. apply K.
  - cbn [set_cleanups m_sessions]. apply K.
  - rewrite R. exists m', (Begun ids :: out). split; [reflexivity|]. intros id. rewrite G. cbn [set_cleanups m_sessions].
    destruct (existsb (str_eqb id) ids) eqn:E.
    + apply existsb_exists in E as (i & Hi & E). apply str_eqb_eq in E. subst i. apply I in Hi as (s & -> & S). unfold is_stale in S. now rewrite S.
    + destruct (hm_get id (m_sessions m)) as [s|] eqn:Q; [|reflexivity]. destruct (age <? now - s_accessed s) eqn:S; [|reflexivity].
      exfalso. rewrite <- Bool.not_true_iff_false in E. apply E. apply existsb_exists. exists id. split; [|apply str_eqb_refl]. apply I. eauto.
Qed.
Definition ex_config : session_config := SessionConfig 2 true.
Example session_instance :
  snd (run_calls (new_manager ex_config)
    [Create (lit "a") 1 0; Create (lit "b") 2 5; Create (lit "c") 3 6; Edit (lit "a") (fun n => (n + 10, true)); Switch (lit "b") 7;
     CleanupBegin 0 9 4 (fun l => l); CleanupNext 0; CleanupNext 0; Remove (lit "b")]) =
    [Accepted true; Accepted true; Accepted false; Edited (Some true); Accepted true; Begun [lit "a"]; Dropped (lit "a") true; CleanedUp 1; Gave (Some (Session 2 7 0))].
Proof. vm_compute. reflexivity. Qed.

(* "Never loses the text of a live session" is false in three ways.  A session
   created under a name in use replaces the other, ... *)
Theorem session_replaced_refuted : exists calls : list (call nat),
  calls = [Create (lit "a") 1 0; Create (lit "a") 2 1] /\ snd (run_calls (new_manager ex_config) calls) = [Accepted true; Accepted true] /\
  with_document (lit "a") (fun n => n) (after ex_config calls) = Some 2 /\
  (* ... and from then on the count of active sessions is wrong. *)
  m_count (after ex_config calls) = 2 /\ List.length (m_sessions (after ex_config calls)) = 1.
Proof. exists [Create (lit "a") 1 0; Create (lit "a") 2 1]. repeat split. Qed.
(* Editing does not count as access: a session edited just now is stale. *)
Theorem session_edited_stale_refuted : exists calls : list (call nat),
  calls = [Create (lit "a") 1 0; Edit (lit "a") (fun n => (n + 1, true)); CleanupBegin 0 100 50 (fun l => l); CleanupNext 0] /\
  with_document (lit "a") (fun n => n) (after ex_config calls) = None.
Proof. eexists. split; [reflexivity|]. reflexivity. Qed.
(* Two threads: a session found stale is removed although the other thread has
   made it the active one in the meantime. *)
Theorem session_race_refuted : exists calls : list (call nat),
  calls = [Create (lit "a") 1 0; Create (lit "b") 2 100; Switch (lit "b") 100; CleanupBegin 0 100 50 (fun l => l); Switch (lit "a") 100; CleanupNext 0] /\
  snd (run_calls (new_manager ex_config) calls) = [Accepted true; Accepted true; Accepted true; Begun [lit "a"]; Accepted true; Dropped (lit "a") true] /\
  with_document (lit "a") (fun n => n) (after ex_config calls) = None.
Proof. eexists. split; [reflexivity|]. split; reflexivity. Qed.
Print Assumptions session_replies. Print Assumptions session_limit. Print Assumptions session_read. Print Assumptions session_active.
Print Assumptions session_kept. Print Assumptions cleanup_exact.
