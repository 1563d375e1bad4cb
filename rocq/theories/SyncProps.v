(* Documents shared between threads: any programs, any schedule, any edits. *)
From Verif Require Import Base SyncModel SyncSpec SyncProofs.

(* C159: the document is what the edits so far, in their order, made of it; the
   guards are those taken and not yet given back; every event was allowed by
   what came before it, and each thread's events answer its program in order. *)
Theorem shared_history D (d : D) ps sched g : run (start d ps) sched = Some g ->
  doc (now g) = value d (past g) /\ writer (now g) = holder d (past g) /\ (forall t, readers (now g) t = reads t (past g)) /\ poisoned (now g) = broken d (past g) /\
  lawful d (past g) /\ forall t, exists p, ps t = p ++ programs g t /\ answers d t p (past g).
Proof.
  intros R. destruct (reached_good d ps sched g R) as (M & L & P & _). destruct M. auto 8.
Qed.
(* The next step of a thread: exactly what is allowed; it waits when nothing is. *)
Theorem shared_moves D (d : D) ps sched g t o p : run (start d ps) sched = Some g -> programs g t = o :: p ->
  (forall e, allowed d t (past g) o e <-> exists g', move t g = Some g' /\ past g' = e :: past g) /\
  (forall g', move t g = Some g' -> (forall u, u <> t -> programs g' u = programs g u) /\ programs g' t = match past g' with GotCommand _ :: _ => o :: p | _ => p end).
Proof.
  intros R P. destruct (reached_good d ps sched g R) as (M & _). split.
  - intros e. split.
    + intros A. destruct (step_complete d t o (now g) (past g) e M A) as [s E]. unfold move. rewrite P, E. eexists. split; reflexivity.
    + intros (g' & E & Q). apply move_inv in E. destruct E as (o' & p' & s & e' & P' & E & ->). rewrite P in P'. injection P' as <- <-. cbn [past] in Q. injection Q as ->. now apply (step_sound d t o (now g) (past g) s e M).
  - intros g' E. apply move_inv in E. destruct E as (o' & p' & s & e' & P' & E & ->). rewrite P in P'. injection P' as <- <-. cbn [programs past]. unfold set_program. split.
    + intros u N. destruct (Nat.eqb_spec u t); [contradiction|reflexivity].
    + rewrite Nat.eqb_refl. now destruct e'.
Qed.

(* C160: whoever reads sees the document of finished edits only. *)
Theorem reads_finished_edits D (d : D) ps sched g l2 t v l1 : run (start d ps) sched = Some g -> past g = l2 ++ Saw t v :: l1 ->
  v = value d l1 /\ (holder d l1 <> Some t -> v = settled d l1 /\ broken d l1 = false).
Proof.
  intros R E. destruct (reached_good d ps sched g R) as (_ & L & _). rewrite E in L. apply lawful_app in L. now apply seen.
Qed.
(* while a thread has a read guard nothing changes *)
Theorem read_guard_stable D (d : D) ps sched g l2 t l1 : run (start d ps) sched = Some g -> past g = l2 ++ l1 -> 0 < reads t l1 ->
  (forall e, In e l2 -> e <> GaveRead t /\ e <> Unwound t) -> value d (l2 ++ l1) = value d l1.
Proof.
  intros R E H N. destruct (reached_good d ps sched g R) as (_ & L & _). rewrite E in L. now apply (reader_stable d t l2 l1).
Qed.
(* while a thread has the write guard no other sees or changes the document *)
Theorem write_guard_alone D (d : D) ps sched g l2 e t l1 : run (start d ps) sched = Some g -> past g = l2 ++ e :: l1 -> holder d l1 = Some t -> who e <> t ->
  value d (e :: l1) = value d l1 /\ holder d (e :: l1) = Some t /\ (forall u v, e <> Saw u v) /\ forall u, reads u l1 = 0.
Proof.
  intros R E H N. destruct (reached_good d ps sched g R) as (_ & L & _). rewrite E in L. apply lawful_app in L.
  destruct (writer_alone d t e l1 L H N) as (A & B & C). split; [exact A|]. split; [exact B|]. split; [exact C|]. apply (c_excl d l1 (lawful_calm d l1 (proj2 L)) t H).
Qed.
(* after an edit left half way, no thread sees or changes the document any more *)
Theorem broken_stays D (d : D) ps sched g l2 l1 : run (start d ps) sched = Some g -> past g = l2 ++ l1 -> broken d l1 = true ->
  value d (past g) = value d l1 /\ settled d (past g) = settled d l1 /\
  forall e, In e l2 -> (forall t v, e <> Saw t v) /\ (forall t, e <> GotRead t true) /\ (forall t, e <> GotWrite t true).
Proof.
  intros R E B. destruct (reached_good d ps sched g R) as (_ & L & _). rewrite E in L |- *. now destruct (broken_forever d l2 l1 L B) as (_ & V & S & N).
Qed.

(* C161: threads that take one guard at a time and give it back never wait for
   each other in a circle: every run can be continued to its end, and no run is
   longer than two steps an operation. *)
Theorem tidy_progress D (d : D) ps sched g : (forall t, tidy None (ps t)) -> run (start d ps) sched = Some g -> (exists t, programs g t <> []) -> exists t g', move t g = Some g'.
Proof.
  intros T R. apply (progress d ps); [now apply (reached_good d ps sched)|]. apply (run_neat d ps sched (start d ps)); [apply start_good|now apply start_neat|exact R].
Qed.
Theorem tidy_finishes D (d : D) ps n sched g : (forall t, tidy None (ps t)) -> (forall t, n <= t -> ps t = []) -> run (start d ps) sched = Some g ->
  List.length sched <= 2 * list_sum (map (fun t => List.length (ps t)) (seq 0 n)) + 1 /\
  exists more g', run (start d ps) (sched ++ more) = Some g' /\ forall t, programs g' t = [].
Proof.
  intros T F R. pose proof (start_good d ps) as G0. destruct (run_less d ps n sched (start d ps) g G0 F R) as [B F'].
  split; [unfold left_over, total in B; cbn [start programs past commanding] in B; lia|].
  destruct (finishes d ps n (left_over n g) g (reached_good d ps sched g R) ltac:(apply (run_neat d ps sched (start d ps)); [exact G0|now apply start_neat|exact R]) F' (Nat.le_refl _)) as (more & g' & R' & E).
  exists more, g'. split; [|exact E]. now rewrite run_app, R.
Qed.
(* A call for the document under one's own guard never returns. *)
Theorem own_guard_hangs D (d : D) ps sched g t o p more g' : run (start d ps) sched = Some g -> programs g t = o :: p ->
  match o with
  | TakeRead | WithRead => holder d (past g) = Some t
  | TakeWrite | WithWrite _ | Execute _ => holder d (past g) = Some t \/ 0 < reads t (past g)
  | _ => False
  end -> run g more = Some g' -> programs g' t = o :: p.
Proof. intros R P W. apply (hangs d ps t o p more g g' (reached_good d ps sched g R) P). now destruct o. Qed.
(* without the discipline all threads can end up waiting *)
Theorem any_progress_refuted : ~ (forall (d : nat) ps sched g, run (start d ps) sched = Some g -> (exists t, programs g t <> []) -> exists t g', move t g = Some g').
Proof.
  intros H. pose (ps := fun t : nat => match t with 0 | 1 => [TakeRead; Execute (fun d : nat => (S d, Good)); DropRead] | _ => [] end).
  destruct (run (start 5 ps) [0; 1; 0]) as [g|] eqn:E; [|vm_compute in E; discriminate E].
  destruct (H 5 ps [0; 1; 0] g E) as (t & g' & M); [exists 0; vm_compute in E; injection E as <-; discriminate|].
  vm_compute in E. injection E as <-. destruct t as [|[|t]]; vm_compute in M; discriminate M.
Qed.

(* C162: the pool *)
Theorem pool_exact l id : get_document id (pool_run l) = last_added id (rev l) /\ (In id (list_documents (pool_run l)) <-> last_added id (rev l) <> None) /\
  NoDup (list_documents (pool_run l)) /\ document_count (pool_run l) = List.length (list_documents (pool_run l)).
Proof.
  destruct (pool_run_exact l) as [H N]. split; [apply H|]. split; [rewrite <- H; apply PluginProofs.in_keys|]. split; [exact N|]. unfold document_count, list_documents, PluginModel.hm_keys. now rewrite map_length.
Qed.
(* every document added is in the pool until it is removed: not when two have
   the same identifier, which is the clock reading at their creation
   (document/constructors.rs:169-187) *)
Theorem pool_keeps_all_refuted : ~ (forall l id h, In (Add id h) l -> (forall c, In c l -> c <> Remove id) -> exists i, get_document i (pool_run l) = Some h).
Proof.
  intros H. destruct (H [Add (lit "doc_1") 0; Add (lit "doc_1") 1] (lit "doc_1") 0) as [i Q]; [now left|intros c [<-|[<-|[]]]; discriminate|].
  destruct (pool_exact [Add (lit "doc_1") 0; Add (lit "doc_1") 1] i) as [E _]. rewrite E in Q. cbn [rev app last_added] in Q. destruct (str_eqb (lit "doc_1") i); discriminate Q.
Qed.

(* a writer with two edits, a reader with two looks, a command that panics *)
Definition demo : nat -> list (op nat) := fun t =>
  match t with
  | 0 => [TakeWrite; Change (fun d => (d + 1, Good)); Look; Change (fun d => (d * 10, Bad)); DropWrite; WithRead]
  | 1 => [TakeRead; Look; Look; DropRead; TryWrite; Change (fun d => (0, Good)); DropWrite]
  | 2 => [Execute (fun d => (d + 7, Panicked)); WithRead; Execute (fun d => (d, Good))]
  | _ => []
  end.
Example demo_tidy : forall t, tidy None (demo t).
Proof. intros [|[|[|t]]]; cbn; exact eq_refl. Qed.
Example demo_run : exists g, run (start 4 demo) [2; 0; 0; 0; 0; 0; 1; 1; 0; 1; 1; 2; 2; 1; 1; 1; 2] = Some g /\
  doc (now g) = 57 /\ (forall t, programs g t = []) /\ broken 4 (past g) = true /\ settled 4 (past g) = 50 /\
  firstn 6 (past g) = [Refused 2; Skipped 1; Skipped 1; Refused 1; Refused 2; nth 5 (past g) (Refused 9)] /\
  map (fun e => match e with Saw t v => Some (t, v) | _ => None end) (rev (past g)) = [None; None; None; Some (0, 5); None; None; None; Some (1, 50); Some (0, 50); Some (1, 50); None; None; None; None; None; None; None].
Proof. eexists. split; [vm_compute; reflexivity|]. split; [reflexivity|]. split; [intros [|[|[|t]]]; reflexivity|]. vm_compute. auto. Qed.
Example pool_run_case : get_document (lit "a") (pool_run [Add (lit "a") 1; Add (lit "b") 2; Add (lit "a") 3; Remove (lit "b")]) = Some 3 /\
  document_count (pool_run [Add (lit "a") 1; Add (lit "b") 2; Add (lit "a") 3; Remove (lit "b")]) = 1.
Proof. split; reflexivity. Qed.

Print Assumptions shared_history.
Print Assumptions shared_moves.
Print Assumptions reads_finished_edits.
Print Assumptions read_guard_stable.
Print Assumptions write_guard_alone.
Print Assumptions broken_stays.
Print Assumptions tidy_progress.
Print Assumptions tidy_finishes.
Print Assumptions own_guard_hangs.
Print Assumptions any_progress_refuted.
Print Assumptions pool_exact.
Print Assumptions pool_keeps_all_refuted.
