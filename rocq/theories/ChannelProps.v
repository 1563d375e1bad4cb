(* C50: the event channel. *)
From Coq Require Import Sorting.Sorted Sorting.Permutation.
From Verif Require Import Base BaseLemmas SortLib ChannelModel ChannelSpec ChannelProofs.

Definition past_of (ops : list op) (m q : nat) (mt : bool) : list (op * reply) := rev (combine ops (snd (chan_run (new_channel m q mt) ops))).
Definition after (ops : list op) (m q : nat) (mt : bool) : channel := fst (chan_run (new_channel m q mt) ops).

(* Whatever was called before, the channel holds exactly the handlers
   registered and not removed, highest priority first and older first among
   equals, never more than allowed, and no two share an id. *)
Theorem channel_order ops m q mt :
  ranked (live (past_of ops m q mt)) (map (fun h => (h_id h, h_handler h)) (handlers (after ops m q mt))) /\
  List.length (live (past_of ops m q mt)) <= m /\
  handlers_count (after ops m q mt) = List.length (live (past_of ops m q mt)) /\
  NoDup (map fst (live (past_of ops m q mt))).
Proof.
  unfold past_of, after. pose proof (chan_run_ok ops [] (new_channel m q mt) (new_chan_ok m q mt)) as K. rewrite app_nil_r in K.
  destruct (c_ranked _ _ K) as [P S]. pose proof (Permutation_length P) as L. rewrite map_length in L.
  split; [exact (conj P S)|]. split; [rewrite L; pose proof (c_limit _ _ K) as Q; rewrite max_kept in Q; exact Q|].
  split; [rewrite L; apply K|]. apply (distinct_ids _ _ (c_sorted _ _ K)). reflexivity.
Qed.
(* What registering and removing answer while the lock is sound: an id that
   was never used, unless the channel is full; true exactly for the live ids;
   removal never panics. *)
Theorem channel_replies ops m q mt : poisoned (after ops m q mt) = false ->
  (forall h, snd (chan_step (after ops m q mt) (Register h)) = if List.length (live (past_of ops m q mt)) <? m then Registered (next_handler_id (after ops m q mt)) else Failed) /\
  (forall x, In x (live (past_of ops m q mt)) -> fst x < next_handler_id (after ops m q mt)) /\
  (forall id, snd (chan_step (after ops m q mt) (Unregister id)) = Removed (existsb (fun x => fst x =? id) (live (past_of ops m q mt)))).
Proof.
  intros NP. pose proof (chan_run_ok ops [] (new_channel m q mt) (new_chan_ok m q mt)) as K. rewrite app_nil_r in K. fold (past_of ops m q mt) (after ops m q mt) in K.
  destruct (channel_order ops m q mt) as ((P & _) & LM & CN & _).
  pose proof (max_kept ops (new_channel m q mt)) as MX. cbn [max_handlers new_channel] in MX. fold (after ops m q mt) in MX.
  pose proof (Permutation_length P) as L. rewrite map_length in L.
  split; [|split; [apply K|]].
  - intros h. cbn [chan_step]. unfold register_handler. rewrite NP, MX, L. rewrite Nat.ltb_antisym. destruct (m <=? _); reflexivity.
  - intros id. cbn [chan_step]. unfold unregister_handler. rewrite NP.
    assert (E : existsb (fun h => h_id h =? id) (handlers (after ops m q mt)) = existsb (fun x => fst x =? id) (live (past_of ops m q mt))).
    { apply Bool.eq_iff_eq_true. rewrite !existsb_exists. split; intros (x & Hx & E).
      - exists (h_id x, h_handler x). split; [|exact E]. eapply Permutation_in; [symmetry; exact P|]. apply in_map_iff. now exists x.
      - eapply Permutation_in in Hx; [|exact P]. apply in_map_iff in Hx as (y & <- & Hy). now exists y. }
    rewrite E. destruct (existsb _ (live _)) eqn:X; [|reflexivity].
    destruct (handlers_count (after ops m q mt)) eqn:Z; [|reflexivity]. exfalso. destruct (live (past_of ops m q mt)); [discriminate X|]. cbn in CN. lia.
Qed.
(* One dispatch, in any state: the handlers are gone through in rank order;
   those up to the first one that fails are given the event when they want it
   and left alone otherwise, and those after it are left alone. *)
Theorem channel_dispatch c e : poisoned c = false -> exists a b a',
  handlers c = a ++ b /\
  Forall2 (fun h h' => h_id h' = h_id h /\ h_handler h' = h_handler h /\
    ((wants (eh_filter (h_handler h)) e /\ eh_handle (h_handler h) (h_given h) e = HOk /\ h_given h' = h_given h ++ [e]) \/
     (~ wants (eh_filter (h_handler h)) e /\ h_given h' = h_given h))) a a' /\
  match snd (dispatch e c) with
  | Ok_ => b = [] /\ handlers (fst (dispatch e c)) = a'
  | r => exists h rest h', b = h :: rest /\ wants (eh_filter (h_handler h)) e /\
      r = match eh_handle (h_handler h) (h_given h) e with HPanic => Panicked | _ => Failed end /\ eh_handle (h_handler h) (h_given h) e <> HOk /\
      h_given h' = h_given h ++ [e] /\ handlers (fst (dispatch e c)) = a' ++ h' :: rest
  end.
Proof.
  intros NP. unfold dispatch. rewrite NP. pose proof (offer_spec e (handlers c)) as O. pose proof (offer_entries e (handlers c)) as OE. destruct (offer e (handlers c)) as [[l' n] o].
  destruct O as (a & b & E & T & F). exists a, b, (firstn (List.length a) l'). split; [exact E|].
  assert (F' : Forall2 (fun h h' => h_id h' = h_id h /\ h_handler h' = h_handler h /\
    ((wants (eh_filter (h_handler h)) e /\ eh_handle (h_handler h) (h_given h) e = HOk /\ h_given h' = h_given h ++ [e]) \/
     (~ wants (eh_filter (h_handler h)) e /\ h_given h' = h_given h))) a (firstn (List.length a) l')).
  { clear -F. revert F. generalize (firstn (List.length a) l'). intros r F. induction F as [|h h' a r [X Y] F IH]; constructor; [|exact IH].
    unfold entry_of in X. injection X as -> ->. split; [reflexivity|]. split; [reflexivity|]. rewrite <- matches_spec. destruct (matches _ e); [left; split; [reflexivity|split; apply Y]|right; split; [discriminate|now subst]]. }
  split; [exact F'|].
  cbn [fst] in OE. apply (f_equal (@List.length _)) in OE. rewrite !map_length in OE.
  destruct o; cbn [fst snd handlers put].
  - destruct T as [-> _]. split; [reflexivity|]. symmetry. apply firstn_all2. rewrite OE, E, app_nil_r. lia.
  - destruct T as (h & r & -> & T1 & T2 & T3). exists h, r, (HandlerInfo (h_id h) (h_handler h) (h_processed h) (h_given h ++ [e])).
    rewrite T2, <- matches_spec. repeat split; [exact T1|discriminate|exact T3].
  - destruct T as (h & r & -> & T1 & T2 & T3). exists h, r, (HandlerInfo (h_id h) (h_handler h) (h_processed h) (h_given h ++ [e])).
    rewrite T2, <- matches_spec. repeat split; [exact T1|discriminate|exact T3].
Qed.
(* When no registered handler ever fails, every dispatch succeeds and every
   live handler has been given exactly the events dispatched since it was
   registered that it wants, each once and in order. *)
Theorem channel_exactly_once ops m q mt : reliable ops ->
  (forall e a, In (Dispatch e, a) (past_of ops m q mt) -> a = Ok_) /\
  forall id h, In (id, h) (live (past_of ops m q mt)) ->
    exists i keep, In i (handlers (after ops m q mt)) /\ h_id i = id /\ h_handler i = h /\
      (forall e, keep e = true <-> wants (eh_filter h) e) /\ h_given i = filter keep (due id (past_of ops m q mt)).
Proof.
  intros R. assert (K0 : calm [] (new_channel m q mt)) by (split; [apply new_chan_ok|reflexivity|intros h []|intros h []]).
  destruct (calm_run ops [] _ K0 R) as [K D]. rewrite app_nil_r in K. fold (past_of ops m q mt) (after ops m q mt) in K. split.
  - intros e a H. apply (D e). unfold past_of in H. now apply in_rev.
  - intros id h H. destruct (c_ranked _ _ (k_ok _ _ K)) as [P _]. eapply Permutation_in in H; [|exact P]. apply in_map_iff in H as (i & E & Hi).
    injection E as <- <-. exists i, (matches (eh_filter (h_handler i))). split; [exact Hi|]. split; [reflexivity|]. split; [reflexivity|]. split; [intros e; apply matches_spec|].
    now apply (k_due _ _ K).
Qed.
(* A batch is the dispatches in order, up to the first that does not succeed. *)
Theorem channel_batch l c : 
  exists done, (exists rest, l = done ++ rest /\ match snd (dispatch_batch l c) with Ok_ => rest = [] | _ => rest <> [] /\
     (forall e r, rest = e :: r -> dispatch_batch l c = dispatch e (fst (dispatch_batch done c))) end) /\
  fst (dispatch_batch done c) = fst (chan_run c (map Dispatch done)) /\ snd (chan_run c (map Dispatch done)) = map (fun _ => Ok_) done.
Proof.
  revert c. induction l as [|e l IH]; intros c; [exists []; repeat split; exists []; repeat split|].
  cbn [dispatch_batch]. destruct (dispatch e c) as [c1 r] eqn:D.
  assert (X : r = Ok_ \/ (r = Failed \/ r = Panicked)).
  { unfold dispatch in D. destruct (poisoned c); [injection D as _ <-; auto|]. destruct (offer e (handlers c)) as [[? ?] [| |]]; injection D as _ <-; auto. }
  destruct X as [->|X].
  - destruct (IH c1) as (done & (rest & -> & T) & F & A). exists (e :: done). split; [|cbn [dispatch_batch map chan_run chan_step]; rewrite D; destruct (chan_run c1 (map Dispatch done)); cbn [fst snd] in *; split; [exact F|now rewrite A]].
    exists rest. split; [reflexivity|]. cbn [dispatch_batch]. rewrite D. exact T.
  - exists []. split; [|split; reflexivity]. exists (e :: l). split; [reflexivity|].
    destruct X as [-> | ->]; cbn [snd]; (split; [discriminate|intros e0 r0 [= <- _]; cbn [dispatch_batch fst]; now rewrite D]).
Qed.

Definition any : filter_of_events := EventFilter [] [] None None.
Definition good : event_handler := Handler any 0 (fun _ _ => HOk).
Definition bad (o : handled) : event_handler := Handler any 5 (fun _ _ => o).
Definition typed (x : event) : bool := match x with TextInserted _ => true | _ => false end.
(* A failing handler keeps the event from every handler after it. *)
Theorem channel_starves_refuted : exists ops e, let c := after ops 10 10 false in
  snd (chan_step c (Dispatch e)) = Failed /\
  exists h, In h (handlers (fst (chan_step c (Dispatch e)))) /\ wants (eh_filter (h_handler h)) e /\ h_given h = [].
Proof.
  exists [Register good; Register (bad HErr)], (TextInserted (lit "a")). cbn zeta. split; [vm_compute; reflexivity|].
  exists (HandlerInfo 0 good 0 []). split; [vm_compute; auto|]. split; [|reflexivity]. apply matches_spec. vm_compute. reflexivity.
Qed.
(* After one handler panics under the feature multi-thread, every later call
   on the handlers fails, whatever it is. *)
Theorem channel_poisoned_refuted : exists ops e, forall more,
  let c := after (ops ++ [Dispatch e]) 10 10 true in
  forall o a, In (o, a) (combine more (snd (chan_run c more))) ->
    match o with Register _ | Unregister _ | ClearHandlers | Dispatch _ => a = Failed | _ => True end.
Proof.
  exists [Register good; Register (bad HPanic)], (TextInserted (lit "a")). intros more c. apply poisoned_stays. vm_compute. reflexivity.
Qed.
(* A custom event passes a filter for a built-in type when it has its name. *)
Theorem channel_custom_refuted : exists f e, include_types f = [lit "TextInserted"] /\ wants f e /\ typed e = false.
Proof.
  exists (EventFilter [lit "TextInserted"] [] None None), (CustomEvent (lit "TextInserted") []). split; [reflexivity|]. split; [|reflexivity].
  apply matches_spec. vm_compute. reflexivity.
Qed.
(* Asynchronous events are received once each, in the order they were sent,
   and sending fails exactly where there is no receiver. *)
Lemma queue_step past c o : (listening c = receiver past /\ (receiver past = true -> queue c = Some (waiting past))) ->
  listening (fst (chan_step c o)) = receiver ((o, snd (chan_step c o)) :: past) /\
  (receiver ((o, snd (chan_step c o)) :: past) = true -> queue (fst (chan_step c o)) = Some (waiting ((o, snd (chan_step c o)) :: past))).
Proof.
  intros [L Q]. destruct o as [h|id| |e| |e| |]; cbn [chan_step].
  - unfold register_handler. destruct (poisoned c); [|destruct (_ <=? _)]; cbn [fst snd put listening queue receiver waiting]; auto.
  - unfold unregister_handler. destruct (poisoned c); [|destruct (existsb _ _); [destruct (handlers_count c)|]]; cbn [fst snd put listening queue receiver waiting]; auto.
  - unfold clear_handlers. destruct (poisoned c); cbn [fst snd put listening queue receiver waiting]; auto.
  - unfold dispatch. destruct (poisoned c); [|destruct (offer e (handlers c)) as [[hs n] [| |]]]; cbn [fst snd put listening queue receiver waiting]; auto.
  - cbn [fst snd setup_async with_queue listening queue receiver waiting]. auto.
  - unfold dispatch_async. destruct (listening c) eqn:E.
    + rewrite Q by congruence. cbn [fst snd with_queue listening queue receiver waiting]. split; congruence.
    + destruct (queue c); cbn [fst snd receiver waiting]; (split; [congruence|intros H; rewrite <- L in H; discriminate H]).
  - unfold receive. destruct (listening c) eqn:E.
    + rewrite Q by congruence. destruct (waiting past) as [|x w] eqn:W; cbn [fst snd with_queue listening queue receiver waiting]; [split; [congruence|rewrite W; exact Q]|]. split; [congruence|]. now rewrite W.
    + destruct (queue c) as [[|x w]|]; cbn [fst snd receiver waiting]; (split; [congruence|intros H; rewrite <- L in H; discriminate H]).
  - cbn [fst snd with_queue listening receiver]. split; [reflexivity|discriminate].
Qed.
Lemma queue_run : forall ops past c, (listening c = receiver past /\ (receiver past = true -> queue c = Some (waiting past))) ->
  let p := rev (combine ops (snd (chan_run c ops))) ++ past in listening (fst (chan_run c ops)) = receiver p /\ (receiver p = true -> queue (fst (chan_run c ops)) = Some (waiting p)).
Proof.
  intros ops. induction ops as [|o ops IH]; intros past c K; cbn [chan_run]; [exact K|]. pose proof (queue_step past c o K) as K1. destruct (chan_step c o) as [c1 a]. cbn [fst snd] in K1. specialize (IH ((o, a) :: past) c1 K1). cbv zeta in *. destruct (chan_run c1 ops) as [c2 out]. cbn [fst snd combine rev] in *. rewrite <- app_assoc. exact IH.
Qed.
Theorem channel_async ops m q mt : let past := past_of ops m q mt in
  snd (chan_step (after ops m q mt) Receive) = Received (if receiver past then hd_error (waiting past) else None) /\
  forall e, snd (chan_step (after ops m q mt) (DispatchAsync e)) = if receiver past then Ok_ else Failed.
Proof.
  cbv zeta. destruct (queue_run ops [] (new_channel m q mt)) as [L Q]; [split; [reflexivity|discriminate]|]. rewrite app_nil_r in L, Q. fold (past_of ops m q mt) in L, Q. fold (after ops m q mt) in L, Q. cbn [chan_step]. unfold receive, dispatch_async. rewrite L. destruct (receiver (past_of ops m q mt)).
  - rewrite (Q eq_refl). split; [|reflexivity]. now destruct (waiting (past_of ops m q mt)).
  - destruct (queue (after ops m q mt)) as [[|x w]|]; split; reflexivity.
Qed.
Print Assumptions channel_async.
Example channel_async_instance : let ops := [SetupAsync; DispatchAsync (DocumentSaved []); DispatchAsync (TextInserted (lit "a")); Receive] in
  let past := past_of ops 1 1 false in receiver past = true /\ waiting past = [TextInserted (lit "a")].
Proof. vm_compute. split; reflexivity. Qed.
(* The queue size limit is not kept: any number of events fit. *)
Theorem channel_queue_refuted n limit e mt : exists c,
  chan_run (new_channel 0 limit mt) (SetupAsync :: repeat (DispatchAsync e) n) = (c, Ok_ :: repeat Ok_ n) /\ queue c = Some (repeat e n).
Proof. exact (async_grows n mt limit e). Qed.

Example channel_instance :
  let low := Handler (EventFilter [lit "TextInserted"] [] None None) 0 (fun _ _ => HOk) in
  let high := Handler (EventFilter [] [lit "CursorMoved"] None None) 7 (fun _ _ => HOk) in
  let ops := [Register low; Register high; Register low; Dispatch (TextInserted (lit "a")); Dispatch (CursorMoved []); Unregister 0; Dispatch (DocumentSaved [])] in
  snd (chan_run (new_channel 3 4 true) ops) = [Registered 0; Registered 1; Registered 2; Ok_; Ok_; Removed true; Ok_] /\
  map h_id (handlers (after ops 3 4 true)) = [1; 2] /\
  map h_given (handlers (after ops 3 4 true)) = [[TextInserted (lit "a"); DocumentSaved []]; [TextInserted (lit "a")]] /\
  reliable ops.
Proof.
  cbn zeta. split; [vm_compute; reflexivity|]. split; [vm_compute; reflexivity|]. split; [vm_compute; reflexivity|].
  intros h H. cbn [In] in H. repeat (destruct H as [H|H]; [first [discriminate H|injection H as <-; reflexivity]|]). destruct H.
Qed.

Print Assumptions channel_order.
Print Assumptions channel_replies.
Print Assumptions channel_dispatch.
Print Assumptions channel_exactly_once.
Print Assumptions channel_batch.
Print Assumptions channel_starves_refuted.
Print Assumptions channel_poisoned_refuted.
Print Assumptions channel_custom_refuted.
Print Assumptions channel_queue_refuted.
