From Coq Require Import Sorting.Sorted Sorting.Permutation.
From Verif Require Import Base BaseLemmas SortLib ChannelModel ChannelSpec.

Definition entry_of (h : handler_info) : nat * event_handler := (h_id h, h_handler h).
Lemma matches_spec f e : matches f e = true <-> wants f e.
Proof.
  unfold matches, wants. assert (C : forall l s, contains l s = true <-> In s l).
  { intros l s. unfold contains. rewrite existsb_exists. split; [intros (x & H & E); apply str_eqb_eq in E; now subst|intros H; exists s; split; [exact H|apply str_eqb_refl]]. }
  destruct (contains (exclude_types f) (event_type_name e)) eqn:E1.
  { apply C in E1. split; [discriminate|]. intros [N _]. contradiction. }
  rewrite <- Bool.not_true_iff_false, C in E1.
  destruct (negb match include_types f with [] => true | _ => false end && negb (contains (include_types f) (event_type_name e))) eqn:E2.
  { apply andb_true_iff in E2 as [A B]. apply negb_true_iff in B. rewrite <- Bool.not_true_iff_false, C in B. split; [discriminate|].
    intros (_ & [H|H] & _); [rewrite H in A; discriminate|contradiction]. }
  assert (I : include_types f = [] \/ In (event_type_name e) (include_types f)).
  { apply andb_false_iff in E2 as [A|B]; [left; now destruct (include_types f)|right; apply C; now apply negb_false_iff]. }
  clear E2.
  destruct (include_modifications f) as [b|]; destruct (include_cursor_events f) as [b'|];
    repeat match goal with |- context [Bool.eqb ?x ?y] => destruct (Bool.eqb x y) eqn:?; cbn [negb] end;
    repeat match goal with H : Bool.eqb _ _ = true |- _ => apply Bool.eqb_prop in H | H : Bool.eqb _ _ = false |- _ => apply Bool.eqb_false_iff in H end;
    (split; [intros Q; try discriminate Q; (split; [exact E1|split; [exact I|split]]); intros ? [= <-]; assumption
            |intros (_ & _ & P1 & P2); try reflexivity;
             try specialize (P1 _ eq_refl); try specialize (P2 _ eq_refl); congruence]).
Qed.

Record chan_ok (past : list (op * reply)) (c : channel) : Prop := ChanOk {
  c_ranked : ranked (live past) (map entry_of (handlers c));
  c_ids : forall x, In x (live past) -> fst x < next_handler_id c;
  c_sorted : StronglySorted (fun a b => fst a < fst b) (live past);
  c_count : handlers_count c = List.length (handlers c);
  c_limit : List.length (handlers c) <= max_handlers c }.

Lemma sorted_app {A} (R : A -> A -> Prop) l x : StronglySorted R l -> Forall (fun y => R y x) l -> StronglySorted R (l ++ [x]).
Proof.
  intros S F. induction S as [|a l S IH H]; cbn [app]; [repeat constructor|]. inversion F; subst. constructor; [auto|].
  apply Forall_app. split; [exact H|]. now constructor.
Qed.
Lemma sorted_filter {A} (R : A -> A -> Prop) f l : StronglySorted R l -> StronglySorted R (filter f l).
Proof.
  intros S. induction S as [|a l S IH H]; cbn [filter]; [constructor|]. destruct (f a); [|exact IH]. constructor; [exact IH|].
  rewrite Forall_forall in *. intros x Q. apply filter_In in Q as [Q _]. auto.
Qed.
Lemma sorted_map {A B} (g : A -> B) (R : B -> B -> Prop) l : StronglySorted R (map g l) <-> StronglySorted (fun a b => R (g a) (g b)) l.
Proof.
  split.
  - induction l as [|a l IH]; cbn [map]; intros S; [constructor|]. apply StronglySorted_inv in S as [S F]. constructor; [auto|].
    rewrite Forall_forall in *. intros x Q. apply F. now apply in_map.
  - intros S. induction S as [|a l S IH H]; cbn [map]; constructor; [exact IH|]. rewrite Forall_forall in *. intros x Q. apply in_map_iff in Q as (y & <- & Q). auto.
Qed.
Lemma priority_total a b : by_priority a b = true \/ by_priority b a = true.
Proof. unfold by_priority. rewrite !Z.leb_le. lia. Qed.
Lemma priority_trans a b d : by_priority a b = true -> by_priority b d = true -> by_priority a d = true.
Proof. unfold by_priority. rewrite !Z.leb_le. lia. Qed.

Lemma insert_ranked l hs h id : ranked l (map entry_of hs) -> (forall x, In x l -> fst x < id) ->
  ranked (l ++ [(id, h)]) (map entry_of (stable_sort by_priority (hs ++ [HandlerInfo id h 0 []]))).
Proof.
  intros [P S] H. split.
  - rewrite P at 1. change [(id, h)] with (map entry_of [HandlerInfo id h 0 []]). rewrite <- map_app. apply Permutation_map, sort_perm.
  - apply sorted_map.
    assert (Q : StronglySorted (lex by_priority (fun a b => eh_priority (h_handler a) = eh_priority (h_handler b) -> h_id a < h_id b)) (stable_sort by_priority (hs ++ [HandlerInfo id h 0 []]))).
    { apply sort_lex; [exact priority_total|exact priority_trans|]. apply sorted_app.
      - apply (proj1 (sorted_map entry_of before hs)) in S. eapply StronglySorted_ind with (P := fun l => StronglySorted _ l); [constructor| |exact S].
        intros a l0 S0 IH F. constructor; [exact IH|]. rewrite Forall_forall in *. intros x Hx. destruct (F x Hx) as [L|[E L]]; cbn [entry_of fst snd] in *; [lia|auto].
      - rewrite Forall_forall. intros x Hx _. cbn [h_id]. apply (H (entry_of x)). eapply Permutation_in; [symmetry; exact P|]. now apply in_map. }
    revert Q. generalize (stable_sort by_priority (hs ++ [HandlerInfo id h 0 []])). intros r Q.
    induction Q as [|a r Q IH F]; constructor; [exact IH|]. rewrite Forall_forall in *. intros x Hx. destruct (F x Hx) as [L R]. unfold by_priority in *.
    unfold before, entry_of. cbn [fst snd]. rewrite Z.leb_le in L.
    destruct (Z.eq_dec (eh_priority (h_handler a)) (eh_priority (h_handler x))) as [E|N]; [right|left; lia].
    split; [exact E|]. apply R; [apply Z.leb_le; lia|exact E].
Qed.
Lemma remove_perm id : forall hs, StronglySorted (fun a b => fst a <> fst b) (map entry_of hs) ->
  map entry_of (remove_first id hs) = filter (fun x => negb (fst x =? id)) (map entry_of hs).
Proof.
  intros hs. induction hs as [|h hs IH]; intros S; [reflexivity|]. cbn [map remove_first filter entry_of fst]. apply StronglySorted_inv in S as [S F].
  destruct (Nat.eqb_spec (h_id h) id) as [E|N]; cbn [negb].
  - symmetry. assert (Q : forall x, In x (map entry_of hs) -> negb (fst x =? id) = true).
    { rewrite Forall_forall in F. intros x Hx. apply negb_true_iff, Nat.eqb_neq. specialize (F x Hx). cbn [entry_of fst] in F. congruence. }
    clear -Q. induction (map entry_of hs) as [|a l IH]; [reflexivity|]. cbn [filter]. rewrite (Q a (or_introl eq_refl)). f_equal. apply IH. intros x Hx. apply Q. now right.
  - cbn [map]. now rewrite IH.
Qed.
Lemma distinct_ids l r : StronglySorted (fun a b : nat * event_handler => fst a < fst b) l -> Permutation l r -> NoDup (map fst r).
Proof.
  intros S P. eapply Permutation_NoDup; [apply Permutation_map; exact P|]. clear P. induction S as [|a l S IH F]; cbn [map]; constructor; [|exact IH].
  intros Q. apply in_map_iff in Q as (x & E & Q). rewrite Forall_forall in F. specialize (F x Q). lia.
Qed.
Lemma nodup_apart l : NoDup (map fst l) -> StronglySorted (fun a b : nat * event_handler => fst a <> fst b) l.
Proof.
  induction l as [|a l IH]; cbn [map]; intros N; constructor; inversion N; subst; [auto|]. rewrite Forall_forall. intros x Q E. apply H1. rewrite E. now apply in_map.
Qed.
Lemma filter_perm {A} (f : A -> bool) l r : Permutation l r -> Permutation (filter f l) (filter f r).
Proof.
  intros P. induction P; cbn [filter]; [constructor|destruct (f x); auto|destruct (f x), (f y); try apply perm_swap; reflexivity|exact (perm_trans IHP1 IHP2)].
Qed.
Lemma offer_entries e : forall l, map entry_of (fst (fst (offer e l))) = map entry_of l.
Proof.
  intros l. induction l as [|h r IH]; [reflexivity|]. cbn [offer]. destruct (matches _ e).
  - destruct (eh_handle _ _ e); [|reflexivity|reflexivity]. destruct (offer e r) as [[r' n] o]. cbn [fst map] in *. now rewrite IH.
  - destruct (offer e r) as [[r' n] o]. cbn [fst map] in *. now rewrite IH.
Qed.

Lemma chan_step_ok past c o : chan_ok past c -> chan_ok ((o, snd (chan_step c o)) :: past) (fst (chan_step c o)).
Proof.
  intros K. destruct o as [h|id| |e| |e| |]; cbn [chan_step].
  - unfold register_handler. destruct (poisoned c); cbn [fst snd].
    { split; cbn [live handlers next_handler_id handlers_count max_handlers put]; try apply K. intros x Hx. apply K in Hx. lia. }
    destruct (Nat.leb_spec (max_handlers c) (List.length (handlers c))) as [L|L]; cbn [fst snd].
    { split; cbn [live handlers next_handler_id handlers_count max_handlers put]; try apply K. intros x Hx. apply K in Hx. lia. }
    assert (LEN : List.length (stable_sort by_priority (handlers c ++ [HandlerInfo (next_handler_id c) h 0 []])) = S (List.length (handlers c))).
    { rewrite <- (Permutation_length (sort_perm by_priority _)), app_length. cbn. lia. }
    split; cbn [live handlers next_handler_id handlers_count max_handlers put].
    + apply insert_ranked; [apply K|apply K].
    + intros x Hx. apply in_app_iff in Hx as [Hx|[<-|[]]]; [apply K in Hx; lia|cbn; lia].
    + apply sorted_app; [apply K|]. rewrite Forall_forall. intros x Hx. now apply K.
    + rewrite LEN, (c_count _ _ K). lia.
    + lia.
  - unfold unregister_handler. destruct (poisoned c); cbn [fst snd]; [split; cbn [live]; apply K|].
    destruct (existsb _ (handlers c)) eqn:E; [|cbn [fst snd]; split; cbn [live]; apply K].
    apply existsb_exists in E as (h & Hin & Hid). apply Nat.eqb_eq in Hid.
    pose proof (c_count _ _ K) as CC. assert (LP : 0 < List.length (handlers c)) by (destruct (handlers c); [destruct Hin|cbn; lia]).
    destruct (handlers_count c) as [|n] eqn:En; [lia|]. cbn [fst snd].
    destruct (c_ranked _ _ K) as [P S].
    assert (ND : StronglySorted (fun a b => fst a <> fst b) (map entry_of (handlers c))) by (apply nodup_apart; exact (distinct_ids _ _ (c_sorted _ _ K) P)).
    assert (LEN : List.length (remove_first id (handlers c)) + 1 = List.length (handlers c)).
    { clear -Hin Hid. induction (handlers c) as [|x l IH]; [destruct Hin|]. cbn [remove_first]. destruct (Nat.eqb_spec (h_id x) id) as [|N]; [cbn; lia|].
      destruct Hin as [->|Hin]; [congruence|]. cbn [List.length]. specialize (IH Hin). lia. }
    split; cbn [live handlers next_handler_id handlers_count max_handlers put].
    + split.
      * rewrite remove_perm by exact ND. now apply filter_perm.
      * rewrite remove_perm by exact ND. now apply sorted_filter.
    + intros x Hx. apply filter_In in Hx as [Hx _]. now apply K.
    + apply sorted_filter, K.
    + lia.
    + pose proof (c_limit _ _ K). lia.
  - unfold clear_handlers. destruct (poisoned c); cbn [fst snd]; [split; cbn [live]; apply K|].
    split; cbn [live handlers next_handler_id handlers_count max_handlers put map List.length]; try lia; [split; [apply perm_nil|constructor]|intros x []|constructor].
  - unfold dispatch. destruct (poisoned c); cbn [fst snd]; [split; cbn [live]; apply K|].
    pose proof (offer_entries e (handlers c)) as OE. destruct (offer e (handlers c)) as [[hs n] o]. cbn [fst] in OE.
    assert (LEN : List.length hs = List.length (handlers c)) by (apply (f_equal (@List.length _)) in OE; now rewrite !map_length in OE).
    destruct o; cbn [fst snd]; split; cbn [live handlers next_handler_id handlers_count max_handlers put]; rewrite ?OE, ?LEN; apply K.
  - cbn [fst snd]. split; cbn [live]; apply K.
  - unfold dispatch_async. destruct (queue c) as [q|]; [destruct (listening c)|]; cbn [fst snd]; split; cbn [live]; apply K.
  - unfold receive. destruct (queue c) as [[|x q]|]; [|destruct (listening c)|]; cbn [fst snd]; split; cbn [live]; apply K.
  - cbn [fst snd]. split; cbn [live]; apply K.
Qed.
Lemma chan_run_ok : forall ops past c, chan_ok past c ->
  chan_ok (rev (combine ops (snd (chan_run c ops))) ++ past) (fst (chan_run c ops)).
Proof.
  intros ops. induction ops as [|o l IH]; intros past c K; cbn [chan_run]; [exact K|].
  pose proof (chan_step_ok past c o K) as K1. destruct (chan_step c o) as [c1 a]. cbn [fst snd] in K1.
  specialize (IH _ _ K1). destruct (chan_run c1 l) as [c2 out]. cbn [fst snd combine rev] in *. now rewrite <- app_assoc.
Qed.
Lemma new_chan_ok m q mt : chan_ok [] (new_channel m q mt).
Proof.
  split; cbn.
  - split; [apply perm_nil|apply SSorted_nil].
  - intros x [].
  - apply SSorted_nil.
  - reflexivity.
  - lia.
Qed.

(* What the handlers are left with after an event. *)
Definition shown (e : event) (h h' : handler_info) : Prop := entry_of h' = entry_of h /\ h_given h' = h_given h ++ [e].
Lemma offer_spec e : forall l, let '(l', n, o) := offer e l in
  exists a b, l = a ++ b /\
    match o with
    | HOk => b = [] /\ n = List.length (filter (fun h => negb (matches (eh_filter (h_handler h)) e)) a)
    | _ => exists h r, b = h :: r /\ matches (eh_filter (h_handler h)) e = true /\ eh_handle (h_handler h) (h_given h) e = o /\
        l' = firstn (List.length a) l' ++ HandlerInfo (h_id h) (h_handler h) (h_processed h) (h_given h ++ [e]) :: r
    end /\
    Forall2 (fun h h' => entry_of h' = entry_of h /\
      (if matches (eh_filter (h_handler h)) e then eh_handle (h_handler h) (h_given h) e = HOk /\ h_given h' = h_given h ++ [e] /\ h_processed h' = h_processed h + 1
       else h' = h)) a (firstn (List.length a) l').
Proof.
  intros l. induction l as [|h r IH]; [exists [], []; split; [reflexivity|]; split; [split; reflexivity|constructor]|].
  cbn [offer]. destruct (matches (eh_filter (h_handler h)) e) eqn:M.
  - destruct (eh_handle (h_handler h) (h_given h) e) eqn:H.
    + destruct (offer e r) as [[r' n] o]. destruct IH as (a & b & -> & T & F). exists (h :: a), b. split; [reflexivity|]. cbn [List.length firstn].
      split.
      * destruct o; [destruct T as [-> ->]; split; [reflexivity|cbn [filter]; now rewrite M]| |].
        -- destruct T as (h1 & r1 & -> & T1 & T2 & T3). exists h1, r1. split; [reflexivity|]. split; [exact T1|]. split; [exact T2|]. cbn [app]. now rewrite <- T3.
        -- destruct T as (h1 & r1 & -> & T1 & T2 & T3). exists h1, r1. split; [reflexivity|]. split; [exact T1|]. split; [exact T2|]. cbn [app]. now rewrite <- T3.
      * constructor; [|exact F]. split; [reflexivity|]. rewrite M. auto.
    + exists [], (h :: r). split; [reflexivity|]. split; [|constructor]. exists h, r. split; [reflexivity|]. auto.
    + exists [], (h :: r). split; [reflexivity|]. split; [|constructor]. exists h, r. split; [reflexivity|]. auto.
  - destruct (offer e r) as [[r' n] o]. destruct IH as (a & b & -> & T & F). exists (h :: a), b. split; [reflexivity|]. cbn [List.length firstn].
    split.
    + destruct o; [destruct T as [-> ->]; split; [reflexivity|cbn [filter]; rewrite M; cbn; lia]| |].
      * destruct T as (h1 & r1 & -> & T1 & T2 & T3). exists h1, r1. split; [reflexivity|]. split; [exact T1|]. split; [exact T2|]. cbn [app]. now rewrite <- T3.
      * destruct T as (h1 & r1 & -> & T1 & T2 & T3). exists h1, r1. split; [reflexivity|]. split; [exact T1|]. split; [exact T2|]. cbn [app]. now rewrite <- T3.
    + constructor; [|exact F]. split; [reflexivity|]. now rewrite M.
Qed.

(* Channels whose handlers never fail. *)
Definition never_fails (h : event_handler) : Prop := forall given e, eh_handle h given e = HOk.
Record calm (past : list (op * reply)) (c : channel) : Prop := Calm {
  k_ok : chan_ok past c;
  k_poison : poisoned c = false;
  k_never : forall h, In h (handlers c) -> never_fails (h_handler h);
  k_due : forall h, In h (handlers c) -> h_given h = filter (matches (eh_filter (h_handler h))) (due (h_id h) past) }.
Lemma offer_calm e : forall l, (forall h, In h l -> never_fails (h_handler h)) ->
  offer e l = (map (fun h => if matches (eh_filter (h_handler h)) e then HandlerInfo (h_id h) (h_handler h) (h_processed h + 1) (h_given h ++ [e]) else h) l,
    List.length (filter (fun h => negb (matches (eh_filter (h_handler h)) e)) l), HOk).
Proof.
  intros l. induction l as [|h r IH]; intros N; [reflexivity|]. cbn [offer map filter]. rewrite (N h (or_introl eq_refl)), IH by (intros x Hx; apply N; now right).
  destruct (matches _ e); cbn [negb List.length]; [reflexivity|]. f_equal. f_equal. lia.
Qed.
Lemma calm_step past c o : calm past c -> (forall h, o = Register h -> never_fails h) ->
  calm ((o, snd (chan_step c o)) :: past) (fst (chan_step c o)) /\ (forall e, o = Dispatch e -> snd (chan_step c o) = Ok_).
Proof.
  intros K R. pose proof (chan_step_ok past c o (k_ok _ _ K)) as OK.
  destruct o as [h|id| |e| |e| |]; cbn [chan_step] in *; (split; [|try discriminate]).
  - unfold register_handler in *. rewrite (k_poison _ _ K) in *. destruct (max_handlers c <=? List.length (handlers c)); cbn [fst snd] in *.
    + split; cbn [handlers poisoned put due]; [exact OK|reflexivity|apply K|apply K].
    + assert (IN : forall x, In x (stable_sort by_priority (handlers c ++ [HandlerInfo (next_handler_id c) h 0 []])) -> In x (handlers c) \/ x = HandlerInfo (next_handler_id c) h 0 []).
      { intros x Hx. eapply Permutation_in in Hx; [|symmetry; apply sort_perm]. apply in_app_iff in Hx as [Hx|[<-|[]]]; auto. }
      split; cbn [handlers poisoned put due]; [exact OK|reflexivity| |]; intros x Hx; apply IN in Hx as [Hx|Hx].
      * now apply (k_never _ _ K).
      * subst x. cbn. now apply R.
      * assert (L : h_id x < next_handler_id c).
        { apply (c_ids _ _ (k_ok _ _ K) (entry_of x)). destruct (c_ranked _ _ (k_ok _ _ K)) as [P _]. eapply Permutation_in; [symmetry; exact P|]. now apply in_map. }
        replace (next_handler_id c =? h_id x) with false by (symmetry; apply Nat.eqb_neq; lia). now apply (k_due _ _ K).
      * subst x. cbn [h_id h_given]. now rewrite Nat.eqb_refl.
  - unfold unregister_handler in *. rewrite (k_poison _ _ K) in *. destruct (existsb _ _); [destruct (handlers_count c)|]; cbn [fst snd] in *.
    + split; [exact OK|apply K|apply K|apply K].
    + assert (IN : forall x, In x (remove_first id (handlers c)) -> In x (handlers c)).
      { clear. induction (handlers c) as [|a l IH]; cbn [remove_first]; [tauto|]. destruct (h_id a =? id); intros x Hx; [now right|]. destruct Hx as [->|Hx]; [now left|right; auto]. }
      split; cbn [handlers poisoned put due]; [exact OK|reflexivity| |]; intros x Hx; apply IN in Hx; [now apply (k_never _ _ K)|now apply (k_due _ _ K)].
    + split; [exact OK|apply K|apply K|apply K].
  - unfold clear_handlers in *. rewrite (k_poison _ _ K) in *. cbn [fst snd] in *. split; cbn [handlers poisoned put due]; [exact OK|reflexivity|intros x []|intros x []].
  - unfold dispatch in *. rewrite (k_poison _ _ K) in *. rewrite offer_calm in * by apply K. cbn [fst snd] in *.
    split; cbn [handlers poisoned put due]; [exact OK|reflexivity| |]; intros x Hx; apply in_map_iff in Hx as (y & <- & Hy).
    + destruct (matches _ e); cbn [h_handler]; now apply (k_never _ _ K).
    + pose proof (k_due _ _ K y Hy) as D. destruct (matches (eh_filter (h_handler y)) e) eqn:M; cbn [h_given h_id h_handler]; rewrite filter_app; cbn [filter]; rewrite M, ?app_nil_r, <- D; reflexivity.
  - intros e0 _. unfold dispatch. rewrite (k_poison _ _ K), offer_calm by apply K. reflexivity.
  - cbn [fst snd] in *. split; [exact OK|apply K|apply K|apply K].
  - unfold dispatch_async in *. destruct (queue c); [destruct (listening c)|]; (split; [exact OK|apply K|apply K|apply K]).
  - unfold receive in *. destruct (queue c) as [[|x q]|]; [|destruct (listening c)|]; (split; [exact OK|apply K|apply K|apply K]).
  - cbn [fst snd] in *. split; [exact OK|apply K|apply K|apply K].
Qed.
Lemma calm_run : forall ops past c, calm past c -> reliable ops ->
  calm (rev (combine ops (snd (chan_run c ops))) ++ past) (fst (chan_run c ops)) /\
  (forall e a, In (Dispatch e, a) (combine ops (snd (chan_run c ops))) -> a = Ok_).
Proof.
  intros ops. induction ops as [|o l IH]; intros past c K R; cbn [chan_run]; [split; [exact K|intros e a []]|].
  assert (H1 : forall h, o = Register h -> never_fails h) by (intros h ->; exact (R h (or_introl eq_refl))).
  destruct (calm_step past c o K H1) as [K1 D]. destruct (chan_step c o) as [c1 a]. cbn [fst snd] in K1, D.
  assert (R1 : reliable l) by (intros h Hh; apply R; now right).
  destruct (IH _ _ K1 R1) as [K2 D2]. destruct (chan_run c1 l) as [c2 out]. cbn [fst snd combine rev] in *. rewrite <- app_assoc. split; [exact K2|].
  intros e b [E|Hb]; [|now apply (D2 e)]. injection E as -> ->. now apply (D e).
Qed.

(* The asynchronous queue. *)
Lemma async_grows n : forall q l e, exists c, chan_run (new_channel 0 l q) (SetupAsync :: repeat (DispatchAsync e) n) = (c, Ok_ :: repeat Ok_ n) /\
  queue c = Some (repeat e n).
Proof.
  intros q l e. cbn [chan_run chan_step].
  assert (H : forall m c d, queue c = Some (repeat e m) -> listening c = true -> exists c', chan_run c (repeat (DispatchAsync e) d) = (c', repeat Ok_ d) /\ queue c' = Some (repeat e (m + d))).
  { intros m c d. revert m c. induction d as [|d IH]; intros m c Q L; cbn [repeat chan_run]; [exists c; rewrite Nat.add_0_r; auto|].
    cbn [chan_step]. unfold dispatch_async. rewrite Q, L.
    destruct (IH (S m) (with_queue c (Some (repeat e m ++ [e])) true (queued c + 1))) as (c' & E & Q'); [cbn [queue with_queue]; now rewrite <- repeat_cons|reflexivity|].
    rewrite E. exists c'. split; [reflexivity|]. rewrite Q'. f_equal. f_equal. lia. }
  destruct (H 0 (setup_async (new_channel 0 l q)) n eq_refl eq_refl) as (c' & E & Q). rewrite E. exists c'. split; [reflexivity|exact Q].
Qed.
Lemma poisoned_stays : forall ops c, poisoned c = true -> poisoned (fst (chan_run c ops)) = true /\
  forall o a, In (o, a) (combine ops (snd (chan_run c ops))) -> match o with Register _ | Unregister _ | ClearHandlers | Dispatch _ => a = Failed | _ => True end.
Proof.
  intros ops. induction ops as [|o l IH]; intros c P; cbn [chan_run]; [split; [exact P|intros o a []]|].
  assert (H : poisoned (fst (chan_step c o)) = true /\ match o with Register _ | Unregister _ | ClearHandlers | Dispatch _ => snd (chan_step c o) = Failed | _ => True end).
  { destruct o; cbn [chan_step]; unfold register_handler, unregister_handler, clear_handlers, dispatch, dispatch_async, receive; rewrite ?P; cbn [fst snd poisoned put setup_async with_queue]; auto.
    - destruct (queue c); [destruct (listening c)|]; auto.
    - destruct (queue c) as [[|]|]; [|destruct (listening c)|]; auto. }
  destruct (chan_step c o) as [c1 a]. cbn [fst snd] in H. destruct H as [P1 H]. destruct (IH c1 P1) as [P2 H2]. destruct (chan_run c1 l) as [c2 out].
  cbn [fst snd combine] in *. split; [exact P2|]. intros o' b [E|Hb]; [injection E as <- <-; exact H|now apply H2].
Qed.

Lemma max_kept : forall l c, max_handlers (fst (chan_run c l)) = max_handlers c.
Proof.
  intros l. induction l as [|o l IH]; intros c; [reflexivity|]. cbn [chan_run]. pose proof (IH (fst (chan_step c o))) as E.
  assert (S1 : max_handlers (fst (chan_step c o)) = max_handlers c).
  { destruct o; cbn [chan_step]; unfold register_handler, unregister_handler, clear_handlers, dispatch, dispatch_async, receive; cbn [fst snd setup_async with_queue max_handlers]; try reflexivity.
    - destruct (poisoned c); [reflexivity|]. destruct (_ <=? _); reflexivity.
    - destruct (poisoned c); [reflexivity|]. destruct (existsb _ _); [destruct (handlers_count c)|]; reflexivity.
    - destruct (poisoned c); reflexivity.
    - destruct (poisoned c); [reflexivity|]. destruct (offer e (handlers c)) as [[? ?] [| |]]; reflexivity.
    - destruct (queue c); [destruct (listening c)|]; reflexivity.
    - destruct (queue c) as [[|]|]; [|destruct (listening c)|]; reflexivity. }
  destruct (chan_step c o) as [c1 a]. cbn [fst] in *. destruct (chan_run c1 l). cbn [fst] in *. congruence.
Qed.
