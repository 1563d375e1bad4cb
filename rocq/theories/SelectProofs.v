(* Proofs about the event selector. *)
From Verif Require Import BaseLemmas SelectSpec.
From Coq Require Import Permutation Sorted.

(* ---- binary search ---- *)
Lemma narrow_ok p n fuel : forall base size, size <= fuel -> 0 < size -> base + size <= n ->
  (forall i j, i <= j -> j < n -> p j = true -> p i = true) -> (forall i, i < base -> p i = true) -> (forall i, base + size <= i -> i < n -> p i = false) ->
  (base = 0 \/ p base = true) ->
  exists b, narrow fuel p base size = Done b /\ b < n /\ (forall i, i < b -> p i = true) /\ (forall i, S b <= i -> i < n -> p i = false).
Proof.
  induction fuel as [|f IH]; intros base size F Z L M B A O; [lia|]. cbn [narrow]. destruct (Nat.leb_spec size 1) as [S1|S1].
  - exists base. repeat split; [lia|exact B|intros i Hi Hn; apply A; lia].
  - assert (H1 : 1 <= size / 2) by (apply (Nat.div_le_lower_bound size 2 1); lia). assert (H2 : size / 2 < size) by (apply Nat.div_lt; lia).
    destruct (p (base + size / 2)) eqn:E; (apply IH; [lia|lia|lia|exact M| | | ]).
    + intros i Hi. apply (M i (base + size / 2)); [lia|lia|exact E].
    + intros i Hi Hn. apply A; lia.
    + now right.
    + exact B.
    + intros i Hi Hn. destruct (p i) eqn:Ei; [|reflexivity]. rewrite (M (base + size / 2) i) in E; [discriminate|lia|lia|exact Ei].
    + exact O.
Qed.
Lemma firstn_filter {A} (p : A -> bool) l : forall n, (forall i x, i < n -> nth_error l i = Some x -> p x = true) -> (forall i x, n <= i -> nth_error l i = Some x -> p x = false) ->
  firstn n l = filter p l.
Proof.
  induction l as [|x l IH]; intros n T F; [now destruct n|]. destruct n as [|n].
  - cbn [firstn filter]. rewrite (F 0 x); [|lia|reflexivity]. apply (IH 0); [lia|]. intros i y Hi E. apply (F (S i)); [lia|exact E].
  - cbn [firstn filter]. rewrite (T 0 x); [|lia|reflexivity]. f_equal. apply IH; intros i y Hi E; [apply (T (S i))|apply (F (S i))]; try lia; exact E.
Qed.
Lemma partition_ok {A} (R : A -> A -> Prop) (p : A -> bool) l : StronglySorted R l -> (forall a b, R a b -> p b = true -> p a = true) ->
  exists n, partition_point p l = Done n /\ firstn n l = filter p l.
Proof.
  intros SS M. destruct l as [|x0 l0]; [exists 0; now split|]. set (l := x0 :: l0) in *. set (q := fun i => match nth_error l i with Some x => p x | None => false end).
  assert (MQ : forall i j, i <= j -> j < List.length l -> q j = true -> q i = true).
  { clear -SS M. subst q. cbn beta. clearbody l. induction SS as [|x l SS IH F]; intros i j L B Q; [cbn in B; lia|]. destruct j as [|j].
    - replace i with 0 by lia. exact Q.
    - destruct i as [|i]; cbn [nth_error] in *; [|apply (IH i j); [lia|cbn in B; lia|exact Q]].
      destruct (nth_error l j) as [y|] eqn:E; [|discriminate]. apply (M x y); [|exact Q]. rewrite Forall_forall in F. apply F. now apply nth_error_In in E. }
  destruct (narrow_ok q (List.length l) (List.length l) 0 (List.length l)) as (b & E & L & T & F); try lia.
  { cbn. lia. } { exact MQ. } 
  assert (E' : partition_point p l = Done (if q b then S b else b)). { unfold partition_point. subst l. cbv zeta. fold q. now rewrite E. }
  rewrite E'. eexists. split; [reflexivity|].
  apply firstn_filter; intros i x Hi Ex; assert (Lx : i < List.length l) by (apply nth_error_Some; congruence); change (p x) with (match Some x with Some x => p x | None => false end); rewrite <- Ex; fold (q i).
  - destruct (q b) eqn:Eb; [|now apply T]. destruct (Nat.eq_dec i b) as [->|]; [exact Eb|apply T; lia].
  - destruct (q b) eqn:Eb; [apply F; lia|]. destruct (Nat.eq_dec i b) as [->|]; [exact Eb|apply F; lia].
Qed.

(* ---- the index ---- *)
Definition live (t : N) (x : entry) : bool := ((en_start x <=? t) && (t <? en_end x))%N.
Lemma included_shown c e : included c (e_type e) = true <-> shown c e.
Proof. unfold included, shown. destruct (e_type e), c; split; intros H; try discriminate; try reflexivity; try (now left); try (now right); destruct H as [H|[H H']]; congruence. Qed.
Lemma zero_time s n : time_or_zero s = Done n <-> parse_ass_time s = Ok n \/ (parse_ass_time s = Err /\ n = 0%N).
Proof.
  unfold time_or_zero. destruct (parse_ass_time s); split; intros H; try discriminate; try (injection H as <-); try (now left); try (right; now split);
  destruct H as [H|[H H']]; try discriminate; congruence.
Qed.
Lemma entries_chosen c t events : forall i l, entries c i events = Done l ->
  exists found, chosen (on_screen c t) i events found /\ map en_index (filter (live t) l) = map fst found.
Proof.
  induction events as [|e r IH]; intros i l E; cbn [entries] in E.
  - injection E as <-. exists []. split; [constructor|reflexivity].
  - destruct (included c (e_type e)) eqn:I.
    + destruct (time_or_zero (e_start e)) as [s| |] eqn:S; try discriminate. destruct (time_or_zero (e_end e)) as [u| |] eqn:U; try discriminate. cbn [bind] in E.
      destruct (entries c (Datatypes.S i) r) as [l'| |] eqn:L; try discriminate. injection E as <-. destruct (IH _ _ L) as (found & C & M).
      apply included_shown in I. apply zero_time in S, U. cbn [filter]. destruct (live t (Entry s u i)) eqn:V; unfold live in V; cbn [en_start en_end] in V.
      * exists ((i, e) :: found). split; [|cbn [map en_index fst]; now rewrite M]. constructor; [|exact C]. split; [exact I|]. exists s, u. assert (u <> 0%N) by lia. split; [exact S|]. split; [|lia].
        destruct U as [U|[_ U]]; [exact U|congruence].
      * exists found. split; [|exact M]. constructor; [|exact C]. intros [_ (s' & u' & S' & U' & L')]. assert (s' = s). { destruct S as [S|[S ->]], S' as [S'|[S' ->]]; congruence. }
        assert (u' = u) by (destruct U as [U|[U _]]; congruence). subst. lia.
    + destruct (IH _ _ E) as (found & C & M). exists found. split; [|exact M]. constructor; [|exact C]. intros [Q _]. apply included_shown in Q. congruence.
Qed.
Lemma chosen_sorted {A} (P : A -> Prop) i l found : chosen P i l found -> StronglySorted lt (map fst found) /\ Forall (fun k => i <= k) (map fst found).
Proof.
  induction 1 as [i|i x l r H C [IH1 IH2]|i x l r H C [IH1 IH2]]; cbn [map fst]; [split; constructor| |].
  - split; [constructor; [exact IH1|]|constructor; [lia|]]; (eapply Forall_impl; [|exact IH2]; cbn; lia).
  - split; [exact IH1|]. eapply Forall_impl; [|exact IH2]. cbn. lia.
Qed.
Lemma chosen_pick {A} (P : A -> Prop) i l found : chosen P i l found -> forall k x, In (k, x) found -> exists j, k = i + j /\ nth_error l j = Some x.
Proof.
  induction 1 as [i|i x l r H C IH|i x l r H C IH]; intros k y K; [destruct K| |].
  - destruct K as [[= <- <-]|K]; [exists 0; split; [lia|reflexivity]|]. destruct (IH _ _ K) as (j & -> & E). exists (S j). split; [lia|exact E].
  - destruct (IH _ _ K) as (j & -> & E). exists (S j). split; [lia|exact E].
Qed.
Lemma pick_all events found : (forall k x, In (k, x) found -> nth_error events k = Some x) -> pick events (map fst found) = Done (map snd found).
Proof.
  induction found as [|[k x] r IH]; intros H; [reflexivity|]. cbn [map fst snd pick]. rewrite (H k x); [|now left]. cbn [need bind]. rewrite IH; [reflexivity|]. intros j y J. apply H. now right.
Qed.
Lemma chosen_unique {A} (P : A -> Prop) i l f : chosen P i l f -> forall f', chosen P i l f' -> f = f'.
Proof.
  induction 1 as [i|i x l r H C IH|i x l r H C IH]; intros f' C'; inversion C'; subst; try contradiction; try reflexivity.
  - f_equal. now apply IH.
  - now apply IH.
Qed.
Lemma leb_sorted_unique l : forall l', Permutation l l' -> StronglySorted (fun a b => Nat.leb a b = true) l -> StronglySorted lt l' -> l = l'.
Proof.
  induction l as [|x l IH]; intros l' P S S'; [apply Permutation_nil in P; now subst|]. destruct l' as [|y l']; [apply Permutation_sym, Permutation_nil in P; discriminate|].
  inversion S as [|? ? S1 F1]; subst. inversion S' as [|? ? S2 F2]; subst. rewrite Forall_forall in F1, F2.
  assert (x = y).
  { assert (Ix : In x (y :: l')) by (apply (Permutation_in _ P); now left). assert (Iy : In y (x :: l)) by (apply (Permutation_in _ (Permutation_sym P)); now left).
    destruct Ix as [->|Ix]; [reflexivity|]. destruct Iy as [->|Iy]; [reflexivity|]. apply F2 in Ix. apply F1 in Iy. apply Nat.leb_le in Iy. lia. }
  subst y. f_equal. apply IH; [|assumption|assumption]. now apply Permutation_cons_inv in P.
Qed.
Lemma nat_sort_id l l' : Permutation l l' -> StronglySorted lt l' -> stable_sort Nat.leb l = l'.
Proof.
  intros P S. apply leb_sorted_unique; [|apply sort_sorted|exact S].
  - eapply Permutation_trans; [|exact P]. apply Permutation_sym, sort_perm.
  - intros a b. destruct (Nat.leb_spec a b); [now left|right]. apply Nat.leb_le. lia.
  - intros a b c. rewrite !Nat.leb_le. lia.
Qed.
Lemma filter_perm {A} (p : A -> bool) l l' : Permutation l l' -> Permutation (filter p l) (filter p l').
Proof.
  induction 1 as [|x l l' P IH|x y l|l l' l'' P1 IH1 P2 IH2]; [constructor| | |now apply Permutation_trans with (filter p l')].
  - cbn [filter]. destruct (p x); [now constructor|exact IH].
  - cbn [filter]. destruct (p x), (p y); try apply Permutation_refl. apply perm_swap.
Qed.
Lemma filter_filter {A} (p q : A -> bool) l : filter p (filter q l) = filter (fun x => q x && p x) l.
Proof. induction l as [|x l IH]; [reflexivity|]. cbn [filter]. destruct (q x); cbn [filter andb]; [destruct (p x); now rewrite IH|exact IH]. Qed.

Section Shuffled.
  Variable shuffle : list entry -> list entry.
  Hypothesis shuffles : forall l, Permutation l (shuffle l).

  Lemma index_answers address c events i t : build_index shuffle address c events = Done i ->
    exists found, chosen (on_screen c t) 0 events found /\ active_indices i t = Done (map fst found) /\ pick events (map fst found) = Done (map snd found).
  Proof.
    unfold build_index. destruct (entries c 0 events) as [l| |] eqn:E; try discriminate. cbn [bind]. intros [= <-]. destruct (entries_chosen c t _ _ _ E) as (found & C & M).
    exists found. split; [exact C|]. assert (T : forall a b, by_start_le a b = true \/ by_start_le b a = true) by (intros a b; unfold by_start_le; lia).
    assert (Tr : forall a b d, by_start_le a b = true -> by_start_le b d = true -> by_start_le a d = true) by (intros a b d; unfold by_start_le; lia).
    split.
    - unfold active_indices. cbn [ti_by_start].
      destruct (partition_ok (fun a b => by_start_le a b = true) (fun x => (en_start x <=? t)%N) (stable_sort by_start_le (shuffle l))) as (n & En & F).
      + now apply sort_sorted.
      + intros a b. unfold by_start_le. lia.
      + rewrite En. cbn [bind]. rewrite F, filter_filter. f_equal. apply nat_sort_id; [|now apply (chosen_sorted _ _ _ _ C)]. rewrite <- M. apply Permutation_map.
        change (Permutation (filter (live t) (stable_sort by_start_le (shuffle l))) (filter (live t) l)). apply filter_perm.
        eapply Permutation_trans; [apply Permutation_sym, sort_perm|apply Permutation_sym, shuffles].
    - apply pick_all. intros k x K. destruct (chosen_pick _ _ _ _ C _ _ K) as (j & -> & En). exact En.
  Qed.
End Shuffled.

(* ---- texts ---- *)
Lemma starts_with_occurs p s : starts_with p s = true <-> exists b, s = p ++ b.
Proof.
  unfold starts_with. revert s. induction p as [|c p IH]; intros s; cbn [strip_prefix app].
  - split; [intros _; now exists s|reflexivity].
  - destruct s as [|d s]; [split; [discriminate|intros (b & [=])]|]. destruct (N.eqb_spec c d) as [->|N].
    + rewrite IH. split; intros (b & E); exists b; congruence.
    + split; [discriminate|intros (b & [= E _]); congruence].
Qed.
Lemma contains_occurs p s : contains p s = true <-> occurs p s.
Proof.
  unfold contains, occurs. induction s as [|c s IH]; cbn [find_str].
  - destruct (starts_with p []) eqn:E; [apply starts_with_occurs in E; destruct E as (b & E)|].
    + split; [intros _; exists [], b; exact E|reflexivity].
    + split; [discriminate|]. intros (a & b & H). destruct a; [|discriminate]. assert (X : starts_with p [] = true) by (apply starts_with_occurs; exists b; exact H). congruence.
  - destruct (starts_with p (c :: s)) eqn:E.
    + split; [|reflexivity]. intros _. apply starts_with_occurs in E. destruct E as (b & E). exists [], b. exact E.
    + assert (Q : match match find_str p s with Some (a, b) => Some (c :: a, b) | None => None end with Some _ => true | None => false end = match find_str p s with Some _ => true | None => false end) by now destruct (find_str p s) as [[? ?]|].
      rewrite Q, IH. split.
      * intros (a & b & ->). exists (c :: a), b. reflexivity.
      * intros (a & b & H). destruct a as [|d a].
        -- assert (X : starts_with p (c :: s) = true) by (apply starts_with_occurs; exists b; exact H). congruence.
        -- injection H as -> ->. now exists a, b.
Qed.
Lemma animated_moving t events b : has_animated events t = Done b -> (b = true <-> exists e, In e events /\ moving t e).
Proof.
  induction events as [|e r IH]; cbn [has_animated]; [intros [= <-]; split; [discriminate|intros (e & [] & _)]|].
  set (p := contains (lit "\t(") (e_text e) || contains (lit "\move(") (e_text e) || contains (lit "\fade(") (e_text e) || contains (lit "\fad(") (e_text e)).
  assert (P : p = true <-> exists p, In p [lit "\t("; lit "\move("; lit "\fade("; lit "\fad("] /\ occurs p (e_text e)).
  { subst p. rewrite !orb_true_iff, !contains_occurs. split.
    - intros [[[H|H]|H]|H]; eexists; (split; [|exact H]); cbn [In]; auto.
    - intros (x & I & H). cbn [In] in I. destruct I as [<-|[<-|[<-|[<-|[]]]]]; auto. }
  set (k := contains (lit "\k") (e_text e) || contains (lit "\K") (e_text e)). assert (K : k = true <-> occurs (lit "\k") (e_text e) \/ occurs (lit "\K") (e_text e)) by (subst k; now rewrite orb_true_iff, !contains_occurs).
  clearbody p k. destruct p.
  - intros [= <-]. split; [|reflexivity]. intros _. exists e. split; [now left|]. left. now apply P.
  - assert (NP : ~ exists p, In p [lit "\t("; lit "\move("; lit "\fade("; lit "\fad("] /\ occurs p (e_text e)) by (intros H; apply P in H; discriminate).
    assert (SKIP : ~ moving t e -> has_animated r t = Done b -> (b = true <-> exists e0, In e0 (e :: r) /\ moving t e0)).
    { intros NM H. rewrite (IH H). split; intros (x & I & M); exists x; (split; [|exact M]); [now right|]. destruct I as [<-|I]; [contradiction|exact I]. }
    destruct k.
    + destruct (parse_ass_time (e_start e)) as [s| |] eqn:S; [| |discriminate].
      * destruct (N.ltb_spec s t) as [L|L].
        -- intros [= <-]. split; [|reflexivity]. intros _. exists e. split; [now left|]. right. split; [now apply K|]. exists s. now split.
        -- apply SKIP. intros [M|[_ (s' & S' & L')]]; [contradiction|]. rewrite S in S'. injection S' as <-. lia.
      * apply SKIP. intros [M|[_ (s' & S' & L')]]; [contradiction|]. congruence.
    + apply SKIP. intros [M|[M _]]; [contradiction|]. apply K in M. discriminate.
Qed.
Lemma far_exact t last b : (t < 2147483648)%N -> (last < 2147483648)%N -> far_apart t last = Done b -> (b = true <-> (100 < t - last \/ 100 < last - t)%N).
Proof.
  intros T L. unfold far_apart, as_i32, i32_ok. rewrite (proj2 (N.ltb_lt _ _) T), (proj2 (N.ltb_lt _ _) L). cbv zeta.
  destruct (_ && _)%bool; [|discriminate]. destruct (_ && _)%bool; [|discriminate]. intros [= <-]. rewrite Z.ltb_lt. lia.
Qed.
Lemma far_runs t last : (t < 2147483648)%N -> (last < 2147483648)%N -> exists b, far_apart t last = Done b.
Proof.
  intros T L. unfold far_apart, as_i32, i32_ok. rewrite (proj2 (N.ltb_lt _ _) T), (proj2 (N.ltb_lt _ _) L). cbv zeta.
  replace ((-2147483648 <=? Z.of_N t - Z.of_N last) && (Z.of_N t - Z.of_N last <=? 2147483647))%Z with true by lia.
  replace ((-2147483648 <=? Z.abs (Z.of_N t - Z.of_N last)) && (Z.abs (Z.of_N t - Z.of_N last) <=? 2147483647))%Z with true by lia. eauto.
Qed.
Lemma memn_in i l : memn i l = true <-> In i l.
Proof. unfold memn. rewrite existsb_exists. split; [intros (x & I & E); apply Nat.eqb_eq in E; now subst|intros I; exists i; split; [exact I|apply Nat.eqb_refl]]. Qed.
Lemma first_lines sections l : script_lines sections l <-> match first_events sections with Some l' => l = l' | None => l = [] end.
Proof.
  unfold script_lines, first_events. induction sections as [|s r IH]; cbn [find].
  - split; [intros [(l1 & l2 & E & _)|[-> _]]; [destruct l1; discriminate|reflexivity]|]. intros ->. right. split; [reflexivity|]. intros l' [].
  - assert (SKIP : (forall l', s <> SEvents l') -> ((exists l1 l2, s :: r = l1 ++ SEvents l :: l2 /\ (forall l', ~ In (SEvents l') l1)) \/ l = [] /\ (forall l', ~ In (SEvents l') (s :: r))) <->
      ((exists l1 l2, r = l1 ++ SEvents l :: l2 /\ (forall l', ~ In (SEvents l') l1)) \/ l = [] /\ (forall l', ~ In (SEvents l') r))).
    { intros N. split; (intros [(l1 & l2 & E & F)|[-> F]]; [left|right]).
      - destruct l1 as [|x l1]; [injection E as E _; now apply N in E|]. injection E as -> ->. exists l1, l2. split; [reflexivity|]. intros l' I. apply (F l'). now right.
      - split; [reflexivity|]. intros l' I. apply (F l'). now right.
      - exists (s :: l1), l2. split; [now rewrite E|]. intros l' [I|I]; [now apply N in I|now apply (F l')].
      - split; [reflexivity|]. intros l' [I|I]; [now apply N in I|now apply (F l')]. }
    destruct s as [f sp|ss|es|fs|gs]; try (rewrite (SKIP ltac:(discriminate)); exact IH).
    clear SKIP IH. split.
    + intros [(l1 & l2 & E & F)|[-> F]]; [|exfalso; apply (F es); now left]. destruct l1 as [|x l1]; [now injection E as -> _|]. injection E as <- _. exfalso. apply (F es). now left.
    + intros ->. left. exists [], r. split; [reflexivity|]. intros l' [].
Qed.
Lemma NoDup_filter {A} (p : A -> bool) l : NoDup l -> NoDup (filter p l).
Proof. induction 1 as [|x l N D IH]; cbn [filter]; [constructor|]. destruct (p x); [|exact IH]. constructor; [|exact IH]. rewrite filter_In. tauto. Qed.
Lemma sorted_nodup l : StronglySorted lt l -> NoDup l.
Proof. induction 1 as [|x l S IH F]; constructor; [|exact IH]. intros I. rewrite Forall_forall in F. apply F in I. lia. Qed.

Lemma filter_not_mem i l l' : In i (filter (fun i => negb (memn i l')) l) <-> In i l /\ ~ In i l'.
Proof.
  rewrite filter_In, negb_true_iff. split; intros [A B]; (split; [exact A|]).
  - intros X. apply memn_in in X. congruence.
  - destruct (memn i l') eqn:E; [apply memn_in in E; contradiction|reflexivity].
Qed.
Section Refinement.
  Variable shuffle : list entry -> list entry.
  Hypothesis shuffles : forall l, Permutation l (shuffle l).
  Variable all : list selector_op.
  Hypothesis stable : addresses_stable all.

  Definition index_from (i : time_index) : Prop := exists address sections t lines c,
    In (Query address sections t) all /\ In (SEvents lines) sections /\ script_lines sections lines /\ build_index shuffle address c lines = Done i.
  Record remembers (s : selector) (m : memory) : Prop := {
    re_comments : sl_comments s = me_comments m;
    re_shown : sl_previous s = me_shown m;
    re_nodup : NoDup (sl_previous s);
    re_last : sl_last s = me_last m;
    re_small : forall last, me_last m = Some last -> (last < 2147483648)%N;
    re_index : forall i, sl_index s = Some i -> index_from i }.
  Lemma first_in sections l : first_events sections = Some l -> In (SEvents l) sections.
  Proof. unfold first_events. destruct (find _ sections) as [x|] eqn:F; [|discriminate]. apply find_some in F. destruct x; try discriminate. intros [= ->]. apply F. Qed.
  Lemma ensured s m address sections t lines i : remembers s m -> In (Query address sections t) all -> first_events sections = Some lines ->
    ensure_index shuffle s address lines = Done i -> build_index shuffle address (me_comments m) lines = Done i.
  Proof.
    intros R Q F. unfold ensure_index. rewrite (re_comments _ _ R). destruct (sl_index s) as [j|] eqn:J; [|auto]. destruct (_ && _ && _)%bool eqn:K; [|auto]. intros [= <-].
    apply andb_true_iff in K. destruct K as [K K3]. apply andb_true_iff in K. destruct K as [K1 K2]. apply N.eqb_eq in K1. apply Nat.eqb_eq in K2. apply Bool.eqb_prop in K3.
    destruct (re_index _ _ R _ J) as (a' & s' & t' & l' & c' & Q' & I' & L' & B').
    assert (B2 := B'). unfold build_index in B2. destruct (entries c' 0 l') as [x| |]; try discriminate. injection B2 as B2. subst j. cbn [ti_address ti_len ti_comments] in K1, K2, K3. subst a' c'.
    assert (l' = lines).
    { apply (stable address s' t' sections t l' lines); auto. - now apply first_in. - apply first_lines. now rewrite F. }
    now subst l'.
  Qed.
  Lemma query_ok s m address sections t s' a : remembers s m -> In (Query address sections t) all -> (t < 2147483648)%N ->
    select_active shuffle s address sections t = Done (s', a) -> exists m', answer_to m sections t a m' /\ remembers s' m'.
  Proof.
    intros R Q T. unfold select_active.
    assert (C : forall index current events, match first_events sections with
             | Some events => i <- ensure_index shuffle s address events ;; l <- active_indices i t ;; es <- pick events l ;; Done (Some i, l, es)
             | None => Done (sl_index s, [], []) end = Done (index, current, events) ->
             (exists lines found, script_lines sections lines /\ chosen (on_screen (me_comments m) t) 0 lines found /\ events = map snd found /\ current = map fst found) /\
             forall i, index = Some i -> index_from i).
    { intros index current events. destruct (first_events sections) as [lines|] eqn:F.
      - destruct (ensure_index shuffle s address lines) as [i| |] eqn:E; try discriminate. cbn [bind]. apply (ensured s m address sections t lines i R Q F) in E.
        destruct (index_answers shuffle shuffles _ _ _ _ t E) as (found & Ch & A & P). rewrite A. cbn [bind]. rewrite P. cbn [bind]. intros [= <- <- <-]. split.
        + exists lines, found. split; [apply first_lines; now rewrite F|]. now repeat split.
        + intros j [= <-]. exists address, sections, t, lines, (me_comments m). split; [exact Q|]. split; [now apply first_in|]. split; [apply first_lines; now rewrite F|exact E].
      - intros [= <- <- <-]. split; [|apply (re_index _ _ R)]. exists [], []. split; [apply first_lines; now rewrite F|]. repeat split. constructor. }
    destruct (match first_events sections with Some _ => _ | None => _ end) as [[[index current] events]| |]; try discriminate. destruct (C _ _ _ eq_refl) as [(lines & found & SL & Ch & -> & ->) IX]. clear C. cbn [bind].
    set (cur := map fst found). assert (ND : NoDup cur) by (apply sorted_nodup, (chosen_sorted _ _ _ _ Ch)). rewrite (re_shown _ _ R), (re_last _ _ R).
    assert (NDP : NoDup (me_shown m)) by (rewrite <- (re_shown _ _ R); apply (re_nodup _ _ R)).
    set (new := filter (fun i => negb (memn i (me_shown m))) cur). set (gone := filter (fun i => negb (memn i cur)) (me_shown m)).
    assert (NEW : forall i, In i new <-> In i cur /\ ~ In i (me_shown m)) by (intros i; apply filter_not_mem).
    assert (GONE : forall i, In i gone <-> In i (me_shown m) /\ ~ In i cur) by (intros i; apply filter_not_mem).
    assert (CH : (negb (is_nil new) || negb (is_nil gone))%bool = true <-> ~ same_members (me_shown m) cur).
    { split.
      - intros H S. apply orb_true_iff in H. destruct H as [H|H]; apply negb_true_iff in H.
        + destruct new as [|i n]; [discriminate|]. destruct (proj1 (NEW i)) as [I J]; [now left|]. apply J, S, I.
        + destruct gone as [|i n]; [discriminate|]. destruct (proj1 (GONE i)) as [I J]; [now left|]. apply J, S, I.
      - intros H. destruct new as [|i n]; [|reflexivity]. destruct gone as [|i n]; [|reflexivity]. exfalso. apply H. intros i. split; intros I.
        + destruct (in_dec Nat.eq_dec i cur) as [J|J]; [exact J|]. destruct (proj2 (GONE i)). now split.
        + destruct (in_dec Nat.eq_dec i (me_shown m)) as [J|J]; [exact J|]. destruct (proj2 (NEW i)). now split. }
    intros H. set (far := match me_last m with None => Done true | Some last => far_apart t last end) in H.
    assert (FAR : forall b, far = Done b -> (b = true <-> match me_last m with None => True | Some last => (100 < t - last \/ 100 < last - t)%N end)).
    { intros b. subst far. pose proof (re_small _ _ R) as SM. destruct (me_last m) as [last|]; [|intros [= <-]; tauto]. apply far_exact; [exact T|now apply SM]. }
    exists (Memory (me_comments m) cur (Some t)).
    set (d := (negb (is_nil new) || negb (is_nil gone))%bool) in *.
    assert (DIRTY : forall b, (if d then Done true else a <- has_animated (map snd found) t ;; if a then Done true else far) = Done b ->
      (b = true <-> ~ same_members (me_shown m) cur \/ (exists e, In e (map snd found) /\ moving t e) \/ match me_last m with None => True | Some last => (100 < t - last \/ 100 < last - t)%N end)).
    { intros b. destruct d.
      - intros [= <-]. split; [intros _; left; now apply CH|reflexivity].
      - destruct (has_animated (map snd found) t) as [h| |] eqn:HA; try discriminate. cbn [bind]. apply animated_moving in HA. destruct h.
        + intros [= <-]. split; [intros _; right; left; now apply HA|reflexivity].
        + intros FA. rewrite (FAR _ FA). split; [intros X; right; right; exact X|]. intros [X|[X|X]]; [apply CH in X; discriminate|apply HA in X; discriminate|exact X]. }
    destruct (if d then Done true else _) as [dirty| |]; try discriminate. cbn [bind] in H. injection H as <- <-. specialize (DIRTY _ eq_refl). split.
    - constructor; cbn [ac_events ac_new ac_gone ac_dirty me_shown me_comments me_last].
      + exists lines, found. now repeat split.
      + split; [now apply NoDup_filter|exact NEW].
      + split; [now apply NoDup_filter|exact GONE].
      + exact DIRTY.
      + reflexivity.
      + reflexivity.
    - constructor; cbn [sl_comments sl_previous sl_last sl_index me_shown me_comments me_last]; try reflexivity; try exact ND.
      + apply (re_comments _ _ R).
      + intros last [= <-]. exact T.
      + exact IX.
  Qed.
  Lemma run_ok ops : forall s m s' l, remembers s m -> incl ops all -> Forall (fun o => match o with Query _ _ t => (t < 2147483648)%N | _ => True end) ops ->
    selector_run shuffle s ops = Done (s', l) -> answers m ops l.
  Proof.
    induction ops as [|o ops IH]; intros s m s' l R I F; cbn [selector_run]; [intros [= <- <-]; constructor|]. inversion F as [|? ? F1 F2]; subst.
    assert (Io : In o all) by (apply I; now left). assert (I' : incl ops all) by (intros x X; apply I; now right).
    destruct o as [address sections t|b|q| |]; cbn [selector_step].
    - destruct (select_active shuffle s address sections t) as [[s1 a]| |] eqn:E; try discriminate. cbn [bind fst snd].
      destruct (query_ok _ _ _ _ _ _ _ R Io F1 E) as (m1 & A1 & R1). destruct (selector_run shuffle s1 ops) as [[s2 l2]| |] eqn:E2; try discriminate. cbn [bind fst snd app]. intros [= <- <-].
      econstructor; [exact A1|]. now apply (IH s1 m1 s2).
    - cbn [bind fst snd]. destruct (selector_run shuffle _ ops) as [[s2 l2]| |] eqn:E2; try discriminate. cbn [bind fst snd app]. intros [= <- <-]. constructor.
      apply (IH (set_comments b s) _ s2); try assumption. constructor; cbn [set_comments sl_comments sl_previous sl_last sl_index me_shown me_comments me_last]; try reflexivity; apply R.
    - destruct (add_region (sl_regions s) q) as [r| |]; try discriminate. cbn [bind fst snd]. destruct (selector_run shuffle _ ops) as [[s2 l2]| |] eqn:E2; try discriminate. cbn [bind fst snd app]. intros [= <- <-]. constructor.
      apply (IH (with_regions s r) _ s2); try assumption. constructor; cbn [with_regions sl_comments sl_previous sl_last sl_index]; apply R.
    - cbn [bind fst snd]. destruct (selector_run shuffle _ ops) as [[s2 l2]| |] eqn:E2; try discriminate. cbn [bind fst snd app]. intros [= <- <-]. constructor.
      apply (IH (with_regions s []) _ s2); try assumption. constructor; cbn [with_regions sl_comments sl_previous sl_last sl_index]; apply R.
    - cbn [bind fst snd]. destruct (selector_run shuffle _ ops) as [[s2 l2]| |] eqn:E2; try discriminate. cbn [bind fst snd app]. intros [= <- <-]. constructor.
      apply (IH (reset s) _ s2); try assumption. constructor; cbn [reset sl_comments sl_previous sl_last sl_index me_shown me_comments me_last]; try reflexivity; try apply R; [constructor|discriminate].
  Qed.
End Refinement.
Lemma selector_answers shuffle ops s l : (forall l, Permutation l (shuffle l)) -> addresses_stable ops ->
  Forall (fun o => match o with Query _ _ t => (t < 2147483648)%N | _ => True end) ops -> selector_run shuffle new_selector ops = Done (s, l) -> answers blank ops l.
Proof.
  intros SH ST F E. apply (run_ok shuffle SH ops ST ops new_selector blank s l); [|apply incl_refl|exact F|exact E]. constructor; cbn; try reflexivity; try discriminate. constructor.
Qed.
