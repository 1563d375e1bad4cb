From Coq Require Import Permutation.
From Verif Require Import Base BaseLemmas DocModel ParseModel MapLib StreamModel SearchModel SearchSpec SearchProofs SearchMore.

Lemma words_loop_app u c r : word_char u c = false -> forall l o cur, words_loop u (l ++ c :: r) o cur = words_loop u l o cur ++ words_loop u r (o + blen l + len_utf8 c) None.
Proof.
  intros C. induction l as [|d l IH]; intros o cur; cbn [app words_loop].
  - rewrite C. cbn [blen]. now rewrite Nat.add_0_r.
  - rewrite blen_cons, Nat.add_assoc. destruct (word_char u d); rewrite IH; [reflexivity|]. now rewrite app_assoc.
Qed.
Lemma words_loop_shift u s : forall l o cur, words_loop u l (s + o) (match cur with Some (i, w) => Some (s + i, w) | None => None end) = map (fun p => (fst p, s + snd p)) (words_loop u l o cur).
Proof.
  induction l as [|c l IH]; intros o cur; cbn [words_loop]; [destruct cur as [[i w]|]; reflexivity|]. rewrite <- Nat.add_assoc. destruct (word_char u c).
  - rewrite <- IH. destruct cur as [[i w]|]; reflexivity.
  - rewrite map_app, <- IH. f_equal. destruct cur as [[i w]|]; reflexivity.
Qed.
Lemma strip_cr_id l : ~ In 13%N l -> strip_cr l = l.
Proof.
  intros H. unfold strip_cr. destruct (rev l) as [|c r] eqn:E; [reflexivity|]. destruct (N.eqb_spec c 13) as [->|_]; [|reflexivity]. exfalso. apply H. apply in_rev. rewrite E. now left.
Qed.
Lemma lines_line l r : ~ In 10%N l -> ~ In 13%N l -> lines (l ++ 10%N :: r) = l :: lines r.
Proof.
  intros H H13. assert (G : forall l, ~ In 10%N l -> lines_raw (l ++ 10%N :: r) = (l, true) :: lines_raw r).
  { clear. induction l as [|c l IH]; intros H; [reflexivity|]. cbn [app lines_raw]. unfold is_nl at 1. destruct (N.eqb_spec c 10) as [->|_]; [exfalso; apply H; now left|]. rewrite IH; [reflexivity|]. intros Q. apply H. now right. }
  unfold lines. rewrite G by exact H. cbn [map]. now rewrite strip_cr_id.
Qed.
Lemma lines_last l : ~ In 10%N l -> lines l = match l with [] => [] | _ => [l] end.
Proof.
  intros H. assert (G : lines_raw l = match l with [] => [] | _ => [(l, false)] end).
  { induction l as [|c l IH]; [reflexivity|]. cbn [lines_raw]. unfold is_nl at 1. destruct (N.eqb_spec c 10) as [->|_]; [exfalso; apply H; now left|]. rewrite IH by (intros Q; apply H; now right). destruct l; reflexivity. }
  unfold lines. rewrite G. now destruct l.
Qed.
Lemma line_split (t : str) : ~ In 10%N t \/ exists l r, t = l ++ 10%N :: r /\ ~ In 10%N l.
Proof.
  induction t as [|c t IH]; [left; intros []|]. destruct (N.eq_dec c 10) as [->|N]; [right; exists [], t; split; [reflexivity|intros []]|].
  destruct IH as [IH|(l & r & -> & H)]; [left; intros [Q|Q]; [congruence|exact (IH Q)]|right; exists (c :: l), r]. split; [reflexivity|]. intros [Q|Q]; [congruence|exact (H Q)].
Qed.
Definition long (p : str * nat) : bool := 2 <=? blen (fst p).
Definition lined (t : str) (e : ientry) : Prop := exists start, line_at t (e_pos e) (e_line e) start (e_context e) /\ e_column e = e_pos e - start.
Lemma line_entries_ok u l start n sec : map (fun p => (fst p, e_pos (snd p))) (line_entries u l start n sec) = map (fun p => (lower u (fst p), snd p)) (filter long (words_loop u l start None)).
Proof.
  unfold line_entries. pose proof (words_loop_shift u start l 0 None) as H. cbn [Nat.add] in H. rewrite Nat.add_0_r in H. rewrite H. clear H. unfold long. induction (words_loop u l 0 None) as [|[w o] q IH]; [reflexivity|].
  cbn [map filter fst snd]. destruct (2 <=? blen w); cbn [map filter fst snd e_pos]; now rewrite IH.
Qed.
Lemma word_bound u l w o : In (w, o) (words_loop u l 0 None) -> o <= blen l.
Proof. intros H. apply (dec_words _ 0 l _ (proj1 (words_dec u l) 0) [] (or_introl I)) in H as (a & b & -> & -> & _). rewrite blen_app. lia. Qed.
Lemma line_entries_lined u l start n sec A B : ~ In 10%N l -> (A = [] \/ exists x, A = x ++ [10%N]) -> (B = [] \/ exists r, B = 10%N :: r) -> start = blen A -> n = count_occ N.eq_dec A 10%N ->
  Forall (fun p => lined (A ++ l ++ B) (snd p)) (line_entries u l start n sec).
Proof.
  intros Hl HA HB -> ->. apply Forall_forall. intros [k e] H. unfold line_entries in H. apply in_map_iff in H as ([w o] & E & H). injection E as <- <-. apply filter_In in H as [H _]. apply word_bound in H. cbn [snd fst]. unfold lined. cbn [e_pos e_line e_context e_column].
  exists (blen A). split; [|lia]. destruct HA as [->|[x ->]]; [exists [], [], B|exists (x ++ [10%N]), x, B]; repeat split; auto; cbn [blen]; lia.
Qed.
Lemma fst_ok u : word_char u 10 = false -> forall k r A n sec, List.length r <= k -> ~ In 13%N r -> (A = [] \/ exists x, A = x ++ [10%N]) -> n = count_occ N.eq_dec A 10%N ->
  map (fun p => (fst p, e_pos (snd p))) (fst_words u (lines r) (blen A) n sec) = map (fun p => (lower u (fst p), snd p)) (filter long (words_loop u r (blen A) None)) /\
  Forall (fun p => lined (A ++ r) (snd p)) (fst_words u (lines r) (blen A) n sec).
Proof.
  intros NL. induction k as [|k IH]; intros r A n sec L CR HA Hn.
  - destruct r; [|cbn in L; lia]. split; [reflexivity|constructor].
  - destruct (line_split r) as [H|(l & r' & -> & H)].
    + rewrite lines_last by exact H. destruct r as [|c r]; [split; [reflexivity|constructor]|]. cbn [fst_words]. rewrite app_nil_r. split; [apply line_entries_ok|].
      pose proof (line_entries_lined u (c :: r) (blen A) n (match header (c :: r) with Some s => Some s | None => sec end) A [] H HA (or_introl eq_refl) eq_refl Hn) as G. rewrite app_nil_r in G. exact G.
    + assert (C1 : ~ In 13%N l) by (intros Q; apply CR; apply in_app_iff; now left). rewrite lines_line by assumption. cbn [fst_words]. rewrite words_loop_app by exact NL. change (len_utf8 10) with 1.
      destruct (IH r' (A ++ l ++ [10%N]) (S n) (match header l with Some s => Some s | None => sec end)) as [I1 I2].
      * rewrite app_length in L. cbn [List.length] in L. lia.
      * intros Q. apply CR. apply in_app_iff. right. now right.
      * right. exists (A ++ l). now rewrite app_assoc.
      * rewrite !count_occ_app, <- Hn. replace (count_occ N.eq_dec l 10%N) with 0 by (symmetry; now apply count_occ_not_In). change (count_occ N.eq_dec [10%N] 10%N) with 1. lia.
      * assert (BA : blen (A ++ l ++ [10%N]) = blen A + blen l + 1) by (rewrite !blen_app; cbn [blen]; change (len_utf8 10) with 1; lia). rewrite BA in I1, I2.
        replace ((A ++ l ++ [10%N]) ++ r') with (A ++ l ++ 10%N :: r') in I2 by now rewrite <- !app_assoc. split.
        -- rewrite map_app, filter_app, map_app, line_entries_ok, I1. reflexivity.
        -- apply Forall_app. split; [|exact I2]. apply line_entries_lined; eauto.
Qed.
(* sections *)
Definition current (sec : option str) (ls : list str) : option str := fold_left (fun a l => match header l with Some s => Some s | None => a end) ls sec.
Lemma fst_section u : forall ls start n sec k e, In (k, e) (fst_words u ls start n sec) -> exists i, nth_error ls i = Some (e_context e) /\ e_line e = n + i /\ e_section e = current sec (firstn (S i) ls).
Proof.
  induction ls as [|l ls IH]; intros start n sec k e H; [destruct H|]. cbn [fst_words] in H. apply in_app_iff in H as [H|H].
  - unfold line_entries in H. apply in_map_iff in H as ([w o] & E & H). injection E as <- <-. exists 0. cbn. repeat split; lia.
  - destruct (IH _ _ _ _ _ H) as (i & H1 & H2 & H3). exists (S i). cbn [nth_error firstn current fold_left]. split; [exact H1|]. split; [lia|exact H3].
Qed.
Lemma header_iff l s : header l = Some s <-> bracketed l s.
Proof.
  unfold header, bracketed. split.
  - destruct (starts_with [91%N] l && ends_with [93%N] l) eqn:E; [|discriminate]. apply andb_true_iff in E as [E1 E2]. intros [= <-]. apply starts_with_spec in E1 as (r & ->). apply ends_with_spec in E2 as (q & E2). cbn [app tl] in *.
    destruct q as [|d q]; [discriminate E2|]. cbn [app] in E2. injection E2 as <- ->. now rewrite removelast_last.
  - intros ->. assert (E1 : starts_with [91%N] (91%N :: s ++ [93%N]) = true) by reflexivity. assert (E2 : ends_with [93%N] (91%N :: s ++ [93%N]) = true) by (apply ends_with_spec; now exists (91%N :: s)).
    rewrite E1, E2. cbn [andb tl]. now rewrite removelast_last.
Qed.
Lemma header_none l : header l = None <-> forall s, ~ bracketed l s.
Proof. split; [intros H s Q; apply header_iff in Q; congruence|]. intros H. destruct (header l) eqn:E; [|reflexivity]. apply header_iff in E. destruct (H _ E). Qed.
Lemma current_heading ls n : n < List.length ls -> heading ls n (current None (firstn (S n) ls)).
Proof.
  induction n as [|n IH]; intros L.
  - destruct ls as [|l ls]; [cbn in L; lia|]. cbn [firstn current fold_left]. destruct (header l) as [s|] eqn:E; cbn [heading].
    + exists 0, l. apply header_iff in E. repeat split; auto. intros j l' s' Hj. lia.
    + intros j l' s' Hj H. replace j with 0 in H by lia. cbn in H. injection H as <-. now apply header_none.
  - assert (E : exists l, nth_error ls (S n) = Some l). { destruct (nth_error ls (S n)) eqn:E; [eauto|]. apply nth_error_None in E. lia. } destruct E as [l E].
    assert (F : firstn (S (S n)) ls = firstn (S n) ls ++ [l]).
    { clear IH L. revert ls E. generalize (S n) as m. clear. induction m as [|m IH]; intros [|x ls] E; try discriminate E; [cbn in E; now injection E as ->|]. cbn [nth_error] in E. apply IH in E. change (firstn (S (S m)) (x :: ls)) with (x :: firstn (S m) ls). now rewrite E. }
    rewrite F. unfold current. rewrite fold_left_app. cbn [fold_left]. fold (current None (firstn (S n) ls)). specialize (IH ltac:(lia)). destruct (header l) as [s|] eqn:Hl.
    + exists (S n), l. apply header_iff in Hl. repeat split; auto. intros j l' s' Hj. lia.
    + destruct (current None (firstn (S n) ls)) as [s|]; cbn [heading] in *.
      * destruct IH as (i & l0 & Hi & H1 & H2 & H3). exists i, l0. repeat split; auto. intros j l' s' Hj Q. destruct (Nat.eq_dec j (S n)) as [->|]; [rewrite E in Q; injection Q as <-; now apply header_none|]. apply (H3 j l' s'); [lia|exact Q].
      * intros j l' s' Hj Q. destruct (Nat.eq_dec j (S n)) as [->|]; [rewrite E in Q; injection Q as <-; now apply header_none|]. apply (IH j l' s'); [lia|exact Q].
Qed.
(* ---- search ---- *)
Definition matched (s : scope) (query : str) (m : smap (list ientry)) : list (str * ientry) :=
  flat_map (fun p => if subsequence (encode query) (encode (fst p)) then map (pair (fst p)) (filter (in_scope s) (snd p)) else []) m.
Lemma push_entries_ok max s pattern : forall l acc, max = 0 \/ List.length acc < max ->
  push_entries max s pattern l acc = acc ++ (let x := map (entry_hit pattern) (filter (in_scope s) l) in match max with 0 => x | _ => firstn (max - List.length acc) x end).
Proof.
  cbn zeta. induction l as [|e l IH]; intros acc H; cbn [push_entries].
  - cbn [filter map]. destruct max; [now rewrite app_nil_r|]. now rewrite firstn_nil, app_nil_r.
  - cbn [filter]. destruct (in_scope s e); [|now apply IH]. cbn [map]. rewrite app_length. cbn [List.length]. destruct max as [|m].
    + cbn [Nat.ltb Nat.leb andb]. rewrite IH by now left. now rewrite <- app_assoc.
    + change (0 <? S m) with true. cbn [andb]. destruct (Nat.leb_spec (S m) (List.length acc + 1)) as [L|L].
      * replace (S m - List.length acc) with 1 by lia. reflexivity.
      * rewrite IH by (rewrite app_length; cbn [List.length]; lia). rewrite app_length. cbn [List.length]. replace (S m - List.length acc) with (S (S m - (List.length acc + 1))) by lia. cbn [firstn]. now rewrite <- app_assoc.
Qed.
Lemma stream_ok max s pattern query : forall m acc, max = 0 \/ List.length acc <= max ->
  stream_loop max s pattern query m acc = acc ++ (let x := map (entry_hit pattern) (map snd (matched s query m)) in match max with 0 => x | _ => firstn (max - List.length acc) x end).
Proof.
  cbn zeta. induction m as [|[k l] m IH]; intros acc H; cbn [stream_loop].
  - cbn [matched flat_map map]. destruct max; [now rewrite app_nil_r|]. now rewrite firstn_nil, app_nil_r.
  - cbn [matched flat_map fst snd]. fold (matched s query m). destruct (subsequence _ _); [|now apply IH]. rewrite !map_app, (map_map (pair k) snd), map_id. destruct max as [|n].
    + cbn [Nat.ltb Nat.leb andb]. rewrite push_entries_ok by now left. rewrite IH by now left. now rewrite <- app_assoc.
    + change (0 <? S n) with true. cbn [andb]. destruct (Nat.leb_spec (S n) (List.length acc)) as [L|L].
      * replace (S n - List.length acc) with 0 by lia. cbn [firstn]. now rewrite app_nil_r.
      * rewrite push_entries_ok by (right; lia). cbn zeta. set (x := map (entry_hit pattern) (filter (in_scope s) l)). rewrite IH by (right; rewrite app_length, firstn_length; lia).
        rewrite <- app_assoc. f_equal. rewrite firstn_app. f_equal. rewrite app_length, firstn_length. f_equal. lia.
Qed.
Lemma group_entry {A} k (vs : list A) l : In (k, vs) (group l) <-> vs = of_key k l /\ vs <> [].
Proof.
  split.
  - intros H. apply entry_get in H; [|apply group_sorted]. rewrite group_get in H. unfold some_list in H. destruct (of_key k l) eqn:E; [discriminate H|]. injection H as <-. split; [reflexivity|discriminate].
  - intros [-> N]. apply get_entry. rewrite group_get. unfold some_list. destruct (of_key k l); [congruence|reflexivity].
Qed.
Lemma of_key_in {A} k (v : A) l : In v (of_key k l) <-> In (k, v) l.
Proof.
  unfold of_key. rewrite in_map_iff. split.
  - intros ([k' v'] & <- & H). apply filter_In in H as [H E]. cbn [fst snd] in *. apply str_eqb_eq in E. now subst.
  - intros H. exists (k, v). split; [reflexivity|]. apply filter_In. split; [exact H|]. cbn [fst]. apply str_eqb_refl.
Qed.
Lemma matched_in s query W k e : In (k, e) (matched s query (group W)) <-> In (k, e) W /\ subsequence (encode query) (encode k) = true /\ in_scope s e = true.
Proof.
  unfold matched. rewrite in_flat_map. split.
  - intros ([k' vs] & H & Q). apply group_entry in H as [-> _]. cbn [fst snd] in Q. destruct (subsequence _ (encode k')) eqn:E; [|destruct Q]. apply in_map_iff in Q as (e' & Q & F). injection Q as -> ->. apply filter_In in F as [F1 F2]. apply (of_key_in k e W) in F1. auto.
  - intros (H & E & F). exists (k, of_key k W). apply (of_key_in k e W) in H. split; [apply group_entry; split; [reflexivity|intros Q; rewrite Q in H; destruct H]|]. cbn [fst snd]. rewrite E. apply in_map_iff. exists e. split; [reflexivity|]. apply filter_In. auto.
Qed.
Definition before (a b : str * ientry) : Prop := str_lt (fst a) (fst b) \/ (fst a = fst b /\ e_pos (snd a) < e_pos (snd b)).
Lemma matched_sorted s query W : StronglySorted lt (map (fun p => e_pos (snd p)) W) -> StronglySorted before (matched s query (group W)).
Proof.
  intros SW. assert (K : forall k, StronglySorted lt (map e_pos (of_key k W))).
  { intros k. unfold of_key. clear -SW. induction W as [|[k' e] W IH]; [constructor|]. cbn [map snd] in SW. apply StronglySorted_inv in SW as [SW F]. cbn [filter fst]. destruct (str_eqb k k'); [|now apply IH]. cbn [map snd]. constructor; [now apply IH|].
    rewrite Forall_forall in *. intros x Hx. apply F. rewrite map_map in Hx. apply in_map_iff in Hx as (p & <- & Hp). apply filter_In in Hp as [Hp _]. apply in_map_iff. now exists p. }
  assert (V : forall k vs, In (k, vs) (group W) -> StronglySorted lt (map e_pos vs)) by (intros k vs H; apply group_entry in H as [-> _]; apply K).
  pose proof (group_sorted W) as S. unfold sorted in S. revert S V. generalize (group W) as m. clear. induction m as [|[k vs] m IH]; intros S V; [constructor|]. unfold sm_keys in S. cbn [map fst] in S. apply StronglySorted_inv in S as [S F].
  cbn [matched flat_map fst snd]. fold (matched s query m). specialize (IH S (fun k' vs' H => V k' vs' (or_intror H))). destruct (subsequence _ _); [|exact IH].
  specialize (V k vs (or_introl eq_refl)). assert (G : StronglySorted before (map (pair k) (filter (in_scope s) vs))).
  { clear -V. induction vs as [|e vs IHv]; [constructor|]. cbn [map] in V. apply StronglySorted_inv in V as [V F]. cbn [filter]. destruct (in_scope s e); [|now apply IHv]. cbn [map]. constructor; [now apply IHv|]. apply Forall_forall. intros [k' e'] H. apply in_map_iff in H as (x & Q & H). injection Q as <- <-.
    apply filter_In in H as [H _]. right. cbn [fst snd]. split; [reflexivity|]. rewrite Forall_forall in F. apply F. now apply in_map. }
  assert (B : forall a b, In a (map (pair k) (filter (in_scope s) vs)) -> In b (matched s query m) -> before a b).
  { intros a [k' e'] Ha Hb. apply in_map_iff in Ha as (x & <- & _). left. cbn [fst]. rewrite Forall_forall in F. apply F. unfold matched in Hb. apply in_flat_map in Hb as ([k2 vs2] & H2 & Q). cbn [fst snd] in Q. destruct (subsequence _ _); [|destruct Q]. apply in_map_iff in Q as (? & Q & _). injection Q as <- _. apply in_map_iff. now exists (k2, vs2). }
  revert G B. generalize (map (pair k) (filter (in_scope s) vs)) as a. induction a as [|x a IHa]; intros G B; [exact IH|]. cbn [app]. apply StronglySorted_inv in G as [G FG]. constructor; [apply IHa; [exact G|intros; apply B; [now right|assumption]]|].
  apply Forall_app. split; [exact FG|]. apply Forall_forall. intros b Hb. apply B; [now left|exact Hb].
Qed.
Lemma subsequence_within q s : subsequence q s = true <-> within q s.
Proof.
  revert s. induction q as [|x q IH]; intros s; [split; [constructor|reflexivity]|]. cbn [subsequence]. induction s as [|y s IHs]; [split; [discriminate|intros H; inversion H]|]. destruct (N.eqb_spec x y) as [->|N].
  - rewrite IH. split; [now constructor|]. intros H. inversion H as [|? ? ? H1|? ? ? H1]; subst; [exact H1|]. clear -H1. remember (y :: q) as z eqn:Z. revert Z. induction H1 as [|a q' s' H IH|a q' s' H IH]; intros Z; [discriminate Z| |].
    + injection Z as -> ->. now constructor.
    + constructor. now apply IH.
  - rewrite IHs. split; [now constructor|]. intros H. inversion H; subst; [congruence|assumption].
Qed.
(* ---- the linear index ---- *)
Lemma linear_in u : forall ls start n k e, In (k, e) (linear_words u ls start n) <->
  exists i l j w, nth_error ls i = Some l /\ nth_error (FormatModel.words l) j = Some w /\ k = lower u w /\
    e = Entry (start + fold_right (fun l n => blen l + 1 + n) 0 (firstn i ls) + j) l (n + i) j None.
Proof.
  assert (NU : forall (A : Type) (l : list A) n i x, In (i, x) (number n l) <-> exists j, i = n + j /\ nth_error l j = Some x).
  { induction l as [|y l IH]; intros n i x; cbn [number In].
    - split; [intros []|]. intros (j & _ & H). destruct j; discriminate H.
    - rewrite IH. split.
      + intros [[= <- <-]|(j & -> & H)]; [exists 0; split; [lia|reflexivity]|exists (S j); split; [lia|exact H]].
      + intros ([|j] & -> & H); [left; cbn in H; injection H as <-; f_equal; lia|right; exists j; split; [lia|exact H]]. }
  induction ls as [|l ls IH]; intros start n k e; cbn [linear_words].
  - split; [intros []|]. intros (i & l & j & w & H & _). destruct i; discriminate H.
  - rewrite in_app_iff, IH. split.
    + intros [H|(i & l' & j & w & H1 & H2 & -> & ->)].
      * unfold line_words in H. apply in_map_iff in H as ([j w] & E & H). cbn [fst snd] in E. injection E as <- <-. apply NU in H as (j' & -> & H). exists 0, l, j', w. cbn [nth_error firstn fold_right]. repeat split; auto. f_equal; lia.
      * exists (S i), l', j, w. cbn [nth_error firstn fold_right]. repeat split; auto. f_equal; lia.
    + intros ([|i] & l' & j & w & H1 & H2 & -> & ->); cbn [nth_error] in H1.
      * left. injection H1 as <-. unfold line_words. apply in_map_iff. exists (j, w). cbn [fst snd firstn fold_right]. split; [f_equal; f_equal; lia|]. apply NU. exists j. now split.
      * right. exists i, l', j, w. cbn [firstn fold_right]. repeat split; auto. f_equal; lia.
Qed.
Lemma str_contains_iff p s : str_contains p s = true <-> exists a b, s = a ++ p ++ b.
Proof.
  unfold str_contains. destruct (find_str p s) as [[a b]|] eqn:E.
  - apply find_str_some in E as [-> [r ->]]. split; [intros _; now exists a, r|reflexivity].
  - split; [discriminate|]. intros (a & b & ->). destruct (find_str_none _ _ E a b eq_refl).
Qed.
Lemma linear_hits u m t p : Permutation m (linear_build u t) -> forall h, In h (linear_search u m p) <->
  exists i l j w a b, nth_error (lines t) i = Some l /\ nth_error (FormatModel.words l) j = Some w /\ lower u w = a ++ lower u p ++ b /\
    h = Hit (fold_right (fun l n => blen l + 1 + n) 0 (firstn i (lines t)) + j) (fold_right (fun l n => blen l + 1 + n) 0 (firstn i (lines t)) + j + blen p) p l i j.
Proof.
  intros Pm h. unfold linear_search. rewrite in_flat_map. split.
  - intros ([k vs] & H & Q). apply (Permutation_in _ Pm) in H. apply group_entry in H as [-> _]. cbn [fst snd] in Q. destruct (str_contains _ k) eqn:E; [|destruct Q]. apply str_contains_iff in E as (a & b & E). apply in_map_iff in Q as (e & <- & Q). apply (of_key_in k e) in Q. apply linear_in in Q as (i & l & j & w & H1 & H2 & -> & ->).
    exists i, l, j, w, a, b. repeat split; auto.
  - intros (i & l & j & w & a & b & H1 & H2 & E & ->). exists (lower u w, of_key (lower u w) (linear_words u (lines t) 0 0)).
    set (e := Entry (0 + fold_right (fun l n => blen l + 1 + n) 0 (firstn i (lines t)) + j) l (0 + i) j None).
    assert (Q : In e (of_key (lower u w) (linear_words u (lines t) 0 0))) by (apply (of_key_in (lower u w) e), linear_in; exists i, l, j, w; auto).
    split; [apply (Permutation_in _ (Permutation_sym Pm)), group_entry; split; [reflexivity|intros Z; rewrite Z in Q; destruct Q]|]. cbn [fst snd].
    assert (SC : str_contains (lower u p) (lower u w) = true) by (apply str_contains_iff; eauto). rewrite SC. apply in_map_iff. exists e. split; [reflexivity|exact Q].
Qed.
Definition scoped (s : scope) (e : ientry) : Prop :=
  match s with
  | All => True
  | Lines a b => a <= e_line e <= b
  | Sections l => exists x, e_section e = Some x /\ In x l
  | Within r => r_start r <= e_pos e <= r_end r
  end.
Lemma in_scope_iff s e : in_scope s e = true <-> scoped s e.
Proof.
  destruct s as [|a b|l|r]; cbn [in_scope scoped].
  - tauto.
  - rewrite andb_true_iff, !Nat.leb_le. tauto.
  - destruct (e_section e) as [x|].
    + rewrite existsb_exists. split; [intros (y & H & E); apply str_eqb_eq in E; subst; eauto|]. intros (y & [= <-] & H). exists x. split; [exact H|apply str_eqb_refl].
    + split; [discriminate|]. intros (y & [=] & _).
  - rewrite andb_true_iff, !Nat.leb_le. tauto.
Qed.
(* What the index holds: one entry for each word of two bytes or more. *)
Definition catalogue (u : unicode) (t : str) (W : list (str * ientry)) : Prop :=
  listing (fun o => exists w, whole_word (part_of_word (alnum u)) t w o /\ 2 <= blen w) (map (fun p => e_pos (snd p)) W) /\
  forall k e, In (k, e) W ->
    (exists w, whole_word (part_of_word (alnum u)) t w (e_pos e) /\ k = lower u w) /\ heading (lines t) (e_line e) (e_section e) /\
    exists start, line_at t (e_pos e) (e_line e) start (e_context e) /\ e_column e = e_pos e - start.
Lemma word_at u t w o : In (w, o) (words_loop u t 0 None) <-> whole_word (word_char u) t w o.
Proof.
  rewrite (dec_words _ 0 t _ (proj1 (words_dec u t) 0) [] (or_introl I)). unfold whole_word. cbn [app]. split; intros (a & b & H); exists a, b; decompose [and] H; repeat split; auto; lia.
Qed.
Lemma fst_catalogue u t : word_char u 10 = false -> ~ In 13%N t -> catalogue u t (fst_words u (lines t) 0 0 None).
Proof.
  intros NL CR. destruct (fst_ok u NL (List.length t) t [] 0 None (le_n _) CR (or_introl eq_refl) eq_refl) as [E L]. cbn [app blen] in E, L.
  assert (EP : map (fun p => e_pos (snd p)) (fst_words u (lines t) 0 0 None) = map snd (filter long (words_loop u t 0 None))).
  { apply (f_equal (map snd)) in E. rewrite !map_map in E. exact E. }
  split; [split|].
  - rewrite EP. pose proof (proj1 (dec_sorted _ _ _ _ (proj1 (words_dec u t) 0))) as S. revert S. generalize (words_loop u t 0 None) as q. clear. induction q as [|[w o] q IH]; intros S; [constructor|]. cbn [map snd] in S. apply StronglySorted_inv in S as [S F]. cbn [filter]. destruct (long (w, o)); [|now apply IH]. cbn [map snd]. constructor; [now apply IH|].
    rewrite Forall_forall in *. intros x Hx. apply F. apply in_map_iff in Hx as (p & <- & Hp). apply filter_In in Hp as [Hp _]. now apply in_map.
  - intros o. rewrite EP, in_map_iff. split.
    + intros ([w o'] & <- & H). apply filter_In in H as [H B]. exists w. split; [now apply word_at|]. now apply Nat.leb_le.
    + intros (w & H & B). exists (w, o). split; [reflexivity|]. apply filter_In. split; [now apply word_at|]. now apply Nat.leb_le.
  - intros k e H. split; [|split].
    + assert (Q : In (k, e_pos e) (map (fun p => (lower u (fst p), snd p)) (filter long (words_loop u t 0 None)))) by (rewrite <- E; apply in_map_iff; now exists (k, e)).
      apply in_map_iff in Q as ([w o] & Q & Hw). cbn [fst snd] in Q. injection Q as <- <-. apply filter_In in Hw as [Hw _]. exists w. split; [now apply word_at|reflexivity].
    + apply fst_section in H as (i & H1 & H2 & ->). cbn [Nat.add] in H2. rewrite H2. apply current_heading. apply nth_error_Some. congruence.
    + rewrite Forall_forall in L. exact (L _ H).
Qed.
(* ---- replacing at given places ---- *)
Lemma swapped_at x n t : forall os o s, (forall p, In p os -> exists a m b, s = a ++ m ++ b /\ p = o + blen a /\ blen m = n) -> StronglySorted (fun a b => a + n <= b) os -> t = s -> exists t', swapped x n o os s t'.
Proof.
  intros os o s H S _. revert o s H. induction S as [|p os S IH F]; intros o s H; [exists s; constructor|].
  destruct (H p (or_introl eq_refl)) as (a & m & b & -> & -> & Hm). destruct (IH (o + blen a + n) b) as (t' & T).
  - intros q Hq. rewrite Forall_forall in F. specialize (F q Hq). destruct (H q (or_intror Hq)) as (a' & m' & b' & E & -> & Hm'). rewrite app_assoc in E.
    destruct (app_prefix_blen (a ++ m) b a' (m' ++ b') E) as (z & -> & E2); [rewrite blen_app; lia|]. exists z, m', b'. rewrite !blen_app in *. repeat split; auto. lia.
  - exists (a ++ x ++ t'). now apply sw_cons.
Qed.
