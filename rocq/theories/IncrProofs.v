From Verif Require Import BaseLemmas ParseTracker ParseLines ParseProofs IncrSpec.

(* ---- line numbers ---- *)
Lemma firstn_bytes_cons c r n : len_utf8 c <= n -> firstn n (as_bytes (c :: r)) = utf8_char c ++ firstn (n - len_utf8 c) (as_bytes r).
Proof. intros H. cbn [as_bytes flat_map]. fold (as_bytes r). rewrite firstn_app, utf8_char_len, firstn_all2; [reflexivity|rewrite utf8_char_len; lia]. Qed.
Lemma count_high (l : list N) : Forall (fun b => (128 <= b)%N) l -> count_occ N.eq_dec l 10%N = 0.
Proof. induction 1 as [|b l Hb _ IH]; [reflexivity|]. cbn [count_occ]. destruct (N.eq_dec b 10); [subst; lia|exact IH]. Qed.
Lemma count_firstn_le {A} (d : forall x y : A, {x = y} + {x <> y}) l n x : count_occ d (firstn n l) x <= count_occ d l x.
Proof. revert n. induction l as [|y l IH]; intros [|n]; cbn [firstn count_occ]; try lia. specialize (IH n). destruct (d y x); lia. Qed.
Lemma nl_bytes_cons c r n : nl_bytes (c :: r) n = if n =? 0 then 0%N else ((if is_nl c then 1 else 0) + nl_bytes r (n - len_utf8 c)%nat)%N.
Proof.
  unfold nl_bytes. destruct (n =? 0) eqn:E0; [apply Nat.eqb_eq in E0; subst; reflexivity|]. apply Nat.eqb_neq in E0.
  destruct (is_nl c) eqn:E.
  - apply N.eqb_eq in E. subst c. destruct n as [|n]; [lia|]. change (as_bytes (10%N :: r)) with (10%N :: as_bytes r). cbn [firstn count_occ].
    destruct (N.eq_dec 10 10); [|congruence]. change (len_utf8 10) with 1. replace (S n - 1) with n by lia. lia.
  - assert (H : count_occ N.eq_dec (utf8_char c) 10%N = 0).
    { destruct (N.ltb_spec c 128) as [L|L]; [rewrite utf8_char_ascii by exact L; cbn [count_occ]; destruct (N.eq_dec c 10); [subst; discriminate|reflexivity]|].
      apply count_high, utf8_char_high. exact L. }
    destruct (Nat.leb_spec (len_utf8 c) n) as [L|L].
    + rewrite firstn_bytes_cons by exact L. rewrite count_occ_app, H. lia.
    + replace (n - len_utf8 c) with 0 by lia. cbn [firstn]. cbn [count_occ]. cbn [as_bytes flat_map]. fold (as_bytes r).
      rewrite firstn_app, utf8_char_len. replace (n - len_utf8 c) with 0 by lia. cbn [firstn]. rewrite app_nil_r.
      pose proof (count_firstn_le N.eq_dec (utf8_char c) n 10%N). lia.
Qed.
Lemma line_number_loop_ok s : forall cur pos line, cur <= pos -> (line + nl_bytes s (pos - cur)%nat <= u32_max)%N ->
  line_number_loop s cur pos line = Ok (line + nl_bytes s (pos - cur)%nat)%N.
Proof.
  induction s as [|c r IH]; intros cur pos line H K; cbn [line_number_loop].
  - unfold nl_bytes. destruct (pos - cur); cbn; f_equal; lia.
  - rewrite nl_bytes_cons in K |- *. destruct (pos <=? cur) eqn:E.
    + apply Nat.leb_le in E. replace (pos - cur) with 0 by lia. cbn. f_equal; lia.
    + apply Nat.leb_gt in E. replace (pos - cur =? 0) with false in * by (symmetry; apply Nat.eqb_neq; lia).
      assert (E2 : nl_bytes r (pos - cur - len_utf8 c) = nl_bytes r (pos - (cur + len_utf8 c))) by (f_equal; lia).
      rewrite E2 in *. pose proof (len_utf8_pos c).
      destruct (Nat.leb_spec (cur + len_utf8 c) pos) as [L|L].
      * destruct (is_nl c).
        -- unfold u32_add. destruct (u32_max <? line + 1)%N eqn:E1; [apply N.ltb_lt in E1; lia|]. cbn [res_bind]. rewrite IH by lia. f_equal; lia.
        -- rewrite IH by lia. f_equal; lia.
      * (* pos falls inside this character: it is not a newline *)
        assert (Ec : is_nl c = false). { destruct (is_nl c) eqn:E3; [|reflexivity]. apply N.eqb_eq in E3. subst c. change (len_utf8 10) with 1 in L. lia. }
        rewrite Ec. replace (pos - (cur + len_utf8 c)) with 0 by lia. cbn [nl_bytes firstn count_occ].
        unfold nl_bytes. cbn. destruct r as [|d r]; cbn [line_number_loop]; [f_equal; lia|].
        replace (pos <=? cur + len_utf8 c) with true by (symmetry; apply Nat.leb_le; lia). f_equal; lia.
Qed.
Lemma line_number_ok src pos : (1 + nl_bytes src pos <= u32_max)%N -> calculate_line_number src pos = Ok (1 + nl_bytes src pos)%N.
Proof. intros H. unfold calculate_line_number. rewrite line_number_loop_ok by (rewrite ?Nat.sub_0_r; lia). rewrite Nat.sub_0_r. reflexivity. Qed.
Lemma nl_bytes_at a b : nl_bytes (a ++ b) (blen a) = newlines a.
Proof.
  induction a as [|c a IH]; [destruct b; reflexivity|]. cbn [app]. rewrite nl_bytes_cons, blen_cons. pose proof (len_utf8_pos c).
  replace (len_utf8 c + blen a =? 0) with false by (symmetry; apply Nat.eqb_neq; lia).
  replace (len_utf8 c + blen a - len_utf8 c) with (blen a) by lia. rewrite IH. unfold newlines. cbn [filter]. destruct (is_nl c); cbn [List.length]; lia.
Qed.
Lemma line_number_at a b : (1 + newlines a <= u32_max)%N -> calculate_line_number (a ++ b) (blen a) = Ok (true_line a).
Proof. intros H. rewrite line_number_ok by (rewrite nl_bytes_at; exact H). rewrite nl_bytes_at. reflexivity. Qed.

(* the loop over the text in front of both ends *)
Lemma line_range_skip p r : forall cur a b line, cur + blen p <= a -> a <= b -> (line + newlines p <= u32_max)%N ->
  (0 < line)%N ->
  line_range_loop (p ++ r) cur a b line 0 = line_range_loop r (cur + blen p) a b (line + newlines p) 0.
Proof.
  induction p as [|c p IH]; intros cur a b line H1 H2 H3 H4; cbn [app].
  - cbn [blen]. f_equal; unfold newlines; cbn; lia.
  - rewrite blen_cons in *. pose proof (len_utf8_pos c). cbn [line_range_loop].
    replace (a <=? cur) with false by (symmetry; apply Nat.leb_gt; lia). cbn [andb].
    replace (b <=? cur) with false by (symmetry; apply Nat.leb_gt; lia).
    assert (E : newlines (c :: p) = ((if is_nl c then 1 else 0) + newlines p)%N) by (unfold newlines; cbn [filter]; destruct (is_nl c); cbn [List.length]; lia).
    rewrite E in *. destruct (is_nl c).
    + unfold u32_add. destruct (u32_max <? line + 1)%N eqn:E1; [apply N.ltb_lt in E1; lia|]. cbn [res_bind]. rewrite IH by lia. f_equal; lia.
    + rewrite IH by lia. f_equal; lia.
Qed.
Lemma line_range_skip2 p r : forall cur a b line start, a <= cur -> cur + blen p <= b -> (line + newlines p <= u32_max)%N ->
  (0 < start)%N ->
  line_range_loop (p ++ r) cur a b line start = line_range_loop r (cur + blen p) a b (line + newlines p) start.
Proof.
  induction p as [|c p IH]; intros cur a b line start H1 H2 H3 H4; cbn [app].
  - cbn [blen]. f_equal; unfold newlines; cbn; lia.
  - rewrite blen_cons in *. pose proof (len_utf8_pos c). cbn [line_range_loop].
    replace (start =? 0)%N with false by (symmetry; apply N.eqb_neq; lia). rewrite andb_false_r.
    replace (b <=? cur) with false by (symmetry; apply Nat.leb_gt; lia).
    assert (E : newlines (c :: p) = ((if is_nl c then 1 else 0) + newlines p)%N) by (unfold newlines; cbn [filter]; destruct (is_nl c); cbn [List.length]; lia).
    rewrite E in *. destruct (is_nl c).
    + unfold u32_add. destruct (u32_max <? line + 1)%N eqn:E1; [apply N.ltb_lt in E1; lia|]. cbn [res_bind]. rewrite IH by lia. f_equal; lia.
    + rewrite IH by lia. f_equal; lia.
Qed.
Lemma line_range_ok p m q : m ++ q <> [] -> (1 + newlines (p ++ m) <= u32_max)%N ->
  calculate_line_range (p ++ m ++ q) (blen p) (blen (p ++ m)) = Ok (true_line p, true_line (p ++ m)).
Proof.
  intros Hne H. rewrite newlines_app in H. unfold calculate_line_range. rewrite line_range_skip by (rewrite ?blen_app; lia). cbn [plus]. unfold true_line. rewrite newlines_app, blen_app.
  destruct m as [|c m].
  - cbn [app] in *. destruct q as [|d q]; [congruence|]. cbn [line_range_loop]. rewrite Nat.leb_refl. cbn [blen andb]. rewrite Nat.add_0_r, Nat.leb_refl. cbn [andb].
    change (0 =? 0)%N with true. cbn [andb]. change (newlines []) with 0%N. repeat f_equal; lia.
  - cbn [app line_range_loop]. rewrite Nat.leb_refl. change (0 =? 0)%N with true. cbn [andb]. rewrite blen_cons. pose proof (len_utf8_pos c).
    replace (blen p + (len_utf8 c + blen m) <=? blen p) with false by (symmetry; apply Nat.leb_gt; lia).
    assert (E : newlines (c :: m) = ((if is_nl c then 1 else 0) + newlines m)%N) by (unfold newlines; cbn [filter]; destruct (is_nl c); cbn [List.length]; lia).
    assert (Hend : forall l st, (0 < st)%N -> line_range_loop q (blen p + len_utf8 c + blen m) (blen p) (blen p + (len_utf8 c + blen m)) l st = Ok (st, l)).
    { intros l st Hst. destruct q as [|d q]; cbn [line_range_loop]; [reflexivity|]. replace (st =? 0)%N with false by (symmetry; apply N.eqb_neq; lia). rewrite andb_false_r.
      replace (blen p + (len_utf8 c + blen m) <=? blen p + len_utf8 c + blen m) with true by (symmetry; apply Nat.leb_le; lia). reflexivity. }
    rewrite E in *. destruct (is_nl c).
    + unfold u32_add. destruct (u32_max <? 1 + newlines p + 1)%N eqn:E1; [apply N.ltb_lt in E1; lia|]. cbn [res_bind]. rewrite line_range_skip2 by lia. rewrite Hend by lia. f_equal. f_equal; lia.
    + rewrite line_range_skip2 by lia. rewrite Hend by lia. f_equal. f_equal; lia.
Qed.

(* ---- the edited source ---- *)
Lemma build_ok src c : (exists src', edited src c src') -> exists src', build_modified_source src (ch_start c) (ch_end c) (ch_text c) = Ok src' /\ edited src c src'.
Proof.
  intros (src' & p & m & q & E1 & E2 & E3 & E4). exists src'. split; [|exists p, m, q; auto]. subst src src'. unfold build_modified_source. rewrite blen_app in E3.
  replace (ch_end c <? ch_start c) with false by (symmetry; apply Nat.ltb_ge; lia).
  replace (blen (p ++ m ++ q) <? ch_end c - ch_start c) with false by (symmetry; apply Nat.ltb_ge; rewrite !blen_app; lia).
  rewrite <- E2, <- E3, slice_to_app. cbn [or_panic res_bind]. rewrite app_assoc, <- blen_app, slice_from_app. reflexivity.
Qed.
Lemma build_inv src a b t src' : build_modified_source src a b t = Ok src' -> edited src (Change a b t) src'.
Proof.
  unfold build_modified_source. destruct (b <? a) eqn:E0; [discriminate|]. apply Nat.ltb_ge in E0. destruct (_ <? _); [discriminate|].
  destruct (slice_to src a) as [p|] eqn:E1; [|discriminate]. cbn [or_panic res_bind]. destruct (slice_from src b) as [q|] eqn:E2; [|discriminate]. cbn. intros H. injection H as <-.
  apply slice_to_spec in E1. destruct E1 as (x & E1 & L1). apply slice_from_spec in E2. destruct E2 as (y & E2 & L2).
  rewrite E1 in E2. destruct (app_prefix_blen p x y q E2) as (m & F1 & F2); [lia|]. subst. exists p, m, q. cbn [ch_start ch_end ch_text]. repeat split.
Qed.

Lemma piece_slice src a b t : piece src a b t <-> slice src a b = Some t.
Proof.
  rewrite slice_spec. unfold piece. split.
  - intros (x & y & -> & <- & <-). exists x, y. rewrite blen_app. auto.
  - intros (x & y & -> & <- & <-). exists x, y. rewrite blen_app. auto.
Qed.

Ltac nb := repeat match goal with
  | |- context [if ?a <=? ?b then _ else _] => destruct (Nat.leb_spec a b)
  | |- context [if ?a <? ?b then _ else _] => destruct (Nat.ltb_spec a b)
  end.
Lemma adjust_before src src' c x y t : edited src c src' -> piece src x y t -> ch_end c <= x ->
  exists x' y', adjust_range x y c = Ok (x', y') /\ x' + ch_end c = x + ch_start c + blen (ch_text c) /\ y' + ch_end c = y + ch_start c + blen (ch_text c) /\ piece src' x' y' t.
Proof.
  intros (p & m & q & E1 & E2 & E3 & E4) (u & v & F1 & F2 & F3) H. rewrite blen_app in *. unfold adjust_range.
  replace (ch_end c <=? x) with true by (symmetry; apply Nat.leb_le; lia). replace (ch_end c <? ch_start c) with false by (symmetry; apply Nat.ltb_ge; lia).
  assert (P : exists w, u = p ++ m ++ w /\ q = w ++ t ++ v).
  { rewrite E1 in F1. rewrite app_assoc in F1. destruct (app_prefix_blen (p ++ m) q u (t ++ v) F1) as (w & G1 & G2); [rewrite blen_app; lia|].
    exists w. rewrite <- app_assoc in G1. auto. }
  destruct P as (w & -> & ->). rewrite !blen_app in *.
  assert (Q : piece src' (blen p + blen (ch_text c) + blen w) (blen p + blen (ch_text c) + blen w + blen t) t).
  { exists (p ++ ch_text c ++ w), v. subst src'. rewrite <- !app_assoc. split; [reflexivity|]. rewrite !blen_app. lia. }
  destruct (ch_end c - ch_start c <=? blen (ch_text c)) eqn:E; [apply Nat.leb_le in E|apply Nat.leb_gt in E]; eexists; eexists; (split; [reflexivity|]); (split; [lia|]); (split; [lia|]).
  - replace (x + _) with (blen p + blen (ch_text c) + blen w) by lia. replace (y + _) with (blen p + blen (ch_text c) + blen w + blen t) by lia. exact Q.
  - replace (x - _) with (blen p + blen (ch_text c) + blen w) by lia. replace (y - _) with (blen p + blen (ch_text c) + blen w + blen t) by lia. exact Q.
Qed.
Lemma adjust_after src src' c x y t : edited src c src' -> piece src x y t -> y <= ch_start c -> x < y ->
  adjust_range x y c = Ok (x, y) /\ piece src' x y t.
Proof.
  intros (p & m & q & E1 & E2 & E3 & E4) (u & v & F1 & F2 & F3) H H0. rewrite blen_app in *. unfold adjust_range.
  replace (ch_end c <=? x) with false by (symmetry; apply Nat.leb_gt; lia). replace (y <=? ch_start c) with true by (symmetry; apply Nat.leb_le; lia).
  split; [reflexivity|]. rewrite E1 in F1. symmetry in F1. rewrite app_assoc in F1. destruct (app_prefix_blen (u ++ t) v p (m ++ q) F1) as (w & G1 & G2); [rewrite blen_app; lia|].
  subst p. exists u, (w ++ ch_text c ++ q). subst src'. rewrite <- !app_assoc. split; [reflexivity|]. rewrite blen_app. lia.
Qed.
Lemma adjust_overlap src src' c x y t : edited src c src' -> piece src x y t -> x < ch_end c -> ch_start c < y ->
  exists x' y' before after, adjust_range x y c = Ok (x', y') /\ x' = Nat.min x (ch_start c) /\
    piece_or_nil src x (ch_start c) before /\ piece_or_nil src (ch_end c) y after /\ piece src' x' y' (before ++ ch_text c ++ after).
Proof.
  intros (p & m & q & E1 & E2 & E3 & E4) (u & v & F1 & F2 & F3) H1 H2. rewrite blen_app in *. unfold adjust_range.
  replace (ch_end c <=? x) with false by (symmetry; apply Nat.leb_gt; lia). replace (y <=? ch_start c) with false by (symmetry; apply Nat.leb_gt; lia).
  replace (ch_end c <? ch_start c) with false by (symmetry; apply Nat.ltb_ge; lia). subst src.
  (* the part of the span before the change *)
  assert (B : exists before u', p = u' ++ before /\ blen u' = Nat.min x (ch_start c) /\ piece_or_nil (p ++ m ++ q) x (ch_start c) before).
  { unfold piece_or_nil. destruct (x <? ch_start c) eqn:E; [apply Nat.ltb_lt in E|apply Nat.ltb_ge in E].
    - symmetry in F1. destruct (app_prefix_blen u (t ++ v) p (m ++ q) F1) as (w & G1 & G2); [lia|]. exists w, u. subst p. rewrite blen_app in *. split; [reflexivity|]. split; [lia|].
      exists u, (m ++ q). rewrite <- app_assoc. split; [reflexivity|]. rewrite blen_app. lia.
    - exists [], p. rewrite app_nil_r. split; [reflexivity|]. split; [lia|reflexivity]. }
  assert (A : exists after v', q = after ++ v' /\ blen after = y - ch_end c /\ piece_or_nil (p ++ m ++ q) (ch_end c) y after).
  { unfold piece_or_nil. destruct (ch_end c <? y) eqn:E; [apply Nat.ltb_lt in E|apply Nat.ltb_ge in E].
    - rewrite app_assoc in F1. rewrite (app_assoc u) in F1. destruct (app_prefix_blen (p ++ m) q (u ++ t) v F1) as (w & G1 & G2); [rewrite !blen_app; lia|].
      apply (f_equal blen) in G1 as G3. rewrite !blen_app in G3. exists w, v. subst q. split; [reflexivity|]. split; [lia|]. exists (p ++ m), v. rewrite <- app_assoc. split; [reflexivity|]. rewrite !blen_app. lia.
    - exists [], q. split; [reflexivity|]. split; [cbn; lia|reflexivity]. }
  destruct B as (before & u' & B1 & B2 & B3). destruct A as (after & v' & A1 & A2 & A3).
  assert (Q : piece src' (Nat.min x (ch_start c)) (ch_start c + blen (ch_text c) + (y - ch_end c)) (before ++ ch_text c ++ after)).
  { exists u', v'. subst src'. rewrite A1 at 1. rewrite B1 at 1. rewrite <- !app_assoc. split; [reflexivity|]. split; [exact B2|]. apply (f_equal blen) in B1. rewrite !blen_app in *. lia. }
  destruct (y <=? ch_end c) eqn:Ey; [apply Nat.leb_le in Ey|apply Nat.leb_gt in Ey].
  - exists (Nat.min x (ch_start c)), (ch_start c + blen (ch_text c)), before, after. repeat split; try assumption.
    replace (ch_start c + blen (ch_text c) + (y - ch_end c)) with (ch_start c + blen (ch_text c)) in Q by lia. exact Q.
  - destruct (ch_end c - ch_start c <=? blen (ch_text c)) eqn:El; [apply Nat.leb_le in El|apply Nat.leb_gt in El]; eexists; eexists; exists before, after; (split; [reflexivity|]); (split; [reflexivity|]); (split; [exact B3|]); (split; [exact A3|]).
    + replace (y + _) with (ch_start c + blen (ch_text c) + (y - ch_end c)) by lia. exact Q.
    + replace (y - _) with (ch_start c + blen (ch_text c) + (y - ch_end c)) by lia. exact Q.
Qed.
(* adjust_section_spans moves spans after the change the same way *)
Lemma adjust_span_moves src src' c sp t : edited src c src' -> piece src (sp_start sp) (sp_end sp) t -> ch_end c <= sp_start sp ->
  piece src' (sp_start (adjust_span c sp)) (sp_end (adjust_span c sp)) t.
Proof.
  intros H1 H2 H3. destruct (adjust_before src src' c _ _ t H1 H2 H3) as (x & y & A & _ & _ & P). destruct H1 as (p & m & q & _ & E2 & E3 & _). rewrite blen_app in E3.
  unfold adjust_range in A. replace (ch_end c <=? sp_start sp) with true in A by (symmetry; apply Nat.leb_le; lia).
  replace (ch_end c <? ch_start c) with false in A by (symmetry; apply Nat.ltb_ge; lia). unfold adjust_span.
  destruct (ch_end c - ch_start c <=? blen (ch_text c)); cbn [sp_start sp_end]; injection A as <- <-; exact P.
Qed.

(* ---- equality ignoring spans, and deltas ---- *)
Lemma opt_str_eqb_eq a b : opt_str_eqb a b = true <-> a = b.
Proof. destruct a, b; cbn; rewrite ?str_eqb_eq; split; congruence. Qed.
Lemma event_type_eqb_eq a b : event_type_eqb a b = true <-> a = b.
Proof. destruct a, b; cbn; split; congruence. Qed.
Lemma section_type_eqb_eq a b : section_type_eqb a b = true <-> a = b.
Proof. destruct a, b; cbn; split; congruence. Qed.
Lemma events_equal_eq a b : events_equal a b = true <-> set_event_span a here = set_event_span b here.
Proof.
  unfold events_equal. rewrite !andb_true_iff, !str_eqb_eq, !opt_str_eqb_eq, event_type_eqb_eq.
  destruct a as [a1 a2 a3 a4 a5 a6 a7 a8 a9 a10 a11 a12 a13 a14], b as [b1 b2 b3 b4 b5 b6 b7 b8 b9 b10 b11 b12 b13 b14]. unfold set_event_span. cbn. split.
  - intros H. decompose [and] H. subst. reflexivity.
  - intros H. injection H; intros; subst. repeat split.
Qed.
Lemma styles_equal_eq a b : styles_equal a b = true <-> set_style_span a here = set_style_span b here.
Proof.
  unfold styles_equal. rewrite !andb_true_iff, !str_eqb_eq, !opt_str_eqb_eq.
  destruct a as [a1 a2 a3 a4 a5 a6 a7 a8 a9 a10 a11 a12 a13 a14 a15 a16 a17 a18 a19 a20 a21 a22 a23 a24 a25 a26 a27 a28],
    b as [b1 b2 b3 b4 b5 b6 b7 b8 b9 b10 b11 b12 b13 b14 b15 b16 b17 b18 b19 b20 b21 b22 b23 b24 b25 b26 b27 b28]. unfold set_style_span. cbn. split.
  - intros H. decompose [and] H. subst. reflexivity.
  - intros H. injection H; intros; subst. repeat split.
Qed.
Lemma all2_map {A B} (eq : A -> A -> bool) (f : A -> B) : (forall x y, eq x y = true <-> f x = f y) -> forall a b, all2 eq a b = true <-> map f a = map f b.
Proof.
  intros H a. induction a as [|x a IH]; intros [|y b]; cbn; try (split; congruence). rewrite andb_true_iff, H, IH. split; [intros [-> ->]; reflexivity|]. intros E. injection E; auto.
Qed.
Lemma all2_str a b : all2 str_eqb a b = true <-> a = b.
Proof. rewrite (all2_map str_eqb (fun x => x)) by (intros; apply str_eqb_eq). rewrite !map_id. reflexivity. Qed.
Lemma media_equal_eq a b : media_equal a b = true <-> bare_media a = bare_media b.
Proof.
  unfold media_equal, bare_media. rewrite andb_true_iff, str_eqb_eq, all2_str. split; [intros [-> ->]; reflexivity|]. intros E. injection E; auto.
Qed.
Lemma sections_equal_eq a b : sections_equal a b = true <-> bare a = bare b.
Proof.
  destruct a, b; cbn [sections_equal bare]; try (split; congruence).
  - rewrite (all2_map field_equal (fun x => x)). { rewrite !map_id. split; [intros ->; reflexivity|]. intros E. injection E; auto. }
    intros [a1 a2] [b1 b2]. unfold field_equal. cbn. rewrite andb_true_iff, !str_eqb_eq. split; [intros [-> ->]; reflexivity|]. intros E. injection E; auto.
  - rewrite (all2_map styles_equal _ styles_equal_eq). split; [intros ->; reflexivity|]. intros E. injection E; auto.
  - rewrite (all2_map events_equal _ events_equal_eq). split; [intros ->; reflexivity|]. intros E. injection E; auto.
  - rewrite (all2_map media_equal _ media_equal_eq). split; [intros ->; reflexivity|]. intros E. injection E; auto.
  - rewrite (all2_map media_equal _ media_equal_eq). split; [intros ->; reflexivity|]. intros E. injection E; auto.
Qed.
Lemma bare_type a : section_type_of (bare a) = section_type_of a.
Proof. destruct a; reflexivity. Qed.

(* what the delta does with one old section *)
Definition kept_section (new : list section) (s : section) : list section :=
  match find (same_type (section_type_of s)) new with
  | Some n => [if sections_equal s n then s else n]
  | None => []
  end.
Lemma delta_old_bounds new old : forall i m d, delta_old i old new = (m, d) -> Forall (fun x => i <= fst x) m /\ Forall (fun x => i <= x) d.
Proof.
  induction old as [|s old IH]; intros i m d; cbn [delta_old]; [intros H; injection H as <- <-; auto|].
  destruct (delta_old (S i) old new) as [m' d'] eqn:E. destruct (IH _ _ _ E) as [Hm Hd].
  assert (Hm' : Forall (fun x => i <= fst x) m') by (eapply Forall_impl; [|exact Hm]; cbn; intros; lia).
  assert (Hd' : Forall (fun x => i <= x) d') by (eapply Forall_impl; [|exact Hd]; cbn; intros; lia).
  destruct (find _ new) as [n|]; [destruct (sections_equal s n)|]; intros H; injection H as <- <-; split; auto; constructor; cbn; auto.
Qed.
Lemma delta_old_apply new old : forall i m d d0 m0, delta_old i old new = (m, d) -> Forall (fun x => x < i) d0 -> Forall (fun x => fst x < i) m0 ->
  flat_map (fun p : nat * section => if existsb (Nat.eqb (fst p)) (d0 ++ d) then [] else match find (fun x => fst x =? fst p) (m0 ++ m) with Some x => [snd x] | None => [snd p] end)
    (combine (seq i (List.length old)) old) = flat_map (kept_section new) old.
Proof.
  assert (Hn : forall (l : list nat) i, Forall (fun x => x < i \/ i < x) l -> existsb (Nat.eqb i) l = false).
  { intros l i Hl. induction Hl as [|x l Hx _ IH]; [reflexivity|]. cbn. rewrite IH, orb_false_r. apply Nat.eqb_neq. lia. }
  assert (Hf : forall (l : list (nat * section)) i, Forall (fun x => fst x < i \/ i < fst x) l -> find (fun x => fst x =? i) l = None).
  { intros l i Hl. induction Hl as [|x l Hx _ IH]; [reflexivity|]. cbn. rewrite IH. replace (fst x =? i) with false by (symmetry; apply Nat.eqb_neq; lia). reflexivity. }
  assert (Hfa : forall (a b : list (nat * section)) i, find (fun x => fst x =? i) a = None -> find (fun x => fst x =? i) (a ++ b) = find (fun x => fst x =? i) b).
  { intros a b i. induction a as [|x a IH]; [reflexivity|]. cbn. destruct (fst x =? i); [discriminate|exact IH]. }
  induction old as [|s old IH]; intros i m d d0 m0; cbn [delta_old]; [reflexivity|]. intros H Hd0 Hm0.
  destruct (delta_old (S i) old new) as [m' d'] eqn:E. destruct (delta_old_bounds _ _ _ _ _ E) as [Bm Bd]. cbn [List.length seq combine flat_map fst snd]. unfold kept_section at 1.
  assert (D0 : existsb (Nat.eqb i) d0 = false) by (apply Hn; eapply Forall_impl; [|exact Hd0]; cbn; intros; lia).
  assert (M0 : find (fun x => fst x =? i) m0 = None) by (apply Hf; eapply Forall_impl; [|exact Hm0]; cbn; intros; lia).
  assert (D1 : existsb (Nat.eqb i) d' = false) by (apply Hn; eapply Forall_impl; [|exact Bd]; cbn; intros; lia).
  assert (M1 : find (fun x => fst x =? i) m' = None) by (apply Hf; eapply Forall_impl; [|exact Bm]; cbn; intros; lia).
  assert (D2 : Forall (fun x => x < S i) d0) by (eapply Forall_impl; [|exact Hd0]; cbn; intros; lia).
  assert (M2 : Forall (fun x : nat * section => fst x < S i) m0) by (eapply Forall_impl; [|exact Hm0]; cbn; intros; lia).
  destruct (find (same_type (section_type_of s)) new) as [n|]; [destruct (sections_equal s n)|]; injection H as <- <-.
  - rewrite existsb_app, D0, D1, Hfa, M1 by exact M0. cbn [orb]. f_equal. apply (IH _ _ _ _ _ E); assumption.
  - rewrite existsb_app, D0, D1, Hfa by exact M0. cbn [orb find fst]. rewrite Nat.eqb_refl. cbn [snd]. f_equal.
    replace (m0 ++ (i, n) :: m') with ((m0 ++ [(i, n)]) ++ m') by (rewrite <- app_assoc; reflexivity). apply (IH _ _ _ _ _ E); [assumption|]. apply Forall_app. split; [assumption|]. repeat constructor. 
  - rewrite existsb_app. cbn [existsb]. rewrite Nat.eqb_refl, !orb_true_r. cbn [orb app]. 
    replace (d0 ++ i :: d') with ((d0 ++ [i]) ++ d') by (rewrite <- app_assoc; reflexivity). apply (IH _ _ _ _ _ E); [|assumption]. apply Forall_app. split; [assumption|]. repeat constructor.
Qed.
Lemma apply_delta_eq old new : apply_delta (sc_sections old) (calculate_delta old new) =
  flat_map (kept_section (sc_sections new)) (sc_sections old) ++
  filter (fun n => negb (existsb (same_type (section_type_of n)) (sc_sections old))) (sc_sections new).
Proof.
  unfold apply_delta, calculate_delta. destruct (delta_old 0 (sc_sections old) (sc_sections new)) as [m d] eqn:E. cbn [dl_added dl_modified dl_removed].
  f_equal. exact (delta_old_apply _ _ _ _ _ [] [] E (Forall_nil _) (Forall_nil _)).
Qed.

Lemma NoDup_app_intro {A} (a b : list A) : NoDup a -> NoDup b -> (forall x, In x a -> In x b -> False) -> NoDup (a ++ b).
Proof.
  induction 1 as [|x a Hx _ IH]; intros Hb H; [exact Hb|]. cbn. constructor.
  - rewrite in_app_iff. intros [K|K]; [exact (Hx K)|]. exact (H x (or_introl eq_refl) K).
  - apply IH; [exact Hb|]. intros y Ka. exact (H y (or_intror Ka)).
Qed.
Lemma find_type_in t l n : find (same_type t) l = Some n -> In n l /\ section_type_of n = t.
Proof. intros H. split; [eapply find_some; exact H|]. apply find_some in H. apply section_type_eqb_eq, H. Qed.
Lemma find_type_unique t l n : NoDup (map section_type_of l) -> In n l -> section_type_of n = t -> find (same_type t) l = Some n.
Proof.
  induction l as [|s l IH]; intros H1 H2 H3; [contradiction|]. cbn [map] in H1. inversion H1 as [|? ? N1 N2]; subst. cbn [find]. destruct (same_type (section_type_of n) s) eqn:E.
  - destruct H2 as [->|H2]; [reflexivity|]. apply section_type_eqb_eq in E. exfalso. apply N1. rewrite E. apply in_map. exact H2.
  - destruct H2 as [->|H2]; [unfold same_type in E; rewrite (proj2 (section_type_eqb_eq _ _) eq_refl) in E; discriminate|]. apply IH; auto.
Qed.
Lemma kept_types new old : NoDup (map section_type_of old) -> NoDup (map section_type_of (flat_map (kept_section new) old)) /\
  (forall x, In x (flat_map (kept_section new) old) -> In (section_type_of x) (map section_type_of old)).
Proof.
  induction old as [|s old IH]; intros H; [split; [constructor|intros x []]|]. cbn [map] in H. inversion H as [|? ? N1 N2]; subst. destruct (IH N2) as [I1 I2]. cbn [flat_map]. 
  unfold kept_section at 1 3. destruct (find (same_type (section_type_of s)) new) as [n|] eqn:E.
  - apply find_type_in in E. destruct E as [_ E]. assert (T : section_type_of (if sections_equal s n then s else n) = section_type_of s) by (destruct (sections_equal s n); auto).
    cbn [app map]. rewrite T. split.
    + constructor; [|exact I1]. intros K. apply N1. apply in_map_iff in K. destruct K as (y & Ky & K). rewrite <- Ky. apply I2, K.
    + intros x [<-|K]; [left; symmetry; exact T|right; apply I2, K].
  - cbn [app]. split; [exact I1|]. intros x K. right. apply I2, K.
Qed.
Lemma NoDup_bare l : NoDup (map section_type_of l) -> NoDup (map bare l).
Proof.
  induction l as [|s l IH]; intros H; [constructor|]. cbn [map] in *. inversion H as [|? ? N1 N2]; subst. constructor; [|apply IH, N2].
  intros K. apply in_map_iff in K. destruct K as (y & Ky & K). apply N1. rewrite <- bare_type, <- Ky, bare_type. apply in_map, K.
Qed.
Lemma existsb_type t l : existsb (same_type t) l = true <-> In t (map section_type_of l).
Proof. rewrite existsb_exists, in_map_iff. unfold same_type. split; intros (x & A & B); exists x; rewrite section_type_eqb_eq in *; auto. Qed.
Lemma delta_rebuilds old new : NoDup (map section_type_of (sc_sections old)) -> NoDup (map section_type_of (sc_sections new)) ->
  Permutation (map bare (apply_delta (sc_sections old) (calculate_delta old new))) (map bare (sc_sections new)).
Proof.
  intros H1 H2. rewrite apply_delta_eq. destruct (kept_types (sc_sections new) _ H1) as [K1 K2]. apply NoDup_Permutation.
  - apply NoDup_bare. rewrite map_app. apply NoDup_app_intro.
    + exact K1.
    + clear -H2. induction (sc_sections new) as [|s l IH]; [constructor|]. cbn [map filter] in *. inversion H2 as [|? ? N1 N2]; subst. destruct (negb _); [|apply IH, N2]. cbn [map]. constructor; [|apply IH, N2].
      intros K. apply in_map_iff in K. destruct K as (y & Ky & K). apply filter_In in K. apply N1. rewrite <- Ky. apply in_map, K.
    + intros t Ha Hb. apply in_map_iff in Ha. destruct Ha as (x & <- & Ha). apply K2 in Ha. apply in_map_iff in Hb. destruct Hb as (y & Hy & Hb). apply filter_In in Hb. destruct Hb as [_ Hb].
      apply negb_true_iff in Hb. assert (existsb (same_type (section_type_of y)) (sc_sections old) = true) by (apply existsb_type; rewrite Hy; exact Ha). congruence.
  - apply NoDup_bare, H2.
  - intros x. rewrite map_app, in_app_iff, !in_map_iff. split.
    + intros [(y & <- & K)|(y & <- & K)].
      * apply in_flat_map in K. destruct K as (s & K & L). unfold kept_section in L. destruct (find _ _) as [n|] eqn:E; [|contradiction]. apply find_type_in in E. destruct E as [E _].
        destruct L as [<-|[]]. exists n. split; [|exact E]. destruct (sections_equal s n) eqn:Q; [|reflexivity]. apply sections_equal_eq in Q. auto.
      * exists y. split; [reflexivity|]. apply filter_In in K. apply K.
    + intros (y & <- & K). destruct (existsb (same_type (section_type_of y)) (sc_sections old)) eqn:E.
      * left. apply existsb_type, in_map_iff in E. destruct E as (s & Es & E). exists (if sections_equal s y then s else y). split.
        -- destruct (sections_equal s y) eqn:Q; [|reflexivity]. apply sections_equal_eq in Q. auto.
        -- apply in_flat_map. exists s. split; [exact E|]. unfold kept_section. rewrite (find_type_unique _ _ y H2 K) by auto. left. reflexivity.
      * right. exists y. split; [reflexivity|]. apply filter_In. rewrite E. auto.
Qed.
Lemma delta_modified_differs old new i n : In (i, n) (dl_modified (calculate_delta old new)) ->
  exists s, nth_error (sc_sections old) i = Some s /\ In n (sc_sections new) /\ section_type_of n = section_type_of s /\ bare n <> bare s.
Proof.
  unfold calculate_delta. destruct (delta_old 0 (sc_sections old) (sc_sections new)) as [m d] eqn:E. cbn [dl_modified]. intros H.
  assert (G : forall k l m d, delta_old k l (sc_sections new) = (m, d) -> In (i, n) m -> exists s, k <= i /\ nth_error l (i - k) = Some s /\ In n (sc_sections new) /\ section_type_of n = section_type_of s /\ bare n <> bare s).
  { clear. intros k l. revert k. induction l as [|s l IH]; intros k m d; cbn [delta_old]; [intros E H; injection E as <- <-; contradiction|].
    destruct (delta_old (S k) l (sc_sections new)) as [m' d'] eqn:E. assert (R : In (i, n) m' -> exists s0, k <= i /\ nth_error (s :: l) (i - k) = Some s0 /\ In n (sc_sections new) /\ section_type_of n = section_type_of s0 /\ bare n <> bare s0).
    { intros H. destruct (IH _ _ _ E H) as (s0 & L & N & R). exists s0. split; [lia|]. split; [|exact R]. replace (i - k) with (S (i - S k)) by lia. exact N. }
    destruct (find _ _) as [x|] eqn:F; [destruct (sections_equal s x) eqn:Q|]; intros H; injection H as <- <-; try exact R. intros [K|K]; [|apply R, K]. injection K as <- <-.
    exists s. split; [lia|]. rewrite Nat.sub_diag. split; [reflexivity|]. apply find_type_in in F. split; [apply F|]. split; [apply F|]. intros K. symmetry in K. apply sections_equal_eq in K. congruence. }
  destruct (G 0 _ _ _ E H) as (s & _ & N & R). rewrite Nat.sub_0_r in N. exists s. auto.
Qed.
