(* Floats that stay small, and paths whose rasterization cannot panic. *)
From Coq Require Import Qround.
From Verif Require Import Base FloatModel FloatSpec FloatProofs FloatProps RasterModel RasterSpec RasterShare RasterDeposit RasterLine RasterSafe.
Open Scope Q_scope.

(* a square root, to within the rounding of its result *)
Definition root_like (sq : float -> float) : Prop := forall q, 0 <= q -> exists v, sq (Fin q) = Fin v /\ 0 <= v /\ v * v <= 2 * q.
Definition small (i : Z) (x : float) : Prop := exists q, x = Fin q /\ - inject_Z (2 ^ i) <= q /\ q <= inject_Z (2 ^ i).
Definition span (i : Z) (x : float) : Prop := exists q, x = Fin q /\ 0 <= q /\ q <= inject_Z (2 ^ i).

Lemma two_pow i j : (0 <= i)%Z -> (0 <= j)%Z -> inject_Z (2 ^ (i + j)) == inject_Z (2 ^ i) * inject_Z (2 ^ j).
Proof. intros A B. rewrite Z.pow_add_r by assumption. now rewrite inject_Z_mult. Qed.
Lemma pow_ge_1 i : (0 <= i)%Z -> 1 <= inject_Z (2 ^ i).
Proof. intros H. change 1 with (inject_Z 1). rewrite <- Zle_Qle. assert (0 < 2 ^ i)%Z by (apply Z.pow_pos_nonneg; lia). lia. Qed.
Lemma pow_le i j : (0 <= i)%Z -> (i <= j)%Z -> inject_Z (2 ^ i) <= inject_Z (2 ^ j).
Proof. intros A B. rewrite <- Zle_Qle. apply Z.pow_le_mono_r; lia. Qed.
Lemma pow_rep i z : (0 <= i <= 126)%Z -> (z = 1 \/ z = -1)%Z -> representable f32 (inject_Z (z * 2 ^ i)).
Proof.
  intros H Z. split.
  - change (Qabs (inject_Z (z * 2 ^ i))) with (inject_Z (Z.abs (z * 2 ^ i))). change (fm_emax f32) with 128%Z. rewrite (pow2_Z 128) by lia. rewrite <- Zlt_Qlt. rewrite Z.abs_mul. replace (Z.abs z) with 1%Z by lia. rewrite Z.abs_eq by (apply Z.pow_nonneg; lia). rewrite Z.mul_1_l. apply Z.pow_lt_mono_r; lia.
  - exists z, i. split; [cbn; lia|]. split; [cbn; lia|]. rewrite inject_Z_mult. apply Qmult_comp; [reflexivity|]. symmetry. apply pow2_Z. lia.
Qed.
Lemma round_small i q : (0 <= i <= 126)%Z -> - inject_Z (2 ^ i) <= q -> q <= inject_Z (2 ^ i) -> small i (round_to f32 q).
Proof.
  intros H A B. destruct (rounding_exact f32 (inject_Z (1 * 2 ^ i)) (proj1 formats_valid) (pow_rep i 1 H (or_introl eq_refl))) as (u & Eu & Vu).
  destruct (rounding_exact f32 (inject_Z (-1 * 2 ^ i)) (proj1 formats_valid) (pow_rep i (-1) H (or_intror eq_refl))) as (l & El & Vl).
  assert (P1 : inject_Z (1 * 2 ^ i) == inject_Z (2 ^ i)) by (rewrite Z.mul_1_l; reflexivity). assert (P2 : inject_Z (-1 * 2 ^ i) == - inject_Z (2 ^ i)) by (rewrite inject_Z_mult; change (inject_Z (-1)) with (-(1)); ring).
  assert (M1 : f_le (round_to f32 q) (Fin u) = true) by (rewrite <- Eu; apply rounding_monotone; [apply formats_valid|lra]). assert (M2 : f_le (Fin l) (round_to f32 q) = true) by (rewrite <- El; apply rounding_monotone; [apply formats_valid|lra]).
  unfold small. destruct (round_to f32 q) as [|[|]|v]; cbn in M1, M2; try discriminate. apply Qle_bool_iff in M1. apply Qle_bool_iff in M2. exists v. split; [reflexivity|]. split; lra.
Qed.
Lemma round_span i q : (0 <= i <= 126)%Z -> 0 <= q -> q <= inject_Z (2 ^ i) -> span i (round_to f32 q).
Proof.
  intros H A B. assert (G := pow_ge_1 i ltac:(lia)). destruct (round_small i q H) as (v & Ev & V1 & V2); [lra|exact B|].
  assert (M : f_le (Fin 0) (round_to f32 q) = true) by (change (Fin 0) with (round_to f32 0); apply rounding_monotone; [apply formats_valid|exact A]). rewrite Ev in M. cbn in M. apply Qle_bool_iff in M. exists v. split; [exact Ev|]. split; [exact M|exact V2].
Qed.
Lemma small_more i j x : (0 <= i)%Z -> (i <= j)%Z -> small i x -> small j x.
Proof. intros A B (q & -> & Q1 & Q2). assert (K := pow_le i j A B). exists q. split; [reflexivity|]. split; lra. Qed.
Lemma small_add i a b : (0 <= i <= 125)%Z -> small i a -> small i b -> small (i + 1) (f_add f32 a b).
Proof.
  intros H (p & -> & P1 & P2) (q & -> & Q1 & Q2). cbn [f_add]. assert (K := two_pow i 1 ltac:(lia) ltac:(lia)). change (inject_Z (2 ^ 1)) with 2 in K. apply round_small; [lia|lra|lra].
Qed.
Lemma small_sub i a b : (0 <= i <= 125)%Z -> small i a -> small i b -> small (i + 1) (f_sub f32 a b).
Proof. intros H A (q & -> & Q1 & Q2). apply small_add; [exact H|exact A|]. exists (- q). split; [reflexivity|]. split; lra. Qed.
Lemma span_square i a : (0 <= i <= 63)%Z -> small i a -> span (i + i) (f_mul f32 a a).
Proof.
  intros H (q & -> & Q1 & Q2). cbn [f_mul]. apply round_span; [lia| |].
  - destruct (Qlt_le_dec q 0) as [L|L]; [assert (E : q * q == (- q) * (- q)) by ring; rewrite E|]; apply Qmult_le_0_compat; lra.
  - rewrite two_pow by lia. set (a := inject_Z (2 ^ i)) in *. assert (K : 0 <= (a - q) * (a + q)) by (apply Qmult_le_0_compat; lra). assert (E : (a - q) * (a + q) == a * a - q * q) by ring. lra.
Qed.
Lemma span_add i a b : (0 <= i <= 125)%Z -> span i a -> span i b -> span (i + 1) (f_add f32 a b).
Proof.
  intros H (p & -> & P1 & P2) (q & -> & Q1 & Q2). cbn [f_add]. assert (K := two_pow i 1 ltac:(lia) ltac:(lia)). change (inject_Z (2 ^ 1)) with 2 in K. apply round_span; [lia|lra|lra].
Qed.
Lemma span_more i j x : (0 <= i)%Z -> (i <= j)%Z -> span i x -> span j x.
Proof. intros A B (q & -> & Q1 & Q2). assert (K := pow_le i j A B). exists q. split; [reflexivity|]. split; lra. Qed.
Lemma small_twice i a : (0 <= i <= 124)%Z -> small i a -> small (i + 1) (f_mul f32 (round_to f32 2) a).
Proof.
  intros H (q & -> & Q1 & Q2). change (round_to f32 2) with (Fin 2). cbn [f_mul]. assert (K := two_pow i 1 ltac:(lia) ltac:(lia)). change (inject_Z (2 ^ 1)) with 2 in K. apply round_small; [lia|lra|lra].
Qed.
Lemma span_root sq i x : root_like sq -> (0 <= i)%Z -> span (2 * i - 1) x -> (1 <= i)%Z -> span i (sq x).
Proof.
  intros R H (q & -> & Q1 & Q2) H1. destruct (R q Q1) as (v & Ev & V1 & V2). exists v. split; [exact Ev|]. split; [exact V1|].
  destruct (Qlt_le_dec (inject_Z (2 ^ i)) v) as [L|L]; [exfalso|exact L]. assert (G := pow_ge_1 i H). assert (K := two_pow (2 * i - 1) 1 ltac:(lia) ltac:(lia)). change (inject_Z (2 ^ 1)) with 2 in K. replace (2 * i - 1 + 1)%Z with (i + i)%Z in K by lia. rewrite two_pow in K by lia.
  set (a := inject_Z (2 ^ i)) in *. assert (P : 0 < (v - a) * (v + a)) by (apply Qmult_lt_0_compat; lra). assert (E : (v - a) * (v + a) == v * v - a * a) by ring. lra.
Qed.
Lemma span_flat i x : (0 <= i <= 124)%Z -> span i x -> span (i + 1) (f_div f32 x (round_to f32 (8 # 10))).
Proof.
  intros H (q & -> & Q1 & Q2). set (c := round_to f32 (8 # 10)). vm_compute in c. subst c. cbn [f_div qzero Qnum Z.eqb]. assert (K := two_pow i 1 ltac:(lia) ltac:(lia)). change (inject_Z (2 ^ 1)) with 2 in K.
  match goal with |- context [q / ?d] => assert (D : (1 # 2) <= d) by (vm_compute; discriminate); assert (N : 0 < d) by reflexivity; set (e := d) in * end. apply round_span; [lia| |].
  - apply Qle_shift_div_l; [exact N|]. lra.
  - apply Qle_shift_div_r; [exact N|]. assert (P : 0 <= inject_Z (2 ^ (i + 1)) * (e - (1 # 2))) by (apply Qmult_le_0_compat; [assert (G := pow_ge_1 (i + 1) ltac:(lia)); lra|lra]). assert (E : inject_Z (2 ^ (i + 1)) * (e - (1 # 2)) == inject_Z (2 ^ (i + 1)) * e - inject_Z (2 ^ (i + 1)) * (1 # 2)) by ring. lra.
Qed.
Lemma count_some sq i lo hi x : (0 <= i <= 63)%Z -> span i x -> exists n, count_ (single sq) lo hi x = Some n.
Proof.
  intros H (q & -> & Q1 & Q2). cbn [single count_ f_to_Z]. cbv zeta.
  assert (B : (Z.max 0 (Z.min 18446744073709551615 (Z.quot (Qnum q) (Z.pos (Qden q)))) < 18446744073709551615)%Z).
  { assert (N0 : (0 <= Qnum q)%Z) by (revert Q1; clear; destruct q as [a b]; unfold Qle; cbn; lia). rewrite Z.quot_div_nonneg by (try exact N0; reflexivity). assert (F : (Qnum q / Z.pos (Qden q))%Z = Qfloor q) by (destruct q; reflexivity). rewrite F.
    assert (G : (Qfloor q <= 2 ^ i)%Z) by (apply Qfloor_resp_le in Q2; now rewrite Qfloor_Z in Q2). assert (P : (2 ^ i <= 2 ^ 63)%Z) by (apply Z.pow_le_mono_r; lia). change (2 ^ 63)%Z with 9223372036854775808%Z in P. lia. }
  rewrite (proj2 (Z.ltb_lt _ _) B). eexists. reflexivity.
Qed.

Section Bound.
  Variable sq : float -> float.
  Hypothesis root : root_like sq.
  Notation S1 := (single sq).
  Notation ras := (raster S1).
  Definition near (p : float * float) : Prop := small 45 (fst p) /\ small 45 (snd p).
  (* (a - 2 b + c)^2 *)
  Lemma bend a b c : small 45 a -> small 45 b -> small 45 c -> span 96 (RasterModel.sq S1 (add S1 (sub S1 a (mul S1 (cst S1 2) b)) c)).
  Proof.
    intros A B C. unfold RasterModel.sq. cbn [single add sub mul cst].
    assert (K1 : small 46 (f_mul f32 (round_to f32 2) b)) by (apply (small_twice 45); [lia|exact B]).
    assert (K2 : small 47 (f_sub f32 a (f_mul f32 (round_to f32 2) b))) by (apply (small_sub 46); [lia|apply (small_more 45); [lia|lia|exact A]|exact K1]).
    assert (K3 : small 48 (f_add f32 (f_sub f32 a (f_mul f32 (round_to f32 2) b)) c)) by (apply (small_add 47); [lia|exact K2|apply (small_more 45); [lia|lia|exact C]]).
    exact (span_square 48 _ ltac:(lia) K3).
  Qed.
  Lemma spread a b c a' b' c' : small 45 a -> small 45 b -> small 45 c -> small 45 a' -> small 45 b' -> small 45 c' ->
    span 49 (sqrt_ S1 (add S1 (RasterModel.sq S1 (add S1 (sub S1 a (mul S1 (cst S1 2) b)) c)) (RasterModel.sq S1 (add S1 (sub S1 a' (mul S1 (cst S1 2) b')) c')))).
  Proof.
    intros A B C A' B' C'. apply (span_root sq 49); [exact root|lia| |lia]. exact (span_add 96 _ _ ltac:(lia) (bend a b c A B C) (bend a' b' c' A' B' C')).
  Qed.
  Lemma quad_safe (r : ras) p c q : sized sq r -> near p -> near c -> near q -> exists r', quad S1 r (fst p) (snd p) (fst c) (snd c) (fst q) (snd q) = Some r' /\ sized sq r' /\ alike_size sq r r'.
  Proof.
    intros Z [P1 P2] [C1 C2] [Q1 Q2]. unfold quad. cbv zeta.
    match goal with |- context [count_ S1 1 64 ?x] => destruct (count_some sq 26 1 64 x ltac:(lia)) as (n & En) end.
    - apply (span_root sq 26); [exact root|lia| |lia]. apply (span_more 50); [lia|lia|]. apply (span_flat 49); [lia|]. now apply spread.
    - rewrite En. cbn [bind]. now apply chords_safe.
  Qed.
  Lemma cubic_safe (r : ras) p c c' q : sized sq r -> near p -> near c -> near c' -> near q -> exists r', cubic S1 r (fst p) (snd p) (fst c) (snd c) (fst c') (snd c') (fst q) (snd q) = Some r' /\ sized sq r' /\ alike_size sq r r'.
  Proof.
    intros Z [P1 P2] [C1 C2] [D1 D2] [Q1 Q2]. unfold cubic. cbv zeta.
    match goal with |- context [count_ S1 1 96 ?x] => destruct (count_some sq 26 1 96 x ltac:(lia)) as (n & En) end.
    - apply (span_root sq 26); [exact root|lia| |lia]. apply (span_flat 50); [lia|]. apply (span_add 49); [lia| |]; now apply spread.
    - rewrite En. cbn [bind]. now apply chords_safe.
  Qed.
  Definition spots (s : segment float) : list (float * float) := match s with MoveTo p | LineTo p => [p] | QuadTo c p => [c; p] | CubicTo c c' p => [c; c'; p] | ClosePath => [] end.
  Lemma rel_near ox oy p : small 40 ox -> small 40 oy -> small 40 (fst p) -> small 40 (snd p) -> near (rel S1 ox oy p).
  Proof.
    intros A B P1 P2. split; cbn [rel fst snd single sub]; (apply (small_more 41); [lia|lia|]); apply (small_sub 40); try assumption; lia.
  Qed.
  Lemma walk_safe ox oy path : small 40 ox -> small 40 oy -> forall s c o (r : ras), sized sq r -> near s -> near c -> (forall g p, In g path -> In p (spots g) -> small 40 (fst p) /\ small 40 (snd p)) ->
    exists s' c' o' r', fold_opt (walk_step S1 ox oy) path (s, c, o, r) = Some (s', c', o', r') /\ sized sq r' /\ alike_size sq r r'.
  Proof.
    intros Ox Oy. induction path as [|g path IH]; intros s c o r Z Ns Nc H.
    - exists s, c, o, r. split; [reflexivity|]. split; [exact Z|split; reflexivity].
    - assert (Hr : forall g p, In g path -> In p (spots g) -> small 40 (fst p) /\ small 40 (snd p)) by (intros g' p I1 I2; apply (H g' p); [now right|exact I2]).
      assert (Hg : forall p, In p (spots g) -> near (rel S1 ox oy p)) by (intros p I1; destruct (H g p (or_introl eq_refl) I1); now apply rel_near).
      assert (Go : forall s1 c1 o1 r1, sized sq r1 -> alike_size sq r r1 -> near s1 -> near c1 -> exists s' c' o' r', fold_opt (walk_step S1 ox oy) path (s1, c1, o1, r1) = Some (s', c', o', r') /\ sized sq r' /\ alike_size sq r r').
      { intros s1 c1 o1 r1 Z1 A1 N1 N2. destruct (IH s1 c1 o1 r1 Z1 N1 N2 Hr) as (s' & c' & o' & r' & E' & Z' & A'). exists s', c', o', r'. split; [exact E'|]. split; [exact Z'|exact (alike_trans sq _ _ _ A1 A')]. }
      cbn [fold_opt]. destruct g as [p|p|b p|b b' p|]; cbn [walk_step spots] in *.
      + assert (L : exists r1, (if o then line S1 r (fst c) (snd c) (fst s) (snd s) else Some r) = Some r1 /\ sized sq r1 /\ alike_size sq r r1) by (destruct o; [now apply line_safe|exists r; split; [reflexivity|split; [exact Z|split; reflexivity]]]).
        destruct L as (r1 & E1 & Z1 & A1). cbn [num single] in *. rewrite E1. cbn [bind]. apply Go; try assumption; apply Hg; now left.
      + destruct (line_safe sq r (fst c) (snd c) (fst (rel S1 ox oy p)) (snd (rel S1 ox oy p)) Z) as (r1 & E1 & Z1 & A1). cbn [num single] in *. rewrite E1. cbn [bind option_map]. apply Go; try assumption. apply Hg. now left.
      + destruct (quad_safe r c (rel S1 ox oy b) (rel S1 ox oy p) Z Nc (Hg b (or_introl eq_refl)) (Hg p (or_intror (or_introl eq_refl)))) as (r1 & E1 & Z1 & A1). cbn [num single] in *. rewrite E1. cbn [bind option_map]. apply Go; try assumption. apply Hg. right. now left.
      + destruct (cubic_safe r c (rel S1 ox oy b) (rel S1 ox oy b') (rel S1 ox oy p) Z Nc (Hg b (or_introl eq_refl)) (Hg b' (or_intror (or_introl eq_refl))) (Hg p (or_intror (or_intror (or_introl eq_refl))))) as (r1 & E1 & Z1 & A1). cbn [num single] in *. rewrite E1. cbn [bind option_map]. apply Go; try assumption. apply Hg. right. right. now left.
      + destruct (line_safe sq r (fst c) (snd c) (fst s) (snd s) Z) as (r1 & E1 & Z1 & A1). cbn [num single] in *. rewrite E1. cbn [bind option_map]. now apply Go.
  Qed.
End Bound.
Close Scope Q_scope.
