(* Where the GPU's rounded device coordinates put a tile. *)
From Coq Require Import QArith Qabs Qround Lqa.
From Verif Require Import Base FloatModel FloatProofs AnimSpec AnimProofs GpuModel GpuSpec GpuPlaceSpec GpuProofs GpuTiles.
Local Open Scope Q_scope.

Definition eps : Q := 1 # 16777216.
Definition eta : Q := 1 # 1152921504606846976.
Lemma rel_err q : Qabs q < 2 ^ 60 -> exists v, round_to f32 q = Fin v /\ Qabs (v - q) <= Qabs q * eps + eta.
Proof.
  intros B. destruct (Z.eq_dec (Qnum q) 0) as [Z0|N0].
  { exists 0. unfold round_to. rewrite Z0. split; [reflexivity|]. apply (qnum_zero f32) in Z0. rewrite Z0. discriminate. }
  destruct (ilog2_spec q N0) as [L U]. destruct (Z_lt_le_dec (ilog2 q) (-40)) as [S|S].
  - destruct (round_err q (-40)) as (v & E & Hv); [|lia|].
    + eapply Qlt_le_trans; [exact U|]. apply pow2_mono; lia.
    + exists v. split; [exact E|]. eapply Qle_trans; [exact Hv|]. change (2 ^ (-40 - 25)) with (1 # 36893488147419103232).
      pose proof (Qabs_nonneg q). unfold eps, eta. lra.
  - assert (ilog2 q < 60)%Z.
    { destruct (Z_lt_le_dec (ilog2 q) 60) as [|G]; [assumption|]. exfalso. assert (2 ^ 60 <= 2 ^ ilog2 q) by (apply pow2_mono; lia). lra. }
    destruct (round_err q (ilog2 q + 1) U) as (v & E & Hv); [lia|]. exists v. split; [exact E|]. eapply Qle_trans; [exact Hv|].
    replace (ilog2 q + 1 - 25)%Z with (ilog2 q + -24)%Z by lia. rewrite pow2_plus. change (2 ^ (-24)) with eps. unfold eta, eps in *. lra.
Qed.
Lemma num_of z : (Z.abs z <= 65536)%Z -> exists v, f_of_Z f32 z = Fin v /\ v == inject_Z z.
Proof. intros H. exact (int_exact z ltac:(lia)). Qed.
(* twice the ratio, in three roundings less one *)
Lemma twice x (fw : N) : (Z.abs x <= 65536)%Z -> (1 <= fw <= 16384)%N ->
  exists v, f_mul f32 (f_div f32 (f_of_Z f32 x) (f_of_N f32 fw)) (Fin 2) = Fin v /\
    Qabs (v - 2 * (inject_Z x / inject_Z (Z.of_N fw))) <= (5 * eps) * Qabs (inject_Z x / inject_Z (Z.of_N fw)) + 4 * eta /\ Qabs (inject_Z x / inject_Z (Z.of_N fw)) <= 65536.
Proof.
  intros Hx Hf. destruct (num_of x Hx) as (a & Ea & Va). unfold f_of_N. destruct (num_of (Z.of_N fw) ltac:(lia)) as (b & Eb & Vb). rewrite Ea, Eb.
  assert (Pb : 1 <= inject_Z (Z.of_N fw)) by (change 1 with (inject_Z 1); rewrite <- Zle_Qle; lia).
  assert (qb : qzero b = false). { unfold qzero. apply Z.eqb_neq. intros Z0. apply (qnum_zero f32) in Z0. lra. }
  set (q := inject_Z x / inject_Z (Z.of_N fw)). assert (Eq : a / b == q) by (unfold q; rewrite Va, Vb; reflexivity).
  assert (Xq : q * inject_Z (Z.of_N fw) == inject_Z x) by (unfold q; field; lra).
  assert (Xb : -(65536) <= inject_Z x <= 65536). { split; [change (- (65536)) with (inject_Z (-65536))|change 65536 with (inject_Z 65536)]; rewrite <- Zle_Qle; lia. }
  assert (Q1 : Qabs q <= 65536). { apply Qabs_Qle_condition. split; nra. }
  cbn [f_div]. rewrite qb. destruct (rel_err (a / b)) as (v1 & -> & H1); [rewrite Eq; change (2 ^ 60) with 1152921504606846976; lra|]. rewrite Eq in H1.
  assert (V1 : Qabs v1 <= 2 * Qabs q + eta).
  { pose proof (Qabs_triangle (v1 - q) q) as T. setoid_replace (v1 - q + q) with v1 in T by ring. pose proof (Qabs_nonneg q). unfold eps, eta in *. lra. }
  cbn [f_mul]. destruct (rel_err (v1 * 2)) as (v2 & -> & H2).
  { rewrite Qabs_Qmult. change (Qabs 2) with 2. change (2 ^ 60) with 1152921504606846976. unfold eta in *. lra. }
  exists v2. split; [reflexivity|]. split; [|exact Q1]. rewrite Qabs_Qmult in H2. change (Qabs 2) with 2 in H2.
  pose proof (Qabs_triangle (v1 - q) q) as T. setoid_replace (v1 - q + q) with v1 in T by ring.
  pose proof (Qabs_triangle (v2 - v1 * 2) ((v1 - q) * 2)) as T2. setoid_replace (v2 - v1 * 2 + (v1 - q) * 2) with (v2 - 2 * q) in T2 by ring.
  rewrite Qabs_Qmult in T2. change (Qabs 2) with 2 in T2. pose proof (Qabs_nonneg q). unfold eps, eta in *. lra.
Qed.
Lemma scaled d q (fw : N) x : (1 <= fw <= 16384)%N -> (Z.abs x <= 65536)%Z -> q * inject_Z (Z.of_N fw) == inject_Z x -> Qabs d <= (7 * eps) * Qabs q + 2 * eps ->
  Qabs (d / 2 * inject_Z (Z.of_N fw)) < 1 # 32.
Proof.
  intros Hf Hx E H. set (f := inject_Z (Z.of_N fw)) in *. assert (F : 1 <= f <= 16384).
  { unfold f. split; [change 1 with (inject_Z 1)|change 16384 with (inject_Z 16384)]; rewrite <- Zle_Qle; lia. }
  assert (A : Qabs q * f <= 65536).
  { rewrite <- (Qabs_pos f) by lra. rewrite <- Qabs_Qmult, E. apply Qabs_Qle_condition. split; [change (- (65536)) with (inject_Z (-65536))|change 65536 with (inject_Z 65536)]; rewrite <- Zle_Qle; lia. }
  setoid_replace (d / 2 * f) with (d * (f * (1 # 2))) by field. rewrite Qabs_Qmult, (Qabs_pos (f * (1 # 2))) by lra.
  assert (M : Qabs d * f <= ((7 * eps) * Qabs q + 2 * eps) * f) by (apply Qmult_le_compat_r; [exact H|lra]).
  unfold eps in *. lra.
Qed.
Lemma near_column x fw : (Z.abs x <= 65536)%Z -> (1 <= fw <= 16384)%N -> exists v, across x fw = Fin v /\ Qabs (column_at fw v - inject_Z x) < 1 # 32.
Proof.
  intros Hx Hf. unfold across. destruct (twice x fw Hx Hf) as (v & -> & H & Q1). set (q := inject_Z x / inject_Z (Z.of_N fw)) in *.
  assert (Pb : 1 <= inject_Z (Z.of_N fw)) by (change 1 with (inject_Z 1); rewrite <- Zle_Qle; lia).
  assert (Xq : q * inject_Z (Z.of_N fw) == inject_Z x) by (unfold q; field; lra).
  assert (T : Qabs (v + -(1)) <= 2 * Qabs q + 1 + (5 * eps) * Qabs q + 4 * eta).
  { pose proof (Qabs_triangle (v - 2 * q) (2 * q + -(1))) as T. setoid_replace (v - 2 * q + (2 * q + - (1))) with (v + -(1)) in T by ring.
    pose proof (Qabs_triangle (2 * q) (-(1))) as T2. rewrite Qabs_Qmult in T2. change (Qabs 2) with 2 in T2. change (Qabs (- (1))) with 1 in T2. lra. }
  unfold f_sub. cbn [f_opp f_add]. destruct (rel_err (v + - (1))) as (u & E & Hu).
  { change (2 ^ 60) with 1152921504606846976. unfold eps, eta in *. lra. }
  exists u. split; [exact E|]. unfold column_at. setoid_replace ((u + 1) / 2 * inject_Z (Z.of_N fw) - inject_Z x) with ((u + 1 - 2 * q) / 2 * inject_Z (Z.of_N fw)) by (rewrite <- Xq; field).
  apply scaled with (q := q) (x := x); auto.
  pose proof (Qabs_triangle (u - (v + - (1))) (v - 2 * q)) as T3. setoid_replace (u - (v + - (1)) + (v - 2 * q)) with (u + 1 - 2 * q) in T3 by ring.
  pose proof (Qabs_nonneg q). unfold eps, eta in *. lra.
Qed.
Lemma near_row y fh : (Z.abs y <= 65536)%Z -> (1 <= fh <= 16384)%N -> exists v, down y fh = Fin v /\ Qabs (row_at fh v - inject_Z y) < 1 # 32.
Proof.
  intros Hx Hf. unfold down. destruct (twice y fh Hx Hf) as (v & -> & H & Q1). set (q := inject_Z y / inject_Z (Z.of_N fh)) in *.
  assert (Pb : 1 <= inject_Z (Z.of_N fh)) by (change 1 with (inject_Z 1); rewrite <- Zle_Qle; lia).
  assert (Xq : q * inject_Z (Z.of_N fh) == inject_Z y) by (unfold q; field; lra).
  assert (T : Qabs (1 + - v) <= 2 * Qabs q + 1 + (5 * eps) * Qabs q + 4 * eta).
  { rewrite <- Qabs_opp. pose proof (Qabs_triangle (v - 2 * q) (2 * q + -(1))) as T. setoid_replace (v - 2 * q + (2 * q + - (1))) with (- (1 + - v)) in T by ring.
    pose proof (Qabs_triangle (2 * q) (-(1))) as T2. rewrite Qabs_Qmult in T2. change (Qabs 2) with 2 in T2. change (Qabs (- (1))) with 1 in T2. lra. }
  unfold f_sub. cbn [f_opp f_add]. destruct (rel_err (1 + - v)) as (u & E & Hu).
  { change (2 ^ 60) with 1152921504606846976. unfold eps, eta in *. lra. }
  exists u. split; [exact E|]. unfold row_at. setoid_replace ((1 - u) / 2 * inject_Z (Z.of_N fh) - inject_Z y) with ((1 - u - 2 * q) / 2 * inject_Z (Z.of_N fh)) by (rewrite <- Xq; field).
  apply scaled with (q := q) (x := y); auto.
  rewrite <- Qabs_opp in Hu.
  pose proof (Qabs_triangle (- (u - (1 + - v))) (v - 2 * q)) as T3. setoid_replace (- (u - (1 + - v)) + (v - 2 * q)) with (1 - u - 2 * q) in T3 by ring.
  pose proof (Qabs_nonneg q). unfold eps, eta in *. lra.
Qed.
Lemma edges a b x (w : N) : (1 <= w)%N -> Qabs (a - inject_Z x) < 1 # 32 -> Qabs (b - inject_Z (x + Z.of_N w)) < 1 # 32 ->
  forall p, (covers a b p <-> (x <= p < x + Z.of_N w)%Z) /\ ((x <= p < x + Z.of_N w)%Z -> texel a b w p = (p - x)%Z).
Proof.
  intros Hw Ha Hb p. apply Qabs_Qlt_condition in Ha, Hb. rewrite inject_Z_plus in Hb. set (W := inject_Z (Z.of_N w)) in *.
  assert (W1 : 1 <= W) by (unfold W; change 1 with (inject_Z 1); rewrite <- Zle_Qle; lia).
  split.
  - unfold covers. split.
    + intros [A B]. split.
      * destruct (Z_le_gt_dec x p) as [|G]; [assumption|]. exfalso. assert (K : inject_Z (p + 1) <= inject_Z x) by (rewrite <- Zle_Qle; lia). rewrite inject_Z_plus in K. change (inject_Z 1) with 1 in K. lra.
      * destruct (Z_lt_le_dec p (x + Z.of_N w)) as [|G]; [assumption|]. exfalso. rewrite Zle_Qle, inject_Z_plus in G. fold W in G. lra.
    + intros [A B]. rewrite Zle_Qle in A. assert (K : inject_Z (p + 1) <= inject_Z (x + Z.of_N w)) by (rewrite <- Zle_Qle; lia).
      rewrite !inject_Z_plus in K. change (inject_Z 1) with 1 in K. fold W in K. lra.
  - intros [A B]. unfold texel. fold W. rewrite Zle_Qle in A. assert (K : inject_Z (p + 1) <= inject_Z (x + Z.of_N w)) by (rewrite <- Zle_Qle; lia).
    rewrite !inject_Z_plus in K. change (inject_Z 1) with 1 in K. fold W in K.
    set (k := inject_Z p - inject_Z x). assert (Ek : inject_Z (p - x) == k) by (unfold k, Z.sub; rewrite inject_Z_plus, inject_Z_opp; reflexivity).
    set (d := b - a). assert (D : W - (1 # 16) <= d <= W + (1 # 16)) by (unfold d; lra). assert (D0 : 0 < d) by lra.
    set (n := inject_Z p + (1 # 2) - a). assert (N1 : k + (1 # 2) - (1 # 32) <= n <= k + (1 # 2) + (1 # 32)) by (unfold n, k; lra).
    assert (K0 : 0 <= k) by (unfold k; lra). assert (K1 : k + 1 <= W) by (unfold k; lra).
    assert (V : n / d * W == n * W / d) by (field; lra).
    assert (Lo : k <= n * W / d). { apply Qle_shift_div_l; [exact D0|]. assert (k * d <= k * (W + (1 # 16))) by (rewrite (Qmult_comm k), (Qmult_comm k); apply Qmult_le_compat_r; lra).
      assert ((k + (1 # 2) - (1 # 32)) * W <= n * W) by (apply Qmult_le_compat_r; lra). lra. }
    assert (Hi : n * W / d < k + 1). { apply Qlt_shift_div_r; [exact D0|]. assert ((k + 1) * (W - (1 # 16)) <= (k + 1) * d) by (rewrite (Qmult_comm (k + 1)), (Qmult_comm (k + 1)); apply Qmult_le_compat_r; lra).
      assert (n * W <= (k + (1 # 2) + (1 # 32)) * W) by (apply Qmult_le_compat_r; lra). lra. }
    rewrite V. pose proof (Qfloor_le (n * W / d)) as F1. pose proof (Qlt_floor (n * W / d)) as F2.
    assert (X1 : inject_Z (Qfloor (n * W / d)) < inject_Z (p - x + 1)) by (rewrite inject_Z_plus, Ek; change (inject_Z 1) with 1; lra).
    assert (X2 : inject_Z (p - x) < inject_Z (Qfloor (n * W / d) + 1)) by (rewrite Ek; lra).
    rewrite <- Zlt_Qlt in X1, X2. lia.
Qed.
Lemma placed x y w h fw fh : (1 <= w)%N -> (1 <= h)%N -> in_reach x w fw -> in_reach y h fh ->
  exists l t r b, tile_rect x y w h fw fh = Some (Fin l, Fin t, Fin r, Fin b) /\
    (forall p, (covers (column_at fw l) (column_at fw r) p <-> (x <= p < x + Z.of_N w)%Z) /\
               ((x <= p < x + Z.of_N w)%Z -> texel (column_at fw l) (column_at fw r) w p = (p - x)%Z)) /\
    (forall p, (covers (row_at fh t) (row_at fh b) p <-> (y <= p < y + Z.of_N h)%Z) /\
               ((y <= p < y + Z.of_N h)%Z -> texel (row_at fh t) (row_at fh b) h p = (p - y)%Z)).
Proof.
  intros W H [[A1 A2] A3] [[B1 B2] B3].
  rewrite rect_ok by (unfold at_ok; try split; lia). unfold rect_of.
  destruct (near_column x fw ltac:(lia) A3) as (l & -> & Hl). destruct (near_column (x + Z.of_N w) fw ltac:(lia) A3) as (r & -> & Hr).
  destruct (near_row y fh ltac:(lia) B3) as (t & -> & Ht). destruct (near_row (y + Z.of_N h) fh ltac:(lia) B3) as (b & -> & Hb).
  exists l, t, r, b. split; [reflexivity|]. split; intros p; apply edges; assumption.
Qed.
