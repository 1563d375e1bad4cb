From Verif Require Import FloatModel KaraokeModel AnimSpec AnimProofs FloatProofs CollideProofs TrackProofs.
From Coq Require Import Lia Lqa Qabs Qround.
Local Open Scope Q_scope.

Lemma round_in q k b : - b <= q <= b -> b < 2 ^ k -> (-100 <= k <= 100)%Z -> exists v, round_to f32 q = Fin v /\ - 2 ^ (k - 25) <= v - q <= 2 ^ (k - 25).
Proof. intros B K R. destruct (round_err q k) as (v & E & V); [apply Qabs_Qlt_condition; lra|exact R|]. exists v. split; [exact E|]. now apply Qabs_Qle_condition. Qed.
Lemma beat_near bpm b : (1 <= bpm <= 1000)%N -> 0 <= b <= 16 -> let d := inject_Z (Z.of_N (beat_duration bpm (Fin b))) in let exact := 6000 * b / inject_Z (Z.of_N bpm) in
  d <= exact + (1 # 50) /\ exact < d + 1 + (1 # 50).
Proof.
  intros N B. cbv zeta. unfold beat_duration, f_of_N. destruct (int_exact (Z.of_N bpm)) as (n & -> & NN); [lia|].
  change (f_of_Z f32 (Z.of_N 60)) with (Fin 60). change (f_of_Z f32 (Z.of_N 100)) with (Fin 100).
  assert (N1 : 1 <= n) by (rewrite NN; change 1 with (inject_Z 1); rewrite <- Zle_Qle; lia).
  assert (Z0 : qzero n = false). { unfold qzero. apply Z.eqb_neq. intros K. apply (qnum_zero f32) in K. lra. }
  cbn [f_div]. rewrite Z0. assert (I : 0 <= / n <= 1). { split; [apply Qlt_le_weak, Qinv_lt_0_compat; lra|]. setoid_replace (/ n) with (1 / n) by (unfold Qdiv; ring). apply Qle_shift_div_r; lra. }
  destruct (round_in (60 / n) 6 60) as (x & -> & X); [unfold Qdiv; lra|reflexivity|lia|]. change (2 ^ (6 - 25)) with (1 # 524288) in X. unfold Qdiv in X.
  cbn [f_mul]. assert (XB : - (1 # 32768) <= x * b - 60 * / n * b <= 1 # 32768) by nra.
  assert (PB : 0 <= / n * b <= 16) by nra.
  destruct (round_in (x * b) 10 961) as (y & -> & Y); [nra|reflexivity|lia|]. change (2 ^ (10 - 25)) with (1 # 32768) in Y.
  cbn [f_mul]. destruct (round_in (y * 100) 17 96100) as (z & -> & Zz); [nra|reflexivity|lia|]. change (2 ^ (17 - 25)) with (1 # 256) in Zz.
  rewrite <- NN. unfold Qdiv. assert (E : - (1 # 50) < z - 6000 * (b * / n) < 1 # 50) by nra.
  unfold f_to_N. cbn [f_to_Z]. destruct (trunc_of z) as (t & -> & T1 & T2). change (Z.of_N u32_max) with 4294967295%Z.
  assert (TB : (0 <= t <= 100000)%Z /\ inject_Z t <= z + (1 # 50) /\ z < inject_Z t + 1).
  { destruct (Qlt_le_dec z 0) as [L|L].
    - destruct (T2 ltac:(lra)) as [H1 H2]. assert (t = 0)%Z as ->; [|split; [lia|]; change (inject_Z 0) with 0; lra].
      unfold Z.sub in H2. rewrite inject_Z_plus in H2. change (inject_Z (- (1))) with (-1) in H2. assert (A : inject_Z (-1) < inject_Z t) by (change (inject_Z (-1)) with (-1); lra). assert (C : inject_Z t < inject_Z 1) by (change (inject_Z 1) with 1; lra). rewrite <- Zlt_Qlt in A, C. lia.
    - destruct (T1 L) as [H1 H2]. rewrite inject_Z_plus in H2. change (inject_Z 1) with 1 in H2. split; [|lra]. assert (A : inject_Z (-1) < inject_Z t) by (change (inject_Z (-1)) with (-1); lra). assert (C : inject_Z t < inject_Z 100001) by (change (inject_Z 100001) with 100001; nra). rewrite <- Zlt_Qlt in A, C. lia. }
  destruct TB as (T & TA & TC). rewrite Z2N.id by lia. replace (Z.max 0 (Z.min 4294967295 t)) with t by lia. setoid_replace (6000 * b * / n) with (6000 * (b * / n)) by ring. lra.
Qed.
