(* Rounding errors, progress and blending. *)
From Verif Require Import Base FloatModel FloatSpec FloatProofs CollideModel CollideProofs SegmentModel AnimModel AnimSpec.
Open Scope Q_scope.

Lemma round_err q k : Qabs q < 2 ^ k -> (-100 <= k <= 100)%Z -> exists v, round_to f32 q = Fin v /\ Qabs (v - q) <= 2 ^ (k - 25).
Proof.
  intros B K. destruct (Z.eq_dec (Qnum q) 0) as [Z0|N0].
  { exists 0. unfold round_to. rewrite Z0. split; [reflexivity|]. apply (qnum_zero f32) in Z0. rewrite Z0. change (Qabs (0 - 0)) with 0. pose proof (pow2_pos (k - 25)). lra. }
  destruct (round_is f32 q N0) as (v & E & R & RT). exists v.
  assert (X : (expo f32 q <= k - 24)%Z).
  { destruct (ilog2_spec q N0) as [L _]. unfold expo. cbn [fm_prec fm_emin f32]. assert (ilog2 q < k)%Z; [|lia].
    apply Z.nle_gt. intros G. apply pow2_mono in G. lra. }
  assert (D : Qabs (v - q) <= 2 ^ (k - 25)).
  { rewrite E. setoid_replace (rounded f32 q - q) with (- (q - rounded f32 q)) by ring. rewrite Qabs_opp. unfold rounded. rewrite scale_dist.
    destruct (nearest_even_spec (scaled f32 q)) as [H _]. pose proof (pow2_pos (expo f32 q)) as P0.
    apply Qle_trans with ((1 # 2) * 2 ^ expo f32 q); [apply Qmult_le_compat_r; [exact H|lra]|].
    apply Qle_trans with ((1 # 2) * 2 ^ (k - 24)); [apply Qmult_le_l; [reflexivity|now apply pow2_mono]|].
    replace (k - 24)%Z with (1 + (k - 25))%Z by lia. rewrite pow2_plus. change (2 ^ 1) with 2. pose proof (pow2_pos (k - 25)). lra. }
  split; [|exact D]. rewrite RT. destruct (Qle_bool _ _) eqn:L; [|reflexivity]. exfalso. apply Qle_bool_iff in L. rewrite <- E in L.
  assert (T : Qabs v <= Qabs q + Qabs (v - q)). { setoid_replace v with (q + (v - q)) at 1 by ring. apply Qabs_triangle. }
  assert (2 ^ (k - 25) <= 2 ^ 100) by (apply pow2_mono; lia). assert (2 ^ k <= 2 ^ 100) by (apply pow2_mono; lia).
  assert (2 ^ 100 + 2 ^ 100 < 2 ^ fm_emax f32) by reflexivity. lra.
Qed.
Lemma int_fits z : (Z.abs z <= 16777216)%Z -> representable f32 (inject_Z z).
Proof.
  intros H. split.
  - apply Qle_lt_trans with (inject_Z 16777216); [|reflexivity]. apply Qabs_Qle_condition. unfold Qle, inject_Z; cbn [Qnum Qden Qopp]. lia.
  - destruct (Z.eq_dec (Z.abs z) 16777216) as [E|E].
    + exists (z / 2)%Z, 1%Z. change (fm_emin f32) with (-149)%Z. change (2 ^ fm_prec f32)%Z with 16777216%Z. assert (D : z = (z / 2 * 2)%Z) by (assert (z = 16777216 \/ z = -16777216)%Z as [-> | ->] by lia; reflexivity).
      split; [lia|]. split; [lia|]. rewrite D at 1. rewrite inject_Z_mult. reflexivity.
    + exists z, 0%Z. change (fm_emin f32) with (-149)%Z. change (2 ^ fm_prec f32)%Z with 16777216%Z. split; [lia|]. split; [lia|]. change (2 ^ 0) with 1. ring.
Qed.
Lemma int_exact z : (Z.abs z <= 16777216)%Z -> num_is (f_of_Z f32 z) (inject_Z z).
Proof. intros H. unfold f_of_Z. destruct (round_exact f32 f32_valid _ (int_fits z H)) as (v & -> & E). exists v. now split. Qed.
Lemma byte_exact n : (n < 256)%N -> num_is (f_of_N f32 n) (inject_Z (Z.of_N n)).
Proof. intros H. apply int_exact. lia. Qed.

(* rounding keeps intervals whose ends are numbers of the format *)
Lemma round_le q r v : representable f32 r -> q <= r -> round_to f32 q = Fin v -> v <= r.
Proof.
  intros R L E. pose proof (round_mono f32 f32_valid q r L) as M. destruct (round_exact f32 f32_valid r R) as (w & W & Wr). rewrite E, W in M. cbn [f_le] in M. apply Qle_bool_iff in M. lra.
Qed.
Lemma round_ge q r v : representable f32 r -> r <= q -> round_to f32 q = Fin v -> r <= v.
Proof.
  intros R L E. pose proof (round_mono f32 f32_valid r q L) as M. destruct (round_exact f32 f32_valid r R) as (w & W & Wr). rewrite E, W in M. cbn [f_le] in M. apply Qle_bool_iff in M. lra.
Qed.
Lemma one_fits : representable f32 1.
Proof. exact (int_fits 1 ltac:(lia)). Qed.
Lemma zero_fits32 : representable f32 0.
Proof. exact (int_fits 0 ltac:(lia)). Qed.
Lemma pow2_2 : 2 ^ 1 == 2. Proof. reflexivity. Qed.
Lemma round_unit q : 0 <= q <= 1 -> exists v, round_to f32 q = Fin v /\ 0 <= v <= 1.
Proof.
  intros H. destruct (round_err q 1) as (v & E & _); [rewrite Qabs_pos by lra; change (2 ^ 1) with 2; lra|lia|]. exists v. split; [exact E|]. split; [exact (round_ge _ _ _ zero_fits32 (proj1 H) E)|exact (round_le _ _ _ one_fits (proj2 H) E)].
Qed.
Lemma round_unit_err q : 0 <= q <= 1 -> exists v, round_to f32 q = Fin v /\ 0 <= v <= 1 /\ Qabs (v - q) <= 2 ^ (-25).
Proof.
  intros H. destruct (round_unit q H) as (v & E & U). exists v. split; [exact E|]. split; [exact U|].
  destruct (Qlt_le_dec q 1) as [L|L].
  - destruct (round_err q 0) as (w & W & D); [rewrite Qabs_pos by lra; exact L|lia|]. rewrite E in W. injection W as <-. exact D.
  - assert (q == 1) by lra. destruct (round_exact f32 f32_valid 1 one_fits) as (w & W & D). rewrite (round_wd f32 f32_valid q 1 H0) in E. rewrite E in W. injection W as <-. rewrite D, H0. discriminate.
Qed.
Lemma mono_fin q r v w : q <= r -> round_to f32 q = Fin v -> round_to f32 r = Fin w -> v <= w.
Proof. intros L E F. pose proof (round_mono f32 f32_valid q r L) as M. rewrite E, F in M. now apply Qle_bool_iff in M. Qed.

(* ---- progress ---- *)
Lemma clamp_unit t : unit_num t -> exists q, clamp01 t = Fin q /\ t = Fin q /\ 0 <= q <= 1.
Proof.
  intros (q & -> & B). exists q. split; [|split; [reflexivity|exact B]]. unfold clamp01. assert (A : f_lt (Fin q) (fl 0) = false).
  { unfold f_lt, fl. cbn [f_le]. destruct (Qle_bool (inject_Z 0) q) eqn:E; [now rewrite andb_false_r|]. exfalso. apply not_true_iff_false in E. apply E, Qle_bool_iff. exact (proj1 B). }
  rewrite A. assert (C : f_lt (fl 1) (Fin q) = false).
  { unfold f_lt, fl. cbn [f_le]. destruct (Qle_bool q (inject_Z 1)) eqn:E; [now rewrite andb_false_r|]. exfalso. apply not_true_iff_false in E. apply E, Qle_bool_iff. exact (proj2 B). }
  now rewrite C.
Qed.
Lemma mul_unit a b : 0 <= a <= 1 -> 0 <= b <= 1 -> 0 <= a * b <= 1.
Proof. intros A B. split; nra. Qed.
Lemma curve_unit m a t : tame m a -> unit_num t -> unit_num (acceleration_curve m t a).
Proof.
  intros (N0 & P & _) U. destruct (clamp_unit t U) as (q & E & -> & B). unfold acceleration_curve. rewrite E. cbv zeta.
  destruct (about a (fl 1)); [exists q; now split|]. destruct (about a (Fin (1 # 2))).
  { unfold sub32, mul32, fl. cbn [f_sub f_add f_opp]. destruct (round_unit (inject_Z 1 + - q)) as (r & -> & R); [change (inject_Z 1) with 1; lra|]. cbn [f_mul]. destruct (round_unit (r * r)) as (s & -> & S0); [now apply mul_unit|].
    cbn [f_add f_opp]. destruct (round_unit (inject_Z 1 + - s)) as (w & -> & W); [change (inject_Z 1) with 1; lra|]. exists w. now split. }
  destruct (about a (fl 2)). { unfold mul32. cbn [f_mul]. destruct (round_unit (q * q)) as (r & -> & R); [now apply mul_unit|]. exists r. now split. }
  destruct (about a (fl 3)). { unfold mul32. cbn [f_mul]. destruct (round_unit (q * q)) as (r & -> & R); [now apply mul_unit|]. cbn [f_mul]. destruct (round_unit (r * q)) as (s & -> & S0); [now apply mul_unit|]. exists s. now split. }
  change (fl 0) with (Fin 0). rewrite N0. apply P. exists q. now split.
Qed.
Lemma curve_mono m a t u : tame m a -> unit_num t -> unit_num u -> num_le t u -> num_le (acceleration_curve m t a) (acceleration_curve m u a).
Proof.
  intros (N0 & _ & P) U V L. assert (L' := L). destruct (clamp_unit t U) as (q & E & -> & B), (clamp_unit u V) as (r & F & -> & C). cbn [num_le] in L. unfold acceleration_curve. rewrite E, F. cbv zeta.
  destruct (about a (fl 1)); [exact L|]. destruct (about a (Fin (1 # 2))).
  { unfold sub32, mul32, fl. cbn [f_sub f_add f_opp]. change (inject_Z 1) with 1.
    destruct (round_unit (1 + - q)) as (q1 & Q1 & ?); [lra|]. destruct (round_unit (1 + - r)) as (r1 & R1 & ?); [lra|]. assert (r1 <= q1) by (eapply mono_fin; [|exact R1|exact Q1]; lra). rewrite Q1, R1. cbn [f_mul].
    destruct (round_unit (q1 * q1)) as (q2 & Q2 & ?); [now apply mul_unit|]. destruct (round_unit (r1 * r1)) as (r2 & R2 & ?); [now apply mul_unit|]. assert (r2 <= q2) by (eapply mono_fin; [|exact R2|exact Q2]; nra). rewrite Q2, R2. cbn [f_add f_opp].
    destruct (round_unit (1 + - q2)) as (q3 & Q3 & ?); [lra|]. destruct (round_unit (1 + - r2)) as (r3 & R3 & ?); [lra|]. rewrite Q3, R3. cbn [num_le]. eapply mono_fin; [|exact Q3|exact R3]; lra. }
  destruct (about a (fl 2)).
  { unfold mul32. cbn [f_mul]. destruct (round_unit (q * q)) as (q1 & Q1 & ?); [now apply mul_unit|]. destruct (round_unit (r * r)) as (r1 & R1 & ?); [now apply mul_unit|]. rewrite Q1, R1. cbn [num_le]. eapply mono_fin; [|exact Q1|exact R1]; nra. }
  destruct (about a (fl 3)).
  { unfold mul32. cbn [f_mul]. destruct (round_unit (q * q)) as (q1 & Q1 & ?); [now apply mul_unit|]. destruct (round_unit (r * r)) as (r1 & R1 & ?); [now apply mul_unit|]. assert (q1 <= r1) by (eapply mono_fin; [|exact Q1|exact R1]; nra). rewrite Q1, R1. cbn [f_mul].
    destruct (round_unit (q1 * q)) as (q2 & Q2 & ?); [now apply mul_unit|]. destruct (round_unit (r1 * r)) as (r2 & R2 & ?); [now apply mul_unit|]. rewrite Q2, R2. cbn [num_le]. eapply mono_fin; [|exact Q2|exact R2]; nra. }
  change (fl 0) with (Fin 0). rewrite N0. now apply P.
Qed.
(* u32 as f32 keeps the order and is positive on positive numbers *)
Lemma int_round z : (Z.abs z < 2 ^ 64)%Z -> exists v, f_of_Z f32 z = Fin v.
Proof. intros H. unfold f_of_Z. destruct (round_err (inject_Z z) 64) as (v & E & _); [rewrite inj_abs; rewrite pow2_Z by lia; now rewrite <- Zlt_Qlt|lia|]. now exists v. Qed.
Lemma int_pos z v : (1 <= z)%Z -> f_of_Z f32 z = Fin v -> 1 <= v.
Proof. intros H E. eapply round_ge; [exact one_fits| |exact E]. change 1 with (inject_Z 1). now rewrite <- Zle_Qle. Qed.
Lemma ratio_unit n d : (0 <= n <= d)%Z -> (1 <= d < 2 ^ 64)%Z -> exists a b v, f_of_Z f32 n = Fin a /\ f_of_Z f32 d = Fin b /\ 1 <= b /\ 0 <= a <= b /\ f_div f32 (f_of_Z f32 n) (f_of_Z f32 d) = Fin v /\ round_to f32 (a / b) = Fin v /\ 0 <= v <= 1.
Proof.
  intros H D. destruct (int_round n) as (a & A); [lia|]. destruct (int_round d) as (b & B); [lia|]. exists a, b. pose proof (int_pos d b (proj1 D) B) as B1.
  assert (A0 : 0 <= a). { eapply round_ge; [exact zero_fits32| |exact A]. change 0 with (inject_Z 0). rewrite <- Zle_Qle. lia. }
  assert (AB : a <= b). { eapply mono_fin; [|exact A|exact B]. rewrite <- Zle_Qle. lia. }
  destruct (round_unit (a / b)) as (v & V & U). { split; [apply Qle_shift_div_l; lra|apply Qle_shift_div_r; lra]. }
  exists v. rewrite A, B. cbn [f_div]. assert (Z0 : qzero b = false). { unfold qzero. apply Z.eqb_neq. intros K. apply (qnum_zero f32) in K. lra. } rewrite Z0. repeat split; try assumption; tauto.
Qed.
Lemma ratio_mono n n' d v v' : (0 <= n <= n')%Z -> (n' <= d)%Z -> (1 <= d < 2 ^ 64)%Z -> f_div f32 (f_of_Z f32 n) (f_of_Z f32 d) = Fin v -> f_div f32 (f_of_Z f32 n') (f_of_Z f32 d) = Fin v' -> v <= v'.
Proof.
  intros H H' D E E'. destruct (ratio_unit n d) as (a & b & w & A & B & B1 & A0 & X & X' & _); [lia|exact D|]. destruct (ratio_unit n' d) as (a' & b' & w' & A' & B' & _ & A0' & Y & Y' & _); [lia|exact D|].
  rewrite E in X. injection X as <-. rewrite E' in Y. injection Y as <-. rewrite B in B'. injection B' as <-. eapply mono_fin; [|exact X'|exact Y'].
  assert (a <= a'). { eapply mono_fin; [|exact A|exact A']. rewrite <- Zle_Qle. lia. } apply Qle_shift_div_l; [lra|]. unfold Qdiv. rewrite <- Qmult_assoc, (Qmult_comm (/ b)), Qmult_inv_r; lra.
Qed.
Lemma ends_is tr full : (if (0 <? tr_end tr)%N then tr_end tr else full) = ends tr full.
Proof. unfold ends. destruct (N.eqb_spec (tr_end tr) 0) as [->|]; [reflexivity|]. destruct (N.ltb_spec 0 (tr_end tr)); [reflexivity|lia]. Qed.
Lemma progress_cases m tr now full : calculate_progress m tr now full =
  if (now <=? tr_start tr)%N then Fin 0 else if (ends tr full <=? tr_start tr)%N || (ends tr full <=? now)%N then Fin 1
  else acceleration_curve m (f_div f32 (f_of_Z f32 (Z.of_N now - Z.of_N (tr_start tr))) (f_of_Z f32 (Z.of_N (ends tr full) - Z.of_N (tr_start tr)))) (tr_accel tr).
Proof.
  unfold calculate_progress. cbv zeta. rewrite ends_is. destruct (N.leb_spec now (tr_start tr)); [reflexivity|]. destruct (N.leb_spec (ends tr full) (tr_start tr)); [reflexivity|]. cbn [orb]. destruct (N.leb_spec (ends tr full) now); [reflexivity|].
  unfold f_of_N. now rewrite !N2Z.inj_sub by lia.
Qed.
Lemma progress_unit m tr now full : tame m (tr_accel tr) -> (ends tr full < 2 ^ 32)%N -> unit_num (calculate_progress m tr now full).
Proof.
  intros T B. rewrite progress_cases. destruct (N.leb_spec now (tr_start tr)); [exists 0; split; [reflexivity|lra]|]. destruct (N.leb_spec (ends tr full) (tr_start tr)); [exists 1; split; [reflexivity|lra]|]. cbn [orb]. destruct (N.leb_spec (ends tr full) now); [exists 1; split; [reflexivity|lra]|].
  apply curve_unit; [exact T|]. destruct (ratio_unit (Z.of_N now - Z.of_N (tr_start tr)) (Z.of_N (ends tr full) - Z.of_N (tr_start tr))) as (a & b & v & _ & _ & _ & _ & E & _ & U); [lia|lia|]. rewrite E. exists v. now split.
Qed.
Lemma unit_le_1 a : unit_num a -> num_le a (Fin 1).
Proof. intros (q & -> & B). exact (proj2 B). Qed.
Lemma unit_ge_0 a : unit_num a -> num_le (Fin 0) a.
Proof. intros (q & -> & B). exact (proj1 B). Qed.
Lemma progress_mono m tr now later full : tame m (tr_accel tr) -> (ends tr full < 2 ^ 32)%N -> (now <= later)%N -> num_le (calculate_progress m tr now full) (calculate_progress m tr later full).
Proof.
  intros T B L. pose proof (progress_unit m tr now full T B) as U1. pose proof (progress_unit m tr later full T B) as U2. revert U1 U2. rewrite !progress_cases. intros U1 U2.
  destruct (N.leb_spec now (tr_start tr)); [now apply unit_ge_0|]. destruct (N.leb_spec later (tr_start tr)); [lia|]. destruct (N.leb_spec (ends tr full) (tr_start tr)); [cbn; lra|]. cbn [orb] in *. destruct (N.leb_spec (ends tr full) later); [now apply unit_le_1|]. destruct (N.leb_spec (ends tr full) now); [lia|].
  destruct (ratio_unit (Z.of_N now - Z.of_N (tr_start tr)) (Z.of_N (ends tr full) - Z.of_N (tr_start tr))) as (a & b & v & _ & _ & _ & _ & E & _ & U); [lia|lia|].
  destruct (ratio_unit (Z.of_N later - Z.of_N (tr_start tr)) (Z.of_N (ends tr full) - Z.of_N (tr_start tr))) as (a' & b' & v' & _ & _ & _ & _ & E' & _ & U'); [lia|lia|].
  apply curve_mono; [exact T|rewrite E; exists v; now split|rewrite E'; exists v'; now split|]. rewrite E, E'. cbn [num_le]. eapply ratio_mono; [| | |exact E|exact E']; lia.
Qed.
(* how exact it is *)
Lemma share_err n d : (0 <= n <= d)%Z -> (1 <= d <= 16777216)%Z -> exists v, f_div f32 (f_of_Z f32 n) (f_of_Z f32 d) = Fin v /\ 0 <= v <= 1 /\ Qabs (v - inject_Z n / inject_Z d) <= 2 ^ (-25).
Proof.
  intros H D. destruct (ratio_unit n d) as (a & b & v & A & B & B1 & AB & E & R & U); [exact H|lia|]. exists v. split; [exact E|]. split; [exact U|].
  destruct (int_exact n) as (a' & A' & EA); [lia|]. destruct (int_exact d) as (b' & B' & EB); [lia|]. rewrite A in A'. injection A' as <-. rewrite B in B'. injection B' as <-.
  destruct (round_unit_err (a / b)) as (w & W & _ & X). { split; [apply Qle_shift_div_l; lra|apply Qle_shift_div_r; lra]. } rewrite R in W. injection W as <-. now rewrite <- EA, <- EB.
Qed.
Lemma near_about a q k : near a q -> q == inject_Z k / 2 -> (0 <= k <= 8)%Z -> about a (Fin q) = true.
Proof.
  intros (x & -> & B) E K. unfold about, sub32, f_sub. cbn [f_opp f_add]. destruct (round_err (x + - q) (-10)) as (v & V & D).
  { change (2 ^ (-10)) with (1 # 1024). setoid_replace (x + - q) with (x - q) by ring. lra. } { lia. }
  rewrite V. cbn [f_abs]. assert (A : Qabs v <= (9 # 10000) + (1 # 10000000)).
  { setoid_replace v with ((x - q) + (v - (x + - q))) by ring. eapply Qle_trans; [apply Qabs_triangle|]. assert (2 ^ (-10 - 25) <= 1 # 10000000) by discriminate. lra. }
  unfold f_lt, thousandth, const32. assert (T : round_to f32 (1 # 1000) = Fin (8589935 # 8589934592)) by (vm_compute; reflexivity). rewrite T. cbn [f_le]. apply andb_true_iff. split; [apply Qle_bool_iff; apply Qle_trans with ((9 # 10000) + (1 # 10000000)); [exact A|discriminate]|].
  destruct (Qle_bool (8589935 # 8589934592) (Qabs v)) eqn:F; [|reflexivity]. exfalso. apply Qle_bool_iff in F. assert ((9 # 10000) + (1 # 10000000) < 8589935 # 8589934592) by reflexivity. lra.
Qed.
Lemma near_not a q r : near a q -> 1 # 2 <= Qabs (q - r) -> Qabs r <= 4 -> Qabs q <= 4 -> about a (Fin r) = false.
Proof.
  intros (x & -> & B) S0 R0 Q0. unfold about, sub32, f_sub. cbn [f_opp f_add]. assert (A : Qabs (x + - r) <= 9).
  { setoid_replace (x + - r) with ((x - q) + (q + - r)) by ring. eapply Qle_trans; [apply Qabs_triangle|]. assert (Qabs (q + - r) <= Qabs q + Qabs (- r)) by apply Qabs_triangle. rewrite Qabs_opp in H. lra. }
  destruct (round_err (x + - r) 4) as (v & V & D); [change (2 ^ 4) with 16; lra|lia|]. rewrite V. cbn [f_abs]. assert (C : 49 # 100 <= Qabs v).
  { assert (T : Qabs (q - r) <= Qabs v + (Qabs (v - (x + - r)) + Qabs (x - q))). { setoid_replace (q - r) with (v + (- (v - (x + - r)) + - (x - q))) by ring. eapply Qle_trans; [apply Qabs_triangle|]. apply Qplus_le_r. eapply Qle_trans; [apply Qabs_triangle|]. rewrite !Qabs_opp. apply Qle_refl. }
    assert (2 ^ (4 - 25) <= 1 # 1000) by discriminate. lra. }
  unfold f_lt, thousandth, const32. assert (T : round_to f32 (1 # 1000) = Fin (8589935 # 8589934592)) by (vm_compute; reflexivity). rewrite T. cbn [f_le]. apply andb_false_iff. left. destruct (Qle_bool (Qabs v) _) eqn:F; [|reflexivity]. exfalso. apply Qle_bool_iff in F. assert (8589935 # 8589934592 < 49 # 100) by reflexivity. lra.
Qed.
Lemma far_not a q : far a q -> about a (Fin q) = false.
Proof.
  intros (x & -> & B). unfold about, sub32, f_sub. cbn [f_opp f_add]. unfold f_lt, thousandth, const32. assert (T : round_to f32 (1 # 1000) = Fin (8589935 # 8589934592)) by (vm_compute; reflexivity). rewrite T.
  assert (R : representable f32 (8589935 # 8589934592)) by (apply (round_fin f32 f32_valid _ _ T)).
  assert (G : f_le (Fin (8589935 # 8589934592)) (f_abs (round_to f32 (x + - q))) = true); [|now rewrite G, andb_false_r].
  assert (K : 8589935 # 8589934592 < 11 # 10000) by reflexivity. destruct (round_to f32 (x + - q)) as [|s|v] eqn:E; [now apply round_total in E|reflexivity|]. cbn [f_abs f_le]. apply Qle_bool_iff.
  destruct (Qabs_cases (x - q)) as [[? A]|[? A]]; rewrite A in B.
  - assert (8589935 # 8589934592 <= v) by (eapply round_ge; [exact R| |exact E]; lra). pose proof (Qle_Qabs v). lra.
  - assert (v <= - (8589935 # 8589934592)).
    { eapply round_le; [| |exact E]; [|lra]. destruct R as [R1 (m & e & E1 & E2 & E3)]. split; [now rewrite Qabs_opp|]. exists (- m)%Z, e. split; [exact E1|]. split; [now rewrite Z.abs_opp|]. rewrite E3, inject_Z_opp. ring. }
    pose proof (Qle_Qabs (- v)). rewrite Qabs_opp in H1. lra.
Qed.
Lemma abs_bound x e : Qabs x <= e <-> - e <= x <= e.
Proof. apply Qabs_Qle_condition. Qed.
Lemma square_err v x e : 0 <= v <= 1 -> 0 <= x <= 1 -> Qabs (v - x) <= e -> Qabs (v * v - x * x) <= 2 * e.
Proof. intros V X D. apply abs_bound in D. apply abs_bound. split; nra. Qed.
Lemma curve_1 m a t x : near a 1 -> unit_num t -> close_to (2 ^ (-25)) t x -> close_to (2 ^ (-25)) (acceleration_curve m t a) x.
Proof. intros A U C. destruct (clamp_unit t U) as (q & E & -> & B). unfold acceleration_curve. rewrite E. change (fl 1) with (Fin 1). rewrite (near_about a 1 2 A) by (reflexivity || lia). exact C. Qed.
Lemma curve_2 m a t x : near a 2 -> unit_num t -> 0 <= x <= 1 -> close_to (2 ^ (-25)) t x -> close_to (2 ^ (-22)) (acceleration_curve m t a) (x * x).
Proof.
  intros A U X C. destruct (clamp_unit t U) as (q & E & -> & B). unfold acceleration_curve. rewrite E. change (fl 1) with (Fin 1). change (fl 2) with (Fin 2). cbv zeta.
  rewrite (near_not a 2 1 A) by (discriminate). rewrite (near_not a 2 (1 # 2) A) by discriminate. rewrite (near_about a 2 4 A) by (reflexivity || lia). destruct C as (p & P & D). injection P as <-.
  unfold mul32. cbn [f_mul]. destruct (round_unit_err (q * q)) as (v & -> & _ & W); [now apply mul_unit|]. exists v. split; [reflexivity|]. pose proof (square_err q x _ B X D) as S0.
  setoid_replace (v - x * x) with ((v - q * q) + (q * q - x * x)) by ring. eapply Qle_trans; [apply Qabs_triangle|]. change (2 ^ (-25)) with (1 # 33554432) in *. change (2 ^ (-22)) with (1 # 4194304). lra.
Qed.
Lemma curve_3 m a t x : near a 3 -> unit_num t -> 0 <= x <= 1 -> close_to (2 ^ (-25)) t x -> close_to (2 ^ (-22)) (acceleration_curve m t a) (x * x * x).
Proof.
  intros A U X C. destruct (clamp_unit t U) as (q & E & -> & B). unfold acceleration_curve. rewrite E. change (fl 1) with (Fin 1). change (fl 2) with (Fin 2). change (fl 3) with (Fin 3). cbv zeta.
  rewrite (near_not a 3 1 A) by discriminate. rewrite (near_not a 3 (1 # 2) A) by discriminate. rewrite (near_not a 3 2 A) by discriminate. rewrite (near_about a 3 6 A) by (reflexivity || lia). destruct C as (p & P & D). injection P as <-.
  unfold mul32. cbn [f_mul]. destruct (round_unit_err (q * q)) as (v & -> & V & W); [now apply mul_unit|]. cbn [f_mul]. destruct (round_unit_err (v * q)) as (w & -> & _ & W2); [now apply mul_unit|]. exists w. split; [reflexivity|]. pose proof (square_err q x _ B X D) as S0.
  change (2 ^ (-25)) with (1 # 33554432) in *. change (2 ^ (-22)) with (1 # 4194304). apply abs_bound in D. apply abs_bound in W. apply abs_bound in W2. apply abs_bound in S0. apply abs_bound.
  assert (Y : Qabs (v * q - x * x * x) <= 5 # 33554432).
  { setoid_replace (v * q - x * x * x) with ((v - q * q) * q + ((q * q - x * x) * q + (x * x) * (q - x))) by ring. apply abs_bound. pose proof (mul_unit x x X X). split; nra. }
  apply abs_bound in Y. split; lra.
Qed.
Lemma curve_half m a t x : near a (1 # 2) -> unit_num t -> 0 <= x <= 1 -> close_to (2 ^ (-25)) t x -> close_to (2 ^ (-22)) (acceleration_curve m t a) (1 - (1 - x) * (1 - x)).
Proof.
  intros A U X C. destruct (clamp_unit t U) as (q & E & -> & B). unfold acceleration_curve. rewrite E. change (fl 1) with (Fin 1). cbv zeta.
  rewrite (near_not a (1 # 2) 1 A) by discriminate. rewrite (near_about a (1 # 2) 1 A) by (reflexivity || lia). destruct C as (p & P & D). injection P as <-.
  unfold sub32, mul32. cbn [f_sub f_add f_opp]. destruct (round_unit_err (1 + - q)) as (r & -> & R & W1); [lra|]. cbn [f_mul]. destruct (round_unit_err (r * r)) as (s & -> & S1 & W2); [now apply mul_unit|]. cbn [f_add f_opp]. destruct (round_unit_err (1 + - s)) as (w & -> & _ & W3); [lra|].
  exists w. split; [reflexivity|]. change (2 ^ (-25)) with (1 # 33554432) in *. change (2 ^ (-22)) with (1 # 4194304).
  assert (Y : Qabs (r - (1 - x)) <= 2 # 33554432). { setoid_replace (r - (1 - x)) with ((r - (1 + - q)) + - (q - x)) by ring. eapply Qle_trans; [apply Qabs_triangle|]. rewrite Qabs_opp. lra. }
  assert (S0 := square_err r (1 - x) _ R ltac:(lra) Y). apply abs_bound in W2. apply abs_bound in W3. apply abs_bound in S0. apply abs_bound. split; lra.
Qed.

(* ---- blending ---- *)
Definition lerp (a b : N) (p : Q) : Q := inject_Z (Z.of_N a) + (inject_Z (Z.of_N b) - inject_Z (Z.of_N a)) * p.
Lemma blend_byte_parts a b p : (a < 256)%N -> (b < 256)%N -> 0 <= p <= 1 -> exists u w, round_to f32 ((inject_Z (Z.of_N b) - inject_Z (Z.of_N a)) * p) = Fin u /\ round_to f32 (inject_Z (Z.of_N a) + u) = Fin w /\
  blend_num (f_of_N f32 a) (f_of_N f32 b) (Fin p) = Fin w /\ Qabs (w - lerp a b p) <= 2 ^ (-15) /\ inject_Z (Z.of_N (N.min a b)) <= w <= inject_Z (Z.of_N (N.max a b)).
Proof.
  intros A B P. destruct (byte_exact a A) as (x & EA & XA), (byte_exact b B) as (y & EB & YB). set (za := Z.of_N a) in *. set (zb := Z.of_N b) in *.
  assert (RA : (0 <= za < 256)%Z) by lia. assert (RB : (0 <= zb < 256)%Z) by lia.
  assert (QA : 0 <= inject_Z za <= 255) by (change 0 with (inject_Z 0); change 255 with (inject_Z 255); rewrite <- !Zle_Qle; lia).
  assert (QB : 0 <= inject_Z zb <= 255) by (change 0 with (inject_Z 0); change 255 with (inject_Z 255); rewrite <- !Zle_Qle; lia).
  set (qa := inject_Z za) in *. set (qb := inject_Z zb) in *.
  destruct (round_exact f32 f32_valid (inject_Z (zb - za)) (int_fits (zb - za) ltac:(lia))) as (d & D & ED). assert (DD : d == qb - qa) by (rewrite ED; unfold Z.sub; rewrite inject_Z_plus, inject_Z_opp; reflexivity).
  destruct (round_err ((qb - qa) * p) 8) as (u & U & UE); [apply Qabs_Qlt_condition; change (2 ^ 8) with 256; split; nra|lia|].
  assert (U1 : (qa <= qb /\ 0 <= u <= qb - qa) \/ (qb <= qa /\ qb - qa <= u <= 0)).
  { assert (Fd : representable f32 (qb - qa)). { unfold qb, qa, Qminus. rewrite <- inject_Z_opp, <- inject_Z_plus. apply int_fits. lia. }
    destruct (Qlt_le_dec qb qa) as [G|G]; [right|left]; (split; [lra|]); split.
    - eapply round_ge; [exact Fd| |exact U]. nra.
    - eapply round_le; [exact zero_fits32| |exact U]. nra.
    - eapply round_ge; [exact zero_fits32| |exact U]. nra.
    - eapply round_le; [exact Fd| |exact U]. nra. }
  destruct (round_err (qa + u) 8) as (w & W & WE); [apply Qabs_Qlt_condition; change (2 ^ 8) with 256; split; lra|lia|].
  exists u, w. split; [exact U|]. split; [exact W|]. split; [|split].
  - unfold blend_num, add32, mul32, sub32, f_sub. rewrite EA, EB. cbn [f_opp f_add]. rewrite (round_wd f32 f32_valid (y + - x) (inject_Z (zb - za))) by (rewrite XA, YB; unfold Z.sub; rewrite inject_Z_plus, inject_Z_opp; reflexivity). rewrite D. cbn [f_mul].
    rewrite (round_wd f32 f32_valid (d * p) ((qb - qa) * p)) by (rewrite DD; reflexivity). rewrite U. rewrite (round_wd f32 f32_valid (x + u) (qa + u)) by (rewrite XA; reflexivity). exact W.
  - unfold lerp. fold za zb qa qb. setoid_replace (w - (qa + (qb - qa) * p)) with ((w - (qa + u)) + (u - (qb - qa) * p)) by ring. eapply Qle_trans; [apply Qabs_triangle|]. change (2 ^ (8 - 25)) with (1 # 131072) in *. change (2 ^ (-15)) with (1 # 32768). lra.
  - assert (Fa : representable f32 qa) by (apply int_fits; lia). assert (Fb : representable f32 qb) by (apply int_fits; lia).
    destruct U1 as [[G U1]|[G U1]].
    + assert (za <= zb)%Z by (rewrite Zle_Qle; exact G). replace (N.min a b) with a by lia. replace (N.max a b) with b by lia. fold za zb qa qb. split; [eapply round_ge; [exact Fa| |exact W]; lra|eapply round_le; [exact Fb| |exact W]; lra].
    + assert (zb <= za)%Z by (rewrite Zle_Qle; exact G). replace (N.min a b) with b by lia. replace (N.max a b) with a by lia. fold za zb qa qb. split; [eapply round_ge; [exact Fb| |exact W]; lra|eapply round_le; [exact Fa| |exact W]; lra].
Qed.
Lemma quot_floor q : 0 <= q -> exists z, Z.quot (Qnum q) (Zpos (Qden q)) = z /\ inject_Z z <= q /\ q < inject_Z (z + 1).
Proof.
  intros H. eexists. split; [reflexivity|]. assert (0 <= Qnum q)%Z by (unfold Qle in H; cbn in H; lia). rewrite Z.quot_div_nonneg by lia. pose proof (Z.div_mod (Qnum q) (Zpos (Qden q)) ltac:(lia)). pose proof (Z.mod_pos_bound (Qnum q) (Zpos (Qden q)) ltac:(lia)).
  unfold Qle, Qlt, inject_Z; cbn [Qnum Qden]. split; nia.
Qed.
Lemma to_byte w lo hi : inject_Z (Z.of_N lo) <= w <= inject_Z (Z.of_N hi) -> (hi < 256)%N -> exists z, f_to_N 255 (Fin w) = z /\ (lo <= z <= hi)%N /\ inject_Z (Z.of_N z) <= w < inject_Z (Z.of_N z + 1).
Proof.
  intros [L H] B. assert (0 <= w) by (eapply Qle_trans; [|exact L]; change 0 with (inject_Z 0); rewrite <- Zle_Qle; lia). destruct (quot_floor w H0) as (z & E & F & G).
  assert (Z1 : (z <= Z.of_N hi)%Z) by (rewrite Zle_Qle; lra). assert (Z2 : (Z.of_N lo < z + 1)%Z) by (rewrite Zlt_Qlt; lra). eexists. split; [reflexivity|]. unfold f_to_N, f_to_Z. rewrite E. replace (Z.max 0 (Z.min (Z.of_N 255) z)) with z by lia. split; [lia|]. rewrite Z2N.id by lia. now split.
Qed.
Lemma blend_byte_is a b p : (a < 256)%N -> (b < 256)%N -> 0 <= p <= 1 -> exists z, blend_byte a b (Fin p) = z /\ byte_between a b z /\ Qabs (inject_Z (Z.of_N z) - lerp a b p) <= 1 + 2 ^ (-15).
Proof.
  intros A B P. destruct (blend_byte_parts a b p A B P) as (u & w & _ & _ & E & D & R). destruct (to_byte w (N.min a b) (N.max a b) R ltac:(lia)) as (z & Z1 & Z2 & Z3). exists z. unfold blend_byte. rewrite E. split; [exact Z1|]. split; [exact Z2|].
  rewrite inject_Z_plus in Z3. change (inject_Z 1) with 1 in Z3. setoid_replace (inject_Z (Z.of_N z) - lerp a b p) with ((inject_Z (Z.of_N z) - w) + (w - lerp a b p)) by ring. eapply Qle_trans; [apply Qabs_triangle|]. apply Qplus_le_compat; [|exact D]. apply abs_bound. lra.
Qed.
Lemma blend_byte_mono a b p q : (a <= b)%N -> (b < 256)%N -> 0 <= p <= q -> q <= 1 -> (blend_byte a b (Fin p) <= blend_byte a b (Fin q))%N.
Proof.
  intros AB B P Q1. destruct (blend_byte_parts a b p ltac:(lia) B ltac:(lra)) as (u & w & U & W & E & _ & R), (blend_byte_parts a b q ltac:(lia) B ltac:(lra)) as (u' & w' & U' & W' & E' & _ & R').
  destruct (to_byte w _ _ R ltac:(lia)) as (z & Z1 & _ & Z3), (to_byte w' _ _ R' ltac:(lia)) as (z' & Z1' & _ & Z3'). unfold blend_byte. rewrite E, E', Z1, Z1'.
  assert (G : inject_Z (Z.of_N a) <= inject_Z (Z.of_N b)) by (rewrite <- Zle_Qle; lia). assert (u <= u') by (eapply mono_fin; [|exact U|exact U']; nra). assert (w <= w') by (eapply mono_fin; [|exact W|exact W']; lra).
  assert (Z.of_N z < Z.of_N z' + 1)%Z by (rewrite Zlt_Qlt; lra). lia.
Qed.
Lemma blend_byte_anti a b p q : (b <= a)%N -> (a < 256)%N -> 0 <= p <= q -> q <= 1 -> (blend_byte a b (Fin q) <= blend_byte a b (Fin p))%N.
Proof.
  intros AB B P Q1. destruct (blend_byte_parts a b p ltac:(lia) ltac:(lia) ltac:(lra)) as (u & w & U & W & E & _ & R), (blend_byte_parts a b q ltac:(lia) ltac:(lia) ltac:(lra)) as (u' & w' & U' & W' & E' & _ & R').
  destruct (to_byte w _ _ R ltac:(lia)) as (z & Z1 & _ & Z3), (to_byte w' _ _ R' ltac:(lia)) as (z' & Z1' & _ & Z3'). unfold blend_byte. rewrite E, E', Z1, Z1'.
  assert (G : inject_Z (Z.of_N b) <= inject_Z (Z.of_N a)) by (rewrite <- Zle_Qle; lia). assert (u' <= u) by (eapply mono_fin; [|exact U'|exact U]; nra). assert (w' <= w) by (eapply mono_fin; [|exact W'|exact W]; lra).
  assert (Z.of_N z' < Z.of_N z + 1)%Z by (rewrite Zlt_Qlt; lra). lia.
Qed.
Lemma blend_byte_end a b p : (a < 256)%N -> (b < 256)%N -> p == 1 -> blend_byte a b (Fin p) = b.
Proof.
  intros A B P. destruct (blend_byte_parts a b p A B ltac:(lra)) as (u & w & U & W & E & _ & R). destruct (to_byte w _ _ R ltac:(lia)) as (z & Z1 & _ & Z3). unfold blend_byte. rewrite E, Z1.
  assert (EU : u == inject_Z (Z.of_N b) - inject_Z (Z.of_N a)).
  { destruct (round_exact f32 f32_valid (inject_Z (Z.of_N b - Z.of_N a)) (int_fits (Z.of_N b - Z.of_N a) ltac:(lia))) as (v & V & EV). assert (X : inject_Z (Z.of_N b - Z.of_N a) == inject_Z (Z.of_N b) - inject_Z (Z.of_N a)) by (unfold Z.sub; rewrite inject_Z_plus, inject_Z_opp; reflexivity).
    rewrite (round_wd f32 f32_valid _ (inject_Z (Z.of_N b - Z.of_N a))) in U by (rewrite P, X; ring). rewrite V in U. injection U as <-. now rewrite EV. }
  assert (EW : w == inject_Z (Z.of_N b)).
  { destruct (round_exact f32 f32_valid (inject_Z (Z.of_N b)) (int_fits (Z.of_N b) ltac:(lia))) as (v & V & EV). rewrite (round_wd f32 f32_valid _ (inject_Z (Z.of_N b))) in W by (rewrite EU; ring). rewrite V in W. injection W as <-. exact EV. }
  rewrite EW in Z3. assert (Z.of_N z <= Z.of_N b)%Z by (rewrite Zle_Qle; tauto). assert (Z.of_N b < Z.of_N z + 1)%Z by (rewrite Zlt_Qlt; tauto). lia.
Qed.
Lemma blend_byte_start a b p : (a < 256)%N -> (b < 256)%N -> p == 0 -> blend_byte a b (Fin p) = a.
Proof.
  intros A B P. destruct (blend_byte_parts a b p A B ltac:(lra)) as (u & w & U & W & E & _ & R). destruct (to_byte w _ _ R ltac:(lia)) as (z & Z1 & _ & Z3). unfold blend_byte. rewrite E, Z1.
  assert (EU : u == 0). { destruct (round_exact f32 f32_valid 0 zero_fits32) as (v & V & EV). rewrite (round_wd f32 f32_valid _ 0) in U by (rewrite P; ring). rewrite V in U. injection U as <-. exact EV. }
  assert (EW : w == inject_Z (Z.of_N a)).
  { destruct (round_exact f32 f32_valid (inject_Z (Z.of_N a)) (int_fits (Z.of_N a) ltac:(lia))) as (v & V & EV). rewrite (round_wd f32 f32_valid _ (inject_Z (Z.of_N a))) in W by (rewrite EU; ring). rewrite V in W. injection W as <-. exact EV. }
  rewrite EW in Z3. assert (Z.of_N z <= Z.of_N a)%Z by (rewrite Zle_Qle; tauto). assert (Z.of_N a < Z.of_N z + 1)%Z by (rewrite Zlt_Qlt; tauto). lia.
Qed.
Close Scope Q_scope.
