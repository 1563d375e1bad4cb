(* Proofs about animation tracks. *)
From Verif Require Import Base BaseLemmas FloatModel FloatSpec FloatProofs CollideModel CollideProofs NumSpec ColorSpec ColorProofs SegmentModel AnimModel AnimSpec AnimProofs AnimFields ParseModel ShowModel TrackModel TrackSpec AnimProps.
From Coq Require Import Lqa.
Open Scope Q_scope.

Lemma add_is a b : add32 (Fin a) (Fin b) = round_to f32 (a + b). Proof. reflexivity. Qed.
Lemma sub_is a b : sub32 (Fin a) (Fin b) = round_to f32 (a - b). Proof. reflexivity. Qed.
Lemma mul_is a b : mul32 (Fin a) (Fin b) = round_to f32 (a * b). Proof. reflexivity. Qed.

(* ---- progress ---- *)
Lemma pow_unit m a v : tame m a -> 0 <= v <= 1 -> unit_num (if about a (fl 1) then Fin v else m_pow m (Fin v) a).
Proof. intros (_ & T & _) V. assert (U : unit_num (Fin v)) by (exists v; now split). destruct (about a (fl 1)); [exact U|now apply T]. Qed.
Lemma t_unit m t now : tame m (ti_accel t) -> (ti_end t < 2 ^ 32)%N -> unit_num (progress m t now).
Proof.
  intros T B. unfold progress. destruct (N.leb_spec now (ti_start t)); [exists 0; split; [reflexivity|lra]|]. destruct (N.leb_spec (ti_end t) now); [exists 1; split; [reflexivity|lra]|].
  unfold ratio, f_of_N. destruct (ratio_unit (Z.of_N (now - ti_start t)) (Z.of_N (ti_end t - ti_start t)) ltac:(lia) ltac:(lia)) as (? & ? & v & _ & _ & _ & _ & E & _ & V). rewrite E. now apply pow_unit.
Qed.
Lemma t_mono m t now later : tame m (ti_accel t) -> (ti_end t < 2 ^ 32)%N -> (now <= later)%N -> num_le (progress m t now) (progress m t later).
Proof.
  intros T B L. pose proof (t_unit m t now T B) as U. pose proof (t_unit m t later T B) as U'. unfold progress in *.
  destruct (N.leb_spec now (ti_start t)); [now apply unit_ge_0|]. destruct (N.leb_spec later (ti_start t)); [lia|].
  destruct (N.leb_spec (ti_end t) later); [now apply unit_le_1|]. destruct (N.leb_spec (ti_end t) now); [lia|].
  unfold ratio, f_of_N in *. destruct (ratio_unit (Z.of_N (now - ti_start t)) (Z.of_N (ti_end t - ti_start t)) ltac:(lia) ltac:(lia)) as (? & ? & v & _ & _ & _ & _ & E & _ & V).
  destruct (ratio_unit (Z.of_N (later - ti_start t)) (Z.of_N (ti_end t - ti_start t)) ltac:(lia) ltac:(lia)) as (? & ? & v' & _ & _ & _ & _ & E' & _ & V').
  assert (v <= v') by (eapply ratio_mono; [| | |exact E|exact E']; lia). rewrite E, E' in *. destruct (about _ _); [assumption|]. destruct T as (_ & _ & T). apply T; [exists v; now split|exists v'; now split|assumption].
Qed.

(* ---- easing ---- *)
Lemma six : representable f32 6. Proof. apply (int_fits 6); lia. Qed.
Lemma three : representable f32 3. Proof. apply (int_fits 3); lia. Qed.
Lemma two : representable f32 2. Proof. apply (int_fits 2); lia. Qed.
Lemma m15 : representable f32 (-15). Proof. apply (int_fits (-15)); lia. Qed.
Lemma m9 : representable f32 (-9). Proof. apply (int_fits (-9)); lia. Qed.
Lemma m5 : representable f32 (-5). Proof. apply (int_fits (-5)); lia. Qed.
Lemma ten : representable f32 10. Proof. apply (int_fits 10); lia. Qed.
Lemma bounded q lo hi k : representable f32 lo -> representable f32 hi -> lo <= q <= hi -> - (2 ^ k) < lo -> hi < 2 ^ k -> (-100 <= k <= 100)%Z -> exists v, round_to f32 q = Fin v /\ lo <= v <= hi /\ Qabs (v - q) <= 2 ^ (k - 25).
Proof.
  intros L H B K1 K2 K. destruct (fin_of_bounds q lo hi L H B) as (v & E & V). destruct (round_err q k) as (w & E' & W); [apply Qabs_Qlt_condition; lra|exact K|]. rewrite E in E'. injection E' as <-. exists v. now split.
Qed.
Lemma diff_mul a b c d e f hi : 0 <= a <= 1 -> - hi <= d <= hi -> 0 <= e -> 0 <= f -> Qabs (a - c) <= e -> Qabs (b - d) <= f -> Qabs (a * b - c * d) <= f + e * hi.
Proof.
  intros A D E F H1 H2. setoid_replace (a * b - c * d) with (a * (b - d) + (a - c) * d) by ring. eapply Qle_trans; [apply Qabs_triangle|]. apply Qplus_le_compat; rewrite Qabs_Qmult.
  - rewrite (Qabs_pos a) by lra. pose proof (Qabs_nonneg (b - d)). nra.
  - assert (Qabs d <= hi) by (apply abs_bound; lra). pose proof (Qabs_nonneg d). pose proof (Qabs_nonneg (a - c)). nra.
Qed.
Lemma abs_shift x y z e f : Qabs (x - y) <= e -> Qabs (y - z) <= f -> Qabs (x - z) <= e + f.
Proof. intros. setoid_replace (x - z) with ((x - y) + (y - z)) by ring. eapply Qle_trans; [apply Qabs_triangle|]. lra. Qed.
Lemma abs_add x y c e : Qabs (x - y) <= e -> Qabs (x + c - (y + c)) <= e.
Proof. intros. setoid_replace (x + c - (y + c)) with (x - y) by ring. assumption. Qed.
Lemma smooth_is p : 0 <= p <= 1 -> exists d, smooth_step (Fin p) = Fin d /\ 0 <= d <= 3 /\ Qabs (d - p * p * (3 - 2 * p)) <= 2 ^ (-20).
Proof.
  intros P. unfold smooth_step. change (fl 3) with (Fin 3). change (fl 2) with (Fin 2). rewrite !mul_is.
  destruct (bounded (p * p) 0 1 1 zero_fits32 one_fits) as (a & -> & A & EA); try reflexivity; [split; nra|lia|].
  destruct (bounded (2 * p) 0 2 2 zero_fits32 two) as (b & -> & B & EB); try reflexivity; [split; nra|lia|]. rewrite sub_is.
  destruct (bounded (3 - b) 1 3 2 one_fits three) as (c & -> & C & EC); try reflexivity; [split; nra|lia|]. rewrite mul_is.
  destruct (bounded (a * c) 0 3 2 zero_fits32 three) as (d & -> & D & ED); try reflexivity; [split; nra|lia|].
  exists d. split; [reflexivity|]. split; [exact D|].
  assert (C2 : Qabs (c - (3 - 2 * p)) <= (1 # 8388608) + (1 # 8388608)).
  { eapply abs_shift; [exact EC|]. setoid_replace (3 - b - (3 - 2 * p)) with (- (b - 2 * p)) by ring. rewrite Qabs_opp. exact EB. }
  eapply Qle_trans; [eapply abs_shift; [exact ED|eapply (diff_mul a c (p * p) (3 - 2 * p)) with (hi := 3); [exact A|lra| | |exact EA|exact C2]; vm_compute; discriminate]|]. vm_compute. discriminate.
Qed.
Lemma smoother_is p : 0 <= p <= 1 -> exists d, smoother_step (Fin p) = Fin d /\ -5 <= d <= 10 /\ Qabs (d - p * p * p * (p * (p * 6 - 15) + 10)) <= 2 ^ (-18).
Proof.
  intros P. unfold smoother_step. change (fl 6) with (Fin 6). change (fl 15) with (Fin 15). change (fl 10) with (Fin 10). rewrite !mul_is.
  destruct (bounded (p * p) 0 1 1 zero_fits32 one_fits) as (a & -> & A & EA); try reflexivity; [split; nra|lia|]. rewrite mul_is.
  destruct (bounded (a * p) 0 1 1 zero_fits32 one_fits) as (b & -> & B & EB); try reflexivity; [split; nra|lia|].
  destruct (bounded (p * 6) 0 6 3 zero_fits32 six) as (c & -> & C & EC); try reflexivity; [split; nra|lia|]. rewrite sub_is.
  destruct (bounded (c - 15) (-15) (-9) 4 m15 m9) as (d & -> & D & ED); try reflexivity; [split; nra|lia|]. rewrite mul_is.
  destruct (bounded (p * d) (-15) 0 4 m15 zero_fits32) as (e & -> & E & EE); try reflexivity; [split; nra|lia|]. rewrite add_is.
  destruct (bounded (e + 10) (-5) 10 4 m5 ten) as (f & -> & F & EF); try reflexivity; [split; nra|lia|]. rewrite mul_is.
  destruct (bounded (b * f) (-5) 10 4 m5 ten) as (g & -> & G & EG); try reflexivity; [split; nra|lia|].
  exists g. split; [reflexivity|]. split; [exact G|].
  assert (B2 : Qabs (b - p * p * p) <= (1 # 16777216) + (0 + (1 # 16777216) * 1)).
  { eapply abs_shift; [exact EB|]. eapply (diff_mul a p (p * p) p) with (hi := 1); [exact A|lra| | |exact EA|]; try (vm_compute; discriminate). setoid_replace (p - p) with 0 by ring. discriminate. }
  assert (D2 : Qabs (d - (p * 6 - 15)) <= (1 # 2097152) + (1 # 4194304)). { eapply abs_shift; [exact ED|]. apply (abs_add c (p * 6) (-15)). exact EC. }
  assert (E2 : Qabs (e - p * (p * 6 - 15)) <= (1 # 2097152) + ((1 # 2097152) + (1 # 4194304) + 0 * 15)).
  { eapply abs_shift; [exact EE|]. eapply (diff_mul p d p (p * 6 - 15)) with (hi := 15); [exact P|lra| | | |exact D2]; try discriminate. setoid_replace (p - p) with 0 by ring. discriminate. }
  assert (F2 : Qabs (f - (p * (p * 6 - 15) + 10)) <= (1 # 2097152) + ((1 # 2097152) + ((1 # 2097152) + (1 # 4194304) + 0 * 15))). { eapply abs_shift; [exact EF|]. apply abs_add. exact E2. }
  eapply Qle_trans; [eapply abs_shift; [exact EG|eapply (diff_mul b f (p * p * p) (p * (p * 6 - 15) + 10)) with (hi := 10); [exact B| | | |exact B2|exact F2]]|]; try (vm_compute; discriminate). split; nra.
Qed.
Lemma clamp_fin q : exists r, clamp01 (Fin q) = Fin r /\ 0 <= r <= 1 /\ (0 <= q <= 1 -> r = q) /\ forall x, 0 <= x <= 1 -> Qabs (r - x) <= Qabs (q - x).
Proof.
  unfold clamp01. change (fl 0) with (Fin 0). change (fl 1) with (Fin 1). unfold f_lt. cbn [f_le].
  destruct (Qle_bool q 0) eqn:E1, (Qle_bool 0 q) eqn:E2; cbn [andb negb]; try apply Qle_bool_iff in E1; try apply Qle_bool_iff in E2; try (assert (q < 0) by (apply Qnot_le_lt; intros K; apply Qle_bool_iff in K; congruence)).
  - cbn [f_le]. destruct (Qle_bool 1 q) eqn:E3; [apply Qle_bool_iff in E3; lra|]. cbn [andb]. exists q. split; [reflexivity|]. split; [lra|]. split; [reflexivity|]. intros; lra.
  - cbn. exists 0. split; [reflexivity|]. split; [lra|]. split; [lra|]. intros x X. rewrite (Qabs_neg (0 - x)), (Qabs_neg (q - x)) by lra. lra.
  - cbn [f_le]. destruct (Qle_bool 1 q) eqn:E3, (Qle_bool q 1) eqn:E4; cbn [andb negb]; try apply Qle_bool_iff in E3; try apply Qle_bool_iff in E4.
    + exists q. split; [reflexivity|]. split; [lra|]. split; [reflexivity|]. intros; lra.
    + assert (1 < q) by (apply Qnot_le_lt; intros K; apply Qle_bool_iff in K; congruence). exists 1. split; [reflexivity|]. split; [lra|]. split; [lra|]. intros x X. rewrite (Qabs_pos (1 - x)), (Qabs_pos (q - x)) by lra. lra.
    + exists q. split; [reflexivity|]. split; [lra|]. split; [reflexivity|]. intros; lra.
    + exfalso. assert (~ 1 <= q) by (intros K; apply Qle_bool_iff in K; congruence). assert (~ q <= 1) by (intros K; apply Qle_bool_iff in K; congruence). lra.
  - exfalso. assert (~ 0 <= q) by (intros K; apply Qle_bool_iff in K; congruence). assert (~ q <= 0) by (intros K; apply Qle_bool_iff in K; congruence). lra.
Qed.
Lemma curve_within e x : 0 <= x <= 1 -> 0 <= curve e x <= 1.
Proof.
  intros X. destruct e; cbn [curve]; [exact X| |].
  - assert (0 <= x * x <= 1) by (split; nra). split; [nra|]. assert (0 <= (1 - x) * (1 - x) * (1 + 2 * x)) by (apply Qmult_le_0_compat; nra). nra.
  - assert (Y : 0 <= x * (x * 6 - 15) + 10) by nra. assert (0 <= x * x * x) by (apply Qmult_le_0_compat; nra). split; [now apply Qmult_le_0_compat|].
    assert (0 <= (1 - x) * (1 - x) * (1 - x) * (1 + 3 * x + 6 * x * x)). { apply Qmult_le_0_compat; [apply Qmult_le_0_compat; nra|nra]. }
    assert (E : x * x * x * (x * (x * 6 - 15) + 10) == 1 - (1 - x) * (1 - x) * (1 - x) * (1 + 3 * x + 6 * x * x)) by ring. rewrite E. lra.
Qed.
Lemma ease_is e p : 0 <= p <= 1 -> exists r, clamp01 (ease e (Fin p)) = Fin r /\ 0 <= r <= 1 /\ Qabs (r - curve e p) <= 2 ^ (-18).
Proof.
  intros P. destruct e; cbn [ease].
  - destruct (clamp_fin p) as (r & -> & R & S & _). rewrite S in * by exact P. exists p. split; [reflexivity|]. split; [exact P|]. cbn [curve]. setoid_replace (p - p) with 0 by ring. discriminate.
  - destruct (smooth_is p P) as (d & -> & _ & D). destruct (clamp_fin d) as (r & -> & R & _ & S). exists r. split; [reflexivity|]. split; [exact R|]. eapply Qle_trans; [apply S; apply (curve_within Smooth p P)|]. eapply Qle_trans; [exact D|]. vm_compute. discriminate.
  - destruct (smoother_is p P) as (d & -> & _ & D). destruct (clamp_fin d) as (r & -> & R & _ & S). exists r. split; [reflexivity|]. split; [exact R|]. eapply Qle_trans; [apply S; apply (curve_within Smoother p P)|]. exact D.
Qed.
Lemma ease_0 e : clamp01 (ease e (Fin 0)) = Fin 0. Proof. destruct e; vm_compute; reflexivity. Qed.
Lemma ease_1 e : clamp01 (ease e (Fin 1)) = Fin 1. Proof. destruct e; vm_compute; reflexivity. Qed.

(* ---- integers ---- *)
Lemma trunc_of q : exists z, Z.quot (Qnum q) (Zpos (Qden q)) = z /\ (0 <= q -> inject_Z z <= q /\ q < inject_Z (z + 1)) /\ (q <= 0 -> q <= inject_Z z /\ inject_Z (z - 1) < q).
Proof.
  eexists. split; [reflexivity|]. split.
  - intros H. destruct (quot_floor q H) as (z & -> & B). exact B.
  - intros H. assert (G : 0 <= - q) by lra. destruct (quot_floor (- q) G) as (z & E & B1 & B2). destruct q as [n d]. cbn [Qopp Qnum Qden] in *. rewrite Z.quot_opp_l in E by lia.
    assert (X : (n ÷ Zpos d)%Z = (- z)%Z) by lia. rewrite X. rewrite inject_Z_plus in B2. unfold Zminus. rewrite inject_Z_plus, !inject_Z_opp. change (inject_Z 1) with 1 in *. change (- n # d) with (- (n # d)) in *. split; lra.
Qed.
Lemma int_blend a b p k : is_i32 a -> is_i32 b -> 0 <= p <= 1 -> (Z.abs (b - a) <= 16777216)%Z -> inject_Z (Z.abs (b - a)) < 2 ^ k -> (-100 <= k <= 100)%Z ->
  exists z, blend_int a b (Fin p) = Done z /\ (Z.min a b <= z <= Z.max a b)%Z /\ Qabs (Zq z - (Zq a + (Zq b - Zq a) * p)) <= 1 + 2 ^ (k - 25).
Proof.
  intros A B P D K KB. unfold blend_int, is_i32 in *. replace (i32_ok (b - a)) with true by (symmetry; unfold i32_ok; apply andb_true_intro; split; apply Z.leb_le; lia).
  destruct (int_exact (b - a) D) as (q & -> & Q0). rewrite mul_is. set (z0 := (b - a)%Z) in *.
  destruct (round_err (q * p) k) as (v & E & V).
  { rewrite Q0, Qabs_Qmult, (Qabs_pos p) by lra. change (Qabs (inject_Z z0)) with (inject_Z (Z.abs z0)). assert (0 <= inject_Z (Z.abs z0)) by (change 0 with (inject_Z 0); rewrite <- Zle_Qle; lia). nra. }
  { exact KB. }
  assert (Bd : ((0 <= z0)%Z -> 0 <= v <= inject_Z z0) /\ ((z0 <= 0)%Z -> inject_Z z0 <= v <= 0)).
  { pose proof (int_fits z0 D) as FZ. split; intros G; (assert (GQ := G)); rewrite Zle_Qle in GQ; change (inject_Z 0) with 0 in GQ.
    - split; [eapply round_ge; [exact zero_fits32| |exact E]; rewrite Q0; nra|eapply round_le; [exact FZ| |exact E]; rewrite Q0; nra].
    - split; [eapply round_ge; [exact FZ| |exact E]; rewrite Q0; nra|eapply round_le; [exact zero_fits32| |exact E]; rewrite Q0; nra]. }
  rewrite E. cbn [f_to_Z]. destruct (trunc_of v) as (w & -> & W1 & W2).
  assert (WB : (0 <= z0 -> 0 <= w <= z0)%Z /\ (z0 <= 0 -> z0 <= w <= 0)%Z).
  { destruct Bd as [B1 B2]. split; intros G.
    - specialize (B1 G). destruct (W1 ltac:(lra)) as [X1 X2]. split; [|rewrite Zle_Qle; lra]. assert (inject_Z 0 < inject_Z (w + 1)) by (change (inject_Z 0) with 0; lra). rewrite <- Zlt_Qlt in H. lia.
    - specialize (B2 G). destruct (W2 ltac:(lra)) as [X1 X2]. split; [rewrite Zle_Qle; lra|]. assert (inject_Z (w - 1) < inject_Z 0) by (change (inject_Z 0) with 0; lra). rewrite <- Zlt_Qlt in H. lia. }
  replace (Z.max (-2147483648) (Z.min 2147483647 w)) with w by lia. replace (i32_ok (a + w)) with true by (symmetry; unfold i32_ok; apply andb_true_intro; split; apply Z.leb_le; lia).
  exists (a + w)%Z. split; [reflexivity|]. split; [lia|]. unfold Zq. rewrite inject_Z_plus.
  setoid_replace (inject_Z a + inject_Z w - (inject_Z a + (inject_Z b - inject_Z a) * p)) with ((inject_Z w - v) + (v - q * p)).
  2:{ rewrite Q0. unfold z0, Zminus. rewrite inject_Z_plus, inject_Z_opp. ring. }
  eapply Qle_trans; [apply Qabs_triangle|]. apply Qplus_le_compat; [|exact V]. apply abs_bound. destruct (Z.le_ge_cases 0 z0) as [G|G].
  - destruct (W1 ltac:(apply Bd; lia)) as [X1 X2]. rewrite inject_Z_plus in X2. change (inject_Z 1) with 1 in X2. lra.
  - destruct (W2 ltac:(apply Bd; lia)) as [X1 X2]. unfold Zminus in X2. rewrite inject_Z_plus in X2. change (inject_Z (- (1))) with (-1) in X2. lra.
Qed.
Lemma int_first a b : is_i32 a -> is_i32 b -> (Z.abs (b - a) <= 16777216)%Z -> blend_int a b (Fin 0) = Done a.
Proof.
  intros A B D. unfold blend_int, is_i32 in *. replace (i32_ok (b - a)) with true by (symmetry; unfold i32_ok; apply andb_true_intro; split; apply Z.leb_le; lia).
  destruct (int_exact (b - a) D) as (q & -> & Q0). rewrite mul_is. rewrite (round_wd f32 f32_valid (q * 0) 0) by ring. change (round_to f32 0) with (Fin 0). cbn [f_to_Z Qnum Qden]. rewrite Z.quot_0_l by lia. change (Z.max (-2147483648) (Z.min 2147483647 0)) with 0%Z. rewrite Z.add_0_r.
  replace (i32_ok a) with true by (symmetry; unfold i32_ok; apply andb_true_intro; split; apply Z.leb_le; lia). reflexivity.
Qed.
Lemma int_last a b : is_i32 a -> is_i32 b -> (Z.abs (b - a) <= 16777216)%Z -> blend_int a b (Fin 1) = Done b.
Proof.
  intros A B D. unfold blend_int, is_i32 in *. replace (i32_ok (b - a)) with true by (symmetry; unfold i32_ok; apply andb_true_intro; split; apply Z.leb_le; lia).
  destruct (int_exact (b - a) D) as (q & -> & Q0). rewrite mul_is. rewrite (round_wd f32 f32_valid (q * 1) (inject_Z (b - a))) by (rewrite Q0; ring).
  destruct (round_exact f32 f32_valid (inject_Z (b - a)) (int_fits _ D)) as (v & -> & V). cbn [f_to_Z]. destruct (trunc_of v) as (w & -> & W1 & W2).
  assert (W : w = (b - a)%Z).
  { destruct (Z.le_ge_cases 0 (b - a)) as [G|G]; rewrite Zle_Qle in G; change (inject_Z 0) with 0 in G.
    - destruct (W1 ltac:(lra)) as [X1 X2]. rewrite V in X1, X2. rewrite <- Zle_Qle in X1. rewrite <- Zlt_Qlt in X2. lia.
    - destruct (W2 ltac:(lra)) as [X1 X2]. rewrite V in X1, X2. rewrite <- Zle_Qle in X1. rewrite <- Zlt_Qlt in X2. lia. }
  subst w. replace (Z.max (-2147483648) (Z.min 2147483647 (b - a))) with (b - a)%Z by lia. replace (a + (b - a))%Z with b by lia.
  replace (i32_ok b) with true by (symmetry; unfold i32_ok; apply andb_true_intro; split; apply Z.leb_le; lia). reflexivity.
Qed.

(* ---- values ---- *)
Lemma num_part a b p : apart a b -> 0 <= p <= 1 -> num_between a b (blend_num (Fin a) (Fin b) (Fin p)).
Proof.
  intros (A & B & D) P. destruct (blend_num_parts a b p A B D P) as (u & w & _ & _ & E & W1 & W2). exists w. split; [exact E|]. destruct (Qlt_le_dec b a) as [G|G].
  - specialize (W2 ltac:(lra)). rewrite Q.min_r, Q.max_l by lra. exact W2.
  - specialize (W1 G). rewrite Q.min_l, Q.max_r by lra. exact W1.
Qed.
Lemma value_first v : sound_value v -> exists r, interpolate v (Fin 0) = Done r /\ first_value v r.
Proof.
  intros S. unfold interpolate. change (clamp01 (Fin 0)) with (Fin 0). destruct S as [a b A B D|a b (A & B & D)|a b A B|a b c d (A & B & D) (A' & B' & D')|a b c d (A & B & D) (A' & B' & D')].
  - rewrite (int_first a b A B D). eexists. split; [reflexivity|constructor].
  - eexists. split; [reflexivity|]. constructor. now apply blend_num_ends.
  - eexists. split; [reflexivity|]. rewrite (proj1 (proj2 (color_blend a b 0 A B ltac:(lra)))). constructor.
  - eexists. split; [reflexivity|]. constructor; now apply blend_num_ends.
  - eexists. split; [reflexivity|]. constructor; now apply blend_num_ends.
Qed.
Lemma value_last v : sound_value v -> exists r, interpolate v (Fin 1) = Done r /\ last_value v r.
Proof.
  intros S. unfold interpolate, last_value. change (clamp01 (Fin 1)) with (Fin 1). destruct S as [a b A B D|a b (A & B & D)|a b A B|a b c d (A & B & D) (A' & B' & D')|a b c d (A & B & D) (A' & B' & D')]; cbn [turned].
  - rewrite (int_last a b A B D). eexists. split; [reflexivity|constructor].
  - eexists. split; [reflexivity|]. constructor. now apply blend_num_ends.
  - eexists. split; [reflexivity|]. rewrite (proj2 (proj2 (color_blend a b 0 A B ltac:(lra)))). constructor.
  - eexists. split; [reflexivity|]. constructor; now apply blend_num_ends.
  - eexists. split; [reflexivity|]. constructor; now apply blend_num_ends.
Qed.
Lemma value_inside v x p : sound_value v -> clamp01 x = Fin p -> 0 <= p <= 1 -> exists r, interpolate v x = Done r /\ value_between v r.
Proof.
  intros S E P. unfold interpolate. rewrite E. destruct S as [a b A B D|a b W|a b A B|a b c d W W'|a b c d W W'].
  - destruct (int_blend a b p 25 A B P D) as (z & -> & Z1 & _); [|lia|].
    + change (2 ^ 25) with (inject_Z 33554432). rewrite <- Zlt_Qlt. lia.
    + eexists. split; [reflexivity|now constructor].
  - eexists. split; [reflexivity|]. constructor. now apply num_part.
  - eexists. split; [reflexivity|]. constructor. now apply color_blend.
  - eexists. split; [reflexivity|]. constructor; now apply num_part.
  - eexists. split; [reflexivity|]. constructor; now apply num_part.
Qed.
Lemma interpolate_clamp v x p : clamp01 x = Fin p -> clamp01 (Fin p) = Fin p -> interpolate v x = interpolate v (Fin p).
Proof. intros E F. unfold interpolate. now rewrite E, F. Qed.

(* ---- modifiers ---- *)
Lemma notin c s : forallb (fun x => negb (x =? c)%N) s = true <-> without c s.
Proof.
  unfold without. rewrite forallb_forall. split.
  - intros H I. specialize (H c I). now rewrite N.eqb_refl in H.
  - intros H x I. destruct (N.eqb_spec x c); [subst; contradiction|reflexivity].
Qed.
Lemma find_is c s a b : find_char (fun x => (x =? c)%N) s = Some (a, b) <-> exists r, b = c :: r /\ s = a ++ c :: r /\ without c a.
Proof.
  rewrite find_char_some. split.
  - intros (-> & A & x & r & -> & E). apply N.eqb_eq in E. subst x. exists r. split; [reflexivity|]. split; [reflexivity|]. now apply notin.
  - intros (r & -> & -> & A). split; [reflexivity|]. split; [now apply notin|]. exists c, r. split; [reflexivity|apply N.eqb_refl].
Qed.
Lemma find_isnt c s : find_char (fun x => (x =? c)%N) s = None <-> without c s.
Proof. rewrite find_char_none. apply notin. Qed.
Lemma two_splits c d (u v x y : str) : c <> d -> without c u -> without d x -> u ++ c :: v = x ++ d :: y ->
  (exists i, v = i ++ d :: y /\ without d u /\ without d i /\ x = u ++ c :: i) \/ (exists i, y = i ++ c :: v /\ without c x /\ without c i /\ u = x ++ d :: i).
Proof.
  intros N0. revert x. induction u as [|h u IH]; intros x U X E.
  - destruct x as [|g x]; [cbn in E; congruence|]. cbn in E. injection E as <- E. left. exists x. split; [exact E|]. split; [intros []|]. split; [intros I; apply X; now right|reflexivity].
  - destruct x as [|g x].
    + cbn in E. injection E as -> E. right. exists u. split; [now symmetry|]. split; [intros []|]. split; [intros I; apply U; now right|reflexivity].
    + cbn in E. injection E as <- E. destruct (IH x) as [(i & E1 & E2 & E3 & E4)|(i & E1 & E2 & E3 & E4)]; [intros I; apply U; now right|intros I; apply X; now right|exact E| |].
      * left. exists i. split; [exact E1|]. split; [intros [<-|I]; [apply X; now left|contradiction]|]. split; [exact E3|]. now rewrite E4.
      * right. exists i. split; [exact E1|]. split; [intros [<-|I]; [apply U; now left|contradiction]|]. split; [exact E3|]. now rewrite E4.
Qed.
Lemma split_first c (u v x y : str) : without c u -> without c x -> u ++ c :: v = x ++ c :: y -> u = x /\ v = y.
Proof.
  revert x. induction u as [|h u IH]; intros [|g x] U X E; cbn in E.
  { injection E as ->. now split. }
  { injection E as -> _. exfalso. apply X. now left. }
  { injection E as -> _. exfalso. apply U. now left. }
  injection E as <- E2.
  destruct (IH x) as [-> ->]; [intros I; apply U; now right|intros I; apply X; now right|exact E2|now split].
Qed.
Lemma inner_fun s i j : inner s i -> inner s j -> i = j.
Proof.
  intros (u & r & -> & U & _ & I) (x & y & E & X & _ & J). destruct (split_first 40 _ _ _ _ U X E) as [-> E2]. now destruct (split_first 41 _ _ _ _ I J E2).
Qed.
Lemma extract_is s : (crossed s /\ extract_values s = Crash) \/ (exists i, inner s i /\ ~ crossed s /\ extract_values s = Done (Some (split_on ParseModel.is_comma i))) \/ ((forall i, ~ inner s i) /\ ~ crossed s /\ extract_values s = Done None).
Proof.
  unfold extract_values. destruct (find_char (fun c => (c =? 40)%N) s) as [[a a']|] eqn:EA.
  - apply find_is in EA as (v & -> & SA & A). destruct (find_char (fun c => (c =? 41)%N) s) as [[b b']|] eqn:EB.
    + apply find_is in EB as (y & -> & SB & B). destruct (two_splits 40 41 a v b y) as [(i & E1 & E2 & E3 & E4)|(i & E1 & E2 & E3 & E4)]; [discriminate|exact A|exact B|congruence| |].
      * right. left. exists i. split; [exists a, y; split; [congruence|now split]|]. split.
        { intros (p & q & E & P & P' & I). rewrite SB in E. destruct (split_first 41 _ _ _ _ B P' E) as [-> _]. apply P. rewrite E4. apply in_or_app. right. now left. }
        rewrite SA, E1, E4. replace (slice (a ++ 40%N :: i ++ 41%N :: y) (blen a + 1) (blen (a ++ 40%N :: i))) with (Some i); [reflexivity|]. symmetry. apply slice_spec. exists (a ++ [40%N]), (41%N :: y). split; [now rewrite <- app_assoc|]. rewrite !blen_app. change (blen (40%N :: i)) with (1 + blen i)%nat. change (blen [40%N]) with 1%nat. lia.
      * left. split; [exists b, y; split; [exact SB|]; split; [exact E2|]; split; [exact B|]; rewrite E1; apply in_or_app; right; now left|].
        destruct (slice s (blen a + 1) (blen b)) as [m|] eqn:E; [|reflexivity]. apply slice_spec in E as (w & z & _ & _ & L). rewrite E4, blen_app in L. lia.
    + right. right. apply find_isnt in EB. split; [|split; [|reflexivity]].
      * intros i (u & r & E & _). apply EB. rewrite E. apply in_or_app. right. right. apply in_or_app. right. now left.
      * intros (u & r & E & _). apply EB. rewrite E. apply in_or_app. right. now left.
  - right. right. apply find_isnt in EA. split; [|split; [|reflexivity]].
    + intros i (u & r & E & _). apply EA. rewrite E. apply in_or_app. right. now left.
    + intros (u & r & E & _ & _ & I). apply EA. rewrite E. apply in_or_app. right. now right.
Qed.
Lemma split_two i a b : split_on ParseModel.is_comma i = [a; b] <-> i = a ++ 44%N :: b /\ without 44 a /\ without 44 b.
Proof.
  split.
  - intros E. destruct (find_char ParseModel.is_comma i) as [[x y]|] eqn:F.
    + apply (find_is 44) in F as (r & -> & -> & X). rewrite split_on_app in E by (try reflexivity; now apply notin). injection E as -> E.
      destruct (find_char ParseModel.is_comma r) as [[x' y']|] eqn:G.
      * apply (find_is 44) in G as (r' & -> & -> & X'). rewrite split_on_app in E by (try reflexivity; now apply notin). injection E as _ E. now apply split_on_nonempty in E.
      * apply (find_isnt 44) in G. rewrite split_on_none in E by (now apply notin). injection E as ->. now split.
    + apply (find_isnt 44) in F. rewrite split_on_none in E by (now apply notin). discriminate E.
  - intros (-> & A & B). rewrite split_on_app by (try reflexivity; now apply notin). f_equal. apply split_on_none. now apply notin.
Qed.
Definition kind_reader (k : kind) : string * (str -> str -> anim_value) :=
  match k with
  | KScaleX => ("fscx"%string, float_pair (fl 100)) | KScaleY => ("fscy"%string, float_pair (fl 100)) | KSize => ("fs"%string, float_pair (fl 20)) | KRotation => ("frz"%string, float_pair (fl 0))
  | KColor => ("c"%string, fun a b => AColor (or_else (track_color a) white) (or_else (track_color b) white))
  | KAlpha => ("alpha"%string, fun a b => AInteger (Z.of_N (or_else (track_alpha a) 255%N)) (Z.of_N (or_else (track_alpha b) 255%N)))
  end.
Lemma reader_value k a b : snd (kind_reader k) a b = kind_value k a b.
Proof. destruct k; cbn [kind_reader snd kind_value kind_default]; try reflexivity. destruct (track_alpha a), (track_alpha b); reflexivity. Qed.
Lemma reader_name k : lit (fst (kind_reader k)) = kind_name k. Proof. destruct k; reflexivity. Qed.
Lemma sw_false p s : starts_with p s = false <-> forall r, s <> p ++ r.
Proof. split. - intros H r ->. now rewrite starts_with_app in H. - intros H. destruct (starts_with p s) eqn:E; [|reflexivity]. apply starts_with_spec in E as [r ->]. now destruct (H r). Qed.
Lemma kind_some s k : kind_is s k -> modifier_kind s = Some (kind_reader k).
Proof.
  intros H. destruct H as [r|r|r H1 H2|r|r|r|r]; unfold modifier_kind; try reflexivity.
  change (starts_with (lit "\fscx") (lit "\fs" ++ r)) with (starts_with (lit "cx") r). change (starts_with (lit "\fscy") (lit "\fs" ++ r)) with (starts_with (lit "cy") r). rewrite H1, H2. reflexivity.
  change (starts_with (lit "\frz") (lit "\fr" ++ r)) with (starts_with (lit "z") r). change (starts_with (lit "\fr") (lit "\fr" ++ r)) with true. rewrite orb_true_r. reflexivity.
Qed.
Lemma kind_known s x : modifier_kind s = Some x -> exists k, kind_is s k.
Proof.
  unfold modifier_kind. destruct (starts_with (lit "\fscx") s) eqn:E1; [apply starts_with_spec in E1 as [r ->]; intros _; eexists; constructor|].
  destruct (starts_with (lit "\fscy") s) eqn:E2; [apply starts_with_spec in E2 as [r ->]; intros _; eexists; constructor|].
  destruct (starts_with (lit "\fs") s) eqn:E3. { apply starts_with_spec in E3 as [r ->]. intros _. eexists. apply ki_s; assumption. }
  destruct (starts_with (lit "\frz") s) eqn:E4. { apply starts_with_spec in E4 as [r ->]. intros _. exists KRotation. exact (ki_r (lit "z" ++ r)). }
  destruct (starts_with (lit "\fr") s) eqn:E5. { apply starts_with_spec in E5 as [r ->]. intros _. eexists. apply ki_r. }
  destruct (starts_with (lit "\c") s) eqn:E6. { apply starts_with_spec in E6 as [r ->]. intros _. eexists. apply ki_c. }
  destruct (starts_with (lit "\1c") s) eqn:E7. { apply starts_with_spec in E7 as [r ->]. intros _. eexists. apply ki_1c. }
  destruct (starts_with (lit "\alpha") s) eqn:E8. { apply starts_with_spec in E8 as [r ->]. intros _. eexists. apply ki_a. }
  discriminate.
Qed.
Lemma modifier_is s t : (crossed s /\ (exists k, kind_is s k) /\ parse_modifier s t = Crash) \/
  (~ (crossed s /\ exists k, kind_is s k) /\ exists o, parse_modifier s t = Done o /\ forall l, modifier_gives t s l <-> l = match o with Some k => [k] | None => [] end).
Proof.
  unfold parse_modifier. destruct (modifier_kind s) as [[name read]|] eqn:K.
  - destruct (kind_known _ _ K) as (k & KI). pose proof (kind_some _ _ KI) as KS. rewrite K in KS. injection KS as E.
    assert (U : forall k', kind_is s k' -> k' = k). { intros k' H. apply kind_some in H. rewrite K, E in H. destruct k, k'; try reflexivity; discriminate H. }
    destruct (extract_is s) as [(C & ->)|[(i & I & C & ->)|(NI & C & ->)]]; cbn [bind].
    + left. split; [exact C|]. split; [now exists k|reflexivity].
    + right. split; [intros [? _]; contradiction|]. destruct (split_on ParseModel.is_comma i) as [|a [|b [|c l']]] eqn:SP.
      * now apply split_on_nonempty in SP.
      * exists None. split; [reflexivity|]. intros l. split.
        { intros H. inversion H as [k' a0 b0 KI' (I' & A' & B')|]; [|reflexivity]. rewrite (inner_fun _ _ _ I I') in SP. rewrite (proj2 (split_two _ a0 b0)) in SP; [discriminate|]. now split. }
        { intros ->. apply mg_none. intros k' _. split; [exact C|]. intros a0 b0 (I' & A' & B'). rewrite (inner_fun _ _ _ I I') in SP. rewrite (proj2 (split_two _ a0 b0)) in SP; [discriminate|]. now split. }
      * exists (Some (Track (lit name) t (read a b) Linear)). split; [reflexivity|]. apply split_two in SP as (-> & A & B).
        assert (T : Track (lit name) t (read a b) Linear = Track (kind_name k) t (kind_value k a b) Linear). { rewrite <- reader_name, <- reader_value, <- E. reflexivity. }
        intros l. rewrite T. split.
        { intros H. inversion H as [k' a0 b0 KI' (I' & A' & B') HE|H0 HE].
          - rewrite (U _ KI'). apply (inner_fun _ _ _ I) in I'. destruct (split_first 44 _ _ _ _ A A' I') as [-> ->]. reflexivity.
          - exfalso. destruct (H0 k KI) as [_ HN]. apply (HN a b). now split. }
        { intros ->. apply mg_one; [exact KI|]. now split. }
      * exists None. split; [reflexivity|]. intros l. split.
        { intros H. inversion H as [k' a0 b0 KI' (I' & A' & B')|]; [|reflexivity]. rewrite (inner_fun _ _ _ I I') in SP. rewrite (proj2 (split_two _ a0 b0)) in SP; [discriminate|]. now split. }
        { intros ->. apply mg_none. intros k' _. split; [exact C|]. intros a0 b0 (I' & A' & B'). rewrite (inner_fun _ _ _ I I') in SP. rewrite (proj2 (split_two _ a0 b0)) in SP; [discriminate|]. now split. }
    + right. split; [intros [? _]; contradiction|]. exists None. split; [reflexivity|]. intros l. split.
      * intros H. inversion H as [k' a0 b0 KI' (I' & _)|]; [|reflexivity]. now apply NI in I'.
      * intros ->. apply mg_none. intros k' _. split; [exact C|]. intros a0 b0 (I' & _). now apply NI in I'.
  - right. assert (U : forall k', ~ kind_is s k'). { intros k' H. apply kind_some in H. congruence. }
    split; [intros [_ [k' H]]; now apply U in H|]. exists None. split; [reflexivity|]. intros l. split.
    + intros H. inversion H as [k' a0 b0 KI'|]; [now apply U in KI'|reflexivity].
    + intros ->. apply mg_none. intros k' H. now apply U in H.
Qed.
Lemma modifiers_are t l : forall ts, (Exists (fun s => crossed s /\ exists k, kind_is s k) l /\ add_modifiers ts t l = Crash) \/
  (~ Exists (fun s => crossed s /\ exists k, kind_is s k) l /\ exists gs, Forall2 (modifier_gives t) l gs /\ add_modifiers ts t l = Done (ts ++ concat gs)).
Proof.
  induction l as [|s l IH]; intros ts.
  - right. split; [intros H; inversion H|]. exists []. split; [constructor|]. cbn. now rewrite app_nil_r.
  - cbn [add_modifiers]. destruct (modifier_is s t) as [(C & K & E)|(C & o & E & G)]; rewrite E; cbn [bind].
    + left. split; [now constructor|reflexivity].
    + destruct (IH (match o with Some k => ts ++ [k] | None => ts end)) as [(X & ->)|(X & gs & F & ->)].
      * left. split; [now apply Exists_cons_tl|reflexivity].
      * right. split; [intros H; inversion H; contradiction|]. exists (match o with Some k => [k] | None => [] end :: gs). split; [constructor; [now apply G|exact F]|]. destruct o; cbn [concat app]; [now rewrite <- app_assoc|reflexivity].
Qed.
Lemma gives_fun t s l l' : modifier_gives t s l -> modifier_gives t s l' -> ~ (crossed s /\ exists k, kind_is s k) -> l = l'.
Proof. intros A B C. destruct (modifier_is s t) as [(X & Y & _)|(_ & o & _ & G)]; [tauto|]. apply G in A, B. congruence. Qed.

(* ---- the controller ---- *)
Lemma str_eqb_refl s : str_eqb s s = true. Proof. now apply str_eqb_eq. Qed.
Lemma get_set s n v k : get_property (set_property n v s) k = if str_eqb n k then Some v else get_property s k.
Proof.
  unfold get_property. induction s as [|[m w] s IH]; cbn [set_property find fst].
  - destruct (str_eqb n k); reflexivity.
  - destruct (str_eqb m n) eqn:E.
    + apply str_eqb_eq in E. subst m. cbn [find fst]. destruct (str_eqb n k); reflexivity.
    + cbn [find fst]. destruct (str_eqb m k) eqn:F; [|exact IH]. apply str_eqb_eq in F. subst m. destruct (str_eqb n k) eqn:G; [|reflexivity]. apply str_eqb_eq in G. subst. now rewrite str_eqb_refl in E.
Qed.
Lemma evaluate_runs m now ts : forall s,
  (exists k, In k ts /\ evaluate m k now = Crash) /\ evaluate_all m ts now s = Crash \/
  exists rs s', Forall2 (fun k r => evaluate m k now = Done r) ts rs /\ evaluate_all m ts now s = Done s' /\
    forall n, get_property s' n = fold_left (fun o x => if str_eqb (tk_property (fst x)) n then Some (snd x) else o) (combine ts rs) (get_property s n).
Proof.
  induction ts as [|k ts IH]; intros s.
  - right. exists [], s. split; [constructor|]. split; [reflexivity|]. reflexivity.
  - cbn [evaluate_all]. destruct (evaluate m k now) as [r| |] eqn:E; cbn [bind].
    + destruct (IH (set_property (tk_property k) r s)) as [((k' & I & X) & ->)|(rs & s' & F & -> & G)].
      * left. split; [|reflexivity]. exists k'. split; [now right|exact X].
      * right. exists (r :: rs), s'. split; [now constructor|]. split; [reflexivity|]. intros n. rewrite G, get_set. cbn [combine fold_left fst snd]. reflexivity.
    + left. split; [|reflexivity]. exists k. split; [now left|exact E].
    + exfalso. unfold evaluate, interpolate, blend_int in E. destruct (tk_value k); try discriminate E. destruct (i32_ok (to - from)); [|discriminate E]. destruct (i32_ok _); discriminate E.
Qed.
Lemma fold_last n l : forall o, fold_left (fun o (x : track * anim_result) => if str_eqb (tk_property (fst x)) n then Some (snd x) else o) l o =
  match rev (filter (fun x => str_eqb (tk_property (fst x)) n) l) with x :: _ => Some (snd x) | [] => o end.
Proof.
  induction l as [|x l IH] using rev_ind; intros o; [reflexivity|]. rewrite fold_left_app, filter_app, rev_app_distr. cbn [fold_left filter]. rewrite IH. destruct (str_eqb _ n); reflexivity.
Qed.

(* ---- texts of colours ---- *)
Lemma hex_not_amp c : is_hex c = true -> (c < 128)%N /\ c <> 38%N. Proof. unfold is_hex, is_digit. lia. Qed.
Lemma no_prefix h t : forallb is_hex h = true -> h <> [] -> strip_prefix (lit "&H") (h ++ t) = None.
Proof.
  intros H L. destruct h as [|c h]; [congruence|]. cbn [forallb] in H. apply andb_prop in H as [H _]. apply hex_not_amp in H as [_ H]. destruct (strip_prefix (lit "&H") ((c :: h) ++ t)) as [r|] eqn:E; [|reflexivity]. apply strip_prefix_some in E. cbn in E. injection E as E _. exfalso. apply H. rewrite E. reflexivity.
Qed.
Lemma hex_end h : forallb is_hex h = true -> drop_end is_amp h = h.
Proof.
  intros H. apply drop_end_id. destruct h as [|c h] using rev_ind; [now left|]. right. exists h, c. split; [reflexivity|]. rewrite forallb_app in H. apply andb_prop in H as [_ H]. cbn [forallb] in H. apply andb_prop in H as [H _]. apply hex_not_amp in H as [_ H]. unfold is_amp. now apply N.eqb_neq.
Qed.
Lemma cleaned h : forallb is_hex h = true -> h <> [] ->
  drop_end is_amp (trim_matches (lit "&H") (lit "&H" ++ h ++ lit "&")) = h /\ drop_end is_amp (trim_matches (lit "&H") (lit "&H" ++ h)) = h /\ drop_end is_amp (trim_matches (lit "&H") h) = h.
Proof.
  intros H L. assert (T0 : forall f t, drop_prefixes f (lit "&H") (h ++ t) = h ++ t) by (intros [|f] t; cbn [drop_prefixes]; [reflexivity|now rewrite no_prefix]).
  assert (T1 : forall t, trim_matches (lit "&H") (lit "&H" ++ h ++ t) = h ++ t).
  { intros t. unfold trim_matches. change (List.length (lit "&H" ++ h ++ t)) with (S (S (List.length (h ++ t)))). cbn [drop_prefixes]. rewrite (proj2 (strip_prefix_some (lit "&H") _ (h ++ t)) eq_refl). exact (T0 (S (List.length (h ++ t))) t). }
  split; [|split].
  - rewrite T1, drop_end_app_all by reflexivity. now apply hex_end.
  - specialize (T1 []). rewrite !app_nil_r in T1. rewrite T1. now apply hex_end.
  - unfold trim_matches. specialize (T0 (List.length h) []). rewrite app_nil_r in T0. rewrite T0. now apply hex_end.
Qed.
Lemma hex_blen h : forallb is_hex h = true -> blen h = List.length h.
Proof. intros H. apply blen_ascii. apply Forall_forall. intros c I. rewrite forallb_forall in H. now apply hex_not_amp, H. Qed.
Lemma hex_read h : forallb is_hex h = true -> h <> [] -> (List.length h <= 8)%nat -> parse_uint u32_max 16 h = Some (hex_value h).
Proof. intros H L B. apply parse_uint_hex. assert (P : hex_numeral_plus h (hex_value h)) by (left; now split). split; [exact P|]. exact (plus_bound _ _ P B). Qed.
Lemma color_6 d r g b : (r < 256)%N -> (g < 256)%N -> (b < 256)%N -> forallb is_hex d = true -> List.length d = 6%nat -> hex_value d = (b * 65536 + g * 256 + r)%N ->
  (if blen d =? 6 then option_map (fun v => ((v mod 256)%N, (v / 256 mod 256)%N, (v / 65536 mod 256)%N, 255%N)) (parse_uint u32_max 16 d)
  else if blen d =? 8 then option_map (fun v => ((v mod 256)%N, (v / 256 mod 256)%N, (v / 65536 mod 256)%N, (255 - v / 16777216 mod 256)%N)) (parse_uint u32_max 16 d)
  else None) = Some (r, g, b, 255%N).
Proof.
  intros R G B H L V. rewrite hex_blen, L, hex_read by (try assumption; try lia; destruct d; discriminate). cbn [Nat.eqb option_map]. rewrite V. f_equal. repeat apply f_equal2; try reflexivity.
  - symmetry. apply (N.mod_unique _ 256 (b * 256 + g)); lia.
  - rewrite <- (N.div_unique (b * 65536 + g * 256 + r) 256 (b * 256 + g) r) by lia. symmetry. apply (N.mod_unique _ 256 b); lia.
  - rewrite <- (N.div_unique (b * 65536 + g * 256 + r) 65536 b (g * 256 + r)) by lia. apply N.mod_small. lia.
Qed.
Lemma color_8 d r g b a : (r < 256)%N -> (g < 256)%N -> (b < 256)%N -> (a < 256)%N -> forallb is_hex d = true -> List.length d = 8%nat -> hex_value d = (a * 16777216 + b * 65536 + g * 256 + r)%N ->
  (if blen d =? 6 then option_map (fun v => ((v mod 256)%N, (v / 256 mod 256)%N, (v / 65536 mod 256)%N, 255%N)) (parse_uint u32_max 16 d)
  else if blen d =? 8 then option_map (fun v => ((v mod 256)%N, (v / 256 mod 256)%N, (v / 65536 mod 256)%N, (255 - v / 16777216 mod 256)%N)) (parse_uint u32_max 16 d)
  else None) = Some (r, g, b, 255 - a)%N.
Proof.
  intros R G B A H L V. rewrite hex_blen, L, hex_read by (try assumption; try lia; destruct d; discriminate). cbn [Nat.eqb option_map]. rewrite V. f_equal. repeat apply f_equal2; try reflexivity.
  - symmetry. apply (N.mod_unique _ 256 (a * 65536 + b * 256 + g)); lia.
  - rewrite <- (N.div_unique _ 256 (a * 65536 + b * 256 + g) r) by lia. symmetry. apply (N.mod_unique _ 256 (a * 256 + b)); lia.
  - rewrite <- (N.div_unique _ 65536 (a * 256 + b) (g * 256 + r)) by lia. symmetry. apply (N.mod_unique _ 256 a); lia.
  - rewrite <- (N.div_unique _ 16777216 a (b * 65536 + g * 256 + r)) by lia. now rewrite N.mod_small.
Qed.
Close Scope Q_scope.
