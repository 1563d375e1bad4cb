(* Proofs about the place of text. *)
From Verif Require Import Base FloatModel FloatSpec FloatProofs CollideModel CollideProofs SegmentModel AnimModel AnimSpec AnimProofs AnimFields ShowModel ShowSpec ShowProofs WrapModel WrapSpec WrapProofs PlaceModel PlaceSpec.
From Coq Require Import Lqa.
Open Scope Q_scope.

(* ---- relative errors ---- *)
Lemma pow2_succ k : 2 ^ (k + 1) == 2 * 2 ^ k.
Proof. rewrite pow2_plus. rewrite pow2_2. ring. Qed.
Lemma binade q a n : 2 ^ a <= q -> q < 2 ^ (a + Z.of_nat n) -> exists k, (a < k <= a + Z.of_nat n)%Z /\ 2 ^ (k - 1) <= q /\ q < 2 ^ k.
Proof.
  intros H. induction n as [|n IH]; intros L.
  - replace (a + Z.of_nat 0)%Z with a in L by lia. lra.
  - destruct (Qlt_le_dec q (2 ^ (a + Z.of_nat n))) as [K|K].
    + destruct (IH K) as (k & B & R). exists k. split; [lia|exact R].
    + exists (a + Z.of_nat (S n))%Z. split; [lia|]. split; [|exact L]. replace (a + Z.of_nat (S n) - 1)%Z with (a + Z.of_nat n)%Z by lia. exact K.
Qed.
Lemma round_rel q : 2 ^ (-90) <= Qabs q -> Qabs q < 2 ^ 90 -> exists v, round_to f32 q = Fin v /\ Qabs (v - q) <= (1 # 16777216) * Qabs q.
Proof.
  intros L U. destruct (binade (Qabs q) (-90) 180 L U) as (k & B & K1 & K2).
  destruct (round_err q k K2 ltac:(lia)) as (v & E & H). exists v. split; [exact E|]. eapply Qle_trans; [exact H|].
  replace (k - 25)%Z with (-24 + (k - 1))%Z by lia. rewrite pow2_plus. change (2 ^ (-24)) with (1 # 16777216). nra.
Qed.
Lemma pow2_le a b : (a <= b)%Z -> 2 ^ a <= 2 ^ b.
Proof.
  intros H. replace b with (a + (b - a))%Z by lia. rewrite pow2_plus. assert (1 <= 2 ^ (b - a)). { rewrite pow2_Z by lia. change 1 with (inject_Z 1). rewrite <- Zle_Qle. apply (Z.pow_le_mono_r 2 0); lia. }
  pose proof (pow2_pos a). nra.
Qed.
Lemma Qn_1 n : (1 <= n)%N -> 1 <= Qn n. Proof. intros H. change 1 with (Qn 1). now apply Qn_le. Qed.
Lemma Qn_24 n : (n <= 16777216)%N -> Qn n <= 2 ^ 24. Proof. intros H. change (2 ^ 24) with (Qn 16777216). now apply Qn_le. Qed.
Lemma div_pos a b : 0 < b -> 0 <= a -> 0 <= a / b.
Proof. intros H K. apply Qle_shift_div_l; [exact H|]. lra. Qed.
Lemma ratio_bounds w p : (1 <= w <= 16777216)%N -> (1 <= p <= 16777216)%N -> 2 ^ (-24) <= Qn w / Qn p /\ Qn w / Qn p <= 2 ^ 24.
Proof.
  intros W P. pose proof (Qn_1 w ltac:(lia)). pose proof (Qn_1 p ltac:(lia)). pose proof (Qn_24 w ltac:(lia)). pose proof (Qn_24 p ltac:(lia)).
  change (2 ^ (-24)) with (1 # 16777216). change (2 ^ 24) with 16777216 in *.
  split; [apply Qle_shift_div_l|apply Qle_shift_div_r]; lra.
Qed.
Lemma div_is a b p q : num_is a p -> num_is b q -> ~ q == 0 -> f_div f32 a b = round_to f32 (p / q).
Proof.
  intros (x & -> & X) (y & -> & Y) NZ. unfold f_div. destruct (qzero y) eqn:Z0.
  - exfalso. apply NZ. rewrite <- Y. unfold qzero in Z0. apply Z.eqb_eq in Z0. unfold Qeq. rewrite Z0. reflexivity.
  - apply round_wd; [exact f32_valid|]. rewrite X, Y. reflexivity.
Qed.
Lemma nat_is n : (n <= 16777216)%N -> num_is (f_of_N f32 n) (Qn n).
Proof. intros H. apply (int_exact (Z.of_N n)). lia. Qed.
Lemma scale_rel w p a b : num_is a (Qn w) -> num_is b (Qn p) -> (1 <= w <= 16777216)%N -> (1 <= p <= 16777216)%N ->
  exists s, f_div f32 a b = Fin s /\ 0 < s /\ Qabs (s - Qn w / Qn p) <= (1 # 16777216) * (Qn w / Qn p).
Proof.
  intros A B W P. pose proof (ratio_bounds w p W P) as (L & U). pose proof (Qn_1 p ltac:(lia)) as P1.
  rewrite (div_is a b (Qn w) (Qn p) A B) by lra. pose proof (pow2_pos (-24)).
  assert (AB : Qabs (Qn w / Qn p) == Qn w / Qn p) by (apply Qabs_pos; lra).
  destruct (round_rel (Qn w / Qn p)) as (s & E & H0).
  - rewrite AB. eapply Qle_trans; [|exact L]. apply pow2_le. lia.
  - rewrite AB. eapply Qle_lt_trans; [exact U|]. reflexivity.
  - exists s. split; [exact E|]. rewrite AB in H0. split; [|exact H0]. apply abs_bound in H0. lra.
Qed.
(* a number times a quotient computed once *)
Lemma abs_mul_le a b c : 0 <= b -> Qabs a <= c -> Qabs a * b <= c * b.
Proof. intros. nra. Qed.
Lemma times_rel x s t v e1 : 0 <= t -> 0 <= e1 -> e1 <= 1 -> Qabs (s - t) <= e1 * t -> Qabs (v - x * s) <= (1 # 16777216) * Qabs (x * s) -> Qabs (v - x * t) <= (e1 + (2 # 16777216)) * Qabs (x * t).
Proof.
  intros T E0 E1 S V. rewrite !Qabs_Qmult in *. rewrite (Qabs_pos t T) in *.
  assert (SA : Qabs s <= (1 + e1) * t). { setoid_replace s with ((s - t) + t) by ring. eapply Qle_trans; [apply Qabs_triangle|]. rewrite (Qabs_pos t T). lra. }
  assert (X : 0 <= Qabs x) by apply Qabs_nonneg.
  assert (D : Qabs (x * s - x * t) <= e1 * (Qabs x * t)). { setoid_replace (x * s - x * t) with (x * (s - t)) by ring. rewrite Qabs_Qmult. nra. }
  assert (M : Qabs x * Qabs s <= (1 + e1) * (Qabs x * t)) by nra.
  assert (M0 : 0 <= Qabs x * t) by nra.
  setoid_replace (v - x * t) with ((v - x * s) + (x * s - x * t)) by ring. eapply Qle_trans; [apply Qabs_triangle|].
  assert (e1 * (Qabs x * t) <= Qabs x * t) by nra. nra.
Qed.
Lemma mul_fin a b : mul32 (Fin a) (Fin b) = round_to f32 (a * b). Proof. reflexivity. Qed.
Lemma round_zero q : q == 0 -> exists v, round_to f32 q = Fin v /\ v == 0.
Proof. intros H. destruct (round_exact f32 f32_valid 0 zero_fits32) as (v & E & V). exists v. split; [|exact V]. rewrite <- E. apply round_wd; [exact f32_valid|exact H]. Qed.
Lemma mul_share x s t e1 : sensible x -> 2 ^ (-50) <= t -> t <= 2 ^ 50 -> 0 <= e1 -> e1 <= 1 # 4 -> Qabs (s - t) <= e1 * t -> within_share (e1 + (2 # 16777216)) (mul32 (Fin x) (Fin s)) (x * t).
Proof.
  intros X T1 T2 E0 E1 S. rewrite mul_fin. pose proof (pow2_pos (-50)) as P50. pose proof (pow2_pos 50) as Q50. unfold within_share.
  destruct X as [X|(X1 & X2)].
  - destruct (round_zero (x * s)) as (v & E & V); [rewrite X; ring|]. exists v. split; [exact E|]. assert (D : v - x * t == 0) by (rewrite V, X; ring). rewrite D. apply Qle_trans with 0; [apply Qle_refl|]. apply Qmult_le_0_compat; [lra|apply Qabs_nonneg].
  - assert (SB : (1 # 2) * t <= s /\ s <= 2 * t) by (apply abs_bound in S; nra).
    assert (AX : Qabs (x * s) == Qabs x * s) by (rewrite Qabs_Qmult, (Qabs_pos s) by lra; reflexivity).
    assert (L1 : 2 ^ (-30) * (2 ^ (-50) * (1 # 2)) <= Qabs x * s). { apply Qle_trans with (2 ^ (-30) * s); [|apply Qmult_le_compat_r; lra]. rewrite (Qmult_comm (2 ^ (-30)) s), (Qmult_comm (2 ^ (-30))). apply Qmult_le_compat_r; [lra|]. apply Qlt_le_weak, pow2_pos. }
    assert (U1 : Qabs x * s <= 2 ^ 30 * (2 * 2 ^ 50)). { apply Qle_trans with (2 ^ 30 * s); [apply Qmult_le_compat_r; lra|]. rewrite (Qmult_comm (2 ^ 30) s), (Qmult_comm (2 ^ 30)). apply Qmult_le_compat_r; [lra|]. apply Qlt_le_weak, pow2_pos. }
    destruct (round_rel (x * s)) as (v & E & V).
    + rewrite AX. eapply Qle_trans; [|exact L1]. vm_compute. discriminate.
    + rewrite AX. eapply Qle_lt_trans; [exact U1|]. reflexivity.
    + exists v. split; [exact E|]. apply (times_rel x s t v e1); try assumption; lra.
Qed.

(* ---- \pos ---- *)
Lemma scales g w h p r : frame_is g w h p r -> exists s u, scale_x g = Fin s /\ scale_y g = Fin u /\ 0 < s /\ 0 < u /\
  Qabs (s - Qn w / Qn p) <= (1 # 16777216) * (Qn w / Qn p) /\ Qabs (u - Qn h / Qn r) <= (1 # 16777216) * (Qn h / Qn r).
Proof.
  intros (W & H & P & R & BW & BH & BP & BR). unfold scale_x, scale_y. rewrite W, H.
  destruct (scale_rel w p _ _ (nat_is w ltac:(lia)) P BW BP) as (s & S & S0 & S1). destruct (scale_rel h r _ _ (nat_is h ltac:(lia)) R BH BR) as (u & U & U0 & U1).
  exists s, u. repeat split; assumption.
Qed.
Lemma scale_one n a b : num_is a (Qn n) -> num_is b (Qn n) -> (1 <= n <= 16777216)%N -> exists s, f_div f32 a b = Fin s /\ s == 1.
Proof.
  intros A B H. pose proof (Qn_1 n ltac:(lia)). rewrite (div_is a b _ _ A B) by lra. destruct (round_exact f32 f32_valid 1 one_fits) as (v & E & V). exists v. split; [|exact V]. rewrite <- E. apply round_wd; [exact f32_valid|]. field. lra.
Qed.
Lemma native_scales g w h : frame_is g w h w h -> exists s u, scale_x g = Fin s /\ scale_y g = Fin u /\ s == 1 /\ u == 1.
Proof.
  intros (W & H & P & R & BW & BH & BP & BR). unfold scale_x, scale_y. rewrite W, H.
  destruct (scale_one w _ _ (nat_is w ltac:(lia)) P BW) as (s & S & S1). destruct (scale_one h _ _ (nat_is h ltac:(lia)) R BH) as (u & U & U1). exists s, u. repeat split; assumption.
Qed.
Lemma mul_one x s : representable f32 x -> s == 1 -> num_is (mul32 (Fin x) (Fin s)) x.
Proof.
  intros X S. rewrite mul_fin. destruct (round_exact f32 f32_valid x X) as (v & E & V). exists v. split; [|exact V]. rewrite <- E. apply round_wd; [exact f32_valid|]. rewrite S. ring.
Qed.
Lemma pos_exact g w h sw now d t x y : frame_is g w h w h -> st_layout g = None -> pinned t (Fin x) (Fin y) -> representable f32 x -> representable f32 y ->
  at_point (position_from_tags g sw now d t) x y.
Proof.
  intros F L T X Y. unfold position_from_tags, laid_x, laid_y. unfold pinned in T. rewrite T, L. destruct (native_scales g w h F) as (s & u & -> & -> & S & U).
  eexists _, _. split; [reflexivity|]. split; now apply mul_one.
Qed.
Lemma share_le e e' a q : e <= e' -> within_share e a q -> within_share e' a q.
Proof. intros H (v & E & V). exists v. split; [exact E|]. eapply Qle_trans; [exact V|]. apply Qmult_le_compat_r; [exact H|apply Qabs_nonneg]. Qed.
Lemma share_wd e a q q' : q == q' -> within_share e a q -> within_share e a q'.
Proof. intros H (v & E & V). exists v. split; [exact E|]. now rewrite <- H. Qed.
Lemma ratio_wide w p : (1 <= w <= 16777216)%N -> (1 <= p <= 16777216)%N -> 2 ^ (-50) <= Qn w / Qn p /\ Qn w / Qn p <= 2 ^ 50.
Proof. intros W P. destruct (ratio_bounds w p W P). split; [apply Qle_trans with (2 ^ (-24))|apply Qle_trans with (2 ^ 24)]; try assumption; apply pow2_le; lia. Qed.
Lemma pos_near g w h p r sw now d t x y : frame_is g w h p r -> st_layout g = None -> pinned t (Fin x) (Fin y) -> sensible x -> sensible y ->
  exists a b, position_from_tags g sw now d t = Done (a, b) /\ within_share (2 ^ (-22)) a (x * (Qn w / Qn p)) /\ within_share (2 ^ (-22)) b (y * (Qn h / Qn r)).
Proof.
  intros F L T X Y. unfold position_from_tags, laid_x, laid_y. unfold pinned in T. rewrite T, L. destruct (scales g w h p r F) as (s & u & -> & -> & S0 & U0 & S & U).
  destruct F as (W & H & P & R & BW & BH & BP & BR). destruct (ratio_wide w p BW BP). destruct (ratio_wide h r BH BR).
  eexists _, _. split; [reflexivity|]. split; (eapply share_le; [|apply mul_share with (e1 := 1 # 16777216); try assumption; vm_compute; discriminate]); vm_compute; discriminate.
Qed.

(* ---- \move ---- *)
Lemma move_span_is start fin t1 t2 a b : move_span start fin t1 t2 = Some (a, b) <-> move_time start fin t1 t2 a b.
Proof.
  unfold move_span, add_time, u32_max. destruct (N.eqb_spec t1 0) as [E1|E1]; [destruct (N.eqb_spec t2 0) as [E2|E2]|]; cbn [andb].
  - subst. split; [intros [= <- <-]; constructor|]. intros H. inversion H; subst; [reflexivity|]. destruct H0; congruence.
  - destruct (N.ltb_spec 4294967295 (start + t1)); destruct (N.ltb_spec 4294967295 (start + t2)); split; try discriminate; try (intros [= <- <-]; apply mt_part; lia); intros H1; inversion H1; subst; try lia; reflexivity.
  - destruct (N.ltb_spec 4294967295 (start + t1)); destruct (N.ltb_spec 4294967295 (start + t2)); split; try discriminate; try (intros [= <- <-]; apply mt_part; lia); intros H1; inversion H1; subst; try lia; reflexivity.
Qed.
Lemma moved_is g sw now d t x1 y1 x2 y2 t1 t2 a b : moved t x1 y1 x2 y2 t1 t2 -> st_layout g = None -> move_time (sw_start sw) (sw_end sw) t1 t2 a b ->
  position_from_tags g sw now d t = Done (mul32 (blend_num x1 x2 (move_progress now a b)) (scale_x g), mul32 (blend_num y1 y2 (move_progress now a b)) (scale_y g)).
Proof.
  intros (T0 & T) L M. unfold position_from_tags. rewrite T0, T. apply move_span_is in M. rewrite M. unfold laid_x, laid_y. rewrite L. reflexivity.
Qed.
Lemma progress_is now a b : (b < 2 ^ 32)%N -> exists p, move_progress now a b = Fin p /\ 0 <= p <= 1.
Proof.
  intros B. unfold move_progress. destruct (N.leb_spec now a); [now exists 0|]. destruct (N.leb_spec b now); [now exists 1|].
  unfold f_of_N. destruct (ratio_unit (Z.of_N (now - a)) (Z.of_N (b - a)) ltac:(lia) ltac:(lia)) as (? & ? & v & _ & _ & _ & _ & E & _ & V). exists v. split; assumption.
Qed.
Lemma progress_later now now' a b p p' : (now <= now')%N -> (b < 2 ^ 32)%N -> move_progress now a b = Fin p -> move_progress now' a b = Fin p' -> p <= p'.
Proof.
  intros H B E E'. destruct (progress_is now a b B) as (q & Q0 & QB). destruct (progress_is now' a b B) as (q' & Q0' & QB'). rewrite E in Q0. rewrite E' in Q0'. injection Q0 as <-. injection Q0' as <-.
  unfold move_progress in E, E'. destruct (N.leb_spec now a) as [L|L]; [injection E as <-; exact (proj1 QB')|]. destruct (N.leb_spec now' a); [lia|].
  destruct (N.leb_spec b now'); [injection E' as <-; exact (proj2 QB)|]. destruct (N.leb_spec b now); [lia|].
  eapply ratio_mono; [| | |exact E|exact E']; lia.
Qed.
Lemma mul_same x y s : x == y -> mul32 (Fin x) (Fin s) = mul32 (Fin y) (Fin s).
Proof. intros H. rewrite !mul_fin. apply round_wd; [exact f32_valid|]. now rewrite H. Qed.
Lemma time_bound start fin t1 t2 a b : (fin < 2 ^ 32)%N -> move_time start fin t1 t2 a b -> (b < 2 ^ 32)%N.
Proof. intros F M. inversion M; subst; assumption. Qed.
Lemma pinned_is g sw now d t x y : pinned t x y -> st_layout g = None -> position_from_tags g sw now d t = Done (mul32 x (scale_x g), mul32 y (scale_y g)).
Proof. intros T L. unfold position_from_tags, laid_x, laid_y. rewrite T, L. reflexivity. Qed.
Lemma move_first g sw now d d' t u x1 y1 x2 y2 t1 t2 a b w h p r : frame_is g w h p r -> st_layout g = None -> movable x1 x2 -> movable y1 y2 -> moved t (Fin x1) (Fin y1) (Fin x2) (Fin y2) t1 t2 ->
  move_time (sw_start sw) (sw_end sw) t1 t2 a b -> (now <= a)%N -> pinned u (Fin x1) (Fin y1) -> position_from_tags g sw now d t = position_from_tags g sw now d' u.
Proof.
  intros F L (X1 & X2 & X) (Y1 & Y2 & Y) T M B U. rewrite (moved_is _ _ _ _ _ _ _ _ _ _ _ _ _ T L M), (pinned_is _ _ _ _ _ _ _ U L).
  unfold move_progress. destruct (N.leb_spec now a); [|lia]. change (fl 0) with (Fin 0). destruct (scales g w h p r F) as (s & v & -> & -> & _).
  destruct (blend_num_ends x1 x2 X1 X2 X) as ((q & -> & Q0) & _). destruct (blend_num_ends y1 y2 Y1 Y2 Y) as ((q' & -> & Q1) & _). now rewrite (mul_same _ _ s Q0), (mul_same _ _ v Q1).
Qed.
Lemma move_last g sw now d d' t u x1 y1 x2 y2 t1 t2 a b w h p r : frame_is g w h p r -> st_layout g = None -> movable x1 x2 -> movable y1 y2 -> moved t (Fin x1) (Fin y1) (Fin x2) (Fin y2) t1 t2 ->
  move_time (sw_start sw) (sw_end sw) t1 t2 a b -> (a < now)%N -> (b <= now)%N -> pinned u (Fin x2) (Fin y2) -> position_from_tags g sw now d t = position_from_tags g sw now d' u.
Proof.
  intros F L (X1 & X2 & X) (Y1 & Y2 & Y) T M A B U. rewrite (moved_is _ _ _ _ _ _ _ _ _ _ _ _ _ T L M), (pinned_is _ _ _ _ _ _ _ U L).
  unfold move_progress. destruct (N.leb_spec now a); [lia|]. destruct (N.leb_spec b now); [|lia]. change (fl 1) with (Fin 1). destruct (scales g w h p r F) as (s & v & -> & -> & _).
  destruct (blend_num_ends x1 x2 X1 X2 X) as (_ & (q & -> & Q0)). destruct (blend_num_ends y1 y2 Y1 Y2 Y) as (_ & (q' & -> & Q1)). now rewrite (mul_same _ _ s Q0), (mul_same _ _ v Q1).
Qed.

Lemma times_fin x s : Qabs x < 2 ^ 30 -> 0 < s -> s <= 2 ^ 50 -> exists v, mul32 (Fin x) (Fin s) = Fin v.
Proof.
  intros X S0 S1. rewrite mul_fin. destruct (round_err (x * s) 81) as (v & E & _); [|lia|now exists v].
  rewrite Qabs_Qmult, (Qabs_pos s) by lra. apply Qle_lt_trans with (2 ^ 30 * s); [apply Qmult_le_compat_r; lra|]. apply Qle_lt_trans with (2 ^ 30 * 2 ^ 50); [|reflexivity].
  rewrite (Qmult_comm (2 ^ 30) s), (Qmult_comm (2 ^ 30)). apply Qmult_le_compat_r; [exact S1|]. apply Qlt_le_weak, pow2_pos.
Qed.
Lemma times_mono x y s : Qabs x < 2 ^ 30 -> Qabs y < 2 ^ 30 -> 0 < s -> s <= 2 ^ 50 -> x <= y -> num_le (mul32 (Fin x) (Fin s)) (mul32 (Fin y) (Fin s)).
Proof.
  intros X Y S0 S1 H. destruct (times_fin x s X S0 S1) as (v & E). destruct (times_fin y s Y S0 S1) as (v' & E'). rewrite E, E'. cbn [num_le]. rewrite mul_fin in E, E'. eapply mono_fin; [|exact E|exact E']. nra.
Qed.
Lemma scale_small w p s : (1 <= w <= 16777216)%N -> (1 <= p <= 16777216)%N -> Qabs (s - Qn w / Qn p) <= (1 # 16777216) * (Qn w / Qn p) -> s <= 2 ^ 50.
Proof. intros W P H. destruct (ratio_bounds w p W P) as (L & U). pose proof (pow2_pos (-24)). apply abs_bound in H. apply Qle_trans with (2 * 2 ^ 24); [lra|]. vm_compute. discriminate. Qed.
Lemma between_small a b v : Qabs a < 2 ^ 30 -> Qabs b < 2 ^ 30 -> a <= v <= b \/ b <= v <= a -> Qabs v < 2 ^ 30.
Proof. intros A B H. apply Qabs_Qlt_condition in A. apply Qabs_Qlt_condition in B. apply Qabs_Qlt_condition. lra. Qed.
(* one axis of a movement *)
Lemma axis_mono a b p q s : movable a b -> Qabs a < 2 ^ 30 -> Qabs b < 2 ^ 30 -> 0 <= p <= q -> q <= 1 -> 0 < s -> s <= 2 ^ 50 ->
  (a <= b -> num_le (mul32 (Fin a) (Fin s)) (mul32 (blend_num (Fin a) (Fin b) (Fin p)) (Fin s)) /\ num_le (mul32 (blend_num (Fin a) (Fin b) (Fin p)) (Fin s)) (mul32 (blend_num (Fin a) (Fin b) (Fin q)) (Fin s)) /\ num_le (mul32 (blend_num (Fin a) (Fin b) (Fin q)) (Fin s)) (mul32 (Fin b) (Fin s))) /\
  (b <= a -> num_le (mul32 (Fin b) (Fin s)) (mul32 (blend_num (Fin a) (Fin b) (Fin q)) (Fin s)) /\ num_le (mul32 (blend_num (Fin a) (Fin b) (Fin q)) (Fin s)) (mul32 (blend_num (Fin a) (Fin b) (Fin p)) (Fin s)) /\ num_le (mul32 (blend_num (Fin a) (Fin b) (Fin p)) (Fin s)) (mul32 (Fin a) (Fin s))).
Proof.
  intros (A & B & D) SA SB P Q1 S0 S1. destruct (blend_num_parts a b p A B D ltac:(lra)) as (_ & v & _ & _ & V & V1 & V2). destruct (blend_num_parts a b q A B D ltac:(lra)) as (_ & v' & _ & _ & V' & V1' & V2').
  destruct (blend_num_mono a b p q A B D P Q1) as (M1 & M2). rewrite V, V' in *. cbn [num_le] in M1, M2.
  split; intros H; [specialize (V1 H); specialize (V1' H); specialize (M1 H)|specialize (V2 H); specialize (V2' H); specialize (M2 H)]; (assert (Qabs v < 2 ^ 30 /\ Qabs v' < 2 ^ 30) as (? & ?) by (split; apply (between_small a b); tauto)); repeat split; apply times_mono; try assumption; tauto.
Qed.
(* how near a movement is to a straight, even one *)
Lemma axis_near a b p x s : movable a b -> Qabs a <= 8192 -> Qabs b <= 8192 -> 0 <= p <= 1 -> 0 <= x <= 1 -> Qabs (p - x) <= 2 ^ (-25) -> s == 1 ->
  within_err (1 # 256) (mul32 (blend_num (Fin a) (Fin b) (Fin p)) (Fin s)) (a + (b - a) * x).
Proof.
  intros (A & B & D) SA SB P X PX S. destruct (blend_num_parts a b p A B D P) as (u & v & U & V & W & V1 & V2). rewrite W.
  apply abs_bound in SA. apply abs_bound in SB. apply abs_bound in PX. change (2 ^ (-25)) with (1 # 33554432) in PX.
  assert (DP : Qabs ((b - a) * p) <= 16384) by (apply abs_bound; nra).
  destruct (round_err ((b - a) * p) 15) as (u' & U' & UE); [eapply Qle_lt_trans; [exact DP|reflexivity]|lia|]. rewrite U in U'. injection U' as <-. change (2 ^ (15 - 25)) with (1 # 1024) in UE.
  assert (AU : Qabs (a + u) <= 24577) by (apply abs_bound in UE; apply abs_bound in DP; apply abs_bound; lra).
  destruct (round_err (a + u) 15) as (v' & V' & VE); [eapply Qle_lt_trans; [exact AU|reflexivity]|lia|]. rewrite V in V'. injection V' as <-. change (2 ^ (15 - 25)) with (1 # 1024) in VE.
  destruct (mul_one v s) as (z & Z0 & ZE).
  { destruct (round_fin f32 f32_valid (a + u) v V) as ((R & _) & _). exact R. }
  { exact S. }
  exists z. split; [exact Z0|]. rewrite ZE. apply abs_bound in UE. apply abs_bound in VE. apply abs_bound.
  assert (- (1 # 1024) <= (b - a) * p - (b - a) * x <= 1 # 1024) by nra. lra.
Qed.
