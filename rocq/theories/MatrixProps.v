From Coq Require Import QArith Qabs.
From Verif Require Import Base FloatModel FloatSpec AnimProofs LayoutSpec LayoutProofs MatrixModel MatrixSpec MatrixProofs.
Local Open Scope Z_scope.

(* C203: matrices, transforms and interpolation *)
Theorem multiply_exact : forall a b A B m n, stands a A -> stands b B -> within m A -> within n B -> 3 * (m * n) < 8388608 -> stands (multiply a b) (product A B).
Proof. exact product_ok. Qed.
Print Assumptions multiply_exact.

Theorem composition_exact : forall a b A B x y X Y m n k, stands a A -> stands b B -> within m A -> within n B -> affine B -> whole x X -> whole y Y -> Z.abs X <= k -> Z.abs Y <= k -> 1 <= m -> 1 <= n -> 1 <= k -> 9 * (m * n * k) < 8388608 ->
  let p := transform_point b x y in let q := transform_point a (fst p) (snd p) in let r := transform_point (multiply a b) x y in
  whole (fst q) (image A 0 (image B 0 X Y) (image B 1 X Y)) /\ whole (snd q) (image A 1 (image B 0 X Y) (image B 1 X Y)) /\
  whole (fst r) (image A 0 (image B 0 X Y) (image B 1 X Y)) /\ whole (snd r) (image A 1 (image B 0 X Y) (image B 1 X Y)).
Proof. exact composed_ok. Qed.
Print Assumptions composition_exact.

Theorem identity_neutral : forall m q, (forall i j, (i < 3)%nat -> (j < 3)%nat -> number32 (entry m i j) (q i j)) ->
  forall i j, (i < 3)%nat -> (j < 3)%nat -> is (entry (multiply identity m) i j) (q i j) /\ is (entry (multiply m identity) i j) (q i j).
Proof. exact identity_ok. Qed.
Print Assumptions identity_neutral.

(* scaled, then turned, then moved *)
Theorem transform_exact : forall cos sin t TX TY SX SY C S n x y X Y k, whole (tx t) TX -> whole (ty t) TY -> whole (sx t) SX -> whole (sy t) SY -> whole (cos (rotation t)) C -> whole (sin (rotation t)) S -> Z.abs C <= 1 -> Z.abs S <= 1 ->
  Z.abs TX <= n -> Z.abs TY <= n -> Z.abs SX <= n -> Z.abs SY <= n -> 1 <= n -> 9 * (n * n) < 8388608 -> whole x X -> whole y Y -> Z.abs X <= k -> Z.abs Y <= k -> 2 * (n * k) + n < 8388608 ->
  let p := transform_point (to_matrix cos sin t) x y in
  whole (fst p) (C * (SX * X) - S * (SY * Y) + TX) /\ whole (snd p) (S * (SX * X) + C * (SY * Y) + TY).
Proof.
  intros cos sin t TX TY SX SY C S n x y X Y k WTX WTY WSX WSY WC WS BC BS BTX BTY BSX BSY N M Wx Wy BX BY K. cbv zeta.
  pose proof (to_matrix_ok cos sin t TX TY SX SY C S n WTX WTY WSX WSY WC WS BC BS BTX BTY BSX BSY N M) as St.
  assert (W : within n (full TX TY SX SY C S)).
  { intros i j I J. pose proof (abs_mul_le C SX 1 n BC BSX). pose proof (abs_mul_le C SY 1 n BC BSY). pose proof (abs_mul_le S SX 1 n BS BSX). pose proof (abs_mul_le S SY 1 n BS BSY). destruct (lt3 i I) as [->|[->| ->]], (lt3 j J) as [->|[->| ->]]; cbn [full]; rewrite ?Z.mul_opp_l, ?Z.abs_opp; lia. }
  destruct (point_ok _ _ x y X Y n k St W Wx Wy BX BY K) as [P Q].
  replace (C * (SX * X) - S * (SY * Y) + TX) with (image (full TX TY SX SY C S) 0 X Y) by (unfold image, full; ring). replace (S * (SX * X) + C * (SY * Y) + TY) with (image (full TX TY SX SY C S) 1 X Y) by (unfold image, full; ring). now split.
Qed.
Print Assumptions transform_exact.

Definition quarter_cos (_ : float) : float := Fin 0.
Definition quarter_sin (_ : float) : float := Fin 1.
Definition turned_box : transform := Tf (Fin 100) (Fin 50) (Fin 2) (Fin 3) (Fin (3 # 2)) (Fin 0) (Fin 0).
Example transform_ex : transform_point (to_matrix quarter_cos quarter_sin turned_box) (Fin 10) (Fin 20) = (Fin 40, Fin 70) /\ (0 * (2 * 10) - 1 * (3 * 20) + 100, 1 * (2 * 10) + 0 * (3 * 20) + 50) = (40, 70).
Proof. vm_compute. split; reflexivity. Qed.

(* the shear of a transform never reaches its matrix *)
Theorem shear_applied_refuted : exists t, shear_x t = Fin 1 /\ forall cos sin, to_matrix cos sin t = to_matrix cos sin (Tf (tx t) (ty t) (sx t) (sy t) (rotation t) (Fin 0) (shear_y t)).
Proof. exists (Tf (Fin 0) (Fin 0) (Fin 1) (Fin 1) (Fin 0) (Fin 1) (Fin 0)). split; [reflexivity|]. reflexivity. Qed.
Print Assumptions shear_applied_refuted.

Theorem transform_lerp_ends : forall a b t i x y A B, nth_error (fields a) i = Some x -> nth_error (fields b) i = Some y -> number32 x A -> number32 y B -> representable f32 (B - A) ->
  exists z, nth_error (fields (transform_lerp a b t)) i = Some z /\ (is t 0 -> is z A) /\ (is t 1 -> is z B).
Proof.
  intros a b t i x y A B X Y NA NB R. exists (lerp x y t). split; [|now apply lerp_at]. rewrite lerp_fields.
  assert (C : nth_error (combine (fields a) (fields b)) i = Some (x, y)). { do 7 (destruct i as [|i]; [cbn in X, Y |- *; congruence|]). destruct i; discriminate. }
  exact (map_nth_error (fun p => lerp (fst p) (snd p) t) i _ C).
Qed.
Print Assumptions transform_lerp_ends.

Theorem transform_lerp_one_way : forall a b t t' i x y A B, nth_error (fields a) i = Some x -> nth_error (fields b) i = Some y -> number32 x A -> number32 y B -> representable f32 (B - A) -> (0 <= t)%Q -> (t <= t')%Q -> (t' <= 1)%Q ->
  exists z z', nth_error (fields (transform_lerp a b (Fin t))) i = Some z /\ nth_error (fields (transform_lerp a b (Fin t'))) i = Some z' /\ ordered (Qle_bool A B) z z'.
Proof.
  intros a b t t' i x y A B X Y NA NB R T0 T T1. exists (lerp x y (Fin t)), (lerp x y (Fin t')).
  assert (C : nth_error (combine (fields a) (fields b)) i = Some (x, y)). { do 7 (destruct i as [|i]; [cbn in X, Y |- *; congruence|]). destruct i; discriminate. }
  rewrite !lerp_fields. split; [exact (map_nth_error (fun p => lerp (fst p) (snd p) (Fin t)) i _ C)|]. split; [exact (map_nth_error (fun p => lerp (fst p) (snd p) (Fin t')) i _ C)|]. now apply lerp_one_way.
Qed.
Print Assumptions transform_lerp_one_way.
Example lerp_ex : number32 (Fin 10) 10 /\ number32 (Fin 4) 4 /\ representable f32 (4 - 10) /\ lerp (Fin 10) (Fin 4) (Fin (1 # 2)) = Fin 7.
Proof. repeat split; try (eexists; split; reflexivity); try (apply (int_fits 10); lia); try (apply (int_fits 4); lia); try (apply (int_fits (-6)); lia); vm_compute; reflexivity. Qed.

Theorem bezier_at_its_ends : forall t p1 p2 P1 P2, is p1 P1 -> is p2 P2 -> (is t 0 -> is (cubic_bezier t p1 p2) 0) /\ (is t 1 -> is (cubic_bezier t p1 p2) 1).
Proof. exact bezier_ends_ok. Qed.
Print Assumptions bezier_at_its_ends.
Example bezier_ex : cubic_bezier (Fin (1 # 2)) (Fin 1) (Fin 1) = Fin (7 # 8).
Proof. vm_compute. reflexivity. Qed.

(* C204: the ranges of tag parameters *)
Theorem parameters_checked :
  accepts (fun v => 1 <= v <= 9)%N validate_alignment /\ accepts (fun v => v <= 3)%N validate_wrap_style /\ accepts (fun v => v <= 4)%N validate_drawing_mode /\ accepts (fun v => v < 100000)%N validate_karaoke_duration /\
  accepts (inside (fun q => 0 < q /\ q < 1000)%Q) validate_font_size /\ accepts (inside (fun q => 0 <= q /\ q <= 1000)%Q) validate_scale /\
  accepts (inside (fun q => 0 <= q /\ q < 100)%Q) validate_border_width /\ accepts (inside (fun q => 0 <= q /\ q < 100)%Q) validate_blur /\
  accepts (inside (fun q => -2 <= q /\ q <= 2)%Q) validate_shear /\ accepts (inside (fun q => 0 < q /\ q < 100)%Q) validate_acceleration.
Proof.
  split; [apply keep_ok; intros v; rewrite andb_true_iff, !N.leb_le; reflexivity|]. split; [apply keep_ok; intros v; apply N.leb_le|]. split; [apply keep_ok; intros v; apply N.leb_le|]. split; [apply keep_ok; intros v; apply N.ltb_lt|].
  split; [apply keep_ok; exact (range_ok 0 1000 false false _ (fun v => eq_refl))|]. split; [apply keep_ok; exact (range_ok 0 1000 true true _ (fun v => eq_refl))|].
  split; [apply keep_ok; exact (range_ok 0 100 true false _ (fun v => eq_refl))|]. split; [apply keep_ok; exact (range_ok 0 100 true false _ (fun v => eq_refl))|].
  split; [apply keep_ok; exact (range_ok (-2) 2 true true _ (fun v => eq_refl))|apply keep_ok; exact (range_ok 0 100 false false _ (fun v => eq_refl))].
Qed.
Print Assumptions parameters_checked.

Theorem position_checked : forall x y, validate_position x y = match x, y with Fin _, Fin _ => Some (x, y) | _, _ => None end.
Proof. intros [| |] [| |]; reflexivity. Qed.
Print Assumptions position_checked.

Theorem clip_ordered : forall x1 y1 x2 y2, match validate_clip_rect x1 y1 x2 y2 with
  | Some (a, b, c, d) => exists p q r s, a = Fin p /\ b = Fin q /\ c = Fin r /\ d = Fin s /\ (p <= r)%Q /\ (q <= s)%Q /\ ((a, c) = (x1, x2) \/ (a, c) = (x2, x1)) /\ ((b, d) = (y1, y2) \/ (b, d) = (y2, y1))
  | None => exists v, In v [x1; y1; x2; y2] /\ forall q, v <> Fin q end.
Proof. exact clip_ok. Qed.
Print Assumptions clip_ordered.

Theorem rotation_normal : forall q, exists r k, validate_rotation (Fin q) = Some (Fin r) /\ (0 <= r <= 360)%Q /\ (Qabs (r - (q - 360 * inject_Z k)) <= 2 ^ (-16))%Q /\ ((0 <= q)%Q -> (r == q - 360 * inject_Z k)%Q /\ (r < 360)%Q).
Proof. exact rotation_ok. Qed.
Print Assumptions rotation_normal.

Theorem rotation_whole_exact : forall v z, whole v z -> exists r, validate_rotation v = Some r /\ whole r (z mod 360).
Proof. exact rotation_whole. Qed.
Print Assumptions rotation_whole_exact.
Example rotation_ex : exists r, validate_rotation (Fin (-450)) = Some r /\ whole r 270.
Proof. eexists. split; [vm_compute; reflexivity|]. eexists. split; reflexivity. Qed.

(* a tiny negative angle becomes a full turn *)
Theorem rotation_below_turn_refuted : exists q r, representable f32 q /\ validate_rotation (Fin q) = Some r /\ whole r 360.
Proof.
  exists (-1 # 1048576)%Q. eexists. split; [split; [reflexivity|exists (-1), (-20); repeat split; try (cbn; lia); reflexivity]|]. split; [vm_compute; reflexivity|]. eexists. split; reflexivity.
Qed.
Print Assumptions rotation_below_turn_refuted.

Theorem rotation_finite_refuted : validate_rotation NaN = Some NaN /\ forall s, validate_rotation (Inf s) = Some NaN.
Proof. split; [reflexivity|]. intros s. reflexivity. Qed.
Print Assumptions rotation_finite_refuted.
