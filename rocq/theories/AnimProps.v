(* C126-C128: animations of text. *)
From Verif Require Import Base FloatModel FloatSpec FloatProofs CollideModel CollideProofs SegmentModel AnimModel AnimSpec AnimProofs AnimFields.
Open Scope Q_scope.

(* ---- C126: how far an animation has come ---- *)
Theorem progress_waits m tr now full : (now <= tr_start tr)%N -> calculate_progress m tr now full = Fin 0.
Proof. intros H. rewrite progress_cases. destruct (N.leb_spec now (tr_start tr)); [reflexivity|lia]. Qed.
Theorem progress_ends m tr now full : (tr_start tr < now)%N -> (ends tr full <= now)%N \/ (ends tr full <= tr_start tr)%N -> calculate_progress m tr now full = Fin 1.
Proof.
  intros H E. rewrite progress_cases. destruct (N.leb_spec now (tr_start tr)); [lia|]. destruct (N.leb_spec (ends tr full) (tr_start tr)); [reflexivity|]. destruct (N.leb_spec (ends tr full) now); [reflexivity|lia].
Qed.
Theorem progress_within m tr now full : tame m (tr_accel tr) -> (ends tr full < 2 ^ 32)%N -> unit_num (calculate_progress m tr now full).
Proof. exact (progress_unit m tr now full). Qed.
Theorem progress_grows m tr now later full : tame m (tr_accel tr) -> (ends tr full < 2 ^ 32)%N -> (now <= later)%N -> num_le (calculate_progress m tr now full) (calculate_progress m tr later full).
Proof. exact (progress_mono m tr now later full). Qed.
(* inside its time, for animations of up to 2^24 milliseconds: the share of the
   time that has passed, its square, its cube, or the square root's parabola *)
Theorem progress_exact m tr now full : (tr_start tr < now < ends tr full)%N -> (ends tr full - tr_start tr <= 16777216)%N ->
  let x := share tr now full in let p := calculate_progress m tr now full in
  0 < x < 1 /\
  (near (tr_accel tr) 1 -> close_to (2 ^ (-25)) p x) /\
  (near (tr_accel tr) 2 -> close_to (2 ^ (-22)) p (x * x)) /\
  (near (tr_accel tr) 3 -> close_to (2 ^ (-22)) p (x * x * x)) /\
  (near (tr_accel tr) (1 # 2) -> close_to (2 ^ (-22)) p (1 - (1 - x) * (1 - x))) /\
  (far (tr_accel tr) 1 -> far (tr_accel tr) 2 -> far (tr_accel tr) 3 -> far (tr_accel tr) (1 # 2) -> f_le (Fin 0) (tr_accel tr) = true ->
     exists t, close_to (2 ^ (-25)) t x /\ p = m_pow m t (tr_accel tr)).
Proof.
  intros H D x p. unfold p, x. rewrite progress_cases. destruct (N.leb_spec now (tr_start tr)); [lia|]. destruct (N.leb_spec (ends tr full) (tr_start tr)); [lia|]. destruct (N.leb_spec (ends tr full) now); [lia|]. cbn [orb].
  unfold share. set (n := (Z.of_N now - Z.of_N (tr_start tr))%Z). set (d := (Z.of_N (ends tr full) - Z.of_N (tr_start tr))%Z).
  assert (B : (1 <= n < d /\ d <= 16777216)%Z) by lia. destruct (share_err n d) as (v & E & U & W); [lia|lia|]. rewrite E.
  assert (P1 : 0 < inject_Z n) by (change 0 with (inject_Z 0); rewrite <- Zlt_Qlt; lia). assert (P2 : inject_Z n < inject_Z d) by (rewrite <- Zlt_Qlt; lia).
  assert (X : 0 < inject_Z n / inject_Z d < 1). { split; [apply Qlt_shift_div_l; lra|apply Qlt_shift_div_r; lra]. }
  assert (UV : unit_num (Fin v)) by (exists v; now split). assert (CV : close_to (2 ^ (-25)) (Fin v) (inject_Z n / inject_Z d)) by (exists v; now split). assert (X' : 0 <= inject_Z n / inject_Z d <= 1) by lra.
  split; [exact X|]. split; [intros A; now apply curve_1|]. split; [intros A; now apply curve_2|]. split; [intros A; now apply curve_3|]. split; [intros A; now apply curve_half|].
  intros A1 A2 A3 A4 A5. exists (Fin v). split; [exact CV|]. destruct (clamp_unit _ UV) as (q & Q1 & Q2 & _). unfold acceleration_curve. rewrite Q1. change (fl 1) with (Fin 1). change (fl 2) with (Fin 2). change (fl 3) with (Fin 3). change (fl 0) with (Fin 0). cbv zeta.
  rewrite (far_not _ _ A1), (far_not _ _ A4), (far_not _ _ A2), (far_not _ _ A3). unfold f_lt. rewrite A5, andb_false_r. now rewrite <- Q2.
Qed.
Definition plain_math : math := Math (fun _ => Fin 1) (fun t _ => t).
Definition anim_between : transform := Transform 500 1500 (Fin 2) [(FSize, VNum (Fin 40))].
Example progress_cases_ex : (tr_start anim_between < 750 < ends anim_between 4000)%N /\ near (tr_accel anim_between) 2 /\ calculate_progress plain_math anim_between 750 4000 = Fin (1 # 16).
Proof. split; [vm_compute; split; reflexivity|]. split; [exists 2; split; reflexivity|vm_compute; reflexivity]. Qed.
Example progress_within_ex : tame plain_math (Fin 2) /\ unit_num (calculate_progress plain_math anim_between 750 4000).
Proof.
  assert (T : tame plain_math (Fin 2)). { split; [reflexivity|]. split; [intros t U; exact U|intros t u _ _ L; exact L]. }
  split; [exact T|]. apply progress_within; [exact T|vm_compute; reflexivity].
Qed.
(* the format's documentation raises the share to the power of the acceleration;
   an acceleration of one half is not a square root *)
Theorem progress_root_refuted : ~ (forall m tr now full, (tr_start tr < now < ends tr full)%N -> (ends tr full - tr_start tr <= 16777216)%N -> tr_accel tr = Fin (1 # 2) ->
  exists p, calculate_progress m tr now full = Fin p /\ Qabs (p * p - share tr now full) <= 1 # 100).
Proof.
  intros H. destruct (H plain_math (Transform 0 1000 (Fin (1 # 2)) []) 250%N 0%N) as (p & E & B); [split; reflexivity|discriminate|reflexivity|]. vm_compute in E. injection E as <-. vm_compute in B. now apply B.
Qed.
(* a negative acceleration can finish an animation halfway *)
Theorem progress_negative_refuted : ~ (forall m tr now full, m_sin m (Fin (13176795 # 8388608)) = Fin 1 -> (tr_start tr < now < ends tr full)%N -> ~ complete (calculate_progress m tr now full)).
Proof. intros H. apply (H plain_math (Transform 0 1000 (Fin (-10)) []) 500%N 0%N); [reflexivity|split; reflexivity|vm_compute; reflexivity]. Qed.

(* ---- C127: blending ---- *)
Theorem byte_blend a b p : (a < 256)%N -> (b < 256)%N -> 0 <= p <= 1 ->
  byte_between a b (blend_byte a b (Fin p)) /\
  Qabs (inject_Z (Z.of_N (blend_byte a b (Fin p))) - (inject_Z (Z.of_N a) + (inject_Z (Z.of_N b) - inject_Z (Z.of_N a)) * p)) <= 1 + 2 ^ (-15).
Proof. intros A B P. destruct (blend_byte_is a b p A B P) as (z & -> & Z1 & Z2). split; [exact Z1|exact Z2]. Qed.
Theorem byte_blend_ends a b : (a < 256)%N -> (b < 256)%N -> blend_byte a b (Fin 0) = a /\ blend_byte a b (Fin 1) = b.
Proof. intros A B. split; [now apply blend_byte_start|now apply blend_byte_end]. Qed.
Theorem byte_blend_moves a b p q : (a < 256)%N -> (b < 256)%N -> 0 <= p <= q -> q <= 1 -> byte_between (blend_byte a b (Fin p)) b (blend_byte a b (Fin q)).
Proof.
  intros A B P Q1. destruct (blend_byte_is a b p A B ltac:(lra)) as (z & E & Z1 & _), (blend_byte_is a b q A B ltac:(lra)) as (z' & E' & Z1' & _). unfold byte_between in *.
  destruct (N.le_ge_cases a b) as [G|G]; [pose proof (blend_byte_mono a b p q G B P Q1)|pose proof (blend_byte_anti a b p q G A P Q1)]; lia.
Qed.
Theorem color_blend a b p : color_bytes a -> color_bytes b -> 0 <= p <= 1 -> color_between a b (blend_color a b (Fin p)) /\ blend_color a b (Fin 0) = a /\ blend_color a b (Fin 1) = b.
Proof.
  destruct a as [[[r1 g1] b1] a1], b as [[[r2 g2] b2] a2]. intros (A1 & A2 & A3 & A4) (B1 & B2 & B3 & B4) P. unfold blend_color. split; [repeat split; now apply byte_blend|].
  split; (f_equal; [f_equal; [f_equal|]|]); (apply blend_byte_start || apply blend_byte_end); (assumption || reflexivity).
Qed.
Example color_blend_ex : color_bytes (255, 0, 10, 255)%N /\ blend_color (255, 0, 10, 255)%N (0, 255, 20, 255)%N (Fin (1 # 2)) = (127, 127, 15, 255)%N.
Proof. split; [repeat split|vm_compute; reflexivity]. Qed.
(* numbers whose difference is a number of the format *)
Theorem number_blend a b p q : representable f32 a -> representable f32 b -> representable f32 (b - a) -> 0 <= p <= q -> q <= 1 ->
  num_is (blend_num (Fin a) (Fin b) (Fin 0)) a /\ num_is (blend_num (Fin a) (Fin b) (Fin 1)) b /\
  (exists x y, blend_num (Fin a) (Fin b) (Fin p) = Fin x /\ blend_num (Fin a) (Fin b) (Fin q) = Fin y /\ (a <= b -> a <= x <= y /\ y <= b) /\ (b <= a -> b <= y <= x /\ x <= a)).
Proof.
  intros A B D P Q1. destruct (blend_num_ends a b A B D) as [E0 E1]. split; [exact E0|]. split; [exact E1|].
  destruct (blend_num_parts a b p A B D ltac:(lra)) as (u & x & _ & _ & X & X1 & X2), (blend_num_parts a b q A B D ltac:(lra)) as (u' & y & _ & _ & Y & Y1 & Y2). exists x, y. split; [exact X|]. split; [exact Y|].
  destruct (blend_num_mono a b p q A B D P Q1) as [M1 M2]. rewrite X, Y in M1, M2. cbn [num_le] in M1, M2. split; intros G; [specialize (X1 G); specialize (Y1 G); specialize (M1 G)|specialize (X2 G); specialize (Y2 G); specialize (M2 G)]; lra.
Qed.
Example number_blend_ex : representable f32 20 /\ representable f32 (30 - 20) /\ blend_num (Fin 20) (Fin 30) (Fin (1 # 4)) = Fin (45 # 2).
Proof. split; [apply (int_fits 20); lia|]. split; [apply (int_fits 10); lia|vm_compute; reflexivity]. Qed.
Theorem number_end_refuted : ~ (forall a b, representable f32 a -> representable f32 b -> num_is (blend_num (Fin a) (Fin b) (Fin 1)) b).
Proof.
  intros H. destruct (H (inject_Z 33554432) 1) as (p & E & F); [|apply one_fits|].
  - split; [reflexivity|]. exists 8388608%Z, 2%Z. split; [discriminate|]. split; reflexivity.
  - vm_compute in E. injection E as <-. discriminate F.
Qed.

(* ---- C128: an event's fields while its animations run ---- *)
(* values of one kind are mixed as numbers, colours or bytes are *)
Theorem blend_kinds : (forall x y p, blend (VNum x) (VNum y) p = VNum (blend_num x y p)) /\ (forall x y p, blend (VColor x) (VColor y) p = VColor (blend_color x y p)) /\ (forall x y p, blend (VByte x) (VByte y) p = VByte (blend_byte x y p)).
Proof. repeat split. Qed.
Print Assumptions blend_kinds.
Theorem animation_fields m d start fin current t t' : apply_transform_animations m d start fin current t = Done t' ->
  tg_transforms t' = tg_transforms t /\
  forall f out, field_run d f (fun tr => calculate_progress m tr (now_ms current start) (length_ms start fin)) (tg_transforms t) (tg_field t f) out <-> tg_field t' f = out.
Proof.
  intros E. unfold apply_transform_animations in E. rewrite run_is in E. set (g := fun tr => calculate_progress m tr (now_ms current start) (length_ms start fin)).
  assert (T : t' = fold_left (fun t tr => apply_progress d (g tr) (tr_targets tr) t) (tg_transforms t) t).
  { destruct (tg_transforms t) as [|tr l]; [now injection E as <-|]. destruct (429496729 <? current - start)%N; [discriminate|]. now injection E as <-. }
  rewrite T. split; [exact (proj2 (fold_field d g (tg_transforms t) t FSize))|]. intros f out. destruct (fold_field d g (tg_transforms t) t f) as [R _]. split; [intros K; exact (run_fun _ _ _ _ _ _ R _ K)|intros <-; exact R].
Qed.
Theorem animation_panics m d start fin current t : apply_transform_animations m d start fin current t = Crash <-> tg_transforms t <> [] /\ (429496729 < current - start)%N.
Proof.
  unfold apply_transform_animations. rewrite run_is. destruct (tg_transforms t) as [|tr l]; [split; [discriminate|now intros [[] _]]|]. destruct (N.ltb_spec 429496729 (current - start)).
  - split; [|reflexivity]. intros _. split; [discriminate|assumption].
  - split; [discriminate|]. intros [_ K]. lia.
Qed.
Theorem animation_answers m d start fin current t : (current - start <= 429496729)%N -> exists t', apply_transform_animations m d start fin current t = Done t'.
Proof. intros H. unfold apply_transform_animations. rewrite run_is. destruct (tg_transforms t); [eauto|]. destruct (N.ltb_spec 429496729 (current - start)); [lia|eauto]. Qed.
(* nothing moves before its animation starts, and nothing that is not animated *)
Theorem animation_untouched m d start fin current t t' f : apply_transform_animations m d start fin current t = Done t' ->
  (forall tr, In tr (tg_transforms t) -> (10 * (current - start) <= tr_start tr)%N \/ ~ touches tr f) -> tg_field t' f = tg_field t f.
Proof.
  intros E H. destruct (animation_fields _ _ _ _ _ _ _ E) as [_ F]. eapply run_keeps; [apply F; reflexivity|]. intros tr I. destruct (H tr I) as [L|L]; [left|now right]. rewrite progress_waits; [discriminate|]. unfold now_ms. destruct (N.leb_spec start current); lia.
Qed.
(* at its end an animation has reached its target *)
Theorem animation_after m d start fin current t t' l1 tr l2 ts f v ts' : apply_transform_animations m d start fin current t = Done t' ->
  tg_transforms t = l1 ++ tr :: l2 -> tr_targets tr = ts ++ (f, v) :: ts' -> (forall w, ~ In (f, w) ts') -> (forall x, In x l2 -> ~ touches x f) ->
  (tr_start tr < 10 * (current - start))%N -> (ends tr (N.min 4294967295 (10 * (fin - start))) <= 10 * (current - start))%N -> tg_field t' f = Some v.
Proof.
  intros E L T N1 N2 B1 B2. destruct (animation_fields _ _ _ _ _ _ _ E) as [_ F]. assert (R := proj2 (F f _) eq_refl). rewrite L in R.
  assert (NW : now_ms current start = (10 * (current - start))%N) by (unfold now_ms; destruct (N.leb_spec start current); lia).
  assert (LW : length_ms start fin = N.min 4294967295 (10 * (fin - start))) by (unfold length_ms; change u32_max with 4294967295%N; f_equal; lia).
  eapply run_finished; [exact R| | |].
  - cbv beta. rewrite progress_ends; [reflexivity|rewrite NW; exact B1|]. left. rewrite NW, LW. exact B2.
  - instantiate (1 := targets_of f ts). rewrite T. unfold targets_of. rewrite filter_app, map_app. cbn [filter fst]. destruct (field_eq f f) as [_|K]; [|now destruct K]. cbn [map snd]. pose proof (not_touched f ts' N1) as Z0. unfold targets_of in Z0. now rewrite Z0.
  - intros x I. right. now apply N2.
Qed.
Definition white : rgba := (255, 255, 255, 255)%N.
Definition some_look : look := Look white white white white (Fin 48).
Definition growing : tags := Tags (fun f => match f with FItalic => Some (VFlag true) | _ => None end) [Transform 0 0 (Fin 1) [(FSize, VNum (Fin 96)); (FAlpha, VByte 0)]].
Example animation_ex : exists t', apply_transform_animations plain_math some_look 100 300 150 growing = Done t' /\ tg_field t' FSize = Some (VNum (Fin 60)) /\ tg_field t' FItalic = Some (VFlag true).
Proof. eexists. split; [reflexivity|]. split; vm_compute; reflexivity. Qed.
Example animation_after_ex : exists t', apply_transform_animations plain_math some_look 100 300 301 growing = Done t' /\ tg_field t' FSize = Some (VNum (Fin 96)).
Proof.
  eexists. split; [reflexivity|]. eapply (animation_after plain_math some_look 100 300 301 growing _ [] _ [] [] FSize); [reflexivity|reflexivity|reflexivity| | | |]; try reflexivity; [intros w [K|[]]; discriminate|intros x []|discriminate].
Qed.
(* the text is opaque until its animation to opaque starts, then transparent *)
Theorem animation_start_refuted : ~ (forall m d start fin current t t' b, apply_transform_animations m d start fin current t = Done t' ->
  tg_field t FAlpha = None -> tg_transforms t = [Transform 0 0 (Fin 1) [(FAlpha, VByte 255)]] -> tg_field t' FAlpha = Some (VByte b) -> (200 <= b)%N).
Proof.
  intros H. eassert (K : _); [eapply (H plain_math some_look 0%N 1000%N 10%N (Tags (fun _ => None) [Transform 0 0 (Fin 1) [(FAlpha, VByte 255)]])); [reflexivity|reflexivity|reflexivity|vm_compute; reflexivity]|]. now apply K.
Qed.
(* written as the format's documentation writes it, an alpha is not animated at all *)
Theorem animation_alpha_refuted : ~ (forall h, List.length h = 2%nat -> Forall hex_digit h -> exists tr, parse_transform (lit "(\alpha&H" ++ h ++ lit "&)") = Done (Ok (Some tr))).
Proof.
  intros H. destruct (H (lit "80")) as (tr & E); [reflexivity|repeat (apply Forall_cons; [left; split; discriminate|]); apply Forall_nil|]. vm_compute in E. discriminate E.
Qed.
Close Scope Q_scope.

Print Assumptions progress_waits.
Print Assumptions progress_ends.
Print Assumptions progress_within.
Print Assumptions progress_grows.
Print Assumptions progress_exact.
Print Assumptions progress_root_refuted.
Print Assumptions progress_negative_refuted.
Print Assumptions byte_blend.
Print Assumptions byte_blend_ends.
Print Assumptions byte_blend_moves.
Print Assumptions color_blend.
Print Assumptions number_blend.
Print Assumptions number_end_refuted.
Print Assumptions animation_fields.
Print Assumptions animation_panics.
Print Assumptions animation_answers.
Print Assumptions animation_untouched.
Print Assumptions animation_after.
Print Assumptions animation_start_refuted.
Print Assumptions animation_alpha_refuted.
