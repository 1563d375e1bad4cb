(* C72-C75: blending, compositing, cropping. *)
From Verif Require Import Base BaseLemmas PixelModel PixelSpec PixelLib PixelProofs PixelRgba PixelCrop.

(* ---- C72: the arithmetic ---- *)
Theorem mul255_exact : forall a b, (a < 256)%N -> (b < 256)%N -> exists m, mul255 a b = Some m /\ mul255w a b = m /\ (255 * m <= a * b + 127 /\ a * b <= 255 * m + 127)%N.
Proof. intros a b A B. exists (nearest a b). split; [now apply mul255_nearest|]. split; [now apply mul255w_nearest|now apply nearest_close]. Qed.
Print Assumptions mul255_exact.
Theorem rows_agree : forall p row buf s, byte_colour p -> bytes row -> bytes buf -> 4 * (s + List.length row) <= List.length buf -> (exists n, List.length buf = 4 * n) ->
  blend_row_simd buf (s * 4) row (c_r p) (c_g p) (c_b p) (c_a p) = blend_row buf (s * 4) row (c_r p) (c_g p) (c_b p) (c_a p).
Proof. intros p row buf s P R B L (n & N). apply (rows_same p row buf s n); try assumption. lia. Qed.
Print Assumptions rows_agree.
(* Drawing with a colour c through a coverage k over a channel d comes within
   two levels of  c a k / 255^2 + d (1 - a k / 255^2). *)
Lemma channel_error (c a k d : N) : (c < 256)%N -> (a < 256)%N -> (k < 256)%N -> (d < 256)%N ->
  (Z.abs (65025 * Z.of_N (nearest (nearest c a) k + nearest d (255 - nearest a k)) - (Z.of_N c * Z.of_N a * Z.of_N k + Z.of_N d * (65025 - Z.of_N a * Z.of_N k))) < 2 * 65025)%Z.
Proof.
  intros C A K D. pose proof (nearest_byte c a C A) as B1. pose proof (nearest_byte a k A K) as B2. pose proof (nearest_close c a C A) as H1. pose proof (nearest_close (nearest c a) k B1 K) as H2. pose proof (nearest_close a k A K) as H3.
  pose proof (nearest_close d (255 - nearest a k) D ltac:(lia)) as H4. set (m1 := nearest c a) in *. set (m2 := nearest m1 k) in *. set (n := nearest a k) in *. set (m3 := nearest d (255 - n)) in *. clearbody m1 m2 n m3.
  assert (E2 : (Z.abs (65025 * Z.of_N m2 - Z.of_N c * Z.of_N a * Z.of_N k) <= 64770)%Z).
  { replace (65025 * Z.of_N m2 - Z.of_N c * Z.of_N a * Z.of_N k)%Z with (255 * (255 * Z.of_N m2 - Z.of_N m1 * Z.of_N k) + Z.of_N k * (255 * Z.of_N m1 - Z.of_N c * Z.of_N a))%Z by ring.
    assert (X : (Z.abs (255 * Z.of_N m1 - Z.of_N c * Z.of_N a) <= 127)%Z) by lia. assert (Y : (Z.abs (255 * Z.of_N m2 - Z.of_N m1 * Z.of_N k) <= 127)%Z) by lia. set (u := (255 * Z.of_N m1 - Z.of_N c * Z.of_N a)%Z) in *. set (v := (255 * Z.of_N m2 - Z.of_N m1 * Z.of_N k)%Z) in *. clearbody u v.
    assert (Z.abs (Z.of_N k * u) <= 255 * 127)%Z by (rewrite Z.abs_mul; apply Z.mul_le_mono_nonneg; lia). lia. }
  assert (E3 : (Z.abs (65025 * Z.of_N m3 - Z.of_N d * (65025 - Z.of_N a * Z.of_N k)) <= 64770)%Z).
  { replace (65025 * Z.of_N m3 - Z.of_N d * (65025 - Z.of_N a * Z.of_N k))%Z with (255 * (255 * Z.of_N m3 - Z.of_N d * (255 - Z.of_N n)) - Z.of_N d * (255 * Z.of_N n - Z.of_N a * Z.of_N k))%Z by ring.
    assert (X : (Z.abs (255 * Z.of_N n - Z.of_N a * Z.of_N k) <= 127)%Z) by lia. assert (Y : (Z.abs (255 * Z.of_N m3 - Z.of_N d * (255 - Z.of_N n)) <= 127)%Z) by (replace (255 - Z.of_N n)%Z with (Z.of_N (255 - n)) by lia; lia).
    set (u := (255 * Z.of_N n - Z.of_N a * Z.of_N k)%Z) in *. set (v := (255 * Z.of_N m3 - Z.of_N d * (255 - Z.of_N n))%Z) in *. clearbody u v.
    assert (Z.abs (Z.of_N d * u) <= 255 * 127)%Z by (rewrite Z.abs_mul; apply Z.mul_le_mono_nonneg; lia). lia. }
  lia.
Qed.
Theorem blend_within_two : forall c k d, byte_colour c -> (k < 256)%N -> byte_colour d ->
  let exact (v a x : N) := (Z.of_N v * Z.of_N a * Z.of_N k + Z.of_N x * (65025 - Z.of_N a * Z.of_N k))%Z in
  let out := over (thinned c k) d in let near (v : N) (e : Z) := (Z.abs (65025 * Z.of_N v - e) < 2 * 65025)%Z in
  near (c_r out) (exact (c_r c) (c_a c) (c_r d)) /\ near (c_g out) (exact (c_g c) (c_a c) (c_g d)) /\ near (c_b out) (exact (c_b c) (c_a c) (c_b d)) /\ near (c_a out) (exact 255%N (c_a c) (c_a d)).
Proof.
  intros c k d (CR & CG & CB & CA) K (DR & DG & DB & DA) exact out near. subst exact out near. cbn [over thinned c_r c_g c_b c_a]. repeat split; try (apply channel_error; assumption).
  replace (nearest (c_a c) k) with (nearest (nearest 255 (c_a c)) k) at 1 by (f_equal; rewrite nearest_comm; apply nearest_full). apply channel_error; try assumption. reflexivity.
Qed.
Print Assumptions blend_within_two.
Theorem blend_extremes : forall c d, byte_colour c -> byte_colour d -> over (thinned c 0) d = d /\ (c_a c = 0%N -> forall k, (k < 256)%N -> over (thinned c k) d = d) /\ (c_a c = 255%N -> over (thinned c 255) d = c).
Proof.
  intros c d C D. split; [apply over_clear; [exact D|apply nearest_zero|now apply thinned_ok]|]. split.
  - intros Z k K. apply over_clear; [exact D|cbn [thinned c_a]; rewrite Z; apply nearest_zero_l|now apply thinned_ok].
  - intros F. unfold over, thinned. cbn [c_r c_g c_b c_a]. rewrite F, !nearest_full. change (255 - 255)%N with 0%N. rewrite !nearest_zero, !N.add_0_r. destruct c as [r g b a]. cbn [c_r c_g c_b c_a] in *. now subst.
Qed.
Print Assumptions blend_extremes.
Theorem blend_keeps_premultiplied : forall c k d, byte_colour c -> (k < 256)%N -> premultiplied d -> premultiplied (over (thinned c k) d) /\ (c_a d <= c_a (over (thinned c k) d))%N.
Proof.
  intros c k d C K D. split; [apply over_premultiplied; [now apply thinned_ok|exact D]|]. cbn [over thinned c_a]. destruct C as (_ & _ & _ & CA). destruct D as (_ & _ & _ & DA). pose proof (nearest_byte (c_a c) k CA K) as NB.
  pose proof (nearest_close (c_a d) (255 - nearest (c_a c) k) DA ltac:(lia)) as [_ H]. set (n := nearest (c_a c) k) in *. set (m := nearest (c_a d) (255 - n)) in *. clearbody n m.
  assert (P : (c_a d * (255 - n) + c_a d * n = 255 * c_a d)%N) by (rewrite <- N.mul_add_distr_l; replace (255 - n + n)%N with 255%N by lia; lia). assert (Q : (c_a d * n <= 255 * n)%N) by (apply N.mul_le_mono_r; lia). lia.
Qed.
Print Assumptions blend_keeps_premultiplied.
Example blend_instance : over (thinned (Colour 200 100 0 128) 77) (Colour 10 20 30 255) = Colour 38 32 25 255.
Proof. vm_compute. reflexivity. Qed.

(* ---- C73: which pixels ---- *)
Theorem composite_exact : forall row dst w h b, (row = blend_row \/ row = blend_row_simd) -> canvas w h dst -> sound_bitmap w h b ->
  exists dst', composite_bitmap row dst w h b = Some dst' /\ canvas w h dst' /\ forall px py, inside w h px py -> drawn b px py (at_xy w dst px py) (at_xy w dst' px py).
Proof. exact composite_bitmap_ok. Qed.
Print Assumptions composite_exact.
(* the result does not depend on how the crate was compiled *)
Theorem composite_same_built : forall dst w h b, canvas w h dst -> sound_bitmap w h b -> composite_bitmap blend_row dst w h b = composite_bitmap blend_row_simd dst w h b.
Proof.
  intros dst w h b C S. destruct (composite_bitmap_ok blend_row dst w h b (or_introl eq_refl) C S) as (d1 & E1 & C1 & P1). destruct (composite_bitmap_ok blend_row_simd dst w h b (or_intror eq_refl) C S) as (d2 & E2 & C2 & P2). rewrite E1, E2. f_equal. apply (canvas_ext w h); [exact C1|exact C2|].
  intros x y I. specialize (P1 x y I). specialize (P2 x y I). destruct b as [bw bh cov bx by_ c|bw bh px bx by_]; cbn [drawn] in P1, P2; destruct P1 as [A1 B1], P2 as [A2 B2];
  (assert (DEC : inside bw bh (x - bx) (y - by_) \/ ~ inside bw bh (x - bx) (y - by_)) by (unfold inside; lia); destruct DEC as [Y|N]; [now rewrite A1, A2|now rewrite B1, B2]).
Qed.
Print Assumptions composite_same_built.
Theorem draw_all_proper : forall row w h l dst, (row = blend_row \/ row = blend_row_simd) -> canvas w h dst -> picture dst -> Forall (sound_bitmap w h) l -> exists dst', draw_all row dst w h l = Some dst' /\ canvas w h dst' /\ picture dst'.
Proof.
  intros row w h l. induction l as [|b l IH]; intros dst R C P S; [exists dst; now split|]. inversion S as [|? ? S1 S2]; subst. cbn [draw_all]. destruct (composite_bitmap_ok row dst w h b R C S1) as (d & E & CD & PD). rewrite E. apply IH; try assumption. intros p.
  pose proof CD as [W H A B L]. destruct (Nat.lt_ge_cases p (Z.to_nat (w * h))) as [LT|GE]; [|unfold pixel; rewrite !nth_overflow by lia; repeat split; cbn; lia].
  assert (NW : (0 < w)%Z) by nia. pose proof (Z.mod_pos_bound (Z.of_nat p) w NW) as M. pose proof (Z.div_mod (Z.of_nat p) w ltac:(lia)) as DM. specialize (PD (Z.of_nat p mod w) (Z.of_nat p / w))%Z. set (x := (Z.of_nat p mod w)%Z) in *. set (y := (Z.of_nat p / w)%Z) in *.
  assert (I : inside w h x y) by (split; [exact M|]; split; [apply Z.div_pos; lia|]; apply Z.div_lt_upper_bound; lia). specialize (PD I). assert (EI : Z.to_nat (y * w + x) = p) by lia. unfold at_xy in PD. rewrite EI in PD.
  destruct b as [bw bh cov bx by_ c|bw bh px bx by_]; cbn [drawn] in PD; destruct PD as [P1 P2]; (assert (DEC : inside bw bh (x - bx) (y - by_) \/ ~ inside bw bh (x - bx) (y - by_)) by (unfold inside; lia); destruct DEC as [Y|N]; [rewrite (P1 Y)|rewrite (P2 N); apply P]).
  - destruct S1 as (T & _ & BC). apply over_premultiplied; [|apply P]. apply thinned_ok; [exact BC|]. apply byte_at_row. apply T.
  - destruct S1 as (_ & _ & PP). apply over_premultiplied; [apply PP|apply P].
Qed.
Print Assumptions draw_all_proper.
Example composite_instance : composite_bitmap blend_row_simd (blank 3 2) 3 2 (BCoverage 2 2 [255; 128; 0; 64]%N 1 (-1) (Colour 255 0 0 255)) = Some [0;0;0;0; 0;0;0;0; 64;0;0;64; 0;0;0;0; 0;0;0;0; 0;0;0;0]%N.
Proof. vm_compute. reflexivity. Qed.
Example composite_hypotheses : canvas 3 2 (blank 3 2) /\ sound_bitmap 3 2 (BCoverage 2 2 [255; 128; 0; 64]%N 1 (-1) (Colour 255 0 0 255)) /\ sound_bitmap 3 2 (BRgba 1 1 [3; 2; 1; 9]%N 2 1).
Proof.
  split; [apply blank_ok; lia|]. split.
  - split; [constructor; try lia; [repeat constructor|reflexivity]|]. split; [unfold placed; lia|repeat split; reflexivity].
  - split; [constructor; try lia; [repeat constructor|reflexivity]|]. split; [unfold placed; lia|]. intros [|p]; [repeat split; cbn; lia|]. unfold pixel. rewrite !nth_overflow by (cbn [List.length]; lia). repeat split; cbn; lia.
Qed.
(* Far to the left, the i32 arithmetic overflows although nothing is visible. *)
Theorem composite_far_refuted : composite_bitmap blend_row (blank 1 1) 1 1 (BCoverage 1 1 [255]%N (-2147483648) 0 (Colour 1 1 1 255)) = None /\ composite_bitmap blend_row (blank 1 1) 1 1 (BCoverage 1 1 [255]%N (-2147483647) 0 (Colour 1 1 1 255)) = None.
Proof. split; vm_compute; reflexivity. Qed.
Print Assumptions composite_far_refuted.
(* A bitmap that is not premultiplied wraps round: bright over bright gives dark. *)
Theorem composite_wraps_refuted : composite_bitmap blend_row [200; 0; 0; 255]%N 1 1 (BRgba 1 1 [255; 0; 0; 128]%N 0 0) = Some [99; 0; 0; 255]%N.
Proof. vm_compute. reflexivity. Qed.
Print Assumptions composite_wraps_refuted.

(* ---- C74: cropping and layers ---- *)
Theorem crop_exact : forall w h data hint, canvas w h data -> hint_fits hint -> exists r, crop_pixmap (Pixmap w h data) hint = Some r /\ cropped w h data hint r.
Proof. exact crop_ok. Qed.
Print Assumptions crop_exact.
Theorem crop_then_draw : forall row w h data hint r, (row = blend_row \/ row = blend_row_simd) -> canvas w h data -> picture data -> hint_fits hint -> (forall x y, shows w h data None x y -> shows w h data hint x y) ->
  crop_pixmap (Pixmap w h data) hint = Some r -> draw_all row (blank w h) w h (match r with Some b => [b] | None => [] end) = Some data.
Proof.
  intros row w h data hint r F C P HF COV E. destruct (crop_ok w h data hint C HF) as (r' & E' & CR). rewrite E in E'. injection E' as <-. exact (recomposed row w h data hint r F C P COV CR).
Qed.
Print Assumptions crop_then_draw.
Theorem clear_exact : forall w h buf rx ry rw rh, canvas w h buf -> (0 <= rw < 2147483648)%Z -> (0 <= rh < 2147483648)%Z -> (-2147483648 <= rx /\ rx + rw < 2147483648)%Z -> (-2147483648 <= ry /\ ry + rh < 2147483648)%Z ->
  exists buf', clear_region (Pixmap w h buf) rx ry rw rh = Some (Pixmap w h buf') /\ canvas w h buf' /\ forall px py, inside w h px py -> (inside rw rh (px - rx) (py - ry) -> at_xy w buf' px py = clear_colour) /\ (~ inside rw rh (px - rx) (py - ry) -> at_xy w buf' px py = at_xy w buf px py).
Proof. exact clear_region_ok. Qed.
Print Assumptions clear_exact.
Theorem noted_boxes_hull : forall b l, exists r, fold_left note_dirty_bbox (b :: l) None = Some r /\ (forall c, In c (b :: l) -> forall x y, in_box c x y -> in_box r x y) /\
  (exists c, In c (b :: l) /\ b_x0 r = b_x0 c) /\ (exists c, In c (b :: l) /\ b_y0 r = b_y0 c) /\ (exists c, In c (b :: l) /\ b_x1 r = b_x1 c) /\ (exists c, In c (b :: l) /\ b_y1 r = b_y1 c).
Proof.
  intros b l. destruct (noted_hull l b) as (r & E & C & (c1 & I1 & E1) & (c2 & I2 & E2) & (c3 & I3 & E3) & (c4 & I4 & E4)). exists r. split; [exact E|]. assert (Q : forall c, c = b \/ In c l -> In c (b :: l)) by (intros c [->|H]; cbn; auto). split; [intros c [<-|H]; apply C; auto|].
  split; [exists c1; auto|]. split; [exists c2; auto|]. split; [exists c3; auto|exists c4; auto].
Qed.
Print Assumptions noted_boxes_hull.
Theorem layers_to_bitmaps : forall row w h ls scratch, (row = blend_row \/ row = blend_row_simd) -> (0 <= w < 2147483648)%Z -> (0 <= h < 2147483648)%Z -> (w * h < 2147483648)%Z -> Z.of_nat (List.length scratch) = (4 * (w * h))%Z -> Forall (well_behaved w h) ls ->
  exists outs, render_to_bitmaps w h ls scratch = Some (concat outs) /\ Forall2 (stands_for row w h) ls outs.
Proof.
  intros row w h ls scratch F W H A L WB. unfold render_to_bitmaps. rewrite (blanked w h scratch L). destruct (layers_ok row w h F W H A ls WB) as (outs & E & S). exists outs. rewrite E. now split.
Qed.
Print Assumptions layers_to_bitmaps.
(* two layers, one drawn and one emitted *)
Definition dot_layer : layer := fun s => ([], [Bbox 1 0 1 0], [0;0;0;0; 5;6;7;8]%N).
Definition sent_layer : layer := fun s => ([BCoverage 1 1 [255]%N 0 0 (Colour 1 2 3 255)], [], s).
Example layers_instance : render_to_bitmaps 2 1 [dot_layer; sent_layer] [9;9;9;9; 9;9;9;9]%N = Some [BRgba 1 1 [5;6;7;8]%N 1 0; BCoverage 1 1 [255]%N 0 0 (Colour 1 2 3 255)].
Proof. vm_compute. reflexivity. Qed.
Example layers_hypotheses : Forall (well_behaved 2 1) [dot_layer; sent_layer].
Proof.
  assert (OUT : forall buf p, (List.length buf <= 8) -> 2 <= p -> premultiplied (pixel buf p)) by (intros buf p L P; unfold pixel; rewrite !nth_overflow by lia; repeat split; cbn; lia).
  constructor; [|constructor; [|constructor]].
  - cbn [well_behaved dot_layer]. split; [constructor; try lia; [repeat constructor|reflexivity]|]. split; [intros [|[|p]]; [repeat split; cbn; lia|repeat split; cbn; lia|apply OUT; cbn; lia]|]. split; [congruence|]. split; [intros b [<-|[]]; cbn; lia|].
    intros _ _ x y ((X & Y) & A & _). exists (Bbox 1 0 1 0). split; [now left|]. assert (y = 0%Z) as -> by lia. assert (x = 0 \/ x = 1)%Z as [-> | ->] by lia; [exfalso; apply A; reflexivity|unfold in_box; cbn; lia].
  - cbn [well_behaved sent_layer]. split; [apply blank_ok; lia|]. split; [intros p; rewrite blank_pixel; repeat split; cbn; lia|]. split; [reflexivity|]. split; [intros b []|discriminate].
Qed.
(* A layer that draws outside its noted box leaks into the next layer's bitmap. *)
Theorem leaked_layer_refuted : let leaky : layer := fun s => ([], [Bbox 1 0 1 0], [1;1;1;1; 5;6;7;8]%N) in let silent : layer := fun s => ([], [], s) in
  render_to_bitmaps 2 1 [leaky; silent] (blank 2 1) = Some [BRgba 1 1 [5;6;7;8]%N 1 0; BRgba 1 1 [1;1;1;1]%N 0 0].
Proof. vm_compute. reflexivity. Qed.
Print Assumptions leaked_layer_refuted.
(* A box that reaches the largest coordinate (where a float conversion saturates) panics. *)
Theorem saturated_hint_refuted : crop_pixmap (Pixmap 1 1 [0; 0; 0; 0]%N) (Some (Bbox 0 0 2147483647 0)) = None.
Proof. vm_compute. reflexivity. Qed.
Print Assumptions saturated_hint_refuted.

(* ---- C75: alpha_blend ---- *)
Theorem alpha_blend_within_one : forall s d, byte_colour s -> byte_colour d -> let o := alpha_blend s d in let a := Z.of_N (c_a s) in
  let near (v x y : N) := (Z.abs (255 * Z.of_N v - (Z.of_N x * a + Z.of_N y * (255 - a))) < 255)%Z in
  (c_a s = 255%N -> c_a d <> 0%N -> o = s) /\ (c_a s = 0%N -> o = d) /\ (c_a s = 255%N -> o = s) /\
  near (c_r o) (c_r s) (c_r d) /\ near (c_g o) (c_g s) (c_g d) /\ near (c_b o) (c_b s) (c_b d) /\ near (c_a o) 255%N (c_a d).
Proof.
  intros [sr sg sb sa] [dr dg db da] (SR & SG & SB & SA) (DR & DG & DB & DA). cbn [c_r c_g c_b c_a] in *. cbv zeta.
  assert (M : forall x y, (x < 256)%N -> (y < 256)%N -> (Z.abs (255 * Z.of_N (mix x y sa) - (Z.of_N x * Z.of_N sa + Z.of_N y * (255 - Z.of_N sa))) < 255)%Z).
  { intros x y X Y. unfold mix, u8. assert (B : (x * sa + y * (255 - sa) <= 65025)%N) by nia. replace (Z.of_N x * Z.of_N sa + Z.of_N y * (255 - Z.of_N sa))%Z with (Z.of_N (x * sa + y * (255 - sa))) by nia. set (e := (x * sa + y * (255 - sa))%N) in *. clearbody e. rewrite N.mod_small by nlia. nlia. }
  assert (F : forall x y, (x < 256)%N -> mix x y 255 = x) by (intros x y X; unfold mix, u8; change (255 - 255)%N with 0%N; rewrite N.mul_0_r; rewrite N.mod_small by nlia; nlia).
  assert (NEAR : forall v a : Z, v = a -> (Z.abs (v - a) < 255)%Z) by (intros; lia).
  unfold alpha_blend. cbn [c_r c_g c_b c_a]. destruct (N.eqb_spec sa 0) as [->|NZ].
  - split; [lia|]. split; [reflexivity|]. split; [lia|]. cbn [c_r c_g c_b c_a]. repeat split; apply NEAR; lia.
  - destruct ((sa =? 255) && (da =? 0))%N eqn:O.
    + assert (sa = 255%N) as -> by lia. split; [reflexivity|]. split; [lia|]. split; [reflexivity|]. cbn [c_r c_g c_b c_a]. repeat split; apply NEAR; lia.
    + split; [intros -> _; now rewrite !F by (assumption || reflexivity)|]. split; [lia|]. split; [intros ->; now rewrite !F by (assumption || reflexivity)|]. cbn [c_r c_g c_b c_a]. repeat split; apply M; try assumption; reflexivity.
Qed.
Print Assumptions alpha_blend_within_one.
Example alpha_blend_instance : alpha_blend (Colour 200 0 0 128) (Colour 0 100 0 255) = Colour 100 50 0 255.
Proof. vm_compute. reflexivity. Qed.
