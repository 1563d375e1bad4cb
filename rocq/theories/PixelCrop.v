(* Cropping, recomposition, and a whole list of layers. *)
From Verif Require Import Base BaseLemmas PixelModel PixelSpec PixelLib PixelProofs PixelRgba.

Lemma span_in lo hi t : In t (span_from lo hi) <-> (lo <= t < hi)%Z.
Proof.
  unfold span_from. rewrite in_map_iff. split.
  - intros (k & <- & K). apply in_seq in K. lia.
  - intros H. exists (Z.to_nat (t - lo)). split; [lia|]. apply in_seq. lia.
Qed.
Lemma each_row_sets {S} (inv : (Z -> Z -> Prop) -> S -> Prop) (ok : Z -> Prop) f (add : Z -> Z -> Z -> Prop) :
  (forall V V' s, (forall x y, V x y <-> V' x y) -> inv V s -> inv V' s) ->
  (forall t V s, ok t -> inv V s -> exists s', f t s = Some s' /\ inv (fun x y => V x y \/ add t x y) s') ->
  forall ts V s, Forall ok ts -> inv V s -> exists s', each_row f ts s = Some s' /\ inv (fun x y => V x y \/ exists t, In t ts /\ add t x y) s'.
Proof.
  intros EXT STEP. induction ts as [|t ts IH]; intros V s O I; cbn [each_row].
  - exists s. split; [reflexivity|]. apply (EXT V); [|exact I]. intros x y. split; [now left|]. intros [H|(t & [] & _)]; exact H.
  - inversion O as [|? ? O1 O2]; subst. destruct (STEP t V s O1 I) as (s1 & E1 & I1). rewrite E1. destruct (IH _ s1 O2 I1) as (s2 & E2 & I2). exists s2. split; [exact E2|]. eapply EXT; [|exact I2].
    intros x y. cbn [In]. split.
    + intros [[H|H]|(t' & T & H)]; [now left|right; exists t; auto|right; exists t'; auto].
    + intros [H|(t' & [->|T] & H)]; [auto|auto|right; eauto].
Qed.
(* the state of the scan after the set V of showing pixels *)
Definition hull_of (w h : Z) (V : Z -> Z -> Prop) (s : bbox) : Prop :=
  (forall x y, V x y -> 0 <= x < w /\ 0 <= y < h)%Z /\ (forall x y, V x y -> in_box s x y) /\
  (((forall x y, ~ V x y) /\ s = Bbox w h (-1) (-1)) \/ ((exists y, V (b_x0 s) y) /\ (exists y, V (b_x1 s) y) /\ (exists x, V x (b_y0 s)) /\ (exists x, V x (b_y1 s)))).
Lemma hull_ext w h V V' s : (forall x y, V x y <-> V' x y) -> hull_of w h V s -> hull_of w h V' s.
Proof.
  intros E (B & H & D). split; [intros x y X; apply B; now apply E|]. split; [intros x y X; apply H; now apply E|]. destruct D as [[D ->]|((a & A) & (b & Bb) & (c & C) & (d & Dd))].
  - left. split; [|reflexivity]. intros x y X. apply (D x y). now apply E.
  - right. split; [exists a; now apply E|]. split; [exists b; now apply E|]. split; [exists c; now apply E|exists d; now apply E].
Qed.
Lemma hull_add w h V s x y a : (0 <= x < w)%Z -> (0 <= y < h)%Z -> hull_of w h V s ->
  hull_of w h (fun x' y' => V x' y' \/ (x' = x /\ y' = y /\ a <> 0%N)) (if (a =? 0)%N then s else Bbox (Z.min (b_x0 s) x) (Z.min (b_y0 s) y) (Z.max (b_x1 s) x) (Z.max (b_y1 s) y)).
Proof.
  intros X Y (B & H & D). destruct (N.eqb_spec a 0) as [->|NZ].
  - apply (hull_ext w h V); [|exact (conj B (conj H D))]. intros x' y'. split; [now left|]. intros [Q|(_ & _ & Q)]; [exact Q|congruence].
  - split; [intros x' y' [V1|(-> & -> & _)]; [now apply B|lia]|]. split.
    + intros x' y' [V1|(-> & -> & _)]; [specialize (H _ _ V1)|]; unfold in_box in *; cbn [b_x0 b_y0 b_x1 b_y1]; lia.
    + right. cbn [b_x0 b_y0 b_x1 b_y1]. assert (NEW : forall x' y', x' = x -> y' = y -> V x' y' \/ (x' = x /\ y' = y /\ a <> 0%N)) by auto. destruct D as [[D ->]|((p & P) & (q & Q) & (r & R) & (t & T))].
      * cbn [b_x0 b_y0 b_x1 b_y1]. split; [exists y; apply NEW; lia|]. split; [exists y; apply NEW; lia|]. split; exists x; apply NEW; lia.
      * split; [destruct (Z.min_spec (b_x0 s) x) as [[_ ->]|[_ ->]]; [exists p; now left|exists y; now apply NEW]|].
        split; [destruct (Z.max_spec (b_x1 s) x) as [[_ ->]|[_ ->]]; [exists y; now apply NEW|exists q; now left]|].
        split; [destruct (Z.min_spec (b_y0 s) y) as [[_ ->]|[_ ->]]; [exists r; now left|exists x; now apply NEW]|].
        destruct (Z.max_spec (b_y1 s) y) as [[_ ->]|[_ ->]]; [exists x; now apply NEW|exists t; now left].
Qed.
Lemma scan_ok w h data sx0 sy0 sx1 sy1 : canvas w h data -> (0 <= sx0 < sx1)%Z -> (0 <= sy0 < sy1)%Z -> (sx1 <= w)%Z -> (sy1 <= h)%Z ->
  exists s, each_row (scan_row data w sx0 sx1) (span_from sy0 sy1) (Bbox sx1 sy1 (-1) (-1)) = Some s /\ hull_of sx1 sy1 (fun x y => (sx0 <= x < sx1)%Z /\ (sy0 <= y < sy1)%Z /\ c_a (at_xy w data x y) <> 0%N) s.
Proof.
  intros [CW CH CA CB CL] X Y XW YH.
  destruct (each_row_sets (hull_of sx1 sy1) (fun y => sy0 <= y < sy1)%Z (scan_row data w sx0 sx1) (fun t x y => y = t /\ (sx0 <= x < sx1)%Z /\ c_a (at_xy w data x y) <> 0%N)) with (ts := span_from sy0 sy1) (V := fun _ _ : Z => False) (s := Bbox sx1 sy1 (-1) (-1)) as (s & E & I).
  - intros V V' s. apply hull_ext.
  - intros t V s T I. unfold scan_row. pose proof (row_fits w h t sx0 sx1 ltac:(lia) ltac:(lia) ltac:(lia)) as RF. rewrite i32_ok by lia. rewrite as_usize_ok by lia.
    destruct (each_row_sets (hull_of sx1 sy1) (fun x => sx0 <= x < sx1)%Z (scan_pixel data (Z.to_nat (t * w) * 4) t) (fun k x y => x = k /\ y = t /\ c_a (at_xy w data k t) <> 0%N)) with (ts := span_from sx0 sx1) (V := V) (s := s) as (s' & E & I').
    + intros V0 V0' s0. apply hull_ext.
    + intros k V0 s0 K I0. unfold scan_pixel. rewrite as_usize_ok by lia.
      assert (EA : nth_error data (Z.to_nat (t * w) * 4 + Z.to_nat k * 4 + 3) = Some (c_a (at_xy w data k t))).
      { unfold at_xy, pixel. cbn [c_a]. replace (Z.to_nat (t * w) * 4 + Z.to_nat k * 4 + 3) with (4 * Z.to_nat (t * w + k) + 3) by lia. apply nth_error_nth'. lia. }
      rewrite EA. eexists. split; [reflexivity|]. apply hull_add; [lia|lia|exact I0].
    + apply Forall_forall. intros k K. now apply span_in in K.
    + exact I.
    + exists s'. split; [exact E|]. eapply hull_ext; [|exact I']. intros x y. split.
      * intros [H|(k & K & -> & -> & A)]; [now left|]. apply span_in in K. right. auto.
      * intros [H|(-> & XX & A)]; [now left|]. right. exists x. split; [now apply span_in|]. auto.
  - apply Forall_forall. intros k K. now apply span_in in K.
  - split; [contradiction|]. split; [contradiction|]. left. split; [auto|reflexivity].
  - exists s. split; [exact E|]. eapply hull_ext; [|exact I]. intros x y. split.
    + intros [[]|(t & T & -> & XX & A)]. apply span_in in T. auto.
    + intros (XX & YY & A). right. exists y. split; [now apply span_in|]. auto.
Qed.
Lemma sub_slice_pixels data n s r : bytes data -> List.length data = 4 * n -> s + r <= n -> exists ds, sub_slice (s * 4) (r * 4) data = Some (flat ds) /\ List.length ds = r /\ Forall byte_colour ds /\ forall j, j < r -> nth j ds clear_colour = pixel data (s + j).
Proof.
  intros B L R. destruct (split_pixels data n s r L R) as (pre & ds & post & -> & L1 & L2 & L3). exists ds. split; [apply sub_slice_at; rewrite flat_length; lia|]. split; [exact L2|]. split.
  - unfold bytes in B. apply Forall_app in B. destruct B as [_ B]. apply Forall_app in B. destruct B as [B _]. now apply bytes_flat.
  - intros j J. rewrite pixel_run, nth_run, L1, L2. replace ((s <=? s + j) && (s + j <? s + r)) with true by lia. f_equal. lia.
Qed.
Lemma zeros_ok n : bytes (repeat 0%N n).
Proof. apply Forall_forall. intros x X. apply repeat_spec in X. now subst. Qed.
Lemma crop_ok w h data hint : canvas w h data -> hint_fits hint -> exists r, crop_pixmap (Pixmap w h data) hint = Some r /\ cropped w h data hint r.
Proof.
  intros CV HF. pose proof CV as [CW CH CA CB CL]. unfold crop_pixmap. cbn [p_w p_h p_data]. rewrite !as_i32_ok by assumption.
  set (dims := match hint with Some b => _ | None => _ end).
  assert (DIMS : exists sx0 sy0 sx1 sy1, dims = Some (sx0, sy0, sx1, sy1) /\ (0 <= sx0)%Z /\ (0 <= sy0)%Z /\ (sx1 <= w)%Z /\ (sy1 <= h)%Z /\
    forall x y, shows w h data hint x y <-> ((sx0 <= x < sx1)%Z /\ (sy0 <= y < sy1)%Z /\ c_a (at_xy w data x y) <> 0%N)).
  { unfold dims. destruct hint as [b|].
    - destruct HF as [H1 H2]. rewrite !i32_ok by lia. do 4 eexists. split; [reflexivity|]. split; [lia|]. split; [lia|]. split; [lia|]. split; [lia|]. intros x y. unfold shows, inside, in_box. split; [intros ((? & ?) & ? & (? & ?))|intros (? & ? & ?)]; repeat split; try assumption; lia.
    - do 4 eexists. split; [reflexivity|]. split; [lia|]. split; [lia|]. split; [lia|]. split; [lia|]. intros x y. unfold shows, inside. tauto. }
  destruct DIMS as (sx0 & sy0 & sx1 & sy1 & -> & X0 & Y0 & X1 & Y1 & SH).
  destruct ((sx1 <=? sx0) || (sy1 <=? sy0))%Z eqn:EMPTY.
  { exists None. split; [reflexivity|]. intros x y S. apply SH in S. lia. }
  destruct (scan_ok w h data sx0 sy0 sx1 sy1 CV ltac:(lia) ltac:(lia) X1 Y1) as (s & E & I). rewrite E. clear E.
  apply (hull_ext _ _ _ (shows w h data hint)) in I; [|intros x y; symmetry; apply SH].
  destruct I as (VB & VI & [[NONE ->]|((ya & A) & (yb & B) & (xc & C) & (xd & D))]).
  { cbn [b_x0 b_x1]. replace (-1 <? sx1)%Z with true by lia. exists None. split; [reflexivity|exact NONE]. }
  destruct s as [x0 y0 x1 y1]. cbn [b_x0 b_y0 b_x1 b_y1] in *.
  pose proof (VB _ _ A) as A1. pose proof (VB _ _ B) as B1. pose proof (VB _ _ C) as C1. pose proof (VB _ _ D) as D1. pose proof (VI _ _ A) as A2. pose proof (VI _ _ C) as C2. unfold in_box in A2, C2. cbn [b_x0 b_y0 b_x1 b_y1] in A2, C2.
  replace (x1 <? x0)%Z with false by lia. rewrite (i32_ok (x1 - x0)) by lia. rewrite (i32_ok (x1 - x0 + 1)) by lia. rewrite (i32_ok (y1 - y0)) by lia. rewrite (i32_ok (y1 - y0 + 1)) by lia.
  set (bw := (x1 - x0 + 1)%Z) in *. set (bh := (y1 - y0 + 1)%Z) in *.
  assert (AREA : (bw * bh <= w * h)%Z) by (apply Z.mul_le_mono_nonneg; lia).
  assert (G0 : good bw bh (repeat 0%N (Z.to_nat bw * 4 * Z.to_nat bh))). { constructor; [apply zeros_ok|]. rewrite repeat_length. rewrite !Nat2Z.inj_mul. lia. }
  match goal with |- context [each_row ?g _ _] => set (f := g) end.
  destruct (rows_loop (at_xy bw) (good bw bh) bw bh 0 0 bw 0 bh f (fun px py _ => at_xy w data (x0 + px) (y0 + py))) with (n := Z.to_nat (bh - 0)) (lo := 0%Z) (s := repeat 0%N (Z.to_nat bw * 4 * Z.to_nat bh)) as (px & EP & G & P); [|reflexivity|lia|exact G0|].
  - intros t s T [GB GL]. subst f. cbv beta. pose proof (row_fits w h (y0 + t) x0 (x1 + 1) ltac:(lia) ltac:(lia) ltac:(lia)) as I1. pose proof (row_fits bw bh t 0 bw ltac:(lia) ltac:(lia) ltac:(lia)) as I2.
    rewrite (i32_ok (y0 + t)) by lia. rewrite (i32_ok ((y0 + t) * w)) by lia. rewrite (i32_ok ((y0 + t) * w + x0)) by lia. rewrite !as_usize_ok by lia.
    destruct (sub_slice_pixels data (Z.to_nat (w * h)) (Z.to_nat ((y0 + t) * w + x0)) (Z.to_nat bw) CB ltac:(lia) ltac:(lia)) as (ds & ES & LD & BD & ND). rewrite ES.
    replace (Z.to_nat t * (Z.to_nat bw * 4)) with (Z.to_nat (t * bw) * 4) by (rewrite Z2Nat.inj_mul by lia; lia).
    destruct (copy_view s (Z.to_nat (bw * bh)) (Z.to_nat (t * bw)) ds GB ltac:(lia) ltac:(lia) BD) as (s' & EC & BS & LS & PS). exists s'. split; [exact EC|]. split; [constructor; [exact BS|lia]|].
    intros px py I. pose proof (index_bound bw bh px py I) as IB. unfold at_xy. rewrite PS, LD. pose proof (run_of_row bw t px py 0 bw (proj1 I) ltac:(lia) ltac:(lia) ltac:(lia)) as RR.
    destruct (((py =? 0 + t) && (0 <=? px) && (px <? bw))%Z) eqn:Q.
    + assert (Q1 : py = t) by lia. assert (Q2 : (0 <= px < bw)%Z) by lia. destruct (proj2 RR (conj Q1 Q2)) as [R1 R2]. replace ((Z.to_nat (t * bw) <=? Z.to_nat (py * bw + px)) && (Z.to_nat (py * bw + px) <? Z.to_nat (t * bw) + Z.to_nat bw)) with true by lia.
      rewrite ND by lia. f_equal. subst py. lia.
    + replace ((Z.to_nat (t * bw) <=? Z.to_nat (py * bw + px)) && (Z.to_nat (py * bw + px) <? Z.to_nat (t * bw) + Z.to_nat bw)) with false; [reflexivity|]. symmetry. apply not_true_is_false. intros CC. assert (py = t /\ 0 <= px < bw)%Z by (apply RR; lia). lia.
  - replace (bh - 0)%Z with bh in EP by lia. rewrite EP. eexists. split; [reflexivity|]. cbn [cropped]. split; [constructor; try apply G; lia|]. split; [lia|]. split; [intros x y S; apply VI in S; unfold in_box in S; cbn [b_x0 b_y0 b_x1 b_y1] in S; unfold inside; lia|].
    split; [now exists ya|]. replace (x0 + bw - 1)%Z with x1 by lia. replace (y0 + bh - 1)%Z with y1 by lia. split; [now exists yb|]. split; [now exists xc|]. split; [now exists xd|].
    intros x y I. rewrite P by exact I. unfold inside in I. now replace ((0 + 0 <=? y) && (y <? 0 + bh) && (0 <=? x) && (x <? bw))%Z with true by lia.
Qed.

(* ---- drawing the cropped bitmap again ---- *)
Lemma blank_ok w h : (0 <= w < 2147483648)%Z -> (0 <= h < 2147483648)%Z -> (w * h < 2147483648)%Z -> canvas w h (blank w h).
Proof. intros W H A. unfold blank. constructor; try assumption; [apply zeros_ok|rewrite repeat_length; nia]. Qed.
Lemma nth_zeros n i : nth i (repeat 0%N n) 0%N = 0%N.
Proof. revert i. induction n; intros [|i]; cbn; auto. Qed.
Lemma blank_pixel w h p : pixel (blank w h) p = clear_colour.
Proof. unfold pixel, blank. now rewrite !nth_zeros. Qed.
Lemma canvas_ext w h a b : canvas w h a -> canvas w h b -> (forall x y, inside w h x y -> at_xy w a x y = at_xy w b x y) -> a = b.
Proof.
  intros [W H A BA LA] [_ _ _ BB LB] E. apply (pixel_ext a b (Z.to_nat (w * h))); [lia|lia|]. intros p P. assert (NW : (0 < w)%Z) by nia.
  specialize (E (Z.of_nat p mod w) (Z.of_nat p / w))%Z. unfold at_xy in E. pose proof (Z.mod_pos_bound (Z.of_nat p) w NW) as M. pose proof (Z.div_mod (Z.of_nat p) w ltac:(lia)) as DM.
  replace (Z.to_nat (Z.of_nat p / w * w + Z.of_nat p mod w)) with p in E by lia. apply E. split; [exact M|]. split; [apply Z.div_pos; lia|]. apply Z.div_lt_upper_bound; lia.
Qed.
Lemma over_blank s : over s clear_colour = s.
Proof. unfold over, clear_colour. cbn [c_r c_g c_b c_a]. rewrite !nearest_zero_l, !N.add_0_r. now destruct s. Qed.
Lemma clear_of_alpha c : premultiplied c -> c_a c = 0%N -> c = clear_colour.
Proof. intros (A & B & C & _) Z. destruct c as [r g b a]. cbn [c_r c_g c_b c_a] in *. unfold clear_colour. f_equal; lia. Qed.
Lemma cropped_sound w h data hint b : canvas w h data -> picture data -> cropped w h data hint (Some b) -> sound_bitmap w h b.
Proof.
  intros [W H A BA LA] PM C. destruct b as [|bw bh px x0 y0]; [contradiction|]. destruct C as (CV & BD & _ & _ & _ & _ & _ & EQ). split; [exact CV|]. split; [destruct CV; unfold placed; lia|]. intros p. destruct CV as [W' H' A' B' L'].
  destruct (Nat.lt_ge_cases p (Z.to_nat (bw * bh))) as [P|P].
  - assert (NW : (0 < bw)%Z) by nia. pose proof (Z.mod_pos_bound (Z.of_nat p) bw NW) as M. pose proof (Z.div_mod (Z.of_nat p) bw ltac:(lia)) as DM.
    specialize (EQ (Z.of_nat p mod bw) (Z.of_nat p / bw))%Z. unfold at_xy at 1 in EQ. replace (Z.to_nat (Z.of_nat p / bw * bw + Z.of_nat p mod bw)) with p in EQ by lia. rewrite EQ; [apply PM|]. split; [exact M|]. split; [apply Z.div_pos; lia|]. apply Z.div_lt_upper_bound; lia.
  - unfold pixel. rewrite !nth_overflow by lia. repeat split; cbn; lia.
Qed.
Definition opt_list {A} (o : option A) : list A := match o with Some a => [a] | None => [] end.
Lemma recomposed row_fn w h data hint r : (row_fn = blend_row \/ row_fn = blend_row_simd) -> canvas w h data -> picture data -> (forall x y, shows w h data None x y -> shows w h data hint x y) -> cropped w h data hint r ->
  draw_all row_fn (blank w h) w h (opt_list r) = Some data.
Proof.
  intros F CV PM COVER C. pose proof CV as [W H A BA LA]. pose proof (blank_ok w h W H A) as BK.
  assert (OUT : forall x y, inside w h x y -> ~ shows w h data hint x y -> at_xy w data x y = clear_colour).
  { intros x y I N. apply clear_of_alpha; [apply PM|]. destruct (N.eq_dec (c_a (at_xy w data x y)) 0) as [Z|Z]; [exact Z|]. exfalso. apply N, COVER. repeat split; try apply I. exact Z. }
  destruct r as [b|]; cbn [opt_list draw_all].
  - destruct (composite_bitmap_ok row_fn (blank w h) w h b F BK (cropped_sound w h data hint b CV PM C)) as (d & E & CD & P). rewrite E. f_equal. apply (canvas_ext w h); [exact CD|exact CV|]. intros x y I. specialize (P x y I).
    destruct b as [|bw bh px x0 y0]; [contradiction|]. destruct C as (CB & BD & IN & _ & _ & _ & _ & EQ). destruct P as [P1 P2]. assert (BL : at_xy w (blank w h) x y = clear_colour) by apply blank_pixel. rewrite BL in *.
    assert (DEC : inside bw bh (x - x0) (y - y0) \/ ~ inside bw bh (x - x0) (y - y0)) by (unfold inside; lia). destruct DEC as [Y|N].
    + rewrite (P1 Y), over_blank, (EQ _ _ Y). f_equal; lia.
    + rewrite (P2 N). symmetry. apply OUT; [exact I|]. intros S. now apply N, IN.
  - f_equal. apply (canvas_ext w h); [exact BK|exact CV|]. intros x y I. rewrite OUT; [apply blank_pixel|exact I|apply C].
Qed.
(* ---- the noted boxes ---- *)
Lemma noted_hull l : forall s, exists r, fold_left note_dirty_bbox l (Some s) = Some r /\ (forall b, b = s \/ In b l -> forall x y, in_box b x y -> in_box r x y) /\
  (exists b, (b = s \/ In b l) /\ b_x0 r = b_x0 b) /\ (exists b, (b = s \/ In b l) /\ b_y0 r = b_y0 b) /\ (exists b, (b = s \/ In b l) /\ b_x1 r = b_x1 b) /\ (exists b, (b = s \/ In b l) /\ b_y1 r = b_y1 b).
Proof.
  induction l as [|b l IH]; intros s; cbn [fold_left].
  - exists s. split; [reflexivity|]. split; [intros b [->|[]]; auto|]. repeat split; exists s; auto.
  - destruct (IH (Bbox (Z.min (b_x0 s) (b_x0 b)) (Z.min (b_y0 s) (b_y0 b)) (Z.max (b_x1 s) (b_x1 b)) (Z.max (b_y1 s) (b_y1 b)))) as (r & E & C & H1 & H2 & H3 & H4). exists r. split; [exact E|]. split.
    + intros c [->|[->|IN]] x y I; [apply (C _ (or_introl eq_refl))|apply (C _ (or_introl eq_refl))|now apply (C c (or_intror IN))]; unfold in_box in *; cbn [b_x0 b_y0 b_x1 b_y1]; lia.
    + assert (PICK : forall (g : bbox -> Z) v, (exists c, (c = Bbox (Z.min (b_x0 s) (b_x0 b)) (Z.min (b_y0 s) (b_y0 b)) (Z.max (b_x1 s) (b_x1 b)) (Z.max (b_y1 s) (b_y1 b)) \/ In c l) /\ v = g c) -> (g (Bbox (Z.min (b_x0 s) (b_x0 b)) (Z.min (b_y0 s) (b_y0 b)) (Z.max (b_x1 s) (b_x1 b)) (Z.max (b_y1 s) (b_y1 b))) = g s \/ g (Bbox (Z.min (b_x0 s) (b_x0 b)) (Z.min (b_y0 s) (b_y0 b)) (Z.max (b_x1 s) (b_x1 b)) (Z.max (b_y1 s) (b_y1 b))) = g b) -> exists c, (c = s \/ In c (b :: l)) /\ v = g c).
      { intros g v (c & [->|IN] & ->) [G|G]; [exists s; auto|exists b; cbn; auto|exists c; cbn; auto|exists c; cbn; auto]. }
      split; [apply (PICK b_x0 _ H1); cbn [b_x0]; lia|]. split; [apply (PICK b_y0 _ H2); cbn [b_y0]; lia|]. split; [apply (PICK b_x1 _ H3); cbn [b_x1]; lia|]. apply (PICK b_y1 _ H4); cbn [b_y1]; lia.
Qed.
Lemma noted_cover w h data boxes : (boxes <> [] -> forall x y, shows w h data None x y -> exists b, In b boxes /\ in_box b x y) -> (forall b, In b boxes -> (-2147483648 <= b_x1 b < 2147483647 /\ -2147483648 <= b_y1 b < 2147483647)%Z) ->
  hint_fits (fold_left note_dirty_bbox boxes None) /\ forall x y, shows w h data None x y -> shows w h data (fold_left note_dirty_bbox boxes None) x y.
Proof.
  intros COV FIT. destruct boxes as [|b l]; [split; [exact I|auto]|]. cbn [fold_left]. change (note_dirty_bbox None b) with (Some b). destruct (noted_hull l b) as (r & E & C & _ & _ & (bx & IX & EX) & (by_ & IY & EY)). rewrite E. split.
  - cbn [hint_fits]. rewrite EX, EY. assert (Q : forall c, c = b \/ In c l -> In c (b :: l)) by (intros c [->|Q]; cbn; auto). pose proof (FIT _ (Q _ IX)). pose proof (FIT _ (Q _ IY)). lia.
  - intros x y S. destruct (COV ltac:(discriminate) x y S) as (c & [<-|IN] & IB); destruct S as (S1 & S2 & _); (split; [exact S1|split; [exact S2|]]); [now apply (C b (or_introl eq_refl))|now apply (C c (or_intror IN))].
Qed.
(* ---- a list of layers ---- *)
Lemma layer_ok row_fn w h l : (row_fn = blend_row \/ row_fn = blend_row_simd) -> (0 <= w < 2147483648)%Z -> (0 <= h < 2147483648)%Z -> (w * h < 2147483648)%Z -> well_behaved w h l -> exists out, render_layer w h l (blank w h) = Some (out, blank w h) /\ stands_for row_fn w h l out.
Proof.
  intros F W H A WB. unfold well_behaved, render_layer, stands_for in *. destruct (l (blank w h)) as [[em boxes] data]. destruct WB as (CV & PM & EM & FIT & COV). destruct em as [|e em]; [|exists (e :: em); rewrite EM by discriminate; split; [reflexivity|split; [auto|discriminate]]].
  destruct (noted_cover w h data boxes (COV eq_refl) FIT) as [HF HC]. destruct (crop_ok w h data _ CV HF) as (r & E & C). rewrite E. pose proof (recomposed row_fn w h data _ r F CV PM HC C) as RE.
  destruct r as [b|].
  - destruct b as [|bw bh px x0 y0]; [contradiction|]. pose proof C as (CB & BD & IN & _ & _ & _ & _ & EQ). pose proof CB as [W' H' A' _ _]. destruct (clear_region_ok w h data x0 y0 bw bh CV ltac:(lia) ltac:(lia) ltac:(lia) ltac:(lia)) as (d & EC & CD & P). rewrite EC. cbn [p_data]. exists [BRgba bw bh px x0 y0]. split.
    + f_equal. f_equal. apply (canvas_ext w h); [exact CD|now apply blank_ok|]. intros x y I. assert (BL : at_xy w (blank w h) x y = clear_colour) by apply blank_pixel. rewrite BL. destruct (P x y I) as [P1 P2].
      assert (DEC : inside bw bh (x - x0) (y - y0) \/ ~ inside bw bh (x - x0) (y - y0)) by (unfold inside; lia). destruct DEC as [Y|N]; [now apply P1|]. rewrite (P2 N). apply clear_of_alpha; [apply PM|]. destruct (N.eq_dec (c_a (at_xy w data x y)) 0) as [Z|Z]; [exact Z|]. exfalso. apply N, IN, HC. repeat split; try apply I. exact Z.
    + split; [contradiction|]. intros _. split; [cbn; lia|exact RE].
  - exists []. cbn [opt_list draw_all] in RE. injection RE as RE. split; [now rewrite RE|]. split; [contradiction|]. intros _. split; [cbn; lia|]. cbn [draw_all]. now rewrite RE.
Qed.
Lemma layers_ok row_fn w h : (row_fn = blend_row \/ row_fn = blend_row_simd) -> (0 <= w < 2147483648)%Z -> (0 <= h < 2147483648)%Z -> (w * h < 2147483648)%Z -> forall ls, Forall (well_behaved w h) ls -> exists outs, render_layers w h ls (blank w h) = Some (concat outs, blank w h) /\ Forall2 (stands_for row_fn w h) ls outs.
Proof.
  intros F W H A. induction ls as [|l ls IH]; intros WB; [exists []; split; [reflexivity|constructor]|]. inversion WB as [|? ? W1 W2]; subst. destruct (layer_ok row_fn w h l F W H A W1) as (o & E & S). destruct (IH W2) as (outs & E2 & S2). exists (o :: outs). cbn [render_layers]. rewrite E, E2. split; [reflexivity|now constructor].
Qed.
Lemma blanked w h (scratch : list N) : Z.of_nat (List.length scratch) = (4 * (w * h))%Z -> map (fun _ => 0%N) scratch = blank w h.
Proof. intros L. unfold blank. replace (Z.to_nat (4 * (w * h))) with (List.length scratch) by lia. clear. induction scratch; cbn; f_equal; auto. Qed.
