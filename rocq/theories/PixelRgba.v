(* Compositing a finished bitmap, cropping and clearing. *)
From Verif Require Import Base BaseLemmas PixelModel PixelSpec PixelLib PixelProofs.

Lemma nth_error_pixel buf p m : List.length buf = 4 * m -> p < m -> nth_error buf (p * 4) = Some (c_r (pixel buf p)) /\ nth_error buf (p * 4 + 1) = Some (c_g (pixel buf p)) /\ nth_error buf (p * 4 + 2) = Some (c_b (pixel buf p)) /\ nth_error buf (p * 4 + 3) = Some (c_a (pixel buf p)).
Proof.
  intros L P. rewrite (Nat.mul_comm p 4). cbn [pixel c_r c_g c_b c_a]. repeat split; apply nth_error_nth'; lia.
Qed.
Lemma rgba_channel_ok s d inv : (s < 256)%N -> (d < 256)%N -> (inv < 256)%N -> (s + nearest d inv < 256)%N -> rgba_channel s d inv = Some (s + nearest d inv)%N.
Proof. intros S D I O. unfold rgba_channel. rewrite mul255_nearest by assumption. unfold add16. replace (_ <? 65536)%N with true by lia. now rewrite u8_small. Qed.
Lemma rgba_pixel_view pixels dst sp s m n : List.length pixels = 4 * m -> sp < m -> premultiplied (pixel pixels sp) -> bytes dst -> List.length dst = 4 * n -> s < n ->
  exists dst', rgba_pixel pixels dst (sp * 4) (s * 4) = Some dst' /\ bytes dst' /\ List.length dst' = 4 * n /\ forall q, pixel dst' q = if q =? s then over (pixel pixels sp) (pixel dst q) else pixel dst q.
Proof.
  intros LP SP PM B L S. unfold rgba_pixel. destruct (nth_error_pixel pixels sp m LP SP) as (E0 & E1 & E2 & E3). rewrite E0, E1, E2, E3. set (c := pixel pixels sp) in *. clearbody c. clear E0 E1 E2 E3 LP SP.
  assert (BD : byte_colour (pixel dst s)) by now apply pixel_byte.
  destruct (N.eqb_spec (c_a c) 0) as [Z|NZ].
  - exists dst. split; [reflexivity|]. split; [exact B|]. split; [exact L|]. intros q. destruct (Nat.eqb_spec q s) as [->|]; [|reflexivity]. symmetry. now apply over_clear.
  - pose proof PM as (SR & SG & SB & SA). unfold sub16. replace (c_a c <=? 255)%N with true by lia.
    destruct (split_pixels dst n s 1 L ltac:(lia)) as (pre & ds & post & -> & L1 & L2 & L3). destruct ds as [|d [|]]; try discriminate. assert (ED : pixel (flat pre ++ flat [d] ++ flat post) s = d). { rewrite pixel_run. rewrite app_nth2 by lia. rewrite L1, Nat.sub_diag. reflexivity. }
    rewrite ED in BD. destruct BD as (DR & DG & DB & DA).
    exists (flat pre ++ flat [over c d] ++ flat post). split; [|split; [|split]].
    + change (flat [d] ++ flat post) with (c_r d :: c_g d :: c_b d :: c_a d :: flat post). apply modify_pixel; [rewrite flat_length; lia|apply rgba_channel_ok; try assumption; try lia; apply over_small; try assumption; lia..].
    + unfold bytes in *. apply Forall_app in B. destruct B as [B1 B]. apply Forall_app in B. destruct B as [B B2]. apply Forall_app. split; [exact B1|]. apply Forall_app. split; [|exact B2]. apply bytes_flat. constructor; [|constructor]. apply over_byte; [exact PM|repeat split; assumption].
    + rewrite !app_length, !flat_length in *. cbn [List.length] in *. lia.
    + intros q. rewrite (pixel_replaced pre [d] [over c d] post q eq_refl). rewrite L1. cbn [List.length]. destruct (Nat.eqb_spec q s) as [->|NE].
      * replace ((s <=? s) && (s <? s + 1)) with true by lia. rewrite Nat.sub_diag. cbn [nth]. now rewrite ED.
      * now replace ((s <=? q) && (q <? s + 1)) with false by lia.
Qed.
Lemma rgba_row_view pixels m : List.length pixels = 4 * m -> (forall p, premultiplied (pixel pixels p)) -> forall r sp s n dst, sp + r <= m -> s + r <= n -> bytes dst -> List.length dst = 4 * n ->
  exists dst', rgba_row pixels dst (sp * 4) (s * 4) r = Some dst' /\ bytes dst' /\ List.length dst' = 4 * n /\ forall q, pixel dst' q = if (s <=? q) && (q <? s + r) then over (pixel pixels (sp + (q - s))) (pixel dst q) else pixel dst q.
Proof.
  intros LP PM. induction r as [|r IH]; intros sp s n dst SP SN B L; cbn [rgba_row].
  - exists dst. split; [reflexivity|]. split; [exact B|]. split; [exact L|]. intros q. now replace ((s <=? q) && (q <? s + 0)) with false by lia.
  - destruct (rgba_pixel_view pixels dst sp s m n LP ltac:(lia) (PM sp) B L ltac:(lia)) as (d1 & E1 & B1 & L1 & P1). rewrite E1.
    replace (sp * 4 + 4) with ((sp + 1) * 4) by lia. replace (s * 4 + 4) with ((s + 1) * 4) by lia. destruct (IH (sp + 1) (s + 1) n d1 ltac:(lia) ltac:(lia) B1 L1) as (d2 & E2 & B2 & L2 & P2). exists d2. split; [exact E2|]. split; [exact B2|]. split; [exact L2|].
    intros q. rewrite P2, P1. destruct (Nat.eqb_spec q s) as [->|NE].
    + replace ((s + 1 <=? s) && (s <? s + 1 + r)) with false by lia. replace ((s <=? s) && (s <? s + S r)) with true by lia. rewrite Nat.sub_diag. now replace (sp + 0) with sp by lia.
    + destruct ((s + 1 <=? q) && (q <? s + 1 + r)) eqn:Q.
      * replace ((s <=? q) && (q <? s + S r)) with true by lia. now replace (sp + 1 + (q - (s + 1))) with (sp + (q - s)) by lia.
      * now replace ((s <=? q) && (q <? s + S r)) with false by lia.
Qed.
Lemma composite_rgba_ok dst w h pixels cw ch x y : canvas w h dst -> canvas cw ch pixels -> placed w h x y -> (forall p, premultiplied (pixel pixels p)) ->
  exists dst', composite_rgba dst w h pixels cw ch x y = Some dst' /\ canvas w h dst' /\ forall px py, inside w h px py -> drawn (BRgba cw ch pixels x y) px py (at_xy w dst px py) (at_xy w dst' px py).
Proof.
  intros CV [TW TH TA TB TL] [PX PY] PM. pose proof CV as CV0. apply canvas_good in CV. destruct CV as (DW & DH & DA & G).
  unfold composite_rgba. rewrite !as_i32_ok by assumption. rewrite !clip_ok by assumption.
  set (ty0 := Z.max (- y) 0). set (ty1 := Z.min ch (h - y)). set (tx0 := Z.max (- x) 0). set (tx1 := Z.min cw (w - x)).
  destruct ((ty1 <=? ty0) || (tx1 <=? tx0))%Z eqn:EMPTY.
  { exists dst. split; [reflexivity|]. split; [exact CV0|]. intros px py I. split; [|reflexivity]. intros J. unfold inside in *. exfalso. lia. }
  assert (Y : (ty0 < ty1)%Z) by lia. assert (X : (tx0 < tx1)%Z) by lia. clear EMPTY.
  set (upd := fun px py old => over (at_xy cw pixels (px - x) (py - y)) old).
  match goal with |- exists _, each_row ?g _ _ = _ /\ _ => set (f := g) end.
  destruct (rows_loop (at_xy w) (good w h) w h y (x + tx0) (x + tx1) ty0 ty1 f upd) with (n := Z.to_nat (ty1 - ty0)) (lo := ty0) (s := dst) as (dst' & E & G' & P'); [|reflexivity|lia|exact G|].
  - intros t s T [GB GL]. subst f. cbv beta.
    assert (T0 : (0 <= t < ch)%Z) by lia. assert (T1 : (0 <= y + t < h)%Z) by lia.
    pose proof (row_fits cw ch t tx0 tx1 ltac:(lia) ltac:(lia) ltac:(lia)) as I1. pose proof (row_fits w h (y + t) (x + tx0) (x + tx1) ltac:(lia) ltac:(lia) ltac:(lia)) as I2.
    rewrite (i32_ok (t * cw)) by lia. rewrite (i32_ok (t * cw + tx0)) by lia. rewrite as_usize_ok by lia.
    rewrite (i32_ok (y + t)) by lia. rewrite (i32_ok ((y + t) * w)) by lia. rewrite (i32_ok ((y + t) * w + x)) by lia. rewrite (i32_ok ((y + t) * w + x + tx0)) by lia. rewrite as_usize_ok by lia.
    destruct (rgba_row_view pixels (Z.to_nat (cw * ch)) ltac:(lia) PM (Z.to_nat (tx1 - tx0)) (Z.to_nat (t * cw + tx0)) (Z.to_nat ((y + t) * w + x + tx0)) (Z.to_nat (w * h)) s ltac:(lia) ltac:(lia) GB ltac:(lia)) as (s' & ES & BS & LS & PS).
    exists s'. split; [exact ES|]. split; [constructor; [exact BS|lia]|]. intros px py I. pose proof (index_bound w h px py I) as IB. unfold at_xy. rewrite PS.
    pose proof (run_of_row w (y + t) px py (x + tx0) (x + tx1) (proj1 I) ltac:(lia) ltac:(lia) ltac:(lia)) as RR.
    destruct (((py =? y + t) && (x + tx0 <=? px) && (px <? x + tx1))%Z) eqn:Q.
    + assert (Q1 : py = (y + t)%Z) by lia. assert (Q2 : (x + tx0 <= px < x + tx1)%Z) by lia. destruct (proj2 RR (conj Q1 Q2)) as [R1 R2].
      replace ((Z.to_nat ((y + t) * w + x + tx0) <=? Z.to_nat (py * w + px)) && (Z.to_nat (py * w + px) <? Z.to_nat ((y + t) * w + x + tx0) + Z.to_nat (tx1 - tx0))) with true by lia.
      unfold upd, at_xy.
      replace (Z.to_nat (t * cw + tx0) + (Z.to_nat (py * w + px) - Z.to_nat ((y + t) * w + x + tx0))) with (Z.to_nat ((py - y) * cw + (px - x))); [reflexivity|].
      subst py. replace (y + t - y)%Z with t by lia. lia.
    + replace ((Z.to_nat ((y + t) * w + x + tx0) <=? Z.to_nat (py * w + px)) && (Z.to_nat (py * w + px) <? Z.to_nat ((y + t) * w + x + tx0) + Z.to_nat (tx1 - tx0))) with false; [reflexivity|]. symmetry. apply not_true_is_false. intros C. assert (py = y + t /\ x + tx0 <= px < x + tx1)%Z by (apply RR; lia). lia.
  - exists dst'. split; [exact E|]. split; [apply canvas_good; auto|]. intros px py I. cbn [drawn]. rewrite P' by exact I. unfold inside in *. split; intros J.
    + replace ((y + ty0 <=? py) && (py <? y + ty1) && (x + tx0 <=? px) && (px <? x + tx1))%Z with true by lia. reflexivity.
    + replace ((y + ty0 <=? py) && (py <? y + ty1) && (x + tx0 <=? px) && (px <? x + tx1))%Z with false by lia. reflexivity.
Qed.
Lemma composite_bitmap_ok row_fn dst w h b : (row_fn = blend_row \/ row_fn = blend_row_simd) -> canvas w h dst -> sound_bitmap w h b ->
  exists dst', composite_bitmap row_fn dst w h b = Some dst' /\ canvas w h dst' /\ forall px py, inside w h px py -> drawn b px py (at_xy w dst px py) (at_xy w dst' px py).
Proof.
  intros F CV. destruct b as [bw bh cov x y c|bw bh px x y]; cbn [sound_bitmap composite_bitmap].
  - intros (T & P & C). now apply composite_coverage_ok.
  - intros (T & P & C). now apply composite_rgba_ok.
Qed.

(* ---- clearing ---- *)
Lemma flat_clear n : repeat 0%N (n * 4) = flat (repeat clear_colour n).
Proof. induction n as [|n IH]; [reflexivity|]. cbn [repeat]. rewrite flat_cons, <- IH. reflexivity. Qed.
Lemma copy_view buf n s ds : bytes buf -> List.length buf = 4 * n -> s + List.length ds <= n -> Forall byte_colour ds ->
  exists buf', copy_at (s * 4) (flat ds) buf = Some buf' /\ bytes buf' /\ List.length buf' = 4 * n /\ forall q, pixel buf' q = if (s <=? q) && (q <? s + List.length ds) then nth (q - s) ds clear_colour else pixel buf q.
Proof.
  intros B L R D. destruct (split_pixels buf n s (List.length ds) L R) as (pre & mid & post & -> & L1 & L2 & L3). exists (flat pre ++ flat ds ++ flat post). split; [apply copy_at_at; rewrite !flat_length; lia|]. split; [|split].
  - unfold bytes in *. apply Forall_app in B. destruct B as [B1 B]. apply Forall_app in B. destruct B as [B B2]. apply Forall_app. split; [exact B1|]. apply Forall_app. split; [|exact B2]. now apply bytes_flat.
  - rewrite !app_length, !flat_length in *. lia.
  - intros q. rewrite (pixel_replaced pre mid ds post q) by (now rewrite L2). now rewrite L1, L2.
Qed.
Lemma nth_repeat_clear n j : nth j (repeat clear_colour n) clear_colour = clear_colour.
Proof. revert j. induction n; intros [|j]; cbn; auto. Qed.
Lemma clear_region_ok w h buf rx ry rw rh : canvas w h buf -> (0 <= rw < 2147483648)%Z -> (0 <= rh < 2147483648)%Z -> (-2147483648 <= rx /\ rx + rw < 2147483648)%Z -> (-2147483648 <= ry /\ ry + rh < 2147483648)%Z ->
  exists buf', clear_region (Pixmap w h buf) rx ry rw rh = Some (Pixmap w h buf') /\ canvas w h buf' /\ forall px py, inside w h px py -> (inside rw rh (px - rx) (py - ry) -> at_xy w buf' px py = clear_colour) /\ (~ inside rw rh (px - rx) (py - ry) -> at_xy w buf' px py = at_xy w buf px py).
Proof.
  intros CV RW RH RX RY. pose proof CV as CV0. apply canvas_good in CV. destruct CV as (DW & DH & DA & G). unfold clear_region. cbn [p_w p_h p_data]. rewrite !as_i32_ok by assumption. rewrite !i32_ok by lia.
  set (x0 := Z.max rx 0). set (y0 := Z.max ry 0). set (x1 := Z.min (rx + rw) w). set (y1 := Z.min (ry + rh) h).
  destruct ((x1 <=? x0) || (y1 <=? y0))%Z eqn:EMPTY.
  { exists buf. split; [reflexivity|]. split; [exact CV0|]. intros px py I. split; [|reflexivity]. intros J. unfold inside in *. exfalso. lia. }
  assert (X : (x0 < x1)%Z) by lia. assert (Y : (y0 < y1)%Z) by lia. clear EMPTY.
  match goal with |- context [each_row ?g _ _] => set (f := g) end.
  destruct (rows_loop (at_xy w) (good w h) w h 0 x0 x1 y0 y1 f (fun _ _ _ => clear_colour)) with (n := Z.to_nat (y1 - y0)) (lo := y0) (s := buf) as (buf' & E & G' & P'); [|reflexivity|lia|exact G|].
  - intros t s T [GB GL]. subst f. cbv beta. assert (T0 : (0 <= t < h)%Z) by lia. pose proof (row_fits w h t x0 x1 ltac:(lia) ltac:(lia) ltac:(lia)) as I1.
    rewrite (i32_ok (t * w)) by lia. rewrite (i32_ok (t * w + x0)) by lia. rewrite as_usize_ok by lia. rewrite flat_clear.
    destruct (copy_view s (Z.to_nat (w * h)) (Z.to_nat (t * w + x0)) (repeat clear_colour (Z.to_nat (x1 - x0))) GB ltac:(lia) ltac:(rewrite repeat_length; lia)) as (s' & ES & BS & LS & PS).
    { apply Forall_forall. intros c C. apply repeat_spec in C. subst. repeat split; reflexivity. }
    exists s'. split; [exact ES|]. split; [constructor; [exact BS|lia]|]. intros px py I. pose proof (index_bound w h px py I) as IB. unfold at_xy. rewrite PS, repeat_length, nth_repeat_clear.
    pose proof (run_of_row w t px py x0 x1 (proj1 I) ltac:(lia) ltac:(lia) ltac:(lia)) as RR.
    destruct (((py =? 0 + t) && (x0 <=? px) && (px <? x1))%Z) eqn:Q.
    + assert (Q1 : py = t) by lia. assert (Q2 : (x0 <= px < x1)%Z) by lia. destruct (proj2 RR (conj Q1 Q2)) as [R1 R2]. now replace ((Z.to_nat (t * w + x0) <=? Z.to_nat (py * w + px)) && (Z.to_nat (py * w + px) <? Z.to_nat (t * w + x0) + Z.to_nat (x1 - x0))) with true by lia.
    + replace ((Z.to_nat (t * w + x0) <=? Z.to_nat (py * w + px)) && (Z.to_nat (py * w + px) <? Z.to_nat (t * w + x0) + Z.to_nat (x1 - x0))) with false; [reflexivity|]. symmetry. apply not_true_is_false. intros C. assert (py = t /\ x0 <= px < x1)%Z by (apply RR; lia). lia.
  - rewrite E. exists buf'. split; [reflexivity|]. split; [apply canvas_good; auto|]. intros px py I. rewrite P' by exact I. unfold inside in *. split; intros J.
    + now replace ((0 + y0 <=? py) && (py <? 0 + y1) && (x0 <=? px) && (px <? x1))%Z with true by lia.
    + now replace ((0 + y0 <=? py) && (py <? 0 + y1) && (x0 <=? px) && (px <? x1))%Z with false by lia.
Qed.
