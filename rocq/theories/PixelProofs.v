(* Blending rows and compositing. *)
From Verif Require Import Base BaseLemmas PixelModel PixelSpec PixelLib.

Lemma u8_small a : (a < 256)%N -> u8 a = a.
Proof. intros H. unfold u8. now apply N.mod_small. Qed.
Lemma u8_byte a : (u8 a < 256)%N.
Proof. unfold u8. now apply N.mod_lt. Qed.
(* one pixel, before knowing that nothing wraps *)
Definition raw (p : colour) (k : N) (d : colour) : colour :=
  let inv := (255 - nearest (c_a p) k)%N in
  Colour (u8 (nearest (c_r p) k + nearest (c_r d) inv)) (u8 (nearest (c_g p) k + nearest (c_g d) inv)) (u8 (nearest (c_b p) k + nearest (c_b d) inv)) (u8 (nearest (c_a p) k + nearest (c_a d) inv)).
Lemma raw_zero p d : byte_colour d -> raw p 0 d = d.
Proof. intros (A & B & C & D). unfold raw. rewrite !nearest_zero. change (255 - 0)%N with 255%N. rewrite !nearest_full, !N.add_0_l, !u8_small by assumption. now destruct d. Qed.
Lemma raw_byte p k d : byte_colour (raw p k d).
Proof. repeat split; apply u8_byte. Qed.
Lemma nearest_byte a b : (a < 256)%N -> (b < 256)%N -> (nearest a b < 256)%N.
Proof. intros A B. pose proof (nearest_le_l a b B). lia. Qed.
Lemma channel_raw p k d inv : (p < 256)%N -> (k < 256)%N -> (d < 256)%N -> (inv < 256)%N -> channel p k d inv = Some (u8 (nearest p k + nearest d inv)).
Proof.
  intros P K D I. unfold channel. rewrite !mul255_nearest by assumption. unfold add16. pose proof (nearest_byte p k P K). pose proof (nearest_byte d inv D I). now replace (_ <? 65536)%N with true by lia.
Qed.
Lemma inv_ok a k : (a < 256)%N -> (k < 256)%N -> sub16 255 (nearest a k) = Some (255 - nearest a k)%N.
Proof. intros A K. unfold sub16. pose proof (nearest_byte a k A K). now replace (_ <=? _)%N with true by lia. Qed.
Lemma blend_pixel_raw pre d post p k i : i = List.length pre -> byte_colour p -> (k < 256)%N -> byte_colour d ->
  blend_pixel (pre ++ flat (d :: post)) i k (c_r p) (c_g p) (c_b p) (c_a p) = Some (pre ++ flat (raw p k d :: post)).
Proof.
  intros I (PR & PG & PB & PA) K BD. unfold blend_pixel. destruct (N.eqb_spec k 0) as [->|NZ]; [now rewrite raw_zero|]. destruct BD as (DR & DG & DB & DA). rewrite mul255_nearest, inv_ok by assumption. pose proof (nearest_byte (c_a p) k PA K) as NB.
  rewrite !flat_cons. apply modify_pixel; [exact I|apply channel_raw; try assumption; lia..].
Qed.
Definition raws p row ds := zip_with (raw p) row ds.
Lemma blend_row_raw p row : byte_colour p -> forall pre ds post i, i = List.length pre -> bytes row -> Forall byte_colour ds -> List.length ds = List.length row ->
  blend_row (pre ++ flat ds ++ post) i row (c_r p) (c_g p) (c_b p) (c_a p) = Some (pre ++ flat (raws p row ds) ++ post).
Proof.
  intros P. induction row as [|k row IH]; intros pre ds post i I K D L; destruct ds as [|d ds]; try discriminate; [reflexivity|]. inversion K as [|? ? K1 K2]; subst. inversion D as [|? ? D1 D2]; subst. cbn [blend_row raws zip_with].
  assert (S : forall x, pre ++ flat (x :: ds) ++ post = pre ++ flat [x] ++ (flat ds ++ post)) by reflexivity.
  pose proof (blend_pixel_raw pre d [] p k _ eq_refl P K1 D1) as B. 
  assert (B2 : blend_pixel (pre ++ flat (d :: ds) ++ post) (List.length pre) k (c_r p) (c_g p) (c_b p) (c_a p) = Some ((pre ++ flat [raw p k d]) ++ flat ds ++ post)).
  { clear B. unfold blend_pixel. destruct (N.eqb_spec k 0) as [->|NZ]; [rewrite raw_zero by assumption; now rewrite <- app_assoc|]. destruct P as (PR & PG & PB & PA). destruct D1 as (DR & DG & DB & DA). rewrite mul255_nearest, inv_ok by assumption. pose proof (nearest_byte (c_a p) k PA K1) as NB.
    rewrite <- app_assoc. rewrite flat_cons. cbn [app]. apply modify_pixel; [reflexivity|apply channel_raw; try assumption; lia..]. }
  rewrite B2. rewrite (IH (pre ++ flat [raw p k d]) ds post (List.length pre + 4) ltac:(rewrite app_length; reflexivity) K2 D2 ltac:(cbn in L; lia)). now rewrite <- app_assoc.
Qed.
Lemma lor_zero a b : (N.lor a b = 0 <-> a = 0 /\ b = 0)%N.
Proof. split; [apply N.lor_eq_0_iff|intros [-> ->]; reflexivity]. Qed.
Lemma blend_group_raw p c0 c1 c2 c3 : byte_colour p -> (c0 < 256)%N -> (c1 < 256)%N -> (c2 < 256)%N -> (c3 < 256)%N -> forall pre d0 d1 d2 d3 post i, i = List.length pre -> byte_colour d0 -> byte_colour d1 -> byte_colour d2 -> byte_colour d3 ->
  blend_group (pre ++ flat [d0; d1; d2; d3] ++ post) i c0 c1 c2 c3 (c_r p) (c_g p) (c_b p) (c_a p) = Some (pre ++ flat (raws p [c0; c1; c2; c3] [d0; d1; d2; d3]) ++ post).
Proof.
  intros P C0 C1 C2 C3 pre d0 d1 d2 d3 post i I B0 B1 B2 B3. unfold blend_group. destruct (N.eqb_spec (N.lor (N.lor (N.lor c0 c1) c2) c3) 0) as [Z|NZ].
  - apply lor_zero in Z. destruct Z as [Z ->]. apply lor_zero in Z. destruct Z as [Z ->]. apply lor_zero in Z. destruct Z as [-> ->]. cbn [raws zip_with]. now rewrite !raw_zero.
  - destruct P as (PR & PG & PB & PA). cbn [zip_with quad nth]. rewrite !mul255w_nearest by assumption. rewrite !inv_ok by assumption.
    rewrite (sub_slice_at pre (flat [d0; d1; d2; d3]) post i 16 I) by (now rewrite flat_length). cbn [flat flat1 map concat app zip_with quad].
    destruct B0 as (? & ? & ? & ?). destruct B1 as (? & ? & ? & ?). destruct B2 as (? & ? & ? & ?). destruct B3 as (? & ? & ? & ?).
    rewrite !mul255w_nearest by (try assumption; lia).
    assert (M : forall a k b q, (a < 256)%N -> (k < 256)%N -> (b < 256)%N -> (q < 256)%N -> ((nearest a k + nearest b q) mod 65536 = nearest a k + nearest b q)%N).
    { intros a k b q A K B Q. pose proof (nearest_byte a k A K). pose proof (nearest_byte b q B Q). apply N.mod_small. lia. }
    rewrite !M by (try assumption; lia).
    match goal with |- copy_at i ?n (pre ++ ?a0 :: ?a1 :: ?a2 :: ?a3 :: ?a4 :: ?a5 :: ?a6 :: ?a7 :: ?a8 :: ?a9 :: ?aa :: ?ab :: ?ac :: ?ad :: ?ae :: ?af :: post) = _ => exact (copy_at_at pre [a0; a1; a2; a3; a4; a5; a6; a7; a8; a9; aa; ab; ac; ad; ae; af] post n i I eq_refl) end.
Qed.
Lemma raws_app p r1 : forall r2 ds1 ds2, List.length ds1 = List.length r1 -> raws p (r1 ++ r2) (ds1 ++ ds2) = raws p r1 ds1 ++ raws p r2 ds2.
Proof. induction r1 as [|k r1 IH]; intros r2 ds1 ds2 L; destruct ds1 as [|d ds1]; try discriminate; [reflexivity|]. cbn [app raws zip_with]. f_equal. apply IH. cbn in L. lia. Qed.
Lemma blend_row_simd_raw p : byte_colour p -> forall n row pre ds post i, List.length row <= n -> i = List.length pre -> bytes row -> Forall byte_colour ds -> List.length ds = List.length row ->
  blend_row_simd (pre ++ flat ds ++ post) i row (c_r p) (c_g p) (c_b p) (c_a p) = Some (pre ++ flat (raws p row ds) ++ post).
Proof.
  intros P. induction n as [|n IH]; intros row pre ds post i N I K D L; [destruct row; [|cbn in N; lia]; now apply (blend_row_raw p [])|].
  destruct row as [|c0 [|c1 [|c2 [|c3 row]]]]; try (now apply blend_row_raw). destruct ds as [|d0 [|d1 [|d2 [|d3 ds]]]]; cbn [List.length] in L; try lia.
  inversion K as [|? ? K0 K']; subst. inversion K' as [|? ? K1 K'']; subst. inversion K'' as [|? ? K2 K3']; subst. inversion K3' as [|? ? K3 K4]; subst.
  inversion D as [|? ? D0 D']; subst. inversion D' as [|? ? D1 D'']; subst. inversion D'' as [|? ? D2 D3']; subst. inversion D3' as [|? ? D3 D4]; subst.
  cbn [blend_row_simd]. change (d0 :: d1 :: d2 :: d3 :: ds) with ([d0; d1; d2; d3] ++ ds). change (c0 :: c1 :: c2 :: c3 :: row) with ([c0; c1; c2; c3] ++ row). rewrite flat_app, <- app_assoc. rewrite (blend_group_raw p c0 c1 c2 c3 P K0 K1 K2 K3 pre d0 d1 d2 d3 _ _ eq_refl D0 D1 D2 D3).
  rewrite raws_app by reflexivity. rewrite flat_app, <- app_assoc. rewrite (app_assoc pre). rewrite (IH row _ ds post); [now rewrite <- app_assoc|cbn in N; lia|now rewrite app_length, flat_length|exact K4|exact D4|cbn in L; lia].
Qed.
Lemma rows_same p row buf s n : byte_colour p -> bytes row -> bytes buf -> List.length buf = 4 * n -> s + List.length row <= n ->
  blend_row_simd buf (s * 4) row (c_r p) (c_g p) (c_b p) (c_a p) = blend_row buf (s * 4) row (c_r p) (c_g p) (c_b p) (c_a p).
Proof.
  intros P K B L R. destruct (split_pixels buf n s (List.length row) L R) as (pre & ds & post & -> & L1 & L2 & L3). unfold bytes in B. apply Forall_app in B. destruct B as [_ B]. apply Forall_app in B. destruct B as [B _]. apply bytes_flat in B.
  rewrite (blend_row_simd_raw p P (List.length row) row (flat pre) ds (flat post) (s * 4)); [|lia|rewrite flat_length; lia|assumption..]. symmetry. apply blend_row_raw; [exact P|rewrite flat_length; lia|assumption..].
Qed.

(* ---- nothing wraps ---- *)
Lemma over_small s d : (s <= 255)%N -> forall c, (c <= s)%N -> (d < 256)%N -> (c + nearest d (255 - s) < 256)%N.
Proof. intros S c C D. pose proof (nearest_le_r d (255 - s) D). lia. Qed.
Lemma raw_over p k d : premultiplied p -> (k < 256)%N -> byte_colour d -> raw p k d = over (Colour (nearest (c_r p) k) (nearest (c_g p) k) (nearest (c_b p) k) (nearest (c_a p) k)) d.
Proof.
  intros (PR & PG & PB & PA) K (DR & DG & DB & DA). unfold raw, over. cbn [c_r c_g c_b c_a]. pose proof (nearest_byte (c_a p) k PA K) as NA.
  rewrite !u8_small; [reflexivity|apply over_small; try assumption; try lia; try (now apply nearest_mono)..].
Qed.
Lemma over_byte s d : premultiplied s -> byte_colour d -> byte_colour (over s d).
Proof. intros (SR & SG & SB & SA) (DR & DG & DB & DA). repeat split; cbn [over c_r c_g c_b c_a]; apply over_small; try assumption; lia. Qed.
Lemma over_premultiplied s d : premultiplied s -> premultiplied d -> premultiplied (over s d).
Proof.
  intros (SR & SG & SB & SA) (DR & DG & DB & DA). unfold premultiplied. cbn [over c_r c_g c_b c_a]. pose proof (nearest_mono _ _ (255 - c_a s) DR). pose proof (nearest_mono _ _ (255 - c_a s) DG). pose proof (nearest_mono _ _ (255 - c_a s) DB).
  pose proof (over_small (c_a s) (c_a d) ltac:(lia) (c_a s) ltac:(lia) DA). lia.
Qed.
Lemma premultiplied_byte c : premultiplied c -> byte_colour c.
Proof. intros (A & B & C & D). unfold byte_colour. lia. Qed.
Definition premul (c : colour) : colour := Colour (nearest (c_r c) (c_a c)) (nearest (c_g c) (c_a c)) (nearest (c_b c) (c_a c)) (c_a c).
Lemma premul_ok c : byte_colour c -> premultiplied (premul c).
Proof. intros (A & B & C & D). unfold premultiplied. cbn [premul c_r c_g c_b c_a]. repeat split; try assumption; now apply nearest_le_r. Qed.
Lemma thinned_ok c k : byte_colour c -> (k < 256)%N -> premultiplied (thinned c k).
Proof.
  intros (A & B & C & D) K. unfold premultiplied. cbn [thinned c_r c_g c_b c_a]. repeat split; try (apply nearest_mono; now apply nearest_le_r). now apply nearest_byte.
Qed.
Lemma over_clear s d : byte_colour d -> c_a s = 0%N -> premultiplied s -> over s d = d.
Proof.
  intros (DR & DG & DB & DA) Z (SR & SG & SB & SA). unfold over. rewrite Z in *. replace (c_r s) with 0%N by lia. replace (c_g s) with 0%N by lia. replace (c_b s) with 0%N by lia. change (255 - 0)%N with 255%N. rewrite !nearest_full, !N.add_0_l. now destruct d.
Qed.

(* ---- one row in place ---- *)
Lemma byte_at_row cov w (x y : Z) : bytes cov -> (cov_xy w cov x y < 256)%N.
Proof.
  intros B. unfold cov_xy. destruct (Nat.lt_ge_cases (Z.to_nat (y * w + x)) (List.length cov)) as [L|L]; [|now rewrite nth_overflow]. unfold bytes in B. rewrite Forall_forall in B. apply B. now apply nth_In.
Qed.
Lemma pixel_byte buf p : bytes buf -> byte_colour (pixel buf p).
Proof.
  intros B. unfold bytes in B. rewrite Forall_forall in B. assert (N : forall i, (nth i buf 0 < 256)%N) by (intros i; destruct (Nat.lt_ge_cases i (List.length buf)); [apply B; now apply nth_In|now rewrite nth_overflow]). repeat split; apply N.
Qed.
Lemma nth_raws p : forall row ds j, j < List.length row -> List.length ds = List.length row -> nth j (raws p row ds) clear_colour = raw p (nth j row 0%N) (nth j ds clear_colour).
Proof. induction row as [|k row IH]; intros ds j J L; destruct ds as [|d ds]; cbn [List.length] in *; try lia. destruct j as [|j]; [reflexivity|]. cbn [raws zip_with nth]. apply IH; lia. Qed.
Lemma raws_length p : forall row ds, List.length ds = List.length row -> List.length (raws p row ds) = List.length row.
Proof. induction row as [|k row IH]; intros ds L; destruct ds as [|d ds]; cbn [List.length] in *; try lia; [reflexivity|]. cbn [raws zip_with List.length]. f_equal. apply IH. lia. Qed.
Lemma raws_bytes p : forall row ds, Forall byte_colour (raws p row ds).
Proof. induction row as [|k row IH]; intros [|d ds]; cbn [raws zip_with]; constructor; [apply raw_byte|apply IH]. Qed.
Lemma blend_row_view (row_fn : list N -> nat -> list N -> N -> N -> N -> N -> option (list N)) p row buf s n : (row_fn = blend_row \/ row_fn = blend_row_simd) -> premultiplied p -> bytes row -> bytes buf -> List.length buf = 4 * n -> s + List.length row <= n ->
  exists buf', row_fn buf (s * 4) row (c_r p) (c_g p) (c_b p) (c_a p) = Some buf' /\ bytes buf' /\ List.length buf' = 4 * n /\
  forall q, pixel buf' q = if (s <=? q) && (q <? s + List.length row) then over (Colour (nearest (c_r p) (nth (q - s) row 0%N)) (nearest (c_g p) (nth (q - s) row 0%N)) (nearest (c_b p) (nth (q - s) row 0%N)) (nearest (c_a p) (nth (q - s) row 0%N))) (pixel buf q) else pixel buf q.
Proof.
  intros F P K B L R. assert (E0 : row_fn buf (s * 4) row (c_r p) (c_g p) (c_b p) (c_a p) = blend_row buf (s * 4) row (c_r p) (c_g p) (c_b p) (c_a p)).
  { destruct F as [->| ->]; [reflexivity|]. apply (rows_same p row buf s n); try assumption. now apply premultiplied_byte. }
  rewrite E0. clear E0 F. pose proof (pixel_byte buf) as PB. destruct (split_pixels buf n s (List.length row) L R) as (pre & ds & post & -> & L1 & L2 & L3). pose proof B as B0. unfold bytes in B. apply Forall_app in B. destruct B as [B1 B]. apply Forall_app in B. destruct B as [B B2]. apply bytes_flat in B.
  exists (flat pre ++ flat (raws p row ds) ++ flat post). split; [apply blend_row_raw; try assumption; [now apply premultiplied_byte|rewrite flat_length; lia]|]. split; [|split].
  - unfold bytes. apply Forall_app. split; [exact B1|]. apply Forall_app. split; [apply bytes_flat, raws_bytes|exact B2].
  - rewrite !app_length, !flat_length, raws_length by assumption. lia.
  - intros q. rewrite (pixel_replaced pre ds) by (now rewrite raws_length). rewrite L1, L2. destruct ((s <=? q) && (q <? s + List.length row)) eqn:Q; [|reflexivity].
    rewrite nth_raws by (assumption || lia). rewrite pixel_run, nth_run, L1, L2, Q. apply raw_over; [exact P| |].
    + unfold bytes in K. rewrite Forall_forall in K. apply K. apply nth_In. lia.
    + rewrite Forall_forall in B. apply B. apply nth_In. lia.
Qed.

(* ---- compositing a tile ---- *)
Lemma clip_ok t d p : (0 <= t < 2147483648)%Z -> (0 <= d < 2147483648)%Z -> (d - 2147483648 < p < 2147483648)%Z -> clip t d p = Some (Z.max (- p) 0, Z.min t (d - p))%Z.
Proof. intros T D P. unfold clip. now rewrite !i32_ok by lia. Qed.
Record good (w h : Z) (buf : list N) : Prop := { g_bytes : bytes buf; g_len : Z.of_nat (List.length buf) = (4 * (w * h))%Z }.
(* a loop over the rows of a tile, each row blended by [upd] *)
Lemma canvas_good w h buf : canvas w h buf <-> ((0 <= w < 2147483648)%Z /\ (0 <= h < 2147483648)%Z /\ (w * h < 2147483648)%Z /\ good w h buf).
Proof. split; [intros [A B C D E]; repeat split; try lia; assumption|intros (A & B & C & D & E); constructor; assumption]. Qed.
Lemma nth_sub_slice cov i n l j : sub_slice i n cov = Some l -> j < n -> nth j l 0%N = nth (i + j) cov 0%N.
Proof.
  unfold sub_slice. destruct (Nat.leb_spec (i + n) (List.length cov)) as [L|]; [|discriminate]. intros [= <-] J.
  assert (F : forall (l : list N) m k, k < m -> nth k (firstn m l) 0%N = nth k l 0%N).
  { clear. intros l. induction l as [|x l IH]; intros m k K; [now rewrite firstn_nil|]. destruct m; [lia|]. destruct k; [reflexivity|]. cbn [firstn nth]. apply IH. lia. }
  rewrite F by exact J. assert (K : forall (l : list N) m k, nth k (skipn m l) 0%N = nth (m + k) l 0%N).
  { clear. intros l. induction l as [|x l IH]; intros m k; [rewrite skipn_nil; now destruct k, m|]. destruct m; [reflexivity|]. cbn [skipn]. rewrite IH. reflexivity. }
  apply K.
Qed.
Lemma sub_slice_ok cov i n : i + n <= List.length cov -> exists l, sub_slice i n cov = Some l /\ List.length l = n /\ (bytes cov -> bytes l).
Proof.
  intros L. unfold sub_slice. replace (i + n <=? List.length cov) with true by (symmetry; now apply Nat.leb_le). eexists. split; [reflexivity|]. split; [rewrite firstn_length, skipn_length; lia|].
  intros B. unfold bytes in *. rewrite Forall_forall in *. intros x X. apply B. rewrite <- (firstn_skipn i cov). apply in_or_app. right. rewrite <- (firstn_skipn n (skipn i cov)). apply in_or_app. now left.
Qed.
Lemma composite_coverage_ok row_fn dst w h cov cw ch x y c : (row_fn = blend_row \/ row_fn = blend_row_simd) -> canvas w h dst -> tile cw ch cov -> placed w h x y -> byte_colour c ->
  exists dst', composite_coverage row_fn dst w h cov cw ch x y c = Some dst' /\ canvas w h dst' /\ forall px py, inside w h px py -> drawn (BCoverage cw ch cov x y c) px py (at_xy w dst px py) (at_xy w dst' px py).
Proof.
  intros F CV [TW TH TA TB TL] [PX PY] BC. pose proof CV as CV0. apply canvas_good in CV. destruct CV as (DW & DH & DA & G).
  assert (OLD : forall px py, byte_colour (at_xy w dst px py)) by (intros; apply pixel_byte, G).
  assert (NOP : (forall px py, inside w h px py -> inside cw ch (px - x) (py - y) -> c_a c = 0%N) -> exists dst', Some dst = Some dst' /\ canvas w h dst' /\ forall px py, inside w h px py -> drawn (BCoverage cw ch cov x y c) px py (at_xy w dst px py) (at_xy w dst' px py)).
  { intros N. exists dst. split; [reflexivity|]. split; [exact CV0|]. intros px py I. split; [|reflexivity]. intros J. symmetry. apply over_clear; [apply OLD| |now apply thinned_ok, byte_at_row]. cbn [thinned c_a]. now rewrite (N px py I J). }
  unfold composite_coverage. destruct (N.eqb_spec (c_a c) 0) as [Z|NZ]; [now apply NOP|].
  destruct BC as (CR & CG & CB & CA). rewrite !mul255_nearest by assumption. rewrite !as_i32_ok by assumption. rewrite !clip_ok by assumption.
  set (ty0 := Z.max (- y) 0). set (ty1 := Z.min ch (h - y)). set (tx0 := Z.max (- x) 0). set (tx1 := Z.min cw (w - x)).
  destruct ((ty1 <=? ty0) || (tx1 <=? tx0))%Z eqn:EMPTY.
  { apply NOP. intros px py I J. unfold inside in *. exfalso. lia. }
  assert (Y : (ty0 < ty1)%Z) by lia. assert (X : (tx0 < tx1)%Z) by lia. clear EMPTY NOP.
  pose proof (premul_ok c (conj CR (conj CG (conj CB CA)))) as PM.
  set (upd := fun px py old => over (thinned c (cov_xy cw cov (px - x) (py - y))) old).
  match goal with |- exists _, each_row ?g _ _ = _ /\ _ => set (f := g) end.
  destruct (rows_loop (at_xy w) (good w h) w h y (x + tx0) (x + tx1) ty0 ty1 f upd) with (n := Z.to_nat (ty1 - ty0)) (lo := ty0) (s := dst) as (dst' & E & G' & P'); [|reflexivity|lia|exact G|].
  - intros t s T [GB GL]. subst f. cbv beta.
    assert (T0 : (0 <= t < ch)%Z) by lia. assert (T1 : (0 <= y + t < h)%Z) by lia.
    pose proof (row_fits cw ch t tx0 tx1 ltac:(lia) ltac:(lia) ltac:(lia)) as I1. pose proof (row_fits w h (y + t) (x + tx0) (x + tx1) ltac:(lia) ltac:(lia) ltac:(lia)) as I2.
    rewrite (i32_ok (t * cw)) by lia. rewrite (i32_ok (t * cw + tx0)) by lia. rewrite as_usize_ok by lia.
    destruct (sub_slice_ok cov (Z.to_nat (t * cw + tx0)) (Z.to_nat (tx1 - tx0)) ltac:(lia)) as (row & ER & LR & BR). rewrite ER. specialize (BR TB).
    rewrite (i32_ok (y + t)) by lia. rewrite (i32_ok ((y + t) * w)) by lia. rewrite (i32_ok ((y + t) * w + x)) by lia. rewrite (i32_ok ((y + t) * w + x + tx0)) by lia. rewrite as_usize_ok by lia.
    destruct (blend_row_view row_fn (premul c) row s (Z.to_nat ((y + t) * w + x + tx0)) (Z.to_nat (w * h)) F PM BR GB ltac:(lia) ltac:(lia)) as (s' & ES & BS & LS & PS). cbn [premul c_r c_g c_b c_a] in ES, PS.
    exists s'. split; [exact ES|]. split; [constructor; [exact BS|lia]|]. intros px py I. pose proof (index_bound w h px py I) as IB. unfold at_xy. rewrite PS, LR.
    pose proof (run_of_row w (y + t) px py (x + tx0) (x + tx1) (proj1 I) ltac:(lia) ltac:(lia) ltac:(lia)) as RR.
    destruct (((py =? y + t) && (x + tx0 <=? px) && (px <? x + tx1))%Z) eqn:Q.
    + assert (Q1 : py = (y + t)%Z) by lia. assert (Q2 : (x + tx0 <= px < x + tx1)%Z) by lia. destruct (proj2 RR (conj Q1 Q2)) as [R1 R2].
      replace ((Z.to_nat ((y + t) * w + x + tx0) <=? Z.to_nat (py * w + px)) && (Z.to_nat (py * w + px) <? Z.to_nat ((y + t) * w + x + tx0) + Z.to_nat (tx1 - tx0))) with true by lia.
      unfold upd. unfold thinned. rewrite (nth_sub_slice cov _ _ row _ ER) by lia. unfold cov_xy.
      replace (Z.to_nat (t * cw + tx0) + (Z.to_nat (py * w + px) - Z.to_nat ((y + t) * w + x + tx0))) with (Z.to_nat ((py - y) * cw + (px - x))); [reflexivity|].
      subst py. replace (y + t - y)%Z with t by lia. lia.
    + replace ((Z.to_nat ((y + t) * w + x + tx0) <=? Z.to_nat (py * w + px)) && (Z.to_nat (py * w + px) <? Z.to_nat ((y + t) * w + x + tx0) + Z.to_nat (tx1 - tx0))) with false; [reflexivity|]. symmetry. apply not_true_is_false. intros C. assert (py = y + t /\ x + tx0 <= px < x + tx1)%Z by (apply RR; lia). lia.
  - exists dst'. split; [exact E|]. split; [apply canvas_good; auto|]. intros px py I. cbn [drawn]. rewrite P' by exact I. unfold inside in *. split; intros J.
    + replace ((y + ty0 <=? py) && (py <? y + ty1) && (x + tx0 <=? px) && (px <? x + tx1))%Z with true by lia. reflexivity.
    + replace ((y + ty0 <=? py) && (py <? y + ty1) && (x + tx0 <=? px) && (px <? x + tx1))%Z with false by lia. reflexivity.
Qed.
