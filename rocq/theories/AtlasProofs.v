From Verif Require Import Base BaseLemmas PixelModel PixelSpec PixelLib PixelProofs PixelRgba PixelCrop AtlasModel AtlasSpec.

Lemma u32_some z v : u32 z = Some v -> v = z /\ (0 <= z < 4294967296)%Z.
Proof. unfold u32. destruct ((0 <=? z) && (z <? 4294967296))%Z eqn:E; [|discriminate]. intros [= <-]. lia. Qed.
Lemma u32_ok z : (0 <= z < 4294967296)%Z -> u32 z = Some z.
Proof. intros H. unfold u32. now replace ((0 <=? z) && (z <? 4294967296))%Z with true by lia. Qed.
(* the shelves: finished ones above next_y, the current one left of next_x *)
Record shelf (W H : Z) (a : atlas) (rs : list region) : Prop := {
  sh_w : at_w a = W; sh_h : at_h a = H; sh_allocs : at_allocs a = rs;
  sh_nx : (0 <= at_next_x a)%Z; sh_ny : (0 <= at_next_y a)%Z; sh_row : (0 <= at_row a)%Z; sh_bottom : (at_next_y a + at_row a <= H)%Z;
  sh_each : forall r, In r rs -> (0 <= g_x r /\ 0 <= g_w r /\ 0 <= g_y r /\ 0 <= g_h r /\ g_y r + g_h r <= at_next_y a + at_row a)%Z /\ ((g_y r + g_h r <= at_next_y a)%Z \/ (g_y r = at_next_y a /\ g_x r + g_w r <= at_next_x a)%Z);
  sh_apart : ForallOrdPairs apart rs;
  sh_ids : forall i r, nth_error rs i = Some r -> g_id r = (Z.of_nat i mod 4294967296)%Z }.
Lemma pairs_app {A} (R : A -> A -> Prop) l x : ForallOrdPairs R l -> (forall y, In y l -> R y x) -> ForallOrdPairs R (l ++ [x]).
Proof.
  induction 1 as [|y l F P IH]; intros H; cbn [app]; [repeat constructor|]. constructor; [|apply IH; intros z Z; apply H; now right].
  apply Forall_app. split; [exact F|]. constructor; [|constructor]. apply H. now left.
Qed.
Lemma allocate_ok W H a rs w h a' out : shelf W H a rs -> (0 <= H)%Z -> (0 <= w)%Z -> (0 <= h)%Z -> allocate a w h = Some (a', out) ->
  shelf W H a' (rs ++ match out with Some r => [r] | None => [] end) /\ at_data a' = at_data a /\
  match out with Some r => g_w r = w /\ g_h r = h /\ (g_y r + h <= H)%Z /\ (g_x r = 0 \/ g_x r + w <= W)%Z | None => True end.
Proof.
  intros [SW SH SA SX SY SR SB SE SP SI] HH W0 H0. unfold allocate. destruct (u32 (at_next_x a + w)) as [edge|] eqn:E1; [|discriminate]. apply u32_some in E1. destruct E1 as [-> R1].
  assert (STEP : forall b, shelf W H b rs -> at_data b = at_data a -> (at_next_x b = 0 \/ at_next_x b + w <= W)%Z ->
    (do bottom <- u32 (at_next_y b + h); if (at_h b <? bottom)%Z then Some (b, None) else let r := Region (Z.of_nat (List.length (at_allocs b)) mod 4294967296) (at_next_x b) (at_next_y b) w h in
      do nx <- u32 (at_next_x b + w); Some (Atlas (at_w b) (at_h b) (at_data b) (at_allocs b ++ [r]) nx (at_next_y b) (Z.max (at_row b) h), Some r)) = Some (a', out) ->
    shelf W H a' (rs ++ match out with Some r => [r] | None => [] end) /\ at_data a' = at_data a /\
    match out with Some r => g_w r = w /\ g_h r = h /\ (g_y r + h <= H)%Z /\ (g_x r = 0 \/ g_x r + w <= W)%Z | None => True end).
  { clear SW SH SA SX SY SR SB SE SP SI R1. intros b [SW SH SA SX SY SR SB SE SP SI] DD FIT. destruct (u32 (at_next_y b + h)) as [bottom|] eqn:E2; [|discriminate]. apply u32_some in E2. destruct E2 as [-> R2]. rewrite SH. destruct (Z.ltb_spec H (at_next_y b + h)) as [L|L].
    - intros [= <- <-]. rewrite app_nil_r. split; [|split; [exact DD|exact I]]. constructor; assumption.
    - cbv zeta. destruct (u32 (at_next_x b + w)) as [nx|] eqn:E3; [|discriminate]. apply u32_some in E3. destruct E3 as [-> R3]. intros [= <- <-]. split; [|split; [exact DD|cbn [g_w g_h g_y g_x]; auto]].
      constructor; cbn [at_w at_h at_allocs at_next_x at_next_y at_row]; try assumption; try lia.
      + now rewrite SA.
      + intros r IN. apply in_app_or in IN. destruct IN as [IN|[<-|[]]]; [|cbn [g_x g_y g_w g_h]; lia]. destruct (SE r IN) as [B D]. lia.
      + apply pairs_app; [exact SP|]. intros r IN. destruct (SE r IN) as [B D]. intros x y [X Y] [X' Y']. cbn [g_x g_y g_w g_h] in X', Y'. lia.
      + intros i r. destruct (Nat.lt_ge_cases i (List.length rs)) as [LT|GE]; [rewrite nth_error_app1 by exact LT; apply SI|]. rewrite nth_error_app2 by exact GE. destruct (i - List.length rs) as [|k] eqn:K; cbn [nth_error]; [|destruct k; discriminate]. intros [= <-]. cbn [g_id]. rewrite SA. do 2 f_equal. lia. }
  rewrite SW. destruct (Z.ltb_spec W (at_next_x a + w)) as [L|L].
  - destruct (u32 (at_next_y a + at_row a)) as [ny|] eqn:E4; [|discriminate]. apply u32_some in E4. destruct E4 as [-> R4]. apply STEP; [|reflexivity|left; reflexivity].
    constructor; cbn [at_w at_h at_allocs at_next_x at_next_y at_row]; try assumption; try lia.
  - apply STEP; [constructor; assumption|reflexivity|right; lia].
Qed.
Lemma allocate_total W H a rs w h : shelf W H a rs -> (0 <= W < 4294967296)%Z -> (0 <= H < 4294967296)%Z -> (at_next_x a <= W)%Z -> (0 <= w <= W)%Z -> (W + w < 4294967296)%Z -> (0 <= h < 4294967296 - H)%Z -> exists a' out, allocate a w h = Some (a', out) /\ (at_next_x a' <= W)%Z.
Proof.
  intros [SW SH SA SX SY SR SB SE SP SI] WW HH NX Ww WS Hh. unfold allocate. rewrite u32_ok by lia. rewrite SW. destruct (Z.ltb_spec W (at_next_x a + w)) as [L|L].
  - rewrite u32_ok by lia. cbn [at_w at_h at_next_x at_next_y at_allocs at_row at_data]. rewrite u32_ok by lia. rewrite SH. destruct (H <? at_next_y a + at_row a + h)%Z; [do 2 eexists; split; [reflexivity|cbn; lia]|]. rewrite u32_ok by lia. do 2 eexists. split; [reflexivity|cbn; lia].
  - rewrite u32_ok by lia. rewrite SH. destruct (H <? at_next_y a + h)%Z; [do 2 eexists; split; [reflexivity|exact NX]|]. rewrite u32_ok by lia. do 2 eexists. split; [reflexivity|cbn; lia].
Qed.

(* ---- writing ---- *)
Lemma write_region_ok W H a r new : canvas W H (at_data a) -> at_w a = W -> (4 * (W * H) < 4294967296)%Z -> (4 * W < 4294967296)%Z -> (H < 1073741824)%Z -> within W H r -> bytes new ->
  exists data, write_region a r new = Some (Atlas (at_w a) (at_h a) data (at_allocs a) (at_next_x a) (at_next_y a) (at_row a)) /\ canvas W H data /\
  forall x y, inside W H x y -> (in_region r x y -> supplied r new y -> at_xy W data x y = at_xy (g_w r) new (x - g_x r) (y - g_y r)) /\ ((~ in_region r x y \/ ~ supplied r new y) -> at_xy W data x y = at_xy W (at_data a) x y).
Proof.
  intros CV AW A4 W4 H4 (X0 & W0 & XW & Y0 & H0 & YH) BN. pose proof CV as CV0. apply canvas_good in CV. destruct CV as (DW & DH & DA & G). unfold write_region. rewrite AW. rewrite u32_ok by lia.
  set (upd := fun px py (old : colour) => if (4 * ((py - g_y r + 1) * g_w r) <=? Z.of_nat (List.length new))%Z then at_xy (g_w r) new (px - g_x r) (py - g_y r) else old).
  destruct (rows_loop (at_xy W) (good W H) W H (g_y r) (g_x r) (g_x r + g_w r) 0 (g_h r) (write_row a r (W * 4) new) upd) with (n := Z.to_nat (g_h r - 0)) (lo := 0%Z) (s := at_data a) as (data & E & GD & P); [|reflexivity|lia|exact G|].
  - intros t s T [GB GL]. unfold write_row. pose proof (row_fits W H (g_y r + t) (g_x r) (g_x r + g_w r) ltac:(lia) ltac:(lia) ltac:(lia)) as I1. pose proof (row_fits (g_w r) (g_h r) t 0 (g_w r) ltac:(lia) ltac:(lia) ltac:(lia)) as I2.
    assert (AR : (g_w r * g_h r <= W * H)%Z) by (apply Z.mul_le_mono_nonneg; lia).
    rewrite (u32_ok (t * g_w r)) by lia. rewrite (u32_ok (t * g_w r * 4)) by lia. rewrite (u32_ok (g_y r + t)) by lia. rewrite (u32_ok ((g_y r + t) * (W * 4))) by lia. rewrite (u32_ok (g_x r * 4)) by lia. rewrite (u32_ok ((g_y r + t) * (W * 4) + g_x r * 4)) by lia. rewrite (u32_ok (g_w r * 4)) by lia. cbv zeta.
    replace (Z.to_nat ((g_y r + t) * (W * 4) + g_x r * 4)) with (Z.to_nat ((g_y r + t) * W + g_x r) * 4) by lia. replace (Z.to_nat (t * g_w r * 4)) with (Z.to_nat (t * g_w r) * 4) by lia. replace (Z.to_nat (g_w r * 4)) with (Z.to_nat (g_w r) * 4) by lia.
    replace (Z.to_nat ((g_y r + t) * W + g_x r) * 4 + Z.to_nat (g_w r) * 4 <=? List.length s) with true by (symmetry; apply Nat.leb_le; lia). rewrite andb_true_r.
    assert (SAME : forall px py, inside W H px py -> (py = g_y r + t)%Z -> (4 * ((py - g_y r + 1) * g_w r) <=? Z.of_nat (List.length new))%Z = (Z.to_nat (t * g_w r) * 4 + Z.to_nat (g_w r) * 4 <=? List.length new)).
    { intros px py _ ->. replace (g_y r + t - g_y r + 1)%Z with (t + 1)%Z by lia. replace ((t + 1) * g_w r)%Z with (t * g_w r + g_w r)%Z by lia. apply Bool.eq_iff_eq_true. rewrite Nat.leb_le, Z.leb_le. lia. }
    destruct (Z.to_nat (t * g_w r) * 4 + Z.to_nat (g_w r) * 4 <=? List.length new) eqn:SUP.
    + apply Nat.leb_le in SUP.
      assert (SS : exists ds, sub_slice (Z.to_nat (t * g_w r) * 4) (Z.to_nat (g_w r) * 4) new = Some (flat ds) /\ List.length ds = Z.to_nat (g_w r) /\ Forall byte_colour ds /\ forall j, j < Z.to_nat (g_w r) -> nth j ds clear_colour = pixel new (Z.to_nat (t * g_w r) + j)).
      { set (m := Z.to_nat (t * g_w r) + Z.to_nat (g_w r)) in *. assert (LN : List.length (firstn (4 * m) new) = 4 * m) by (apply firstn_length_le; lia).
        destruct (sub_slice_pixels (firstn (4 * m) new) m (Z.to_nat (t * g_w r)) (Z.to_nat (g_w r))) as (ds & ES & LD & BD & ND); [|exact LN|lia|].
        { unfold bytes in *. rewrite Forall_forall in *. intros v V. apply BN. rewrite <- (firstn_skipn (4 * m) new). apply in_or_app. now left. }
        exists ds. split; [|split; [exact LD|split; [exact BD|]]].
        - rewrite <- ES. unfold sub_slice. rewrite LN. replace (_ <=? List.length new) with true by (symmetry; apply Nat.leb_le; lia). replace (_ <=? 4 * m) with true by (symmetry; apply Nat.leb_le; lia). f_equal. rewrite skipn_firstn_comm, firstn_firstn. f_equal. lia.
        - intros j J. rewrite ND by exact J. unfold pixel. assert (NF : forall i, i < 4 * m -> nth i (firstn (4 * m) new) 0%N = nth i new 0%N) by (intros i LI; rewrite <- (firstn_skipn (4 * m) new) at 2; now rewrite app_nth1 by lia). now rewrite !NF by lia. }
      destruct SS as (ds & ES & LD & BD & ND). rewrite ES.
      destruct (copy_view s (Z.to_nat (W * H)) (Z.to_nat ((g_y r + t) * W + g_x r)) ds GB ltac:(lia) ltac:(lia) BD) as (s' & EC & BS & LS & PS). exists s'. split; [exact EC|]. split; [constructor; [exact BS|lia]|].
      intros px py I. pose proof (index_bound W H px py I) as IB. unfold upd. destruct ((py =? g_y r + t) && (g_x r <=? px) && (px <? g_x r + g_w r))%Z eqn:Q.
      * rewrite (SAME px py I) by lia. unfold at_xy. rewrite PS, LD. pose proof (run_of_row W (g_y r + t) px py (g_x r) (g_x r + g_w r) (proj1 I) ltac:(lia) ltac:(lia) ltac:(lia)) as RR. assert (Q1 : py = (g_y r + t)%Z) by lia. destruct (proj2 RR ltac:(lia)) as [R1 R2].
        replace ((Z.to_nat ((g_y r + t) * W + g_x r) <=? Z.to_nat (py * W + px)) && (Z.to_nat (py * W + px) <? Z.to_nat ((g_y r + t) * W + g_x r) + Z.to_nat (g_w r))) with true by lia. rewrite ND by lia. f_equal. subst py. replace (g_y r + t - g_y r)%Z with t by lia. lia.
      * unfold at_xy. rewrite PS, LD. replace ((Z.to_nat ((g_y r + t) * W + g_x r) <=? Z.to_nat (py * W + px)) && (Z.to_nat (py * W + px) <? Z.to_nat ((g_y r + t) * W + g_x r) + Z.to_nat (g_w r))) with false; [reflexivity|]. symmetry. apply not_true_is_false. intros C.
        assert (GW : (0 < g_w r)%Z) by lia. pose proof (run_of_row W (g_y r + t) px py (g_x r) (g_x r + g_w r) (proj1 I) ltac:(lia) ltac:(lia) ltac:(lia)) as RR. assert (py = g_y r + t /\ g_x r <= px < g_x r + g_w r)%Z by (apply RR; lia). lia.
    + exists s. split; [reflexivity|]. split; [constructor; assumption|]. intros px py I. destruct ((py =? g_y r + t) && (g_x r <=? px) && (px <? g_x r + g_w r))%Z eqn:Q; [|reflexivity]. unfold upd. now rewrite (SAME px py I) by lia.
  - rewrite E. exists data. split; [reflexivity|]. split; [apply canvas_good; auto|]. intros x y I. rewrite P by exact I. unfold in_region, supplied, upd. split.
    + intros [X Y] S. replace ((g_y r + 0 <=? y) && (y <? g_y r + g_h r) && (g_x r <=? x) && (x <? g_x r + g_w r))%Z with true by lia. now replace (_ <=? Z.of_nat (List.length new))%Z with true by lia.
    + intros N. destruct ((g_y r + 0 <=? y) && (y <? g_y r + g_h r) && (g_x r <=? x) && (x <? g_x r + g_w r))%Z eqn:Q; [|reflexivity]. destruct (Z.leb_spec (4 * ((y - g_y r + 1) * g_w r)) (Z.of_nat (List.length new))); [exfalso; lia|reflexivity].
Qed.

(* ---- runs ---- *)
Lemma run_shelf W H ops : (0 <= H)%Z -> Forall size_ok ops -> forall a rs a' outs, shelf W H a rs -> atlas_run a ops = Some (a', outs) -> shelf W H a' (live rs ops outs).
Proof.
  intros HH. induction ops as [|o ops IH]; intros S a rs a' outs SH; cbn [atlas_run]; [intros [= <- <-]; exact SH|]. inversion S as [|? ? S1 S2]; subst. destruct (atlas_step a o) as [[a1 x]|] eqn:E; [|discriminate]. destruct (atlas_run a1 ops) as [[a2 xs]|] eqn:E2; [|discriminate]. intros [= <- <-].
  destruct o as [w h|r new|]; cbn [atlas_step] in E.
  - destruct S1 as [W0 H0]. destruct (allocate_ok W H a rs w h a1 x SH HH W0 H0 E) as (SH1 & _). cbn [live]. destruct x as [r|]; [now apply (IH S2 _ _ _ _ SH1)|]. rewrite app_nil_r in SH1. now apply (IH S2 _ _ _ _ SH1).
  - unfold write_region in E. destruct (u32 (at_w a * 4)) as [st|]; [|discriminate]. destruct (each_row _ _ _) as [d|]; [|discriminate]. injection E as <- <-. cbn [live]. eapply (IH S2); [|exact E2]. destruct SH as [SW SHH SA SX SY SR SB SE SP SI]. constructor; assumption.
  - injection E as <- <-. cbn [live]. eapply (IH S2); [|exact E2]. destruct SH as [SW SHH SA SX SY SR SB SE SP SI]. constructor; cbn [clear_atlas at_w at_h at_allocs at_next_x at_next_y at_row]; try assumption; try reflexivity; try lia; [intros r []|constructor|intros [|i] r; discriminate].
Qed.
Lemma run_width W H ops : (0 <= H)%Z -> Forall size_ok ops -> Forall (fits_width W) ops -> forall a rs a' outs, shelf W H a rs -> Forall (fun r => g_x r + g_w r <= W)%Z rs -> atlas_run a ops = Some (a', outs) -> Forall (fun r => g_x r + g_w r <= W)%Z (live rs ops outs).
Proof.
  intros HH. induction ops as [|o ops IH]; intros S F a rs a' outs SH FR; cbn [atlas_run]; [intros [= <- <-]; exact FR|]. inversion S as [|? ? S1 S2]; subst. inversion F as [|? ? F1 F2]; subst. destruct (atlas_step a o) as [[a1 x]|] eqn:E; [|discriminate]. destruct (atlas_run a1 ops) as [[a2 xs]|] eqn:E2; [|discriminate]. intros [= <- <-].
  pose proof (run_shelf W H [o] HH (Forall_cons _ S1 (Forall_nil _)) a rs a1 [x] SH) as ST. cbn [atlas_run] in ST. rewrite E in ST. specialize (ST eq_refl).
  destruct o as [w h|r new|]; cbn [atlas_step] in E; cbn [live] in ST |- *.
  - destruct S1 as [W0 H0]. destruct (allocate_ok W H a rs w h a1 x SH HH W0 H0 E) as (_ & _ & RG). destruct x as [r|]; [|now apply (IH S2 F2 _ _ _ _ ST FR E2)]. eapply (IH S2 F2); [exact ST| |exact E2]. apply Forall_app. split; [exact FR|]. constructor; [|constructor]. cbn in F1. lia.
  - now apply (IH S2 F2 _ _ _ _ ST FR E2).
  - eapply (IH S2 F2); [exact ST|constructor|exact E2].
Qed.
Record ready (W H : Z) (a : atlas) : Prop := { rd_canvas : canvas W H (at_data a); rd_nx : (at_next_x a <= W)%Z }.
Definition plain (o : atlas_op) : Prop := match o with AWrite _ new => bytes new | _ => True end.
Lemma run_total W H ops : (4 * (W * H) < 4294967296)%Z -> (2 * W < 4294967296)%Z -> (4 * W < 4294967296)%Z -> (H < 1073741824)%Z -> Forall (modest W H) ops -> Forall plain ops -> forall a rs, shelf W H a rs -> ready W H a -> exists a' outs, atlas_run a ops = Some (a', outs) /\ ready W H a'.
Proof.
  intros A4 W2 W4 H4. induction ops as [|o ops IH]; intros M P a rs SH RD; cbn [atlas_run]; [do 2 eexists; split; [reflexivity|exact RD]|]. inversion M as [|? ? M1 M2]; subst. inversion P as [|? ? P1 P2]; subst. pose proof RD as [CV NX]. pose proof CV as [CW CH _ _ _].
  assert (STEP : exists a1 x rs1, atlas_step a o = Some (a1, x) /\ shelf W H a1 rs1 /\ ready W H a1).
  { destruct o as [w h|r new|]; cbn [atlas_step].
    - destruct M1 as [Mw Mh]. destruct (allocate_total W H a rs w h SH ltac:(lia) ltac:(lia) NX Mw ltac:(lia) Mh) as (a1 & x & E & NX1). destruct (allocate_ok W H a rs w h a1 x SH ltac:(lia) ltac:(lia) ltac:(lia) E) as (SH1 & D & _). exists a1, x. eexists. split; [exact E|]. split; [exact SH1|]. constructor; [now rewrite D|exact NX1].
    - destruct (write_region_ok W H a r new CV (sh_w _ _ _ _ SH) A4 W4 H4 M1 P1) as (d & E & CD & _). rewrite E. exists (Atlas (at_w a) (at_h a) d (at_allocs a) (at_next_x a) (at_next_y a) (at_row a)), None, rs. split; [reflexivity|]. split; [|constructor; assumption]. destruct SH as [SW SHH SA SX SY SR SB SE SP SI]. constructor; assumption.
    - exists (clear_atlas a), None, []. split; [reflexivity|]. split.
      + destruct SH as [SW SHH SA SX SY SR SB SE SP SI]. constructor; cbn [clear_atlas at_w at_h at_allocs at_next_x at_next_y at_row]; try assumption; try reflexivity; try lia; [intros r []|constructor|intros [|i] r; discriminate].
      + constructor; cbn [clear_atlas at_data at_next_x]; [|lia]. destruct CV as [? ? ? B L]. constructor; try assumption; [|now rewrite map_length]. apply Forall_forall. intros v V. apply in_map_iff in V. destruct V as (_ & <- & _). reflexivity. }
  destruct STEP as (a1 & x & rs1 & E & SH1 & RD1). rewrite E. destruct (IH M2 P2 a1 rs1 SH1 RD1) as (a2 & xs & E2 & RD2). rewrite E2. do 2 eexists. split; [reflexivity|exact RD2].
Qed.
Lemma new_shelf W H a : (0 <= W)%Z -> (0 <= H)%Z -> new_atlas W H = Some a -> shelf W H a [] /\ (4 * (W * H) < 4294967296)%Z /\ at_data a = blank W H /\ at_next_x a = 0%Z.
Proof.
  intros WW HH. unfold new_atlas. destruct (u32 (W * H)) as [v|] eqn:E; [|discriminate]. apply u32_some in E. destruct E as [-> R]. destruct (u32 (W * H * 4)) as [v|] eqn:E; [|discriminate]. apply u32_some in E. destruct E as [-> R2]. intros [= <-]. split.
  - constructor; cbn [at_w at_h at_allocs at_next_x at_next_y at_row]; try reflexivity; try lia; [intros r []|constructor|intros [|i] r; discriminate].
  - split; [lia|]. split; [cbn [at_data]; unfold blank; now rewrite (Z.mul_comm (W * H) 4)|reflexivity].
Qed.
Lemma modest_size : forall W H o, modest W H o -> size_ok o.
Proof. intros W H [w h|r new|]; cbn [modest size_ok]; [intros (A & B); lia|auto|auto]. Qed.
Lemma modest_fits : forall W H o, modest W H o -> fits_width W o.
Proof. intros W H [w h|r new|]; cbn [modest fits_width]; [intros (A & B); lia|auto|auto]. Qed.
