(* C46: the texture atlas, over every history of requests, writes and clears. *)
From Verif Require Import Base BaseLemmas PixelModel PixelSpec PixelLib PixelProofs PixelRgba PixelCrop AtlasModel AtlasSpec AtlasProofs.

Theorem atlas_disjoint : forall W H a ops a' outs, (0 <= W)%Z -> (0 <= H)%Z -> new_atlas W H = Some a -> Forall size_ok ops -> atlas_run a ops = Some (a', outs) -> ForallOrdPairs apart (live [] ops outs).
Proof. intros W H a ops a' outs WW HH N S E. destruct (new_shelf W H a WW HH N) as (SH & _). apply (run_shelf W H ops HH S a [] a' outs SH E). Qed.
Print Assumptions atlas_disjoint.
Theorem atlas_in_bounds : forall W H a ops a' outs, (0 <= W)%Z -> (0 <= H)%Z -> new_atlas W H = Some a -> Forall size_ok ops -> Forall (fits_width W) ops -> atlas_run a ops = Some (a', outs) -> Forall (within W H) (live [] ops outs).
Proof.
  intros W H a ops a' outs WW HH N S F E. destruct (new_shelf W H a WW HH N) as (SH & _). pose proof (run_shelf W H ops HH S a [] a' outs SH E) as SH'. pose proof (run_width W H ops HH S F a [] a' outs SH (Forall_nil _) E) as FW.
  rewrite Forall_forall in *. intros r IN. specialize (FW r IN). destruct (sh_each _ _ _ _ SH' r IN) as [B _]. pose proof (sh_bottom _ _ _ _ SH'). unfold within. lia.
Qed.
Print Assumptions atlas_in_bounds.
Theorem atlas_ids : forall W H a ops a' outs i r, (0 <= W)%Z -> (0 <= H)%Z -> new_atlas W H = Some a -> Forall size_ok ops -> atlas_run a ops = Some (a', outs) -> (Z.of_nat i < 4294967296)%Z -> nth_error (live [] ops outs) i = Some r -> g_id r = Z.of_nat i.
Proof. intros W H a ops a' outs i r WW HH N S E I R. destruct (new_shelf W H a WW HH N) as (SH & _). rewrite (sh_ids _ _ _ _ (run_shelf W H ops HH S a [] a' outs SH E) i r R). apply Z.mod_small. lia. Qed.
Print Assumptions atlas_ids.
(* an allocation has the size asked for *)
Theorem allocation_sized : forall W H a ops a' outs w h a'' r, (0 <= W)%Z -> (0 <= H)%Z -> new_atlas W H = Some a -> Forall size_ok ops -> (0 <= w)%Z -> (0 <= h)%Z -> atlas_run a ops = Some (a', outs) -> atlas_step a' (AAlloc w h) = Some (a'', Some r) -> g_w r = w /\ g_h r = h.
Proof. intros W H a ops a' outs w h a'' r WW HH N S W0 H0 E A. destruct (new_shelf W H a WW HH N) as (SH & _). destruct (allocate_ok W H a' _ w h a'' (Some r) (run_shelf W H ops HH S a [] a' outs SH E) HH W0 H0 A) as (_ & _ & G1 & G2 & _). now split. Qed.
Print Assumptions allocation_sized.
(* an empty atlas refuses nothing that fits it *)
Theorem first_allocation : forall W H a w h, (0 <= W)%Z -> (0 <= H)%Z -> new_atlas W H = Some a -> (W < 4294967296)%Z -> (H < 4294967296)%Z -> (0 <= w <= W)%Z -> (0 <= h <= H)%Z -> exists a', atlas_step a (AAlloc w h) = Some (a', Some (Region 0 0 0 w h)).
Proof.
  intros W H a w h WW HH N WL HL Ww Hh. unfold new_atlas in N. destruct (u32 (W * H)) as [v|]; [|discriminate]. destruct (u32 (v * 4)); [|discriminate]. injection N as <-. cbn [atlas_step]. unfold allocate. cbn [at_w at_h at_next_x at_next_y at_allocs at_row at_data].
  rewrite u32_ok by lia. replace (W <? 0 + w)%Z with false by lia. cbn [at_w at_h at_next_x at_next_y at_allocs at_row at_data]. rewrite u32_ok by lia. replace (H <? 0 + h)%Z with false by lia. rewrite u32_ok by lia. eexists. reflexivity.
Qed.
Print Assumptions first_allocation.
Theorem atlas_never_panics : forall W H ops, (0 <= W < 1073741824)%Z -> (0 <= H < 1073741824)%Z -> (4 * (W * H) < 4294967296)%Z -> Forall (modest W H) ops -> Forall plain ops -> exists a a' outs, new_atlas W H = Some a /\ atlas_run a ops = Some (a', outs).
Proof.
  intros W H ops WW HH A M P. assert (exists a, new_atlas W H = Some a) as (a & N) by (unfold new_atlas; rewrite !u32_ok by nia; eexists; reflexivity). destruct (new_shelf W H a ltac:(lia) ltac:(lia) N) as (SH & _ & D & NX).
  destruct (run_total W H ops A ltac:(lia) ltac:(lia) ltac:(lia) M P a [] SH) as (a' & outs & E & _); [constructor; [rewrite D; apply blank_ok; lia|lia]|]. exists a, a', outs. now split.
Qed.
Print Assumptions atlas_never_panics.
(* Writing: the rows supplied in full, at the region, and nothing else. *)
Theorem write_exact : forall W H a ops a' outs r new, (0 <= W < 1073741824)%Z -> (0 <= H < 1073741824)%Z -> new_atlas W H = Some a -> Forall (modest W H) ops -> Forall plain ops -> atlas_run a ops = Some (a', outs) -> within W H r -> bytes new ->
  exists a'', atlas_step a' (AWrite r new) = Some (a'', None) /\
  forall x y, inside W H x y -> (in_region r x y -> supplied r new y -> at_xy W (at_data a'') x y = at_xy (g_w r) new (x - g_x r) (y - g_y r)) /\ ((~ in_region r x y \/ ~ supplied r new y) -> at_xy W (at_data a'') x y = at_xy W (at_data a') x y).
Proof.
  intros W H a ops a' outs r new WW HH N M P E IN B. destruct (new_shelf W H a ltac:(lia) ltac:(lia) N) as (SH & A4 & D & NX).
  destruct (run_total W H ops A4 ltac:(lia) ltac:(lia) ltac:(lia) M P a [] SH) as (a2 & outs2 & E2 & [CV _]); [constructor; [rewrite D; apply blank_ok; lia|lia]|]. rewrite E in E2. injection E2 as <- <-.
  assert (S : Forall size_ok ops) by (eapply Forall_impl; [|exact M]; exact (modest_size W H)).
  pose proof (run_shelf W H ops ltac:(lia) S a [] a' outs SH E) as SH'. destruct (write_region_ok W H a' r new CV (sh_w _ _ _ _ SH') A4 ltac:(lia) ltac:(lia) IN B) as (d & EW & _ & PX). cbn [atlas_step]. rewrite EW. eexists. split; [reflexivity|exact PX].
Qed.
Print Assumptions write_exact.
(* clear makes the atlas as it was when new *)
Theorem clear_as_new : forall W H a ops a' outs, (0 <= W < 1073741824)%Z -> (0 <= H < 1073741824)%Z -> new_atlas W H = Some a -> Forall (modest W H) ops -> Forall plain ops -> atlas_run a ops = Some (a', outs) ->
  atlas_step a' AClear = Some (a, None).
Proof.
  intros W H a ops a' outs WW HH NA M P E. destruct (new_shelf W H a ltac:(lia) ltac:(lia) NA) as (SH & A4 & D & NX).
  destruct (run_total W H ops A4 ltac:(lia) ltac:(lia) ltac:(lia) M P a [] SH) as (a2 & outs2 & E2 & [CV _]); [constructor; [rewrite D; apply blank_ok; lia|lia]|]. rewrite E in E2. injection E2 as <- <-.
  assert (S : Forall size_ok ops) by (eapply Forall_impl; [|exact M]; exact (modest_size W H)).
  pose proof (run_shelf W H ops ltac:(lia) S a [] a' outs SH E) as SH'. assert (CV0 : canvas W H (at_data a)) by (rewrite D; apply blank_ok; lia).
  assert (MZ : forall l : list N, map (fun _ => 0%N) l = repeat 0%N (List.length l)) by (intros l; induction l as [|x l IH]; cbn [map repeat List.length]; [reflexivity|now rewrite IH]).
  cbn [atlas_step]. unfold clear_atlas. pose proof (cv_len _ _ _ CV) as LV. rewrite MZ, (sh_w _ _ _ _ SH'), (sh_h _ _ _ _ SH'). pose proof (cv_len _ _ _ CV0) as L. unfold new_atlas in NA. destruct (u32 (W * H)) as [v|]; [|discriminate]. destruct (u32 (v * 4)); [|discriminate]. injection NA as <-. cbn [at_data] in L. rewrite repeat_length in L. match type of L with Z.of_nat ?k = _ => now replace (List.length (at_data a')) with k by lia end.
Qed.
Print Assumptions clear_as_new.
(* writing one live region leaves the others alone *)
Theorem write_keeps_others : forall W H a ops a' outs i j r s new, (0 <= W < 1073741824)%Z -> (0 <= H < 1073741824)%Z -> new_atlas W H = Some a -> Forall (modest W H) ops -> Forall plain ops -> atlas_run a ops = Some (a', outs) ->
  nth_error (live [] ops outs) i = Some r -> nth_error (live [] ops outs) j = Some s -> i <> j -> bytes new ->
  exists a'', atlas_step a' (AWrite r new) = Some (a'', None) /\ forall x y, in_region s x y -> at_xy W (at_data a'') x y = at_xy W (at_data a') x y.
Proof.
  intros W H a ops a' outs i j r s new WW HH N M P E IR IS NE B.
  assert (S : Forall size_ok ops) by (eapply Forall_impl; [|exact M]; exact (modest_size W H)).
  assert (F : Forall (fits_width W) ops) by (eapply Forall_impl; [|exact M]; exact (modest_fits W H)).
  pose proof (atlas_in_bounds W H a ops a' outs ltac:(lia) ltac:(lia) N S F E) as WB. rewrite Forall_forall in WB. pose proof (WB r (nth_error_In _ _ IR)) as WR. pose proof (WB s (nth_error_In _ _ IS)) as WS.
  destruct (write_exact W H a ops a' outs r new WW HH N M P E WR B) as (a'' & EW & PX). exists a''. split; [exact EW|]. intros x y IN. apply PX; [unfold within, in_region, inside in *; lia|]. left. intros INR.
  pose proof (atlas_disjoint W H a ops a' outs ltac:(lia) ltac:(lia) N S E) as AP.
  assert (PAIR : forall l p q (u v : region), ForallOrdPairs apart l -> nth_error l p = Some u -> nth_error l q = Some v -> p < q -> apart u v).
  { clear. intros l p q u v FO. revert p q. induction FO as [|w l FW FO IH]; intros p q PU QV LT; [destruct p; discriminate|]. destruct q as [|q]; [lia|]. destruct p as [|p]; cbn [nth_error] in *; [injection PU as <-; rewrite Forall_forall in FW; apply FW, (nth_error_In _ _ QV)|apply (IH p q); auto; lia]. }
  destruct (Nat.lt_gt_cases i j) as [[LT|GT] _]; [exact NE| |].
  - exact (PAIR _ i j r s AP IR IS LT x y INR IN).
  - exact (PAIR _ j i s r AP IS IR GT x y IN INR).
Qed.
Print Assumptions write_keeps_others.

Example atlas_instance : exists a a' outs, new_atlas 4 3 = Some a /\ atlas_run a [AAlloc 2 1; AAlloc 2 2; AAlloc 1 1; AWrite (Region 2 0 2 1 1) [1;2;3;4]%N; AAlloc 4 1] = Some (a', outs) /\
  outs = [Some (Region 0 0 0 2 1); Some (Region 1 2 0 2 2); Some (Region 2 0 2 1 1); None; None] /\ at_xy 4 (at_data a') 0 2 = Colour 1 2 3 4.
Proof. eexists. eexists. eexists. split; [vm_compute; reflexivity|]. split; [vm_compute; reflexivity|]. split; vm_compute; reflexivity. Qed.
(* A request wider than the atlas is granted past its right edge, and writing it lands in other regions. *)
Theorem too_wide_refuted : exists a a' outs, new_atlas 2 2 = Some a /\ atlas_run a [AAlloc 3 1; AAlloc 2 1; AWrite (Region 0 0 0 3 1) (repeat 7%N 12)] = Some (a', outs) /\
  outs = [Some (Region 0 0 0 3 1); Some (Region 1 0 1 2 1); None] /\ in_region (Region 1 0 1 2 1) 0 1 /\ at_xy 2 (at_data a') 0 1 = Colour 7 7 7 7.
Proof. eexists. eexists. eexists. split; [vm_compute; reflexivity|]. split; [vm_compute; reflexivity|]. split; [vm_compute; reflexivity|]. split; [unfold in_region; cbn; lia|vm_compute; reflexivity]. Qed.
Print Assumptions too_wide_refuted.
(* A refused request uses up the rest of the row: what fitted before no longer does. *)
Theorem refusal_wastes_row_refuted : exists a a1 o1 a2 o2, new_atlas 2 1 = Some a /\ atlas_run a [AAlloc 1 1; AAlloc 1 1] = Some (a1, o1) /\ atlas_run a [AAlloc 1 1; AAlloc 2 1; AAlloc 1 1] = Some (a2, o2) /\
  o1 = [Some (Region 0 0 0 1 1); Some (Region 1 1 0 1 1)] /\ o2 = [Some (Region 0 0 0 1 1); None; None].
Proof. eexists. eexists. eexists. eexists. eexists. split; [vm_compute; reflexivity|]. split; [vm_compute; reflexivity|]. split; [vm_compute; reflexivity|]. split; reflexivity. Qed.
Print Assumptions refusal_wastes_row_refuted.
(* Sizes whose product does not fit in 32 bits panic. *)
Theorem atlas_overflow_refuted : new_atlas 32768 32768 = None /\ exists a a' o, new_atlas 2 1 = Some a /\ atlas_run a [AAlloc 1 1] = Some (a', o) /\ atlas_step a' (AAlloc 4294967295 1) = None.
Proof. split; [vm_compute; reflexivity|]. eexists. eexists. eexists. split; [vm_compute; reflexivity|]. split; [vm_compute; reflexivity|]. vm_compute. reflexivity. Qed.
Print Assumptions atlas_overflow_refuted.
