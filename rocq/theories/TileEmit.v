(* The bitmaps of a tiled layer: order, crop, and the frame they make. *)
From Verif Require Import Base PixelModel PixelSpec PixelLib PixelCrop TileModel TileSpec TileProofs TileHistory.
From Coq Require Import Lia.
Import TileModel.

(* the sung part of a syllable *)
Lemma crop_rows (t : tile) (cols : nat) : cols <= N.to_nat (tl_w t) -> length (tl_data t) = N.to_nat (tl_w t) * N.to_nat (tl_h t) ->
  forall n k pre, n + k = N.to_nat (tl_h t) -> length pre = k * cols ->
  (forall x y, x < cols -> y < k -> nth_error pre (y * cols + x) = sample t x y) ->
  exists data,
    each_row (fun y data => let y := Z.to_nat y in do src <- sub_slice (y * N.to_nat (tl_w t)) cols (tl_data t); copy_at (y * cols) src data)
      (span_from (Z.of_nat k) (Z.of_N (tl_h t))) (pre ++ repeat 0%N (cols * n)) = Some data /\
    length data = N.to_nat (tl_h t) * cols /\ forall x y, x < cols -> y < N.to_nat (tl_h t) -> nth_error data (y * cols + x) = sample t x y.
Proof.
  intros Hc Hl. induction n as [|n IH]; intros k pre Hk Lp Hs.
  - rewrite span_nil by lia. cbn [each_row]. exists pre. rewrite Nat.mul_0_r. cbn [repeat]. rewrite app_nil_r.
    split; [reflexivity|]. split; [lia|]. intros x y Hx Hy. apply Hs; lia.
  - rewrite span_cons by lia. cbn [each_row]. cbv zeta. rewrite Nat2Z.id.
    set (w := N.to_nat (tl_w t)) in *. set (h := N.to_nat (tl_h t)) in *.
    assert (Hin : k * w + cols <= length (tl_data t)).
    { rewrite Hl. assert (S k <= h) by lia. nia. }
    unfold sub_slice. destruct (Nat.leb_spec (k * w + cols) (length (tl_data t))); [|lia].
    set (row := firstn cols (skipn (k * w) (tl_data t))).
    assert (Lr : length row = cols) by (unfold row; rewrite firstn_length, skipn_length; lia).
    replace (cols * S n) with (cols + cols * n) by lia. rewrite repeat_app.
    rewrite copy_at_at; [|lia|rewrite repeat_length; exact Lr].
    rewrite app_assoc. replace (Z.of_nat k + 1)%Z with (Z.of_nat (S k)) by lia.
    apply IH; [lia|rewrite app_length; lia|].
    intros x y Hx Hy. destruct (Nat.eq_dec y k) as [->|].
    + rewrite nth_error_app2 by lia. replace (k * cols + x - length pre) with x by lia.
      unfold row, sample. fold w.
      rewrite <- (firstn_skipn (k * w) (tl_data t)) at 2.
      rewrite nth_error_app2 by (rewrite firstn_length; lia).
      rewrite firstn_length. replace (k * w + x - Nat.min (k * w) (length (tl_data t))) with x by lia.
      rewrite <- (firstn_skipn cols (skipn (k * w) (tl_data t))) at 2.
      rewrite nth_error_app1 by (fold row; lia). reflexivity.
    + rewrite nth_error_app1; [apply Hs; lia|]. assert (S y <= k) by lia. nia.
Qed.
Lemma crop_columns_ok (t : tile) (cols : N) : (cols <= tl_w t)%N -> length (tl_data t) = N.to_nat (tl_w t) * N.to_nat (tl_h t) ->
  exists data, crop_columns t cols = Some data /\ length data = N.to_nat (tl_h t) * N.to_nat cols /\
    forall x y, x < N.to_nat cols -> y < N.to_nat (tl_h t) -> nth_error data (y * N.to_nat cols + x) = sample t x y.
Proof.
  intros Hc Hl. unfold crop_columns. cbv zeta. rewrite N.min_l by assumption.
  apply (crop_rows t (N.to_nat cols) ltac:(lia) Hl (N.to_nat (tl_h t)) 0 []); [lia|reflexivity|]. intros; lia.
Qed.

Section Emit.
  Context (pl : platform) (db : DB pl).
  Notation state := (state pl).
  Notation view := (view pl).

  Lemma tiled_scan color es : Forall (fun e => match e with
                   | EBold | EItalic | EOutline _ _ _ | EShadow _ _ _ | EKaraoke _ _ _ | EScale _ _ | EShear _ _ => True
                   | ERotation _ _ _ _ => flat pl e
                   | _ => False
                   end) es -> forall a, exists b, scan_effects pl color es a = Some b.
  Proof.
    induction es as [|e es IH]; intros H a; cbn [scan_effects]; [eauto|].
    inversion H as [|? ? He Hes]. subst. destruct e; try contradiction; try (apply IH; assumption).
    destruct (style =? 0)%N; apply IH; assumption.
  Qed.
  Lemma tiled_flat d : tiled pl d -> Forall (flat pl) (td_effects d).
  Proof. unfold tiled. apply Forall_impl. intros []; cbn; tauto. Qed.
  Lemma tiled_sharp d : tiled pl d -> ~ blurred d.
  Proof. unfold tiled. intros H [r Hr]. rewrite Forall_forall in H. exact (H _ Hr). Qed.

  (* what a list of bitmaps does to the pixmap or the sink *)
  Definition put (o : res (list bitmap)) (s : state) : res unit * state :=
    match o with
    | Err => (Err, s)
    | Panic => (Panic, s)
    | Ok bs =>
      match st_sink pl s with
      | Some l => (Ok tt, with_sink pl (Some (l ++ bs)) s)
      | None => match blend_all pl (st_w pl s) (st_h pl s) bs (st_pix pl s) with
                | Some p => (Ok tt, with_pix pl p s)
                | None => (Panic, s)
                end
      end
    end.
  Lemma tiled_put d : tiled pl d -> exists o, forall s, pure_text pl db d s = put o s.
  Proof.
    intros Ht. unfold pure_text.
    destruct (pl_shape pl db (shape_key d)) as [sh| |]; [|exists Err; reflexivity|exists Panic; reflexivity]. cbv zeta.
    destruct (base_transform pl d sh _) as [t r3] eqn:Hb.
    assert (r3 = None) by (pose proof (flat_none pl d sh (f_add pl (td_y d) (sh_baseline sh)) (tiled_flat d Ht)) as E; rewrite Hb in E; exact E). subst r3.
    destruct (pl_font pl db _ _ _ _) as [font| |]; [|exists Err; reflexivity|exists Panic; reflexivity].
    destruct (pl_face pl db font) as [u| |]; [|exists Err; reflexivity|exists Panic; reflexivity].
    cbn [project_all]. unfold coverage_key.
    destruct (tiled_scan (td_color d) (td_effects d) Ht (Scan None None false false (td_color d) None)) as [b ->].
    unfold composite_cached.
    match goal with |- context [emit_cached pl ?a ?b ?c ?d ?e ?f ?g] => destruct (emit_cached pl a b c d e f g) as [bs|] end.
    - exists (Ok bs). reflexivity.
    - exists Panic. reflexivity.
  Qed.

  Context (ok : bits -> Prop) (Hapart : sizes_apart pl ok) (Hkept : size_kept pl db).
  Notation sound := (sound pl db ok).

  Lemma blend_app w h a : forall b dst, blend_all pl w h (a ++ b) dst = do d <- blend_all pl w h a dst; blend_all pl w h b d.
  Proof.
    induction a as [|x a IH]; intros b dst; cbn [app blend_all]; [reflexivity|].
    destruct (composite_bitmap _ _ _ _ _); [apply IH|reflexivity].
  Qed.

  Lemma crop_blank w h : (0 <= w < 2147483648)%Z -> (0 <= h < 2147483648)%Z -> (w * h < 2147483648)%Z ->
    crop_pixmap (Pixmap w h (repeat 0%N (Z.to_nat (w * h) * 4))) None = Some None.
  Proof.
    intros W H A.
    assert (HP : (0 <= w * h)%Z) by (apply Z.mul_nonneg_nonneg; lia).
    assert (CV : canvas w h (repeat 0%N (Z.to_nat (w * h) * 4))).
    { split; try assumption.
      - unfold bytes. apply Forall_forall. intros x Hx. apply repeat_spec in Hx. subst x. reflexivity.
      - rewrite repeat_length. lia. }
    destruct (crop_ok w h _ None CV I) as (r & -> & Hr). destruct r as [b|]; [|reflexivity]. exfalso.
    assert (Hno : forall x y, ~ shows w h (repeat 0%N (Z.to_nat (w * h) * 4)) None x y).
    { intros x y (_ & Ha & _). apply Ha. unfold at_xy, pixel. cbn [c_a].
      rewrite ?nth_repeat. reflexivity. }
    destruct b; [exact Hr|]. destruct Hr as (_ & _ & _ & (y1 & Hs) & _). exact (Hno _ _ Hs).
  Qed.

  Context (w h : Z) (Hw : (0 <= w < 2147483648)%Z) (Hh : (0 <= h < 2147483648)%Z) (Ha : (w * h < 2147483648)%Z).
  Let white := repeat 0%N (Z.to_nat (w * h) * 4).

  Lemma tiled_bitmaps ls : forall out s l, Forall (calm_layer pl ok) ls -> Forall (tiled_layer pl) ls ->
    sound s -> st_w pl s = w -> st_h pl s = h -> st_scratch pl s = white ->
    fst (bitmap_layers pl db ls out s) = Ok l ->
    exists more, l = out ++ more /\
      forall f, sound f -> st_w pl f = w -> st_h pl f = h -> st_sink pl f = None ->
        match blend_all pl w h more (st_pix pl f) with
        | Some p => fst (each_layer pl db ls f) = Ok tt /\ st_pix pl (snd (each_layer pl db ls f)) = p
        | None => fst (each_layer pl db ls f) = Panic
        end.
  Proof.
    induction ls as [|ly ls IH]; intros out s l Hc Ht S Ew Eh Es H; cbn [bitmap_layers] in H.
    { injection H as <-. exists []. rewrite app_nil_r. split; [reflexivity|]. intros f Sf _ _ _. cbn. auto. }
    inversion Hc as [|? ? Hcl Hcls]. inversion Ht as [|? ? Htl Htls]. subst.
    destruct ly as [d|]; [|contradiction]. cbn [tiled_layer calm_layer] in *.
    destruct (tiled_put d Htl) as [o Ho].
    pose proof (tiled_sharp d Htl) as Hsharp.
    set (x := swap_pix pl (with_dirty pl None (with_sink pl (Some []) s))) in *.
    assert (Sx : sound x) by (eapply sound_same; [| | | |exact S]; reflexivity).
    cbn [composite_layer] in H.
    destruct (draw_text_pure pl db ok Hapart Hkept d x Sx Hcl) as (St & Q). specialize (Q (or_intror Hsharp)). destruct Q as (Q1 & Q2 & Q3). specialize (Q3 Hsharp).
    rewrite Ho in Q1, Q2, Q3.
    pose proof (draw_text_keeps pl db d x) as (K1 & K2 & _).
    destruct (draw_text_layer pl db d x) as [r t]. cbn [fst snd] in *.
    (* the frame side *)
    assert (Hf : forall f, sound f -> st_sink pl f = None -> st_w pl f = st_w pl s -> st_h pl f = st_h pl s ->
      let '(r', t') := composite_layer pl db (LText d) f in
      sound t' /\ st_w pl t' = st_w pl s /\ st_h pl t' = st_h pl s /\ st_sink pl t' = None /\
      match o with
      | Ok bs => match blend_all pl (st_w pl s) (st_h pl s) bs (st_pix pl f) with Some p => r' = Ok tt /\ st_pix pl t' = p | None => r' = Panic end
      | Err => r' = Err
      | Panic => r' = Panic
      end).
    { intros f Sf Hn Efw Efh. cbn [composite_layer].
      destruct (draw_text_pure pl db ok Hapart Hkept d f Sf Hcl) as (St' & Q). specialize (Q (or_introl Hn)). destruct Q as (G1 & G2 & _).
      rewrite Ho in G1, G2. pose proof (draw_text_keeps pl db d f) as (L1 & L2 & _).
      destruct (draw_text_layer pl db d f) as [r' t']. cbn [fst snd] in *.
      split; [exact St'|]. split; [congruence|]. split; [congruence|].
      destruct (view_eq pl _ _ G2) as (V1 & _ & _ & V4). unfold put in G1, V1, V4. rewrite Hn, Efw, Efh in *.
      destruct o as [bs| |]; [|cbn in *; split; [congruence|auto]..].
      destruct (blend_all pl (st_w pl s) (st_h pl s) bs (st_pix pl f)); cbn in *; (split; [congruence|auto]). }
    destruct o as [bs| |]; [|cbn [put fst] in Q1; subst r; discriminate..].
    unfold put in Q1, Q2, Q3. cbn [st_sink x swap_pix with_dirty with_sink] in Q1, Q2, Q3. cbn [fst] in Q1. subst r. cbn [snd] in Q2, Q3.
    destruct (view_eq pl _ _ Q2) as (V1 & V2 & V3 & V4). cbn [st_sink with_sink app] in V1. cbn in V2, V3, V4, Q3.
    cbv zeta in H. cbn [st_sink swap_pix] in H. rewrite V1 in H.
    set (y := with_sink pl None (swap_pix pl t)) in *.
    assert (Sy : sound y) by (eapply sound_same; [| | | |exact St]; reflexivity).
    assert (Ysc : st_scratch pl y = white) by (cbn; congruence).
    assert (Yw : st_w pl y = st_w pl s) by (cbn; congruence). assert (Yh : st_h pl y = st_h pl s) by (cbn; congruence).
    assert (Hrest : exists out', fst (bitmap_layers pl db ls out' y) = Ok l /\ out' = out ++ bs).
    { destruct bs as [|b bs].
      - exists out. split; [|rewrite app_nil_r; reflexivity].
        replace (crop_pixmap (Pixmap (st_w pl y) (st_h pl y) (st_scratch pl y)) (st_dirty pl y)) with (@Some (option bitmap) None) in H; [exact H|].
        symmetry. rewrite Ysc, Yw, Yh. replace (st_dirty pl y) with (@None bbox) by (symmetry; exact Q3). apply crop_blank; assumption.
      - exists (out ++ b :: bs). split; [exact H|reflexivity]. }
    destruct Hrest as (out' & Hrest & ->).
    destruct (IH (out ++ bs) y l Hcls Htls Sy Yw Yh Ysc Hrest) as (more & -> & Hmore).
    exists (bs ++ more). split; [rewrite app_assoc; reflexivity|].
    intros f Sf Efw Efh Hn. specialize (Hf f Sf Hn Efw Efh). cbn [each_layer].
    destruct (composite_layer pl db (LText d) f) as [r' t']. destruct Hf as (St' & Tw & Th & Tn & Hf).
    rewrite blend_app. destruct (blend_all pl (st_w pl s) (st_h pl s) bs (st_pix pl f)) as [p|].
    - destruct Hf as [-> Hp]. specialize (Hmore t' St' Tw Th Tn). rewrite Hp in Hmore. exact Hmore.
    - rewrite Hf. reflexivity.
  Qed.

  Theorem tiled_frame ls l : Forall (calm_layer pl ok) ls -> Forall (tiled_layer pl) ls ->
    fst (render_to_bitmaps pl db ls (fresh pl w h)) = Ok l ->
    fst (composite_layers pl db ls (fresh pl w h)) = match blend_all pl w h l white with Some p => Ok p | None => Panic end.
  Proof.
    intros Hc Ht H. unfold render_to_bitmaps in H.
    set (s := with_scratch pl (blank pl (fresh pl w h)) (fresh pl w h)) in H.
    assert (S : sound s) by (eapply sound_same; [| | | |apply (fresh_sound pl db ok w h)]; reflexivity).
    destruct (tiled_bitmaps ls [] s l Hc Ht S eq_refl eq_refl eq_refl H) as (more & -> & Hm). cbn [app].
    unfold composite_layers. set (f := with_pix pl (blank pl (fresh pl w h)) (fresh pl w h)).
    assert (Sf : sound f) by (eapply sound_same; [| | | |apply (fresh_sound pl db ok w h)]; reflexivity).
    specialize (Hm f Sf eq_refl eq_refl eq_refl). change (st_pix pl f) with white in Hm.
    destruct (blend_all pl w h more white) as [p|].
    - destruct Hm as [E1 E2]. destruct (each_layer pl db ls f) as [r t]. cbn in E1, E2. subst r. cbn. congruence.
    - destruct (each_layer pl db ls f) as [r t]. cbn in Hm. subst r. reflexivity.
  Qed.
End Emit.

Lemma placed_paths pl db font size spacing gs : forall acc, placed pl db font size spacing gs acc = glyph_paths pl db font size spacing gs acc.
Proof.
  induction gs as [|g gs IH]; intros acc; [reflexivity|]. cbn [placed glyph_paths]. destruct gs as [|g' gs].
  - destruct (pl_outline pl db font (g_id g) size) as [p|]; [destruct (pl_place pl p _ _)|]; reflexivity.
  - rewrite IH. destruct (pl_outline pl db font (g_id g) size) as [p|]; [destruct (pl_place pl p _ _)|]; reflexivity.
Qed.
Lemma fits_i32 z : in_i32 z -> i32 z = Some z.
Proof. unfold in_i32, i32. intros [H1 H2]. destruct (Z.leb_spec (-2147483648) z); [|lia]. destruct (Z.leb_spec z 2147483647); [reflexivity|lia]. Qed.

Section Bordered.
  Context (pl : platform) (db : DB pl) (w h : Z) (d : text_data) (sh : shaped) (font : N) (u : unit).
  Context (oc sc : rgba) (wx wy sx sy : bits) (m o : PATH pl) (tf to_ : tile) (fx fy ox oy : Z).
  Let base := f_add pl (td_y d) (sh_baseline sh).
  Let local := t_post_translate pl (t_translate pl (td_x d) base) (f_neg pl (td_x d)) (f_neg pl base).
  Let ax := f_round pl (td_x d).
  Let ay := f_round pl base.
  Let dx := f_round pl (f_add pl (f_mul pl sx (t_sx local)) (f_mul pl sy (t_kx local))).
  Let dy := f_round pl (f_add pl (f_mul pl sx (t_ky local)) (f_mul pl sy (t_sy local))).

  Theorem bordered_bitmaps :
    size_kept pl db ->
    td_effects d = [EOutline oc wx wy; EShadow sc sx sy] ->
    pl_shape pl db (SKey (td_text d) (td_font d) (td_size d) false false) = Ok sh ->
    pl_font pl db (td_font d) false false (td_text d) = Ok font -> pl_face pl db font = Ok u ->
    pl_merge pl (placed pl db font (td_size d) (td_spacing d) (sh_glyphs sh) (f_lit pl 0 1)) local = Some m ->
    pl_raster pl m = Some (tf, fx, fy) -> pl_stroke pl m wx wy = Some o -> pl_raster pl o = Some (to_, ox, oy) ->
    in_i32 (ax + fx) -> in_i32 (ay + fy) -> in_i32 (ax + ox) -> in_i32 (ay + oy) -> in_i32 (ax + fx + dx) -> in_i32 (ay + fy + dy) ->
    fst (render_to_bitmaps pl db [LText d] (fresh pl w h)) =
    Ok [BCoverage (Z.of_N (tl_w tf)) (Z.of_N (tl_h tf)) (tl_data tf) (ax + fx + dx) (ay + fy + dy) sc;
        BCoverage (Z.of_N (tl_w to_)) (Z.of_N (tl_h to_)) (tl_data to_) (ax + ox) (ay + oy) oc;
        BCoverage (Z.of_N (tl_w tf)) (Z.of_N (tl_h tf)) (tl_data tf) (ax + fx) (ay + fy) (td_color d)].
  Proof.
    intros Hkept He Hs Hf Hfa Hm Hr Hst Hro I1 I2 I3 I4 I5 I6.
    unfold render_to_bitmaps. cbn [bitmap_layers composite_layer].
    set (x := swap_pix _ _).
    assert (Hx : sound pl db (eq (td_size d)) x) by (eapply sound_same; [| | | |apply (fresh_sound pl db (eq (td_size d)) w h)]; reflexivity).
    assert (Hap' : sizes_apart pl (eq (td_size d))) by (intros a b <- <- _; reflexivity).
    assert (Hc : calm pl (eq (td_size d)) d) by (split; [reflexivity|]; rewrite He; intros r [Hi|[Hi|[]]]; discriminate).
    assert (Hb : ~ blurred d) by (intros [r Hi]; rewrite He in Hi; destruct Hi as [Hi|[Hi|[]]]; discriminate).
    destruct (draw_text_pure pl db (eq (td_size d)) Hap' Hkept d x Hx Hc) as (_ & Q). specialize (Q (or_intror Hb)). destruct Q as (Q1 & Q2 & _).
    assert (E : pure_text pl db d x = (Ok tt, with_sink pl (Some
       [BCoverage (Z.of_N (tl_w tf)) (Z.of_N (tl_h tf)) (tl_data tf) (ax + fx + dx) (ay + fy + dy) sc;
        BCoverage (Z.of_N (tl_w to_)) (Z.of_N (tl_h to_)) (tl_data to_) (ax + ox) (ay + oy) oc;
        BCoverage (Z.of_N (tl_w tf)) (Z.of_N (tl_h tf)) (tl_data tf) (ax + fx) (ay + fy) (td_color d)]) x)).
    { unfold pure_text, shape_key, has. rewrite He. cbn [existsb is_bold is_italic orb]. rewrite Hs. cbv zeta.
      unfold base_transform. rewrite He. cbn [fold_left apply_effect]. rewrite Hf, Hfa. cbn [project_all].
      unfold coverage_key. rewrite He. cbn [scan_effects sc_outline sc_shadow sc_bold sc_italic sc_fill sc_sweep widths cv_key cv_outline cv_shadow cv_local cv_fill cv_sweep].
      unfold composite_cached. cbn [sc_outline sc_shadow sc_bold sc_italic sc_fill sc_sweep widths cv_key cv_outline cv_shadow cv_local cv_fill cv_sweep].
      unfold rasterize_run. fold base. fold local. unfold paths_of. rewrite (Hkept _ _ Hs). cbn [sk_size].
      rewrite <- placed_paths, Hm. cbn [widths]. rewrite Hr, Hst, Hro.
      unfold emit_cached, shadow_delta. cbn [ca_fill ca_outline]. fold ax ay dx dy.
      rewrite !fits_i32 by assumption. reflexivity. }
    rewrite E in Q1, Q2. destruct (draw_text_layer pl db d x) as [r t]. cbn [fst snd] in Q1, Q2. subst r.
    destruct (view_eq pl _ _ Q2) as (V1 & _). cbv zeta. cbn [st_sink swap_pix]. rewrite V1. reflexivity.
  Qed.
End Bordered.
