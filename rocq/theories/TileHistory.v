(* Histories of calls on one thread. *)
From Verif Require Import Base PixelModel TileModel TileSpec TileProofs.
From Coq Require Import Lia.

Section History.
  Context (pl : platform) (db : DB pl) (ok : bits -> Prop).
  Context (Hapart : sizes_apart pl ok) (Hkept : size_kept pl db).
  Notation state := (state pl).
  Notation view := (view pl).
  Notation sound := (sound pl db ok).

  Lemma pure_run_view d r s s' : view s' = view s ->
    view (pure_run pl d r s') = view (pure_run pl d r s) /\ st_dirty pl (pure_run pl d r s') = st_dirty pl s' /\ st_sink pl (pure_run pl d r s) = st_sink pl s.
  Proof.
    assert (P : forall p a, st_sink pl (run_pass pl p d r a) = st_sink pl a) by (intros; unfold run_pass; destruct (active pl p d r); reflexivity).
    assert (PD : forall p a, st_dirty pl (run_pass pl p d r a) = st_dirty pl a) by (intros; unfold run_pass; destruct (active pl p d r); reflexivity).
    intros V. unfold pure_run.
    destruct (run_pass_view pl PShadow d r _ _ V) as (V1 & _).
    destruct (run_pass_view pl PBox d r _ _ V1) as (V2 & _).
    destruct (run_pass_view pl POutline d r _ _ V2) as (V3 & _).
    split; [|rewrite PD, P]; destruct (r_blur r) as [radius|].
    - apply run_pass_view, pure_blurred_view. exact V3.
    - destruct (r_karaoke r); apply run_pass_view, run_pass_view; exact V3.
    - split; unfold pure_blurred; destruct (pl_tile pl _ _ _ _ _ _ _); cbn [with_pix st_dirty st_sink]; rewrite ?PD, ?P; reflexivity.
    - split; destruct (r_karaoke r); rewrite ?PD, ?P; reflexivity.
  Qed.
  Lemma composite_sink ca d by_ a s : st_sink pl s = None -> st_sink pl (snd (composite_cached pl ca d by_ a s)) = None.
  Proof.
    intros H. unfold composite_cached. destruct (emit_cached pl ca _ _ _ _ _ _) as [bs|]; [|exact H].
    rewrite H. destruct (blend_all pl _ _ bs _) as [p|]; exact H.
  Qed.
  Lemma pure_text_view d s s' : view s' = view s ->
    fst (pure_text pl db d s') = fst (pure_text pl db d s) /\ view (snd (pure_text pl db d s')) = view (snd (pure_text pl db d s)) /\
    (st_dirty pl s' = st_dirty pl s -> st_dirty pl (snd (pure_text pl db d s')) = st_dirty pl (snd (pure_text pl db d s))) /\
    (st_sink pl s = None -> st_sink pl (snd (pure_text pl db d s)) = None).
  Proof.
    intros V. unfold pure_text.
    destruct (pl_shape pl db (shape_key d)) as [sh| |]; [|auto..]. cbv zeta.
    destruct (base_transform pl d sh _) as [t r3].
    destruct (pl_font pl db _ _ _ _) as [font| |]; [|auto..].
    destruct (pl_face pl db font) as [u| |]; [|auto..].
    destruct (project_all pl _ t r3) as [paths t1].
    destruct (match r3 with None => coverage_key pl d t1 _ | Some _ => None end) as [a|].
    - match goal with |- context [composite_cached pl ?c ?d ?b ?a s'] => pose proof (composite_cached_view pl c d b a s s' V) as H; pose proof (composite_sink c d b a s) as Hs; destruct (composite_cached pl c d b a s) as [r x], (composite_cached pl c d b a s') as [r' x'] end.
      destruct H as (-> & Vx & Dx & Dy & _). cbn [fst snd]. split; [reflexivity|]. split; [exact Vx|]. split; [congruence|exact Hs].
    - cbn [fst snd]. split; [reflexivity|].
      set (x' := match pl_bbox pl d paths t1 with Some b => with_dirty pl (note_dirty_bbox (st_dirty pl s') b) s' | None => s' end).
      set (x := match pl_bbox pl d paths t1 with Some b => with_dirty pl (note_dirty_bbox (st_dirty pl s) b) s | None => s end).
      assert (Vx : view x' = view x).
      { unfold x, x'. destruct (pl_bbox pl d paths t1); [|exact V]. unfold TileProofs.view in *. cbn. injection V as -> -> -> ->. reflexivity. }
      rewrite (make_run_view pl d sh _ paths t1 x x' Vx).
      set (r := make_run pl d sh _ paths t1 x).
      destruct (pure_run_view d r x x' Vx) as (P1 & P2 & P3). destruct (pure_run_view d r x x eq_refl) as (_ & P4 & _).
      split; [exact P1|]. split.
      + intros D. rewrite P2, P4. unfold x, x'. destruct (pl_bbox pl d paths t1); cbn; congruence.
      + intros S. rewrite P3. unfold x. destruct (pl_bbox pl d paths t1); exact S.
  Qed.

  (* one layer, from two states that look the same *)
  Lemma layer_sim l s s' : calm_layer pl ok l -> sound s -> sound s' -> view s' = view s -> (st_sink pl s = None \/ sharp_layer l) ->
    let '(r, t) := composite_layer pl db l s in let '(r', t') := composite_layer pl db l s' in
    r' = r /\ view t' = view t /\ sound t /\ sound t' /\
    (sharp_layer l -> st_dirty pl s' = st_dirty pl s -> st_dirty pl t' = st_dirty pl t) /\ (st_sink pl s = None -> st_sink pl t = None).
  Proof.
    intros Hc S S' V Q. destruct l as [d|f]; cbn [composite_layer].
    - destruct (draw_text_pure pl db ok Hapart Hkept d s S Hc) as (A & B). specialize (B Q). destruct B as (B1 & B2 & B3).
      destruct (draw_text_pure pl db ok Hapart Hkept d s' S' Hc) as (A' & B').
      assert (Q' : st_sink pl s' = None \/ ~ blurred d) by (destruct (view_eq pl _ _ V) as (E & _); rewrite E; exact Q).
      specialize (B' Q'). destruct B' as (B1' & B2' & B3').
      destruct (pure_text_view d s s' V) as (E1 & E2 & E3 & E4).
      destruct (draw_text_layer pl db d s) as [r t], (draw_text_layer pl db d s') as [r' t']. cbn [fst snd] in *.
      split; [congruence|]. split; [congruence|]. split; [exact A|]. split; [exact A'|]. split.
      + intros Hs D. cbn [sharp_layer] in Hs. rewrite B3, B3' by assumption. auto.
      + intros Hn. destruct (view_eq pl _ _ B2) as (E & _). rewrite E. auto.
    - destruct (view_eq pl _ _ V) as (E1 & E2 & E3 & E4). rewrite E2, E3, E4.
      destruct (f (st_w pl s) (st_h pl s) (st_pix pl s)) as [[p boxes]| |].
      + split; [reflexivity|]. split; [unfold TileProofs.view; cbn; congruence|].
        split; [eapply sound_same; [| | | |exact S]; reflexivity|]. split; [eapply sound_same; [| | | |exact S']; reflexivity|].
        split; [intros _ D; cbn; congruence|auto].
      + split; [reflexivity|]. split; [exact V|]. split; [exact S|]. split; [exact S'|]. auto.
      + split; [reflexivity|]. split; [exact V|]. split; [exact S|]. split; [exact S'|]. auto.
  Qed.
  Lemma layer_sound l s : calm_layer pl ok l -> sound s -> sound (snd (composite_layer pl db l s)).
  Proof.
    intros Hc S. destruct l as [d|f]; cbn [composite_layer].
    - exact (proj1 (draw_text_pure pl db ok Hapart Hkept d s S Hc)).
    - destruct (f (st_w pl s) (st_h pl s) (st_pix pl s)) as [[p boxes]| |]; cbn [snd]; try exact S.
      eapply sound_same; [| | | |exact S]; reflexivity.
  Qed.

  Lemma each_layer_sim ls : forall s s', Forall (calm_layer pl ok) ls -> sound s -> sound s' -> view s' = view s -> st_sink pl s = None ->
    let '(r, t) := each_layer pl db ls s in let '(r', t') := each_layer pl db ls s' in
    r' = r /\ view t' = view t /\ sound t /\ sound t' /\ st_sink pl t = None.
  Proof.
    induction ls as [|l ls IH]; intros s s' Hc S S' V Hn; cbn [each_layer]; [auto 10|].
    inversion Hc as [|? ? Hl Hls]. subst.
    pose proof (layer_sim l s s' Hl S S' V (or_introl Hn)) as H.
    destruct (composite_layer pl db l s) as [r t], (composite_layer pl db l s') as [r' t'].
    destruct H as (-> & V1 & S1 & S1' & _ & Hn1). destruct r as [u| |].
    - apply IH; auto.
    - auto 10.
    - auto 10.
  Qed.

  (* what no call changes: the size of the frame, and the bounds of the caches *)
  Definition keeps (s t : state) : Prop := st_w pl t = st_w pl s /\ st_h pl t = st_h pl s /\ (within pl s -> within pl t).
  Lemma keeps_refl s : keeps s s. Proof. repeat split; auto; apply H. Qed.
  Lemma keeps_trans a b c : keeps a b -> keeps b c -> keeps a c.
  Proof. intros (A1 & A2 & A3) (B1 & B2 & B3). split; [congruence|]. split; [congruence|auto]. Qed.
  Lemma keeps_caches s t : st_w pl t = st_w pl s -> st_h pl t = st_h pl s ->
    st_shapes pl t = st_shapes pl s -> st_cover pl t = st_cover pl s -> st_blurs pl t = st_blurs pl s -> keeps s t.
  Proof. intros A B E1 E2 E3. split; [assumption|]. split; [assumption|]. unfold within. rewrite E1, E2, E3. auto. Qed.
  Ltac easy_keeps := solve [apply keeps_caches; reflexivity].

  Lemma shape_keeps d k s : keeps s (snd (shape_text_cached pl d k s)).
  Proof.
    unfold shape_text_cached. destruct (lookup skey_dec k _); [apply keeps_refl|].
    destruct (pl_shape pl d k); cbn [snd]; try apply keeps_refl.
    split; [reflexivity|]. split; [reflexivity|]. intros (W1 & W2 & W3). split; [|split; assumption].
    apply bounded_length. lia.
  Qed.
  Lemma composite_keeps ca d by_ a s : keeps s (snd (composite_cached pl ca d by_ a s)).
  Proof.
    unfold composite_cached. destruct (emit_cached pl ca _ _ _ _ _ _) as [bs|]; [|apply keeps_refl].
    destruct (st_sink pl s); [easy_keeps|]. destruct (blend_all pl _ _ bs _) as [p|]; [easy_keeps|apply keeps_refl].
  Qed.
  Lemma pass_keeps p d r s : keeps s (run_pass pl p d r s).
  Proof. unfold run_pass. destruct (active pl p d r); [easy_keeps|apply keeps_refl]. Qed.
  Lemma blurred_keeps d r radius s : keeps s (draw_blurred pl d r radius s).
  Proof.
    unfold draw_blurred.
    set (key := match r_mask r with None => Some (blur_key d radius) | Some _ => None end).
    destruct (do k <- key; lookup bkey_dec k (st_blurs pl s)) as [t|]; [easy_keeps|].
    destruct (pl_tile pl _ _ _ _ _ _ _) as [t|]; [|apply keeps_refl].
    destruct key as [k|]; [|easy_keeps].
    split; [reflexivity|]. split; [reflexivity|]. intros (W1 & W2 & W3). split; [assumption|]. split; [assumption|].
    apply bounded_length. lia.
  Qed.
  Lemma draw_run_keeps d r s : keeps s (draw_run pl d r s).
  Proof.
    unfold draw_run. eapply keeps_trans; [|apply pass_keeps].
    eapply keeps_trans; [eapply keeps_trans; [apply (pass_keeps PShadow d r)|eapply keeps_trans; [apply (pass_keeps PBox d r)|apply (pass_keeps POutline d r)]]|].
    destruct (r_blur r); [apply blurred_keeps|]. destruct (r_karaoke r); apply pass_keeps.
  Qed.
  Lemma render_keeps sh font spacing s : keeps s (snd (render_shaped_text pl db sh font spacing s)).
  Proof.
    unfold render_shaped_text. destruct (pl_face pl db font); [|apply keeps_refl..].
    destruct (render_glyphs pl db font _ _ _ _ _). easy_keeps.
  Qed.
  Lemma draw_text_keeps d s : keeps s (snd (draw_text_layer pl db d s)).
  Proof.
    unfold draw_text_layer. pose proof (shape_keeps db (shape_key d) s) as K1.
    destruct (shape_text_cached pl db (shape_key d) s) as [[sh| |] s1]; cbn [snd] in *; try exact K1. cbv zeta.
    destruct (base_transform pl d sh _) as [t r3].
    set (by_ := f_add pl _ _).
    eapply keeps_trans; [exact K1|].
    destruct (if match r3 with Some _ => false | None => true end then coverage_hit pl d t by_ s1 else None) as [out|] eqn:Hh.
    { destruct r3; [discriminate|]. unfold coverage_hit in Hh. destruct (coverage_key pl d t by_) as [a|]; [|discriminate].
      destruct (lookup ckey_dec _ _); [|discriminate]. injection Hh as <-. apply composite_keeps. }
    destruct (if match r3 with Some _ => false | None => true end then blur_tile_hit pl d by_ (sh_ascent sh) s1 else None) as [out|] eqn:Hb.
    { destruct r3; [discriminate|]. unfold blur_tile_hit in Hb. destruct (negb _); [discriminate|].
      destruct (find_map get_blur _); [|discriminate]. destruct (lookup bkey_dec _ _); [|discriminate]. injection Hb as <-.
      destruct (st_sink pl s1); easy_keeps. }
    destruct (pl_font pl db _ _ _ _) as [font| |]; [|apply keeps_refl..].
    pose proof (render_keeps sh font (td_spacing d) s1) as K2.
    destruct (render_shaped_text pl db sh font (td_spacing d) s1) as [[paths0| |] s2]; cbn [snd] in *; try exact K2.
    eapply keeps_trans; [exact K2|].
    destruct (project_all pl paths0 t r3) as [paths t1].
    destruct (if match r3 with Some _ => false | None => true end then coverage_miss pl d paths t1 by_ s2 else None) as [out|] eqn:Hm.
    { destruct r3; [discriminate|]. unfold coverage_miss in Hm. destruct (coverage_key pl d t1 by_) as [a|]; [|discriminate].
      injection Hm as <-.
      set (s3 := match lookup ckey_dec (cv_key a) (st_cover pl s2) with Some _ => s2 | None => _ end).
      assert (K3 : keeps s2 s3).
      { unfold s3. destruct (lookup ckey_dec (cv_key a) (st_cover pl s2)); [apply keeps_refl|].
        split; [reflexivity|]. split; [reflexivity|]. intros (W1 & W2 & W3). split; [assumption|]. split; [|assumption]. apply bounded_length. lia. }
      destruct (lookup ckey_dec (cv_key a) (st_cover pl s3)); [|exact K3].
      eapply keeps_trans; [exact K3|apply composite_keeps]. }
    cbn [snd]. eapply keeps_trans; [|apply draw_run_keeps].
    destruct (pl_bbox pl d paths t1); [easy_keeps|apply keeps_refl].
  Qed.
  Lemma layer_keeps l s : keeps s (snd (composite_layer pl db l s)).
  Proof.
    destruct l as [d|f]; cbn [composite_layer]; [apply draw_text_keeps|].
    destruct (f _ _ _) as [[p boxes]| |]; [easy_keeps|apply keeps_refl..].
  Qed.
  Lemma each_layer_keeps ls : forall s, keeps s (snd (each_layer pl db ls s)).
  Proof.
    induction ls as [|l ls IH]; intros s; cbn [each_layer]; [apply keeps_refl|].
    pose proof (layer_keeps l s) as K. destruct (composite_layer pl db l s) as [[u| |] t]; cbn [snd] in *; try exact K.
    eapply keeps_trans; [exact K|apply IH].
  Qed.
  Lemma frame_keeps ls s : keeps s (snd (composite_layers pl db ls s)).
  Proof.
    unfold composite_layers. pose proof (each_layer_keeps ls (with_pix pl (blank pl s) s)) as K.
    destruct (each_layer pl db ls (with_pix pl (blank pl s) s)) as [[u| |] t]; cbn [snd] in *; (eapply keeps_trans; [|exact K]; easy_keeps).
  Qed.
  Lemma bitmap_layers_keeps ls : forall out s, keeps s (snd (bitmap_layers pl db ls out s)).
  Proof.
    induction ls as [|l ls IH]; intros out s; cbn [bitmap_layers]; [easy_keeps|].
    set (x := swap_pix pl (with_dirty pl None (with_sink pl (Some []) s))).
    assert (K0 : keeps s x) by easy_keeps.
    pose proof (layer_keeps l x) as K. destruct (composite_layer pl db l x) as [[u| |] t]; cbn [snd] in *.
    - assert (K1 : keeps s (with_sink pl None (swap_pix pl t))) by (eapply keeps_trans; [exact K0|]; eapply keeps_trans; [exact K|]; easy_keeps).
      cbv zeta. set (y := with_sink pl None (swap_pix pl t)) in *.
      destruct (match st_sink pl (swap_pix pl t) with Some l0 => l0 | None => [] end).
      + destruct (crop_pixmap _ _) as [[b|]|]; [|eapply keeps_trans; [exact K1|apply IH]|exact K1].
        destruct b as [w h cov bx by_ c|w h px bx by_]; [eapply keeps_trans; [exact K1|apply IH]|].
        destruct (clear_region _ _ _ _ _); [|exact K1].
        eapply keeps_trans; [exact K1|]. eapply keeps_trans; [|apply IH]. easy_keeps.
      + eapply keeps_trans; [exact K1|apply IH].
    - eapply keeps_trans; [exact K0|]. eapply keeps_trans; [exact K|]. easy_keeps.
    - eapply keeps_trans; [exact K0|exact K].
  Qed.
  Lemma step_keeps c s : keeps s (snd (step pl db c s)).
  Proof.
    destruct c as [d k|ls|ls]; cbn [step].
    - pose proof (shape_keeps d k s) as K. destruct (shape_text_cached pl d k s). exact K.
    - pose proof (frame_keeps ls s) as K. destruct (composite_layers pl db ls s). exact K.
    - pose proof (bitmap_layers_keeps ls [] (with_scratch pl (blank pl s) s)) as K. unfold render_to_bitmaps.
      destruct (bitmap_layers pl db ls [] (with_scratch pl (blank pl s) s)). cbn [snd] in *. eapply keeps_trans; [|exact K]. easy_keeps.
  Qed.
  Lemma steps_keeps cs : forall s, keeps s (snd (steps pl db cs s)).
  Proof.
    induction cs as [|c cs IH]; intros s; cbn [steps]; [apply keeps_refl|].
    pose proof (step_keeps c s) as K. destruct (step pl db c s) as [a s1]. specialize (IH s1).
    destruct (steps pl db cs s1) as [l s2]. cbn [snd] in *. eapply keeps_trans; eassumption.
  Qed.

  (* frames *)
  Lemma frame_sim ls s s' : Forall (calm_layer pl ok) ls -> sound s -> sound s' ->
    st_w pl s' = st_w pl s -> st_h pl s' = st_h pl s -> st_sink pl s = None -> st_sink pl s' = None ->
    fst (composite_layers pl db ls s') = fst (composite_layers pl db ls s) /\
    sound (snd (composite_layers pl db ls s)) /\ st_sink pl (snd (composite_layers pl db ls s)) = None.
  Proof.
    intros Hc S S' Ew Eh En En'. unfold composite_layers.
    set (x := with_pix pl (blank pl s) s). set (y := with_pix pl (blank pl s') s').
    assert (Sx : sound x) by (eapply sound_same; [| | | |exact S]; reflexivity).
    assert (Sy : sound y) by (eapply sound_same; [| | | |exact S']; reflexivity).
    assert (V : view y = view x) by (unfold x, y, TileProofs.view, blank; cbn; rewrite Ew, Eh, En, En'; reflexivity).
    pose proof (each_layer_sim ls x y Hc Sx Sy V En) as H.
    destruct (each_layer pl db ls x) as [r t], (each_layer pl db ls y) as [r' t'].
    destruct H as (-> & Vt & St & _ & Hn). destruct (view_eq pl _ _ Vt) as (_ & _ & _ & Ep).
    destruct r; cbn [fst snd]; rewrite ?Ep; auto.
  Qed.

  (* bitmap lists *)
  Lemma bitmaps_sound ls : forall out s, Forall (calm_layer pl ok) ls -> sound s ->
    sound (snd (bitmap_layers pl db ls out s)) /\ (forall l, fst (bitmap_layers pl db ls out s) = Ok l -> st_sink pl (snd (bitmap_layers pl db ls out s)) = None).
  Proof.
    induction ls as [|l ls IH]; intros out s Hc S; cbn [bitmap_layers].
    { split; [eapply sound_same; [| | | |exact S]; reflexivity|]. intros l _. reflexivity. }
    inversion Hc as [|? ? Hl Hls]. subst.
    set (x := swap_pix pl (with_dirty pl None (with_sink pl (Some []) s))).
    assert (Sx : sound x) by (eapply sound_same; [| | | |exact S]; reflexivity).
    pose proof (layer_sound l x Hl Sx) as St. destruct (composite_layer pl db l x) as [[u| |] t]; cbn [snd] in *.
    - cbv zeta. assert (Sy : sound (with_sink pl None (swap_pix pl t))) by (eapply sound_same; [| | | |exact St]; reflexivity).
      set (y := with_sink pl None (swap_pix pl t)) in *.
      destruct (match st_sink pl (swap_pix pl t) with Some l0 => l0 | None => [] end); [|apply IH; assumption].
      destruct (crop_pixmap _ _) as [[b|]|]; [|apply IH; assumption|split; [exact Sy|discriminate]].
      destruct b as [w h cov bx by_ c|w h px bx by_]; [apply IH; assumption|].
      destruct (clear_region _ _ _ _ _) as [p|]; [|split; [exact Sy|discriminate]].
      apply IH; [assumption|]. eapply sound_same; [| | | |exact Sy]; reflexivity.
    - split; [eapply sound_same; [| | | |exact St]; reflexivity|discriminate].
    - split; [exact St|discriminate].
  Qed.
  Lemma bitmaps_sim ls : forall out s s', Forall (calm_layer pl ok) ls -> Forall sharp_layer ls -> sound s -> sound s' ->
    st_w pl s' = st_w pl s -> st_h pl s' = st_h pl s -> st_scratch pl s' = st_scratch pl s ->
    fst (bitmap_layers pl db ls out s') = fst (bitmap_layers pl db ls out s).
  Proof.
    induction ls as [|l ls IH]; intros out s s' Hc Hs S S' Ew Eh Esc; cbn [bitmap_layers]; [reflexivity|].
    inversion Hc as [|? ? Hl Hls]. inversion Hs as [|? ? Gl Gls]. subst.
    set (x := swap_pix pl (with_dirty pl None (with_sink pl (Some []) s))).
    set (x' := swap_pix pl (with_dirty pl None (with_sink pl (Some []) s'))).
    assert (Sx : sound x) by (eapply sound_same; [| | | |exact S]; reflexivity).
    assert (Sx' : sound x') by (eapply sound_same; [| | | |exact S']; reflexivity).
    assert (V : view x' = view x) by (unfold x, x', TileProofs.view; cbn; congruence).
    pose proof (layer_sim l x x' Hl Sx Sx' V (or_intror Gl)) as H.
    destruct (composite_layer pl db l x) as [r t], (composite_layer pl db l x') as [r' t'].
    destruct H as (-> & Vt & St & St' & Dt & _). specialize (Dt Gl eq_refl).
    destruct r as [u| |]; [|reflexivity..].
    cbv zeta. cbn [st_sink swap_pix with_sink st_w st_h st_scratch st_dirty].
    destruct (view_eq pl _ _ Vt) as (E1 & E2 & E3 & E4). rewrite E1, E2, E3, E4, Dt.
    assert (Sy : sound (with_sink pl None (swap_pix pl t))) by (eapply sound_same; [| | | |exact St]; reflexivity).
    assert (Sy' : sound (with_sink pl None (swap_pix pl t'))) by (eapply sound_same; [| | | |exact St']; reflexivity).
    destruct (match st_sink pl t with Some l0 => l0 | None => [] end); [|apply IH; assumption].
    destruct (crop_pixmap _ _) as [[b|]|]; [|apply IH; assumption|reflexivity].
    destruct b as [w h cov bx by_ c|w h px bx by_]; [apply IH; assumption|].
    destruct (clear_region _ _ _ _ _) as [p|]; [|reflexivity].
    apply IH; [assumption|assumption| | |assumption|assumption|reflexivity].
    - eapply sound_same; [| | | |exact Sy]; reflexivity.
    - eapply sound_same; [| | | |exact Sy']; reflexivity.
  Qed.

  (* histories *)
  Lemma step_sound c s : calm_call pl db ok c -> sound s -> st_sink pl s = None -> whole (fst (step pl db c s)) ->
    sound (snd (step pl db c s)) /\ st_sink pl (snd (step pl db c s)) = None.
  Proof.
    intros Hc S Hn Hw. destruct c as [d k|ls|ls]; cbn [step calm_call] in *.
    - pose proof (shape_cached pl db ok d k s Hc S) as H. destruct (shape_text_cached pl d k s) as [r t]. destruct H as (_ & H & V & _).
      split; [exact H|]. destruct (view_eq pl _ _ V) as (E & _). cbn [snd]. congruence.
    - pose proof (frame_sim ls s s Hc S S eq_refl eq_refl Hn Hn) as H. destruct (composite_layers pl db ls s). apply H.
    - unfold render_to_bitmaps in *.
      pose proof (bitmaps_sound ls [] (with_scratch pl (blank pl s) s) Hc) as H.
      destruct (bitmap_layers pl db ls [] (with_scratch pl (blank pl s) s)) as [r t]. cbn [fst snd] in *.
      destruct H as [H1 H2]; [eapply sound_same; [| | | |exact S]; reflexivity|].
      split; [exact H1|]. destruct r; [eapply H2; reflexivity|destruct Hw..].
  Qed.
  Lemma steps_sound cs : forall s, Forall (calm_call pl db ok) cs -> sound s -> st_sink pl s = None -> Forall whole (fst (steps pl db cs s)) ->
    sound (snd (steps pl db cs s)) /\ st_sink pl (snd (steps pl db cs s)) = None.
  Proof.
    induction cs as [|c cs IH]; intros s Hc S Hn Hw; cbn [steps] in *; [auto|].
    inversion Hc as [|? ? Hl Hls]. subst. pose proof (step_sound c s Hl S Hn) as H.
    destruct (step pl db c s) as [a s1]. specialize (IH s1 Hls).
    destruct (steps pl db cs s1) as [l s2]. cbn [fst snd] in *. inversion Hw as [|? ? W1 W2]. subst.
    destruct (H W1) as [H1 H2]. auto.
  Qed.
  Lemma fresh_sound w h : sound (fresh pl w h).
  Proof. split; cbn; unfold sound_glyphs; intros; contradiction. Qed.

  Theorem frame_history w h cs ls :
    Forall (calm_call pl db ok) cs -> Forall whole (fst (steps pl db cs (fresh pl w h))) -> Forall (calm_layer pl ok) ls ->
    fst (composite_layers pl db ls (snd (steps pl db cs (fresh pl w h)))) = fst (composite_layers pl db ls (fresh pl w h)).
  Proof.
    intros Hcs Hw Hls. destruct (steps_sound cs (fresh pl w h) Hcs (fresh_sound w h) eq_refl Hw) as [S Hn].
    destruct (steps_keeps cs (fresh pl w h)) as (Ew & Eh & _).
    symmetry. apply (frame_sim ls _ _ Hls S (fresh_sound w h)); auto.
  Qed.
  Theorem bitmaps_history w h cs ls :
    Forall (calm_call pl db ok) cs -> Forall whole (fst (steps pl db cs (fresh pl w h))) -> Forall (calm_layer pl ok) ls -> Forall sharp_layer ls ->
    fst (render_to_bitmaps pl db ls (snd (steps pl db cs (fresh pl w h)))) = fst (render_to_bitmaps pl db ls (fresh pl w h)).
  Proof.
    intros Hcs Hw Hls Hsh. destruct (steps_sound cs (fresh pl w h) Hcs (fresh_sound w h) eq_refl Hw) as [S Hn].
    destruct (steps_keeps cs (fresh pl w h)) as (Ew & Eh & _). unfold render_to_bitmaps.
    symmetry. apply bitmaps_sim; auto.
    - eapply sound_same; [| | | |exact S]; reflexivity.
    - eapply sound_same; [| | | |apply (fresh_sound w h)]; reflexivity.
    - cbn. unfold blank. rewrite Ew, Eh. reflexivity.
  Qed.
  Theorem shapes_history w h cs d k :
    Forall (calm_call pl db ok) cs -> Forall whole (fst (steps pl db cs (fresh pl w h))) -> pl_shape pl d k = pl_shape pl db k ->
    fst (shape_text_cached pl d k (snd (steps pl db cs (fresh pl w h)))) = pl_shape pl d k.
  Proof.
    intros Hcs Hw Hd. destruct (steps_sound cs (fresh pl w h) Hcs (fresh_sound w h) eq_refl Hw) as [S Hn].
    pose proof (shape_cached pl db ok d k _ Hd S) as H. destruct (shape_text_cached pl d k _) as [r t]. destruct H as [-> _]. auto.
  Qed.
  Theorem caches_bounded w h cs : within pl (snd (steps pl db cs (fresh pl w h))).
  Proof. apply (steps_keeps cs (fresh pl w h)). repeat split; discriminate. Qed.
End History.
