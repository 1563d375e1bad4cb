(* Proofs about the caches of the text layers. *)
From Verif Require Import Base PixelModel TileModel TileSpec.
From Coq Require Import Lia.

Lemma lookup_in {K V} dec (k : K) (m : list (K * V)) v : lookup dec k m = Some v -> In (k, v) m.
Proof.
  induction m as [|[k' v'] m IH]; cbn [lookup]; [discriminate|].
  destruct (dec k k') as [->|]; intros H; [injection H as ->; left; reflexivity|right; auto].
Qed.
Lemma lookup_cons {K V} dec (k : K) (v : V) m : lookup dec k ((k, v) :: m) = Some v.
Proof. cbn [lookup]. destruct (dec k k); congruence. Qed.
Lemma in_bounded {K V} max (k : K) (v : V) m e : In e (bounded_insert max k v m) -> e = (k, v) \/ In e m.
Proof.
  unfold bounded_insert. intros [H|H]; [left; symmetry; exact H|].
  destruct (max <=? _)%N; [destruct H|right; exact H].
Qed.
Lemma bounded_length {K V} max (k : K) (v : V) m :
  (1 <= max)%N -> (N.of_nat (length (bounded_insert max k v m)) <= max)%N.
Proof. intros. unfold bounded_insert. destruct (N.leb_spec max (N.of_nat (length m))); cbn [length]; lia. Qed.

Section Proofs.
  Context (pl : platform) (db : DB pl) (ok : bits -> Prop).
  Context (Hapart : sizes_apart pl ok) (Hkept : size_kept pl db).
  Notation state := (state pl).
  Let zero := f_lit pl 0 1.

  Definition view (s : state) := (st_sink pl s, st_w pl s, st_h pl s, st_pix pl s).

  (* drawing without the glyph cache *)
  Fixpoint glyph_paths (font : N) (size spacing : bits) (gs : list glyph) (acc : bits) : list (PATH pl) :=
    match gs with
    | [] => []
    | g :: rest =>
      let here := do p <- pl_outline pl db font (g_id g) size; pl_place pl p (f_add pl (g_x g) acc) (g_y g) in
      let more := glyph_paths font size spacing rest (match rest with [] => acc | _ => f_add pl acc spacing end) in
      match here with Some p => p :: more | None => more end
    end.
  Definition paths_of (sh : shaped) (font : N) (spacing : bits) : list (PATH pl) :=
    glyph_paths font (sh_size sh) spacing (sh_glyphs sh) zero.

  Definition sound_glyphs (m : list (gkey * PATH pl)) : Prop :=
    forall f g z p, In ((f, g, z), p) m -> exists size, ok size /\ pl_size16 pl size = z /\ pl_outline pl db f g size = Some p.
  Definition source (text font : str) (size spacing : bits) (bold italic : bool) (sh : shaped) (paths : list (PATH pl)) : Prop :=
    pl_shape pl db (SKey text font size bold italic) = Ok sh /\
    exists f u, pl_font pl db font bold italic text = Ok f /\ pl_face pl db f = Ok u /\ paths = paths_of sh f spacing.
  Record sound (s : state) : Prop := {
    so_shapes : forall k sh, In (k, sh) (st_shapes pl s) -> pl_shape pl db k = Ok sh;
    so_glyphs : sound_glyphs (st_glyphs pl s);
    so_cover : forall k ca, In (k, ca) (st_cover pl s) -> exists sh paths,
      source (ck_text k) (ck_font k) (ck_size k) (ck_spacing k) (ck_bold k) (ck_italic k) sh paths /\
      ca = rasterize_run pl paths (ck_tr k) (ck_outline k);
    so_blurs : forall k t, In (k, t) (st_blurs pl s) -> exists sh paths,
      source (bk_text k) (bk_font k) (bk_size k) (bk_spacing k) (bk_bold k) (bk_italic k) sh paths /\
      pl_tile pl sh paths (bk_blur k) (bk_fill k)
        (match bk_outline k with Some (x, y, c) => Some (c, x, y) | None => None end) (bk_shadow k) None = Some t
  }.
  Lemma sound_same s s' :
    st_shapes pl s' = st_shapes pl s -> st_glyphs pl s' = st_glyphs pl s -> st_cover pl s' = st_cover pl s -> st_blurs pl s' = st_blurs pl s ->
    sound s -> sound s'.
  Proof. intros E1 E2 E3 E4 [A B C D]. split; rewrite ?E1, ?E2, ?E3, ?E4; assumption. Qed.
  Ltac same := eapply sound_same; [| | | |eassumption]; reflexivity.

  Lemma render_glyphs_pure font size spacing : ok size -> forall gs acc m ps m',
    sound_glyphs m -> render_glyphs pl db font size spacing gs acc m = (ps, m') ->
    ps = glyph_paths font size spacing gs acc /\ sound_glyphs m'.
  Proof.
    intros Hok. induction gs as [|g gs IH]; intros acc m ps m' Hm H; cbn [render_glyphs glyph_paths] in *.
    - injection H as <- <-. split; [reflexivity|assumption].
    - destruct (lookup gkey_dec (font, g_id g, pl_size16 pl size) m) as [p|] eqn:L.
      + apply lookup_in in L. destruct (Hm _ _ _ _ L) as (sz & Hsz & E & Ho).
        apply Hapart in E; [|assumption..]. subst sz.
        destruct (render_glyphs pl db font size spacing gs _ m) as [more m2] eqn:R.
        injection H as <- <-. apply IH in R; [|assumption]. destruct R as [-> R]. rewrite Ho. split; [reflexivity|assumption].
      + destruct (pl_outline pl db font (g_id g) size) as [p|] eqn:Ho.
        * destruct (render_glyphs pl db font size spacing gs _ _) as [more m2] eqn:R.
          injection H as <- <-. apply IH in R; [destruct R as [-> R]; split; [reflexivity|assumption]|].
          intros f g0 z p0 [Hin|Hin]; [|eauto]. injection Hin as <- <- <- <-. exists size. auto.
        * destruct (render_glyphs pl db font size spacing gs _ m) as [more m2] eqn:R.
          injection H as <- <-. apply IH in R; [|assumption]. destruct R as [-> R]. split; [reflexivity|assumption].
  Qed.

  Lemma shape_cached d k s : pl_shape pl d k = pl_shape pl db k -> sound s ->
    let '(r, s') := shape_text_cached pl d k s in
    r = pl_shape pl db k /\ sound s' /\ view s' = view s /\ st_dirty pl s' = st_dirty pl s.
  Proof.
    intros Hd S. unfold shape_text_cached. destruct (lookup skey_dec k (st_shapes pl s)) as [sh|] eqn:L.
    - apply lookup_in, (so_shapes _ S) in L. auto.
    - rewrite Hd. destruct (pl_shape pl db k) as [sh| |] eqn:E; [|auto..].
      split; [reflexivity|]. split; [|split; reflexivity].
      destruct S as [A B C D]. split; cbn; try assumption.
      intros k0 sh0 Hin. apply in_bounded in Hin. destruct Hin as [Hin|Hin]; [injection Hin as -> ->; exact E|auto].
  Qed.

  Lemma render_cached sh font spacing s : ok (sh_size sh) -> sound s ->
    let '(r, s') := render_shaped_text pl db sh font spacing s in
    r = match pl_face pl db font with Ok _ => Ok (paths_of sh font spacing) | Err => Err | Panic => Panic end /\
    sound s' /\ view s' = view s /\ st_dirty pl s' = st_dirty pl s /\ st_cover pl s' = st_cover pl s /\ st_blurs pl s' = st_blurs pl s.
  Proof.
    intros Hok S. unfold render_shaped_text. destruct (pl_face pl db font) as [u| |]; [|auto 8..].
    destruct (render_glyphs pl db font (sh_size sh) spacing (sh_glyphs sh) (f_lit pl 0 1) (st_glyphs pl s)) as [ps m] eqn:R.
    apply render_glyphs_pure in R; [|assumption|apply (so_glyphs _ S)]. destruct R as [-> R].
    split; [reflexivity|]. split; [|auto 8].
    destruct S as [A B C D]. split; cbn; assumption.
  Qed.

  (* the effects scanned by the key are those the run has *)
  Lemma scan_flags color es : forall a b, scan_effects pl color es a = Some b ->
    sc_bold b = (sc_bold a || existsb is_bold es)%bool /\ sc_italic b = (sc_italic a || existsb is_italic es)%bool.
  Proof.
    induction es as [|e es IH]; intros a b H; cbn [scan_effects existsb] in *.
    - injection H as <-. rewrite !Bool.orb_false_r. auto.
    - destruct e; try discriminate; cbn [is_bold is_italic orb];
        try (destruct (style =? 0)%N);
        apply IH in H; cbn in H; destruct H as [-> ->]; rewrite ?Bool.orb_true_r; cbn; auto.
  Qed.
  Lemma scan_no_blur color es : forall a b r, scan_effects pl color es a = Some b -> ~ In (EBlur r) es.
  Proof.
    induction es as [|e es IH]; intros a b r H; cbn [scan_effects] in H; [intros []|].
    intros [->|Hin]; [discriminate|].
    destruct e; try discriminate; try (destruct (style =? 0)%N); eapply IH; eauto.
  Qed.
  Lemma find_map_in {A} (f : effect -> option A) es a : find_map f es = Some a -> exists e, In e es /\ f e = Some a.
  Proof.
    induction es as [|e es IH]; cbn [find_map]; [discriminate|].
    destruct (f e) eqn:E; intros H.
    - injection H as ->. exists e. split; [left; reflexivity|assumption].
    - destruct (IH H) as (e' & ? & ?). exists e'. split; [right; assumption|assumption].
  Qed.
  Lemma blur_in es r : find_map get_blur es = Some r -> In (EBlur r) es.
  Proof. intros H. apply find_map_in in H. destruct H as (e & Hin & E). destruct e; try discriminate. injection E as ->. assumption. Qed.
  Lemma no_blur es : (forall r, ~ In (EBlur r) es) -> find_map get_blur es = None.
  Proof. intros H. destruct (find_map get_blur es) eqn:E; [|reflexivity]. apply blur_in in E. exfalso. eapply H; eassumption. Qed.

  Lemma flat_none d sh by_ : Forall (flat pl) (td_effects d) -> snd (base_transform pl d sh by_) = None.
  Proof.
    unfold base_transform. generalize (t_translate pl (td_x d) by_).
    induction (td_effects d) as [|e es IH]; intros t H; cbn [fold_left]; [reflexivity|].
    inversion H as [|? ? He Hes]. subst.
    enough (E : snd (apply_effect pl d sh by_ (t, None) e) = None).
    { destruct (apply_effect pl d sh by_ (t, None) e) as [t1 r1]. cbn [snd] in E. subst r1. apply IH. assumption. }
    destruct e; try reflexivity.
    - cbn [flat] in He. destruct He as [Hx Hy]. cbn [apply_effect].
      destruct origin as [[ox oy]|]; cbn [snd]; rewrite Hx, Hy; reflexivity.
    - cbn [apply_effect]. destruct (f_lt pl _ _); reflexivity.
  Qed.

  (* drawing without any cache *)
  Definition pure_blurred (d : text_data) (r : run (PATH pl) (MASK pl)) (radius : bits) (s : state) : state :=
    match pl_tile pl (r_shaped r) (r_paths r) radius (td_color d) (r_outline r) (r_shadow r) (r_mask r) with
    | Some t => with_pix pl (pl_draw_tile pl t (f_sub pl (td_x d) (pl_pad pl radius)) (f_sub pl (f_sub pl (r_baseline_y r) (pl_pad pl radius)) (sh_ascent (r_shaped r))) (st_pix pl s)) s
    | None => s
    end.
  Definition pure_run (d : text_data) (r : run (PATH pl) (MASK pl)) (s : state) : state :=
    let s1 := run_pass pl POutline d r (run_pass pl PBox d r (run_pass pl PShadow d r s)) in
    let s2 := match r_blur r with
              | Some radius => pure_blurred d r radius s1
              | None => match r_karaoke r with Some _ => run_pass pl PKaraoke d r s1 | None => run_pass pl PPlain d r s1 end
              end in
    run_pass pl PDecorations d r s2.
  Definition pure_text (d : text_data) (s : state) : res unit * state :=
    match pl_shape pl db (shape_key d) with
    | Err => (Err, s)
    | Panic => (Panic, s)
    | Ok sh =>
      let by_ := f_add pl (td_y d) (sh_baseline sh) in
      let '(t, r3) := base_transform pl d sh by_ in
      match pl_font pl db (td_font d) (has is_bold d) (has is_italic d) (td_text d) with
      | Err => (Err, s)
      | Panic => (Panic, s)
      | Ok font =>
        match pl_face pl db font with
        | Err => (Err, s)
        | Panic => (Panic, s)
        | Ok _ =>
          let '(paths, t) := project_all pl (paths_of sh font (td_spacing d)) t r3 in
          match (match r3 with None => coverage_key pl d t by_ | Some _ => None end) with
          | Some a => composite_cached pl (rasterize_run pl paths (cv_local a) (widths (cv_outline a))) d by_ a s
          | None =>
            let s := match pl_bbox pl d paths t with Some b => with_dirty pl (note_dirty_bbox (st_dirty pl s) b) s | None => s end in
            (Ok tt, pure_run d (make_run pl d sh by_ paths t s) s)
          end
        end
      end
    end.

  Lemma view_eq s s' : view s' = view s -> st_sink pl s' = st_sink pl s /\ st_w pl s' = st_w pl s /\ st_h pl s' = st_h pl s /\ st_pix pl s' = st_pix pl s.
  Proof. unfold view. intros H. injection H. auto. Qed.

  Definition caches s := (st_shapes pl s, st_glyphs pl s, st_cover pl s, st_blurs pl s).
  Lemma caches_sound s s' : caches s' = caches s -> sound s -> sound s'.
  Proof. unfold caches. intros H S. injection H as E1 E2 E3 E4. eapply sound_same; eassumption. Qed.

  (* composite_cached looks at the sink and the pixmap only *)
  Lemma composite_cached_view ca d by_ a s s' : view s' = view s ->
    let '(r, t) := composite_cached pl ca d by_ a s in
    let '(r', t') := composite_cached pl ca d by_ a s' in
    r' = r /\ view t' = view t /\ st_dirty pl t' = st_dirty pl s' /\ st_dirty pl t = st_dirty pl s /\ caches t' = caches s'.
  Proof.
    intros V. destruct (view_eq _ _ V) as (E1 & E2 & E3 & E4). unfold composite_cached.
    destruct (emit_cached pl ca _ _ _ _ _ _) as [bs|]; [|repeat split; auto].
    rewrite E1. destruct (st_sink pl s) as [l|] eqn:Es.
    - unfold view. cbn. rewrite E2, E3, E4. repeat split; auto.
    - rewrite E2, E3, E4. destruct (blend_all pl _ _ bs _) as [p|]; [|repeat split; auto].
      unfold view. cbn. rewrite E1, E2, E3, Es. repeat split; auto.
  Qed.
  Lemma run_pass_view p d r s s' : view s' = view s ->
    view (run_pass pl p d r s') = view (run_pass pl p d r s) /\ caches (run_pass pl p d r s') = caches s' /\ st_dirty pl (run_pass pl p d r s') = st_dirty pl s'.
  Proof.
    intros V. destruct (view_eq _ _ V) as (E1 & E2 & E3 & E4). unfold run_pass. destruct (active pl p d r); [|auto].
    unfold view. cbn. rewrite E1, E2, E3, E4. auto.
  Qed.
  Lemma pure_blurred_view d r radius s s' : view s' = view s -> view (pure_blurred d r radius s') = view (pure_blurred d r radius s) /\ st_dirty pl (pure_blurred d r radius s') = st_dirty pl s'.
  Proof.
    intros V. destruct (view_eq _ _ V) as (E1 & E2 & E3 & E4). unfold pure_blurred. destruct (pl_tile pl _ _ _ _ _ _ _); [|auto].
    unfold view. cbn. rewrite E1, E2, E3, E4. auto.
  Qed.

  (* a blurred run drawn through the cache *)
  Lemma draw_blurred_pure d sh by_ paths t s0 radius s :
    sound s -> find_map get_blur (td_effects d) = Some radius ->
    source (td_text d) (td_font d) (td_size d) (td_spacing d) (has is_bold d) (has is_italic d) sh paths ->
    let r := make_run pl d sh by_ paths t s0 in
    view (draw_blurred pl d r radius s) = view (pure_blurred d r radius s) /\ sound (draw_blurred pl d r radius s) /\ st_dirty pl (draw_blurred pl d r radius s) = st_dirty pl s.
  Proof.
    intros S Hr Hsrc r. unfold draw_blurred, pure_blurred.
    assert (Eo : r_outline r = match bk_outline (blur_key d radius) with Some (x, y, c) => Some (c, x, y) | None => None end).
    { cbn. destruct (find_map get_outline (td_effects d)) as [[[c x] y]|]; reflexivity. }
    assert (Es : r_shadow r = bk_shadow (blur_key d radius)) by reflexivity.
    destruct (r_mask r) as [mk|] eqn:Em; cbn beta iota.
    - destruct (pl_tile pl _ _ _ _ _ _ _) as [tl|]; [|auto].
      split; [reflexivity|]. split; [same|reflexivity].
    - destruct (lookup bkey_dec (blur_key d radius) (st_blurs pl s)) as [tl|] eqn:L.
      + apply lookup_in in L. destruct (so_blurs _ S _ _ L) as (sh' & paths' & Hsrc' & Ht).
        cbn [bk_text bk_font bk_size bk_spacing bk_bold bk_italic bk_blur bk_fill blur_key] in Hsrc', Ht.
        destruct Hsrc as (H1 & f & u & H2 & H3 & H4), Hsrc' as (H1' & f' & u' & H2' & H3' & H4').
        rewrite H1 in H1'. injection H1' as <-. rewrite H2 in H2'. injection H2' as <-.
        assert (Ep : paths' = paths) by congruence. rewrite Ep in Ht.
        assert (T : pl_tile pl (r_shaped r) (r_paths r) radius (td_color d) (r_outline r) (r_shadow r) None = Some tl) by (rewrite Eo, Es; exact Ht).
        rewrite T. split; [reflexivity|]. split; [same|reflexivity].
      + destruct (pl_tile pl (r_shaped r) (r_paths r) radius (td_color d) (r_outline r) (r_shadow r) None) as [tl|] eqn:T; [|auto].
        split; [reflexivity|]. split; [|reflexivity].
        destruct S as [A B C D]. split; cbn; try assumption.
        intros k0 t0 Hin. apply in_bounded in Hin. destruct Hin as [Hin|Hin]; [|auto].
        injection Hin as -> ->. exists sh, paths. split; [assumption|].
        rewrite <- T. f_equal. symmetry. exact Eo.
  Qed.

  Lemma make_run_view d sh by_ paths t s s' : view s' = view s -> make_run pl d sh by_ paths t s' = make_run pl d sh by_ paths t s.
  Proof.
    intros V. destruct (view_eq _ _ V) as (E1 & E2 & E3 & E4). unfold make_run. f_equal.
    induction (td_effects d) as [|e es IH]; cbn [find_map]; [reflexivity|].
    replace (get_mask pl s' e) with (get_mask pl s e); [destruct (get_mask pl s e); [reflexivity|exact IH]|].
    unfold get_mask. rewrite E2, E3. reflexivity.
  Qed.

  Lemma draw_run_pure d sh by_ paths t s0 s s' :
    sound s -> view s' = view s -> st_dirty pl s' = st_dirty pl s ->
    (find_map get_blur (td_effects d) = None \/ source (td_text d) (td_font d) (td_size d) (td_spacing d) (has is_bold d) (has is_italic d) sh paths) ->
    let r := make_run pl d sh by_ paths t s0 in
    view (draw_run pl d r s) = view (pure_run d r s') /\ sound (draw_run pl d r s) /\ st_dirty pl (draw_run pl d r s) = st_dirty pl (pure_run d r s').
  Proof.
    intros S V D Hb r. unfold draw_run, pure_run.
    symmetry in V.
    destruct (run_pass_view PShadow d r _ _ V) as (V1 & C1 & D1).
    destruct (run_pass_view PBox d r _ _ V1) as (V2 & C2 & D2).
    destruct (run_pass_view POutline d r _ _ V2) as (V3 & C3 & D3).
    destruct (run_pass_view PShadow d r s' s' eq_refl) as (_ & _ & D1').
    destruct (run_pass_view PBox d r (run_pass pl PShadow d r s') _ eq_refl) as (_ & _ & D2').
    destruct (run_pass_view POutline d r (run_pass pl PBox d r (run_pass pl PShadow d r s')) _ eq_refl) as (_ & _ & D3').
    set (a := run_pass pl POutline d r (run_pass pl PBox d r (run_pass pl PShadow d r s))) in *.
    set (a' := run_pass pl POutline d r (run_pass pl PBox d r (run_pass pl PShadow d r s'))) in *.
    assert (Sa : sound a) by (eapply caches_sound; [|exact S]; congruence).
    assert (Da : st_dirty pl a = st_dirty pl a') by congruence.
    enough (G : forall b b', view b = view b' -> sound b -> st_dirty pl b = st_dirty pl b' ->
              view (run_pass pl PDecorations d r b) = view (run_pass pl PDecorations d r b') /\ sound (run_pass pl PDecorations d r b) /\
              st_dirty pl (run_pass pl PDecorations d r b) = st_dirty pl (run_pass pl PDecorations d r b')).
    { apply G.
      - destruct (r_blur r) as [radius|] eqn:Er.
        + destruct Hb as [Hb|Hb]; [cbn in Er; congruence|].
          destruct (draw_blurred_pure d sh by_ paths t s0 radius a Sa Er Hb) as (P & _ & _). fold r in P. rewrite P.
          apply pure_blurred_view. assumption.
        + destruct (r_karaoke r); apply run_pass_view; assumption.
      - destruct (r_blur r) as [radius|] eqn:Er.
        + destruct Hb as [Hb|Hb]; [cbn in Er; congruence|].
          destruct (draw_blurred_pure d sh by_ paths t s0 radius a Sa Er Hb) as (_ & P & _). exact P.
        + destruct (r_karaoke r); (eapply caches_sound; [eapply run_pass_view; reflexivity|assumption]).
      - destruct (r_blur r) as [radius|] eqn:Er.
        + destruct Hb as [Hb|Hb]; [cbn in Er; congruence|].
          destruct (draw_blurred_pure d sh by_ paths t s0 radius a Sa Er Hb) as (_ & _ & P). fold r in P. rewrite P.
          destruct (pure_blurred_view d r radius a' a' eq_refl) as (_ & P'). rewrite P'. assumption.
        + destruct (r_karaoke r).
          * destruct (run_pass_view PKaraoke d r a a eq_refl) as (_ & _ & P1). destruct (run_pass_view PKaraoke d r a' a' eq_refl) as (_ & _ & P2). congruence.
          * destruct (run_pass_view PPlain d r a a eq_refl) as (_ & _ & P1). destruct (run_pass_view PPlain d r a' a' eq_refl) as (_ & _ & P2). congruence. }
    intros b b' Vb Sb Db.
    destruct (run_pass_view PDecorations d r b' b Vb) as (P1 & P2 & P3).
    destruct (run_pass_view PDecorations d r b' b' eq_refl) as (_ & _ & P4).
    split; [assumption|]. split; [eapply caches_sound; eassumption|congruence].
  Qed.

  Lemma key_parts d t by_ a : coverage_key pl d t by_ = Some a ->
    ck_text (cv_key a) = td_text d /\ ck_font (cv_key a) = td_font d /\ ck_size (cv_key a) = td_size d /\ ck_spacing (cv_key a) = td_spacing d /\
    ck_bold (cv_key a) = has is_bold d /\ ck_italic (cv_key a) = has is_italic d /\ ck_tr (cv_key a) = cv_local a /\ ck_outline (cv_key a) = widths (cv_outline a) /\
    ~ blurred d.
  Proof.
    unfold coverage_key. destruct (scan_effects pl _ _ _) as [b|] eqn:E; [|discriminate]. intros H. injection H as <-. cbn.
    destruct (scan_flags _ _ _ _ E) as [F1 F2]. cbn in F1, F2. repeat split; auto.
    intros [r Hr]. eapply scan_no_blur in E. exact (E Hr).
  Qed.
  Lemma eligible_none {A} (f : effect -> option A) es :
    (forall e, blur_eligible e = true -> f e = None) -> forallb blur_eligible es = true -> find_map f es = None.
  Proof.
    intros Hf. induction es as [|e es IH]; cbn [forallb find_map]; [reflexivity|].
    intros H. apply andb_prop in H. destruct H as [H1 H2]. rewrite (Hf _ H1). auto.
  Qed.
  Lemma eligible_false (f : effect -> bool) es :
    (forall e, blur_eligible e = true -> f e = false) -> forallb blur_eligible es = true -> existsb f es = false.
  Proof.
    intros Hf. induction es as [|e es IH]; cbn [forallb existsb]; [reflexivity|].
    intros H. apply andb_prop in H. destruct H as [H1 H2]. rewrite (Hf _ H1). auto.
  Qed.
  (* a blurred run that is nothing but its tile *)
  Lemma eligible_run d sh by_ paths t s0 radius s :
    forallb blur_eligible (td_effects d) = true -> find_map get_blur (td_effects d) = Some radius ->
    let r := make_run pl d sh by_ paths t s0 in pure_run d r s = pure_blurred d r radius s.
  Proof.
    intros He Hb r. unfold pure_run, run_pass.
    assert (Hedge : r_edge r = None) by (apply (eligible_none get_edge); [intros []; cbn; congruence|exact He]).
    assert (Hblur : r_blur r = Some radius) by exact Hb.
    assert (H1 : active pl PShadow d r = false) by (cbn [active]; rewrite Hblur; reflexivity).
    assert (H2 : active pl PBox d r = false) by (cbn [active]; apply (eligible_false _ (td_effects d)); [intros []; cbn; congruence|exact He]).
    assert (H3 : active pl POutline d r = false) by (cbn [active]; rewrite Hblur, Hedge; cbn; apply Bool.andb_false_r).
    assert (H4 : active pl PDecorations d r = false).
    { cbn [active r_underline r_strike r make_run]. unfold has.
      rewrite (eligible_false is_underline), (eligible_false is_strike); [reflexivity| | | |]; try exact He; intros []; cbn; congruence. }
    rewrite H1, H2, H3, H4, Hblur. reflexivity.
  Qed.

  (* the caches stay sound, and if q holds the two ends look the same *)
  Definition same_end (q : Prop) (d : text_data) (x y : res unit * state) : Prop :=
    sound (snd x) /\ (q -> fst x = fst y /\ view (snd x) = view (snd y) /\ (~ blurred d -> st_dirty pl (snd x) = st_dirty pl (snd y))).

  Lemma vector_pure q d sh font u t0 r3 s s1 :
    sound s1 -> view s1 = view s -> st_dirty pl s1 = st_dirty pl s -> calm pl ok d ->
    pl_shape pl db (shape_key d) = Ok sh ->
    pl_font pl db (td_font d) (has is_bold d) (has is_italic d) (td_text d) = Ok font -> pl_face pl db font = Ok u ->
    base_transform pl d sh (f_add pl (td_y d) (sh_baseline sh)) = (t0, r3) ->
    let by_ := f_add pl (td_y d) (sh_baseline sh) in
    let '(paths, t) := project_all pl (paths_of sh font (td_spacing d)) t0 r3 in
    same_end q d
      (let s := match pl_bbox pl d paths t with Some b => with_dirty pl (note_dirty_bbox (st_dirty pl s1) b) s1 | None => s1 end in
       (Ok tt, draw_run pl d (make_run pl d sh by_ paths t s) s))
      (let s := match pl_bbox pl d paths t with Some b => with_dirty pl (note_dirty_bbox (st_dirty pl s) b) s | None => s end in
       (Ok tt, pure_run d (make_run pl d sh by_ paths t s) s)).
  Proof.
    intros S V D Hc Hsh Hf Hface Hb by_.
    destruct (project_all pl (paths_of sh font (td_spacing d)) t0 r3) as [paths t] eqn:Hp.
    cbv zeta.
    set (x := match pl_bbox pl d paths t with Some b => with_dirty pl (note_dirty_bbox (st_dirty pl s1) b) s1 | None => s1 end).
    set (y := match pl_bbox pl d paths t with Some b => with_dirty pl (note_dirty_bbox (st_dirty pl s) b) s | None => s end).
    assert (Sx : sound x) by (unfold x; destruct (pl_bbox pl d paths t); [same|assumption]).
    assert (Vx : view y = view x).
    { unfold x, y. destruct (pl_bbox pl d paths t); [|congruence]. unfold view in *. cbn. injection V as -> -> -> ->. reflexivity. }
    assert (Dx : st_dirty pl y = st_dirty pl x) by (unfold x, y; destruct (pl_bbox pl d paths t); cbn; congruence).
    rewrite (make_run_view d sh by_ paths t x y Vx).
    destruct (draw_run_pure d sh by_ paths t x x y Sx Vx Dx) as (P1 & P2 & P3).
    - destruct (find_map get_blur (td_effects d)) as [radius|] eqn:Er; [|left; reflexivity]. right.
      apply blur_in in Er. destruct Hc as [_ Hc]. destruct (Hc _ Er) as [_ Hflat].
      assert (Hr3 : r3 = None) by (rewrite <- (flat_none d sh by_ Hflat); fold by_ in Hb; rewrite Hb; reflexivity).
      subst r3. cbn [project_all] in Hp. injection Hp as <- <-.
      split; [exact Hsh|]. exists font, u. auto.
    - split; [assumption|]. intros _. split; [reflexivity|]. split; [assumption|]. intros _. assumption.
  Qed.

  Lemma stopped q d r s s1 : sound s1 -> view s1 = view s -> st_dirty pl s1 = st_dirty pl s -> same_end q d (r, s1) (r, s).
  Proof. intros S V D. split; [exact S|]. intros _. split; [reflexivity|]. split; [exact V|intros _; exact D]. Qed.
  Lemma draw_text_pure d s : sound s -> calm pl ok d ->
    same_end (st_sink pl s = None \/ ~ blurred d) d (draw_text_layer pl db d s) (pure_text d s).
  Proof.
    intros S Hc. set (q := st_sink pl s = None \/ ~ blurred d). unfold draw_text_layer, pure_text.
    pose proof (shape_cached db (shape_key d) s eq_refl S) as Hs.
    destruct (shape_text_cached pl db (shape_key d) s) as [r0 s1]. destruct Hs as (-> & S1 & V1 & D1).
    destruct (pl_shape pl db (shape_key d)) as [sh| |] eqn:Hsh; [|apply stopped; assumption..].
    cbv zeta. set (by_ := f_add pl (td_y d) (sh_baseline sh)).
    destruct (base_transform pl d sh by_) as [t r3] eqn:Hb.
    assert (Hsize : ok (sh_size sh)) by (rewrite (Hkept _ _ Hsh); apply Hc).
    assert (Hmiss : forall hit : option (res unit * state), hit = None ->
      (forall a, r3 = None -> coverage_key pl d t by_ = Some a -> lookup ckey_dec (cv_key a) (st_cover pl s1) = None) ->
      same_end q d
        match hit with
        | Some out => out
        | None =>
          match pl_font pl db (td_font d) (has is_bold d) (has is_italic d) (td_text d) with
          | Ok font =>
            match render_shaped_text pl db sh font (td_spacing d) s1 with
            | (Ok paths0, s2) =>
              let '(paths, t1) := project_all pl paths0 t r3 in
              match (if match r3 with Some _ => false | None => true end then coverage_miss pl d paths t1 by_ s2 else None) with
              | Some out => out
              | None =>
                let s3 := match pl_bbox pl d paths t1 with Some b => with_dirty pl (note_dirty_bbox (st_dirty pl s2) b) s2 | None => s2 end in
                (Ok tt, draw_run pl d (make_run pl d sh by_ paths t1 s3) s3)
              end
            | (Err, s2) => (Err, s2)
            | (Panic, s2) => (Panic, s2)
            end
          | Err => (Err, s1)
          | Panic => (Panic, s1)
          end
        end
        match pl_font pl db (td_font d) (has is_bold d) (has is_italic d) (td_text d) with
        | Ok font =>
          match pl_face pl db font with
          | Ok _ =>
            let '(paths, t1) := project_all pl (paths_of sh font (td_spacing d)) t r3 in
            match (match r3 with None => coverage_key pl d t1 by_ | Some _ => None end) with
            | Some a => composite_cached pl (rasterize_run pl paths (cv_local a) (widths (cv_outline a))) d by_ a s
            | None =>
              let s := match pl_bbox pl d paths t1 with Some b => with_dirty pl (note_dirty_bbox (st_dirty pl s) b) s | None => s end in
              (Ok tt, pure_run d (make_run pl d sh by_ paths t1 s) s)
            end
          | Err => (Err, s)
          | Panic => (Panic, s)
          end
        | Err => (Err, s)
        | Panic => (Panic, s)
        end).
    { intros hit -> Hno.
      destruct (pl_font pl db (td_font d) (has is_bold d) (has is_italic d) (td_text d)) as [font| |] eqn:Hf; [|apply stopped; assumption..].
      pose proof (render_cached sh font (td_spacing d) s1 Hsize S1) as Hr.
      destruct (render_shaped_text pl db sh font (td_spacing d) s1) as [r2 s2].
      destruct Hr as (-> & S2 & V2 & D2 & C2 & _).
      assert (V : view s2 = view s) by congruence. assert (D : st_dirty pl s2 = st_dirty pl s) by congruence.
      destruct (pl_face pl db font) as [u| |] eqn:Hface; [|apply stopped; assumption..].
      pose proof (vector_pure q d sh font u t r3 s s2 S2 V D Hc Hsh Hf Hface Hb) as Hv. cbv zeta in Hv. fold by_ in Hv.
      destruct r3 as [r3|].
      { destruct (project_all pl (paths_of sh font (td_spacing d)) t (Some r3)) as [paths t1]. exact Hv. }
      cbn [project_all] in *. unfold coverage_miss.
      destruct (coverage_key pl d t by_) as [a|] eqn:K; [|exact Hv].
      cbv zeta. rewrite C2, (Hno a eq_refl eq_refl). cbn [st_cover with_cover].
      unfold bounded_insert at 1. rewrite lookup_cons.
      set (paths := paths_of sh font (td_spacing d)). set (ca := rasterize_run pl paths (cv_local a) (widths (cv_outline a))).
      set (s3 := with_cover pl _ s2).
      pose proof (composite_cached_view ca d by_ a s s3 V) as Hcc.
      destruct (composite_cached pl ca d by_ a s) as [r x], (composite_cached pl ca d by_ a s3) as [r' x'].
      destruct Hcc as (-> & Vx & Dx & Dy & Cx). split; [|intros _; split; [reflexivity|]; split; [exact Vx|]; intros _; cbn [snd]; cbn [st_dirty with_cover s3] in *; congruence].
      cbn [snd]. eapply caches_sound; [exact Cx|].
      destruct S2 as [A B C E]. split; cbn; try assumption.
      intros k0 ca0 Hin. apply in_bounded in Hin. destruct Hin as [Hin|Hin]; [|rewrite <- C2 in Hin; auto].
      injection Hin as -> ->. destruct (key_parts _ _ _ _ K) as (-> & -> & -> & -> & -> & -> & -> & -> & _).
      exists sh, paths. split; [|reflexivity]. split; [exact Hsh|]. exists font, u. auto. }
    assert (Hhit : forall text font size spacing bold italic sh' paths,
      source text font size spacing bold italic sh' paths -> text = td_text d -> font = td_font d -> size = td_size d -> spacing = td_spacing d ->
      bold = has is_bold d -> italic = has is_italic d ->
      exists f u, sh' = sh /\ pl_font pl db (td_font d) (has is_bold d) (has is_italic d) (td_text d) = Ok f /\ pl_face pl db f = Ok u /\ paths = paths_of sh f (td_spacing d)).
    { intros text font size spacing bold italic sh' paths (H1 & f & u & H2 & H3 & H4) -> -> -> -> -> ->.
      unfold shape_key in Hsh. rewrite Hsh in H1. injection H1 as <-. exists f, u. auto. }
    destruct r3 as [r3|].
    { apply (Hmiss None eq_refl). intros a Hn. discriminate Hn. }
    unfold coverage_hit. destruct (coverage_key pl d t by_) as [a|] eqn:K.
    - destruct (lookup ckey_dec (cv_key a) (st_cover pl s1)) as [ca|] eqn:L.
      + apply lookup_in, (so_cover _ S1) in L. destruct L as (sh' & paths & Hsrc & ->).
        destruct (key_parts _ _ _ _ K) as (E1 & E2 & E3 & E4 & E5 & E6 & E7 & E8 & _).
        destruct (Hhit _ _ _ _ _ _ _ _ Hsrc E1 E2 E3 E4 E5 E6) as (f & u & -> & Hf & Hface & ->).
        rewrite Hf, Hface. cbn [project_all]. rewrite K, E7, E8.
        set (ca := rasterize_run pl _ _ _).
        pose proof (composite_cached_view ca d by_ a s s1 V1) as Hcc.
        destruct (composite_cached pl ca d by_ a s) as [r x], (composite_cached pl ca d by_ a s1) as [r' x'].
        destruct Hcc as (-> & Vx & Dx & Dy & Cx). split; [|intros _; split; [reflexivity|]; split; [exact Vx|]; intros _; cbn [snd]; congruence].
        eapply caches_sound; eassumption.
      + destruct (key_parts _ _ _ _ K) as (_ & _ & _ & _ & _ & _ & _ & _ & Hnb).
        assert (Hfb : blur_tile_hit pl d by_ (sh_ascent sh) s1 = None).
        { unfold blur_tile_hit. destruct (negb _); [reflexivity|]. rewrite no_blur; [reflexivity|]. intros r Hr. apply Hnb. exists r. exact Hr. }
        apply (Hmiss _ Hfb). intros a' _ E. injection E as <-. exact L.
    - destruct (blur_tile_hit pl d by_ (sh_ascent sh) s1) as [out|] eqn:B.
      + unfold blur_tile_hit in B. destruct (negb (forallb blur_eligible (td_effects d))) eqn:He; [discriminate|]. apply Bool.negb_false_iff in He.
        destruct (find_map get_blur (td_effects d)) as [radius|] eqn:Er; [|discriminate].
        destruct (lookup bkey_dec (blur_key d radius) (st_blurs pl s1)) as [tl|] eqn:L; [|discriminate].
        pose proof (blur_in _ _ Er) as Hin. destruct Hc as [Hok Hc]. destruct (Hc _ Hin) as [Hpad _].
        split.
        { destruct (st_sink pl s1); injection B as <-; cbn [snd]; same. }
        intros Hsink. unfold q in Hsink.
        assert (Hs0 : st_sink pl s = None) by (destruct Hsink as [?|Hnb]; [assumption|exfalso; apply Hnb; exists radius; exact Hin]).
        assert (Hs1 : st_sink pl s1 = None) by (destruct (view_eq _ _ V1) as (E & _); congruence).
        rewrite Hs1 in B. injection B as <-.
        apply lookup_in, (so_blurs _ S1) in L. destruct L as (sh' & paths & Hsrc & Ht).
        destruct (Hhit _ _ _ _ _ _ _ _ Hsrc eq_refl eq_refl eq_refl eq_refl eq_refl eq_refl) as (f & u & -> & Hf & Hface & ->).
        rewrite Hf, Hface. cbn [project_all]. rewrite K.
        set (y := match pl_bbox pl d _ t with Some b => with_dirty pl (note_dirty_bbox (st_dirty pl s) b) s | None => s end).
        assert (Vy : view y = view s) by (unfold y; destruct (pl_bbox pl d _ t); reflexivity).
        rewrite (eligible_run d sh by_ _ t y radius y He Er).
        split; [reflexivity|]. split.
        2:{ intros Hnb. exfalso. apply Hnb. exists radius. exact Hin. }
        cbn [snd]. unfold pure_blurred.
        set (r := make_run pl d sh by_ _ t y).
        assert (Em : r_mask r = None) by (apply (eligible_none (get_mask pl y)); [intros []; cbn; congruence|exact He]).
        assert (Eo : r_outline r = match bk_outline (blur_key d radius) with Some (x, y, c) => Some (c, x, y) | None => None end)
          by (cbn; destruct (find_map get_outline (td_effects d)) as [[[c x] z]|]; reflexivity).
        rewrite Em, Eo.
        match goal with |- context [pl_tile pl ?a ?b ?c ?e ?g ?h ?i] => replace (pl_tile pl a b c e g h i) with (Some tl) by (symmetry; exact Ht) end.
        destruct (view_eq _ _ V1) as (F1 & F2 & F3 & F4). destruct (view_eq _ _ Vy) as (G1 & G2 & G3 & G4).
        unfold view. cbn [with_pix st_sink st_w st_h st_pix r_shaped r_baseline_y r make_run]. rewrite Hpad, F1, F2, F3, F4, G1, G2, G3, G4. reflexivity.
      + apply (Hmiss None eq_refl). intros a' _ E. discriminate.
  Qed.
End Proofs.
