(* The GPU compositor: runs of calls. *)
From Verif Require Import Base PixelModel FloatModel GpuModel GpuSpec GpuProofs GpuTiles GpuCalls.
From Verif Require Import FrameProofs.
From Verif Require FrameModel.

Lemma inv_bufs dv s s' c : inv dv s c -> textures s' = textures s -> bufs s s' -> inv dv s' c.
Proof.
  intros [I1 I2 I3 I4 I5 I6 I7 I8] T B. split; auto.
  - eapply uniforms_mono; eassumption.
  - eapply tiles_grow; [|exact I3]. intros i _. rewrite T. reflexivity.
  - intros i Hi. rewrite T. auto.
  - intros g E. destruct (I6 g E) as (p & H). exists p. eapply has_target_mono; [exact H|rewrite T; reflexivity|exact B].
  - intros g E. destruct (I7 g E) as (p & H). exists p. eapply has_target_mono; [exact H|rewrite T; reflexivity|exact B].
  - intros x E. rewrite T. auto.
Qed.
Lemma layer_bufs dv s s' c v : layer_rel dv s c v -> textures s' = textures s -> bufs s s' -> layer_rel dv s' c v.
Proof.
  intros L T B. unfold layer_rel in *. destruct (c_layer c), v as [[[x y] p]|]; auto. destruct L as (P & Q & R).
  split; [exact P|]. split; [exact Q|]. eapply has_target_mono; [exact R|rewrite T; reflexivity|exact B].
Qed.
Lemma apart_target dv s c g gl : inv dv s c -> c_target c = Some g -> c_layer c = Some gl -> g_tex gl <> g_tex g.
Proof.
  intros I E F H. pose proof (NoDup_app_r _ _ (i_nodup _ _ _ I)) as N. unfold keep_ids in N. rewrite E, F in N. cbn [otex app] in N.
  inversion N as [|? ? A]. apply A. left. exact H.
Qed.
Lemma apart_screen dv s c x gl : inv dv s c -> c_screen c = Some x -> c_layer c = Some gl -> g_tex gl <> s_tex x.
Proof.
  intros I E F H. pose proof (NoDup_app_r _ _ (i_nodup _ _ _ I)) as N. unfold keep_ids in N. apply NoDup_app_r in N. rewrite E, F in N. cbn [otex oscr app] in N.
  inversion N as [|? ? A]. apply A. left. symmetry. exact H.
Qed.
Lemma apart_screen_target dv s c x g : inv dv s c -> c_screen c = Some x -> c_target c = Some g -> g_tex g <> s_tex x.
Proof.
  intros I E F H. pose proof (NoDup_app_r _ _ (i_nodup _ _ _ I)) as N. unfold keep_ids in N. rewrite E, F in N. cbn [otex oscr app] in N.
  inversion N as [|? ? A]. apply A. apply in_app_iff. right. left. symmetry. exact H.
Qed.
Definition same_layer (c c' : comp) : Prop := c_layer c' = c_layer c.
Lemma layer_same dv s c c' v : same_layer c c' -> layer_rel dv s c v -> layer_rel dv s c' v.
Proof. unfold same_layer, layer_rel. intros ->. auto. Qed.


Lemma composite_ok dv s c v bs w h m : device_ok dv -> inv dv s c -> layer_rel dv s c v -> frame_ok dv bs w h ->
  exists s1 c1, composite dv s c bs w h m = Some (s1, c1, if m then Bytes (picture dv bs w h) else Failed MapFailed) /\ inv dv s1 c1 /\ layer_rel dv s1 c1 v.
Proof.
  intros D I L (S & Hb & B & C1 & C2). unfold composite. destruct S as [[W1 W2] [H1 H2]].
  rewrite (proj2 (N.eqb_neq w 0)), (proj2 (N.eqb_neq h 0)) by lia. cbn [orb].
  destruct (ensure_target_ok dv s c w h v D I L (conj (conj W1 W2) (conj H1 H2)) Hb) as (s1 & c1 & g & -> & Eg & Ew & Eh & I1 & L1 & _).
  destruct (prepare_tiles_ok dv s1 c1 bs w h D I1 B C1 C2) as (s2 & u & pool & tiles & -> & Bu & Pr & P & ND & W & U & F & Hu).
  cbn [c_target]. rewrite Eg. pose proof (in_keep_target _ _ Eg) as Ig.
  destruct (i_target _ _ _ I1 g Eg) as (px & Hpx).
  assert (Hpx2 : has_target dv s2 g px) by (eapply has_target_mono; [exact Hpx|apply Pr; exact Ig|exact Bu]).
  assert (NI : ~ In (g_tex g) (map tl_tex tiles)).
  { rewrite map_app in ND. destruct (tiles_apart _ _ _ ND) as (_ & _ & N3). apply N3. exact Ig. }
  set (c2 := Co (c_stride c1) (Some g) (c_layer c1) (c_screen c1) u pool (c_present c1)) in *.
  rewrite (pass_ok dv s2 c2 bs tiles (g_tex g) w h px D (i_stride _ _ _ I1) C1 F Hu U NI).
  2:{ destruct Hpx2 as (_ & E & _). rewrite E, Ew, Eh. reflexivity. }
  set (t3 := Tex RGBA8 w h (picture dv bs w h)).
  assert (Hp3 : has_target dv (set_tex s2 (g_tex g) t3) g (picture dv bs w h)).
  { eapply redrawn; eauto. apply picture_length. exact D. }
  destruct (read_back_ok dv _ g _ D Hp3) as (s4 & -> & -> & T4 & _ & B4).
  assert (AP : forall rest, rest = [] \/ rest = rev tiles ->
    inv dv (set_tex s2 (g_tex g) t3) (Co (c_stride c1) (Some g) (c_layer c1) (c_screen c1) u (rest ++ pool) (c_present c1)) /\
    layer_rel dv (set_tex s2 (g_tex g) t3) c1 v).
  { intros rest HR. edestruct (after_pass dv s1 c1 v u pool tiles (g_tex g) t3 rest I1 s2 Bu Pr P ND W U HR Ig) as [Q1 Q2].
    - intros g0 px0 E0 _ _. assert (g0 = g) by congruence. subst g0. eauto.
    - intros g0 px0 E0 T0 _. exfalso. exact (apart_target dv s1 c1 g g0 I1 Eg E0 T0).
    - rewrite Eg in Q1. split; [exact Q1|]. destruct (c_layer c1) as [gl|] eqn:El; [apply (Q2 gl eq_refl); [exact (apart_target dv s1 c1 g gl I1 Eg El)|exact L1]|].
      unfold layer_rel in *. rewrite El in *. exact L1. }
  destruct m.
  - exists s4, (with_pool c2 (release (c_pool c2) tiles)). split; [reflexivity|]. destruct (AP (rev tiles) (or_intror eq_refl)) as [Q1 Q2].
    unfold with_pool, release, c2. cbn [c_pool c_stride c_target c_layer c_screen c_uniforms c_present].
    split; [eapply inv_bufs; [exact Q1|exact T4|exact B4]|]. eapply layer_bufs; [eapply layer_same; [|exact Q2]; reflexivity|exact T4|exact B4].
  - exists s4, c2. split; [reflexivity|]. destruct (AP [] (or_introl eq_refl)) as [Q1 Q2].
    split; [eapply inv_bufs; [exact Q1|exact T4|exact B4]|]. eapply layer_bufs; [eapply layer_same; [|exact Q2]; reflexivity|exact T4|exact B4].
Qed.

Lemma render_ok dv s c bs w h : device_ok dv -> inv dv s c -> frame_ok dv bs w h ->
  exists s1 c1, render_layer dv s c bs w h = Some (s1, c1, Done) /\ inv dv s1 c1 /\ layer_rel dv s1 c1 (Some (w, h, picture dv bs w h)).
Proof.
  intros D I (S & Hb & B & C1 & C2). unfold render_layer. destruct S as [[W1 W2] [H1 H2]].
  rewrite (proj2 (N.eqb_neq w 0)), (proj2 (N.eqb_neq h 0)) by lia. cbn [orb].
  destruct (ensure_layer_ok dv s c w h D I (conj (conj W1 W2) (conj H1 H2)) Hb) as (s1 & c1 & g & -> & Eg & Ew & Eh & I1).
  destruct (prepare_tiles_ok dv s1 c1 bs w h D I1 B C1 C2) as (s2 & u & pool & tiles & -> & Bu & Pr & P & ND & W & U & F & Hu).
  cbn [c_layer]. rewrite Eg. pose proof (in_keep_layer _ _ Eg) as Ig.
  destruct (i_layer _ _ _ I1 g Eg) as (px & Hpx).
  assert (Hpx2 : has_target dv s2 g px) by (eapply has_target_mono; [exact Hpx|apply Pr; exact Ig|exact Bu]).
  assert (NI : ~ In (g_tex g) (map tl_tex tiles)).
  { rewrite map_app in ND. destruct (tiles_apart _ _ _ ND) as (_ & _ & N3). apply N3. exact Ig. }
  set (c2 := Co (c_stride c1) (c_target c1) (Some g) (c_screen c1) u pool (c_present c1)) in *.
  rewrite (pass_ok dv s2 c2 bs tiles (g_tex g) w h px D (i_stride _ _ _ I1) C1 F Hu U NI).
  2:{ destruct Hpx2 as (_ & E & _). rewrite E, Ew, Eh. reflexivity. }
  set (t3 := Tex RGBA8 w h (picture dv bs w h)).
  assert (Hp3 : has_target dv (set_tex s2 (g_tex g) t3) g (picture dv bs w h)).
  { eapply redrawn; eauto. apply picture_length. exact D. }
  edestruct (after_pass dv s1 c1 None u pool tiles (g_tex g) t3 (rev tiles) I1 s2 Bu Pr P ND W U (or_intror eq_refl) Ig) as [Q1 _].
  - intros g0 px0 E0 T0 _. exfalso. exact (apart_target dv s1 c1 g0 g I1 E0 Eg (eq_sym T0)).
  - intros g0 px0 E0 _ _. assert (g0 = g) by congruence. subst g0. eauto.
  - rewrite Eg in Q1. eexists _, _. split; [reflexivity|]. split; [exact Q1|]. unfold layer_rel. cbn [with_pool c_layer c2].
    split; [symmetry; exact Ew|]. split; [symmetry; exact Eh|]. exact Hp3.
Qed.

Lemma bytes_ok dv s c v m : device_ok dv -> inv dv s c -> layer_rel dv s c v ->
  exists s1, layer_to_bytes s c m = Some (s1, match v with None => Failed NoLayer | Some (_, _, px) => if m then Bytes px else Failed MapFailed end) /\
    inv dv s1 c /\ layer_rel dv s1 c v.
Proof.
  intros D I L. unfold layer_to_bytes. unfold layer_rel in L. destruct (c_layer c) as [g|] eqn:E, v as [[[x y] px]|]; try contradiction.
  - destruct L as (A & B & H). destruct (read_back_ok dv s g px D H) as (s1 & -> & -> & T & _ & Bu). exists s1.
    split; [destruct m; reflexivity|]. split; [eapply inv_bufs; eassumption|]. eapply layer_bufs; [|exact T|exact Bu]. unfold layer_rel. rewrite E. auto.
  - exists s. split; [reflexivity|]. split; [exact I|]. unfold layer_rel. rewrite E. exact I0 || exact Logic.I.
Qed.

Lemma full_ok dv : device_ok dv -> forall n slot b, List.length b = (slot + n) * N.to_nat (stride_of dv) ->
  exists b1, full_uniforms dv (N.to_nat (stride_of dv)) slot n b = Some b1 /\ List.length b1 = List.length b /\
    firstn (slot * N.to_nat (stride_of dv)) b1 = firstn (slot * N.to_nat (stride_of dv)) b /\
    forall j, j < n -> sub_slice ((slot + j) * N.to_nat (stride_of dv)) 48 b1 = Some (d_ubytes dv full_frame).
Proof.
  intros D. destruct (stride_bounds dv D) as ([S1 S2] & _ & _). set (st := N.to_nat (stride_of dv)) in *. pose proof (o_ubytes _ D full_frame) as Lu.
  induction n as [|n IH]; intros slot b L; cbn [full_uniforms].
  - exists b. repeat split; auto. intros j Hj. lia.
  - destruct (copy_at (slot * st) (d_ubytes dv full_frame) b) as [b0|] eqn:E; [|rewrite copy_some in E by (rewrite Lu; nia); discriminate].
    destruct (copy_facts _ _ _ _ E) as (L0 & F0 & Sub & _). rewrite Lu in Sub.
    destruct (IH (S slot) b0 ltac:(lia)) as (b1 & -> & L1 & F1 & H1). exists b1. split; [reflexivity|]. split; [lia|]. split.
    + rewrite <- F0. replace (firstn (slot * st) b1) with (firstn (slot * st) (firstn (S slot * st) b1)) by (rewrite firstn_firstn; f_equal; lia).
      rewrite F1, firstn_firstn. f_equal. lia.
    + intros [|j] Hj.
      * rewrite Nat.add_0_r, (sub_firstn (slot * st) 48 (S slot * st) b1 b0) by (try lia; exact F1). exact Sub.
      * rewrite <- (H1 j ltac:(lia)). f_equal. lia.
Qed.

Definition back_of (us : list texture) (bg : backdrop) (b : background) : Prop :=
  match bg, b with
  | BgColour c, Clear c' => c = c'
  | BgTexture i, Behind t => nth_error us i = Some t
  | _, _ => False
  end.
Lemma user_bg_ok v bg on : bg_ok v bg on -> exists b, user_bg (v_user v) bg on = Some b /\ back_of (v_user v) bg b.
Proof.
  destruct bg as [c|i]; cbn [bg_ok user_bg]; [intros _; exists (Clear c); split; reflexivity|]. intros [H Ne].
  replace (match on with Some j => i =? j | None => false end) with false.
  2:{ destruct on as [j|]; [|reflexivity]. symmetry. apply Nat.eqb_neq. congruence. }
  destruct (nth_error (v_user v) i) as [t|] eqn:E; [exists (Behind t); split; [reflexivity|exact E]|]. apply nth_error_None in E. lia.
Qed.
Lemma encode_ok dv s c us bg b tgt g px u : device_ok dv -> c_stride c = stride_of dv -> back_of us bg b ->
  c_uniforms c = Some u -> (exists buf, nth_error (buffers s) (fst u) = Some buf /\ N.to_nat (stride_of dv * quads_of b) <= List.length buf) ->
  c_layer c = Some g -> nth_error (textures s) (g_tex g) = Some (Tex RGBA8 (g_w g) (g_h g) px) ->
  exists s1, encode dv s c b tgt = Some (s1, inl (shown dv us bg (g_w g) (g_h g) px tgt)) /\ textures s1 = textures s /\ bufs s s1.
Proof.
  intros D Es Hb Eu (buf & Eb & Lb) Eg Et. destruct (stride_bounds dv D) as ([S1 S2] & Sa & S4). pose proof (o_align _ D) as [A _].
  unfold encode. rewrite Es, Eu. destruct u as [i cap]. cbn [fst] in Eb.
  destruct (full_ok dv D (N.to_nat (quads_of b)) 0 (repeat 0%N (N.to_nat (stride_of dv) * N.to_nat (quads_of b)))) as (bytes & -> & Lby & _ & Hf).
  { rewrite repeat_length. lia. }
  rewrite repeat_length in Lby. unfold write_buffer. rewrite Eb.
  assert (M4 : (N.of_nat (List.length bytes) mod 4 = 0)%N).
  { rewrite Lby. replace (N.of_nat (N.to_nat (stride_of dv) * N.to_nat (quads_of b))) with (quads_of b * stride_of dv)%N by lia.
    rewrite N.mul_mod, S4, N.mul_0_r by lia. reflexivity. }
  rewrite M4, N.eqb_refl. cbn [negb].
  destruct (copy_at 0 bytes buf) as [b1|] eqn:Ec; [|rewrite copy_some in Ec by (rewrite Lby; lia); discriminate].
  destruct (copy_facts _ _ _ _ Ec) as (Lb1 & _ & Sub & Le). rewrite sub_some in Sub by lia. cbn [skipn] in Sub.
  assert (Sub' : firstn (List.length bytes) b1 = bytes) by congruence.
  assert (Li : i < List.length (buffers s)) by (apply nth_error_Some; congruence).
  cbn [set_buf buffers textures]. rewrite upd_same by exact Li. rewrite Eg, Et.
  assert (Hs : forall j, j < N.to_nat (quads_of b) -> sub_slice (j * N.to_nat (stride_of dv)) 48 b1 = Some (d_ubytes dv full_frame)).
  { intros j Hj. rewrite <- (Hf j Hj). cbn [plus]. apply (sub_firstn _ _ (List.length bytes)); [rewrite Lby; nia|lia| |lia]. rewrite Sub', firstn_all. reflexivity. }
  assert (Hbound0 : bound dv b1 0 = Some (d_ubytes dv full_frame)).
  { unfold bound. rewrite N.mod_0_l, N.eqb_refl by lia. apply (Hs 0). destruct b; cbn; lia. }
  assert (Bu : bufs s (St (textures s) (upd i b1 (buffers s)))).
  { intros k x Ek. cbn [buffers]. destruct (Nat.eq_dec i k) as [<-|Ne].
    - exists b1. rewrite upd_same by exact Li. split; [reflexivity|]. congruence.
    - exists x. rewrite upd_other by exact Ne. auto. }
  destruct bg as [k|k], b as [k'|bt]; cbn [back_of] in Hb; try contradiction.
  - subst k'. rewrite Hbound0. eexists. split; [reflexivity|]. split; [reflexivity|exact Bu].
  - unfold add32. rewrite (proj2 (N.ltb_lt _ _)) by lia. rewrite Hbound0, N.add_0_l.
    assert (Hbound1 : bound dv b1 (stride_of dv) = Some (d_ubytes dv full_frame)).
    { unfold bound. rewrite Sa, N.eqb_refl. rewrite <- (Hs 1) by (cbn; lia). f_equal. lia. }
    rewrite Hbound1. eexists. split; [unfold shown, bg_texture; rewrite Hb; reflexivity|]. split; [reflexivity|exact Bu].
Qed.

Lemma matches_fits dv s c v w h : layer_rel dv s c v ->
  match (match v with Some (x, y, px) => if ((x =? w) && (y =? h))%N then Some px else None | None => None end) with
  | Some px => matches (c_layer c) w h = true /\ exists g, c_layer c = Some g /\ g_w g = w /\ g_h g = h /\ has_target dv s g px
  | None => matches (c_layer c) w h = false
  end.
Proof.
  unfold layer_rel, matches. destruct (c_layer c) as [g|], v as [[[x y] px]|]; try contradiction; try reflexivity.
  intros (-> & -> & H). destruct (N.eqb_spec (g_w g) w), (N.eqb_spec (g_h g) h); cbn [andb]; try reflexivity. split; [reflexivity|]. eauto 10.
Qed.
Lemma ensure_uniforms_inv dv s c n v : device_ok dv -> inv dv s c -> layer_rel dv s c v -> (1 <= n <= 2)%N ->
  exists s1 c1 i cap buf, ensure_uniforms dv s c n = Some (s1, c1) /\ textures s1 = textures s /\ bufs s s1 /\
    c1 = Co (c_stride c) (c_target c) (c_layer c) (c_screen c) (Some (i, cap)) (c_pool c) (c_present c) /\ inv dv s1 c1 /\ layer_rel dv s1 c1 v /\
    nth_error (buffers s1) i = Some buf /\ N.to_nat (stride_of dv * n) <= List.length buf.
Proof.
  intros D I L Hn. destruct (stride_bounds dv D) as ([S1 S2] & _ & _). pose proof (o_buf _ D) as OB.
  destruct (ensure_uniforms_ok dv s c n D (i_stride _ _ _ I) (i_uniforms _ _ _ I) ltac:(lia) ltac:(nia)) as (s1 & c1 & u & E & T & Bu & Ec & U & Hu).
  destruct Hu as [Hu|(i & b & [cap ->] & Eb & Lb)]; [lia|]. assert (B : bufs s s1) by (intros k x Ek; eauto).
  exists s1, c1, i, cap, b. split; [exact E|]. split; [exact T|]. split; [exact B|]. split; [exact Ec|].
  pose proof (inv_bufs _ _ _ _ I T B) as [J1 J2 J3 J4 J5 J6 J7 J8]. subst c1. split; [split; auto|]. split; [|auto].
  eapply layer_same; [|eapply layer_bufs; [exact L|exact T|exact B]]. reflexivity.
Qed.

Lemma present_over_ok dv s c us v bg b w h : device_ok dv -> inv dv s c -> layer_rel dv s c v -> back_of us bg b ->
  exists s1 c1, present_over dv s c b w h = Some (s1, c1,
      if zero_size w h then Failed InvalidDimensions else
      match (match v with Some (x, y, px) => if ((x =? w) && (y =? h))%N then Some px else None | None => None end) with Some _ => Done | None => Failed NoMatchingLayer end) /\
    inv dv s1 c1 /\ layer_rel dv s1 c1 v.
Proof.
  intros D I L Hb. unfold present_over. fold (zero_size w h). destruct (zero_size w h); [eauto 10|].
  pose proof (matches_fits dv s c v w h L) as MF. destruct (match v with Some _ => _ | None => None end) as [px|] eqn:Ev; [|rewrite MF; cbn [negb]; eauto 10].
  destruct MF as (-> & g & Eg & Ew & Eh & Hg). cbn [negb].
  assert (ES : exists s1 c1 x, ensure_screen dv s c w h = Some (s1, c1) /\ c_screen c1 = Some x /\ c_layer c1 = c_layer c /\ inv dv s1 c1 /\ layer_rel dv s1 c1 v).
  { unfold ensure_screen. destruct (match c_screen c with Some x => _ | None => false end) eqn:M.
    - destruct (c_screen c) as [x|] eqn:E; [|discriminate]. exists s, c, x. auto 10.
    - assert (Sz : size_ok dv w h) by (destruct Hg as (Sz & _); rewrite Ew, Eh in Sz; exact Sz). rewrite create_texture_ok by exact Sz.
      do 2 eexists. exists (Sc w h (List.length (textures s))). split; [reflexivity|]. split; [reflexivity|]. split; [reflexivity|].
      set (s1 := St _ _). assert (Gr : forall i, i < List.length (textures s) -> nth_error (textures s1) i = nth_error (textures s) i) by (intros i Hi; apply nth_app_keep; exact Hi).
      assert (Bu : bufs s s1) by (apply bufs_refl; reflexivity).
      destruct I as [I1 I2 I3 I4 I5 I6 I7 I8]. split.
      + split; cbn [c_stride c_uniforms c_pool c_target c_layer c_screen].
        * exact I1.
        * eapply uniforms_mono; eassumption.
        * eapply tiles_grow; eassumption.
        * unfold keep_ids in *. cbn [c_target c_layer c_screen oscr s_tex] in *. rewrite !app_assoc in *.
          assert (X : NoDup ((map tl_tex (c_pool c) ++ otex (c_target c)) ++ otex (c_layer c))).
          { destruct (c_screen c); cbn [oscr] in I4; [|rewrite app_nil_r in I4; exact I4]. apply NoDup_remove_1 in I4. rewrite app_nil_r in I4. exact I4. }
          apply NoDup_Add with (a := List.length (textures s)) (l := (map tl_tex (c_pool c) ++ otex (c_target c)) ++ otex (c_layer c) ++ []).
          { rewrite app_assoc. apply Add_app. }
          rewrite app_nil_r. split; [exact X|]. intros Ix. assert (List.length (textures s) < List.length (textures s)); [|lia]. apply I5.
          rewrite !in_app_iff in *. tauto.
        * intros x Ix. unfold s1. cbn [textures]. rewrite app_length. cbn [List.length]. unfold keep_ids in Ix. cbn [c_target c_layer c_screen oscr s_tex] in Ix. rewrite !in_app_iff in Ix. cbn [In] in Ix.
          destruct Ix as [Ix|[Ix|[Ix|[<-|[]]]]]; [| | |lia]; (assert (x < List.length (textures s)); [apply I5; unfold keep_ids; rewrite !in_app_iff in *; tauto|lia]).
        * intros gl El. destruct (I6 gl El) as (p & Hp). exists p. eapply grow_target; eassumption.
        * intros gl El. destruct (I7 gl El) as (p & Hp). exists p. eapply grow_target; eassumption.
        * intros x [= <-]. eexists. cbn [s_tex]. apply nth_app_new.
      + unfold layer_rel in *. cbn [c_layer]. destruct (c_layer c), v as [[[? ?] ?]|]; auto. destruct L as (P & Q & R). split; [exact P|]. split; [exact Q|]. eapply grow_target; eassumption. }
  destruct ES as (s1 & c1 & x & -> & Ex & El & I1 & L1).
  destruct (ensure_uniforms_inv dv s1 c1 (quads_of b) v D I1 L1 ltac:(destruct b; cbn; lia)) as (s2 & c2 & i & cap & buf & -> & T2 & B2 & Ec2 & I2 & L2 & Eb & Lb).
  assert (Ex2 : c_screen c2 = Some x) by (rewrite Ec2; exact Ex). assert (Eg2 : c_layer c2 = Some g) by (rewrite Ec2; cbn; congruence).
  rewrite Ex2. destruct (i_screen _ _ _ I2 x Ex2) as (t & Et). rewrite Et.
  pose proof L2 as L2'. unfold layer_rel in L2'. rewrite Eg2 in L2'. destruct v as [[[vx vy] vp]|]; [|discriminate]. destruct L2' as (_ & _ & Hg2).
  pose proof Hg2 as (_ & Etex & _).
  destruct (encode_ok dv s2 c2 us bg b t g vp (i, cap) D (i_stride _ _ _ I2) Hb ltac:(rewrite Ec2; reflexivity) (ex_intro _ buf (conj Eb Lb)) Eg2 Etex) as (s3 & -> & T3 & B3).
  pose proof (inv_bufs _ _ _ _ I2 T3 B3) as I3. pose proof (layer_bufs _ _ _ _ _ L2 T3 B3) as L3.
  do 2 eexists. split; [reflexivity|].
  edestruct (after_pass dv s3 c2 (Some (vx, vy, vp)) (c_uniforms c2) (c_pool c2) [] (s_tex x) (shown dv us bg (g_w g) (g_h g) vp t) [] I3 s3) as [Q1 Q2].
  - apply bufs_refl. reflexivity.
  - intros k _. reflexivity.
  - rewrite app_nil_r. exact (i_pool _ _ _ I3).
  - rewrite app_nil_r. exact (i_nodup _ _ _ I3).
  - rewrite app_nil_r. exact (i_within _ _ _ I3).
  - exact (i_uniforms _ _ _ I3).
  - left. reflexivity.
  - apply in_keep_screen. exact Ex2.
  - intros g0 p0 E0 T0 _. exfalso. exact (apart_screen_target _ _ _ _ _ I3 Ex2 E0 T0).
  - intros g0 p0 E0 T0 _. exfalso. exact (apart_screen _ _ _ _ _ I3 Ex2 E0 T0).
  - split; [destruct c2; exact Q1|]. apply (Q2 g Eg2); [exact (apart_screen _ _ _ _ _ I3 Ex2 Eg2)|exact L3].
Qed.
Lemma tformat_refl f : tformat_eqb f f = true.
Proof. destruct f; try reflexivity. apply N.eqb_refl. Qed.
Lemma present_to_view_ok dv s c us v bg b tgt w h : device_ok dv -> inv dv s c -> layer_rel dv s c v -> back_of us bg b ->
  exists s1 c1 a t1, present_to_view dv s c tgt b w h = Some (s1, c1, a, t1) /\ inv dv s1 c1 /\ layer_rel dv s1 c1 v /\
    (a, t1) = if zero_size w h then (Failed InvalidDimensions, tgt) else
      match (match v with Some (x, y, px) => if ((x =? w) && (y =? h))%N then Some px else None | None => None end) with
      | Some px => (Done, shown dv us bg w h px tgt) | None => (Failed NoMatchingLayer, tgt) end.
Proof.
  intros D I L Hb. unfold present_to_view. fold (zero_size w h). destruct (zero_size w h); [eauto 10|].
  pose proof (matches_fits dv s c v w h L) as MF. destruct (match v with Some _ => _ | None => None end) as [px|] eqn:Ev; [|rewrite MF; cbn [negb]; eauto 10].
  destruct MF as (-> & g & Eg & Ew & Eh & Hg). cbn [negb].
  destruct (ensure_uniforms_inv dv s c (quads_of b) v D I L ltac:(destruct b; cbn; lia)) as (s2 & c2 & i & cap & buf & -> & T2 & B2 & Ec2 & I2 & L2 & Eb & Lb).
  set (c3 := ensure_present_pipeline c2 (t_fmt tgt)).
  assert (X : existsb (tformat_eqb (t_fmt tgt)) (c_present c3) = true).
  { unfold c3, ensure_present_pipeline. destruct (existsb (tformat_eqb (t_fmt tgt)) (c_present c2)) eqn:E; [exact E|]. cbn. rewrite tformat_refl. reflexivity. }
  rewrite X. cbn [negb].
  assert (Same : c_stride c3 = c_stride c2 /\ c_target c3 = c_target c2 /\ c_layer c3 = c_layer c2 /\ c_screen c3 = c_screen c2 /\ c_uniforms c3 = c_uniforms c2 /\ c_pool c3 = c_pool c2).
  { unfold c3, ensure_present_pipeline. destruct (existsb (tformat_eqb (t_fmt tgt)) (c_present c2)); repeat apply conj; reflexivity. }
  destruct Same as (M1 & M2 & M3 & M4 & M5 & M6).
  assert (I3 : inv dv s2 c3).
  { destruct I2 as [J1 J2 J3 J4 J5 J6 J7 J8]. split; unfold keep_ids in *; rewrite ?M1, ?M2, ?M3, ?M4, ?M5, ?M6; auto. }
  assert (L3 : layer_rel dv s2 c3 v) by (eapply layer_same; [exact M3|exact L2]).
  assert (Eg3 : c_layer c3 = Some g) by (rewrite M3, Ec2; exact Eg).
  destruct v as [[[vx vy] vp]|]; [|discriminate]. pose proof L3 as L3'. unfold layer_rel in L3'. rewrite Eg3 in L3'. destruct L3' as (Vx & Vy & Hg3).
  pose proof Hg3 as (_ & Etex & _).
  destruct (encode_ok dv s2 c3 us bg b tgt g vp (i, cap) D (i_stride _ _ _ I3) Hb ltac:(rewrite M5, Ec2; reflexivity) (ex_intro _ buf (conj Eb Lb)) Eg3 Etex) as (s3 & -> & T3 & B3).
  do 4 eexists. split; [reflexivity|]. split; [exact (inv_bufs _ _ _ _ I3 T3 B3)|]. split; [exact (layer_bufs _ _ _ _ _ L3 T3 B3)|].
  rewrite Ew, Eh. destruct ((vx =? w)%N && (vy =? h)%N); [|discriminate]. injection Ev as ->. reflexivity.
Qed.

Definition rel (dv : device) (w : world) (v : view) : Prop :=
  inv dv (w_st w) (w_comp w) /\ layer_rel dv (w_st w) (w_comp w) (v_layer v) /\ w_user w = v_user v.
Lemma zero_composite dv s c bs w h m : zero_size w h = true -> composite dv s c bs w h m = Some (s, c, Failed InvalidDimensions).
Proof. intros H. unfold composite. fold (zero_size w h). rewrite H. reflexivity. Qed.
Lemma zero_render dv s c bs w h : zero_size w h = true -> render_layer dv s c bs w h = Some (s, c, Failed InvalidDimensions).
Proof. intros H. unfold render_layer. fold (zero_size w h). rewrite H. reflexivity. Qed.
Lemma frame_nonzero dv bs w h : frame_ok dv bs w h -> zero_size w h = false.
Proof. intros (([A _] & [B _]) & _). unfold zero_size. rewrite (proj2 (N.eqb_neq w 0)), (proj2 (N.eqb_neq h 0)) by lia. reflexivity. Qed.
Lemma upd_id {A} i (t : A) l : nth_error l i = Some t -> upd i t l = l.
Proof. revert i. induction l as [|z l IH]; intros [|i] E; cbn in *; try discriminate; [congruence|]. f_equal. apply IH. exact E. Qed.
Lemma call_step dv w v k : device_ok dv -> rel dv w v -> call_ok dv v k ->
  exists w1, do_call dv w k = Some (w1, snd (meant dv v k)) /\ rel dv w1 (fst (meant dv v k)).
Proof.
  intros D (I & L & U) C. destruct k as [bs x y m|bs x y|m|bg x y|i bg x y|t]; cbn [do_call call_ok meant] in *.
  - destruct C as [Z|F].
    + rewrite zero_composite by exact Z. rewrite Z. eexists. split; [reflexivity|]. split; [exact I|]. split; [exact L|exact U].
    + destruct (composite_ok dv _ _ _ bs x y m D I L F) as (s1 & c1 & -> & I1 & L1). rewrite (frame_nonzero _ _ _ _ F). eexists. split; [reflexivity|]. split; [exact I1|]. split; [exact L1|exact U].
  - destruct C as [Z|F].
    + rewrite zero_render by exact Z. rewrite Z. eexists. split; [reflexivity|]. split; [exact I|]. split; [exact L|exact U].
    + destruct (render_ok dv _ _ bs x y D I F) as (s1 & c1 & -> & I1 & L1). rewrite (frame_nonzero _ _ _ _ F). eexists. split; [reflexivity|]. split; [exact I1|]. split; [exact L1|exact U].
  - destruct (bytes_ok dv _ _ _ m D I L) as (s1 & -> & I1 & L1). eexists. split; [reflexivity|]. split; [exact I1|]. split; [exact L1|exact U].
  - rewrite U. destruct (user_bg_ok v bg None C) as (b & -> & Hb).
    destruct (present_over_ok dv _ _ (v_user v) _ bg b x y D I L Hb) as (s1 & c1 & -> & I1 & L1). eexists. split; [reflexivity|]. split; [exact I1|]. split; [exact L1|reflexivity].
  - destruct C as [Hi C]. rewrite U. destruct (nth_error (v_user v) i) as [t|] eqn:Et; [|apply nth_error_None in Et; lia].
    destruct (user_bg_ok v bg (Some i) C) as (b & -> & Hb).
    destruct (present_to_view_ok dv _ _ (v_user v) _ bg b t x y D I L Hb) as (s1 & c1 & a & t1 & -> & I1 & L1 & E).
    pose proof (upd_id i t (v_user v) Et) as Id.
    unfold fits_layer. destruct (zero_size x y).
    + injection E as -> ->. eexists. split; [reflexivity|]. split; [exact I1|]. split; [exact L1|]. cbn. exact Id.
    + destruct (match v_layer v with Some _ => _ | None => None end) as [px|] eqn:F.
      * injection E as -> ->. eexists. split; [reflexivity|]. split; [exact I1|]. split; [exact L1|]. cbn [w_user v_user]. apply upd_split. exact Hi.
      * injection E as -> ->. eexists. split; [reflexivity|]. split; [exact I1|]. split; [exact L1|]. cbn. exact Id.
  - eexists. split; [reflexivity|]. split; [exact I|]. split; [exact L|]. cbn [w_user v_user fst]. rewrite U. reflexivity.
Qed.
Lemma calls_ok dv : device_ok dv -> forall l w v, rel dv w v -> all_ok dv v l ->
  exists w1, calls dv w l = Some (w1, snd (all_meant dv v l)) /\ rel dv w1 (fst (all_meant dv v l)).
Proof.
  intros D. induction l as [|k l IH]; intros w v R A; cbn [calls all_meant].
  - eauto.
  - destruct A as [C A]. destruct (call_step dv w v k D R C) as (w1 & E & R1). rewrite E. destruct (meant dv v k) as [v1 a]. cbn [fst snd] in *.
    destruct (IH w1 v1 R1 A) as (w2 & E2 & R2). rewrite E2. destruct (all_meant dv v1 l) as [v2 t]. cbn [fst snd] in *. eauto.
Qed.
Lemma run_ok dv l : device_ok dv -> all_ok dv (Vw None []) l ->
  exists w, gpu_run dv l = Some (w, snd (all_meant dv (Vw None []) l)) /\ w_user w = v_user (fst (all_meant dv (Vw None []) l)).
Proof.
  intros D A. destruct (stride_bounds dv D) as ([S1 S2] & _). pose proof (o_align _ D) as [Al _].
  unfold gpu_run, comp_new. rewrite mul32_ok by (fold (stride_of dv); lia). fold (stride_of dv).
  destruct (calls_ok dv D l (Wd (St [] []) (Co (stride_of dv) None None None None [] []) []) (Vw None [])) as (w & E & _ & _ & U).
  - split; [|split; [exact I|reflexivity]]. split; cbn; try discriminate; auto; [constructor|]. intros x [].
  - exact A.
  - exists w. split; [exact E|exact U].
Qed.
