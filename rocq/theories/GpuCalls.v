(* The GPU compositor: every call keeps the invariant and gives what is meant. *)
From Coq Require Import Permutation.
From Verif Require Import Base PixelModel FloatModel GpuModel GpuSpec GpuProofs GpuTiles.
From Verif Require Import FrameProofs.
From Verif Require FrameModel.

Definition bufs (s s' : store) : Prop :=
  forall i b, nth_error (buffers s) i = Some b -> exists b', nth_error (buffers s') i = Some b' /\ List.length b' = List.length b.
Lemma bufs_refl s s' : buffers s' = buffers s -> bufs s s'.
Proof. intros E i b H. rewrite E. eauto. Qed.
Lemma bufs_trans a b c : bufs a b -> bufs b c -> bufs a c.
Proof. intros H K i x E. destruct (H i x E) as (y & Ey & L). destruct (K i y Ey) as (z & Ez & L2). exists z. split; [exact Ez|lia]. Qed.
Lemma has_target_mono dv s s' g px : has_target dv s g px -> nth_error (textures s') (g_tex g) = nth_error (textures s) (g_tex g) -> bufs s s' ->
  has_target dv s' g px.
Proof.
  intros (A & B & C & D & b & E & F) H K. split; [exact A|]. split; [congruence|]. split; [exact C|]. split; [exact D|].
  destruct (K _ _ E) as (b' & E' & L). exists b'. split; [exact E'|lia].
Qed.
Lemma uniforms_mono dv s s' u : uniforms_ok dv s u -> bufs s s' -> uniforms_ok dv s' u.
Proof. destruct u as [[i cap]|]; [|auto]. intros (b & E & L) K. destruct (K _ _ E) as (b' & E' & L'). exists b'. split; [exact E'|lia]. Qed.

Record inv (dv : device) (s : store) (c : comp) : Prop := Inv {
  i_stride : c_stride c = stride_of dv;
  i_uniforms : uniforms_ok dv s (c_uniforms c);
  i_pool : Forall (tile_ok s) (c_pool c);
  i_nodup : NoDup (map tl_tex (c_pool c) ++ keep_ids c);
  i_within : within s (map tl_tex (c_pool c) ++ keep_ids c);
  i_target : forall g, c_target c = Some g -> exists px, has_target dv s g px;
  i_layer : forall g, c_layer c = Some g -> exists px, has_target dv s g px;
  i_screen : forall x, c_screen c = Some x -> exists t, nth_error (textures s) (s_tex x) = Some t }.
Definition layer_rel (dv : device) (s : store) (c : comp) (v : option (N * N * list N)) : Prop :=
  match c_layer c, v with
  | None, None => True
  | Some g, Some (x, y, px) => x = g_w g /\ y = g_h g /\ has_target dv s g px
  | _, _ => False
  end.

Lemma in_keep_target c g : c_target c = Some g -> In (g_tex g) (keep_ids c).
Proof. intros E. unfold keep_ids. rewrite E. cbn. auto. Qed.
Lemma in_keep_layer c g : c_layer c = Some g -> In (g_tex g) (keep_ids c).
Proof. intros E. unfold keep_ids. rewrite E, !in_app_iff. cbn. auto. Qed.
Lemma in_keep_screen c x : c_screen c = Some x -> In (s_tex x) (keep_ids c).
Proof. intros E. unfold keep_ids. rewrite E, !in_app_iff. cbn. auto. Qed.

(* tiles ready to be drawn *)
Lemma prepare_tiles_ok dv s c bs fw fh : device_ok dv -> inv dv s c -> Forall (bitmap_ok dv) bs ->
  (N.of_nat (List.length bs) * (48 + d_align dv) < 4294967296)%N -> (2 * N.of_nat (List.length bs) * (48 + d_align dv) <= d_maxbuf dv)%N ->
  exists s1 u pool1 tiles, prepare_tiles dv s c bs fw fh = Some (s1, Co (c_stride c) (c_target c) (c_layer c) (c_screen c) u pool1 (c_present c), tiles) /\
    bufs s s1 /\ pres s s1 (keep_ids c) /\ Forall (tile_ok s1) (pool1 ++ tiles) /\
    NoDup (map tl_tex (pool1 ++ tiles) ++ keep_ids c) /\ within s1 (map tl_tex (pool1 ++ tiles) ++ keep_ids c) /\
    uniforms_ok dv s1 u /\
    Forall2 (fun t b => nth_error (textures s1) (tl_tex t) = Some (snd (tile_of b fw fh))) tiles bs /\
    (bs = [] \/ exists i b cap, u = Some (i, cap) /\ nth_error (buffers s1) i = Some b /\
      forall j bm, nth_error bs j = Some bm -> sub_slice (j * N.to_nat (stride_of dv)) 48 b = Some (d_ubytes dv (fst (tile_of bm fw fh)))).
Proof.
  intros D I B C1 C2. destruct (stride_bounds dv D) as ([S1 S2] & _ & S4). pose proof (o_align _ D) as [A _].
  unfold prepare_tiles. rewrite (proj2 (N.ltb_lt _ _)) by nia.
  destruct (ensure_uniforms_ok dv s c (N.of_nat (List.length bs)) D (i_stride _ _ _ I) (i_uniforms _ _ _ I) ltac:(nia) ltac:(nia))
    as (s0 & c0 & u & -> & T0 & Bu0 & -> & U0 & Hu).
  cbn [c_stride c_pool c_uniforms c_target c_layer c_screen c_present]. rewrite (i_stride _ _ _ I).
  assert (P0 : Forall (tile_ok s0) (c_pool c)) by (eapply Forall_impl; [|exact (i_pool _ _ _ I)]; intros t Ht; apply (tile_ok_keep s); [exact Ht|rewrite T0; reflexivity]).
  assert (W0 : within s0 (map tl_tex (c_pool c) ++ keep_ids c)) by (intros x Ix; rewrite T0; apply (i_within _ _ _ I); exact Ix).
  destruct (prepare_loop_ok dv fw fh D bs 0 s0 (c_pool c) (repeat 0%N (N.to_nat (stride_of dv) * List.length bs)) [] (keep_ids c) B P0 (i_nodup _ _ _ I) W0)
    as (s1 & pool1 & ub & new & -> & B1 & Pr1 & Len1 & P1 & ND1 & W1 & F1 & L1 & _ & U1).
  { rewrite repeat_length. lia. }
  cbn [app]. rewrite repeat_length in L1.
  assert (Bs1 : bufs s s1) by (intros i b E; rewrite B1; eauto).
  assert (Pr : pres s s1 (keep_ids c)) by (intros i Hi; rewrite (Pr1 i Hi), T0; reflexivity).
  assert (Us1 : uniforms_ok dv s1 u) by (eapply uniforms_mono; [exact U0|]; apply bufs_refl; exact B1).
  destruct bs as [|b0 bs'].
  - assert (Z : List.length ub = 0) by (rewrite L1; cbn; lia). rewrite Z. cbn [Nat.eqb].
    exists s1, u, pool1, new. split; [destruct u as [[? ?]|]; reflexivity|]. auto 15.
  - destruct Hu as [Hu|(i & b & [cap ->] & Eb & Lb)]; [cbn in Hu; lia|].
    rewrite (proj2 (Nat.eqb_neq _ _)) by (rewrite L1; cbn [List.length]; nia).
    unfold write_buffer. rewrite B1, Eb.
    assert (M4 : (N.of_nat (List.length ub) mod 4 = 0)%N).
    { rewrite L1. replace (N.of_nat (N.to_nat (stride_of dv) * List.length (b0 :: bs'))) with (N.of_nat (List.length (b0 :: bs')) * stride_of dv)%N by lia.
      rewrite N.mul_mod, S4, N.mul_0_r by lia. reflexivity. }
    rewrite M4. cbn [N.eqb negb].
    destruct (copy_at 0 ub b) as [b1|] eqn:Ec; [|rewrite copy_some in Ec by (rewrite L1; lia); discriminate].
    destruct (copy_facts _ _ _ _ Ec) as (Lb1 & _ & Sub & Le). rewrite sub_some in Sub by lia. cbn [skipn] in Sub.
    assert (Sub' : firstn (List.length ub) b1 = ub) by congruence.
    assert (Li : i < List.length (buffers s1)) by (rewrite B1; apply nth_error_Some; congruence).
    exists (set_buf s1 i b1), (Some (i, cap)), pool1, new. split; [reflexivity|].
    assert (Bs2 : bufs s1 (set_buf s1 i b1)).
    { intros k x Ek. cbn [set_buf buffers]. destruct (Nat.eq_dec i k) as [<-|Ne].
      - exists b1. rewrite upd_same by exact Li. split; [reflexivity|]. rewrite B1 in Ek. congruence.
      - exists x. rewrite upd_other by exact Ne. auto. }
    split; [exact (bufs_trans _ _ _ Bs1 Bs2)|]. split; [exact Pr|]. split; [exact P1|]. split; [exact ND1|]. split; [exact W1|].
    split; [exact (uniforms_mono _ _ _ _ Us1 Bs2)|]. split; [exact F1|]. right. exists i, b1, cap. split; [reflexivity|]. cbn [set_buf buffers].
    rewrite upd_same by exact Li. split; [reflexivity|]. intros j bm Ej.
    assert (J : j < List.length (b0 :: bs')) by (apply nth_error_Some; congruence).
    rewrite <- (U1 j bm Ej). cbn [plus]. apply (sub_firstn _ _ (List.length ub)); [rewrite L1; nia|lia| |lia].
    rewrite Sub', firstn_all. reflexivity.
Qed.

(* a pass makes the picture *)
Lemma pass_ok dv s c bs tiles view w h px0 : device_ok dv -> c_stride c = stride_of dv ->
  (N.of_nat (List.length bs) * (48 + d_align dv) < 4294967296)%N ->
  Forall2 (fun t b => nth_error (textures s) (tl_tex t) = Some (snd (tile_of b w h))) tiles bs ->
  (bs = [] \/ exists i b cap, c_uniforms c = Some (i, cap) /\ nth_error (buffers s) i = Some b /\
      forall j bm, nth_error bs j = Some bm -> sub_slice (j * N.to_nat (stride_of dv)) 48 b = Some (d_ubytes dv (fst (tile_of bm w h)))) ->
  uniforms_ok dv s (c_uniforms c) -> ~ In view (map tl_tex tiles) -> nth_error (textures s) view = Some (Tex RGBA8 w h px0) ->
  draw_tiles_pass dv s c tiles view = Some (set_tex s view (Tex RGBA8 w h (picture dv bs w h))).
Proof.
  intros D Es C F U Uok NI Ev. destruct (stride_bounds dv D) as ([S1 S2] & _ & _).
  unfold draw_tiles_pass. rewrite Ev.
  replace (existsb (fun x => tl_tex x =? view) tiles) with false.
  2:{ symmetry. apply not_true_iff_false. rewrite existsb_exists. intros (t & It & Et). apply Nat.eqb_eq in Et. subst view. apply NI, in_map, It. }
  cbn [t_fmt t_w t_h]. destruct U as [->|(i & b & cap & Eu & Eb & Hs)].
  - inversion F; subst. destruct (c_uniforms c) as [[i cap]|]; [|reflexivity]. destruct Uok as (b & -> & _). reflexivity.
  - rewrite Eu, Eb, Es. unfold picture.
    rewrite (draw_loop_ok dv s b RGBA8 w h D bs tiles 0 _ w h F); [reflexivity|exact Hs|]. nia.
Qed.
Lemma picture_length dv bs w h : device_ok dv -> List.length (picture dv bs w h) = N.to_nat (w * h * 4).
Proof.
  intros D. unfold picture. pose proof (o_clear _ D Transparent RGBA8 w h) as L. revert L. generalize (d_clear dv Transparent RGBA8 w h).
  induction bs as [|b bs IH]; intros px L; cbn [fold_left]; [exact L|]. apply IH. rewrite (o_draw _ D). exact L.
Qed.

(* a new target *)
Lemma target_new_ok dv s w h : device_ok dv -> size_ok dv w h -> ((4 * w + 256) * h <= d_maxbuf dv)%N ->
  exists s1 g px, target_new dv s w h = Some (s1, g) /\ g_w g = w /\ g_h g = h /\ has_target dv s1 g px /\ g_tex g = List.length (textures s) /\
    (forall i, i < List.length (textures s) -> nth_error (textures s1) i = nth_error (textures s) i) /\ List.length (textures s1) = S (List.length (textures s)) /\ bufs s s1.
Proof.
  intros D S Hb. pose proof (o_dim _ D) as OD. destruct S as [[W1 W2] [H1 H2]]. pose proof (padded_bounds w) as PB.
  unfold target_new. rewrite create_texture_ok by (split; lia). unfold readback_new. rewrite mul32_ok by lia.
  fold (padded_of w). rewrite mul32_ok by (fold (padded_of w); lia). fold (padded_of w). rewrite create_buffer_ok by nia. cbn [textures buffers].
  do 3 eexists. split; [reflexivity|]. split; [reflexivity|]. split; [reflexivity|]. split.
  { split; [split; cbn; lia|]. cbn [g_w g_h g_tex g_padded g_read textures buffers]. rewrite nth_app_new. split; [reflexivity|].
    split; [apply repeat_length|]. split; [reflexivity|]. eexists. rewrite nth_app_new. split; [reflexivity|]. apply repeat_length. }
  split; [reflexivity|]. cbn [textures]. split; [intros i Hi; apply nth_app_keep; exact Hi|]. split; [rewrite app_length; cbn; lia|].
  intros i b E. cbn [buffers]. exists b. rewrite nth_app_keep by (apply nth_error_Some; congruence). auto.
Qed.
Lemma tiles_grow s s' l : (forall i, i < List.length (textures s) -> nth_error (textures s') i = nth_error (textures s) i) -> Forall (tile_ok s) l -> Forall (tile_ok s') l.
Proof.
  intros H. apply Forall_impl. intros t (f & w & h & px & K & E). exists f, w, h, px. split; [exact K|]. rewrite H; [exact E|]. apply nth_error_Some. congruence.
Qed.
Lemma target_in dv s g px : has_target dv s g px -> g_tex g < List.length (textures s).
Proof. intros (_ & E & _). apply nth_error_Some. congruence. Qed.
Lemma grow_target dv s s' g px : has_target dv s g px ->
  (forall i, i < List.length (textures s) -> nth_error (textures s') i = nth_error (textures s) i) -> bufs s s' -> has_target dv s' g px.
Proof. intros H G K. eapply has_target_mono; [exact H| |exact K]. apply G. eapply target_in. exact H. Qed.

Lemma ensure_target_ok dv s c w h v : device_ok dv -> inv dv s c -> layer_rel dv s c v -> size_ok dv w h -> ((4 * w + 256) * h <= d_maxbuf dv)%N ->
  exists s1 c1 g, ensure_target dv s c w h = Some (s1, c1) /\ c_target c1 = Some g /\ g_w g = w /\ g_h g = h /\ inv dv s1 c1 /\ layer_rel dv s1 c1 v /\ c_present c1 = c_present c.
Proof.
  intros D I LR S Hb. unfold ensure_target. destruct (matches (c_target c) w h) eqn:M.
  - unfold matches in M. destruct (c_target c) as [g|] eqn:E; [|discriminate]. apply andb_true_iff in M. destruct M as [M1 M2].
    apply N.eqb_eq in M1, M2. exists s, c, g. auto 10.
  - destruct (target_new_ok dv s w h D S Hb) as (s1 & g & px & -> & Ew & Eh & Hg & Et & Gr & Len & Bu).
    do 2 eexists. exists g. split; [reflexivity|]. split; [reflexivity|]. split; [exact Ew|]. split; [exact Eh|].
    assert (LR1 : layer_rel dv s1 c v).
    { unfold layer_rel in *. destruct (c_layer c) as [gl|], v as [[[x y] p]|]; auto. destruct LR as (A & B & C). split; [exact A|]. split; [exact B|]. eapply grow_target; eassumption. }
    split; [|split; [exact LR1|reflexivity]]. destruct I as [I1 I2 I3 I4 I5 I6 I7 I8]. split; cbn [c_stride c_uniforms c_pool c_target c_layer c_screen].
    + exact I1.
    + eapply uniforms_mono; eassumption.
    + eapply tiles_grow; eassumption.
    + unfold keep_ids in *. cbn [c_target c_layer c_screen otex app] in *.
      assert (X : NoDup (map tl_tex (c_pool c) ++ otex (c_layer c) ++ oscr (c_screen c))).
      { destruct (c_target c); [|exact I4]. cbn [otex app] in I4. eapply NoDup_remove_1. exact I4. }
      apply NoDup_Add with (a := g_tex g) (l := map tl_tex (c_pool c) ++ otex (c_layer c) ++ oscr (c_screen c)); [apply Add_app|]. split; [exact X|].
      intros Ix. assert (g_tex g < List.length (textures s)); [apply I5|lia]. rewrite !in_app_iff in *. tauto.
    + intros x Ix. rewrite Len. unfold keep_ids in Ix. cbn [c_target c_layer c_screen otex app] in Ix. rewrite in_app_iff in Ix. cbn [In] in Ix.
      destruct Ix as [Ix|[<-|Ix]]; [|lia|]; (assert (x < List.length (textures s)); [apply I5; unfold keep_ids; rewrite !in_app_iff in *; tauto|lia]).
    + intros g0 [= <-]. eauto.
    + intros gl El. destruct (I7 gl El) as (p & Hp). exists p. eapply grow_target; eassumption.
    + intros x Ex. destruct (I8 x Ex) as (t & Ht). exists t. rewrite Gr; [exact Ht|]. apply nth_error_Some. congruence.
Qed.
Lemma ensure_layer_ok dv s c w h : device_ok dv -> inv dv s c -> size_ok dv w h -> ((4 * w + 256) * h <= d_maxbuf dv)%N ->
  exists s1 c1 g, ensure_layer dv s c w h = Some (s1, c1) /\ c_layer c1 = Some g /\ g_w g = w /\ g_h g = h /\ inv dv s1 c1.
Proof.
  intros D I S Hb. unfold ensure_layer. destruct (matches (c_layer c) w h) eqn:M.
  - unfold matches in M. destruct (c_layer c) as [g|] eqn:E; [|discriminate]. apply andb_true_iff in M. destruct M as [M1 M2].
    apply N.eqb_eq in M1, M2. exists s, c, g. auto 10.
  - destruct (target_new_ok dv s w h D S Hb) as (s1 & g & px & -> & Ew & Eh & Hg & Et & Gr & Len & Bu).
    do 2 eexists. exists g. split; [reflexivity|]. split; [reflexivity|]. split; [exact Ew|]. split; [exact Eh|].
    destruct I as [I1 I2 I3 I4 I5 I6 I7 I8]. split; cbn [c_stride c_uniforms c_pool c_target c_layer c_screen].
    + exact I1.
    + eapply uniforms_mono; eassumption.
    + eapply tiles_grow; eassumption.
    + unfold keep_ids in *. cbn [c_target c_layer c_screen otex app] in *.
      assert (X : NoDup ((map tl_tex (c_pool c) ++ otex (c_target c)) ++ oscr (c_screen c))).
      { rewrite app_assoc in I4. destruct (c_layer c); [|exact I4]. cbn [otex app] in I4. eapply NoDup_remove_1. exact I4. }
      rewrite app_assoc.
      apply NoDup_Add with (a := g_tex g) (l := (map tl_tex (c_pool c) ++ otex (c_target c)) ++ oscr (c_screen c)); [apply Add_app|]. split; [exact X|].
      intros Ix. assert (g_tex g < List.length (textures s)); [apply I5|lia]. rewrite !in_app_iff in *. tauto.
    + intros x Ix. rewrite Len. unfold keep_ids in Ix. cbn [c_target c_layer c_screen otex app] in Ix. rewrite !in_app_iff in Ix. cbn [In] in Ix.
      destruct Ix as [Ix|[Ix|[<-|Ix]]]; [| |lia|]; (assert (x < List.length (textures s)); [apply I5; unfold keep_ids; rewrite !in_app_iff in *; tauto|lia]).
    + intros gl El. destruct (I6 gl El) as (p & Hp). exists p. eapply grow_target; eassumption.
    + intros g0 [= <-]. eauto.
    + intros x Ex. destruct (I8 x Ex) as (t & Ht). exists t. rewrite Gr; [exact Ht|]. apply nth_error_Some. congruence.
Qed.

Lemma NoDup_app_r {A} (a b : list A) : NoDup (a ++ b) -> NoDup b.
Proof. induction a as [|x a IH]; [auto|]. cbn [app]. intros H. inversion H. auto. Qed.
Lemma tiles_apart {A} (a b k : list A) : NoDup ((a ++ b) ++ k) -> NoDup (a ++ k) /\ NoDup ((rev b ++ a) ++ k) /\ (forall x, In x k -> ~ In x b).
Proof.
  intros H. assert (P : Permutation ((a ++ b) ++ k) ((rev b ++ a) ++ k)).
  { apply Permutation_app_tail. rewrite Permutation_app_comm. apply Permutation_app_tail. apply Permutation_rev. }
  pose proof (Permutation_NoDup P H) as H2. split; [|split; [exact H2|]].
  - rewrite <- app_assoc in H2. eapply NoDup_app_r. exact H2.
  - intros x Ik Ib. apply (in_split) in Ik. destruct Ik as (k1 & k2 & ->). rewrite app_assoc in H. apply NoDup_remove_2 in H.
    apply H. rewrite !in_app_iff. tauto.
Qed.

(* drawing on a texture that is none of the others keeps everything *)
Lemma after_pass dv s c v u pool tiles view t rest : inv dv s c ->
  forall s2, bufs s s2 -> pres s s2 (keep_ids c) -> Forall (tile_ok s2) (pool ++ tiles) -> NoDup (map tl_tex (pool ++ tiles) ++ keep_ids c) ->
  within s2 (map tl_tex (pool ++ tiles) ++ keep_ids c) -> uniforms_ok dv s2 u ->
  (rest = [] \/ rest = rev tiles) -> In view (keep_ids c) ->
  (forall g px, c_target c = Some g -> g_tex g = view -> has_target dv s2 g px -> exists px', has_target dv (set_tex s2 view t) g px') ->
  (forall g px, c_layer c = Some g -> g_tex g = view -> has_target dv s2 g px -> exists px', has_target dv (set_tex s2 view t) g px') ->
  inv dv (set_tex s2 view t) (Co (c_stride c) (c_target c) (c_layer c) (c_screen c) u (rest ++ pool) (c_present c)) /\
  (forall g, c_layer c = Some g -> g_tex g <> view -> layer_rel dv s c v -> layer_rel dv (set_tex s2 view t) c v).
Proof.
  intros I s2 Bu Pr P ND W U Hrest Iv HT HL. destruct I as [I1 I2 I3 I4 I5 I6 I7 I8].
  rewrite map_app in ND. destruct (tiles_apart _ _ _ ND) as (N1 & N2 & N3). rewrite <- map_rev, <- map_app in N2.
  assert (Lv : view < List.length (textures s2)) by (apply W; rewrite in_app_iff; auto).
  assert (Bs : bufs s2 (set_tex s2 view t)) by (apply bufs_refl; reflexivity).
  assert (Ntile : forall x, In x (pool ++ tiles) -> tl_tex x <> view).
  { intros x Ix E. subst view. destruct (in_split _ _ Iv) as (k1 & k2 & Ek). rewrite Ek, <- map_app, app_assoc in ND.
    apply NoDup_remove_2 in ND. apply ND. rewrite !in_app_iff. left. left. apply in_map. exact Ix. }
  assert (Sub : forall x, In x (rest ++ pool) -> In x (pool ++ tiles)).
  { intros x. destruct Hrest as [->| ->]; rewrite !in_app_iff; cbn [In]; rewrite <- ?in_rev; tauto. }
  assert (Keep : forall g px, In (g_tex g) (keep_ids c) -> g_tex g <> view -> has_target dv s g px -> has_target dv (set_tex s2 view t) g px).
  { intros g px Ig Ne H. eapply has_target_mono; [exact H| |exact (bufs_trans _ _ _ Bu Bs)]. cbn [set_tex textures].
    rewrite upd_other by auto. apply Pr. exact Ig. }
  assert (Mid : forall g px, In (g_tex g) (keep_ids c) -> has_target dv s g px -> has_target dv s2 g px).
  { intros g px Ig H. eapply has_target_mono; [exact H| |exact Bu]. apply Pr. exact Ig. }
  split.
  - split; cbn [c_stride c_uniforms c_pool c_target c_layer c_screen].
    + exact I1.
    + eapply uniforms_mono; eassumption.
    + apply Forall_forall. intros x Ix. rewrite Forall_forall in P. specialize (Sub x Ix). apply (tile_ok_keep s2); [auto|].
      cbn [set_tex textures]. apply upd_other. intros E. apply (Ntile x Sub). auto.
    + destruct Hrest as [->| ->]; [exact N1|exact N2].
    + intros x Ix. cbn [set_tex textures]. rewrite upd_length. apply W. rewrite !in_app_iff in *. destruct Ix as [Ix|Ix]; [left|auto].
      apply in_map_iff in Ix. destruct Ix as (y & <- & Iy). apply in_map. apply Sub. exact Iy.
    + intros g Eg. destruct (I6 g Eg) as (px & Hp). pose proof (in_keep_target _ _ Eg) as Ig. destruct (Nat.eq_dec (g_tex g) view) as [E|E].
      * eapply HT; eauto.
      * eauto.
    + intros g Eg. destruct (I7 g Eg) as (px & Hp). pose proof (in_keep_layer _ _ Eg) as Ig. destruct (Nat.eq_dec (g_tex g) view) as [E|E].
      * eapply HL; eauto.
      * eauto.
    + intros x Ex. destruct (I8 x Ex) as (t0 & Ht). cbn [set_tex textures]. destruct (Nat.eq_dec (s_tex x) view) as [E|E].
      * exists t. rewrite E. apply upd_same. exact Lv.
      * exists t0. rewrite upd_other by auto. rewrite (Pr _ (in_keep_screen _ _ Ex)). exact Ht.
  - intros g Eg Ne LR. unfold layer_rel in *. rewrite Eg in *. destruct v as [[[x y] px]|]; [|exact LR]. destruct LR as (A & B & C).
    split; [exact A|]. split; [exact B|]. apply Keep; auto. apply in_keep_layer. exact Eg.
Qed.
Lemma redrawn dv s g px view w h px' : has_target dv s g px -> g_tex g = view -> g_w g = w -> g_h g = h -> List.length px' = N.to_nat (w * h * 4) ->
  has_target dv (set_tex s view (Tex RGBA8 w h px')) g px'.
Proof.
  intros (A & B & C & E & F) <- <- <- L. split; [exact A|]. cbn [set_tex textures buffers].
  rewrite upd_same by (apply nth_error_Some; congruence). split; [reflexivity|]. split; [exact L|]. split; [exact E|exact F].
Qed.
