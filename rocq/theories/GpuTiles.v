(* The GPU compositor: preparing and drawing tiles. *)
From Verif Require Import Base PixelModel FloatModel GpuModel GpuSpec GpuProofs.
From Verif Require Import FrameProofs.
From Verif Require FrameModel.

Definition b_size (b : bitmap) : tformat * N * N := match b with BCov w h _ _ _ _ _ _ _ => (R8, w, h) | BRgba w h _ _ _ => (RGBA8, w, h) end.
Definition b_data (b : bitmap) : list N := match b with BCov _ _ d _ _ _ _ _ _ => d | BRgba _ _ d _ _ => d end.

Lemma rect_ok x y w h fw fh : (w < 2147483648 /\ h < 2147483648)%N -> at_ok x w -> at_ok y h -> tile_rect x y w h fw fh = Some (rect_of x y w h fw fh).
Proof.
  intros [E F] [A B] [C D]. unfold tile_rect, i32_cast.
  rewrite (proj2 (N.ltb_lt w _)), (proj2 (N.ltb_lt h _)) by lia. unfold add_i32.
  rewrite (proj2 (Z.leb_le (-2147483648) (x + Z.of_N w))), (proj2 (Z.leb_le (x + Z.of_N w) 2147483647)) by lia.
  rewrite (proj2 (Z.leb_le (-2147483648) (y + Z.of_N h))), (proj2 (Z.leb_le (y + Z.of_N h) 2147483647)) by lia. reflexivity.
Qed.
Lemma describe_ok dv b fw fh : device_ok dv -> bitmap_ok dv b ->
  exists d, describe b fw fh = Some d /\ de_quad d = fst (tile_of b fw fh) /\ (de_fmt d, de_w d, de_h d) = b_size b /\
    size_ok dv (de_w d) (de_h d) /\ de_data d = b_data b /\ de_bpr d = (de_w d * tbpp (de_fmt d))%N /\
    List.length (b_data b) = N.to_nat (de_w d * de_h d * tbpp (de_fmt d)) /\
    snd (tile_of b fw fh) = Tex (de_fmt d) (de_w d) (de_h d) (b_data b).
Proof.
  intros D. pose proof (o_dim _ D) as OD. destruct b as [w h cov x y r g b a|w h px x y]; cbn [bitmap_ok describe]; intros (S & L & X & Y).
  - rewrite rect_ok by (assumption || (destruct S; lia)). eexists. split; [reflexivity|]. cbn [de_quad de_fmt de_w de_h de_data de_bpr tile_of fst snd b_size b_data tbpp].
    unfold size_ok in *. repeat apply conj; try reflexivity; lia.
  - rewrite rect_ok by (assumption || (destruct S; lia)). destruct S as [[S1 S2] S3]. rewrite mul32_ok by lia. eexists. split; [reflexivity|].
    cbn [de_quad de_fmt de_w de_h de_data de_bpr tile_of fst snd b_size b_data tbpp].
    unfold size_ok in *. repeat apply conj; try reflexivity; lia.
Qed.
Lemma key_eqb_eq a b : key_eqb a b = true -> a = b.
Proof.
  destruct a as [[f w] h], b as [[g x] y]. cbn [key_eqb]. rewrite !andb_true_iff. intros [[E A] B].
  apply N.eqb_eq in A, B. subst. f_equal. f_equal. destruct f, g; cbn in E; try discriminate; try reflexivity. apply N.eqb_eq in E. congruence.
Qed.
Lemma take_tile_ok k : forall pool t r, take_tile k pool = Some (t, r) ->
  tl_key t = k /\ exists a b, pool = a ++ t :: b /\ r = a ++ b.
Proof.
  induction pool as [|p pool IH]; intros t r E; cbn [take_tile] in E; [discriminate|].
  destruct (key_eqb (tl_key p) k) eqn:K.
  - injection E as <- <-. split; [apply key_eqb_eq; exact K|]. exists [], pool. auto.
  - destruct (take_tile k pool) as [[u r']|]; [|discriminate]. injection E as <- <-.
    destruct (IH u r' eq_refl) as (Ek & a & b & -> & ->). split; [exact Ek|]. exists (p :: a), b. auto.
Qed.
Lemma nodup_mid {A} (a b c : list A) x : NoDup (a ++ x :: b) -> NoDup ((a ++ b)) /\ ~ In x (a ++ b).
Proof. intros H. split; [eapply NoDup_remove_1; exact H|eapply NoDup_remove_2; exact H]. Qed.

(* a tile is taken: it has the size asked for and is no texture in use *)
Lemma acquire_ok dv s pool f w h keep : size_ok dv w h -> Forall (tile_ok s) pool ->
  NoDup (map tl_tex pool ++ keep) -> within s (map tl_tex pool ++ keep) ->
  exists s1 pool1 t, acquire dv s pool f w h = Some (s1, pool1, t) /\ buffers s1 = buffers s /\
    (forall i, i < List.length (textures s) -> nth_error (textures s1) i = nth_error (textures s) i) /\
    List.length (textures s) <= List.length (textures s1) /\
    Forall (tile_ok s1) pool1 /\ tl_key t = (f, w, h) /\ (exists px, nth_error (textures s1) (tl_tex t) = Some (Tex f w h px)) /\
    NoDup (map tl_tex pool1 ++ tl_tex t :: keep) /\ within s1 (map tl_tex pool1 ++ tl_tex t :: keep).
Proof.
  intros S P ND W. unfold acquire. destruct (take_tile (f, w, h) pool) as [[t r]|] eqn:E.
  - destruct (take_tile_ok _ _ _ _ E) as (K & a & b & -> & ->). exists s, (a ++ b), t. split; [reflexivity|]. split; [reflexivity|]. split; [auto|]. split; [lia|].
    apply Forall_app in P. destruct P as [Pa Pb]. apply Forall_cons_iff in Pb. destruct Pb as [Pt Pb].
    split; [apply Forall_app; auto|]. split; [exact K|]. split.
    { destruct Pt as (f' & w' & h' & px & K' & Ex). rewrite K in K'. injection K' as <- <- <-. eauto. }
    rewrite map_app in ND. cbn [map] in ND. rewrite <- app_assoc in ND. cbn [app] in ND.
    assert (Per : forall x, In x (map tl_tex (a ++ b) ++ tl_tex t :: keep) -> In x (map tl_tex (a ++ t :: b) ++ keep)).
    { intros x. rewrite !map_app. cbn [map]. rewrite !in_app_iff. cbn [In]. tauto. }
    split; [|intros x I; apply W, Per, I].
    destruct (nodup_mid _ _ keep _ ND) as [N1 N2]. rewrite map_app, <- app_assoc.
    apply NoDup_Add with (a := tl_tex t) (l := map tl_tex a ++ map tl_tex b ++ keep).
    + rewrite !app_assoc. apply Add_app.
    + split; assumption.
  - rewrite create_texture_ok by exact S. do 3 eexists. split; [reflexivity|]. cbn [buffers textures tl_key tl_tex]. split; [reflexivity|].
    split; [intros i Hi; apply nth_app_keep; exact Hi|]. split; [rewrite app_length; lia|]. split; [|split; [reflexivity|split; [|split]]].
    + apply Forall_forall. intros t It. rewrite Forall_forall in P. destruct (P t It) as (f' & w' & h' & px & K & Ex). exists f', w', h', px.
      split; [exact K|]. cbn [textures]. rewrite nth_app_keep; [exact Ex|]. apply nth_error_Some. congruence.
    + eexists. apply nth_app_new.
    + apply NoDup_Add with (a := List.length (textures s)) (l := map tl_tex pool ++ keep); [apply Add_app|]. split; [exact ND|].
      intros I. apply W in I. lia.
    + intros x I. rewrite in_app_iff in I. cbn [In textures] in *. rewrite app_length. cbn.
      destruct I as [I|[<-|I]]; [|lia|]; specialize (W x); rewrite in_app_iff in W; specialize (W ltac:(auto)); lia.
Qed.
Lemma write_texture_ok s i f w h px d : nth_error (textures s) i = Some (Tex f w h px) -> List.length d = N.to_nat (w * h * tbpp f) ->
  write_texture s i d (w * tbpp f) = Some (set_tex s i (Tex f w h d)).
Proof.
  intros E L. unfold write_texture. rewrite E. cbn [t_w t_h t_fmt]. rewrite N.ltb_irrefl.
  rewrite rows_tight by (rewrite L; nia). cbn [Nat.mul skipn]. reflexivity.
Qed.
Lemma tile_ok_keep s s' t : tile_ok s t -> nth_error (textures s') (tl_tex t) = nth_error (textures s) (tl_tex t) -> tile_ok s' t.
Proof. intros (f & w & h & px & K & E) H. exists f, w, h, px. split; [exact K|]. congruence. Qed.

Lemma prepare_loop_ok dv fw fh : device_ok dv -> forall bs i s pool ub tiles keep,
  Forall (bitmap_ok dv) bs -> Forall (tile_ok s) pool -> NoDup (map tl_tex pool ++ keep) -> within s (map tl_tex pool ++ keep) ->
  List.length ub = (i + List.length bs) * N.to_nat (stride_of dv) ->
  exists s1 pool1 ub1 new, prepare_loop dv (N.to_nat (stride_of dv)) fw fh bs i s pool ub tiles = Some (s1, pool1, ub1, tiles ++ new) /\
    buffers s1 = buffers s /\ pres s s1 keep /\ List.length (textures s) <= List.length (textures s1) /\
    Forall (tile_ok s1) (pool1 ++ new) /\ NoDup (map tl_tex (pool1 ++ new) ++ keep) /\ within s1 (map tl_tex (pool1 ++ new) ++ keep) /\
    Forall2 (fun t b => nth_error (textures s1) (tl_tex t) = Some (snd (tile_of b fw fh))) new bs /\
    List.length ub1 = List.length ub /\ firstn (i * N.to_nat (stride_of dv)) ub1 = firstn (i * N.to_nat (stride_of dv)) ub /\
    forall j b, nth_error bs j = Some b -> sub_slice ((i + j) * N.to_nat (stride_of dv)) 48 ub1 = Some (d_ubytes dv (fst (tile_of b fw fh))).
Proof.
  intros D. destruct (stride_bounds dv D) as ([S1 S2] & _ & _). set (st := N.to_nat (stride_of dv)) in *.
  induction bs as [|b bs IH]; intros i s pool ub tiles keep B P ND W L; cbn [prepare_loop].
  - exists s, pool, ub, []. rewrite !app_nil_r. split; [reflexivity|]. split; [reflexivity|]. split; [intros ? ?; reflexivity|].
    split; [lia|]. split; [exact P|]. split; [exact ND|]. split; [exact W|]. split; [constructor|]. split; [reflexivity|]. split; [reflexivity|].
    intros [|j]; discriminate.
  - apply Forall_cons_iff in B. destruct B as [Bb B]. cbn [List.length] in L.
    destruct (describe_ok dv b fw fh D Bb) as (d & -> & Eq & Es & Sz & Ed & Ebpr & Ld & Et). rewrite Eq.
    pose proof (o_ubytes _ D (fst (tile_of b fw fh))) as Lu.
    destruct (copy_at (i * st) (d_ubytes dv (fst (tile_of b fw fh))) ub) as [ub0|] eqn:Ec; [|rewrite copy_some in Ec by (rewrite Lu; nia); discriminate].
    destruct (copy_facts _ _ _ _ Ec) as (L0 & F0 & Sub0 & _). rewrite Lu in Sub0.
    destruct (acquire_ok dv s pool (de_fmt d) (de_w d) (de_h d) keep Sz P ND W) as (s0 & pool0 & t & -> & Bu & Keep & Len & P0 & K0 & (px & Ex) & ND0 & W0).
    rewrite Ed, Ebpr. rewrite (write_texture_ok _ _ _ _ _ _ _ Ex Ld).
    assert (It : tl_tex t < List.length (textures s0)) by (apply W0; rewrite in_app_iff; cbn; auto).
    assert (Nt : ~ In (tl_tex t) (map tl_tex pool0 ++ keep)) by (eapply NoDup_remove_2; exact ND0).
    set (s2 := set_tex s0 (tl_tex t) (Tex (de_fmt d) (de_w d) (de_h d) (b_data b))) in *.
    assert (P2 : Forall (tile_ok s2) pool0).
    { apply Forall_forall. intros u Iu. rewrite Forall_forall in P0. apply (tile_ok_keep s0); [auto|]. unfold s2. cbn [set_tex textures].
      apply upd_other. intros E. apply Nt. rewrite E, in_app_iff. left. apply in_map. exact Iu. }
    assert (W2 : within s2 (map tl_tex pool0 ++ tl_tex t :: keep)) by (intros x Ix; unfold s2; cbn [set_tex textures]; rewrite upd_length; apply W0, Ix).
    destruct (IH (S i) s2 pool0 ub0 (tiles ++ [t]) (tl_tex t :: keep) B P2 ND0 W2 ltac:(lia))
      as (s3 & pool3 & ub3 & new & E3 & B3 & Pr3 & Len3 & P3 & ND3 & W3 & F3 & L3 & Fi3 & U3).
    exists s3, pool3, ub3, (t :: new). split; [rewrite E3, <- app_assoc; reflexivity|].
    split; [rewrite B3; exact Bu|].
    assert (Tt : nth_error (textures s3) (tl_tex t) = Some (Tex (de_fmt d) (de_w d) (de_h d) (b_data b))).
    { rewrite (Pr3 (tl_tex t) (or_introl eq_refl)). unfold s2. cbn [set_tex textures]. apply upd_same. exact It. }
    split.
    { intros x Ix. rewrite (Pr3 x (or_intror Ix)). unfold s2. cbn [set_tex textures]. rewrite upd_other.
      - apply Keep. apply W. rewrite in_app_iff. auto.
      - intros E. apply Nt. rewrite E, in_app_iff. auto. }
    split; [unfold s2 in Len3; cbn [set_tex textures] in Len3; rewrite upd_length in Len3; lia|].
    split.
    { apply Forall_app in P3. destruct P3 as [P3a P3b]. apply Forall_app. split; [exact P3a|]. constructor; [|exact P3b].
      exists (de_fmt d), (de_w d), (de_h d), (b_data b). split; [exact K0|exact Tt]. }
    split.
    { rewrite map_app in *. cbn [map]. rewrite <- !app_assoc in *. cbn [app].
      destruct (NoDup_remove _ _ _ (eq_ind _ (@NoDup nat) ND3 _ (app_assoc _ _ _))) as [A1 A2].
      rewrite <- app_assoc in A1, A2.
      apply NoDup_Add with (a := tl_tex t) (l := map tl_tex pool3 ++ map tl_tex new ++ keep); [apply Add_app|]. split; assumption. }
    split.
    { intros x Ix. apply W3. rewrite map_app in *. cbn [map] in Ix. rewrite !in_app_iff in *. cbn [In] in *. tauto. }
    split; [constructor; [rewrite Et; exact Tt|exact F3]|]. split; [lia|]. split.
    { rewrite <- F0. replace (firstn (i * st) ub3) with (firstn (i * st) (firstn (S i * st) ub3)) by (rewrite firstn_firstn; f_equal; lia).
      rewrite Fi3, firstn_firstn. f_equal. lia. }
    intros [|j] b' Eb'; cbn [nth_error] in Eb'.
    + injection Eb' as <-. rewrite Nat.add_0_r. rewrite (sub_firstn (i * st) 48 (S i * st) ub3 ub0) by (try lia; exact Fi3). exact Sub0.
    + rewrite <- (U3 j b' Eb'). f_equal. lia.
Qed.

(* drawing them *)
Lemma draw_loop_ok dv s buf f w h : device_ok dv -> forall bs tiles i px fw fh,
  Forall2 (fun t b => nth_error (textures s) (tl_tex t) = Some (snd (tile_of b fw fh))) tiles bs ->
  (forall j b, nth_error bs j = Some b -> sub_slice ((i + j) * N.to_nat (stride_of dv)) 48 buf = Some (d_ubytes dv (fst (tile_of b fw fh)))) ->
  ((N.of_nat i + N.of_nat (List.length bs)) * stride_of dv < 4294967296)%N ->
  draw_loop dv s buf (stride_of dv) f w h tiles (N.of_nat i * stride_of dv) px =
  Some (fold_left (fun px b => d_draw dv f w h px (d_ubytes dv (fst (tile_of b fw fh))) (snd (tile_of b fw fh))) bs px).
Proof.
  intros D. destruct (stride_bounds dv D) as ([S1 S2] & Sa & _). pose proof (o_align _ D) as [A _].
  induction bs as [|b bs IH]; intros tiles i px fw fh F U Lt; inversion F as [|t b' tiles' bs' Ht F' E1 E2]; subst; cbn [draw_loop fold_left]; [reflexivity|].
  cbn [List.length] in Lt. unfold bound.
  assert (M : ((N.of_nat i * stride_of dv) mod d_align dv = 0)%N) by (rewrite N.mul_mod, Sa, N.mul_0_r by lia; apply N.mod_0_l; lia).
  rewrite M. cbn [N.eqb]. pose proof (U 0 b eq_refl) as U0. rewrite Nat.add_0_r in U0.
  replace (N.to_nat (N.of_nat i * stride_of dv)) with (i * N.to_nat (stride_of dv)) by lia. rewrite U0, Ht.
  unfold add32. rewrite (proj2 (N.ltb_lt _ _)) by nia.
  replace (N.of_nat i * stride_of dv + stride_of dv)%N with (N.of_nat (S i) * stride_of dv)%N by lia.
  apply (IH tiles' (S i) _ fw fh F'); [|lia]. intros j c Ec. rewrite <- (U (S j) c Ec). f_equal. lia.
Qed.
