(* What follows for the Gaussian blur: refinement, reach, whiteness, averages. *)
From Coq Require Import Qround Lqa.
From Verif Require Import Base BaseLemmas FloatModel PixelModel PixelSpec PixelLib PixelProofs BlurModel BlurSpec BlurProofs.
From Coq Require Import Lia.

Definition small (A : ops) : Prop := forall a, (byte A a < 256)%N.
Lemma clamp_small z : (clamp_byte z < 256)%N.
Proof. unfold clamp_byte. lia. Qed.
Lemma single_small ex : small (single ex).
Proof. intros [|[]|q]; cbn; try reflexivity. apply clamp_small. Qed.
Lemma exact_small ex : small (exact ex).
Proof. intros q. apply clamp_small. Qed.

Lemma bytes_pixels buf n : length buf = 4 * n -> (forall p, p < n -> byte_colour (pixel buf p)) -> bytes buf.
Proof.
  intros L H. destruct (flat_of n buf L) as (l & -> & E). apply bytes_flat. apply Forall_nth. intros i d Hi.
  rewrite (nth_indep _ _ clear_colour Hi). specialize (H i ltac:(lia)). now rewrite pixel_flat in H.
Qed.
Lemma cell_of w h p : (0 < w)%Z -> p < Z.to_nat (w * h) -> exists x y, inside w h x y /\ p = Z.to_nat (y * w + x).
Proof.
  intros W P. exists (Z.of_nat p mod w)%Z, (Z.of_nat p / w)%Z.
  pose proof (Z.mod_pos_bound (Z.of_nat p) w W). pose proof (Z.div_mod (Z.of_nat p) w ltac:(lia)) as D.
  assert (0 <= Z.of_nat p / w)%Z by (apply Z.div_pos; lia).
  assert (Z.of_nat p / w < h)%Z by (apply Z.div_lt_upper_bound; lia).
  split; [split; lia|]. rewrite Z.mul_comm, <- D. lia.
Qed.

Section Any.
  Context (A : ops) (Hs : small A).

  Lemma undim_bytes c : (c_a c < 256)%N -> byte_colour (undim c).
  Proof. intros H. unfold undim. destruct (c_a c =? 0)%N; repeat split; cbn; lia. Qed.

  Lemma in_offsets r j : In j (offsets r) -> (- r <= j <= r)%Z.
  Proof. unfold offsets. rewrite in_map_iff. intros (k & <- & Hk). apply in_seq in Hk. lia. Qed.
  Lemma blend_ext sigma r v v' : (forall j, (- r <= j <= r)%Z -> v j = v' j) -> blend A sigma r v = blend A sigma r v'.
  Proof.
    intros E. unfold blend. f_equal. assert (H : forall j, In j (offsets r) -> v j = v' j) by (intros j Hj; apply E, in_offsets, Hj).
    revert H. generalize (lit_ A 0) as a. generalize (offsets r) as js. induction js as [|j js IH]; intros a H; [reflexivity|]. cbn [fold_left].
    rewrite (H j (or_introl eq_refl)). apply IH. intros; apply H; right; assumption.
  Qed.

  Theorem blur_exact sigma w h data : canvas w h data -> (0 < w)%Z -> (0 < h)%Z -> (w + 92680 < 2147483648)%Z -> (h + 92680 < 2147483648)%Z ->
    le0 A sigma = false -> (1 <= ceil_i32 A (mul A sigma (lit_ A 3)) <= 46340)%Z ->
    exists out, apply_gaussian_blur A sigma (Pixmap w h data) = Some (Pixmap w h out) /\ canvas w h out /\
      forall x y, inside w h x y -> at_xy w out x y = gaussian A sigma (ceil_i32 A (mul A sigma (lit_ A 3))) w h data x y.
  Proof.
    intros CV W H BW BH S R. unfold apply_gaussian_blur. rewrite S. cbn [p_w p_h p_data]. cbv zeta.
    set (r := ceil_i32 A (mul A sigma (lit_ A 3))) in *.
    pose proof CV as [CW CH CA CB CL]. rewrite !as_i32_ok by assumption.
    destruct (Z.ltb_spec r 1); [lia|]. destruct (Z.eqb_spec w 0) as [|_]; [lia|]. destruct (Z.eqb_spec h 0) as [|_]; [lia|]. cbn [orb].
    rewrite (kernel_ok A sigma r) by lia. cbv zeta.
    set (n := Z.to_nat (w * h)). assert (L : length data = 4 * n) by (unfold n; lia).
    destruct (flat_of n data L) as (l & Hl & Ln).
    assert (HB : Forall byte_colour l) by (apply bytes_flat; rewrite <- Hl; exact CB).
    rewrite Hl, (premultiply_flat l HB).
    assert (Lp : length (flat (map dim l)) = 4 * n) by (rewrite flat_length, map_length; lia).
    destruct (horizontal_ok A w h r sigma W H ltac:(lia) BW BH (flat (map dim l)) (repeat 0%N (length (flat (map dim l)))) Lp ltac:(rewrite repeat_length; exact Lp)) as (t & -> & Lt & Ht).
    destruct (vertical_ok A w h r sigma W H ltac:(lia) BW BH t (flat (map dim l)) Lt Lp) as (d & -> & Ld & Hd).
    destruct (flat_of n d Ld) as (m & -> & Lm). rewrite unpremultiply_flat.
    assert (P : forall x y, inside w h x y -> at_xy w (flat (map undim m)) x y = gaussian A sigma r w h (flat l) x y).
    { intros x y I. pose proof I as [X Y]. unfold at_xy.
      rewrite (map_pixel undim (flat m) n _ Ld) with (l := m); [|unfold n; pose proof (cell w h x y X Y); lia|reflexivity].
      change (pixel (flat m) (Z.to_nat (y * w + x))) with (at_xy w (flat m) x y). rewrite Hd by exact I.
      unfold gaussian, column_value, along_row. f_equal. unfold channels.
      assert (E : forall c, blend A sigma r (fun j => c (at_xy w t x (nearest_in h (y + j)))) =
        blend A sigma r (fun j => c (channels (fun c0 => blend A sigma r (fun j0 => c0 (dim (at_xy w (flat l) (nearest_in w (x + j0)) (nearest_in h (y + j))))))))).
      { intros c. apply blend_ext. intros j _. f_equal.
        pose proof (near_in h (y + j) H) as Q.
        rewrite (Ht x (nearest_in h (y + j)) (conj X Q)). unfold row_value, channels.
        assert (G : forall c0, blend A sigma r (fun j0 => c0 (at_xy w (flat (map dim l)) (nearest_in w (x + j0)) (nearest_in h (y + j)))) =
          blend A sigma r (fun j0 => c0 (dim (at_xy w (flat l) (nearest_in w (x + j0)) (nearest_in h (y + j)))))).
        { intros c0. apply blend_ext. intros i _. f_equal.
          unfold at_xy. rewrite (map_pixel dim (flat l) n); [reflexivity|rewrite <- Hl; exact L| |reflexivity].
          pose proof (near_in w (x + i) W) as Q2. pose proof (cell w h _ _ Q2 Q). unfold n. lia. }
        rewrite !G. reflexivity. }
      rewrite !E. reflexivity. }
    exists (flat (map undim m)). split; [reflexivity|].
    assert (Lo : length (flat (map undim m)) = 4 * n) by (rewrite flat_length, map_length; lia).
    split; [|exact P].
    split; try assumption; [|unfold n in Lo; lia].
    apply (bytes_pixels _ n Lo). intros p Hp. destruct (cell_of w h p W Hp) as (x & y & I & ->).
    change (byte_colour (at_xy w (flat (map undim m)) x y)). rewrite (P x y I). unfold gaussian. apply undim_bytes. cbn. apply Hs.
  Qed.
  Theorem blur_none sigma p : le0 A sigma = true \/ (ceil_i32 A (mul A sigma (lit_ A 3)) < 1)%Z -> apply_gaussian_blur A sigma p = Some p.
  Proof.
    intros [E|E]; unfold apply_gaussian_blur; [rewrite E; reflexivity|].
    destruct (le0 A sigma); [reflexivity|]. cbv zeta. destruct (Z.ltb_spec (ceil_i32 A (mul A sigma (lit_ A 3))) 1); [reflexivity|lia].
  Qed.
  Theorem blur_panics sigma w h data : (0 < w < 2147483648)%Z -> (0 < h < 2147483648)%Z -> le0 A sigma = false ->
    (46340 < ceil_i32 A (mul A sigma (lit_ A 3)))%Z -> apply_gaussian_blur A sigma (Pixmap w h data) = None.
  Proof.
    intros W H S R. unfold apply_gaussian_blur. rewrite S. cbn [p_w p_h p_data]. cbv zeta. rewrite !as_i32_ok by lia.
    destruct (Z.ltb_spec (ceil_i32 A (mul A sigma (lit_ A 3))) 1); [lia|]. destruct (Z.eqb_spec w 0) as [|_]; [lia|]. destruct (Z.eqb_spec h 0) as [|_]; [lia|]. cbn [orb].
    rewrite kernel_panics by assumption. reflexivity.
  Qed.

  (* ---- the blur looks at the pixels within its radius ---- *)
  Lemma near_within r w h x y i j : inside w h x y -> (- r <= i <= r)%Z -> (- r <= j <= r)%Z ->
    within r w h x y (nearest_in w (x + i)) (nearest_in h (y + j)).
  Proof. intros [X Y] Hi Hj. unfold within, inside, nearest_in. lia. Qed.

  Theorem gaussian_reach sigma r w h buf buf' x y : inside w h x y ->
    (forall x' y', within r w h x y x' y' -> at_xy w buf x' y' = at_xy w buf' x' y') ->
    gaussian A sigma r w h buf x y = gaussian A sigma r w h buf' x y.
  Proof.
    intros I E. unfold gaussian. f_equal. unfold channels.
    assert (G : forall c, blend A sigma r (fun j => c (along_row A sigma r w buf x (nearest_in h (y + j)))) =
                          blend A sigma r (fun j => c (along_row A sigma r w buf' x (nearest_in h (y + j))))).
    { intros c. apply blend_ext. intros j Hj. f_equal. unfold along_row, channels.
      assert (K : forall c0, blend A sigma r (fun i => c0 (dim (at_xy w buf (nearest_in w (x + i)) (nearest_in h (y + j))))) =
                             blend A sigma r (fun i => c0 (dim (at_xy w buf' (nearest_in w (x + i)) (nearest_in h (y + j)))))).
      { intros c0. apply blend_ext. intros i Hi. rewrite E; [reflexivity|]. apply near_within; assumption. }
      rewrite !K. reflexivity. }
    rewrite !G. reflexivity.
  Qed.

  (* ---- white stays white ---- *)
  Definition grey (c : colour) : Prop := c_r c = c_a c /\ c_g c = c_a c /\ c_b c = c_a c.
  Lemma grey_row sigma r w buf x y : (forall j, (- r <= j <= r)%Z -> grey (dim (at_xy w buf (nearest_in w (x + j)) y))) ->
    grey (along_row A sigma r w buf x y).
  Proof.
    intros H. unfold grey, along_row, channels. cbn.
    repeat split; apply blend_ext; intros j Hj; apply (H j Hj).
  Qed.
  Theorem gaussian_white sigma r w h buf x y : inside w h x y ->
    (forall x' y', within r w h x y x' y' -> at_xy w buf x' y' = Colour 0 0 0 0 \/ at_xy w buf x' y' = Colour 255 255 255 255) ->
    gaussian A sigma r w h buf x y = Colour 0 0 0 0 \/ exists a, (0 < a < 256)%N /\ gaussian A sigma r w h buf x y = Colour 255 255 255 a.
  Proof.
    intros I H. unfold gaussian.
    set (c := channels _). assert (G : grey c).
    { unfold c, grey, channels. cbn. repeat split; apply blend_ext; intros j Hj; apply grey_row; intros i Hi;
        (destruct (H _ _ (near_within r w h x y i j I Hi Hj)) as [->| ->]; repeat split; reflexivity). }
    assert (B : (c_a c < 256)%N) by (cbn; apply Hs).
    destruct G as (E1 & E2 & E3). unfold undim. rewrite E1, E2, E3. destruct (N.eqb_spec (c_a c) 0) as [|Z0]; [left; reflexivity|right].
    exists (c_a c). split; [lia|]. rewrite N.mul_comm, N.div_mul by assumption. reflexivity.
  Qed.
  (* a transparent pixel has no colour *)
  Theorem gaussian_clean sigma r w h buf x y : c_a (gaussian A sigma r w h buf x y) = 0%N -> gaussian A sigma r w h buf x y = Colour 0 0 0 0.
  Proof. unfold gaussian, undim. destruct (c_a (channels _) =? 0)%N eqn:E; [reflexivity|]. intros H. exfalso. cbn [c_a] in H. apply N.eqb_neq in E. contradiction. Qed.

  (* ---- what is transparent around stays transparent ---- *)
  Definition silent : Prop := forall ks : list (num A), byte A (fold_left (fun acc k => add A acc (mul A k (lit_ A 0))) ks (lit_ A 0)) = 0%N.
  Lemma blend_zero sigma r v : silent -> (forall j, (- r <= j <= r)%Z -> v j = 0%N) -> blend A sigma r v = 0%N.
  Proof.
    intros S H. rewrite (blend_ext sigma r v (fun _ => 0%N) H). unfold blend.
    etransitivity; [|exact (S (map (weight A sigma r) (offsets r)))]. f_equal.
    enough (E : forall js a, fold_left (fun acc j => add A acc (mul A (weight A sigma r j) (lit_ A (Z.of_N 0)))) js a =
      fold_left (fun acc k => add A acc (mul A k (lit_ A 0))) (map (weight A sigma r) js) a) by apply E.
    induction js as [|j js IH]; intros a; [reflexivity|]. cbn [fold_left map]. apply IH.
  Qed.
  Theorem gaussian_clear sigma r w h buf x y : silent -> inside w h x y ->
    (forall x' y', within r w h x y x' y' -> c_a (at_xy w buf x' y') = 0%N) -> gaussian A sigma r w h buf x y = Colour 0 0 0 0.
  Proof.
    intros S I H. apply gaussian_clean. unfold gaussian.
    assert (E : c_a (channels (fun c => blend A sigma r (fun j => c (along_row A sigma r w buf x (nearest_in h (y + j)))))) = 0%N).
    { cbn. apply blend_zero; [exact S|]. intros j Hj. apply blend_zero; [exact S|]. intros i Hi. apply H, near_within; assumption. }
    unfold undim. rewrite E. reflexivity.
  Qed.
End Any.

Lemma single_silent ex : silent (single ex).
Proof.
  unfold silent. cbn [num add mul lit_ byte single].
  enough (H : forall ks a, a = NaN \/ a = Fin 0 -> let s := fold_left (fun acc k => f_add f32 acc (f_mul f32 k (f_of_Z f32 0))) ks a in s = NaN \/ s = Fin 0).
  { intros ks. destruct (H ks (f_of_Z f32 0)) as [-> | ->]; [right; reflexivity|reflexivity|reflexivity]. }
  induction ks as [|k ks IH]; intros a Ha; [exact Ha|]. cbn [fold_left]. apply IH.
  assert (M : f_mul f32 k (f_of_Z f32 0) = NaN \/ f_mul f32 k (f_of_Z f32 0) = Fin 0).
  { change (f_of_Z f32 0) with (Fin 0). destruct k as [|n|q]; [left; reflexivity|left; reflexivity|right].
    unfold f_mul. unfold round_to. destruct q as [qn qd]. cbn. rewrite Z.mul_0_r. reflexivity. }
  destruct Ha as [-> | ->]; [left; reflexivity|]. destruct M as [-> | ->]; [left; reflexivity|right; reflexivity].
Qed.
