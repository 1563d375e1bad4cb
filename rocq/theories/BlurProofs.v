(* Proofs about the Gaussian blur: the code computes the blur of the
   specification, in any arithmetic. *)
From Verif Require Import Base BaseLemmas PixelModel PixelSpec PixelLib PixelProofs BlurModel BlurSpec.
From Coq Require Import Lia.

(* ---- four bytes at a time ---- *)
Lemma chunk buf n p : length buf = 4 * n -> p < n ->
  exists pre post, buf = flat pre ++ flat1 (pixel buf p) ++ flat post /\ length pre = p /\ length post = n - p - 1.
Proof.
  intros L P. destruct (flat_of n buf L) as (l & -> & L1).
  exists (firstn p l), (skipn (S p) l). rewrite pixel_flat.
  rewrite firstn_length, skipn_length. split; [|lia].
  rewrite <- (firstn_skipn p l) at 1. rewrite flat_app. f_equal.
  destruct (skipn p l) as [|c r] eqn:E; [assert (length (skipn p l) = 0) by (rewrite E; reflexivity); rewrite skipn_length in *; lia|].
  replace (nth p l clear_colour) with c.
  - assert (E2 : skipn (S p) l = skipn 1 (skipn p l)) by (clear; revert l; induction p as [|p IH]; intros [|a l]; try reflexivity; apply IH). rewrite E in E2. change (skipn 1 (c :: r)) with r in E2.
    rewrite E2, flat_cons. reflexivity.
  - rewrite <- (firstn_skipn p l). rewrite app_nth2 by (rewrite firstn_length; lia).
    rewrite firstn_length. replace (p - Nat.min p (length l)) with 0 by lia. rewrite E. reflexivity.
Qed.
Lemma slice4 buf n p : length buf = 4 * n -> p < n -> sub_slice (p * 4) 4 buf = Some (flat1 (pixel buf p)).
Proof.
  intros L P. destruct (chunk buf n p L P) as (pre & post & E & L1 & L2). rewrite E at 1.
  apply sub_slice_at; [rewrite flat_length; lia|reflexivity].
Qed.
Lemma write4 buf n p c : length buf = 4 * n -> p < n ->
  exists buf', copy_at (p * 4) (flat1 c) buf = Some buf' /\ length buf' = 4 * n /\
    forall q, q < n -> pixel buf' q = if Nat.eqb q p then c else pixel buf q.
Proof.
  intros L P. destruct (chunk buf n p L P) as (pre & post & E & L1 & L2).
  exists (flat pre ++ flat1 c ++ flat post). split; [|split].
  - rewrite E at 1. apply copy_at_at; [rewrite flat_length; lia|reflexivity].
  - rewrite !app_length, !flat_length. cbn [flat1 length]. lia.
  - intros q Q. rewrite E at 1.
    replace (flat1 c) with (flat [c]) by (cbn; now destruct c).
    replace (flat1 (pixel buf p)) with (flat [pixel buf p]) by (rewrite flat_cons; reflexivity).
    rewrite !pixel_run. destruct (Nat.eqb_spec q p) as [->|Hn].
    + rewrite app_nth2 by lia. replace (p - length pre) with 0 by lia. reflexivity.
    + destruct (Nat.lt_ge_cases q p).
      * rewrite !app_nth1 by lia. reflexivity.
      * rewrite (app_nth2 pre ([c] ++ post)), (app_nth2 pre ([pixel buf p] ++ post)) by lia. destruct (q - length pre) as [|k] eqn:K; [lia|]. reflexivity.
Qed.

(* ---- writing a set of pixels one after the other ---- *)
Section Writes.
  Context (n : nat).
  (* a step that writes the pixel `where_ i` *)
  Definition writes (f : Z -> list N -> option (list N)) (where_ : Z -> nat) (value : Z -> colour) (is_ : list Z) : Prop :=
    forall i, In i is_ -> where_ i < n /\ forall buf, length buf = 4 * n -> f i buf = copy_at (where_ i * 4) (flat1 (value i)) buf.
  Lemma writes_all f where_ value is_ : writes f where_ value is_ -> forall buf, length buf = 4 * n ->
    exists buf', each_row f is_ buf = Some buf' /\ length buf' = 4 * n /\
      (forall i, In i is_ -> (forall j, In j is_ -> where_ j = where_ i -> value j = value i) -> pixel buf' (where_ i) = value i) /\
      (forall q, q < n -> (forall i, In i is_ -> where_ i <> q) -> pixel buf' q = pixel buf q).
  Proof.
    induction is_ as [|i r IH]; intros W buf L; cbn [each_row].
    - exists buf. split; [reflexivity|]. split; [assumption|]. split; [intros i []|auto].
    - destruct (W i (or_introl eq_refl)) as [P E]. rewrite (E buf L).
      destruct (write4 buf n (where_ i) (value i) L P) as (b1 & -> & L1 & H1).
      destruct (IH (fun j Hj => W j (or_intror Hj)) b1 L1) as (b2 & -> & L2 & H2 & H3).
      exists b2. split; [reflexivity|]. split; [assumption|]. split.
      + intros j Hj Hu. destruct (in_dec Nat.eq_dec (where_ j) (map where_ r)) as [Hin|Hin].
        * apply in_map_iff in Hin. destruct Hin as (k & Ek & Hk).
          rewrite <- Ek, H2; [apply Hu; [right; assumption|assumption]|assumption|].
          intros m Hm Em. rewrite (Hu m) by (try (right; assumption); congruence). symmetry. apply Hu; [right; assumption|assumption].
        * rewrite H3; [|apply W; exact Hj|intros m Hm Em; apply Hin, in_map_iff; eauto].
          destruct Hj as [<-|Hj]; [|exfalso; apply Hin, in_map; assumption].
          rewrite H1 by exact P. now rewrite Nat.eqb_refl.
      + intros q Q Hq. rewrite H3 by (try assumption; intros m Hm; apply Hq; right; assumption).
        rewrite H1 by assumption. destruct (Nat.eqb_spec q (where_ i)) as [->|]; [|reflexivity].
        exfalso. exact (Hq i (or_introl eq_refl) eq_refl).
  Qed.
End Writes.
Lemma in_span lo hi z : In z (span_from lo hi) <-> (lo <= z < hi)%Z.
Proof.
  unfold span_from. rewrite in_map_iff. split.
  - intros (k & <- & Hk). apply in_seq in Hk. lia.
  - intros H. exists (Z.to_nat (z - lo)). split; [lia|]. apply in_seq. lia.
Qed.

Lemma cell w h x y : (0 <= x < w)%Z -> (0 <= y < h)%Z -> (0 <= y * w + x < w * h)%Z.
Proof. intros. nia. Qed.
Lemma cell_inj w x y x' y' : (0 <= x < w)%Z -> (0 <= x' < w)%Z -> (0 <= y)%Z -> (0 <= y')%Z -> (y * w + x = y' * w + x' -> x = x' /\ y = y')%Z.
Proof.
  intros X X' Y Y' E.
  assert (y = y') by (destruct (Z.lt_trichotomy y y') as [H|[H|H]]; [exfalso; assert ((y + 1) * w <= y' * w)%Z by (apply Z.mul_le_mono_nonneg_r; lia); lia|assumption|
    exfalso; assert ((y' + 1) * w <= y * w)%Z by (apply Z.mul_le_mono_nonneg_r; lia); lia]). subst y'. lia.
Qed.

(* ---- a grid written cell by cell, in either order ---- *)
Section Grid.
  Context (w h : Z).
  Let n := Z.to_nat (w * h).
  Let cl x y := Z.to_nat (y * w + x).
  Context (f : Z -> Z -> list N -> option (list N)) (value : Z -> Z -> colour).
  Context (Hf : forall x y buf, inside w h x y -> length buf = 4 * n -> f x y buf = copy_at (cl x y * 4) (flat1 (value x y)) buf).

  Definition filled (buf : list N) : Prop := length buf = 4 * n /\ forall x y, inside w h x y -> at_xy w buf x y = value x y.
  Lemma cl_lt x y : inside w h x y -> cl x y < n.
  Proof. intros [X Y]. unfold cl, n. pose proof (cell w h x y X Y). lia. Qed.
  Lemma cl_inj x y x' y' : inside w h x y -> inside w h x' y' -> cl x y = cl x' y' -> x = x' /\ y = y'.
  Proof.
    intros [X Y] [X' Y'] E. unfold cl in E. pose proof (cell w h x y X Y). pose proof (cell w h x' y' X' Y').
    apply (cell_inj w); lia.
  Qed.
  Lemma rows_filled buf : length buf = 4 * n ->
    exists buf', each_row (fun y b => each_row (fun x b => f x y b) (span_from 0 w) b) (span_from 0 h) buf = Some buf' /\ filled buf'.
  Proof.
    intros L.
    enough (H : forall ys b, (forall y, In y ys -> (0 <= y < h)%Z) -> length b = 4 * n ->
      exists b', each_row (fun y b => each_row (fun x b => f x y b) (span_from 0 w) b) ys b = Some b' /\ length b' = 4 * n /\
        (forall x y, inside w h x y -> In y ys -> at_xy w b' x y = value x y) /\
        (forall x y, inside w h x y -> ~ In y ys -> at_xy w b' x y = at_xy w b x y)).
    { destruct (H (span_from 0 h) buf (fun y Hy => proj1 (in_span _ _ _) Hy) L) as (b' & E & L' & H1 & _).
      exists b'. split; [exact E|]. split; [exact L'|]. intros x y I. apply H1; [exact I|apply in_span; apply I]. }
    induction ys as [|y ys IH]; intros b Hy Lb; cbn [each_row].
    - exists b. split; [reflexivity|]. split; [exact Lb|]. split; [intros x y _ []|auto].
    - pose proof (Hy y (or_introl eq_refl)) as Y.
      destruct (writes_all n (fun x b => f x y b) (fun x => cl x y) (fun x => value x y) (span_from 0 w)) with (buf := b) as (b1 & -> & L1 & H1 & H2); [|exact Lb|].
      { intros x Hx. apply in_span in Hx. assert (I : inside w h x y) by (split; lia). split; [exact (cl_lt x y I)|]. intros b0 L0. apply Hf; assumption. }
      destruct (IH b1 (fun z Hz => Hy z (or_intror Hz)) L1) as (b2 & -> & L2 & H3 & H4).
      assert (R : forall x, (0 <= x < w)%Z -> at_xy w b1 x y = value x y).
      { intros x X. apply H1; [apply in_span; exact X|]. intros x' Hx' E. apply in_span in Hx'.
        destruct (cl_inj x' y x y) as [-> _]; [split; lia|split; lia|exact E|reflexivity]. }
      exists b2. split; [reflexivity|]. split; [exact L2|]. split.
      + intros x y' I Hin. destruct (in_dec Z.eq_dec y' ys) as [Hs|Hs]; [apply H3; assumption|].
        destruct Hin as [<-|Hin]; [|contradiction]. rewrite H4 by assumption. apply R. apply I.
      + intros x y' I Hn. rewrite H4 by (try assumption; intros Hs; apply Hn; right; exact Hs).
        apply H2; [exact (cl_lt x y' I)|]. intros x' Hx' E. apply in_span in Hx'.
        destruct (cl_inj x' y x y') as [_ ->]; [split; lia|exact I|exact E|]. apply Hn. left. reflexivity.
  Qed.
  Lemma columns_filled buf : length buf = 4 * n ->
    exists buf', each_row (fun x b => each_row (fun y b => f x y b) (span_from 0 h) b) (span_from 0 w) buf = Some buf' /\ filled buf'.
  Proof.
    intros L.
    enough (H : forall xs b, (forall x, In x xs -> (0 <= x < w)%Z) -> length b = 4 * n ->
      exists b', each_row (fun x b => each_row (fun y b => f x y b) (span_from 0 h) b) xs b = Some b' /\ length b' = 4 * n /\
        (forall x y, inside w h x y -> In x xs -> at_xy w b' x y = value x y) /\
        (forall x y, inside w h x y -> ~ In x xs -> at_xy w b' x y = at_xy w b x y)).
    { destruct (H (span_from 0 w) buf (fun x Hx => proj1 (in_span _ _ _) Hx) L) as (b' & E & L' & H1 & _).
      exists b'. split; [exact E|]. split; [exact L'|]. intros x y I. apply H1; [exact I|apply in_span; apply I]. }
    induction xs as [|x xs IH]; intros b Hx Lb; cbn [each_row].
    - exists b. split; [reflexivity|]. split; [exact Lb|]. split; [intros x y _ []|auto].
    - pose proof (Hx x (or_introl eq_refl)) as X.
      destruct (writes_all n (fun y b => f x y b) (fun y => cl x y) (fun y => value x y) (span_from 0 h)) with (buf := b) as (b1 & -> & L1 & H1 & H2); [|exact Lb|].
      { intros y Hy. apply in_span in Hy. assert (I : inside w h x y) by (split; lia). split; [exact (cl_lt x y I)|]. intros b0 L0. apply Hf; assumption. }
      destruct (IH b1 (fun z Hz => Hx z (or_intror Hz)) L1) as (b2 & -> & L2 & H3 & H4).
      assert (R : forall y, (0 <= y < h)%Z -> at_xy w b1 x y = value x y).
      { intros y Y. apply H1; [apply in_span; exact Y|]. intros y' Hy' E. apply in_span in Hy'.
        destruct (cl_inj x y' x y) as [_ ->]; [split; lia|split; lia|exact E|reflexivity]. }
      exists b2. split; [reflexivity|]. split; [exact L2|]. split.
      + intros x' y I Hin. destruct (in_dec Z.eq_dec x' xs) as [Hs|Hs]; [apply H3; assumption|].
        destruct Hin as [<-|Hin]; [|contradiction]. rewrite H4 by assumption. apply R. apply I.
      + intros x' y I Hn. rewrite H4 by (try assumption; intros Hs; apply Hn; right; exact Hs).
        apply H2; [exact (cl_lt x' y I)|]. intros y' Hy' E. apply in_span in Hy'.
        destruct (cl_inj x y' x' y) as [-> _]; [split; lia|exact I|exact E|]. apply Hn. left. reflexivity.
  Qed.
End Grid.

(* ---- premultiplying ---- *)
Lemma premul_dim c a : (c < 256)%N -> (a < 256)%N -> premul c a = ((c * a + 127) / 255)%N.
Proof.
  intros C B. unfold premul, u8. apply N.mod_small. apply N.div_lt_upper_bound; [discriminate|].
  assert (c * a <= 255 * 255)%N by (apply N.mul_le_mono; lia). lia.
Qed.
Lemma premultiply_flat l : Forall byte_colour l -> premultiply (flat l) = flat (map dim l).
Proof.
  induction l as [|c l IH]; intros H; [reflexivity|]. inversion H as [|? ? (R & G & B & Al) Hl]. subst.
  rewrite flat_cons. cbn [premultiply map]. rewrite flat_cons, IH by assumption. unfold dim. cbn.
  rewrite !premul_dim by assumption. reflexivity.
Qed.
Lemma unpremultiply_flat l : unpremultiply (flat l) = flat (map undim l).
Proof.
  induction l as [|c l IH]; [reflexivity|]. rewrite flat_cons. cbn [unpremultiply map]. rewrite flat_cons, IH.
  assert (U : forall v, u8 (N.min v 255) = N.min v 255) by (intros v; unfold u8; apply N.mod_small; lia).
  unfold undim, unmul. rewrite !U. destruct (N.eqb_spec (c_a c) 0) as [->|]; reflexivity.
Qed.
Lemma map_pixel f buf n p : length buf = 4 * n -> p < n -> forall l, buf = flat l -> pixel (flat (map f l)) p = f (pixel buf p).
Proof.
  intros L P l ->. rewrite flat_length in L. rewrite !pixel_flat.
  rewrite nth_indep with (d' := f clear_colour) by (rewrite map_length; lia). apply map_nth.
Qed.

Lemma near_in m z : (0 < m)%Z -> (0 <= nearest_in m z < m)%Z.
Proof. unfold nearest_in. lia. Qed.

Section Code.
  Context (A : ops).

  (* ---- the kernel ---- *)
  Lemma kernel_raw_ok sigma r : (0 <= r <= 46340)%Z -> forall is_ sum, (forall i, In i is_ -> (0 <= i <= 2 * r)%Z) ->
    kernel_raw A (div A (lit_ A 1) (mul A (mul A (lit_ A 2) sigma) sigma)) r is_ sum =
    Some (map (fun i => bell A sigma (i - r)) is_, fold_left (add A) (map (fun i => bell A sigma (i - r)) is_) sum).
  Proof.
    intros R. induction is_ as [|i is_ IH]; intros sum H; [reflexivity|]. cbn [kernel_raw map fold_left].
    pose proof (H i (or_introl eq_refl)) as Hi.
    rewrite i32_ok by lia. rewrite i32_ok by nia. rewrite IH by (intros; apply H; right; assumption). reflexivity.
  Qed.
  Lemma kernel_ok sigma r : (0 <= r <= 46340)%Z -> kernel A sigma r = Some (map (weight A sigma r) (offsets r)).
  Proof.
    intros R. unfold kernel. rewrite i32_ok by lia. rewrite i32_ok by lia. unfold as_usize.
    destruct (Z.ltb_spec (2 * r + 1) 0); [lia|].
    rewrite (kernel_raw_ok sigma r R) by (intros i Hi; apply in_span in Hi; lia). f_equal.
    assert (E : map (fun i : Z => bell A sigma (i - r)) (span_from 0 (Z.of_nat (Z.to_nat (2 * r + 1)))) = map (bell A sigma) (offsets r)).
    { unfold span_from, offsets. rewrite !map_map. rewrite Z.sub_0_r, Nat2Z.id. apply map_ext. intros k. reflexivity. }
    rewrite E. unfold total. rewrite map_map. reflexivity.
  Qed.
  Lemma kernel_panics sigma r : (46340 < r)%Z -> kernel A sigma r = None.
  Proof.
    intros R. unfold kernel. unfold i32 at 1. destruct (_ && _)%bool eqn:E; [|reflexivity].
    apply andb_prop in E. destruct E as [_ E]. apply Z.leb_le in E. rewrite i32_ok by lia. unfold as_usize.
    destruct (Z.ltb_spec (2 * r + 1) 0); [lia|]. rewrite span_cons by lia. cbn [kernel_raw].
    rewrite i32_ok by lia. unfold i32. destruct (_ && _)%bool eqn:E2; [|reflexivity].
    apply andb_prop in E2. destruct E2 as [_ E2]. apply Z.leb_le in E2. nia.
  Qed.

  (* ---- the taps ---- *)
  Definition sum4 (js : list Z) (k : Z -> num A) (c : Z -> colour) (acc : list (num A)) : list (num A) :=
    fold_left (fun acc j => map (fun av => add A (fst av) (mul A (k j) (lit_ A (Z.of_N (snd av))))) (combine acc (flat1 (c j)))) js acc.
  Lemma sum4_channels js k c : forall a1 a2 a3 a4, sum4 js k c [a1; a2; a3; a4] =
    map (fun p => fold_left (fun acc j => add A acc (mul A (k j) (lit_ A (Z.of_N (snd p (c j)))))) js (fst p)) [(a1, c_r); (a2, c_g); (a3, c_b); (a4, c_a)].
  Proof.
    induction js as [|j js IH]; intros a1 a2 a3 a4; [reflexivity|]. cbn [sum4 fold_left]. unfold sum4 in IH.
    cbn [flat1 combine map fst snd]. rewrite IH. reflexivity.
  Qed.
  Lemma taps_ok n src k c : length src = 4 * n -> forall js ki at_ acc,
    (forall i, (0 <= i < Z.of_nat (length js))%Z -> exists p, at_ (ki + i)%Z = Some (p * 4) /\ p < n /\ pixel src p = c (nth (Z.to_nat i) js 0%Z)) ->
    taps A (map k js) ki at_ src acc = Some (sum4 js k c acc).
  Proof.
    intros L. induction js as [|j js IH]; intros ki at_ acc H; [reflexivity|]. cbn [map taps].
    destruct (H 0%Z ltac:(cbn [length]; lia)) as (p & E & P & Ec). rewrite Z.add_0_r in E. rewrite E.
    rewrite (slice4 src n p L P). rewrite Ec. cbn [Z.to_nat nth]. unfold sum4. cbn [fold_left]. apply IH.
    intros i Hi. destruct (H (i + 1)%Z ltac:(cbn [length]; lia)) as (p' & E' & P' & Ec').
    exists p'. replace (ki + 1 + i)%Z with (ki + (i + 1))%Z by lia. split; [exact E'|]. split; [exact P'|]. rewrite Ec'.
    replace (Z.to_nat (i + 1)) with (S (Z.to_nat i)) by lia. reflexivity.
  Qed.
  Lemma offsets_length r : (0 <= r)%Z -> Z.of_nat (length (offsets r)) = (2 * r + 1)%Z.
  Proof. intros. unfold offsets. rewrite map_length, seq_length. lia. Qed.
  Lemma offsets_nth r i : (0 <= i < 2 * r + 1)%Z -> nth (Z.to_nat i) (offsets r) 0%Z = (i - r)%Z.
  Proof.
    intros. unfold offsets. rewrite nth_indep with (d' := (Z.of_nat 0 - r)%Z) by (rewrite map_length, seq_length; lia).
    rewrite (map_nth (fun n => (Z.of_nat n - r)%Z)). rewrite seq_nth by lia. lia.
  Qed.
  Lemma tap_ok p i r n : (0 <= p < n)%Z -> (0 <= i < 2 * r + 1)%Z -> (0 <= r <= 46340)%Z -> (n + 92680 < 2147483648)%Z ->
    tap p i r n = Some (Z.to_nat (nearest_in n (p + (i - r)))).
  Proof.
    intros. unfold tap. rewrite i32_ok by lia. rewrite i32_ok by lia. rewrite i32_ok by lia. unfold as_usize, nearest_in.
    destruct (Z.ltb_spec (Z.max 0 (Z.min (n - 1) (p + i - r))) 0); [lia|]. do 2 f_equal. lia.
  Qed.
  Lemma bytes_of js k c : map (byte A) (sum4 js k c (zeros A)) =
    flat1 (channels (fun ch => byte A (fold_left (fun acc j => add A acc (mul A (k j) (lit_ A (Z.of_N (ch (c j)))))) js (lit_ A 0)))).
  Proof. unfold zeros. cbn [repeat]. rewrite sum4_channels. reflexivity. Qed.

  Context (w h r : Z) (sigma : num A) (Hw : (0 < w)%Z) (Hh : (0 < h)%Z) (Hr : (0 <= r <= 46340)%Z)
    (Bw : (w + 92680 < 2147483648)%Z) (Bh : (h + 92680 < 2147483648)%Z).
  Let n := Z.to_nat (w * h).
  Let ks := map (weight A sigma r) (offsets r).
  Lemma inside_cell x y : inside w h x y -> (0 <= y * w + x < w * h)%Z.
  Proof. intros [X Y]. apply cell; assumption. Qed.
  Lemma area_pos : (0 < w * h)%Z.
  Proof. apply Z.mul_pos_pos; assumption. Qed.

  Definition row_value (data : list N) (x y : Z) : colour :=
    channels (fun c => blend A sigma r (fun j => c (at_xy w data (nearest_in w (x + j)) y))).
  Definition column_value (temp : list N) (x y : Z) : colour :=
    channels (fun c => blend A sigma r (fun j => c (at_xy w temp x (nearest_in h (y + j))))).

  Lemma to_nat_cell x y : (0 <= x)%Z -> (0 <= y)%Z -> Z.to_nat (y * w + x) = Z.to_nat y * Z.to_nat w + Z.to_nat x.
  Proof. intros. rewrite Z2Nat.inj_add by nia. rewrite Z2Nat.inj_mul by lia. reflexivity. Qed.

  Lemma horizontal_ok data temp : length data = 4 * n -> length temp = 4 * n ->
    exists t, horizontal A ks r w h data temp = Some t /\ filled w h (row_value data) t.
  Proof.
    intros Ld Lt. unfold horizontal. cbv zeta.
    apply (rows_filled w h (fun x y b => do acc <- taps A ks 0 (fun ki => do sx <- tap x ki r w; Some (Z.to_nat y * (Z.to_nat w * 4) + sx * 4)) data (zeros A);
        copy_at (Z.to_nat y * (Z.to_nat w * 4) + Z.to_nat x * 4) (map (byte A) acc) b) (row_value data)); [|exact Lt].
    intros x y buf I L. pose proof I as [X Y]. unfold ks.
    rewrite (taps_ok n data (weight A sigma r) (fun j => at_xy w data (nearest_in w (x + j)) y) Ld).
    - rewrite bytes_of. rewrite to_nat_cell by lia. f_equal; ring.
    - intros i Hi. rewrite offsets_length in Hi by lia. rewrite Z.add_0_l. rewrite tap_ok by lia. rewrite offsets_nth by assumption.
      set (q := nearest_in w (x + (i - r))). pose proof (near_in w (x + (i - r)) Hw) as Q. fold q in Q.
      exists (Z.to_nat (y * w + q)). rewrite to_nat_cell by lia. split; [f_equal; ring|]. split.
      + rewrite <- to_nat_cell by lia. unfold n. pose proof (cell w h q y Q Y). lia.
      + unfold at_xy. rewrite to_nat_cell by lia. reflexivity.
  Qed.
  Lemma vertical_ok temp data : length temp = 4 * n -> length data = 4 * n ->
    exists d, vertical A ks r w h temp data = Some d /\ filled w h (column_value temp) d.
  Proof.
    intros Lt Ld. unfold vertical. cbv zeta.
    apply (columns_filled w h (fun x y b => do acc <- taps A ks 0 (fun ki => do sy <- tap y ki r h; Some (sy * (Z.to_nat w * 4) + Z.to_nat x * 4)) temp (zeros A);
        copy_at (Z.to_nat y * (Z.to_nat w * 4) + Z.to_nat x * 4) (map (byte A) acc) b) (column_value temp)); [|exact Ld].
    intros x y buf I L. pose proof I as [X Y]. unfold ks.
    rewrite (taps_ok n temp (weight A sigma r) (fun j => at_xy w temp x (nearest_in h (y + j))) Lt).
    - rewrite bytes_of. rewrite to_nat_cell by lia. f_equal; ring.
    - intros i Hi. rewrite offsets_length in Hi by lia. rewrite Z.add_0_l. rewrite tap_ok by lia. rewrite offsets_nth by assumption.
      set (q := nearest_in h (y + (i - r))). pose proof (near_in h (y + (i - r)) Hh) as Q. fold q in Q.
      exists (Z.to_nat (q * w + x)). rewrite to_nat_cell by lia. split; [f_equal; ring|]. split.
      + rewrite <- to_nat_cell by lia. unfold n. pose proof (cell w h x q X Q). lia.
      + unfold at_xy. rewrite to_nat_cell by lia. reflexivity.
  Qed.
End Code.
