(* Properties of the Gaussian blur. *)
From Coq Require Import Qround.
From Verif Require Import Base FloatModel PixelModel PixelSpec BlurModel BlurSpec BlurProofs BlurTheory BlurExact.
From Coq Require Import Lia.

(* C178: the blur is the two-pass Gaussian of the specification, in any
   arithmetic whose bytes are bytes; binary32 and the rationals are two *)
Theorem gaussian_blur_exact : forall A, small A -> forall sigma w h data,
  canvas w h data -> (0 < w)%Z -> (0 < h)%Z -> (w + 92680 < 2147483648)%Z -> (h + 92680 < 2147483648)%Z ->
  le0 A sigma = false -> (1 <= ceil_i32 A (mul A sigma (lit_ A 3)) <= 46340)%Z ->
  exists out, apply_gaussian_blur A sigma (Pixmap w h data) = Some (Pixmap w h out) /\ canvas w h out /\
    forall x y, inside w h x y -> at_xy w out x y = gaussian A sigma (ceil_i32 A (mul A sigma (lit_ A 3))) w h data x y.
Proof. exact blur_exact. Qed.
Theorem float_bytes : forall ex, small (single ex).
Proof. exact single_small. Qed.
Theorem rational_bytes : forall ex, small (exact ex).
Proof. exact exact_small. Qed.
Theorem gaussian_blur_none : forall A sigma p,
  le0 A sigma = true \/ (ceil_i32 A (mul A sigma (lit_ A 3)) < 1)%Z -> apply_gaussian_blur A sigma p = Some p.
Proof. exact blur_none. Qed.
Theorem gaussian_blur_panics : forall A sigma w h data, (0 < w < 2147483648)%Z -> (0 < h < 2147483648)%Z -> le0 A sigma = false ->
  (46340 < ceil_i32 A (mul A sigma (lit_ A 3)))%Z -> apply_gaussian_blur A sigma (Pixmap w h data) = None.
Proof. exact blur_panics. Qed.

(* C179: reach and transparency *)
Theorem gaussian_blur_reach : forall A sigma r w h buf buf' x y, inside w h x y ->
  (forall x' y', within r w h x y x' y' -> at_xy w buf x' y' = at_xy w buf' x' y') ->
  gaussian A sigma r w h buf x y = gaussian A sigma r w h buf' x y.
Proof. exact gaussian_reach. Qed.
Theorem gaussian_blur_clear : forall ex sigma r w h buf x y, inside w h x y ->
  (forall x' y', within r w h x y x' y' -> c_a (at_xy w buf x' y') = 0%N) ->
  gaussian (single ex) sigma r w h buf x y = Colour 0 0 0 0.
Proof. intros ex sigma r w h buf x y. exact (gaussian_clear (single ex) sigma r w h buf x y (single_silent ex)). Qed.
Theorem gaussian_blur_clean : forall A sigma r w h buf x y,
  c_a (gaussian A sigma r w h buf x y) = 0%N -> gaussian A sigma r w h buf x y = Colour 0 0 0 0.
Proof. exact gaussian_clean. Qed.

(* C180: averages, with nothing rounded but the bytes *)
Theorem gaussian_blur_weights : forall ex, (forall q, (0 < ex q)%Q) -> forall sigma r, (0 <= r)%Z ->
  (qsum (map (weight (exact ex) sigma r) (offsets r)) == 1)%Q.
Proof. exact weights_one. Qed.
Theorem gaussian_blur_between : forall ex, (forall q, (0 < ex q)%Q) -> forall sigma r w h buf x y lo hi,
  (0 <= r)%Z -> (hi < 256)%N -> inside w h x y ->
  (forall x' y', within r w h x y x' y' -> (lo <= c_a (at_xy w buf x' y') <= hi)%N) ->
  (lo <= c_a (gaussian (exact ex) sigma r w h buf x y) <= hi)%N.
Proof. exact gaussian_between. Qed.
Theorem gaussian_blur_uniform : forall ex, (forall q, (0 < ex q)%Q) -> forall sigma r w h buf x y c,
  (0 <= r)%Z -> byte_colour c -> c_a c = 255%N -> inside w h x y ->
  (forall x' y', within r w h x y x' y' -> at_xy w buf x' y' = c) -> gaussian (exact ex) sigma r w h buf x y = c.
Proof. exact gaussian_uniform. Qed.

(* C181: white stays white, so the result is not premultiplied *)
Theorem gaussian_blur_white : forall A, small A -> forall sigma r w h buf x y, inside w h x y ->
  (forall x' y', within r w h x y x' y' -> at_xy w buf x' y' = Colour 0 0 0 0 \/ at_xy w buf x' y' = Colour 255 255 255 255) ->
  gaussian A sigma r w h buf x y = Colour 0 0 0 0 \/ exists a, (0 < a < 256)%N /\ gaussian A sigma r w h buf x y = Colour 255 255 255 a.
Proof. exact gaussian_white. Qed.

(* exp to the nearest binary32 at the four points a deviation of 1 needs *)
Definition exp4 (a : float) : float :=
  match a with
  | Fin q => if Qeq_bool q 0 then Fin 1 else if Qeq_bool q (- 1 # 2) then Fin (1271987 # 2097152)
             else if Qeq_bool q (-2 # 1) then Fin (9082197 # 67108864) else if Qeq_bool q (- 9 # 2) then Fin (5964097 # 536870912) else Fin 0
  | _ => NaN
  end.
Definition f1 : float := Fin 1.
Definition dot : list N := [255; 255; 255; 255; 0; 0; 0; 0; 0; 0; 0; 0; 0; 0; 0; 0; 0; 0; 0; 0; 0; 0; 0; 0]%N.
Example gaussian_blur_case :
  le0 (single exp4) f1 = false /\ ceil_i32 (single exp4) (mul (single exp4) f1 (lit_ (single exp4) 3)) = 3%Z /\
  apply_gaussian_blur (single exp4) f1 (Pixmap 6 1 dot) =
    Some (Pixmap 6 1 [255; 255; 255; 178; 255; 255; 255; 77; 255; 255; 255; 15; 255; 255; 255; 1; 0; 0; 0; 0; 0; 0; 0; 0]%N).
Proof. vm_compute. repeat split. Qed.

(* far from the dot nothing shows: the window of the last pixel is clear *)
Example gaussian_blur_clear_case :
  inside 6 1 5 0 /\ (forall x y, within 3 6 1 5 0 x y -> c_a (at_xy 6 dot x y) = 0%N) /\ c_a (at_xy 6 dot 0 0) = 255%N.
Proof.
  split; [unfold inside; lia|]. split; [|reflexivity]. intros x y ((X & Y) & D & _).
  assert (y = 0%Z) as -> by lia. assert (C : (x = 2 \/ x = 3 \/ x = 4 \/ x = 5)%Z) by lia.
  destruct C as [-> | [-> | [-> | ->]]]; reflexivity.
Qed.
(* one weight for all: the average of three *)
Definition flat_exp (q : Q) : Q := 1%Q.
Example gaussian_blur_uniform_case :
  (forall q, 0 < flat_exp q)%Q /\
  apply_gaussian_blur (exact flat_exp) (1 # 3)%Q (Pixmap 3 1 [10; 20; 30; 255; 10; 20; 30; 255; 10; 20; 30; 255]%N) =
    Some (Pixmap 3 1 [10; 20; 30; 255; 10; 20; 30; 255; 10; 20; 30; 255]%N) /\
  apply_gaussian_blur (exact flat_exp) (1 # 3)%Q (Pixmap 3 1 [0; 0; 0; 90; 0; 0; 0; 30; 0; 0; 0; 60]%N) =
    Some (Pixmap 3 1 [0; 0; 0; 70; 0; 0; 0; 60; 0; 0; 0; 50]%N).
Proof. split; [intros q; reflexivity|]. vm_compute. split; reflexivity. Qed.

(* a premultiplied picture does not stay one, and drawing the blurred picture
   on white turns white pixels dark *)
Theorem blur_premultiplied_refuted : exists ex sigma w h data out,
  canvas w h data /\ (forall p, premultiplied (pixel data p)) /\
  apply_gaussian_blur (single ex) sigma (Pixmap w h data) = Some (Pixmap w h out) /\
  (exists p, ~ premultiplied (pixel out p)) /\
  exists dark, composite_rgba (repeat 255%N (length data)) w h out w h 0 0 = Some dark /\ dark <> repeat 255%N (length data).
Proof.
  exists exp4, f1, 6%Z, 1%Z, dot. eexists. split; [|split; [|split; [vm_compute; reflexivity|split]]].
  - split; try (cbn; lia). repeat (apply Forall_cons; [reflexivity|]). apply Forall_nil.
  - intros p. do 6 (destruct p as [|p]; [repeat split; discriminate|]). unfold pixel. rewrite !nth_overflow by (cbn; lia). repeat split; discriminate.
  - exists 1. intros (H & _). vm_compute in H. apply H. reflexivity.
  - eexists. split; [vm_compute; reflexivity|discriminate].
Qed.

Print Assumptions gaussian_blur_exact.
Print Assumptions float_bytes.
Print Assumptions rational_bytes.
Print Assumptions gaussian_blur_none.
Print Assumptions gaussian_blur_panics.
Print Assumptions gaussian_blur_reach.
Print Assumptions gaussian_blur_clear.
Print Assumptions gaussian_blur_clean.
Print Assumptions gaussian_blur_weights.
Print Assumptions gaussian_blur_between.
Print Assumptions gaussian_blur_uniform.
Print Assumptions gaussian_blur_white.
Print Assumptions blur_premultiplied_refuted.
