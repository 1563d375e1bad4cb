(* What a Gaussian blur is meant to do, pixel by pixel: weights that fall off
   with the distance and add up to one, applied along the row and then along the
   column, to colours multiplied by their alpha; outside the canvas the border
   pixel is repeated. *)
From Verif Require Import Base PixelModel PixelSpec BlurModel.

Section Spec.
  Context (A : ops).

  (* the offsets from -r to r *)
  Definition offsets (r : Z) : list Z := map (fun n => (Z.of_nat n - r)%Z) (seq 0 (Z.to_nat (2 * r + 1))).
  (* exp(-j*j / 2 sigma^2) *)
  Definition bell (sigma : num A) (j : Z) : num A :=
    exp_ A (mul A (neg A (lit_ A (j * j))) (div A (lit_ A 1) (mul A (mul A (lit_ A 2) sigma) sigma))).
  Definition total (sigma : num A) (r : Z) : num A := fold_left (add A) (map (bell sigma) (offsets r)) (lit_ A 0).
  Definition weight (sigma : num A) (r j : Z) : num A := div A (bell sigma j) (total sigma r).
  Definition blend (sigma : num A) (r : Z) (v : Z -> N) : N :=
    byte A (fold_left (fun acc j => add A acc (mul A (weight sigma r j) (lit_ A (Z.of_N (v j))))) (offsets r) (lit_ A 0)).

  Definition dim (c : colour) : colour := Colour ((c_r c * c_a c + 127) / 255) ((c_g c * c_a c + 127) / 255) ((c_b c * c_a c + 127) / 255) (c_a c).
  Definition undim (c : colour) : colour :=
    if (c_a c =? 0)%N then Colour 0 0 0 0
    else Colour (N.min (c_r c * 255 / c_a c) 255) (N.min (c_g c * 255 / c_a c) 255) (N.min (c_b c * 255 / c_a c) 255) (c_a c).
  Definition channels (f : (colour -> N) -> N) : colour := Colour (f c_r) (f c_g) (f c_b) (f c_a).
  Definition nearest_in (n z : Z) : Z := Z.max 0 (Z.min (n - 1) z).

  Definition along_row (sigma : num A) (r w : Z) (buf : list N) (x y : Z) : colour :=
    channels (fun c => blend sigma r (fun j => c (dim (at_xy w buf (nearest_in w (x + j)) y)))).
  Definition gaussian (sigma : num A) (r w h : Z) (buf : list N) (x y : Z) : colour :=
    undim (channels (fun c => blend sigma r (fun j => c (along_row sigma r w buf x (nearest_in h (y + j)))))).
End Spec.
(* the pixels within r of (x, y) in both directions *)
Definition within (r w h x y x' y' : Z) : Prop := inside w h x' y' /\ (Z.abs (x' - x) <= r)%Z /\ (Z.abs (y' - y) <= r)%Z.
