(* What blending and the dirty rectangles are meant to do, per pixel.
   Only the data types are shared with the model. *)
From Verif Require Import Base PixelModel.

Definition bytes (l : list N) : Prop := Forall (fun b => (b < 256)%N) l.
(* the pixel of number p, and the one at column x and row y *)
Definition pixel (buf : list N) (p : nat) : colour := Colour (nth (4 * p) buf 0%N) (nth (4 * p + 1) buf 0%N) (nth (4 * p + 2) buf 0%N) (nth (4 * p + 3) buf 0%N).
Definition at_xy (w : Z) (buf : list N) (x y : Z) : colour := pixel buf (Z.to_nat (y * w + x)).
(* the coverage value at column x and row y *)
Definition cov_xy (w : Z) (cov : list N) (x y : Z) : N := nth (Z.to_nat (y * w + x)) cov 0%N.
(* a buffer of w by h pixels whose numbers of pixels fit in an i32 *)
Record canvas (w h : Z) (buf : list N) : Prop := {
  cv_w : (0 <= w < 2147483648)%Z; cv_h : (0 <= h < 2147483648)%Z; cv_area : (w * h < 2147483648)%Z;
  cv_bytes : bytes buf; cv_len : Z.of_nat (List.length buf) = (4 * (w * h))%Z }.
Record tile (w h : Z) (cov : list N) : Prop := {
  tl_w : (0 <= w < 2147483648)%Z; tl_h : (0 <= h < 2147483648)%Z; tl_area : (w * h < 2147483648)%Z;
  tl_bytes : bytes cov; tl_len : Z.of_nat (List.length cov) = (w * h)%Z }.
Definition inside (w h x y : Z) : Prop := (0 <= x < w /\ 0 <= y < h)%Z.
(* the position leaves room for the i32 arithmetic *)
Definition placed (w h x y : Z) : Prop := (w - 2147483648 < x < 2147483648 /\ h - 2147483648 < y < 2147483648)%Z.

(* a * b / 255, to the nearest *)
Definition nearest (a b : N) : N := ((2 * (a * b) + 255) / 510)%N.
Definition byte_colour (c : colour) : Prop := (c_r c < 256 /\ c_g c < 256 /\ c_b c < 256 /\ c_a c < 256)%N.
Definition premultiplied (c : colour) : Prop := (c_r c <= c_a c /\ c_g c <= c_a c /\ c_b c <= c_a c /\ c_a c < 256)%N.
(* a premultiplied colour over another *)
Definition over (s d : colour) : colour :=
  Colour (c_r s + nearest (c_r d) (255 - c_a s)) (c_g s + nearest (c_g d) (255 - c_a s)) (c_b s + nearest (c_b d) (255 - c_a s)) (c_a s + nearest (c_a d) (255 - c_a s)).
(* a plain colour, premultiplied, then thinned by a coverage *)
Definition thinned (c : colour) (k : N) : colour :=
  Colour (nearest (nearest (c_r c) (c_a c)) k) (nearest (nearest (c_g c) (c_a c)) k) (nearest (nearest (c_b c) (c_a c)) k) (nearest (c_a c) k).

(* what drawing a bitmap does to the pixel at (px, py) *)
Definition drawn (b : bitmap) (px py : Z) (old new : colour) : Prop :=
  match b with
  | BCoverage w h cov x y c =>
    (inside w h (px - x) (py - y) -> new = over (thinned c (cov_xy w cov (px - x) (py - y))) old) /\ (~ inside w h (px - x) (py - y) -> new = old)
  | BRgba w h pixels x y =>
    (inside w h (px - x) (py - y) -> new = over (at_xy w pixels (px - x) (py - y)) old) /\ (~ inside w h (px - x) (py - y) -> new = old)
  end.
Definition sound_bitmap (w h : Z) (b : bitmap) : Prop :=
  match b with
  | BCoverage bw bh cov x y c => tile bw bh cov /\ placed w h x y /\ byte_colour c
  | BRgba bw bh pixels x y => canvas bw bh pixels /\ placed w h x y /\ (forall p, premultiplied (pixel pixels p))
  end.

Definition in_box (b : bbox) (x y : Z) : Prop := (b_x0 b <= x <= b_x1 b /\ b_y0 b <= y <= b_y1 b)%Z.
Definition clear_colour : colour := Colour 0 0 0 0.
(* the pixels that show, within a hint *)
Definition shows (w h : Z) (buf : list N) (hint : option bbox) (x y : Z) : Prop :=
  inside w h x y /\ c_a (at_xy w buf x y) <> 0%N /\ match hint with Some b => in_box b x y | None => True end.
(* the smallest rectangle around the pixels that show, with the same pixels *)
Definition cropped (w h : Z) (buf : list N) (hint : option bbox) (r : option bitmap) : Prop :=
  match r with
  | None => forall x y, ~ shows w h buf hint x y
  | Some (BRgba bw bh pixels x0 y0) =>
    canvas bw bh pixels /\ (0 <= x0 /\ x0 + bw <= w /\ 0 <= y0 /\ y0 + bh <= h)%Z /\ (forall x y, shows w h buf hint x y -> inside bw bh (x - x0) (y - y0)) /\
    (exists y, shows w h buf hint x0 y) /\ (exists y, shows w h buf hint (x0 + bw - 1) y) /\ (exists x, shows w h buf hint x y0) /\ (exists x, shows w h buf hint x (y0 + bh - 1)) /\
    (forall x y, inside bw bh x y -> at_xy bw pixels x y = at_xy w buf (x0 + x) (y0 + y))
  | Some (BCoverage _ _ _ _ _ _) => False
  end.
Definition hint_fits (hint : option bbox) : Prop := match hint with Some b => (-2147483648 <= b_x1 b < 2147483647 /\ -2147483648 <= b_y1 b < 2147483647)%Z | None => True end.
Definition picture (buf : list N) : Prop := forall p, premultiplied (pixel buf p).
Definition blank (w h : Z) : list N := repeat 0%N (Z.to_nat (4 * (w * h))).
(* drawing a list of bitmaps one after another *)
Fixpoint draw_all row (dst : list N) (w h : Z) (l : list bitmap) : option (list N) :=
  match l with
  | [] => Some dst
  | b :: l' => do d <- composite_bitmap row dst w h b; draw_all row d w h l'
  end.
(* what is assumed of drawing a layer on an empty pixmap: it leaves a proper
   picture; with boxes noted, everything that shows is in one of them; if it
   emitted bitmaps instead, the pixmap stays empty *)
Definition well_behaved (w h : Z) (l : layer) : Prop :=
  let '(emitted, boxes, data) := l (blank w h) in
  canvas w h data /\ picture data /\ (emitted <> [] -> data = blank w h) /\
  (forall b, In b boxes -> (-2147483648 <= b_x1 b < 2147483647 /\ -2147483648 <= b_y1 b < 2147483647)%Z) /\
  (emitted = [] -> boxes <> [] -> forall x y, shows w h data None x y -> exists b, In b boxes /\ in_box b x y).
(* what the bitmaps for one layer have to be *)
Definition stands_for row (w h : Z) (l : layer) (out : list bitmap) : Prop :=
  let '(emitted, _, data) := l (blank w h) in
  (emitted <> [] -> out = emitted) /\ (emitted = [] -> List.length out <= 1 /\ draw_all row (blank w h) w h out = Some data).
