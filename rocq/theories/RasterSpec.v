(* What a rasterized outline should be: for each pixel, the area of the pixel
   the outline encloses. *)
From Coq Require Import Qround Qminmax.
From Verif Require Import Base FloatModel RasterModel.
Open Scope Q_scope.

Definition pt := (Q * Q)%type.
Definition of_Z (z : Z) : Q := inject_Z z.

(* The share of the column j, from j to j + 1, that lies to the right of a slope
   running from a to b (a <= b) while it crosses a row.  A column right of the
   slope counts whole, one left of it not at all, a slope inside the column
   leaves a trapezoid, and a slope cut in two is the weighted mean of its parts. *)
Inductive right_share (j : Z) : Q -> Q -> Q -> Prop :=
| rs_whole a b v : a <= b -> b <= of_Z j -> v == 1 -> right_share j a b v
| rs_none a b v : a <= b -> of_Z j + 1 <= a -> v == 0 -> right_share j a b v
| rs_trapezoid a b v : of_Z j <= a -> a <= b -> b <= of_Z j + 1 -> v == ((of_Z j + 1 - a) + (of_Z j + 1 - b)) / 2 -> right_share j a b v
| rs_cut a c b u w v : a < c -> c < b -> right_share j a c u -> right_share j c b w -> v * (b - a) == u * (c - a) + w * (b - c) -> right_share j a b v.

(* the horizontal position of the line through p and q at height t *)
Definition at_height (p q : pt) (t x : Q) : Prop := (x - fst p) * (snd q - snd p) == (t - snd p) * (fst q - fst p).
(* The area right of an edge within the pixel (X, Y): positive for an edge going
   down, negative for one going up. *)
Inductive swept (X Y : Z) : pt -> pt -> Q -> Prop :=
| sw_out p q v : (snd p == snd q \/ (snd p <= of_Z Y /\ snd q <= of_Z Y) \/ (of_Z Y + 1 <= snd p /\ of_Z Y + 1 <= snd q)) -> v == 0 -> swept X Y p q v
| sw_down p q ya yb xa xb m v : snd p < snd q -> ya < yb ->
    (snd p <= ya /\ of_Z Y <= ya /\ (ya == snd p \/ ya == of_Z Y)) -> (yb <= snd q /\ yb <= of_Z Y + 1 /\ (yb == snd q \/ yb == of_Z Y + 1)) ->
    at_height p q ya xa -> at_height p q yb xb ->
    (right_share X xa xb m \/ right_share X xb xa m) -> v == (yb - ya) * m -> swept X Y p q v
| sw_up p q u v : snd q < snd p -> swept X Y q p u -> v == - u -> swept X Y p q v.
(* the area enclosed by closed outlines: what their edges sweep, added up *)
Inductive enclosed (X Y : Z) : list (pt * pt) -> Q -> Prop :=
| en_nil v : v == 0 -> enclosed X Y [] v
| en_cons p q l u w v : swept X Y p q u -> enclosed X Y l w -> v == u + w -> enclosed X Y ((p, q) :: l) v.

(* the byte that shows an area: 255 times the area, at most 255, to the nearest *)
Definition shade (v : Q) (n : N) : Prop :=
  (1 <= Qabs v /\ n = 255%N) \/ (Qabs v <= 1 /\ of_Z (Z.of_N n) - (1 # 2) <= Qabs v * 255 /\ Qabs v * 255 < of_Z (Z.of_N n) + (1 # 2)).

(* The edges of a path, each curve replaced by chords between points of it at
   equal steps; every outline is closed. *)
Definition blend2 (t : Q) (a b c : pt) : pt :=
  ((1 - t) * (1 - t) * fst a + 2 * (1 - t) * t * fst b + t * t * fst c, (1 - t) * (1 - t) * snd a + 2 * (1 - t) * t * snd b + t * t * snd c).
Definition blend3 (t : Q) (a b c d : pt) : pt :=
  ((1 - t) * (1 - t) * (1 - t) * fst a + 3 * (1 - t) * (1 - t) * t * fst b + 3 * (1 - t) * t * t * fst c + t * t * t * fst d,
   (1 - t) * (1 - t) * (1 - t) * snd a + 3 * (1 - t) * (1 - t) * t * snd b + 3 * (1 - t) * t * t * snd c + t * t * t * snd d).
Definition same_pt (p q : pt) : Prop := fst p == fst q /\ snd p == snd q.
Definition steps (n : nat) (f : Q -> pt) : list (pt * pt) := map (fun i => (f (of_Z (Z.of_nat i) / of_Z (Z.of_nat n)), f (of_Z (Z.of_nat (i + 1)) / of_Z (Z.of_nat n)))) (seq 0 n).
(* start: the first point of the outline being drawn and the last one reached *)
Inductive edges_of : option (pt * pt) -> list (segment Q) -> list (pt * pt) -> Prop :=
| eo_empty : edges_of None [] []
| eo_end s c : edges_of (Some (s, c)) [] [(c, s)]
| eo_first p r es : edges_of (Some (p, p)) r es -> edges_of None (MoveTo p :: r) es
| eo_move s c p r es : edges_of (Some (p, p)) r es -> edges_of (Some (s, c)) (MoveTo p :: r) ((c, s) :: es)
| eo_line s c p r es : edges_of (Some (s, p)) r es -> edges_of (Some (s, c)) (LineTo p :: r) ((c, p) :: es)
| eo_quad s c b p r n es : (1 <= n <= 64)%nat -> edges_of (Some (s, p)) r es -> edges_of (Some (s, c)) (QuadTo b p :: r) (steps n (fun t => blend2 t c b p) ++ es)
| eo_cubic s c b b' p r n es : (1 <= n <= 96)%nat -> edges_of (Some (s, p)) r es -> edges_of (Some (s, c)) (CubicTo b b' p :: r) (steps n (fun t => blend3 t c b b' p) ++ es)
| eo_close s c r es : edges_of (Some (s, s)) r es -> edges_of (Some (s, c)) (ClosePath :: r) ((c, s) :: es).

(* the points of a path *)
Definition points (s : segment Q) : list pt :=
  match s with MoveTo p | LineTo p => [p] | QuadTo c p => [c; p] | CubicTo c c' p => [c; c'; p] | ClosePath => [] end.
Definition within (l t r b : Q) (p : pt) : Prop := l <= fst p /\ fst p <= r /\ t <= snd p /\ snd p <= b.
(* what a tile shows at a pixel of the screen *)
Definition shown (w h : nat) (data : list N) (x y : Z) (X Y : Z) (n : N) : Prop :=
  ((x <= X < x + Z.of_nat w)%Z /\ (y <= Y < y + Z.of_nat h)%Z /\ nth_error data (Z.to_nat (Y - y) * w + Z.to_nat (X - x)) = Some n) \/
  (~ ((x <= X < x + Z.of_nat w)%Z /\ (y <= Y < y + Z.of_nat h)%Z) /\ n = 0%N).
Close Scope Q_scope.

(* ---- calls on a rasterizer, as its users make them ---- *)
Inductive call :=
| CallLine (x0 y0 x1 y1 : float) | CallQuad (p c q : float * float) | CallCubic (p c d q : float * float).
Definition perform (sq : float -> float) (r : raster (single sq)) (c : call) : option (raster (single sq)) :=
  match c with
  | CallLine x0 y0 x1 y1 => line (single sq) r x0 y0 x1 y1
  | CallQuad p c q => quad (single sq) r (fst p) (snd p) (fst c) (snd c) (fst q) (snd q)
  | CallCubic p c d q => cubic (single sq) r (fst p) (snd p) (fst c) (snd c) (fst d) (snd d) (fst q) (snd q)
  end.
(* a finite number of magnitude at most 2^i *)
Definition at_most (i : Z) (x : float) : Prop := exists q, x = Fin q /\ (- inject_Z (2 ^ i) <= q)%Q /\ (q <= inject_Z (2 ^ i))%Q.
Definition curve_points (c : call) : list (float * float) := match c with CallLine _ _ _ _ => [] | CallQuad p c q => [p; c; q] | CallCubic p c d q => [p; c; d; q] end.
Definition float_points (s : segment float) : list (float * float) := match s with MoveTo p | LineTo p => [p] | QuadTo c p => [c; p] | CubicTo c c' p => [c; c'; p] | ClosePath => [] end.
(* a square root, to within the rounding of its result *)
Definition rootlike (sq : float -> float) : Prop := forall q, (0 <= q)%Q -> exists v, sq (Fin q) = Fin v /\ (0 <= v)%Q /\ (v * v <= 2 * q)%Q.
(* the length that the interval from a to b has in common with the one from X to X + 1 *)
Definition overlap (a b : Q) (X : Z) : Q := (Qmax 0 (Qmin b (of_Z X + 1) - Qmax a (of_Z X)))%Q.
Definition rectangle (a c b d : Q) : list (segment Q) := [MoveTo (a, c); LineTo (b, c); LineTo (b, d); LineTo (a, d); ClosePath].
