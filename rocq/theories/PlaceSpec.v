(* What is expected of the place of text. *)
From Verif Require Export PlaceModel ShowSpec AnimSpec WrapSpec.
From Verif Require Import CollideModel.
Open Scope Q_scope.

(* a frame of w by h pixels for a script of p by r *)
Definition frame_is (g : stage) (w h p r : N) : Prop :=
  st_width g = w /\ st_height g = h /\ num_is (st_play_x g) (Qn p) /\ num_is (st_play_y g) (Qn r) /\
  (1 <= w <= 16777216)%N /\ (1 <= h <= 16777216)%N /\ (1 <= p <= 16777216)%N /\ (1 <= r <= 16777216)%N.
Definition at_point (o : run (float * float)) (x y : Q) : Prop := exists a b, o = Done (a, b) /\ num_is a x /\ num_is b y.
(* within a share e of the true value *)
Definition within_share (e : Q) (a : float) (q : Q) : Prop := exists v, a = Fin v /\ Qabs (v - q) <= e * Qabs q.
(* within e of the true value *)
Definition within_err (e : Q) (a : float) (q : Q) : Prop := exists v, a = Fin v /\ Qabs (v - q) <= e.
(* coordinates of any sense: zero, or neither minute nor huge *)
Definition sensible (q : Q) : Prop := q == 0 \/ 2 ^ (-30) <= Qabs q /\ Qabs q < 2 ^ 30.

Definition pinned (t : tags) (x y : float) : Prop := tg_field t FPosition = Some (VPoint x y).
Definition moved (t : tags) (x1 y1 x2 y2 : float) (t1 t2 : N) : Prop := tg_field t FPosition = None /\ tg_field t FMovement = Some (VMove x1 y1 x2 y2 t1 t2).
(* when a movement begins and ends *)
Inductive move_time (start fin : N) : N -> N -> N -> N -> Prop :=
| mt_whole : move_time start fin 0 0 start fin
| mt_part t1 t2 : (t1 <> 0 \/ t2 <> 0)%N -> (start + t1 < 2 ^ 32)%N -> (start + t2 < 2 ^ 32)%N -> move_time start fin t1 t2 (start + t1) (start + t2).
(* coordinates a movement between them treats exactly *)
Definition movable (a b : Q) : Prop := representable f32 a /\ representable f32 b /\ representable f32 (b - a).

(* the numeric keypad: how far the anchor lies from the left and from the top of
   the text, as shares of its width and height *)
Definition from_left (a : N) : Q := Qn ((a - 1) mod 3) / 2.
Definition from_top (a : N) : Q := if (a <=? 3)%N then 1 else if ((7 <=? a) && (a <=? 9))%N then 0 else 1 / 2.
Definition keypad (a : N) : Prop := (1 <= a <= 12)%N.
(* the anchor on the frame: at the margin of its side, or in the middle *)
Definition anchor_x (a : N) (w left right : Q) : Q := if ((a - 1) mod 3 =? 0)%N then left else if ((a - 1) mod 3 =? 2)%N then w - right else w / 2.
Definition anchor_y (a : N) (h vert : Q) : Q := if (a <=? 3)%N then h - vert else if ((7 <=? a) && (a <=? 9))%N then vert else h / 2.

(* a number of a margin: that of the event, unless it is absent, zero or no number *)
Inductive margin_text : str -> option str -> float -> Prop :=
| mg_event s st x : s <> [] -> s <> lit "0" -> number_text f32 s x -> margin_text s st x
| mg_style s m x : (s = [] \/ s = lit "0" \/ forall y, ~ number_text f32 s y) -> number_text f32 m x -> margin_text s (Some m) x
| mg_none s st : (s = [] \/ s = lit "0" \/ forall y, ~ number_text f32 s y) -> (st = None \/ exists m, st = Some m /\ forall y, ~ number_text f32 m y) -> margin_text s st (Fin 0).
Close Scope Q_scope.
