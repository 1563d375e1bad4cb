(* What placing subtitles promises.  Lengths are in units of 1/64 pixel. *)
From Coq Require Import Permutation Sorted.
From Verif Require Import Base FloatModel CollideModel.

Definition at64 (f : float) (a : Z) : Prop := exists q, f = Fin q /\ (q == a # 64)%Q.
Record rect := Rect { x_of : Z; y_of : Z; w_of : Z; h_of : Z }.
Definition rect_is (b : bbox) (r : rect) : Prop := at64 (b_x b) (x_of r) /\ at64 (b_y b) (y_of r) /\ at64 (b_w b) (w_of r) /\ at64 (b_h b) (h_of r).
(* an event and what decides its place *)
Record spot := Spot { s_rect : rect; s_layer : Z; s_align : N; s_priority : Z }.
Definition spot_is (e : placed) (s : spot) : Prop := rect_is (p_box e) (s_rect s) /\ p_layer e = s_layer s /\ p_align e = s_align s /\ p_priority e = s_priority s.
(* at most 16384 pixels *)
Definition modest (a : Z) : Prop := (-1048576 <= a <= 1048576)%Z.
Definition modest_rect (r : rect) : Prop := modest (x_of r) /\ modest (y_of r) /\ (0 <= w_of r <= 1048576)%Z /\ (0 <= h_of r <= 1048576)%Z.
Definition modest_margin (m : Z) : Prop := (0 <= m <= 1048576)%Z.

Definition at_y (r : rect) (y : Z) : rect := Rect (x_of r) y (w_of r) (h_of r).
Definition covers (r : rect) (x y : Z) : Prop := (x_of r < x < x_of r + w_of r /\ y_of r < y < y_of r + h_of r)%Z.
(* side by side or one above the other, at least g apart *)
Definition apart_by (g : Z) (r s : rect) : Prop :=
  (x_of r + w_of r + g <= x_of s \/ x_of s + w_of s + g <= x_of r \/ y_of r + h_of r + g <= y_of s \/ y_of s + h_of s + g <= y_of r)%Z.
(* r keeps twice the margin from everything on its layer *)
Definition free (m : Z) (others : list spot) (layer : Z) (r : rect) : Prop :=
  forall s, In s others -> s_layer s = layer -> apart_by (2 * m) (s_rect s) r.
Definition bottom_aligned (align : N) : Prop := (align = 1 \/ align = 2 \/ align = 3)%N.
(* y is the first free place for r: going up for bottom alignment, down otherwise *)
Definition nearest_free (m : Z) (others : list spot) (s : spot) (y : Z) : Prop :=
  let r := s_rect s in
  free m others (s_layer s) (at_y r y) /\
  (bottom_aligned (s_align s) -> (y <= y_of r)%Z /\ forall y', (y < y' <= y_of r)%Z -> ~ free m others (s_layer s) (at_y r y')) /\
  (~ bottom_aligned (s_align s) -> (y_of r <= y)%Z /\ forall y', (y_of r <= y' < y)%Z -> ~ free m others (s_layer s) (at_y r y')).
(* the lowest place a box of height h may have *)
Definition lowest (H h : Z) : Z := Z.max 0 (H - h).
Definition on_screen (H h y : Z) : Z := Z.max 0 (Z.min y (lowest H h)).

(* what a caller asks for, in these units *)
Inductive request := RFixed (s : spot) | RFind (s : spot) | RMargin (m : Z) | RClear.
Definition request_is (o : collide_op) (q : request) : Prop :=
  match o, q with
  | CFixed e, RFixed s | CFind e, RFind s => spot_is e s
  | CMargin f, RMargin m => at64 f m
  | CClear, RClear => True
  | _, _ => False
  end.
Definition modest_request (q : request) : Prop :=
  match q with
  | RFixed s | RFind s => modest_rect (s_rect s)
  | RMargin m => modest_margin m
  | RClear => True
  end.
(* the answers a caller may expect: m is the margin, others what is on screen *)
Inductive expected (H : Z) : Z -> list spot -> list request -> list (option rect) -> list spot -> Prop :=
| ex_done m others : expected H m others [] [] others
| ex_fixed m others s qs outs final : expected H m (others ++ [s]) qs outs final -> expected H m others (RFixed s :: qs) (None :: outs) final
| ex_find m others s y qs outs final :
    nearest_free m others s y ->
    expected H m (others ++ [Spot (at_y (s_rect s) (on_screen H (h_of (s_rect s)) y)) (s_layer s) (s_align s) (s_priority s)]) qs outs final ->
    expected H m others (RFind s :: qs) (Some (at_y (s_rect s) (on_screen H (h_of (s_rect s)) y)) :: outs) final
| ex_margin m others m' qs outs final : expected H m' others qs outs final -> expected H m others (RMargin m' :: qs) (None :: outs) final
| ex_clear m others qs outs final : expected H m [] qs outs final -> expected H m others (RClear :: qs) (None :: outs) final.
Definition answer_is (b : option bbox) (r : option rect) : Prop :=
  match b, r with Some b, Some r => rect_is b r | None, None => True | _, _ => False end.

(* highest priority first, otherwise in the order given *)
Record in_turn (given order : list spot) : Prop := {
  turn_all : Permutation given order;
  turn_sorted : StronglySorted (fun a b => (s_priority b <= s_priority a)%Z) order;
  turn_stable : forall p, filter (fun s => (s_priority s =? p)%Z) order = filter (fun s => (s_priority s =? p)%Z) given }.
(* the important ones stay where they are *)
Definition ask (threshold : Z) (s : spot) : request := if (threshold <=? s_priority s)%Z then RFixed s else RFind s.
(* the places find_free_position looks at, in order *)
Definition candidates (y : Z) : list (bool * Z) :=
  map (fun i => (true, y + 640 * i)%Z) (steps 0 20) ++ map (fun i => (false, y - 640 * i)%Z) (steps 1 19).
Definition acceptable (existing : list rect) (r : rect) (bottom : Z) (c : bool * Z) : Prop :=
  (if fst c then (snd c + h_of r <= bottom)%Z else (0 <= snd c)%Z) /\ forall o, In o existing -> apart_by 0 o (at_y r (snd c)).
Inductive first_acceptable (existing : list rect) (r : rect) (bottom : Z) : list (bool * Z) -> option Z -> Prop :=
| fa_none : first_acceptable existing r bottom [] None
| fa_here c cs : acceptable existing r bottom c -> first_acceptable existing r bottom (c :: cs) (Some (snd c))
| fa_later c cs y : ~ acceptable existing r bottom c -> first_acceptable existing r bottom cs y -> first_acceptable existing r bottom (c :: cs) y.
