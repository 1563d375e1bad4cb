(* What the layout of a text box, of its lines and of its movement should be. *)
From Verif Require Import Base FloatModel LayoutModel.
From Coq Require Import Qminmax.
Local Open Scope Z_scope.

Definition is (x : float) (q : Q) : Prop := exists v, x = Fin v /\ (v == q)%Q.
Definition whole (x : float) (z : Z) : Prop := is x (inject_Z z).
(* half pixels *)
Definition halfs (x : float) (k : Z) : Prop := is x (k # 2).
Definition small (z : Z) : Prop := Z.abs z <= 1048576.

(* the numeric keypad: columns 0 1 2 from the left, rows 0 1 2 from below; other
   numbers stand for 2 *)
Definition keypad (v : N) : Z * Z :=
  if ((1 <=? v) && (v <=? 9))%N then ((Z.of_N v - 1) mod 3, (Z.of_N v - 1) / 3) else (1, 0).
(* twice the distance of a box of a width from the left, and of its top from the top *)
Definition from_left (col w left right box : Z) : Z := if col =? 0 then 2 * left else if col =? 1 then w - box else 2 * (w - right - box).
Definition from_top (rank h vert box : Z) : Z := if rank =? 2 then 2 * vert else if rank =? 1 then h - box else 2 * (h - vert - box).
(* twice the distance of the anchor within the box *)
Definition inset (col box : Z) : Z := col * box.
Definition drop (rank box : Z) : Z := (2 - rank) * box.

Record screen := Sn { s_w : Z; s_h : Z; s_left : Z; s_right : Z; s_vert : Z }.
Definition small_screen (s : screen) : Prop := small (s_w s) /\ small (s_h s) /\ small (s_left s) /\ small (s_right s) /\ small (s_vert s).
Definition on_context (c : context) (s : screen) : Prop :=
  whole (c_w c) (s_w s) /\ whole (c_h c) (s_h s) /\ whole (c_left c) (s_left s) /\ whole (c_right c) (s_right s) /\ whole (c_vert c) (s_vert s).
Definition on_config (c : config) (s : screen) : Prop :=
  whole (f_w c) (s_w s) /\ whole (f_h c) (s_h s) /\ whole (f_left c) (s_left s) /\ whole (f_right c) (s_right s) /\ whole (f_vert c) (s_vert s).

(* the old numbering: 1 2 3 from the left, plus 4 for the middle and 8 for the top *)
Definition ssa_number (col rank : N) : N := (1 + col + 4 * rank)%N.

(* ---- lines ---- *)
Definition widest (l : list str) : Z := fold_right Z.max 0 (map (fun s => 20 * Z.of_nat (blen s)) l).
Definition line_at (col total spacing : Z) (i : nat) (s : str) (l : line) : Prop :=
  let w := 20 * Z.of_nat (blen s) in
  l_text l = s /\ halfs (l_x l) (col * (total - w)) /\ whole (l_y l) (Z.of_nat i * (50 + spacing)) /\ whole (l_width l) w /\ whole (l_height l) 50 /\ whole (l_baseline l) 40.

(* ---- movement ---- *)
(* the alignments this code tells apart: only 1 4 7 (and 10 13 …) stand left *)
Definition seen (a : N) : Z * Z :=
  (if (a mod 3 =? 1)%N then 0 else 1, if ((4 <=? a) && (a <=? 6))%N then 1 else if ((7 <=? a) && (a <=? 9))%N then 2 else 0).
Definition ordered (up : bool) (x y : float) : Prop := exists a b, x = Fin a /\ y = Fin b /\ if up then (a <= b)%Q else (b <= a)%Q.
