(* ass-renderer/src/layout/{alignment,context,metrics,multiline}.rs and
   layout/positioning/{coords,info,mod}.rs.  Of the tags only the alignment,
   position, movement and origin are read. *)
From Verif Require Import Base FloatModel.

(* alignment.rs 5-25 *)
Inductive side := Left | Middle | Right.
Inductive level := Bottom | Centre | Top.
Definition alignment := (side * level)%type.
(* 29-42 *)
Definition from_value (v : N) : alignment :=
  match v with
  | 1 => (Left, Bottom) | 2 => (Middle, Bottom) | 3 => (Right, Bottom)
  | 4 => (Left, Centre) | 5 => (Middle, Centre) | 6 => (Right, Centre)
  | 7 => (Left, Top) | 8 => (Middle, Top) | 9 => (Right, Top)
  | _ => (Middle, Bottom)
  end%N.
(* 45-78 *)
Definition legacy_level (v : N) : level := match N.land v 12 with 0 => Bottom | 4 => Centre | 8 | 12 => Top | _ => Bottom end%N.
Definition from_ssa_legacy (v : N) : alignment :=
  match N.land v 3 with
  | 1 => (Left, legacy_level v)
  | 2 => (Middle, legacy_level v)
  | 3 => (Right, legacy_level v)
  | _ => (Middle, Bottom)
  end%N.
(* coords.rs 16-37 *)
Definition convert_ssa (v : N) : N :=
  ((match N.land v 3 with 1 => 1 | 2 => 2 | 3 => 3 | _ => 2 end) +
   (match N.land (N.shiftr v 2) 3 with 0 => 0 | 1 | 3 => 3 | 2 => 6 | _ => 0 end))%N.

(* context.rs 6-14 *)
Record context := Cx { c_w : float; c_h : float; c_left : float; c_right : float; c_vert : float; c_px : float; c_py : float }.
(* 17-27 *)
Definition context_new (w h : float) : context := Cx w h (Fin 0) (Fin 0) (Fin 0) w h.
Definition half (x : float) : float := f_div f32 x (Fin 2).
(* 30-69: of the metrics the width and height *)
Definition calculate_position (c : context) (a : alignment) (w h : float) : float * float :=
  (match fst a with
   | Left => c_left c
   | Middle => f_sub f32 (half (c_w c)) (half w)
   | Right => f_sub f32 (f_sub f32 (c_w c) (c_right c)) w
   end,
   match snd a with
   | Top => c_vert c
   | Centre => f_sub f32 (half (c_h c)) (half h)
   | Bottom => f_sub f32 (f_sub f32 (c_h c) (c_vert c)) h
   end).
(* coords.rs 2-13 *)
Definition scale_coordinates (x y px py w h : float) : float * float := (f_mul f32 x (f_div f32 w px), f_mul f32 y (f_div f32 h py)).
(* context.rs 72-76, the same arithmetic *)
Definition apply_play_res_scaling (c : context) (x y : float) : float * float := scale_coordinates x y (c_px c) (c_py c) (c_w c) (c_h c).

(* ---- multiline.rs ---- *)
Record line := Ln { l_text : str; l_x : float; l_y : float; l_width : float; l_height : float; l_baseline : float }.
Record multiline := Ml { ml_lines : list line; ml_width : float; ml_height : float }.
Definition f_max (a b : float) : float := match a, b with NaN, _ => b | _, NaN => a | _, _ => if f_le a b then b else a end.
Definition is_nl (c : char) : bool := (c =? 10)%N.
(* 49 *)
Definition text_width (s : str) : float := f_mul f32 (f_of_N f32 (N.of_nat (blen s))) (Fin 20).
(* 48-64: lines, greatest width and height so far *)
Fixpoint stack (i : nat) (spacing : float) (l : list str) (ls : list line) (widest tall : float) : list line * float * float :=
  match l with
  | [] => (ls, widest, tall)
  | s :: r =>
    let w := text_width s in
    let y := f_mul f32 (f_of_N f32 (N.of_nat i)) (f_add f32 (Fin 50) spacing) in
    stack (S i) spacing r (ls ++ [Ln s (Fin 0) y w (Fin 50) (Fin 40)]) (f_max widest w) (f_add f32 y (Fin 50))
  end.
(* 67-77 *)
Definition shift (a : alignment) (widest : float) (l : line) : line :=
  Ln (l_text l)
     (match fst a with Left => Fin 0 | Middle => half (f_sub f32 widest (l_width l)) | Right => f_sub f32 widest (l_width l) end)
     (l_y l) (l_width l) (l_height l) (l_baseline l).
(* 32-84 *)
Definition multiline_new (text : str) (a : alignment) (spacing : float) : multiline :=
  let '(ls, w, h) := stack 0 spacing (split_on is_nl text) [] (Fin 0) (Fin 0) in
  Ml (map (shift a w) ls) w h.

(* ---- positioning/info.rs ---- *)
Record tags := Tg { t_align : option N; t_pos : option (float * float); t_move : option (float * float * float * float * N * N); t_origin : option (float * float) }.
(* positioning/mod.rs 22-29 *)
Record config := Cf { f_w : float; f_h : float; f_left : float; f_right : float; f_vert : float; f_align : N }.
(* 6-19 *)
Record place := Pc { p_x : float; p_y : float; p_ax : float; p_ay : float; p_ox : float; p_oy : float; p_explicit : bool }.
Definition align_of (t : tags) (c : config) : N := match t_align t with Some a => a | None => f_align c end.
Definition row (a : N) : level := if ((4 <=? a) && (a <=? 6))%N then Centre else if ((7 <=? a) && (a <=? 9))%N then Top else Bottom.
(* 79-125 *)
Definition anchor_point (a : N) (w h : float) (c : config) : float * float :=
  (match (a mod 3)%N with
   | 1%N => f_left c
   | 2%N | 0%N => half (f_sub f32 (f_w c) w)
   | _ => f_sub f32 (f_sub f32 (f_w c) (f_right c)) w
   end,
   match row a with
   | Bottom => f_sub f32 (f_sub f32 (f_h c) (f_vert c)) h
   | Centre => half (f_sub f32 (f_h c) h)
   | Top => f_vert c
   end).
(* 128-144 *)
Definition offset_x (a : N) (w : float) : float := match (a mod 3)%N with 1%N => Fin 0 | 2%N | 0%N => half w | _ => w end.
Definition offset_y (a : N) (h : float) : float := match row a with Bottom => h | Centre => half h | Top => Fin 0 end.
(* 23-76 *)
Definition calculate (t : tags) (w h : float) (c : config) : place :=
  let a := align_of t c in
  let '(ax, ay) := anchor_point a w h c in
  let '(x, y, e) :=
    match t_pos t with
    | Some (px, py) => (f_sub f32 px (offset_x a w), f_sub f32 py (offset_y a h), true)
    | None =>
      match t_move t with
      | Some (x1, y1, _, _, _, _) => (f_sub f32 x1 (offset_x a w), f_sub f32 y1 (offset_y a h), true)
      | None => (ax, ay, false)
      end
    end in
  let '(ox, oy) := match t_origin t with Some o => o | None => (f_add f32 ax (half w), f_add f32 ay (half h)) end in
  Pc x y ax ay ox oy e.
(* f32::clamp(0.0, 1.0) *)
Definition clamp01 (x : float) : float := let x := if f_lt x (Fin 0) then Fin 0 else x in if f_lt (Fin 1) x then Fin 1 else x.
(* 162-167 *)
Definition factor (now t1 t2 : N) : float :=
  if (t1 <? t2)%N then clamp01 (f_div f32 (f_of_N f32 (now - t1)) (f_of_N f32 (t2 - t1))) else Fin 1.
Definition between (a b p : float) : float := f_add f32 a (f_mul f32 (f_sub f32 b a) p).
(* 147-184 *)
Definition calculate_with_movement (t : tags) (w h : float) (c : config) (now start : N) : place :=
  let p := calculate t w h c in
  match t_move t with
  | Some (x1, y1, x2, y2, t1, t2) =>
    let k := factor (now - start) t1 t2 in
    let a := align_of t c in
    Pc (f_sub f32 (between x1 x2 k) (offset_x a w)) (f_sub f32 (between y1 y2 k) (offset_y a h)) (p_ax p) (p_ay p) (p_ox p) (p_oy p) true
  | None => p
  end.
