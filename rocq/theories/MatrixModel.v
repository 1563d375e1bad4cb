(* ass-renderer/src/utils/math.rs and pipeline/validation.rs.  The sine and
   cosine of the platform are parameters; of an error only its presence is kept. *)
From Coq Require Import QArith Qround.
From Verif Require Import Base FloatModel.

(* ---- utils/math.rs ---- *)
Record row := Rw { r0 : float; r1 : float; r2 : float }.
(* 5-8 *)
Record matrix := Mx { m0 : row; m1 : row; m2 : row }.
(* 12-16 *)
Definition identity : matrix := Mx (Rw (Fin 1) (Fin 0) (Fin 0)) (Rw (Fin 0) (Fin 1) (Fin 0)) (Rw (Fin 0) (Fin 0) (Fin 1)).
(* 19-23 *)
Definition translate (x y : float) : matrix := Mx (Rw (Fin 1) (Fin 0) x) (Rw (Fin 0) (Fin 1) y) (Rw (Fin 0) (Fin 0) (Fin 1)).
(* 26-30 *)
Definition scale (sx sy : float) : matrix := Mx (Rw sx (Fin 0) (Fin 0)) (Rw (Fin 0) sy (Fin 0)) (Rw (Fin 0) (Fin 0) (Fin 1)).
(* 33-39 *)
Definition rotate (cos sin : float -> float) (a : float) : matrix := Mx (Rw (cos a) (f_opp (sin a)) (Fin 0)) (Rw (sin a) (cos a) (Fin 0)) (Rw (Fin 0) (Fin 0) (Fin 1)).
(* 46-49: one element *)
Definition element (r : row) (x y z : float) : float :=
  f_add f32 (f_add f32 (f_add f32 (Fin 0) (f_mul f32 (r0 r) x)) (f_mul f32 (r1 r) y)) (f_mul f32 (r2 r) z).
Definition row_by (r : row) (b : matrix) : row :=
  Rw (element r (r0 (m0 b)) (r0 (m1 b)) (r0 (m2 b))) (element r (r1 (m0 b)) (r1 (m1 b)) (r1 (m2 b))) (element r (r2 (m0 b)) (r2 (m1 b)) (r2 (m2 b))).
(* 42-53 *)
Definition multiply (a b : matrix) : matrix := Mx (row_by (m0 a) b) (row_by (m1 a) b) (row_by (m2 a) b).
Definition along (r : row) (x y : float) : float := f_add f32 (f_add f32 (f_mul f32 (r0 r) x) (f_mul f32 (r1 r) y)) (r2 r).
(* 56-60 *)
Definition transform_point (m : matrix) (x y : float) : float * float := (along (m0 m) x y, along (m1 m) x y).
(* 71-86 *)
Record transform := Tf { tx : float; ty : float; sx : float; sy : float; rotation : float; shear_x : float; shear_y : float }.
(* 103-109 *)
Definition to_matrix (cos sin : float -> float) (t : transform) : matrix := multiply (multiply (translate (tx t) (ty t)) (rotate cos sin (rotation t))) (scale (sx t) (sy t)).
(* 132-134 *)
Definition lerp (a b t : float) : float := f_add f32 a (f_mul f32 (f_sub f32 b a) t).
(* 112-122 *)
Definition transform_lerp (a b : transform) (t : float) : transform :=
  Tf (lerp (tx a) (tx b) t) (lerp (ty a) (ty b) t) (lerp (sx a) (sx b) t) (lerp (sy a) (sy b) t) (lerp (rotation a) (rotation b) t) (lerp (shear_x a) (shear_x b) t) (lerp (shear_y a) (shear_y b) t).
(* 137-147 *)
Definition cubic_bezier (t p1 p2 : float) : float :=
  let mul := f_mul f32 in let add := f_add f32 in
  let t2 := mul t t in let t3 := mul t2 t in
  let mt := f_sub f32 (Fin 1) t in let mt2 := mul mt mt in let mt3 := mul mt2 mt in
  add (add (add (mul mt3 (Fin 0)) (mul (mul (mul (Fin 3) mt2) t) p1)) (mul (mul (mul (Fin 3) mt) t2) p2)) (mul t3 (Fin 1)).

(* ---- pipeline/validation.rs ---- *)
Definition keep {A} (b : bool) (a : A) : option A := if b then Some a else None.
(* 11-19, 22-30, 33-41, 117-126 *)
Definition validate_alignment (v : N) : option N := keep ((1 <=? v) && (v <=? 9))%N v.
Definition validate_wrap_style (v : N) : option N := keep (v <=? 3)%N v.
Definition validate_drawing_mode (v : N) : option N := keep (v <=? 4)%N v.
Definition validate_karaoke_duration (v : N) : option N := keep (v <? 100000)%N v.
(* 44-52, 55-63, 77-85, 88-96, 166-174, 177-185 *)
Definition validate_font_size (v : float) : option float := keep (f_lt (Fin 0) v && f_lt v (Fin 1000)) v.
Definition validate_scale (v : float) : option float := keep (f_le (Fin 0) v && f_le v (Fin 1000)) v.
Definition validate_border_width (v : float) : option float := keep (f_le (Fin 0) v && f_lt v (Fin 100)) v.
Definition validate_blur (v : float) : option float := keep (f_le (Fin 0) v && f_lt v (Fin 100)) v.
Definition validate_shear (v : float) : option float := keep (f_le (Fin (-2)) v && f_le v (Fin 2)) v.
Definition validate_acceleration (v : float) : option float := keep (f_lt (Fin 0) v && f_lt v (Fin 100)) v.
(* f32 % 360.0, which is exact and has the sign of the dividend *)
Definition trunc (q : Q) : Z := (if Qnum q <? 0 then - Qfloor (- q) else Qfloor q)%Z.
Definition rem360 (v : float) : float := match v with Fin q => Fin (q - 360 * inject_Z (trunc (q / 360))) | _ => NaN end.
(* 66-74 *)
Definition validate_rotation (v : float) : option float :=
  let n := rem360 v in Some (if f_lt n (Fin 0) then f_add f32 n (Fin 360) else n).
Definition finite (v : float) : bool := match v with Fin _ => true | _ => false end.
(* 129-138 *)
Definition validate_position (x y : float) : option (float * float) := keep (finite x && finite y) (x, y).
(* 141-157 *)
Definition validate_clip_rect (x1 y1 x2 y2 : float) : option (float * float * float * float) :=
  if finite x1 && finite y1 && finite x2 && finite y2 then
    let '(x1, x2) := if f_le x1 x2 then (x1, x2) else (x2, x1) in
    let '(y1, y2) := if f_le y1 y2 then (y1, y2) else (y2, y1) in
    Some (x1, y1, x2, y2)
  else None.
