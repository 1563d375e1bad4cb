(* Model of the renderer's animations: ass-renderer pipeline/transform/{mod,
   parse}.rs (how far an animation has come, blending) and pipeline/build/
   animation.rs.  The two functions of the platform's mathematics library that
   are called, sin and powf, are arguments. *)
From Verif Require Export Base FloatModel SegmentModel.
From Verif Require Import CollideModel.

Record math := Math { m_sin : float -> float; m_pow : float -> float -> float }.
Definition const32 (q : Q) : float := round_to f32 q.
(* the literals 0.001 and 0.1, and core::f32::consts::PI *)
Definition thousandth : float := const32 (1 # 1000).
Definition tenth : float := const32 (1 # 10).
Definition pi32 : float := const32 (13176795 # 4194304).
(* |a - b| < 0.001 *)
Definition about (a b : float) : bool := f_lt (f_abs (sub32 a b)) thousandth.
(* f32::clamp(0.0, 1.0), which keeps a NaN *)
Definition clamp01 (t : float) : float :=
  let t := if f_lt t (fl 0) then fl 0 else t in if f_lt (fl 1) t then fl 1 else t.
(* transform/parse.rs:17-43 *)
Definition acceleration_curve (m : math) (t accel : float) : float :=
  let t := clamp01 t in
  if about accel (fl 1) then t
  else if about accel (Fin (1 # 2)) then let r := sub32 (fl 1) t in sub32 (fl 1) (mul32 r r)
  else if about accel (fl 2) then mul32 t t
  else if about accel (fl 3) then mul32 (mul32 t t) t
  else if f_lt accel (fl 0) then add32 t (mul32 (mul32 (m_sin m (mul32 t pi32)) tenth) (f_abs accel))
  else m_pow m t accel.
(* transform/mod.rs:144-162 *)
Definition calculate_progress (m : math) (tr : transform) (current full : N) : float :=
  let fin := if (0 <? tr_end tr)%N then tr_end tr else full in
  if (current <=? tr_start tr)%N then fl 0
  else if (fin <=? tr_start tr)%N || (fin <=? current)%N then fl 1
  else acceleration_curve m (f_div f32 (f_of_N f32 (current - tr_start tr)) (f_of_N f32 (fin - tr_start tr))) (tr_accel tr).

(* transform/mod.rs:166-168 *)
Definition blend_num (a b p : float) : float := add32 a (mul32 (sub32 b a) p).
(* transform/mod.rs:181-183 *)
Definition blend_byte (a b : N) (p : float) : N := f_to_N 255 (blend_num (f_of_N f32 a) (f_of_N f32 b) p).
(* transform/mod.rs:171-178 *)
Definition blend_color (a b : rgba) (p : float) : rgba :=
  let '(r1, g1, b1, a1) := a in
  let '(r2, g2, b2, a2) := b in
  (blend_byte r1 r2 p, blend_byte g1 g2 p, blend_byte b1 b2 p, blend_byte a1 a2 p).
(* a field and its target have the same type *)
Definition blend (a b : value) (p : float) : value :=
  match a, b with
  | VNum x, VNum y => VNum (blend_num x y p)
  | VColor x, VColor y => VColor (blend_color x y p)
  | VByte x, VByte y => VByte (blend_byte x y p)
  | _, _ => b
  end.

(* build/animation.rs:16-17: what the style gives *)
Record look := Look { lk_primary : rgba; lk_secondary : rgba; lk_outline : rgba; lk_back : rgba; lk_size : float }.
(* build/animation.rs:84-171: where an animation of a field without a value starts *)
Definition start_value (d : look) (f : field) : value :=
  match f with
  | FSize => VNum (lk_size d)
  | FScaleX | FScaleY => VNum (fl 100)
  | FPrimary => VColor (lk_primary d)
  | FSecondary => VColor (lk_secondary d)
  | FOutline => VColor (lk_outline d)
  | FBack => VColor (lk_back d)
  | FAlpha => VByte 0
  | _ => VNum (fl 0)
  end.
(* build/animation.rs:42-78 and 84-171 *)
Definition set_target (t : tags) (x : field * value) : tags := set_field (fst x) (Some (snd x)) t.
Definition blend_target (d : look) (p : float) (t : tags) (x : field * value) : tags :=
  let current := match tg_field t (fst x) with Some v => v | None => start_value d (fst x) end in
  set_field (fst x) (Some (blend current (snd x) p)) t.
(* build/animation.rs:36-172 *)
Definition apply_progress (d : look) (p : float) (targets : list (field * value)) (t : tags) : tags :=
  if f_le p (fl 0) || f_le (fl 1) p then
    if f_le (fl 1) p then fold_left set_target targets t else t
  else if f_lt (fl 0) p then fold_left (blend_target d p) targets t
  else t.
(* build/animation.rs:29-33; None is an overflow *)
Definition relative_ms (current start : N) : option N :=
  if (start <=? current)%N then let r := ((current - start) * 10)%N in if (u32_max <? r)%N then None else Some r
  else Some 0%N.
(* build/animation.rs:20-22 *)
Definition length_ms (start fin : N) : N := N.min u32_max ((fin - start) * 10).
(* build/animation.rs:10-174 *)
Fixpoint run_transforms (m : math) (d : look) (start fin current : N) (l : list transform) (t : tags) : run tags :=
  match l with
  | [] => Done t
  | tr :: r =>
    match relative_ms current start with
    | None => Crash
    | Some now => run_transforms m d start fin current r (apply_progress d (calculate_progress m tr now (length_ms start fin)) (tr_targets tr) t)
    end
  end.
Definition apply_transform_animations (m : math) (d : look) (start fin current : N) (t : tags) : run tags :=
  run_transforms m d start fin current (tg_transforms t) t.
