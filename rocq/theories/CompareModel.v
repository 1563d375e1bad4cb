(* ass-renderer/src/debug/visual_comparison/mod.rs 216-276: compare_with_libass.
   A pixmap has sizes and a colour for each place inside them; u32 products are
   checked.  A panic is None. *)
From Verif Require Import Base FloatModel.

Definition color := (N * N * N * N)%type.
Record pixmap := Pm { m_w : nat; m_h : nat; m_at : nat -> nat -> color }.
(* Pixmap::pixel *)
Definition pixel_at (m : pixmap) (x y : nat) : option color := if (x <? m_w m) && (y <? m_h m) then Some (m_at m x y) else None.
(* types.rs 59-65, 50-56 *)
Record difference := Df { d_x : nat; d_y : nat; d_ours : color; d_theirs : color; d_by : float }.
Record comparison := Cm { c_average : float; c_max : float; c_different : nat; c_total : N; c_list : list difference }.

(* 231-234 *)
Definition apart (a b : N) : float := f_of_Z f32 (Z.abs (Z.of_N a - Z.of_N b)).
(* 236 *)
Definition pixel_diff (p q : color) : float :=
  let '(r1, g1, b1, a1) := p in
  let '(r2, g2, b2, a2) := q in
  f_div f32 (f_add f32 (f_add f32 (f_add f32 (apart r1 r2) (apart g1 g2)) (apart b1 b2)) (apart a1 a2)) (Fin 4).
(* 227-264, one place after another: differences, total, greatest *)
Fixpoint walk (ours theirs : pixmap) (l : list (nat * nat)) (ds : list difference) (sum max : float) : option (list difference * float * float) :=
  match l with
  | [] => Some (ds, sum, max)
  | (x, y) :: r =>
    match pixel_at ours x y, pixel_at theirs x y with
    | Some p, Some q =>
      let d := pixel_diff p q in
      walk ours theirs r (if f_lt (Fin 10) d then ds ++ [Df x y p q d] else ds) (f_add f32 sum d) (if f_lt max d then d else max)
    | _, _ => None
    end
  end.
Definition places (w h : nat) : list (nat * nat) := flat_map (fun y => map (fun x => (x, y)) (seq 0 w)) (seq 0 h).
(* 216-276 *)
Definition compare (ours theirs : pixmap) : option comparison :=
  match walk ours theirs (places (Nat.min (m_w ours) (m_w theirs)) (Nat.min (m_h ours) (m_h theirs))) [] (Fin 0) (Fin 0) with
  | None => None
  | Some (ds, sum, max) =>
    let n := (N.of_nat (m_w ours) * N.of_nat (m_h ours))%N in
    if (4294967296 <=? n)%N then None else
    let count := f_of_N f32 n in
    Some (Cm (f_div f32 sum count) max (List.length ds) (f_to_N 18446744073709551615 count) ds)
  end.
