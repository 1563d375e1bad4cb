(* Placing subtitles so that they do not cover each other.
   Source: crates/ass-renderer/src/collision/{mod,resolver}.rs.  Arithmetic is
   f32 arithmetic as in FloatModel; None is a panic (overflow is checked). *)
From Verif Require Import Base SortLib FloatModel.

Record bbox := BBox { b_x : float; b_y : float; b_w : float; b_h : float }.
Record placed := Placed { p_box : bbox; p_layer : Z; p_align : N; p_priority : Z }.
(* margin_v, margin_l and margin_r of PositionedEvent (mod.rs 83-98) are only carried along and left out *)

Definition fl (z : Z) : float := Fin (inject_Z z).
(* f32::max, f32::min (a NaN loses), f32::clamp (panics unless lo <= hi) *)
Definition f_max (a b : float) : float :=
  match a, b with
  | NaN, _ => b
  | _, NaN => a
  | _, _ => if f_le a b then b else a
  end.
Definition f_min (a b : float) : float :=
  match a, b with
  | NaN, _ => b
  | _, NaN => a
  | _, _ => if f_le a b then a else b
  end.
Definition f_clamp (a lo hi : float) : option float :=
  if f_le lo hi then Some (let a := if f_lt a lo then lo else a in if f_lt hi a then hi else a) else None.
(* f32::MAX and f32::MIN *)
Definition f32_max : float := Fin (inject_Z (16777215 * 2 ^ 104)).
Definition f32_min : float := Fin (inject_Z (- (16777215 * 2 ^ 104))).
Definition add32 := f_add f32.
Definition sub32 := f_sub f32.
Definition mul32 := f_mul f32.

(* mod.rs 46-51, intersects *)
Definition intersects (a b : bbox) : bool :=
  f_lt (b_x a) (add32 (b_x b) (b_w b)) && f_lt (b_x b) (add32 (b_x a) (b_w a)) &&
  f_lt (b_y a) (add32 (b_y b) (b_h b)) && f_lt (b_y b) (add32 (b_y a) (b_h a)).
(* mod.rs 54-63, overlap_area *)
Definition overlap_area (a b : bbox) : float :=
  let xo := sub32 (f_min (add32 (b_x a) (b_w a)) (add32 (b_x b) (b_w b))) (f_max (b_x a) (b_x b)) in
  let yo := sub32 (f_min (add32 (b_y a) (b_h a)) (add32 (b_y b) (b_h b))) (f_max (b_y a) (b_y b)) in
  if f_lt (fl 0) xo && f_lt (fl 0) yo then mul32 xo yo else fl 0.
(* mod.rs 66-73, expand *)
Definition expand (b : bbox) (m : float) : bbox :=
  BBox (sub32 (b_x b) m) (sub32 (b_y b) m) (add32 (b_w b) (mul32 m (fl 2))) (add32 (b_h b) (mul32 m (fl 2))).
Definition with_y (b : bbox) (y : float) : bbox := BBox (b_x b) y (b_w b) (b_h b).

(* resolver.rs 11-43: the width of the screen is never read *)
Record resolver := Resolver { r_height : float; r_placed : list placed; r_margin : float }.
Definition new_resolver (h : float) : resolver := Resolver h [] (fl 2).
Definition set_margin (r : resolver) (m : float) : resolver := Resolver (r_height r) (r_placed r) m.
Definition clear_placed (r : resolver) : resolver := Resolver (r_height r) [] (r_margin r).
Definition add_fixed (r : resolver) (e : placed) : resolver := Resolver (r_height r) (r_placed r ++ [e]) (r_margin r).
(* resolver.rs 53 *)
Definition push_down (align : N) : bool := negb ((1 <=? align)%N && (align <=? 3)%N).
(* resolver.rs 59-66 *)
Definition in_the_way (r : resolver) (layer : Z) (b : bbox) : list bbox :=
  map p_box (filter (fun e => (p_layer e =? layer)%Z && intersects (expand (p_box e) (r_margin r)) (expand b (r_margin r))) (r_placed r)).
(* resolver.rs 70-80 *)
Definition beyond (down : bool) (m : float) (hits : list bbox) (b : bbox) : float :=
  if down then add32 (fold_left f_max (map (fun o => add32 (b_y o) (b_h o)) hits) f32_min) (mul32 m (fl 2))
  else sub32 (sub32 (fold_left f_min (map b_y hits) f32_max) (b_h b)) (mul32 m (fl 2)).
(* resolver.rs 58-81: at most n rounds *)
Fixpoint shift (r : resolver) (layer : Z) (down : bool) (n : nat) (b : bbox) : bbox :=
  match n with
  | O => b
  | S n' =>
    match in_the_way r layer b with
    | [] => b
    | hits => shift r layer down n' (with_y b (beyond down (r_margin r) hits b))
    end
  end.
Definition with_box (e : placed) (b : bbox) : placed := Placed b (p_layer e) (p_align e) (p_priority e).
(* resolver.rs 51-90, find_position *)
Definition find_position (r : resolver) (e : placed) : option (resolver * bbox) :=
  let b := shift r (p_layer e) (push_down (p_align e)) (S (List.length (r_placed r))) (p_box e) in
  let max_y := f_max (sub32 (r_height r) (b_h b)) (fl 0) in
  match f_clamp (b_y b) (fl 0) max_y with
  | Some y => Some (add_fixed r (with_box e (with_y b y)), with_y b y)
  | None => None
  end.

(* what a caller can do with a resolver *)
Inductive collide_op := CFixed (e : placed) | CFind (e : placed) | CMargin (m : float) | CClear.
Definition collide_step (r : resolver) (o : collide_op) : option (resolver * option bbox) :=
  match o with
  | CFixed e => Some (add_fixed r e, None)
  | CFind e => match find_position r e with Some (r', b) => Some (r', Some b) | None => None end
  | CMargin m => Some (set_margin r m, None)
  | CClear => Some (clear_placed r, None)
  end.
Fixpoint collide_run (r : resolver) (ops : list collide_op) : option (resolver * list (option bbox)) :=
  match ops with
  | [] => Some (r, [])
  | o :: ops' =>
    match collide_step r o with
    | Some (r1, x) => match collide_run r1 ops' with Some (r2, xs) => Some (r2, x :: xs) | None => None end
    | None => None
    end
  end.

(* resolver.rs 114-130, process_events.  The sort key -e.priority overflows for
   i32::MIN; keys are computed for every element once there are two. *)
Definition by_priority (a b : placed) : bool := (p_priority b <=? p_priority a)%Z.
Fixpoint place_each (threshold : Z) (r : resolver) (l : list placed) : option (resolver * list placed) :=
  match l with
  | [] => Some (r, [])
  | e :: l' =>
    if (threshold <=? p_priority e)%Z then
      match place_each threshold (add_fixed r e) l' with Some (r', out) => Some (r', e :: out) | None => None end
    else
      match find_position r e with
      | Some (r1, b) => match place_each threshold r1 l' with Some (r', out) => Some (r', with_box e b :: out) | None => None end
      | None => None
      end
  end.
Definition process_events (threshold : Z) (r : resolver) (l : list placed) : option (resolver * list placed) :=
  if (2 <=? List.length l) && existsb (fun e => (p_priority e =? -2147483648)%Z) l then None
  else place_each threshold (clear_placed r) (stable_sort by_priority l).

(* resolver.rs 139-141, check_collision *)
Definition check_collision (b : bbox) (existing : list bbox) : bool := existsb (intersects b) existing.
(* resolver.rs 143-175, find_free_position *)
Definition try_down (b : bbox) (existing : list bbox) (bounds : bbox) (i : Z) : option float :=
  let y := add32 (b_y b) (mul32 (f_of_Z f32 i) (fl 10)) in
  if f_le (add32 y (b_h b)) (b_h bounds) && negb (check_collision (with_y b y) existing) then Some y else None.
Definition try_up (b : bbox) (existing : list bbox) (i : Z) : option float :=
  let y := sub32 (b_y b) (mul32 (f_of_Z f32 i) (fl 10)) in
  if f_le (fl 0) y && negb (check_collision (with_y b y) existing) then Some y else None.
Fixpoint first_some {A B} (f : A -> option B) (l : list A) : option B :=
  match l with
  | [] => None
  | a :: l' => match f a with Some b => Some b | None => first_some f l' end
  end.
Definition steps (from : Z) (n : nat) : list Z := map (fun i => (from + Z.of_nat i)%Z) (seq 0 n).
Definition find_free_position (b : bbox) (existing : list bbox) (bounds : bbox) : option (float * float) :=
  match first_some (try_down b existing bounds) (steps 0 20) with
  | Some y => Some (b_x b, y)
  | None => match first_some (try_up b existing) (steps 1 19) with Some y => Some (b_x b, y) | None => None end
  end.
