(* Model of the scanline rasterizer of the software backend:
   crates/ass-renderer/src/backends/raster/{mod,span}.rs and
   backends/coverage/mod.rs (CoverageTile::rasterize).
   The code is written once over a record of arithmetic operations, and used
   with IEEE binary32 (for what must hold of the floats) and with the rational
   numbers (for what the method computes when nothing is rounded).
   Simplifications: powi(2) is a product; sqrt is any function; the variant of
   convert_span without the feature simd; a tiny-skia path is the list of its
   segments with the rectangle its bounds() gives.  None stands for a panic. *)
From Coq Require Import Qround.
From Verif Require Import Base FloatModel.
Open Scope Q_scope.

(* what the code does with an f32 *)
Record arith := Arith {
  num : Type;
  cst : Q -> num;
  add : num -> num -> num; sub : num -> num -> num; mul : num -> num -> num; div : num -> num -> num;
  neg : num -> num; absv : num -> num;
  min_ : num -> num -> num; max_ : num -> num -> num;
  le : num -> num -> bool; lt : num -> num -> bool;
  floor_ : num -> num; ceil_ : num -> num; sqrt_ : num -> num;
  to_usize : num -> nat; of_usize : nat -> num;
  count_ : nat -> nat -> num -> option nat;
  to_i32 : num -> Z; of_i32 : Z -> num;
  to_u8 : num -> N }.

(* count_ lo hi x: (1 + x as usize).clamp(lo, hi), where adding 1 may overflow (None) *)
(* f32::min and f32::max give the other argument for a NaN *)
Definition is_nan (a : float) : bool := match a with NaN => true | _ => false end.
Definition f_min2 (a b : float) : float := if is_nan a then b else if is_nan b then a else if f_le a b then a else b.
Definition f_max2 (a b : float) : float := if is_nan a then b else if is_nan b then a else if f_le a b then b else a.
Definition f_floor (a : float) : float := match a with Fin q => Fin (inject_Z (Qfloor q)) | _ => a end.
Definition f_ceil (a : float) : float := match a with Fin q => Fin (inject_Z (Qceiling q)) | _ => a end.
Definition single (sq : float -> float) : arith := {|
  num := float; cst := round_to f32;
  add := f_add f32; sub := f_sub f32; mul := f_mul f32; div := f_div f32; neg := f_opp; absv := f_abs;
  min_ := f_min2; max_ := f_max2; le := f_le; lt := f_lt; floor_ := f_floor; ceil_ := f_ceil; sqrt_ := sq;
  to_usize := fun a => Z.to_nat (f_to_Z 0 18446744073709551615 a); of_usize := fun n => f_of_Z f32 (Z.of_nat n);
  count_ := fun lo hi a => let z := f_to_Z 0 18446744073709551615 a in if (z <? 18446744073709551615)%Z then Some (Z.to_nat (Z.max (Z.of_nat lo) (Z.min (Z.of_nat hi) (1 + z)))) else None;
  to_i32 := f_to_Z (-2147483648) 2147483647; of_i32 := f_of_Z f32;
  to_u8 := f_to_N 255 |}.
Definition qlt (a b : Q) : bool := negb (Qle_bool b a).
Definition exact (sq : Q -> Q) : arith := {|
  num := Q; cst := fun q => q;
  add := Qplus; sub := Qminus; mul := Qmult; div := Qdiv; neg := Qopp; absv := Qabs;
  min_ := fun a b => if Qle_bool a b then a else b; max_ := fun a b => if Qle_bool a b then b else a;
  le := Qle_bool; lt := qlt; floor_ := fun q => inject_Z (Qfloor q); ceil_ := fun q => inject_Z (Qceiling q); sqrt_ := sq;
  to_usize := fun q => Z.to_nat (Qfloor q); of_usize := fun n => inject_Z (Z.of_nat n);
  count_ := fun lo hi q => Some (Nat.max lo (Nat.min hi (1 + Z.to_nat (Qfloor q))));
  to_i32 := fun q => Z.max (-2147483648) (Z.min 2147483647 (Z.quot (Qnum q) (Zpos (Qden q)))); of_i32 := inject_Z;
  to_u8 := fun q => Z.to_N (Z.max 0 (Z.min 255 (Z.quot (Qnum q) (Zpos (Qden q))))) |}.

Definition bind {X Y} (o : option X) (f : X -> option Y) : option Y := match o with Some x => f x | None => None end.
(* v[i] = f(v[i]); None: i is out of bounds *)
Fixpoint upd {X} (l : list X) (i : nat) (f : X -> X) : option (list X) :=
  match l, i with
  | [], _ => None
  | x :: r, O => Some (f x :: r)
  | x :: r, S j => bind (upd r j f) (fun r' => Some (x :: r'))
  end.
Fixpoint fold_opt {X S} (f : S -> X -> option S) (l : list X) (s : S) : option S :=
  match l with [] => Some s | x :: r => bind (f s x) (fold_opt f r) end.

Inductive segment (T : Type) :=
| MoveTo (p : T * T) | LineTo (p : T * T) | QuadTo (c p : T * T) | CubicTo (c1 c2 p : T * T) | ClosePath.
Arguments MoveTo {T}. Arguments LineTo {T}. Arguments QuadTo {T}. Arguments CubicTo {T}. Arguments ClosePath {T}.

Section Raster.
  Variable A : arith.
  Notation F := (num A).
  Notation "x +. y" := (add A x y) (at level 50, left associativity).
  Notation "x -. y" := (sub A x y) (at level 50, left associativity).
  Notation "x *. y" := (mul A x y) (at level 40, left associativity).
  Notation "x /. y" := (div A x y) (at level 40, left associativity).
  Notation k := (cst A).

  (* raster/mod.rs:24-37; the stride of acc is width + 2 *)
  Record raster := Raster { width : nat; height : nat; acc : list F; row_min : list nat; row_max : list nat }.
  Definition stride (r : raster) : nat := width r + 2.
  (* raster/mod.rs:41-53 *)
  Definition new (w h : nat) : raster :=
    let rows := Nat.max h 1 in Raster w h (repeat (k 0) ((w + 2) * rows)) (repeat w rows) (repeat 0%nat rows).

  (* f32::clamp *)
  Definition clamp (lo hi x : F) : F := if lt A x lo then lo else if lt A hi x then hi else x.
  Definition bump (i : nat) (v : F) (l : list F) : option (list F) := upd l i (fun a => a +. v).
  (* raster/mod.rs:114-142, the writes to acc for one row *)
  Definition deposit (start : nat) (d xc xnc : F) (l : list F) : option (list F) :=
    let (xa, xb) := if lt A xc xnc then (xc, xnc) else (xnc, xc) in
    let xa_floor := floor_ A xa in
    let x0i := to_usize A xa_floor in
    let x1ceil := ceil_ A xb in
    let x1i := to_usize A x1ceil in
    if (x1i <=? x0i + 1)%nat then
      let xmf := (k (1#2)) *. (xc +. xnc) -. xa_floor in
      let i := (start + x0i)%nat in
      bind (bump i (d *. ((k 1) -. xmf)) l) (bump (i + 1) (d *. xmf))
    else
      let s := (k 1) /. (xb -. xa) in
      let x0f := xa -. xa_floor in
      let a_m := (k 1) -. x0f in
      let am := (k (1#2)) *. s *. a_m *. a_m in
      let x1f := xb -. x1ceil +. (k 1) in
      let bm := (k (1#2)) *. s *. x1f *. x1f in
      let i0 := (start + x0i)%nat in
      bind (bump i0 (d *. am) l) (fun l =>
      bind (if (x1i =? x0i + 2)%nat then bump (i0 + 1) (d *. ((k 1) -. am -. bm)) l
            else
              let a0 := s *. ((k (3#2)) -. x0f) in
              bind (bump (i0 + 1) (d *. (a0 -. am)) l) (fun l =>
              bind (fold_opt (fun l xi => bump (start + xi) (d *. s) l) (seq (x0i + 2) (x1i - 1 - (x0i + 2))) l) (fun l =>
              let a1 := a0 +. (of_usize A (x1i - x0i) -. (k 3)) *. s in
              bump (start + x1i - 1) (d *. ((k 1) -. a1 -. bm)) l)))
           (bump (start + x1i) (d *. bm))).
  (* raster/mod.rs:87-145: one row of an edge; the state is the row's x and the rasterizer *)
  Definition row_step (dir dxdy y_top y_bot : F) (st : F * raster) (y : nat) : option (F * raster) :=
    let (x, r) := st in
    let dy := min_ A (of_usize A (y + 1)) y_bot -. max_ A (of_usize A y) y_top in
    if le A dy (k 0) then Some st
    else
      let w := of_usize A (width r) in
      let x_next := x +. dxdy *. dy in
      let d := dy *. dir in
      let xc := clamp (k 0) w x in
      let xnc := clamp (k 0) w x_next in
      let (xa, xb) := if lt A xc xnc then (xc, xnc) else (xnc, xc) in
      let x0i := to_usize A (floor_ A xa) in
      let x1i := to_usize A (ceil_ A xb) in
      bind (upd (row_min r) y (fun m => Nat.min m x0i)) (fun mn =>
      bind (upd (row_max r) y (fun m => Nat.max m (Nat.max x1i (x0i + 1)))) (fun mx =>
      bind (deposit (y * stride r) d xc xnc (acc r)) (fun l =>
      Some (x_next, Raster (width r) (height r) l mn mx)))).
  (* raster/mod.rs:59-147 *)
  Definition line (r : raster) (x0 y0 x1 y1 : F) : option raster :=
    let '(dir, x, top_y, bot_x, bot_y) := if le A y0 y1 then ((k 1), x0, y0, x1, y1) else ((k (-1)), x1, y1, x0, y0) in
    let dy_total := bot_y -. top_y in
    if le A dy_total (k 0) then Some r
    else
      let dxdy := (bot_x -. x) /. dy_total in
      let '(x, y_top) := if lt A top_y (k 0) then (x +. neg A top_y *. dxdy, (k 0)) else (x, top_y) in
      let y_bot := min_ A bot_y (of_usize A (height r)) in
      if le A y_bot y_top then Some r
      else
        let first_row := to_usize A (floor_ A y_top) in
        let last_row := Nat.min (to_usize A (ceil_ A y_bot)) (height r) in
        option_map snd (fold_opt (row_step dir dxdy y_top y_bot) (seq first_row (last_row - first_row)) (x, r)).

  (* raster/mod.rs:150-168 and 172-200: the chords of a curve, from point to point *)
  Definition chords (point : nat -> F * F) (n : nat) (p0 : F * F) (r : raster) : option raster :=
    option_map snd (fold_opt (fun (st : (F * F) * raster) i =>
      let '((px, py), r) := st in let (nx, ny) := point i in
      option_map (fun r => ((nx, ny), r)) (line r px py nx ny)) (seq 1 n) (p0, r)).
  Definition sq (x : F) : F := x *. x.
  Definition quad (r : raster) (x0 y0 cx cy x1 y1 : F) : option raster :=
    let dev := sqrt_ A (sq (x0 -. (k 2) *. cx +. x1) +. sq (y0 -. (k 2) *. cy +. y1)) in
    bind (count_ A 1 64 (sqrt_ A (dev /. (k (8#10))))) (fun n =>
    chords (fun i =>
      let t := of_usize A i /. of_usize A n in
      let mt := (k 1) -. t in
      let a := mt *. mt in let b := (k 2) *. mt *. t in let c := t *. t in
      (a *. x0 +. b *. cx +. c *. x1, a *. y0 +. b *. cy +. c *. y1)) n (x0, y0) r).
  Definition cubic (r : raster) (x0 y0 c1x c1y c2x c2y x1 y1 : F) : option raster :=
    let d1 := sqrt_ A (sq (x0 -. (k 2) *. c1x +. c2x) +. sq (y0 -. (k 2) *. c1y +. c2y)) in
    let d2 := sqrt_ A (sq (c1x -. (k 2) *. c2x +. x1) +. sq (c1y -. (k 2) *. c2y +. y1)) in
    bind (count_ A 1 96 (sqrt_ A ((d1 +. d2) /. (k (8#10))))) (fun n =>
    chords (fun i =>
      let t := of_usize A i /. of_usize A n in
      let mt := (k 1) -. t in
      let a := mt *. mt *. mt in let b := (k 3) *. mt *. mt *. t in let c := (k 3) *. mt *. t *. t in let e := t *. t *. t in
      (a *. x0 +. b *. c1x +. c *. c2x +. e *. x1, a *. y0 +. b *. c1y +. c *. c2y +. e *. y1)) n (x0, y0) r).

  (* span.rs:34-38 *)
  Definition byte_of (s : F) : N := to_u8 A (min_ A (absv A s) (k 1) *. (k 255) +. (k (1#2))).
  Fixpoint prefix_sums (sum : F) (l : list F) : list F := match l with [] => [] | a :: r => let s := sum +. a in s :: prefix_sums s r end.
  (* &v[lo..=hi] *)
  Definition range_incl {X} (l : list X) (lo hi : nat) : option (list X) :=
    if (hi <? List.length l)%nat && (lo <=? hi + 1)%nat then Some (firstn (hi + 1 - lo) (skipn lo l)) else None.
  (* raster/mod.rs:204-232: one row of the bitmap *)
  Definition finish_row (r : raster) (y : nat) : option (list N) :=
    match nth_error (row_min r) y, nth_error (row_max r) y with
    | Some lo, Some mx =>
      let hi := Nat.min mx (width r - 1) in
      if (hi <? lo)%nat then Some (repeat 0%N (width r))
      else
        let row := (y * stride r)%nat in
        bind (range_incl (acc r) (row + lo) (row + hi)) (fun cells =>
        Some (repeat 0%N lo ++ map byte_of (prefix_sums (k 0) cells) ++ repeat 0%N (width r - 1 - hi)))
    | _, _ => None
    end.
  Definition finish (r : raster) : option (list N) :=
    if (width r =? 0)%nat then Some []
    else fold_opt (fun out y => option_map (fun row => out ++ row) (finish_row r y)) (seq 0 (height r)) [].

  (* coverage/mod.rs:88-154; u32::try_from never fails on a positive i32; i32 arithmetic panics on overflow *)
  Definition point := (F * F)%type.
  Definition rel (ox oy : F) (p : point) : point := (fst p -. ox, snd p -. oy).
  Definition walk_step (ox oy : F) (st : point * point * bool * raster) (s : segment F) : option (point * point * bool * raster) :=
    let '(start, cur, opened, r) := st in
    match s with
    | MoveTo p =>
      bind (if opened : bool then line r (fst cur) (snd cur) (fst start) (snd start) else Some r) (fun r =>
      Some (rel ox oy p, rel ox oy p, true, r))
    | LineTo p => let n := rel ox oy p in option_map (fun r => (start, n, opened, r)) (line r (fst cur) (snd cur) (fst n) (snd n))
    | QuadTo c p =>
      let c := rel ox oy c in let n := rel ox oy p in
      option_map (fun r => (start, n, opened, r)) (quad r (fst cur) (snd cur) (fst c) (snd c) (fst n) (snd n))
    | CubicTo c1 c2 p =>
      let a := rel ox oy c1 in let b := rel ox oy c2 in let n := rel ox oy p in
      option_map (fun r => (start, n, opened, r)) (cubic r (fst cur) (snd cur) (fst a) (snd a) (fst b) (snd b) (fst n) (snd n))
    | ClosePath => option_map (fun r => (start, start, opened, r)) (line r (fst cur) (snd cur) (fst start) (snd start))
    end.
  Definition i32_of (z : Z) : option Z := if (-2147483648 <=? z)%Z && (z <=? 2147483647)%Z then Some z else None.
  Record tile := Tile { t_width : nat; t_height : nat; t_data : list N; t_x : Z; t_y : Z }.
  Definition rasterize (path : list (segment F)) (left top right bottom : F) : option tile :=
    bind (i32_of (to_i32 A (floor_ A left) - 1)) (fun min_x =>
    bind (i32_of (to_i32 A (floor_ A top) - 1)) (fun min_y =>
    bind (i32_of (to_i32 A (ceil_ A right) + 1)) (fun max_x =>
    bind (i32_of (to_i32 A (ceil_ A bottom) + 1)) (fun max_y =>
    bind (i32_of (max_x - min_x)) (fun dx =>
    bind (i32_of (max_y - min_y)) (fun dy =>
    let w := Z.to_nat (Z.max dx 1) in
    let h := Z.to_nat (Z.max dy 1) in
    let ox := of_i32 A min_x in
    let oy := of_i32 A min_y in
    bind (fold_opt (walk_step ox oy) path (((k 0), (k 0)), ((k 0), (k 0)), false, new w h)) (fun st =>
    let '(start, cur, opened, r) := st in
    bind (if opened : bool then line r (fst cur) (snd cur) (fst start) (snd start) else Some r) (fun r =>
    bind (finish r) (fun data => Some (Tile w h data min_x min_y)))))))))).
End Raster.
Close Scope Q_scope.
