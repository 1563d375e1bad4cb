(* ass-renderer/src/debug/inspector/{mod,info}.rs: the frame inspector.  Sizes
   and positions are natural numbers with the checked arithmetic of a debug
   build on u32 and i32 explicit: None is a panic.  A histogram's 64-bit sums of
   bytes cannot overflow and are unbounded here; its set of colours, the float
   distance of two pixels and printing are left out. *)
From Verif Require Import Base AnalyzeModel.

(* info.rs 13-21 *)
Record pix := Pix { p_x : nat; p_y : nat; p_r : N; p_g : N; p_b : N; p_a : N }.
Definition u32 (n : nat) : option nat := if (N.of_nat n <? 4294967296)%N then Some n else None.
(* a u32 read as i32, and checked i32 arithmetic *)
Definition as_i32 (n : nat) : Z := let z := Z.of_nat n in if (z <? 2147483648)%Z then z else (z - 4294967296)%Z.
Definition i32 (z : Z) : option Z := if ((-2147483648 <=? z) && (z <? 2147483648))%Z then Some z else None.
Definition as_u32 (z : Z) : nat := Z.to_nat (if (z <? 0)%Z then z + 4294967296 else z)%Z.
Definition bind {A B} (o : option A) (k : A -> option B) : option B := match o with Some a => k a | None => None end.
Definition sub (a b : nat) : option nat := if b <=? a then Some (a - b) else None.

(* mod.rs 13-17 *)
Record inspector := In { i_frame : option frame; i_x : nat; i_y : nat }.
(* 26-32 *)
Definition fresh : inspector := In None 0 0.
(* 34-38 *)
Definition load (f : frame) (i : inspector) : inspector := In (Some f) (f_w f / 2) (f_h f / 2).
Definition moved (c : nat) (d : Z) (size : nat) : option nat :=
  bind (i32 (as_i32 c + d)) (fun s => bind (i32 (as_i32 size - 1)) (fun m => Some (as_u32 (Z.min (Z.max s 0) m)))).
(* 40-51 *)
Definition move_cursor (dx dy : Z) (i : inspector) : option inspector :=
  match i_frame i with
  | None => Some i
  | Some f => bind (moved (i_x i) dx (f_w f)) (fun x => bind (moved (i_y i) dy (f_h f)) (fun y => Some (In (Some f) x y)))
  end.
(* 53-58 *)
Definition set_cursor (x y : nat) (i : inspector) : option inspector :=
  match i_frame i with
  | None => Some i
  | Some f => bind (sub (f_w f) 1) (fun mx => bind (sub (f_h f) 1) (fun my => Some (In (Some f) (Nat.min x mx) (Nat.min y my))))
  end.
(* ((y * frame.width() + x) * 4) in u32 *)
Definition offset (f : frame) (x y : nat) : option nat := bind (u32 (y * f_w f)) (fun a => bind (u32 (a + x)) (fun b => u32 (b * 4))).
(* 64-86 *)
Definition pixel_in (f : frame) (x y : nat) : option (option pix) :=
  if (f_w f <=? x) || (f_h f <=? y) then Some None else
  bind (offset f x y) (fun i =>
    match nth_error (f_px f) i, nth_error (f_px f) (i + 1), nth_error (f_px f) (i + 2), nth_error (f_px f) (i + 3) with
    | Some r, Some g, Some b, Some a => Some (Some (Pix x y r g b a))
    | _, _, _, _ => Some None
    end).
Definition pixel_at (i : inspector) (x y : nat) : option (option pix) := match i_frame i with None => Some None | Some f => pixel_in f x y end.
(* 60-62 *)
Definition pixel_at_cursor (i : inspector) : option (option pix) := pixel_at i (i_x i) (i_y i).
(* info.rs 193-224, without the set of colours *)
Record hist := Hi { h_r : N; h_g : N; h_b : N; h_a : N; h_count : nat }.
Definition add_pixel (h : hist) (p : pix) : hist := Hi (h_r h + p_r p) (h_g h + p_g p) (h_b h + p_b p) (h_a h + p_a p) (S (h_count h)).
Record region := Re { re_x : nat; re_y : nat; re_w : nat; re_h : nat; re_pix : list pix; re_hist : hist }.
Definition cells (xs ys : list nat) : list (nat * nat) := flat_map (fun y => map (fun x => (x, y)) xs) ys.
Definition take_pixel (f : frame) (acc : option (list pix * hist)) (c : nat * nat) : option (list pix * hist) :=
  bind acc (fun '(l, h) => bind (pixel_in f (fst c) (snd c)) (fun o => Some (match o with Some p => (l ++ [p], add_pixel h p) | None => (l, h) end))).
(* mod.rs 88-117 *)
Definition region_of (i : inspector) (x y width height : nat) : option region :=
  match i_frame i with
  | None => Some (Re 0 0 0 0 [] (Hi 0 0 0 0 0))
  | Some f =>
    bind (u32 (x + width)) (fun xs => bind (u32 (y + height)) (fun ys =>
    let xe := Nat.min xs (f_w f) in let ye := Nat.min ys (f_h f) in
    bind (fold_left (take_pixel f) (cells (seq x (xe - x)) (seq y (ye - y))) (Some ([], Hi 0 0 0 0 0))) (fun '(l, h) =>
    bind (sub xe x) (fun w => bind (sub ye y) (fun hh => Some (Re x y w hh l h))))))
  end.
(* info.rs 226-237 *)
Definition average (h : hist) : option (list N) :=
  match h_count h with 0 => None | S _ => let n := N.of_nat (h_count h) in Some [(h_r h / n)%N; (h_g h / n)%N; (h_b h / n)%N; (h_a h / n)%N] end.
(* 250-258 *)
Record bounds := Bd { b_minx : nat; b_miny : nat; b_maxx : nat; b_maxy : nat; b_w : nat; b_h : nat }.
Record box := Bx { x_minx : nat; x_miny : nat; x_maxx : nat; x_maxy : nat; x_found : bool }.
Definition see (f : frame) (acc : option box) (c : nat * nat) : option box :=
  bind acc (fun b => bind (offset f (fst c) (snd c)) (fun i => Some (
    match nth_error (f_px f) (i + 3) with
    | Some a => if (0 <? a)%N then Bx (Nat.min (x_minx b) (fst c)) (Nat.min (x_miny b) (snd c)) (Nat.max (x_maxx b) (fst c)) (Nat.max (x_maxy b) (snd c)) true else b
    | None => b
    end))).
(* mod.rs 119-154 *)
Definition find_bounds (i : inspector) : option (option bounds) :=
  match i_frame i with
  | None => Some None
  | Some f =>
    bind (fold_left (see f) (cells (seq 0 (f_w f)) (seq 0 (f_h f))) (Some (Bx (f_w f) (f_h f) 0 0 false))) (fun b =>
    if negb (x_found b) then Some None else
    bind (sub (x_maxx b) (x_minx b)) (fun w => bind (sub (x_maxy b) (x_miny b)) (fun h =>
    Some (Some (Bd (x_minx b) (x_miny b) (x_maxx b) (x_maxy b) (w + 1) (h + 1))))))
  end.
(* info.rs 268-274 *)
Record segment := Sg { s_y : nat; s_start : nat; s_end : nat; s_pix : list pix; s_avg : list N }.
Definition diff (a b : N) : N := (if a <? b then b - a else a - b)%N.
(* 277-290 *)
Definition seg_similar (s : segment) (p : pix) : bool :=
  match s_pix s, s_avg s with
  | _ :: _, [r; g; b; _] => ((diff r (p_r p) <=? 30) && (diff g (p_g p) <=? 30) && (diff b (p_b p) <=? 30))%N
  | _, _ => false
  end.
(* 292-313 *)
Definition calculate_average (s : segment) : segment :=
  match average (fold_left add_pixel (s_pix s) (Hi 0 0 0 0 0)) with
  | Some c => Sg (s_y s) (s_start s) (s_end s) (s_pix s) c
  | None => s
  end.
Definition push (o : option segment) (l : list segment) : list segment := match o with Some s => l ++ [s] | None => l end.
(* mod.rs 169-195 *)
Definition scan_pixel (y : nat) (acc : list segment * option segment) (p : pix) : list segment * option segment :=
  let '(done, cur) := acc in
  if (0 <? p_a p)%N then
    let new := (push cur done, Some (Sg y (p_x p) (p_x p) [p] [p_r p; p_g p; p_b p; p_a p])) in
    match cur with
    | Some s => if seg_similar s p then (done, Some (Sg (s_y s) (s_start s) (p_x p) (s_pix s ++ [p]) (s_avg s))) else new
    | None => new
    end
  else (push cur done, None).
Definition scan_step (f : frame) (y : nat) (acc : option (list segment * option segment)) (x : nat) : option (list segment * option segment) :=
  bind acc (fun s => bind (pixel_in f x y) (fun o => Some (match o with Some p => scan_pixel y s p | None => s end))).
(* 156-203 *)
Definition scan_line (i : inspector) (y : nat) : option (list segment) :=
  match i_frame i with
  | None => Some []
  | Some f =>
    if f_h f <=? y then Some [] else
    bind (fold_left (scan_step f y) (seq 0 (f_w f)) (Some ([], None))) (fun '(done, cur) => Some (push (option_map calculate_average cur) done))
  end.
(* info.rs 67-74 *)
Definition pix_similar (p q : pix) (t : N) : bool :=
  ((diff (p_r p) (p_r q) <=? t) && (diff (p_g p) (p_g q) <=? t) && (diff (p_b p) (p_b q) <=? t) && (diff (p_a p) (p_a q) <=? t))%N.
