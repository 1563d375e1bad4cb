(* ass-renderer/src/debug/analyzer/{mod,report}.rs: what the frame analyser
   finds in a frame.  Sizes are natural numbers; the checked arithmetic of a
   debug build is explicit where it can fail (u32 product of the sizes, the
   subtraction of the counts); a sum of bytes or a count fits 64 bits.  Printing
   is left out.  A panic is None. *)
From Verif Require Import Base FloatModel.

Record frame := Fr { f_w : nat; f_h : nat; f_px : list N }.
Definition pixel := (nat * nat)%type.
Definition index (f : frame) (p : pixel) : nat := snd p * f_w f + fst p.

(* report.rs 279-287; the colour while it is gathered is its sums *)
Record region := Rg { r_minx : nat; r_miny : nat; r_maxx : nat; r_maxy : nat; r_count : nat; r_color : list N }.

Fixpoint set_at (i : nat) (l : list bool) : list bool :=
  match l, i with
  | [], _ => []
  | _ :: r, 0 => true :: r
  | b :: r, S j => b :: set_at j r
  end.
(* pixels[pixel_idx + 3] > 0, when there is such a byte *)
Definition opaque (f : frame) (i : nat) : bool := match nth_error (f_px f) (4 * i + 3) with Some a => (0 <? a)%N | None => false end.
Definition four_at (f : frame) (i : nat) : option (list N) :=
  match nth_error (f_px f) (4 * i), nth_error (f_px f) (4 * i + 1), nth_error (f_px f) (4 * i + 2), nth_error (f_px f) (4 * i + 3) with
  | Some a, Some b, Some c, Some d => Some [a; b; c; d]
  | _, _, _, _ => None
  end.
Fixpoint add_each (a b : list N) : list N := match a, b with x :: r, y :: s => (x + y)%N :: add_each r s | _, _ => [] end.
(* mod.rs 166-174 *)
Definition absorb (r : region) (p : pixel) (c : list N) : region :=
  Rg (Nat.min (r_minx r) (fst p)) (Nat.min (r_miny r) (snd p)) (Nat.max (r_maxx r) (fst p)) (Nat.max (r_maxy r) (snd p)) (S (r_count r)) (add_each (r_color r) c).
(* mod.rs 176-188, the last push first *)
Definition around (f : frame) (p : pixel) : list pixel :=
  let '(x, y) := p in
  (if y + 1 <? f_h f then [(x, y + 1)] else []) ++ (if 0 <? y then [(x, y - 1)] else [])
  ++ (if x + 1 <? f_w f then [(x + 1, y)] else []) ++ (if 0 <? x then [(x - 1, y)] else []).
Inductive step := Done (v : list bool) (r : region) | NoFuel | Panic.
(* mod.rs 147-189 *)
Fixpoint fill (fuel : nat) (f : frame) (visited : list bool) (stack : list pixel) (r : region) : step :=
  match stack with
  | [] => Done visited r
  | (x, y) :: rest =>
    match fuel with
    | 0 => NoFuel
    | S n =>
      if (f_w f <=? x) || (f_h f <=? y) then fill n f visited rest r else
      let i := index f (x, y) in
      match nth_error visited i with
      | None => Panic
      | Some true => fill n f visited rest r
      | Some false =>
        if negb (opaque f i) then fill n f visited rest r else
        match four_at f i with
        | None => Panic
        | Some c => fill n f (set_at i visited) (around f (x, y) ++ rest) (absorb r (x, y) c)
        end
      end
    end
  end.
(* mod.rs 192-196 *)
Definition average (r : region) : region :=
  match r_count r with
  | 0 => Rg (r_minx r) (r_miny r) (r_maxx r) (r_maxy r) 0 [0; 0; 0; 0]%N
  | n => Rg (r_minx r) (r_miny r) (r_maxx r) (r_maxy r) n (map (fun s => s / N.of_nat n mod 256)%N (r_color r))
  end.
(* mod.rs 124-199 *)
Definition flood_fill (f : frame) (visited : list bool) (p : pixel) : option (list bool * region) :=
  let '(x, y) := p in
  match fill (5 * (f_w f * f_h f) + 1) f visited [p] (Rg x y x y 0 [0; 0; 0; 0]%N) with
  | Done v r => Some (v, average r)
  | NoFuel | Panic => None
  end.
Definition all_pixels (f : frame) : list pixel := flat_map (fun y => map (fun x => (x, y)) (seq 0 (f_w f))) (seq 0 (f_h f)).
(* mod.rs 105-119 *)
Fixpoint detect (f : frame) (l : list pixel) (visited : list bool) (regions : list region) : option (list region) :=
  match l with
  | [] => Some regions
  | p :: r =>
    match nth_error visited (index f p) with
    | None => None
    | Some v =>
      if negb v && opaque f (index f p) then
        match flood_fill f visited p with
        | None => None
        | Some (v1, g) => detect f r v1 (if 10 <? r_count g then regions ++ [g] else regions)
        end
      else detect f r visited regions
    end
  end.
(* mod.rs 96-122 *)
Definition detect_regions (f : frame) : option (list region) := detect f (all_pixels f) (repeat false (f_w f * f_h f)) [].

(* report.rs 250-277; a table is a function from the value *)
Record histogram := Hi { h_red : list nat; h_green : list nat; h_blue : list nat; h_alpha : list nat; h_shown : nat; h_white : nat; h_black : nat; h_gray : nat; h_colored : nat }.
Fixpoint bump (i : nat) (l : list nat) : list nat :=
  match l, i with
  | [], _ => []
  | n :: r, 0 => S n :: r
  | n :: r, S j => n :: bump j r
  end.
(* mod.rs 64-89 *)
Definition count_pixel (h : histogram) (r g b a : N) : histogram :=
  let red := bump (N.to_nat r) (h_red h) in
  let green := bump (N.to_nat g) (h_green h) in
  let blue := bump (N.to_nat b) (h_blue h) in
  let alpha := bump (N.to_nat a) (h_alpha h) in
  if (0 <? a)%N then
    if (r =? g)%N && (g =? b)%N then
      if (200 <? r)%N then Hi red green blue alpha (S (h_shown h)) (S (h_white h)) (h_black h) (h_gray h) (h_colored h)
      else if (r <? 50)%N then Hi red green blue alpha (S (h_shown h)) (h_white h) (S (h_black h)) (h_gray h) (h_colored h)
      else Hi red green blue alpha (S (h_shown h)) (h_white h) (h_black h) (S (h_gray h)) (h_colored h)
    else Hi red green blue alpha (S (h_shown h)) (h_white h) (h_black h) (h_gray h) (S (h_colored h))
  else Hi red green blue alpha (h_shown h) (h_white h) (h_black h) (h_gray h) (h_colored h).
(* mod.rs 62-91 *)
Fixpoint count_chunks (px : list N) (h : histogram) : histogram :=
  match px with
  | r :: g :: b :: a :: rest => count_chunks rest (count_pixel h r g b a)
  | _ => h
  end.
(* mod.rs 58-94 *)
Definition pixel_histogram (f : frame) : histogram :=
  let z := repeat 0 256 in count_chunks (f_px f) (Hi z z z z 0 0 0 0 0).

(* report.rs 75-80: value, best count, best value *)
Fixpoint most (l : list nat) (value max_count max_value : nat) : nat :=
  match l with
  | [] => max_value
  | c :: r => if max_count <? c then most r (S value) c value else most r (S value) max_count max_value
  end.
(* report.rs 62-86 *)
Definition dominant (h : histogram) : list nat := map (fun l => most l 0 0 0) [h_red h; h_green h; h_blue h; h_alpha h].

Definition f_min1 (x : float) : float := match x with NaN => Fin 1 | _ => if f_le x (Fin 1) then x else Fin 1 end.
(* report.rs 88-102 *)
Definition contrast (h : histogram) (shown : nat) : float :=
  if (0 <? h_white h) && (0 <? h_black h) then
    let w := f_div f32 (f_of_N f32 (N.of_nat (h_white h))) (f_of_N f32 (N.of_nat shown)) in
    let b := f_div f32 (f_of_N f32 (N.of_nat (h_black h))) (f_of_N f32 (N.of_nat shown)) in
    f_min1 (f_mul f32 (f_mul f32 w b) (Fin 100))
  else Fin 0.
(* mod.rs 240-248 *)
Record text_area := Ta { a_x : nat; a_y : nat; a_width : nat; a_height : nat; a_confidence : float; a_size : N }.
Definition tenths (n : Z) : float := round_to f32 (n # 10).
Definition nth_color (r : region) (i : nat) : N := nth i (r_color r) 0%N.
Definition f_of_nat (n : nat) : float := f_of_N f32 (N.of_nat n).
(* mod.rs 250-277 *)
Definition text_confidence (r : region) : float :=
  let width := r_maxx r - r_minx r + 1 in
  let height := r_maxy r - r_miny r + 1 in
  let aspect := f_div f32 (f_of_nat width) (f_of_nat height) in
  let c0 := Fin 0 in
  let c1 := if f_le (Fin 2) aspect && f_lt aspect (Fin 20) then f_add f32 c0 (tenths 3) else c0 in
  let brightness := f_div f32 (f_add f32 (f_add f32 (f_of_N f32 (nth_color r 0)) (f_of_N f32 (nth_color r 1))) (f_of_N f32 (nth_color r 2))) (Fin 3) in
  let c2 := if f_lt (Fin 200) brightness then f_add f32 c1 (tenths 4) else c1 in
  let c3 := if (20 <=? height) && (height <? 150) then f_add f32 c2 (tenths 3) else c2 in
  f_min1 c3.
(* mod.rs 279-282 *)
Definition estimate_font_size (height : nat) : N := f_to_N 4294967295 (f_mul f32 (f_of_nat height) (Fin (3 # 4))).
(* mod.rs 205-234 *)
Definition text_of (r : region) : option text_area :=
  let width := r_maxx r - r_minx r + 1 in
  let height := r_maxy r - r_miny r + 1 in
  let aspect := f_div f32 (f_of_nat width) (f_of_nat height) in
  if f_lt (Fin (3 # 2)) aspect && (15 <=? height) && (height <? 200) then
    if (200 <? nth_color r 0)%N || (200 <? nth_color r 1)%N || (200 <? nth_color r 2)%N
    then Some (Ta (r_minx r) (r_miny r) width height (text_confidence r) (estimate_font_size height)) else None
  else None.
Fixpoint texts_of (l : list region) : list text_area :=
  match l with [] => [] | r :: s => match text_of r with Some a => a :: texts_of s | None => texts_of s end end.

(* report.rs 10-31 *)
Record report := Rp { p_total : nat; p_shown : nat; p_transparency : float; p_histogram : histogram; p_regions : list region; p_texts : list text_area; p_dominant : list nat; p_contrast : float }.
(* mod.rs 39-56, report.rs 34-60 *)
Definition analyze (f : frame) : option report :=
  let total := f_w f * f_h f in
  if (4294967296 <=? N.of_nat (f_w f) * N.of_nat (f_h f))%N then None else
  let h := pixel_histogram f in
  match detect_regions f with
  | None => None
  | Some rs =>
    if total <? h_shown h then None else
    Some (Rp total (h_shown h) (f_mul f32 (f_div f32 (f_of_nat (total - h_shown h)) (f_of_nat total)) (Fin 100)) h rs (texts_of rs) (dominant h) (contrast h (h_shown h)))
  end.
