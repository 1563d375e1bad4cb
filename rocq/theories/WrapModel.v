(* Model of automatic line wrapping: ass-renderer pipeline/build/wrap.rs.  What
   the font shaper says about a text (its advance and the left and right end of
   its ink), the letter spacing and the horizontal scale are arguments. *)
From Verif Require Export Base FloatModel SegmentModel ShowModel.
From Verif Require Import CollideModel.

Record shaper := Shaper { sh_measure : str -> float * float * float; sh_spacing : float; sh_scale : float }.

(* wrap.rs:36-44: every character with the number of its run *)
Fixpoint owned (i : nat) (line : list segment) : list (char * nat) :=
  match line with [] => [] | s :: r => map (fun c => (c, i)) (sg_text s) ++ owned (S i) r end.
(* wrap.rs:46-53 *)
Definition is_space (c : char) : bool := (c =? 32)%N.
Fixpoint drop_blank (words : list str) : list str :=
  match words with
  | [] => []
  | w :: r => match drop_blank r with [] => match w with [] => [] | _ => [w] end | r' => w :: r' end
  end.
(* while words.len() > 1 && the last is empty: the first word always stays *)
Definition text_words (full : str) : list str :=
  match split_on is_space full with [] => [] | w :: r => w :: drop_blank r end.

(* wrap.rs:86-100 *)
Definition width_of (m : float * float * float) : float := let '(w, _, _) := m in w.
Definition lead_of (m : float * float * float) : float := let '(_, l, _) := m in l.
Definition trail_of (m : float * float * float) : float := let '(w, _, r) := m in f_max (sub32 w r) (fl 0).
Section Fill.
Variables (sh : shaper) (words : list str).
Definition measured (i : nat) : float * float * float := sh_measure sh (nth i words []).
Definition word_adv (i : nat) : float := width_of (measured i).
Definition word_glyphs (i : nat) : N := N.of_nat (length (nth i words [])).
Definition space_adv : float := f_max (sub32 (width_of (sh_measure sh (lit "x x"))) (width_of (sh_measure sh (lit "xx")))) (fl 0).
(* wrap.rs:105-108 *)
Definition line_ink (adv : float) (glyphs : N) (start last : nat) : float :=
  mul32 (sh_scale sh) (sub32 (sub32 (add32 adv (mul32 (sh_spacing sh) (f_of_N f32 (glyphs - 1)))) (lead_of (measured start))) (trail_of (measured last))).
(* wrap.rs:111-137: starts, line_start, cur_adv, cur_glyphs, started *)
Definition too_wide (limit : float) (x : float) : bool := f_lt limit x.
Fixpoint fill_loop (limit : float) (i : nat) (todo : nat) (line_start : nat) (adv : float) (glyphs : N) (started : bool) : list nat :=
  match todo with
  | O => []
  | S todo =>
    let add_adv := if started then add32 space_adv (word_adv i) else word_adv i in
    let add_glyphs := if started then (1 + word_glyphs i)%N else word_glyphs i in
    if started && too_wide limit (line_ink (add32 adv add_adv) (glyphs + add_glyphs) line_start i)
    then i :: fill_loop limit (S i) todo i (word_adv i) (word_glyphs i) started
    else fill_loop limit (S i) todo line_start (add32 adv add_adv) (glyphs + add_glyphs) true
  end.
Definition fill (limit : float) : list nat := fill_loop limit 0 (length words) 0 (fl 0) 0 false.
(* wrap.rs:147-159: twenty-four halvings *)
Definition max_word : float := fold_left (fun m i => f_max m (line_ink (word_adv i) (word_glyphs i) i i)) (seq 0 (length words)) (fl 0).
Fixpoint halve (target n : nat) (lo hi : float) : float :=
  match n with
  | O => hi
  | S n => let mid := f_div f32 (add32 lo hi) (fl 2) in
           if length (fill mid) <=? target then halve target n lo mid else halve target n mid hi
  end.
Definition line_starts (max_width : float) (balance : bool) : list nat :=
  let base := fill max_width in
  0 :: if balance then fill (halve (length base) 24 max_word max_width) else base.
(* wrap.rs:166-174 *)
Definition word_start (i : nat) : nat := list_sum (map (fun w => S (length w)) (firstn i words)).
End Fill.
(* wrap.rs:185-200: runs of characters with the same owner *)
Fixpoint by_owner (cs : list (char * nat)) : list (nat * str) :=
  match cs with
  | [] => []
  | (c, i) :: r => match by_owner r with
                   | (j, t) :: gs => if i =? j then (i, c :: t) :: gs else (i, [c]) :: (j, t) :: gs
                   | [] => [(i, [c])]
                   end
  end.
Definition owner_segment (line : list segment) (g : nat * str) : segment := piece (nth (fst g) line (Segment [] 0 0 no_tags)) (snd g).
(* wrap.rs:177-204 *)
Fixpoint cut_lines (words : list str) (cs : list (char * nat)) (starts : list nat) : list (list (char * nat)) :=
  match starts with
  | [] => []
  | s :: r =>
    let from := word_start words s in
    let upto := match r with s' :: _ => word_start words s' - 1 | [] => length cs end in
    firstn (upto - from) (skipn from cs) :: cut_lines words cs r
  end.
Definition filled_line (l : list segment) : bool := match l with [] => false | _ => true end.
Definition wrap_segments (sh : shaper) (line : list segment) (max_width : float) (balance : bool) : list (list segment) :=
  match line with
  | [] => [line]
  | _ =>
    let cs := owned 0 line in
    let words := text_words (map fst cs) in
    if length words <=? 1 then [line]
    else match fill sh words max_width with
         | [] => [line]
         | _ => filter filled_line (map (fun g => map (owner_segment line) (by_owner g)) (cut_lines words cs (line_starts sh words max_width balance)))
         end
  end.
