(* What the karaoke commands are meant to do, in terms of the plain characters
   and override blocks of a text (TagCmdSpec), without reference to their
   model. *)
From Verif Require Import Base TagSpec TagCmdSpec DocModel FloatModel KaraokeModel.

(* ---- syllables ---- *)
Definition space (c : char) : Prop := is_ws c = true.
Definition vowel (c : char) : Prop := In c (lit "aeiouAEIOU").
(* a syllable may start at a space, and at a consonant after a vowel *)
Definition break (x y : char) : Prop := space y \/ (vowel x /\ ~ vowel y).
Definition unbroken (p : str) : Prop := forall a x y b, p = a ++ x :: y :: b -> ~ break x y.
Definition junctions (l : list str) : Prop := forall l1 p x y q l2, l = l1 ++ (p ++ [x]) :: (y :: q) :: l2 -> break x y.
Definition syllabified (t : str) (l : list str) : Prop :=
  concat l = t /\ Forall (fun p => p <> [] /\ unbroken p) l /\ junctions l.
(* no two spaces together, none at the end *)
Definition well_spaced (t : str) : Prop :=
  (forall a x y b, t = a ++ x :: y :: b -> space x -> ~ space y) /\ (forall a x, t = a ++ [x] -> ~ space x).
(* What becomes of a text in general: a run of n spaces is written as n, then
   n-1, ... then 2 and then 1 spaces; the 1 only if something follows. *)
Fixpoint inflated (t : str) : str :=
  match t with
  | [] => []
  | c :: r =>
    if is_ws c then
      match r with
      | [] => []
      | d :: _ => if is_ws d then (c :: take_while is_ws r) ++ inflated r else c :: inflated r
      end
    else c :: inflated r
  end.

(* A duration before each of some pieces of text. *)
Definition timed (name : str) (d : N) (s : str) : list part := Blk [PTag name (to_dec d)] :: map Plain s.
Definition tag_word (k : ktype) : str := lit match k with Standard => "k" | Fill => "kf" | Outline => "ko" | Transition => "kt" end.
Definition names : list str := [lit "k"; lit "kf"; lit "ko"; lit "kt"].

(* ---- cutting ---- *)
(* ps are the offsets between the pieces, counted from o *)
Fixpoint cut_at (o : nat) (ps : list nat) (segs : list str) : Prop :=
  match ps, segs with
  | [], [s] => s <> []
  | p :: ps, s :: segs => s <> [] /\ p = o + blen s /\ cut_at p ps segs
  | _, _ => False
  end.
(* The positions that count: inside the text and after the last one. *)
Fixpoint useful (last n : nat) (ps : list nat) : list nat :=
  match ps with
  | [] => []
  | p :: r => if (last <? p) && (p <? n) then p :: useful p n r else useful last n r
  end.

(* ---- words ---- *)
Inductive worded : str -> list str -> Prop :=
| wd_end s : Forall space s -> worded s []
| wd_word s w r l : Forall space s -> w <> [] -> Forall (fun c => ~ space c) w -> (r = [] \/ exists c q, r = c :: q /\ space c) ->
    worded r l -> worded (s ++ w ++ r) (w :: l).
(* The words with their durations, one space apart. *)
Fixpoint timed_words (name : str) (l : list (N * str)) : str :=
  match l with
  | [] => []
  | [(d, w)] => flat_map part_text (timed name d w)
  | (d, w) :: r => flat_map part_text (timed name d w) ++ lit " " ++ timed_words name r
  end.

(* ---- adjusting ---- *)
Definition sung (n : str) : Prop := exists r, n = lit "k" ++ r.
Definition unsung (ps : list piece) : Prop := forall n a, In (n, a) (tags_in ps) -> ~ sung n.
(* every backslash of a block starts a piece *)
Definition flat_piece (p : piece) : Prop := ~ In 92%N (tl (piece_text p)).
Definition readable (ps : list piece) : Prop := Forall (fun p => ~ splits_char p) ps.
Inductive next : adjustment -> N -> nat -> N -> nat -> Prop :=
| nx_scale f d i : next (Scale f) d i (N.max 1 (f_to_N u32_max (f_mul f32 (f_of_N f32 d) f))) i
| nx_offset o d i : (Z.of_N d < 2147483648)%Z -> (-2147483648 <= Z.of_N d + o < 2147483648)%Z -> next (Offset o) d i (Z.to_N (Z.max 1 (Z.of_N d + o))) i
| nx_set e d i : next (SetAll e) d i e i
| nx_custom l d i e : nth_error l i = Some e -> next (Custom l) d i e (S i)
| nx_left l d i : List.length l <= i -> next (Custom l) d i d i.
Inductive adjusted (a : adjustment) : nat -> list part -> list part -> Prop :=
| ad_nil i : adjusted a i [] []
| ad_plain i c l l' : adjusted a i l l' -> adjusted a i (Plain c :: l) (Plain c :: l')
| ad_other i ps l l' : unsung ps -> readable ps -> adjusted a i l l' -> adjusted a i (Blk ps :: l) (Blk ps :: l')
| ad_sung i X n d s Y e j l l' : sung n -> (d <= u32_max)%N -> Forall space s -> unsung X -> unsung Y -> readable (X ++ Y) -> Forall flat_piece (X ++ Y) ->
    next a d i e j -> adjusted a j l l' ->
    adjusted a i (Blk (X ++ PTag n (to_dec d ++ s) :: Y) :: l) (Blk (X ++ PTag n (to_dec e ++ s) :: Y) :: l').
