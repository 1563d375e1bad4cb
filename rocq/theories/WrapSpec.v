(* What is expected of wrapping. *)
From Verif Require Export WrapModel ShowSpec AnimSpec.
From Verif Require Import CollideModel.

(* how many spaces there are *)
Definition spaces {T} (l : list (char * T)) : nat := length (filter (fun x => (fst x =? 32)%N) l).
(* characters broken into lines, each break taking the place of one space; the
   numbers are those of the words after the breaks, the first word being a *)
Inductive broken_at {T} : nat -> list (char * T) -> list nat -> list (list (char * T)) -> Prop :=
| br_last a g : broken_at a g [] [g]
| br_cons a g x r b bs gs : fst x = 32%N -> b = a + spaces g + 1 -> broken_at b r bs gs -> broken_at a (g ++ x :: r) (b :: bs) (g :: gs).

(* the words of a text: what the spaces leave, without the empty ones at the end *)
Inductive spaced : str -> list str -> Prop :=
| sp_last w : ~ In 32%N w -> spaced w [w]
| sp_cons w s ws : ~ In 32%N w -> spaced s ws -> spaced (w ++ 32%N :: s) (w :: ws).
Definition words_of (s : str) (ws : list str) : Prop :=
  exists blanks, spaced s (ws ++ blanks) /\ Forall (fun w => w = []) blanks /\ ws <> [] /\ (last ws [] = [] -> length ws = 1).

(* the advance and the number of glyphs of the words a, ..., i on one line *)
Section Width.
Variables (sh : shaper) (ws : list str).
Inductive on_line : nat -> nat -> float -> N -> Prop :=
| ol_first : on_line 0 0 (add32 (fl 0) (word_adv sh ws 0)) (word_glyphs ws 0)
| ol_start a : 0 < a -> on_line a a (word_adv sh ws a) (word_glyphs ws a)
| ol_next a i x g : on_line a i x g -> on_line a (S i) (add32 x (add32 (space_adv sh) (word_adv sh ws (S i)))) (g + (1 + word_glyphs ws (S i))).
Definition too_long (limit : float) (a i : nat) : Prop := exists x g, on_line a i x g /\ f_lt limit (line_ink sh ws x g a i) = true.
Definition fitting (limit : float) (a i : nat) : Prop := exists x g, on_line a i x g /\ f_lt limit (line_ink sh ws x g a i) = false.
(* lines of the words from a on: each takes as many words as fit, and at least one *)
Inductive greedy (limit : float) (n : nat) : nat -> list nat -> Prop :=
| gr_last a : a < n -> (forall i, a < i < n -> fitting limit a i) -> greedy limit n a []
| gr_cons a b r : a < b < n -> (forall i, a < i < b -> fitting limit a i) -> too_long limit a b -> greedy limit n b r -> greedy limit n a (b :: r).
(* every line of more than one word fits *)
Inductive lines_fit (limit : float) (n : nat) : nat -> list nat -> Prop :=
| lf_last a : a < n -> (forall i, a < i < n -> fitting limit a i) -> lines_fit limit n a []
| lf_cons a b r : a < b < n -> (forall i, a < i < b -> fitting limit a i) -> lines_fit limit n b r -> lines_fit limit n a (b :: r).
End Width.
