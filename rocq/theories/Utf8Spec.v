(* Specification vocabulary for text clean-up. *)
From Verif Require Import Base.

(* s begins with p *)
Definition prefix_of (p s : list N) : Prop := exists r, s = p ++ r.

(* A text read as lines: terminators are CR LF, LF and CR, and a CR is a
   terminator of its own only when no LF follows it. *)
Inductive text_lines : str -> list str -> Prop :=
| tl_last l : ~ In 10%N l -> ~ In 13%N l -> text_lines l [l]
| tl_lf l s ls : ~ In 10%N l -> ~ In 13%N l -> text_lines s ls -> text_lines (l ++ [10%N] ++ s) (l :: ls)
| tl_crlf l s ls : ~ In 10%N l -> ~ In 13%N l -> text_lines s ls -> text_lines (l ++ [13%N; 10%N] ++ s) (l :: ls)
| tl_cr l s ls : ~ In 10%N l -> ~ In 13%N l -> hd 0%N s <> 10%N -> text_lines s ls ->
    text_lines (l ++ [13%N] ++ s) (l :: ls).

(* The characters that are not whitespace, in order. *)
Definition visible (s : str) : str := filter (fun c => negb (is_ws c)) s.

(* t is s with exactly the characters violating K left out. *)
Inductive kept (K : N -> Prop) : str -> str -> Prop :=
| kept_nil : kept K [] []
| kept_keep c s t : K c -> kept K s t -> kept K (c :: s) (c :: t)
| kept_drop c s t : ~ K c -> kept K s t -> kept K (c :: s) t.
(* Unicode general category Cc *)
Definition control_code (c : N) : Prop := (c < 32 \/ 127 <= c <= 159)%N.
Definition tab_or_newline (c : N) : Prop := c = 9%N \/ c = 10%N \/ c = 13%N.
(* t is s with every maximal run of spaces replaced by one space. *)
Inductive squeezed : str -> str -> Prop :=
| sq_nil : squeezed [] []
| sq_char c s t : c <> 32%N -> squeezed s t -> squeezed (c :: s) (c :: t)
| sq_run n s t : hd 0%N s <> 32%N -> squeezed s t -> squeezed (repeat 32%N (S n) ++ s) (32%N :: t).

(* lines, as the newlines of a text separate them *)
Definition no_newline (s : str) : Prop := ~ In 10%N s.
Fixpoint between_newlines (ws : list str) : str :=
  match ws with [] => [] | [w] => w | w :: r => w ++ 10%N :: between_newlines r end.
