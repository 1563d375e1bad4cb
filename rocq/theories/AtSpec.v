(* What editing at a position or in a selection is meant to do. *)
From Verif Require Import Base DocModel DocSpec.

(* the lines of a text, each with its line break; the last has none *)
Inductive ends_line : str -> str -> Prop :=
| el_crlf l r : Forall (fun c => ~ break_char c) l -> ends_line (l ++ [13; 10]%N) r
| el_one l c r : Forall (fun c => ~ break_char c) l -> break_char c -> (c = 13%N -> hd 0%N r <> 10%N) -> ends_line (l ++ [c]) r.
Inductive text_lines : str -> list str -> Prop :=
| tl_last l : Forall (fun c => ~ break_char c) l -> text_lines l [l]
| tl_line l r ls : ends_line l r -> text_lines r ls -> text_lines (l ++ r) (l :: ls).
(* f applied to the lines numbered a to b (from 0) *)
Fixpoint at_lines (f : str -> str) (a b : nat) (ls : list str) {struct ls} : list str :=
  match ls with
  | [] => []
  | l :: r => match b with
              | 0 => (if a =? 0 then f l else l) :: r
              | S b => (if a =? 0 then f l else l) :: at_lines f (a - 1) b r
              end
  end.
(* l without at most n of the spaces it starts with *)
Inductive dropped : nat -> str -> str -> Prop :=
| dr_all l : dropped 0 l l
| dr_end n l : hd 0%N l <> 32%N -> dropped n l l
| dr_one n l l' : dropped n l l' -> dropped (S n) (32%N :: l) l'.
