(* What deltas are meant to do, in terms of a text cut into sections. *)
From Verif Require Import Base ParseModel ParseSpec IncrModel StyleCmdSpec.

(* a section as a header and what follows it *)
Notation block := (section_type * str)%type.
Definition block_text (b : block) : str := section_header (fst b) ++ snd b.
Definition render (bs : list block) : str := flat_map block_text bs.
(* no header of a section in a text *)
Definition headless (s : str) : Prop := forall ty, ~ has (section_header ty) s.
(* t is pre and then the sections bs, of different kinds, with no other header *)
Definition cut_into (t pre : str) (bs : list block) : Prop :=
  t = pre ++ render bs /\ headless pre /\ Forall (fun b => headless (snd b)) bs /\ NoDup (map fst bs).

(* the section with that index is of that kind *)
Definition names (kinds : list section_type) (ty : section_type) (i : nat) : bool :=
  match nth_error kinds i with Some k => section_type_eqb k ty | None => false end.
Definition kept (removed : list nat) (bs : list block) : list block :=
  filter (fun b => negb (existsb (names (map fst bs) (fst b)) removed)) bs.
(* modified gives new bodies *)
Definition rewritten (kinds : list section_type) (modified : list (nat * str)) (b : block) : block :=
  match find (fun p => names kinds (fst b) (fst p)) modified with Some (_, x) => (fst b, x) | None => b end.
Definition header_at (kinds : list section_type) (i : nat) : str := match nth_error kinds i with Some k => section_header k | None => [] end.
Definition with_headers (kinds : list section_type) (modified : list (nat * str)) : list (nat * str) :=
  map (fun p : nat * str => (fst p, header_at kinds (fst p) ++ snd p)) modified.
(* a section put at the end, on lines of its own *)
Definition ended (t : str) : str := match t with [] => [] | _ => match last t 0%N with 10%N => t | _ => t ++ [10%N] end end.
Definition add_section (t x : str) : str := match x with [] => ended t ++ [10%N] | _ => ended t ++ ended x end.
(* an edit of the text *)
Definition place (t a m b : str) : Prop := t = a ++ m ++ b.
