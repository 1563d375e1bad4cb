(* What the style commands are meant to do, without reference to the model. *)
From Verif Require Import Base DocModel DocSpec EventCmdSpec.

(* s contains p *)
Definition has (p s : str) : Prop := exists a b, s = a ++ p ++ b.
(* A line may start after A. *)
Definition at_line (A : str) : Prop := A = [] \/ exists a, A = a ++ [10%N].
(* The first place in A ++ l ++ rest where p stands is in the line l. *)
Definition first_in_line (p A l rest : str) : Prop :=
  at_line A /\ ~ In 10%N l /\ after_line rest /\ exists x y, l = x ++ p ++ y /\ first_at p (A ++ x).
(* What is left of the rest when the line before it goes with its newline. *)
Definition after_newline (rest rest' : str) : Prop := (rest = [] /\ rest' = []) \/ rest = 10%N :: rest'.
Definition style_text (name : str) : str := lit "Style: " ++ name.

(* ---- edit ---- *)
Definition no_comma (s : str) : Prop := ~ In 44%N s.
(* The value under a column after the updates, d without. *)
Fixpoint value_in (updates : list (str * str)) (col d : str) : str :=
  match updates with
  | [] => d
  | (k, v) :: r => if str_eqb k col then v else value_in r col d
  end.
Fixpoint set_columns (updates : list (str * str)) (cols fields : list str) : list str :=
  match cols, fields with
  | c :: cs, f :: fs => value_in updates c f :: set_columns updates cs fs
  | _, _ => fields
  end.
(* The last styles header before the line, and the format line after it. *)
Definition styles_header (A : str) (h B C : str) : Prop :=
  A = B ++ h ++ C /\
  ((h = lit "[V4+ Styles]" /\ (forall x y, h ++ C = x ++ h ++ y -> x = [])) \/
   (h = lit "[V4 Styles]" /\ (forall x y, h ++ C = x ++ h ++ y -> x = []) /\ ~ has (lit "[V4+ Styles]") A) \/
   (h = lit "[Styles]" /\ (forall x y, h ++ C = x ++ h ++ y -> x = []) /\ ~ has (lit "[V4+ Styles]") A /\ ~ has (lit "[V4 Styles]") A)).
(* `updates` lists a map in any order: the last value set for every key. *)
Definition lists_map (sets updates : list (str * str)) : Prop :=
  NoDup (map fst updates) /\ forall k v, In (k, v) updates <-> exists a b, sets = a ++ (k, v) :: b /\ ~ In k (map fst b).

(* ---- apply ---- *)
(* The fourth of more than four fields, without white space around, is old. *)
Definition wears (old l : str) : Prop :=
  exists f0 f1 f2 s r, l = f0 ++ lit "," ++ f1 ++ lit "," ++ f2 ++ lit "," ++ s ++ lit "," ++ r /\
    no_comma f0 /\ no_comma f1 /\ no_comma f2 /\ no_comma s /\ trim s = old.
(* The style of l is old, written without spaces and nowhere else between
   commas, and l' is l with the style new. *)
Definition restyled (old new l l' : str) : Prop :=
  exists f0 f1 f2 r, let p := f0 ++ lit "," ++ f1 ++ lit "," ++ f2 in
    l = p ++ lit "," ++ old ++ lit "," ++ r /\ l' = p ++ lit "," ++ new ++ lit "," ++ r /\
    no_comma f0 /\ no_comma f1 /\ no_comma f2 /\ no_comma old /\ trim old = old /\
    first_at (lit "," ++ old ++ lit ",") p /\ ~ has (lit "," ++ old ++ lit ",") r.
Definition chosen (filter : option str) (l : str) : Prop := match filter with None => True | Some f => has f l end.
(* The chosen events with the old style get the new one; k counts them. *)
Inductive restyles (old new : str) (filter : option str) : list str -> list str -> nat -> Prop :=
| rs_nil : restyles old new filter [] [] 0
| rs_change l l' ls ls' k : is_event l -> chosen filter l -> restyled old new l l' -> resumes l l' -> restyles old new filter ls ls' k ->
    restyles old new filter (l :: ls) (l' :: ls') (S k)
| rs_keep l ls ls' k : ~ (is_event l /\ wears old l /\ chosen filter l) -> restyles old new filter ls ls' k ->
    restyles old new filter (l :: ls) (l :: ls') k.
(* The text up to the line after the header of the events, included. *)
Definition events_top (head : str) : Prop :=
  exists a m f, head = a ++ lit "[Events]" ++ m ++ [10%N] ++ f ++ [10%N] /\ first_at (lit "[Events]") a /\ ~ In 10%N m /\ ~ In 10%N f.

(* ---- create ---- *)
(* The header h after A is the one new styles go under. *)
Definition main_header (A h r : str) : Prop :=
  first_at h A /\
  (h = lit "[V4+ Styles]" \/
   (h = lit "[V4 Styles]" /\ ~ has (lit "[V4+ Styles]") (A ++ h ++ r)) \/
   (h = lit "[Styles]" /\ ~ has (lit "[V4+ Styles]") (A ++ h ++ r) /\ ~ has (lit "[V4 Styles]") (A ++ h ++ r))).
Definition no_styles (s : str) : Prop := ~ has (lit "[V4+ Styles]") s /\ ~ has (lit "[V4 Styles]") s /\ ~ has (lit "[Styles]") s.
Definition ass_format : str :=
  lit "Format: " ++ join (lit ", ") (map lit ["Name"; "Fontname"; "Fontsize"; "PrimaryColour"; "SecondaryColour"; "OutlineColour"; "BackColour";
    "Bold"; "Italic"; "Underline"; "StrikeOut"; "ScaleX"; "ScaleY"; "Spacing"; "Angle"; "BorderStyle"; "Outline"; "Shadow"; "Alignment";
    "MarginL"; "MarginR"; "MarginV"; "Encoding"]%string).
Definition styles_section (line : str) : str :=
  [10%N] ++ lit "[V4+ Styles]" ++ [10%N] ++ ass_format ++ [10%N] ++ line ++ [10%N].
(* What follows does not go on with another header of events. *)
Definition other_section (rest : str) : Prop := section_end rest /\ forall r, rest = 10%N :: lit "[Events]" ++ r -> ~ after_line r.
