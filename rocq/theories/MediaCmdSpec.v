(* What the commands on fonts and graphics are meant to do, without reference
   to their model.  `key` is "fontname:" or "filename:". *)
From Verif Require Import Base DocModel DocSpec EventCmdSpec StyleCmdSpec InfoCmdSpec.

Definition starts (key l : str) : Prop := exists r, l = key ++ r.
Definition title (key f : str) : str := key ++ lit " " ++ f.
(* The names in the lines of a section, in order. *)
Inductive listed (key : str) : list str -> list str -> Prop :=
| li_nil : listed key [] []
| li_name f ls l : listed key ls l -> listed key (title key f :: ls) (trim f :: l)
| li_other x ls l : ~ starts (key ++ lit " ") x -> listed key ls l -> listed key (x :: ls) l.
(* A line of data. *)
Definition data_line (key l : str) : Prop := inner l /\ ~ starts key l.
(* What follows a file: nothing, or the next one. *)
Definition file_end (key : str) (Y : list str) (rest : str) : Prop :=
  (Y = [] /\ ~ has (10%N :: key) rest) \/ exists l r, Y = l :: r /\ starts key l.
