(* What the commands on script info, fonts and graphics are meant to do,
   without reference to their model. *)
From Verif Require Import Base DocModel DocSpec EventCmdSpec StyleCmdSpec.

(* A document opened, edited in any way, and whose text may also have been
   changed without an entry in the history. *)
Inductive handled (sz : nat) : doc -> Prop :=
| hd_open me mm t : handled sz (fresh me mm t)
| hd_act d a d' : handled sz d -> do_all sz d [a] = Some d' -> handled sz d'
| hd_raw d t : handled sz d -> handled sz (set_text d t).

(* ---- sections ---- *)
(* The header h stands first after A, m is the rest of its line, ls are the
   lines of the section, and what follows is the end or another section. *)
Definition put (ls : list str) : str := flat_map (fun l => 10%N :: l) ls.
Definition inner (l : str) : Prop := ~ In 10%N l /\ forall r, l <> lit "[" ++ r.
Definition next_section (rest : str) : Prop := rest = [] \/ exists r, rest = 10%N :: lit "[" ++ r.
Definition sectioned (h t A m : str) (ls : list str) (rest : str) : Prop :=
  t = A ++ h ++ m ++ put ls ++ rest /\ first_at h A /\ ~ In 10%N m /\ Forall inner ls /\ next_section rest.

(* ---- properties of the script ---- *)
Definition info : str := lit "[Script Info]".
Definition info_line (p v : str) : str := p ++ lit ": " ++ v.
Definition silent (p l : str) : Prop := ~ has (p ++ lit ": ") l.
(* The first line that mentions p starts with it and v follows, or none does. *)
Inductive looked (p : str) (ls : list str) : option str -> Prop :=
| lk_none : Forall (silent p) ls -> looked p ls None
| lk_some X v Y : ls = X ++ info_line p v :: Y -> Forall (silent p) X -> looked p ls (Some v).
(* The lines after p was set to w. *)
Inductive told (p w : str) (ls : list str) : list str -> Prop :=
| td_new : Forall (silent p) ls -> told p w ls (info_line p w :: ls)
| td_old X v Y : ls = X ++ info_line p v :: Y -> Forall (silent p) X -> told p w ls (X ++ info_line p w :: Y).
(* A name and a value that fit in a line. *)
Definition info_name (p : str) : Prop := ~ In 10%N p /\ forall r, p <> lit "[" ++ r.
Definition info_value (w : str) : Prop := ~ In 10%N w /\ tight w.
(* There is a line after the one of the header. *)
Definition below (ls : list str) (rest : str) : Prop := ls <> [] \/ rest <> [].
(* The name and value in a line, by its first colon. *)
Inductive pairs : list str -> list (str * str) -> Prop :=
| pr_nil : pairs [] []
| pr_pair k v ls l : ~ In 58%N k -> pairs ls l -> pairs ((k ++ 58%N :: v) :: ls) ((trim k, trim v) :: l)
| pr_none x ls l : ~ In 58%N x -> pairs ls l -> pairs (x :: ls) l.
