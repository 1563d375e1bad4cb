(* Specification vocabulary for the streaming parser. *)
From Verif Require Export StreamModel.

(* Unicode scalar values *)
Definition scalar (c : char) : Prop := (c < 55296 \/ 57344 <= c < 1114112)%N.
(* the lines of a text that are closed by a newline, without the terminator,
   and what follows the last newline *)
Fixpoint split_last (s : str) : list str * str :=
  match s with
  | [] => ([], [])
  | c :: r =>
    let (ls, t) := split_last r in
    if is_nl c then ([] :: ls, t)
    else match ls with l :: ls' => ((c :: l) :: ls', t) | [] => ([], c :: t) end
  end.
Definition closed_lines (s : str) : list str := map strip_cr (fst (split_last s)).
Definition open_line (s : str) : str := snd (split_last s).
Definition no_cr_end (s : str) : Prop := ends_with_char 13%N s = false.
(* a division of a text into chunks none of which, except perhaps the last,
   ends in a carriage return *)
Definition division (chunks : list (list N)) (texts : list str) : Prop :=
  Forall2 (fun c t => from_utf8 c = Some t) chunks texts /\ Forall no_cr_end (removelast texts).

(* the reading of a line on its own *)
Definition stream_comment (l : str) : bool :=
  match trim l with [] => true | t => starts_with (lit ";") t || starts_with (lit "!:") t end.
Definition stream_header (l : str) : option section_kind :=
  let t := trim l in
  if stream_comment l then None
  else if starts_with (lit "[") t && ends_with_char 93%N t then Some (from_header (removelast (tl t))) else None.
(* the kind of the last header *)
Definition last_kind (ls : list str) : option section_kind :=
  fold_left (fun acc l => match stream_header l with Some k => Some k | None => acc end) ls None.
(* the column list in force for a section kind *)
Definition format_for (k : section_kind) (p : processor) : option str :=
  match k with KEvents => pr_events p | KStyles => pr_styles p | _ => None end.
Definition has_format (k : section_kind) : Prop := k = KEvents \/ k = KStyles.
Definition format_line (l f : str) : Prop := stream_comment l = false /\ stream_header l = None /\ trim l = lit "Format:" ++ f.
Definition blank (l : str) : Prop := Forall (fun c => is_ws c = true) l.
