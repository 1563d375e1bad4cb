(* What editing an event or a section by text search is meant to do. *)
From Verif Require Import Base ParseModel StyleCmdSpec EventCmdSpec BuilderModel BuilderSpec.

(* the value of the last modification of a field, d if there is none *)
Fixpoint last_of (ms : list (str * str)) (field : str) (d : str) : str :=
  match ms with [] => d | (k, v) :: r => last_of r field (if str_eqb k field then v else d) end.
Definition event_fields : list str := map lit ["layer"; "start"; "end"; "style"; "name"; "margin_l"; "margin_r"; "margin_v"; "effect"; "text"]%string.
Definition with_fields (e : event) (ms : list (str * str)) : event :=
  Event (e_type e) (last_of ms (lit "layer") (e_layer e)) (last_of ms (lit "start") (e_start e)) (last_of ms (lit "end") (e_end e))
    (last_of ms (lit "style") (e_style e)) (last_of ms (lit "name") (e_name e)) (last_of ms (lit "margin_l") (e_margin_l e))
    (last_of ms (lit "margin_r") (e_margin_r e)) (last_of ms (lit "margin_v") (e_margin_v e)) (e_margin_t e) (e_margin_b e)
    (last_of ms (lit "effect") (e_effect e)) (last_of ms (lit "text") (e_text e)) (e_span e).
(* how a line of the event starts *)
Definition shown (e : event) : str := event_type_str (e_type e) ++ lit ": " ++ join (lit ",") [e_layer e; e_start e; e_end e].
(* in t, the first place where p stands is after A; l is the rest of the line *)
Definition first_place (p t A l rest : str) : Prop := t = A ++ p ++ l ++ rest /\ first_at p A /\ ~ In 10%N (p ++ l) /\ after_line rest.
(* the format line that follows the first header h *)
Definition format_after (h t a m f rest : str) : Prop :=
  t = a ++ h ++ m ++ lit "Format:" ++ f ++ 10%N :: rest /\ first_at h a /\ first_at (lit "Format:") (h ++ m) /\ ~ In 10%N f.
(* The value an event has in a column. *)
Definition own (e : event) (c : string) : str :=
  let o x := match x with Some s => s | None => lit "0" end in
  match find (fun p => String.eqb (fst p) c)
    [("Layer", e_layer e); ("Start", e_start e); ("End", e_end e); ("Style", e_style e); ("Name", e_name e); ("MarginL", e_margin_l e);
     ("MarginR", e_margin_r e); ("MarginV", e_margin_v e); ("MarginT", o (e_margin_t e)); ("MarginB", o (e_margin_b e));
     ("Effect", e_effect e); ("Text", e_text e)]%string with Some (_, v) => v | None => [] end.
(* plain decimal numbers of 32 bits in the layer and the margins *)
Definition plain_number (s : str) : Prop := exists n, s = to_dec n /\ (n <= u32_max)%N.
Definition plain_numbers (e : event) : Prop :=
  Forall plain_number [e_layer e; e_margin_l e; e_margin_r e; e_margin_v e] /\
  (forall m, e_margin_t e = Some m -> plain_number m) /\ (forall m, e_margin_b e = Some m -> plain_number m).
