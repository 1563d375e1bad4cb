(* Completion told by the text around the cursor: the lines above, the line
   before and after the cursor, the rest. *)
From Verif Require Import Base CompleteModel.

Definition without (c : char) (s : str) : Prop := ~ In c s.
Definition cursor (content : str) (offset : nat) (above la lb below : str) : Prop :=
  content = above ++ la ++ lb ++ below /\ blen (above ++ la) = offset /\
  (above = [] \/ exists x, above = x ++ [10%N]) /\ without 10 la /\ without 10 lb /\ (below = [] \/ exists x, below = 10%N :: x).
Definition titled (l n : str) : Prop := l = lit "[" ++ n ++ lit "]".
(* the section the line is in: the last header above *)
Definition in_section (above : str) (sec : option str) : Prop :=
  match sec with
  | Some n => exists before l after, lines above = before ++ l :: after /\ titled l n /\ forall l' n', In l' after -> ~ titled l' n'
  | None => forall l' n', In l' (lines above) -> ~ titled l' n'
  end.
(* between braces: what stands after the open one *)
Definition in_tags (la y : str) : Prop := exists x, la = x ++ lit "{" ++ y /\ without 123 y /\ without 125 y.
(* the tag being typed: what follows the last backslash, as far as it is a name *)
Definition typed_tag (alnum : char -> bool) (y t : str) : Prop := exists z r, y = z ++ lit "\" ++ t ++ r /\ without 92 (t ++ r) /\
  (forall c, In c t -> alnum c = true) /\ match r with [] => True | c :: _ => alnum c = false end.
Definition begins (p s : str) : Prop := exists r, s = p ++ r.
Inductive chosen {A} (P : A -> Prop) : list A -> list A -> Prop :=
| ch_nil : chosen P [] []
| ch_yes x l m : P x -> chosen P l m -> chosen P (x :: l) (x :: m)
| ch_no x l m : ~ P x -> chosen P l m -> chosen P (x :: l) m.

(* the names of the suggestions of each kind *)
Inductive sections_for (lower : str -> str) (la lb : str) : list (string * string) -> Prop :=
| s_blank : la = [] -> lb = [] -> sections_for lower la lb section_table
| s_typed p l : la = lit "[" ++ p -> chosen (fun x => p = [] \/ begins (lower p) (lower (tl (lit (fst x))))) section_table l -> sections_for lower la lb l
| s_none : la ++ lb <> [] -> (forall r, la ++ lb <> lit "[" ++ r) -> sections_for lower la lb [].
Inductive fields_for (lower : str -> str) (cfg : config) (sec : option str) (la lb : str) : list (string * string) -> Prop :=
| f_some n l : sec = Some n -> complete_fields cfg = true -> (forall y, ~ in_tags la y) ->
    chosen (fun x => trim_start (la ++ lb) = [] \/ begins (lower (trim_start (la ++ lb))) (lower (lit (fst x)))) (field_table n) l -> fields_for lower cfg sec la lb l
| f_none : sec = None \/ complete_fields cfg = false \/ (exists y, in_tags la y) -> fields_for lower cfg sec la lb [].
Inductive tags_for (alnum : char -> bool) (cfg : config) (la : str) : list (string * string * string) -> Prop :=
| t_typed y t l : complete_tags cfg = true -> in_tags la y -> typed_tag alnum y t -> chosen (fun x => begins t (tl (lit (fst (fst x))))) tag_table l -> tags_for alnum cfg la l
| t_all y : complete_tags cfg = true -> in_tags la y -> without 92 la -> tags_for alnum cfg la tag_table
| t_earlier y : complete_tags cfg = true -> in_tags la y -> without 92 y -> ~ without 92 la -> tags_for alnum cfg la []
| t_none : complete_tags cfg = false \/ (forall y, ~ in_tags la y) -> tags_for alnum cfg la [].
(* at the style field of an event *)
Definition at_style (sec : option str) (la lb : str) : Prop :=
  sec = Some (lit "Events") /\ (begins (lit "Dialogue:") (trim_start (la ++ lb)) \/ begins (lit "Comment:") (trim_start (la ++ lb))) /\
  exists a b c d, la = a ++ lit "," ++ b ++ lit "," ++ c ++ lit "," ++ d /\ without 44 a /\ without 44 b /\ without 44 c /\ without 44 d.
Definition styles_for (cfg : config) (names : list str) (sec : option str) (la lb : str) (l : list str) : Prop :=
  complete_styles cfg = true /\ at_style sec la lb /\ l = names \/ ~ (complete_styles cfg = true /\ at_style sec la lb) /\ l = [].

(* how each is shown: the text put in, the label, the description, the rank within its kind *)
Definition ranked {A} (f : A -> N -> item) (l : list A) : list item := map (fun x => f (fst x) (N.of_nat (snd x))) (combine l (seq 0 (List.length l))).
Definition plain (k : kind) (x : string * string) (n : N) : item := Item (lit (fst x)) (lit (fst x)) k (Some (lit (snd x))) None n.
Definition with_example (x : string * string * string) (n : N) : item := Item (lit (snd x)) (lit (fst (fst x))) Tag (Some (lit (snd (fst x)))) (Some (lit (snd x))) n.
Definition style_name (x : str) (n : N) : item := Item x x StyleRef (Some (lit "Style reference")) None n.
(* one suggestion of each kind, then the second ones, and so on *)
Definition heads {A} (gs : list (list A)) : list A := flat_map (fun g => match g with [] => [] | x :: _ => [x] end) gs.
Fixpoint in_turn {A} (n : nat) (gs : list (list A)) : list A := match n with 0 => [] | S m => heads gs ++ in_turn m (map (@tl A) gs) end.
Definition suggested (alnum : char -> bool) (lower : str -> str) (cfg : config) (names : list str) (above la lb : str) (items : list item) : Prop :=
  exists sec s f t st, in_section above sec /\ sections_for lower la lb s /\ fields_for lower cfg sec la lb f /\ tags_for alnum cfg la t /\ styles_for cfg names sec la lb st /\
    items = firstn (max_suggestions cfg) (in_turn (List.length s + List.length f + List.length t + List.length st)
      [ranked (plain Section_) s; ranked (plain Field) f; ranked with_example t; ranked style_name st]).
