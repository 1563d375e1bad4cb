(* What a token is: a lexical grammar for ASS text, and positions in a text.
   It shares with the model only the names of token kinds and contexts. *)
From Verif Require Import Base StreamModel TokenModel.

Definition line_end (c : char) : Prop := c = 10%N \/ c = 13%N.
(* What may be skipped between tokens. *)
Definition blank (c : char) : Prop := is_ws c = true /\ ~ line_end c.
(* The text is empty or begins with a character of the kind. *)
Definition next_is (p : char -> Prop) (s : str) : Prop := match s with [] => True | c :: _ => p c end.
Definition begins_with (p : char -> Prop) (s : str) : Prop := match s with [] => False | c :: _ => p c end.
Definition lacks (p : char -> Prop) (s : str) : Prop := Forall (fun c => ~ p c) s.
Definition one_of (l : str) (c : char) : Prop := In c l.
Definition count (c : char) (s : str) : nat := List.length (filter (fun x => (x =? c)%N) s).

(* The characters that end a text outside a value: : , { } [ ] LF CR, and in the
   build without simd also ; *)
Definition text_ends (simd : bool) : char -> Prop :=
  one_of ([58; 44; 123; 125; 91; 93; 10; 13]%N ++ (if simd then [] else [59%N])).
(* The characters that end a value: , LF CR { [ *)
Definition value_ends : char -> Prop := one_of [44; 10; 13; 123; 91]%N.

(* Kinds of text, decided in this order. *)
Definition hex_literal (s : str) : Prop :=
  exists d e, s = lit "&H" ++ d ++ e /\ (e = [] \/ e = lit "&") /\ In (List.length d) [2; 4; 6; 8] /\ forallb is_hex d = true.
Definition numeral (extra : str) (s : str) : Prop := Forall (fun c => is_digit c = true \/ In c ([46; 45]%N ++ extra)) s.
Definition text_kind (s : str) (k : tok_type) : Prop :=
  (hex_literal s /\ k = TkHex) \/
  (~ hex_literal s /\ numeral [] s /\ k = TkNumber) \/
  (~ hex_literal s /\ ~ numeral [] s /\ forallb is_ws s = true /\ k = TkWhitespace) \/
  (~ hex_literal s /\ ~ numeral [] s /\ forallb is_ws s = false /\ k = TkText).
Definition value_kind (s : str) (k : tok_type) : Prop :=
  (numeral [58%N] s /\ k = TkNumber) \/
  (~ numeral [58%N] s /\ forallb is_ws s = true /\ k = TkWhitespace) \/
  (~ numeral [58%N] s /\ forallb is_ws s = false /\ k = TkText).

(* [lex simd c k span rest c']: in context c, a token of kind k with this text
   stands in front of [rest], and the context is c' behind it. *)
Inductive lex (simd : bool) : tok_ctx -> tok_type -> str -> str -> tok_ctx -> Prop :=
| lex_header c x rest : lacks (eq 93%N) x -> next_is (eq 93%N) rest ->
    lex simd c TkSectionHeader (91%N :: x) rest CtxHeader
| lex_section_close rest : lex simd CtxHeader TkSectionClose [93%N] rest CtxDocument
| lex_colon rest : lex simd CtxDocument TkColon [58%N] rest CtxField
  (* up to the matching brace *)
| lex_block c x rest : (forall p q, x = p ++ q -> count 125 p <= count 123 p) ->
    next_is (fun d => d = 125%N /\ count 125 x = count 123 x) rest ->
    lex simd c TkOverrideBlock (123%N :: x) rest CtxOverride
| lex_block_close rest : lex simd CtxOverride TkOverrideClose [125%N] rest CtxDocument
| lex_comma c rest : lex simd c TkComma [44%N] rest c
| lex_lf c rest : lex simd c TkNewline [10%N] rest CtxDocument
| lex_crlf c rest : lex simd c TkNewline [13%N; 10%N] rest CtxDocument
| lex_cr c rest : begins_with (fun d => d <> 10%N) rest -> lex simd c TkNewline [13%N] rest CtxDocument
| lex_comment span rest : begins_with (eq 59%N) span \/ (exists x, span = 33%N :: 58%N :: x) ->
    lacks line_end span -> next_is line_end rest ->
    lex simd CtxDocument TkComment span rest CtxDocument
| lex_stray_brace c rest : c <> CtxOverride -> lex simd c TkText [125%N] rest c
| lex_stray_bracket c rest : c <> CtxHeader -> lex simd c TkText [93%N] rest c
| lex_value span rest k : span <> [] -> lacks value_ends span -> next_is value_ends rest ->
    next_is (fun d => d <> 125%N /\ d <> 93%N) span -> value_kind span k ->
    lex simd CtxField k span rest CtxField
| lex_text span rest k : span <> [] -> lacks (text_ends simd) span -> next_is (text_ends simd) rest ->
    ~ begins_with (eq 59%N) span -> (forall x, span ++ rest <> 33%N :: 58%N :: x) -> text_kind span k ->
    lex simd CtxDocument k span rest CtxDocument.

(* A stretch that is skipped before a token: none inside a value, otherwise all
   the blanks there are. *)
Definition skipped (c : tok_ctx) (gap s : str) : Prop :=
  match c with
  | CtxField => gap = []
  | _ => Forall blank gap /\ next_is (fun d => ~ blank d) s
  end.
(* [lexes simd c s l c' s']: from context c the text s yields the tokens l, in
   this order, up to s', where the context is c'. *)
Inductive lexes (simd : bool) : tok_ctx -> str -> list (tok_type * str) -> tok_ctx -> str -> Prop :=
| lexes_nil c s : lexes simd c s [] c s
| lexes_cons c gap k span rest c1 l c2 s2 : skipped c gap (span ++ rest) -> lex simd c k span rest c1 ->
    lexes simd c1 rest l c2 s2 -> lexes simd c (gap ++ span ++ rest) ((k, span) :: l) c2 s2.
Definition kinds (ts : list token) : list (tok_type * str) := map (fun t => (tk_type t, tk_span t)) ts.

(* The text behind the byte order mark. *)
Definition text_body (source : str) : str := match source with c :: r => if (c =? 65279)%N then r else source | [] => [] end.
(* A sequence of calls of next_token that each return a token. *)
Inductive calls (simd : bool) : tokenizer -> list token -> tokenizer -> Prop :=
| calls_nil k : calls simd k [] k
| calls_cons k t k1 ts k2 : next_token simd k = Tok t k1 -> calls simd k1 ts k2 -> calls simd k (t :: ts) k2.

(* The line and column behind a text.  A line ends at CR, LF or CR LF. *)
Fixpoint line_breaks (after_cr : bool) (s : str) : nat :=
  match s with
  | [] => 0
  | c :: r => (if (c =? 13)%N then 1 else if (c =? 10)%N then if after_cr then 0 else 1 else 0) + line_breaks (c =? 13)%N r
  end.
Definition line_after (s : str) : nat := 1 + line_breaks false s.
Definition column_after (s : str) (col : nat) : Prop :=
  exists a b, s = a ++ b /\ (a = [] \/ exists a' c, a = a' ++ [c] /\ line_end c) /\ lacks line_end b /\ col = 1 + List.length b.
(* No CR without LF. *)
Definition crlf_only (s : str) : Prop := forall a b, s = a ++ 13%N :: b -> exists b', b = 10%N :: b'.

(* Tokens laid out in a text: gaps of blanks between them, each at the line (and,
   if [cols], the column) of the text before it. *)
Inductive laid_out (cols : bool) : str -> str -> list token -> str -> Prop :=
| laid_nil p s : laid_out cols p s [] s
| laid_cons p gap t ts rest s2 : Forall blank gap -> tk_span t <> [] -> tk_line t = line_after (p ++ gap) ->
    (cols = true -> column_after (p ++ gap) (tk_col t)) ->
    laid_out cols (p ++ gap ++ tk_span t) rest ts s2 ->
    laid_out cols p (gap ++ tk_span t ++ rest) (t :: ts) s2.

(* ---- the byte utilities ---- *)
Definition delimiters : str := [58; 44; 123; 125; 91; 93; 10; 13]%N.
Definition hex_value (s : str) (v : N) : Prop :=
  exists ds, Forall2 (fun c d => to_digit 16 c = Some d) s ds /\ v = fold_left (fun a d => a * 16 + d)%N ds 0%N.
Definition is_text (b : list N) : Prop := exists s, from_utf8 b = Some s.

(* Values with commas between them. *)
Fixpoint with_commas (l : list (tok_type * str)) : list (tok_type * str) :=
  match l with
  | [] => []
  | [x] => [x]
  | x :: r => x :: (TkComma, [44%N]) :: with_commas r
  end.
(* A text that can stand before the colon of a field, and one that can be a value. *)
Definition plain_key (simd : bool) (s : str) : Prop :=
  s <> [] /\ lacks (text_ends simd) s /\ begins_with (fun c => ~ blank c /\ c <> 59%N) s /\ s <> [33%N].
Definition plain_value (s : str) : Prop := s <> [] /\ lacks value_ends s /\ begins_with (fun c => c <> 125%N /\ c <> 93%N) s.
Definition field_text (key : str) (vals : list str) : str := key ++ [58%N] ++ join [44%N] vals.
