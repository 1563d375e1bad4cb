(* Highlighting as painting: a line cut in pieces, some of them with a colour.
   No offsets: these follow from the pieces. *)
From Verif Require Import Base HighlightModel.

Definition paint := option (kind * option str).
Definition piece := (str * paint)%type.
Definition painted (l : list piece) : str := concat (map fst l).
(* the coloured pieces with their places, from an offset on *)
Fixpoint placed (o : nat) (l : list piece) : list token :=
  match l with
  | [] => []
  | (s, Some (k, i)) :: r => Token o (o + blen s) k i :: placed (o + blen s) r
  | (s, None) :: r => placed (o + blen s) r
  end.

Definition lacks (p : char -> bool) (s : str) : Prop := forall c, In c s -> p c = false.
Definition blank (s : str) : Prop := forall c, In c s -> is_ws c = true.

(* a list of fields, a comma between two *)
Fixpoint fields_painted (colour : nat -> str -> paint) (i : nat) (fs : list str) : list piece :=
  match fs with
  | [] => []
  | [f] => [(f, colour i f)]
  | f :: r => (f, colour i f) :: (lit ",", None) :: fields_painted colour (S i) r
  end.
Definition style_colour (i : nat) (f : str) : paint := match i with 0 => Some (StyleName, Some (trim f)) | _ => Some (FieldValue, None) end.
Definition event_colour (i : nat) (f : str) : paint :=
  match i with 1 | 2 => Some (TimeCode, None) | 3 => Some (StyleName, Some (trim f)) | _ => Some (FieldValue, None) end.

(* one tag, without its backslash: a name and what follows it *)
Inductive tag_painted (alnum : char -> bool) : str -> list piece -> Prop :=
| tag_named n p : n <> [] -> (forall c, In c n -> alnum c = true) -> match p with [] => True | c :: _ => alnum c = false end ->
    tag_painted alnum (n ++ p) ((n, Some (OverrideTag, Some n)) :: match p with [] => [] | _ => [(p, Some (TagParameter, None))] end)
| tag_unnamed c r : alnum c = false -> tag_painted alnum (c :: r) [(c :: r, None)].
(* what is between braces *)
Inductive tags_painted (alnum : char -> bool) : str -> list piece -> Prop :=
| tags_end : tags_painted alnum [] []
| tags_slash s l : tags_painted alnum s l -> tags_painted alnum (lit "\" ++ s) ((lit "\", None) :: l)
| tags_tag t lt s l : t <> [] -> lacks is_backslash t -> match s with [] => True | c :: _ => is_backslash c = true end ->
    tag_painted alnum t lt -> tags_painted alnum s l -> tags_painted alnum (t ++ s) (lt ++ l).
(* the text of an event *)
Inductive text_painted (alnum : char -> bool) : str -> list piece -> Prop :=
| text_end : text_painted alnum [] []
| text_plain t s l : t <> [] -> lacks is_open t -> match s with [] => True | c :: _ => is_open c = true end ->
    text_painted alnum s l -> text_painted alnum (t ++ s) ((t, Some (Text, None)) :: l)
| text_tags t lt s l : lacks is_close t -> tags_painted alnum t lt -> text_painted alnum s l ->
    text_painted alnum (lit "{" ++ t ++ lit "}" ++ s) ((lit "{", Some (OverrideTag, None)) :: lt ++ (lit "}", Some (OverrideTag, None)) :: l)
| text_unclosed t : lacks is_close t -> text_painted alnum (lit "{" ++ t) [(lit "{" ++ t, Some (Error, Some (lit "Unclosed override tag")))].

Definition is_header_text (s : str) : Prop := exists n, s = lit "[" ++ n ++ lit "]".
Definition begins (p : string) (s : str) : Prop := exists r, s = lit p ++ r.
Definition is_comment (s : str) : Prop := begins ";" s.
(* a line of a section; the flag: the pieces of a style line leave out blanks
   that stand before its first field *)
Inductive line_painted (alnum : char -> bool) (cfg : config) (section : option str) : str -> bool -> list piece -> option str -> Prop :=
| p_header n : line_painted alnum cfg section (lit "[" ++ n ++ lit "]") false [(lit "[" ++ n ++ lit "]", Some (SectionHeader, Some n))] (Some n)
| p_comment s : line_painted alnum cfg section (lit ";" ++ s) false [(lit ";" ++ s, Some (Comment, None))] section
| p_outside s : section = None -> ~ is_header_text s -> ~ is_comment s -> line_painted alnum cfg section s false [(s, None)] section
| p_info n v : In section [Some (lit "Script Info"); Some (lit "Aegisub Project Garbage")] -> ~ is_header_text (n ++ lit ":" ++ v) -> ~ is_comment (n ++ lit ":" ++ v) ->
    lacks is_colon n -> ~ blank v ->
    line_painted alnum cfg section (n ++ lit ":" ++ v) false [(n ++ lit ":", Some (FieldName, Some n)); (v, Some (FieldValue, None))] section
| p_info_blank n v : In section [Some (lit "Script Info"); Some (lit "Aegisub Project Garbage")] -> ~ is_header_text (n ++ lit ":" ++ v) -> ~ is_comment (n ++ lit ":" ++ v) ->
    lacks is_colon n -> blank v ->
    line_painted alnum cfg section (n ++ lit ":" ++ v) false [(n ++ lit ":", Some (FieldName, Some n)); (v, None)] section
| p_info_other s : In section [Some (lit "Script Info"); Some (lit "Aegisub Project Garbage")] -> ~ is_header_text s -> ~ is_comment s ->
    lacks is_colon s -> line_painted alnum cfg section s false [(s, None)] section
| p_format s : In section [Some (lit "V4+ Styles"); Some (lit "V4 Styles"); Some (lit "Events")] ->
    line_painted alnum cfg section (lit "Format:" ++ s) false [(lit "Format:", Some (FieldName, Some (lit "Format"))); (s, Some (FieldValue, None))] section
| p_style b fs : In section [Some (lit "V4+ Styles"); Some (lit "V4 Styles")] -> blank b -> fs <> [] -> (forall f, In f fs -> lacks is_comma f) ->
    match join (lit ",") fs with [] => True | c :: _ => is_ws c = false end ->
    line_painted alnum cfg section (lit "Style:" ++ b ++ join (lit ",") fs) (match b with [] => false | _ => true end)
      ((lit "Style:", Some (FieldName, Some (lit "Style"))) :: fields_painted style_colour 0 fs) section
| p_style_other s : In section [Some (lit "V4+ Styles"); Some (lit "V4 Styles")] -> ~ is_header_text s -> ~ is_comment s ->
    ~ begins "Format:" s -> ~ begins "Style:" s -> line_painted alnum cfg section s false [(s, None)] section
| p_event key fs t l : section = Some (lit "Events") -> In key [lit "Dialogue"; lit "Comment"] -> List.length fs = 9 -> (forall f, In f fs -> lacks is_comma f) ->
    (if highlight_tags cfg then text_painted alnum t l else l = [(t, Some (Text, None))]) ->
    line_painted alnum cfg section (key ++ lit ":" ++ join (lit ",") fs ++ lit "," ++ t) false
      ((key ++ lit ":", Some (EventType, Some key)) :: fields_painted event_colour 0 fs ++ (lit ",", None) :: ([], Some (FieldValue, None)) :: l) section
| p_event_short key fs : section = Some (lit "Events") -> In key [lit "Dialogue"; lit "Comment"] -> 1 <= List.length fs <= 9 -> (forall f, In f fs -> lacks is_comma f) ->
    line_painted alnum cfg section (key ++ lit ":" ++ join (lit ",") fs) false [(key ++ lit ":", Some (EventType, Some key)); (join (lit ",") fs, None)] section
| p_event_other s : section = Some (lit "Events") -> ~ is_header_text s -> ~ is_comment s ->
    ~ begins "Format:" s -> ~ begins "Dialogue:" s -> ~ begins "Comment:" s -> line_painted alnum cfg section s false [(s, None)] section
| p_unknown n s : section = Some n -> ~ In n (map lit ["Script Info"; "Aegisub Project Garbage"; "V4+ Styles"; "V4 Styles"; "Events"]%string) -> ~ is_header_text s -> ~ is_comment s ->
    line_painted alnum cfg section s false [(s, Some (Text, None))] section.

(* the lines of a document, as far as the limit lets it come: the line at which
   the number of tokens reaches it is the last *)
Definition colours (l : list piece) : list (str * (kind * option str)) := flat_map (fun p => match snd p with Some k => [(fst p, k)] | None => [] end) l.
Record painted_line := Painted { the_line : str; shifted : bool; pieces : list piece }.
Inductive doc_painted (alnum : char -> bool) (cfg : config) : nat -> option str -> list str -> list painted_line -> Prop :=
| doc_end n sec : doc_painted alnum cfg n sec [] []
| doc_line n sec s b l sec' ls L : line_painted alnum cfg sec s b l sec' -> max_tokens cfg = 0 \/ n + List.length (colours l) < max_tokens cfg ->
    doc_painted alnum cfg (n + List.length (colours l)) sec' ls L -> doc_painted alnum cfg n sec (s :: ls) (Painted s b l :: L)
| doc_stop n sec s b l sec' ls : line_painted alnum cfg sec s b l sec' -> 0 < max_tokens cfg <= n + List.length (colours l) ->
    doc_painted alnum cfg n sec (s :: ls) [Painted s b l].
(* every line where the lines before it, each with a line feed, end *)
Fixpoint page (o : nat) (L : list painted_line) : list token :=
  match L with [] => [] | x :: r => placed o (pieces x) ++ page (o + blen (the_line x) + 1) r end.

(* ---- the cache, told by the calls so far, the newest first ---- *)
Fixpoint settings (past : list call) : config := match past with [] => h_config new_highlighter | Configure c :: _ => c | _ :: l => settings l end.
(* the text and the settings of the first request for a document since it was forgotten *)
Fixpoint first_seen (id : str) (past : list call) : option (str * config) :=
  match past with
  | [] => None
  | ClearCache :: _ => None
  | Invalidate i :: l => if str_eqb i id then None else first_seen id l
  | Configure _ :: l => first_seen id l
  | Tokenize i text :: l => match first_seen id l with Some x => Some x | None => if str_eqb i id then Some (text, settings l) else None end
  end.

(* one token after the other, between two offsets *)
Fixpoint orderly (lo hi : nat) (l : list token) : Prop :=
  match l with [] => lo <= hi | t :: r => lo <= t_start t <= t_end t /\ orderly (t_end t) hi r end.
(* the text under a token, if its ends are between characters, with its colour *)
Definition under (text : str) (t : token) : option str * (kind * option str) := (slice text (t_start t) (t_end t), (t_kind t, t_info t)).
