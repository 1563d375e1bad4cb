(* Model of the built-in syntax highlighter: crates/ass-editor/extensions/
   builtin/syntax_highlight/{document,events,sections,tags,extension,types}.rs.
   char::is_alphanumeric is an argument.  Offsets are below usize::MAX, as they
   are in a text that fits in memory. *)
From Verif Require Import Base.
From Verif Require Import PluginModel.

(* types.rs:10-34 *)
Inductive kind := SectionHeader | FieldName | FieldValue | EventType | StyleName | TimeCode | OverrideTag | TagParameter | Comment | Text | Error.
(* types.rs:72-80; Range::new puts the smaller offset first (core/position) *)
Record token := Token { t_start : nat; t_end : nat; t_kind : kind; t_info : option str }.
Definition token_at (a b : nat) (k : kind) (i : option str) : token := if a <=? b then Token a b k i else Token b a k i.
(* extension.rs:27-47; the other two settings are never read *)
Record config := Config { highlight_tags : bool; max_tokens : nat }.

Definition is_colon (c : char) : bool := (c =? 58)%N.
Definition is_comma (c : char) : bool := (c =? 44)%N.
Definition is_open (c : char) : bool := (c =? 123)%N.
Definition is_close (c : char) : bool := (c =? 125)%N.
Definition is_backslash (c : char) : bool := (c =? 92)%N.

(* sections.rs:11-43 *)
Definition tokenize_info_line (line : str) (line_start : nat) : list token :=
  match find_char is_colon line with
  | Some (a, rest) =>
    token_at line_start (line_start + blen a + 1) FieldName (Some a) ::
    match trim_start (tl rest) with
    | [] => []
    | _ => [token_at (line_start + blen a + 1) (line_start + blen line) FieldValue None]
    end
  | None => []
  end.
(* sections.rs:46-70 *)
Definition tokenize_format_line (line : str) (line_start : nat) : list token :=
  [token_at line_start (line_start + 7) FieldName (Some (lit "Format")); token_at (line_start + 7) (line_start + blen line) FieldValue None].
(* sections.rs:86-115; i counts the fields *)
Fixpoint style_fields (i : nat) (field_start : nat) (fields : list str) : list token :=
  match fields with
  | [] => []
  | f :: r =>
    (if i =? 0 then token_at field_start (field_start + blen f) StyleName (Some (trim f)) else token_at field_start (field_start + blen f) FieldValue None)
    :: style_fields (S i) (field_start + blen f + 1) r
  end.
(* sections.rs:73-118; the caller has seen "Style:", so the slice at 6 is on a boundary *)
Definition tokenize_style_line (line : str) (line_start : nat) : list token :=
  token_at line_start (line_start + 6) FieldName (Some (lit "Style")) ::
  style_fields 0 (line_start + 6) (split_on is_comma (trim_start (skipn 6 line))).

(* tags.rs:97: the byte at an offset; inside a character it is no backslash *)
Definition backslash_at (content : str) (pos : nat) : bool := match cut content pos with Some (_, c :: _) => is_backslash c | _ => false end.
(* tags.rs:97-99; the fuel is the length of the content *)
Fixpoint skip_backslashes (fuel : nat) (content : str) (pos : nat) : nat :=
  match fuel with 0 => pos | S f => if (pos <? blen content) && backslash_at content pos then skip_backslashes f content (pos + 1) else pos end.
(* tags.rs:95-135 *)
Fixpoint tag_parts (alnum : char -> bool) (content : str) (content_start : nat) (pos : nat) (parts : list str) : list token :=
  match parts with
  | [] => []
  | part :: r =>
    let pos := skip_backslashes (blen content) content pos in
    if blen content <=? pos then [] else
    let name := take_while alnum part in
    let tag_end := blen name in
    (if 0 <? tag_end then
       token_at (content_start + pos) (content_start + pos + tag_end) OverrideTag (Some name) ::
       (if tag_end <? blen part then [token_at (content_start + pos + tag_end) (content_start + pos + blen part) TagParameter None] else [])
     else [])
    ++ tag_parts alnum content content_start (pos + blen part + 1) r
  end.
Definition is_nonempty (s : str) : bool := match s with [] => false | _ => true end.
(* tags.rs:85-138 *)
Definition tokenize_tag_content (alnum : char -> bool) (content : str) (content_start : nat) : list token :=
  tag_parts alnum content content_start 0 (filter is_nonempty (split_on is_backslash content)).
(* tags.rs:20-79: what is left of the text, and where it starts; None: out of fuel *)
Fixpoint text_loop (alnum : char -> bool) (fuel : nat) (rest : str) (at_ : nat) : option (list token) :=
  match fuel with
  | 0 => None
  | S f =>
    match rest with
    | [] => Some []
    | c :: r =>
      if is_open c then
        match find_char is_close rest with
        | Some (a, after) =>
          match text_loop alnum f (tl after) (at_ + blen a + 1) with
          | Some l => Some (token_at at_ (at_ + 1) OverrideTag None :: tokenize_tag_content alnum (tl a) (at_ + 1) ++ token_at (at_ + blen a) (at_ + blen a + 1) OverrideTag None :: l)
          | None => None
          end
        | None => Some [token_at at_ (at_ + blen rest) Error (Some (lit "Unclosed override tag"))]
        end
      else
        let '(a, after) := match find_char is_open rest with Some p => p | None => (rest, []) end in
        match text_loop alnum f after (at_ + blen a) with
        | Some l => Some (token_at at_ (at_ + blen a) Text None :: l)
        | None => None
        end
    end
  end.
(* tags.rs:11-82 *)
Definition tokenize_text_with_tags (alnum : char -> bool) (text : str) (text_start : nat) : option (list token) :=
  text_loop alnum (S (List.length text)) text text_start.

(* events.rs:39-50: the text up to and with its n-th comma *)
Fixpoint after_commas (n : nat) (s : str) : option (str * str) :=
  match s with
  | [] => None
  | c :: r =>
    if is_comma c then
      match n with
      | 0 | 1 => Some ([c], r)
      | S m => match after_commas m r with Some (a, b) => Some (c :: a, b) | None => None end
      end
    else match after_commas n r with Some (a, b) => Some (c :: a, b) | None => None end
  end.
(* events.rs:57-97 *)
Fixpoint event_fields (i : nat) (field_start : nat) (fields : list str) : list token :=
  match fields with
  | [] => []
  | f :: r =>
    (match i with
     | 1 | 2 => token_at field_start (field_start + blen f) TimeCode None
     | 3 => token_at field_start (field_start + blen f) StyleName (Some (trim f))
     | _ => token_at field_start (field_start + blen f) FieldValue None
     end) :: event_fields (S i) (field_start + blen f + 1) r
  end.
(* events.rs:11-117; the caller has seen one of the two keys *)
Definition tokenize_event_line (alnum : char -> bool) (cfg : config) (line : str) (line_start : nat) : option (list token) :=
  let key := if starts_with (lit "Dialogue:") line then lit "Dialogue" else lit "Comment" in
  let type_len := blen key + 1 in
  let fields_start := line_start + type_len in
  let fields_text := skipn type_len line in
  let head := token_at line_start (line_start + type_len) EventType (Some key) in
  match after_commas 9 fields_text with
  | None => Some [head]
  | Some (pre, text) =>
    if highlight_tags cfg then
      match tokenize_text_with_tags alnum text (fields_start + blen pre) with
      | Some l => Some (head :: event_fields 0 fields_start (split_on is_comma pre) ++ l)
      | None => None
      end
    else Some (head :: event_fields 0 fields_start (split_on is_comma pre) ++ [token_at (fields_start + blen pre) (line_start + blen line) Text None])
  end.

Definition is_header (line : str) : bool := starts_with (lit "[") line && ends_with (lit "]") line.
(* &line[1..line.len() - 1]; a header has two characters at least *)
Definition header_name (line : str) : str := removelast (tl line).
Definition one_of (l : list string) (s : str) : bool := existsb (fun x => str_eqb (lit x) s) l.
(* document.rs:30-76: the tokens of a line and the section after it *)
Definition tokenize_line (alnum : char -> bool) (cfg : config) (section : option str) (line : str) (line_start : nat) : option (list token * option str) :=
  let whole k i := token_at line_start (line_start + blen line) k i in
  if is_header line then Some ([whole SectionHeader (Some (header_name line))], Some (header_name line))
  else if starts_with (lit ";") line then Some ([whole Comment None], section)
  else match section with
  | None => Some ([], section)
  | Some s =>
    if one_of ["Script Info"; "Aegisub Project Garbage"]%string s then Some (tokenize_info_line line line_start, section)
    else if one_of ["V4+ Styles"; "V4 Styles"]%string s then
      Some (if starts_with (lit "Format:") line then tokenize_format_line line line_start
            else if starts_with (lit "Style:") line then tokenize_style_line line line_start else [], section)
    else if one_of ["Events"]%string s then
      if starts_with (lit "Format:") line then Some (tokenize_format_line line line_start, section)
      else if starts_with (lit "Dialogue:") line || starts_with (lit "Comment:") line then
        match tokenize_event_line alnum cfg line line_start with Some l => Some (l, section) | None => None end
      else Some ([], section)
    else Some ([whole Text None], section)
  end.
(* document.rs:24-84 *)
Fixpoint lines_loop (alnum : char -> bool) (cfg : config) (tokens : list token) (section : option str) (line_start : nat) (ls : list str) : option (list token) :=
  match ls with
  | [] => Some tokens
  | line :: r =>
    match tokenize_line alnum cfg section line line_start with
    | None => None
    | Some (l, section') =>
      let tokens := tokens ++ l in
      if (0 <? max_tokens cfg) && (max_tokens cfg <=? List.length tokens) then Some tokens
      else lines_loop alnum cfg tokens section' (line_start + blen line + 1) r
    end
  end.
Definition tokenize (alnum : char -> bool) (cfg : config) (text : str) : option (list token) := lines_loop alnum cfg [] None 0 (lines text).

(* ---- the extension with its cache: document.rs:11-18, 86-89; extension.rs:70-77;
   configuring is part of initialize (editor_ext.rs:26-47) ---- *)
Record highlighter := Highlighter { h_config : config; token_cache : hmap (list token) }.
(* extension.rs:51-67 *)
Definition new_highlighter : highlighter := Highlighter (Config true (100 * 100)) [].
Inductive call := Tokenize (id text : str) | ClearCache | Invalidate (id : str) | Configure (c : config).
Definition call_step (alnum : char -> bool) (h : highlighter) (c : call) : highlighter * option (list token) :=
  match c with
  | Tokenize id text =>
    match hm_get id (token_cache h) with
    | Some l => (h, Some l)
    | None =>
      match tokenize alnum (h_config h) text with
      | Some l => (Highlighter (h_config h) (hm_insert id l (token_cache h)), Some l)
      | None => (h, None)
      end
    end
  | ClearCache => (Highlighter (h_config h) [], None)
  | Invalidate id => (Highlighter (h_config h) (hm_without id (token_cache h)), None)
  | Configure c => (Highlighter c (token_cache h), None)
  end.
Definition calls_run (alnum : char -> bool) (l : list call) : highlighter := fold_left (fun h c => fst (call_step alnum h c)) l new_highlighter.
