(* Model of the editing functions of the document that look for a place in its
   text: crates/ass-editor/core/document, event_edit.rs, event_line.rs,
   builder_edit.rs, ass_api.rs and section_lines.rs. *)
From Verif Require Export Base DocModel ParseModel EventCmdModel BuilderModel QueryModel.

Definition is_nl (c : char) : bool := (c =? 10)%N.
(* the text up to the next newline, or all of it *)
Definition line_at (s : str) : str := match find_char is_nl s with Some (l, _) => l | None => s end.
(* content.find(pattern), and from there to the end of the line *)
Definition locate (p content : str) : option (nat * nat) :=
  match find_str p content with Some (a, b) => Some (blen a, blen a + blen (line_at b)) | None => None end.
Definition put_line (sz : nat) (d : doc) (at_ : nat * nat) (l : str) : outcome str :=
  and_then (of_out (doc_replace sz d (range_new (fst at_) (snd at_)) l)) (fun d1 _ => Done (d1, Some l)).

(* event_edit.rs:67-71, builder_edit.rs:131-135 *)
Definition event_pattern (e : event) : str := event_type_str (e_type e) ++ lit ": " ++ e_layer e ++ lit "," ++ e_start e ++ lit "," ++ e_end e.
(* event_line.rs:59-77: one modification; None is the error *)
Definition set_field (e : event) (m : str * str) : option event :=
  let '(Event ty la st en sy na ml mr mv mt mb ef te sp) := e in
  let (k, v) := m in
  if str_eqb k (lit "layer") then Some (Event ty v st en sy na ml mr mv mt mb ef te sp)
  else if str_eqb k (lit "start") then Some (Event ty la v en sy na ml mr mv mt mb ef te sp)
  else if str_eqb k (lit "end") then Some (Event ty la st v sy na ml mr mv mt mb ef te sp)
  else if str_eqb k (lit "style") then Some (Event ty la st en v na ml mr mv mt mb ef te sp)
  else if str_eqb k (lit "name") then Some (Event ty la st en sy v ml mr mv mt mb ef te sp)
  else if str_eqb k (lit "margin_l") then Some (Event ty la st en sy na v mr mv mt mb ef te sp)
  else if str_eqb k (lit "margin_r") then Some (Event ty la st en sy na ml v mv mt mb ef te sp)
  else if str_eqb k (lit "margin_v") then Some (Event ty la st en sy na ml mr v mt mb ef te sp)
  else if str_eqb k (lit "effect") then Some (Event ty la st en sy na ml mr mv mt mb v te sp)
  else if str_eqb k (lit "text") then Some (Event ty la st en sy na ml mr mv mt mb ef v sp)
  else None.
Fixpoint set_fields (e : event) (ms : list (str * str)) : option event :=
  match ms with [] => Some e | m :: r => match set_field e m with Some e1 => set_fields e1 r | None => None end end.
(* event_line.rs:79-81: the same format as event_to_string *)
Definition modified_line (e : event) (ms : list (str * str)) : option str := option_map event_to_string (set_fields e ms).
(* event_edit.rs:49-131; `update` stands for the closure *)
Definition edit_event_by_index (sz : nat) (d : doc) (index : nat) (update : event -> list (str * str)) : outcome str :=
  sc <- parse (text d) ;;
  match nth_error (events_of sc) index with
  | None => Done (d, None)
  | Some e =>
    match locate (event_pattern e) (text d) with
    | None => Done (d, None)
    | Some p => match modified_line e (update e) with None => Done (d, None) | Some l => put_line sz d p l end
    end
  end.

(* builder_edit.rs:69-84: the fields of the format line; the header and the
   word are looked for in the whole text *)
Definition events_format (content : str) : option (list str) :=
  match find_str (lit "[Events]") content with
  | None => None
  | Some (_, b) =>
    match find_str (lit "Format:") (skipn 8 b) with
    | None => None
    | Some (_, b) => match find_char is_nl (skipn 7 b) with
                     | Some (l, _) => Some (map trim (split_on is_comma (trim l)))
                     | None => None
                     end
    end
  end.
(* 88-118: the builder that stands for the event *)
Definition number_or_0 (s : str) : N := match parse_u32 s with Some n => n | None => 0%N end.
Definition calls_of (e : event) : list event_call :=
  [CLayer (number_or_0 (e_layer e)); CStart (e_start e); CEnd (e_end e); CStyle (e_style e); CSpeaker (e_name e);
   CMarginL (number_or_0 (e_margin_l e)); CMarginR (number_or_0 (e_margin_r e)); CMarginV (number_or_0 (e_margin_v e));
   CEffect (e_effect e); CText (e_text e)] ++
  match e_margin_t e with Some m => [CMarginT (number_or_0 m)] | None => [] end ++
  match e_margin_b e with Some m => [CMarginB (number_or_0 m)] | None => [] end.
Definition kind_of (e : event) : option event_type :=
  match e_type e with Dialogue => Some Dialogue | Comment => Some Comment | _ => None end.
(* 51-172; `change` stands for the closure *)
Definition edit_event_with_builder (sz : nat) (d : doc) (index : nat) (change : event_builder -> event_builder) : outcome str :=
  sc <- parse (text d) ;;
  match nth_error (events_of sc) index with
  | None => Done (d, None)
  | Some e =>
    let b := change (event_builder_of (kind_of e) (calls_of e)) in
    match (match events_format (text d) with Some f => build_event_format b f | None => Some (build_event b) end) with
    | None => Done (d, None)
    | Some l => match locate (event_pattern e) (text d) with None => Done (d, None) | Some p => put_line sz d p l end
    end
  end.

(* ass_api.rs:106-115 edit_event_text *)
Definition edit_event_text (sz : nat) (d : doc) (old new : str) : out unit :=
  match find_str old (text d) with
  | Some (a, _) => doc_replace sz d (range_new (blen a) (blen a + blen old)) new
  | None => OOk d tt
  end.
(* ass_api.rs:134-151 set_script_info_field *)
Definition set_info_field (sz : nat) (d : doc) (key value : str) : out unit :=
  match locate (key ++ lit ":") (text d) with
  | Some (s, e) => doc_replace sz d (range_new s e) (key ++ lit ": " ++ value)
  | None => OOk d tt
  end.

(* section_lines.rs:19-20: after the format line that follows b, which starts
   at byte n; unwrap_or(0) where there is none *)
Definition after_format (n : nat) (b : str) : nat :=
  let (a, c) := match find_str (lit "Format:") b with Some (a, c) => (a, c) | None => ([], b) end in
  n + blen a + match find_char is_nl c with Some (l, _) => blen l | None => 0 end + 1.
Definition events_section (line : str) : str :=
  [10%N] ++ lit "[Events]" ++ [10%N] ++ lit "Format: Layer, Start, End, Style, Name, MarginL, MarginR, MarginV, Effect, Text" ++ [10%N] ++ line ++ [10%N].
(* section_lines.rs:15-30 add_event_line *)
Definition add_event_line (sz : nat) (d : doc) (line : str) : out unit :=
  match find_str (lit "[Events]") (text d) with
  | Some (a, b) => doc_insert sz d (after_format (blen a) b) (line ++ [10%N])
  | None => doc_insert sz d (blen (text d)) (events_section line)
  end.
Definition styles_section (line : str) : str :=
  [10%N] ++ lit "[V4+ Styles]" ++ [10%N] ++
  lit "Format: Name, Fontname, Fontsize, PrimaryColour, SecondaryColour, OutlineColour, BackColour, Bold, Italic, Underline, StrikeOut, ScaleX, ScaleY, Spacing, Angle, BorderStyle, Outline, Shadow, Alignment, MarginL, MarginR, MarginV, Encoding" ++
  [10%N] ++ line ++ [10%N].
(* section_lines.rs:49-67 add_style_line *)
Definition add_style_line (sz : nat) (d : doc) (line : str) : out unit :=
  match (match find_str (lit "[V4+ Styles]") (text d) with Some p => Some p | None => find_str (lit "[V4 Styles]") (text d) end) with
  | Some (a, b) => doc_insert sz d (after_format (blen a) b) (line ++ [10%N])
  | None =>
    let at_ := match find_str (10%N :: lit "[Events]") (text d) with Some (a, _) => blen a | None => blen (text d) end in
    doc_insert sz d at_ (styles_section line)
  end.
(* section_lines.rs:33-46 edit_style_line *)
Definition edit_style_line (sz : nat) (d : doc) (name line : str) : out unit :=
  match locate (lit "Style: " ++ name ++ lit ",") (text d) with
  | Some (s, e) => doc_replace sz d (range_new s e) line
  | None => add_style_line sz d line
  end.
