(* Model of the script parser of ass-core:
   crates/ass-core/parser/position_tracker/tracker.rs,
   crates/ass-core/parser/main/*.rs,
   crates/ass-core/parser/sections/{script_info,styles,events}/*.rs,
   crates/ass-core/parser/binary_data/*.rs.
   Paths below are relative to crates/ass-core/parser. *)
From Verif Require Import Base UuModel Utf8Model.

(* Outcome of a computation that may panic (Crash) or, in the model only, run
   out of fuel (Stuck); theorems exclude both. *)
Inductive run (A : Type) : Type := Done (a : A) | Crash | Stuck.
Arguments Done {A} a.
Arguments Crash {A}.
Arguments Stuck {A}.
Definition bind {A B} (r : run A) (f : A -> run B) : run B :=
  match r with Done a => f a | Crash => Crash | Stuck => Stuck end.
Notation "x <- e ;; f" := (bind e (fun x => f)) (at level 61, e at next level, right associativity).
Definition need {A} (o : option A) : run A := match o with Some a => Done a | None => Crash end.

(* ---- position_tracker/tracker.rs ---------------------------------------
   The field line_start is written but never read, and is dropped. *)
Record tracker := Tracker { toff : nat; tline : N; tcol : N }.

(* ast/span.rs:7-18 *)
Record span := Span { sp_start : nat; sp_end : nat; sp_line : N; sp_col : N }.

(* u32 += 1 *)
Definition bump (n : N) : run N := if (n =? u32_max)%N then Crash else Done (n + 1)%N.

(* tracker.rs:67-81  advance, one byte *)
Definition step_byte (b : option N) (t : tracker) : run tracker :=
  match b with
  | Some 10%N => l <- bump (tline t) ;; Done (Tracker (toff t + 1) l 1)
  | _ => c <- bump (tcol t) ;; Done (Tracker (toff t + 1) (tline t) c)
  end.
Fixpoint advance_loop (bs : list N) (k : nat) (t : tracker) : run tracker :=
  match k with
  | 0 => Done t
  | S k' => t' <- step_byte (nth_error bs (toff t)) t ;; advance_loop bs k' t'
  end.
Definition advance (src : str) (n : nat) (t : tracker) : run tracker :=
  advance_loop (as_bytes src) (Nat.min (toff t + n) (blen src) - toff t) t.

(* tracker.rs:91-99  skip_whitespace *)
Fixpoint skip_blanks_loop (fuel : nat) (src : str) (t : tracker) : run tracker :=
  match fuel with
  | 0 => Stuck
  | S f =>
    match nth_error (as_bytes src) (toff t) with
    | Some b => if (b =? 32)%N || (b =? 9)%N || (b =? 13)%N
                then t' <- advance src 1 t ;; skip_blanks_loop f src t'
                else Done t
    | None => Done t
    end
  end.
Definition skip_blanks (src : str) (t : tracker) : run tracker := skip_blanks_loop (S (blen src)) src t.

(* tracker.rs:102-109  skip_line *)
Fixpoint next_line_loop (fuel : nat) (src : str) (t : tracker) : run tracker :=
  match fuel with
  | 0 => Stuck
  | S f =>
    match nth_error (as_bytes src) (toff t) with
    | Some b => t' <- advance src 1 t ;;
                if (b =? 10)%N then Done t' else next_line_loop f src t'
    | None => Done t
    end
  end.
Definition next_line (src : str) (t : tracker) : run tracker := next_line_loop (S (blen src)) src t.

(* tracker.rs:113-115  remaining; 119-121 is_at_end *)
Definition remaining (src : str) (t : tracker) : run str := need (slice_from src (toff t)).
Definition at_end (src : str) (t : tracker) : bool := blen src <=? toff t.
(* tracker.rs:125-127 span_from, 131-133 span_for *)
Definition span_from (t start : tracker) : span := Span (toff start) (toff t) (tline start) (tcol start).
Definition span_for (t : tracker) (len : nat) : span := Span (toff t) (toff t + len) (tline t) (tcol t).

(* ---- issues -------------------------------------------------------------
   The message text is replaced by its kind and arguments; the category is a
   function of the kind and is dropped, like the column/span/suggestion, which
   these call sites leave at None (section.rs:118-126 sets column to 0). *)
Inductive severity := SevInfo | SevWarning | SevError.
Inductive message :=
  | MInputTooLarge | MBom
  | MExpectedHeader (line : N) | MUnclosedHeader (line : N) | MUnknownSection (name : str) (line : N)
  | MSuggest (text : str)
  | MPluginDone (name : str) | MPluginFailed (name : str)
  | MInfoLine
  | MEventFields (found expected : nat) | MStyleFields (found expected : nat).
Record issue := Issue { i_sev : severity; i_msg : message; i_line : N }.

(* ---- AST ---- *)
Inductive event_type := Dialogue | Comment | Picture | Sound | Movie | Command.
Record event := Event {
  e_type : event_type; e_layer : str; e_start : str; e_end : str; e_style : str; e_name : str;
  e_margin_l : str; e_margin_r : str; e_margin_v : str; e_margin_t : option str; e_margin_b : option str;
  e_effect : str; e_text : str; e_span : span }.
Record style := Style {
  s_name : str; s_parent : option str; s_fontname : str; s_fontsize : str;
  s_primary : str; s_secondary : str; s_outlinec : str; s_back : str;
  s_bold : str; s_italic : str; s_underline : str; s_strikeout : str;
  s_scale_x : str; s_scale_y : str; s_spacing : str; s_angle : str;
  s_border_style : str; s_outline : str; s_shadow : str; s_alignment : str;
  s_margin_l : str; s_margin_r : str; s_margin_v : str; s_margin_t : option str; s_margin_b : option str;
  s_encoding : str; s_relative_to : option str; s_span : span }.
(* ast/media: Font and Graphic have the same shape. *)
Record media := Media { m_name : str; m_lines : list str; m_span : span }.
Inductive section :=
  | SInfo (fields : list (str * str)) (sp : span)
  | SStyles (l : list style)
  | SEvents (l : list event)
  | SFonts (l : list media)
  | SGraphics (l : list media).
Inductive version := SsaV4 | AssV4 | AssV4Plus.

(* version.rs:72-79 *)
Definition version_from_header (h : str) : option version :=
  let t := trim h in
  if str_eqb t (lit "v4.00") then Some SsaV4
  else if str_eqb t (lit "v4.00+") then Some AssV4
  else if str_eqb t (lit "v4.00++") || str_eqb t (lit "v4.00+ extended") then Some AssV4Plus
  else None.

(* ---- fields of a line by format ---- *)
(* u8::to_ascii_lowercase, str::eq_ignore_ascii_case *)
Definition ascii_lower (c : char) : char := if is_upper c then (c + 32)%N else c.
Definition eq_nocase (a b : str) : bool := str_eqb (map ascii_lower a) (map ascii_lower b).

Definition is_comma (c : char) : bool := (c =? 44)%N.

(* Iterator::position *)
Fixpoint position {A} (p : A -> bool) (l : list A) : option nat :=
  match l with
  | [] => None
  | x :: r => if p x then Some 0 else option_map S (position p r)
  end.

(* event_data.rs:81-87, static_parser.rs:100-106, parse_internal.rs:78-84,
   parse_line.rs:90-96  get_field *)
Definition get_field (format parts : list str) (name : str) : str :=
  match position (fun f => eq_nocase f name) format with
  | Some i => match nth_error parts i with Some s => trim s | None => [] end
  | None => []
  end.
Definition has_field (format : list str) (name : str) : bool := existsb (fun f => eq_nocase f name) format.
(* .any(..).then(|| get_field(..)) *)
Definition opt_field (format parts : list str) (name : str) : option str :=
  if has_field format name then Some (get_field format parts name) else None.

Definition gf (format parts : list str) (name : string) : str := get_field format parts (lit name).
Definition og (format parts : list str) (name : string) : option str := opt_field format parts (lit name).

(* event_data.rs:48-51, static_parser.rs:70-73 *)
Definition default_events_format : list str :=
  map lit ["Layer"; "Start"; "End"; "Style"; "Name"; "MarginL"; "MarginR"; "MarginV"; "Effect"; "Text"]%string.
(* parse_internal.rs:36-60, parse_line.rs:53-77, parser.rs:98-122 *)
Definition default_styles_format : list str :=
  map lit ["Name"; "Fontname"; "Fontsize"; "PrimaryColour"; "SecondaryColour"; "OutlineColour"; "BackColour";
           "Bold"; "Italic"; "Underline"; "StrikeOut"; "ScaleX"; "ScaleY"; "Spacing"; "Angle"; "BorderStyle";
           "Outline"; "Shadow"; "Alignment"; "MarginL"; "MarginR"; "MarginV"; "Encoding"]%string.

(* event_data.rs:22-36, static_parser.rs:40-56  the type prefix *)
Definition event_prefix (line : str) : option (event_type * str) :=
  match strip_prefix (lit "Dialogue:") line with Some d => Some (Dialogue, d) | None =>
  match strip_prefix (lit "Comment:") line with Some d => Some (Comment, d) | None =>
  match strip_prefix (lit "Picture:") line with Some d => Some (Picture, d) | None =>
  match strip_prefix (lit "Sound:") line with Some d => Some (Sound, d) | None =>
  match strip_prefix (lit "Movie:") line with Some d => Some (Movie, d) | None =>
  match strip_prefix (lit "Command:") line with Some d => Some (Command, d) | None => None
  end end end end end end.

(* event_data.rs:54-65, static_parser.rs:79-90 *)
Definition event_parts (format : list str) (data : str) : list str :=
  if has_field format (lit "Text") then splitn (List.length format) is_comma data
  else splitn 10 is_comma data.

(* event_data.rs:97-118, static_parser.rs:111-132 *)
Definition mk_event (ty : event_type) (format parts : list str) (sp : span) : event :=
  Event ty (gf format parts "Layer") (gf format parts "Start") (gf format parts "End") (gf format parts "Style") (gf format parts "Name") (gf format parts "MarginL") (gf format parts "MarginR") (gf format parts "MarginV")
        (og format parts "MarginT") (og format parts "MarginB") (gf format parts "Effect") (gf format parts "Text") sp.

(* static_parser.rs:34-133  EventsParser::parse_event_line *)
Definition parse_event_line (line : str) (format : list str) (line_number : N) : res event :=
  match event_prefix line with
  | None => Err
  | Some (ty, d) =>
    let fmt := match format with [] => default_events_format | _ => format end in
    let parts := event_parts fmt (trim d) in
    if List.length parts <? List.length fmt then Err
    else Ok (mk_event ty fmt parts (Span 0 0 line_number 1))
  end.

(* parse_internal.rs:22-32, parse_line.rs:38-48  the "*Parent," prefix *)
Definition style_parent (line : str) : str * option str :=
  if starts_with (lit "*") (trim_start line) then
    match find_char is_comma line with
    | Some (a, _ :: b) => (b, Some (trim (drop_while (fun c => (c =? 42)%N) (trim_start a))))
    | _ => (line, None)
    end
  else (line, None).

(* parse_internal.rs:90-128, parse_line.rs:101-139 *)
Definition mk_style (parent : option str) (format parts : list str) (sp : span) : style :=
  Style (gf format parts "Name") parent (gf format parts "Fontname") (gf format parts "Fontsize") (gf format parts "PrimaryColour") (gf format parts "SecondaryColour")
        (gf format parts "OutlineColour") (gf format parts "BackColour") (gf format parts "Bold") (gf format parts "Italic") (gf format parts "Underline") (gf format parts "StrikeOut")
        (gf format parts "ScaleX") (gf format parts "ScaleY") (gf format parts "Spacing") (gf format parts "Angle") (gf format parts "BorderStyle") (gf format parts "Outline") (gf format parts "Shadow")
        (gf format parts "Alignment") (gf format parts "MarginL") (gf format parts "MarginR") (gf format parts "MarginV") (og format parts "MarginT") (og format parts "MarginB")
        (gf format parts "Encoding") (og format parts "RelativeTo") sp.

(* parse_line.rs:32-140  StylesParser::parse_style_line *)
Definition parse_style_line (line : str) (format : list str) (line_number : N) : res style :=
  let (adjusted, parent) := style_parent line in
  let parts := split_on is_comma adjusted in
  let fmt := match format with [] => default_styles_format | _ => format end in
  if List.length parts <? List.length fmt then Err
  else Ok (mk_style parent fmt parts (Span 0 0 line_number 1)).

(* ---- the line loop shared by the three text sections --------------------
   script_info/parser.rs:76-112, styles/parser.rs:66-94, events/parser.rs:68-90
   have the same shape; [process] is the body between the test for an empty
   line and the final skip_line. *)

(* script_info/parser.rs:134-136 and the same in the other parsers *)
Definition next_section (src : str) (t : tracker) : run bool :=
  r <- remaining src t ;; Done (starts_with (lit "[") (trim_start r)).
(* script_info/parser.rs:127-131 and the same in the other parsers *)
Definition this_line (src : str) (t : tracker) : run str :=
  r <- remaining src t ;; Done (current_line r).

(* script_info/parser.rs:139-161, styles/parser.rs:157-179, events/parser.rs:123-145 with
   comments ; and #; binary_parser.rs:133-155 with ; and !: *)
Fixpoint skip_ws_loop (fuel : nat) (comment : str -> bool) (src : str) (t : tracker) : run tracker :=
  match fuel with
  | 0 => Stuck
  | S f =>
    t1 <- skip_blanks src t ;;
    r <- remaining src t1 ;;
    match r with
    | [] => Done t1
    | c :: _ =>
      if comment r then t2 <- next_line src t1 ;; skip_ws_loop f comment src t2
      else if is_nl c then t2 <- advance src 1 t1 ;; skip_ws_loop f comment src t2
      else Done t1
    end
  end.
Definition skip_ws (comment : str -> bool) (src : str) (t : tracker) : run tracker :=
  skip_ws_loop (S (blen src)) comment src t.
Definition text_comment (r : str) : bool := starts_with (lit ";") r || starts_with (lit "#") r.
Definition binary_comment (r : str) : bool := starts_with (lit ";") r || starts_with (lit "!:") r.

Fixpoint lines_loop {S : Type} (fuel : nat) (process : S -> tracker -> str -> str -> S) (src : str)
  (t : tracker) (st : S) : run (tracker * S) :=
  match fuel with
  | 0 => Stuck
  | Datatypes.S f =>
    if at_end src t then Done (t, st) else
    ns <- next_section src t ;;
    if (ns : bool) then Done (t, st) else
    t1 <- skip_ws text_comment src t ;;
    if at_end src t1 then Done (t1, st) else
    ns1 <- next_section src t1 ;;
    if (ns1 : bool) then Done (t1, st) else
    full <- this_line src t1 ;;
    let line := trim full in
    t2 <- next_line src t1 ;;
    match line with
    | [] => lines_loop f process src t2 st
    | _ => lines_loop f process src t2 (process st t1 line full)
    end
  end.

(* u32::try_from(start_line).unwrap_or(u32::MAX) *)
Definition to_u32 (n : N) : N := if (u32_max <? n)%N then u32_max else n.
Definition new_at (pos : nat) (line : N) : tracker := Tracker pos (to_u32 line) 1.

(* script_info/parser.rs:91-109 *)
Definition is_colon (c : char) : bool := (c =? 58)%N.
Record info_state := InfoState { is_fields : list (str * str); is_version : option version; is_issues : list issue }.
Definition info_line (st : info_state) (t : tracker) (line full : str) : info_state :=
  match find_char is_colon line with
  | Some (k, _ :: v) =>
    let key := trim k in
    let value := trim v in
    let ver := if str_eqb key (lit "ScriptType") then
                 match version_from_header value with Some x => Some x | None => is_version st end
               else is_version st in
    InfoState (is_fields st ++ [(key, value)]) ver (is_issues st)
  | _ => InfoState (is_fields st) (is_version st) (is_issues st ++ [Issue SevWarning MInfoLine (tline t)])
  end.
(* script_info/parser.rs:71-124 *)
Definition parse_info (src : str) (pos : nat) (line : N) : run (section * option version * list issue * nat * N) :=
  let t0 := new_at pos line in
  ts <- lines_loop (S (blen src)) info_line src t0 (InfoState [] None []) ;;
  let (t, st) := (ts : tracker * info_state) in
  Done (SInfo (is_fields st) (span_from t t0), is_version st, is_issues st, toff t, tline t).

(* "Format:" line: events/parser.rs:102-107, styles/parser.rs:137-142 *)
Definition format_fields (data : str) : list str := map trim (split_on is_comma data).

(* styles/parser.rs:81-91 with parse_internal.rs:16-129 *)
Record style_state := StyleState { ss_styles : list style; ss_format : option (list str); ss_issues : list issue }.
Definition style_line (st : style_state) (t : tracker) (line full : str) : style_state :=
  match strip_prefix (lit "Format:") line with
  | Some d => StyleState (ss_styles st) (Some (format_fields d)) (ss_issues st)
  | None =>
    match strip_prefix (lit "Style:") line with
    | None => st
    | Some d =>
      let (adjusted, parent) := style_parent (trim d) in
      let parts := split_on is_comma adjusted in
      let fmt := match ss_format st with Some f => f | None => default_styles_format end in
      let iss := if List.length parts =? List.length fmt then ss_issues st
                 else ss_issues st ++ [Issue SevWarning (MStyleFields (List.length parts) (List.length fmt)) (tline t)] in
      if List.length parts <? List.length fmt then StyleState (ss_styles st) (ss_format st) iss
      else StyleState (ss_styles st ++ [mk_style parent fmt parts (span_for t (blen full))]) (ss_format st) iss
    end
  end.
(* styles/parser.rs:63-134 *)
Definition parse_styles (src : str) (pos : nat) (line : N) (format : option (list str))
  : run (section * option (list str) * list issue * nat * N) :=
  ts <- lines_loop (S (blen src)) style_line src (new_at pos line) (StyleState [] format []) ;;
  let (t, st) := (ts : tracker * style_state) in
  let fmt := match ss_format st, ss_styles st with
             | None, _ :: _ => Some default_styles_format
             | f, _ => f
             end in
  Done (SStyles (ss_styles st), fmt, ss_issues st, toff t, tline t).

(* events/parser.rs:83-87 with event_data.rs:17-119 *)
Record event_state := EventState { es_events : list event; es_format : option (list str); es_issues : list issue }.
Definition event_line (st : event_state) (t : tracker) (line full : str) : event_state :=
  match strip_prefix (lit "Format:") line with
  | Some d => EventState (es_events st) (Some (format_fields d)) (es_issues st)
  | None =>
    match event_prefix line with
    | None => st
    | Some (ty, d) =>
      let fmt := match es_format st with Some f => f | None => default_events_format end in
      let parts := event_parts fmt (trim d) in
      if List.length parts <? List.length fmt then
        EventState (es_events st) (es_format st)
          (es_issues st ++ [Issue SevWarning (MEventFields (List.length parts) (List.length fmt)) (tline t)])
      else EventState (es_events st ++ [mk_event ty fmt parts (span_for t (blen full))]) (es_format st) (es_issues st)
    end
  end.
(* events/parser.rs:65-99 *)
Definition parse_events (src : str) (pos : nat) (line : N) (format : option (list str))
  : run (section * option (list str) * list issue * nat * N) :=
  ts <- lines_loop (S (blen src)) event_line src (new_at pos line) (EventState [] format []) ;;
  let (t, st) := (ts : tracker * event_state) in
  Done (SEvents (es_events st), es_format st, es_issues st, toff t, tline t).

(* ---- binary_data/binary_parser.rs, with positions ----
   (UuModel has the same functions on the remaining text only.) *)
(* binary_parser.rs:90-118 *)
Fixpoint data_lines_loop (fuel : nat) (src : str) (t : tracker) (acc : list str) : run (tracker * list str) :=
  match fuel with
  | 0 => Stuck
  | S f =>
    if at_end src t then Done (t, acc) else
    ns <- next_section src t ;;
    if (ns : bool) then Done (t, acc) else
    l <- this_line src t ;;
    let s := trim l in
    if match s with [] => true | _ => false end || starts_with (lit "[") s then Done (t, acc)
    else if starts_with (lit ";") s || starts_with (lit "!") s then
      t' <- next_line src t ;; data_lines_loop f src t' acc
    else if starts_with (lit "# ") s || str_eqb s (lit "#") then Done (t, acc)
    else t' <- next_line src t ;; data_lines_loop f src t' (acc ++ [l])
  end.
(* binary_parser.rs:65-87 *)
Definition media_entry (key : str) (src : str) (t : tracker) : run (tracker * option media) :=
  line <- this_line src t ;;
  let plain := t' <- next_line src t ;; Done (t', None) in
  match find_char is_colon line with
  | Some (k, _ :: v) =>
    if str_eqb (trim k) key then
      t1 <- next_line src t ;;
      tl <- data_lines_loop (S (blen src)) src t1 [] ;;
      let (t2, ls) := (tl : tracker * list str) in
      Done (t2, Some (Media (trim v) ls (span_from t2 t)))
    else plain
  | _ => plain
  end.
(* binary_parser.rs:44-62 *)
Fixpoint media_loop (fuel : nat) (key : str) (src : str) (t : tracker) (acc : list media) : run (tracker * list media) :=
  match fuel with
  | 0 => Stuck
  | S f =>
    if at_end src t then Done (t, acc) else
    ns <- next_section src t ;;
    if (ns : bool) then Done (t, acc) else
    t1 <- skip_ws binary_comment src t ;;
    if at_end src t1 then Done (t1, acc) else
    ns1 <- next_section src t1 ;;
    if (ns1 : bool) then Done (t1, acc) else
    te <- media_entry key src t1 ;;
    let (t2, e) := (te : tracker * option media) in
    media_loop f key src t2 (match e with Some m => acc ++ [m] | None => acc end)
  end.
(* section_parsers.rs:16-30, 40-54 *)
Definition parse_media (key : str) (src : str) (pos : nat) (line : N) : run (list media * nat * N) :=
  tm <- media_loop (S (blen src)) key src (new_at pos line) [] ;;
  let (t, ms) := (tm : tracker * list media) in
  Done (ms, toff t, tline t).

(* ---- main/ ---- *)
(* main/state.rs:17-37.  usize line counts are not bounded in the model. *)
Record parser := Parser {
  p_pos : nat; p_line : N; p_version : version; p_sections : list section; p_issues : list issue;
  p_styles_format : option (list str); p_events_format : option (list str) }.
Definition with_pos (p : parser) (pos : nat) (line : N) : parser :=
  Parser pos line (p_version p) (p_sections p) (p_issues p) (p_styles_format p) (p_events_format p).
Definition add_issues (p : parser) (l : list issue) : parser :=
  Parser (p_pos p) (p_line p) (p_version p) (p_sections p) (p_issues p ++ l) (p_styles_format p) (p_events_format p).
Definition add_section (p : parser) (s : section) : parser :=
  Parser (p_pos p) (p_line p) (p_version p) (p_sections p ++ [s]) (p_issues p) (p_styles_format p) (p_events_format p).
Definition set_version (p : parser) (v : option version) : parser :=
  match v with
  | Some v => Parser (p_pos p) (p_line p) v (p_sections p) (p_issues p) (p_styles_format p) (p_events_format p)
  | None => p
  end.
Definition set_styles_format (p : parser) (f : option (list str)) : parser :=
  Parser (p_pos p) (p_line p) (p_version p) (p_sections p) (p_issues p) f (p_events_format p).
Definition set_events_format (p : parser) (f : option (list str)) : parser :=
  Parser (p_pos p) (p_line p) (p_version p) (p_sections p) (p_issues p) (p_styles_format p) f.

Definition is_rbracket (c : char) : bool := (c =? 93)%N.

(* helpers.rs:12-23 at_next_section *)
Definition main_next_section (src : str) (p : parser) : run bool :=
  r <- need (slice_from src (p_pos p)) ;;
  let r := trim_start r in
  if starts_with (lit "[") r then Done (existsb is_rbracket (current_line r)) else Done false.

(* helpers.rs:26-33 skip_line *)
Definition main_skip_line (src : str) (p : parser) : run parser :=
  r <- need (slice_from src (p_pos p)) ;;
  match find_char is_nl r with
  | Some (a, _) => Done (with_pos p (p_pos p + (blen a + 1)) (p_line p + 1))
  | None => Done (with_pos p (blen src) (p_line p))
  end.

(* helpers.rs:36-49 skip_whitespace_and_comments.  [trimmed != remaining]
   compares contents; a trimmed suffix is equal iff nothing was trimmed. *)
Fixpoint main_skip_ws (fuel : nat) (src : str) (p : parser) : run parser :=
  match fuel with
  | 0 => Stuck
  | S f =>
    if p_pos p <? blen src then
      r <- need (slice_from src (p_pos p)) ;;
      let tr := trim_start r in
      if starts_with (lit ";") tr || starts_with (lit "!:") tr then
        p' <- main_skip_line src p ;; main_skip_ws f src p'
      else if negb (str_eqb tr r) then main_skip_ws f src (with_pos p (p_pos p + (blen r - blen tr)) (p_line p))
      else Done p
    else Done p
  end.

(* str::contains *)
Definition contains (pat s : str) : bool := match find_str pat s with Some _ => true | None => false end.

(* helpers.rs:72-90  the suggestion for one line; rest = &source[position..] *)
Definition suggest (line rest : str) : option str :=
  let l := trim_start line in
  if starts_with (lit "Style:") l then Some (lit "Did you mean '[V4+ Styles]'?")
  else if starts_with (lit "Dialogue:") l || starts_with (lit "Comment:") l then Some (lit "Did you mean '[Events]'?")
  else if starts_with (lit "Title:") l || starts_with (lit "ScriptType:") l
  then Some (lit "Did you mean '[Script Info]'?")
  else if starts_with (lit "Format:") l then
    if contains (lit "Dialogue:") rest then Some (lit "Did you mean '[Events]'?")
    else if contains (lit "Style:") rest then Some (lit "Did you mean '[V4+ Styles]'?")
    else None
  else None.

(* helpers.rs:52-104 skip_to_next_section *)
Fixpoint skip_to_section (fuel : nat) (src : str) (start : nat) (p : parser) (sg : option str)
  : run (parser * option str) :=
  match fuel with
  | 0 => Stuck
  | S f =>
    if p_pos p <? blen src then
      ns <- main_next_section src p ;;
      if (ns : bool) then Done (p, sg) else
      rest <- need (slice_from src (p_pos p)) ;;
      let line_end := match find_char is_nl rest with Some (a, _) => p_pos p + blen a | None => blen src end in
      sg' <- (if p_pos p <? line_end then
                line <- need (slice src (p_pos p) line_end) ;;
                Done (match sg with Some _ => sg | None => suggest line rest end)
              else Done sg) ;;
      p' <- main_skip_line src p ;;
      if p_pos p' =? start then Done (with_pos p' (Nat.min (p_pos p' + 1) (blen src)) (p_line p'), sg')
      else skip_to_section f src start p' sg'
    else Done (p, sg)
  end.

(* plugin::SectionResult, and a registry as the function it computes on a
   section name and its lines (registry.process_section). *)
Inductive plugin_result := PluginProcessed | PluginFailed | PluginIgnored.
Definition registry := str -> list str -> option plugin_result.

(* registry.rs:34-46 *)
Fixpoint plugin_lines (fuel : nat) (src : str) (p : parser) (acc : list str) : run (parser * list str) :=
  match fuel with
  | 0 => Stuck
  | S f =>
    if p_pos p <? blen src then
      ns <- main_next_section src p ;;
      if (ns : bool) then Done (p, acc) else
      rest <- need (slice_from src (p_pos p)) ;;
      let line_end := match find_char is_nl rest with Some (a, _) => p_pos p + blen a | None => blen src end in
      acc' <- (if p_pos p <? line_end then
                 line <- need (slice src (p_pos p) line_end) ;; Done (acc ++ [line])
               else Done acc) ;;
      p' <- main_skip_line src p ;;
      plugin_lines f src p' acc'
    else Done (p, acc)
  end.
(* registry.rs:24-76: always returns None, so the caller goes on. *)
Definition try_plugin (reg : option registry) (src : str) (name : str) (line : N) (p : parser) : run parser :=
  match reg with
  | None => Done p
  | Some g =>
    pl <- plugin_lines (S (blen src)) src p [] ;;
    let (p', ls) := (pl : parser * list str) in
    Done (match g name ls with
          | Some PluginProcessed => add_issues p' [Issue SevInfo (MPluginDone name) line]
          | Some PluginFailed => add_issues p' [Issue SevWarning (MPluginFailed name) line]
          | _ => p'
          end)
  end.

Definition is_style_header (n : str) : bool :=
  str_eqb n (lit "V4+ Styles") || str_eqb n (lit "V4 Styles") || str_eqb n (lit "V4++ Styles").

(* section.rs:22-132 parse_section: the parser after it, and the section or
   the error. *)
Definition parse_section (reg : option registry) (src : str) (p : parser) : run (parser * (section + message)) :=
  r <- need (slice_from src (p_pos p)) ;;
  if negb (starts_with (lit "[") r) then Done (p, inr (MExpectedHeader (p_line p))) else
  match find_char is_rbracket r with
  | None => Done (p, inr (MUnclosedHeader (p_line p)))
  | Some (a, _) =>
    let header_end := blen a + p_pos p in
    name <- need (slice src (p_pos p + 1) header_end) ;;
    p1 <- main_skip_line src (with_pos p (header_end + 1) (p_line p)) ;;
    let start_line := p_line p1 in
    let n := trim name in
    if str_eqb n (lit "Script Info") then
      x <- parse_info src (p_pos p1) start_line ;;
      let '(s, v, iss, pos, line) := (x : section * option version * list issue * nat * N) in
      Done (with_pos (add_issues (set_version p1 v) iss) pos line, inl s)
    else if is_style_header n then
      x <- parse_styles src (p_pos p1) start_line None ;;
      let '(s, f, iss, pos, line) := (x : section * option (list str) * list issue * nat * N) in
      Done (with_pos (add_issues (set_styles_format p1 f) iss) pos line, inl s)
    else if str_eqb n (lit "Events") then
      x <- parse_events src (p_pos p1) start_line None ;;
      let '(s, f, iss, pos, line) := (x : section * option (list str) * list issue * nat * N) in
      Done (with_pos (add_issues (set_events_format p1 f) iss) pos line, inl s)
    else if str_eqb n (lit "Fonts") then
      x <- parse_media (lit "fontname") src (p_pos p1) start_line ;;
      let '(ms, pos, line) := (x : list media * nat * N) in
      Done (with_pos p1 pos line, inl (SFonts ms))
    else if str_eqb n (lit "Graphics") then
      x <- parse_media (lit "filename") src (p_pos p1) start_line ;;
      let '(ms, pos, line) := (x : list media * nat * N) in
      Done (with_pos p1 pos line, inl (SGraphics ms))
    else
      p2 <- try_plugin reg src name start_line p1 ;;
      ps <- skip_to_section (S (blen src)) src (p_pos p2) p2 None ;;
      let (p3, sg) := (ps : parser * option str) in
      let err := MUnknownSection name (p_line p3) in
      let p4 := match sg with
                | Some tx => add_issues p3 [Issue SevInfo (MSuggest tx) (p_line p3)]
                | None => p3
                end in
      Done (p4, inr err)
  end.

(* parse.rs:64-71: the displayed error contains "Unknown section" exactly for
   UnknownSection (parse_error/formatting.rs:12-50). *)
Definition error_severity (m : message) : severity :=
  match m with MUnknownSection _ _ => SevWarning | _ => SevError end.

(* parse.rs:54-83 *)
Fixpoint parse_loop (fuel : nat) (reg : option registry) (src : str) (p : parser) : run parser :=
  match fuel with
  | 0 => Stuck
  | S f =>
    if p_pos p <? blen src then
      p1 <- main_skip_ws (S (S (blen src))) src p ;;
      if blen src <=? p_pos p1 then Done p1 else
      x <- parse_section reg src p1 ;;
      match x : parser * (section + message) with
      | (p2, inl s) => parse_loop f reg src (add_section p2 s)
      | (p2, inr m) =>
        let p3 := add_issues p2 [Issue (error_severity m) m (p_line p2)] in
        ps <- skip_to_section (S (blen src)) src (p_pos p3) p3 None ;;
        let (p4, _) := (ps : parser * option str) in
        parse_loop f reg src p4
      end
    else Done p
  end.

(* script/container.rs:21-50; the source and the (empty) change tracker are
   left out. *)
Record script := Script {
  sc_version : version; sc_sections : list section; sc_issues : list issue;
  sc_styles_format : option (list str); sc_events_format : option (list str) }.
Definition finish (p : parser) : script :=
  Script (p_version p) (p_sections p) (p_issues p) (p_styles_format p) (p_events_format p).
Definition new_parser : parser := Parser 0 1 AssV4 [] [] None None.
Definition max_input_size : N := 52428800.

(* parse.rs:18-93 *)
Definition parse_with (reg : option registry) (src : str) : run script :=
  let p := new_parser in
  if (max_input_size <? N.of_nat (blen src))%N then
    Done (finish (add_issues p [Issue SevError MInputTooLarge (p_line p)]))
  else
    let p1 := match validate_bom_handling (as_bytes src) with
              | Some _ => add_issues p [Issue SevWarning MBom (p_line p)]
              | None => p
              end in
    let p2 := match src with
              | c :: _ => if (c =? 65279)%N then with_pos p1 3 (p_line p1) else p1
              | [] => p1
              end in
    p3 <- parse_loop (S (blen src)) reg src p2 ;;
    Done (finish p3).
(* script/parse.rs:39-42 Script::parse *)
Definition parse (src : str) : run script := parse_with None src.

(* sections/mod.rs:74-109 parse_section_with_context: the section, or an error
   (a missing format, or a section type without a partial parser). *)
Inductive section_type := TInfo | TStyles | TEvents | TFonts | TGraphics.
Definition parse_with_context (ty : section_type) (text : str) (line : N)
  (styles_format events_format : option (list str)) : run (option section) :=
  match ty with
  | TInfo => x <- parse_info text 0 line ;;
             let '(s, _, _, _, _) := (x : section * option version * list issue * nat * N) in Done (Some s)
  | TStyles =>
    match styles_format with
    | None => Done None
    | Some f => x <- parse_styles text 0 line (Some f) ;;
                let '(s, _, _, _, _) := (x : section * option (list str) * list issue * nat * N) in Done (Some s)
    end
  | TEvents =>
    match events_format with
    | None => Done None
    | Some f => x <- parse_events text 0 line (Some f) ;;
                let '(s, _, _, _, _) := (x : section * option (list str) * list issue * nat * N) in Done (Some s)
    end
  | TFonts | TGraphics => Done None
  end.

(* ---- serialisation ---- *)
(* event_type.rs:64-73 *)
Definition event_type_str (t : event_type) : str :=
  match t with
  | Dialogue => lit "Dialogue" | Comment => lit "Comment" | Picture => lit "Picture"
  | Sound => lit "Sound" | Movie => lit "Movie" | Command => lit "Command"
  end.
(* ast/event/serialization.rs:40-58 *)
Definition event_to_string (e : event) : str :=
  event_type_str (e_type e) ++ lit ": " ++
  join (lit ",") [e_layer e; e_start e; e_end e; e_style e; e_name e; e_margin_l e; e_margin_r e; e_margin_v e;
                  e_effect e; e_text e].
Definition or_zero (o : option str) : str := match o with Some s => s | None => lit "0" end.
(* match on string literals: the first equal key *)
Fixpoint assoc_str (k : str) (l : list (string * str)) : str :=
  match l with
  | [] => []
  | (n, v) :: r => if str_eqb k (lit n) then v else assoc_str k r
  end.
(* ast/event/serialization.rs:92-106 *)
Definition event_value (e : event) (field : str) : str :=
  assoc_str field
    [("Layer", e_layer e); ("Start", e_start e); ("End", e_end e); ("Style", e_style e);
     ("Name", e_name e); ("Actor", e_name e); ("MarginL", e_margin_l e); ("MarginR", e_margin_r e);
     ("MarginV", e_margin_v e); ("MarginT", or_zero (e_margin_t e)); ("MarginB", or_zero (e_margin_b e));
     ("Effect", e_effect e); ("Text", e_text e)]%string.
(* ast/event/serialization.rs:87-111 *)
Definition event_to_string_with (e : event) (format : list str) : str :=
  event_type_str (e_type e) ++ lit ": " ++ join (lit ",") (map (event_value e) format).
(* ast/style/conversion.rs:36-65 *)
Definition style_to_string (s : style) : str :=
  lit "Style: " ++
  join (lit ",") [s_name s; s_fontname s; s_fontsize s; s_primary s; s_secondary s; s_outlinec s; s_back s;
                  s_bold s; s_italic s; s_underline s; s_strikeout s; s_scale_x s; s_scale_y s; s_spacing s; s_angle s;
                  s_border_style s; s_outline s; s_shadow s; s_alignment s; s_margin_l s; s_margin_r s; s_margin_v s;
                  s_encoding s].
(* ast/style/conversion.rs:97-125 *)
Definition style_value (s : style) (field : str) : str :=
  assoc_str field
    [("Name", s_name s); ("Fontname", s_fontname s); ("Fontsize", s_fontsize s); ("PrimaryColour", s_primary s);
     ("SecondaryColour", s_secondary s); ("OutlineColour", s_outlinec s); ("TertiaryColour", s_outlinec s);
     ("BackColour", s_back s); ("Bold", s_bold s); ("Italic", s_italic s); ("Underline", s_underline s);
     ("Strikeout", s_strikeout s); ("StrikeOut", s_strikeout s); ("ScaleX", s_scale_x s); ("ScaleY", s_scale_y s);
     ("Spacing", s_spacing s); ("Angle", s_angle s); ("BorderStyle", s_border_style s); ("Outline", s_outline s);
     ("Shadow", s_shadow s); ("Alignment", s_alignment s); ("MarginL", s_margin_l s); ("MarginR", s_margin_r s);
     ("MarginV", s_margin_v s); ("MarginT", or_zero (s_margin_t s)); ("MarginB", or_zero (s_margin_b s));
     ("Encoding", s_encoding s); ("RelativeTo", or_zero (s_relative_to s))]%string.
(* ast/style/conversion.rs:93-131 *)
Definition style_to_string_with (s : style) (format : list str) : str :=
  lit "Style: " ++ join (lit ",") (map (style_value s) format).
(* ast/script_info/info.rs:155-162 *)
Definition nl : str := [10%N].
Definition info_to_string (fields : list (str * str)) : str :=
  lit "[Script Info]" ++ nl ++ flat_map (fun kv : str * str => fst kv ++ lit ": " ++ snd kv ++ nl) fields.
(* ast/media/font.rs:94-101, graphic.rs: the same with "filename" *)
Definition media_to_string (key : str) (m : media) : str :=
  key ++ lit ": " ++ m_name m ++ nl ++ flat_map (fun l => l ++ nl) (m_lines m).
(* script/serialize.rs:38-94, one section *)
Definition section_to_string (sf ef : option (list str)) (s : section) : str :=
  match s with
  | SInfo fields _ => info_to_string fields
  | SStyles l =>
    lit "[V4+ Styles]" ++ nl ++
    (match sf with Some f => lit "Format: " ++ join (lit ", ") f ++ nl | None => [] end) ++
    flat_map (fun x => (match sf with Some f => style_to_string_with x f | None => style_to_string x end) ++ nl) l
  | SEvents l =>
    lit "[Events]" ++ nl ++
    (match ef with Some f => lit "Format: " ++ join (lit ", ") f ++ nl | None => [] end) ++
    flat_map (fun x => (match ef with Some f => event_to_string_with x f | None => event_to_string x end) ++ nl) l
  | SFonts l => lit "[Fonts]" ++ nl ++ flat_map (media_to_string (lit "fontname")) l
  | SGraphics l => lit "[Graphics]" ++ nl ++ flat_map (media_to_string (lit "filename")) l
  end.
(* script/serialize.rs:29-98 *)
Definition script_to_string (sc : script) : str :=
  join nl (map (section_to_string (sc_styles_format sc) (sc_events_format sc)) (sc_sections sc)).
