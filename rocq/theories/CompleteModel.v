(* Model of the built-in auto-completion: crates/ass-editor/extensions/builtin/
   auto_complete/{types,context,completions,tags,extension,editor_ext}.rs.
   str::to_lowercase, char::is_alphanumeric and the style names that parsing
   the document finds are arguments.  A document has fewer than 2^32 styles.
   None stands for a panic. *)
From Verif Require Import Base SortLib IncrModel.
From Verif Require SearchModel.

(* types.rs:12-29; the other kinds are never made *)
Inductive kind := Section_ | Field | StyleRef | Tag.
(* types.rs:33-46 *)
Record item := Item { it_insert : str; it_label : str; it_kind : kind; it_description : option str; it_detail : option str; it_order : N }.
(* types.rs:97-123; complete_values and min_chars are never read *)
Record config := Config { complete_fields : bool; complete_styles : bool; complete_tags : bool; max_suggestions : nat }.
Definition default_config : config := Config true true true 20.
(* types.rs:82-93 *)
Record context := Context { line : str; column : nat; section : option str; in_override_tag : bool; current_tag : option str }.

Definition header_of (l : str) : option str := if starts_with (lit "[") l && ends_with (lit "]") l then Some (removelast (tl l)) else None.
(* context.rs:34-40: the lines from the last one on *)
Fixpoint last_header (rev_lines : list str) : option str :=
  match rev_lines with [] => None | l :: r => match header_of l with Some n => Some n | None => last_header r end end.
(* context.rs:49-62; the text after the last open brace *)
Definition tag_of (alnum : char -> bool) (tag_text : str) : option str :=
  match rfind_str (lit "\") tag_text with Some (_, b) => Some (take_while alnum (tl b)) | None => None end.
(* context.rs:15-71 *)
Definition get_context (alnum : char -> bool) (content : str) (offset : nat) : option context :=
  match cut content offset with
  | None => None
  | Some (before, after) =>
    let line_start := match rfind_str [10%N] before with Some (a, _) => blen a + 1 | None => 0 end in
    let line_end := match find_char is_nl after with Some (a, _) => offset + blen a | None => blen content end in
    match slice content line_start line_end, slice_to content line_start with
    | Some line, Some above =>
      let column := offset - line_start in
      match slice_to line (Nat.min column (blen line)) with
      | None => None
      | Some before_cursor =>
        let open := rfind_str (lit "{") before_cursor in
        let inside := match open with Some (_, b) => match find_char (fun c => (c =? 125)%N) b with Some _ => false | None => true end | None => false end in
        Some (Context line column (last_header (rev (lines above))) inside
          (if inside then match open with Some (_, b) => tag_of alnum (tl b) | None => None end else None))
      end
    | _, _ => None
    end
  end.
(* context.rs:74-89 *)
Definition should_complete_style (c : context) : option bool :=
  match section c with
  | Some s =>
    if str_eqb s (lit "Events") then
      let l := trim_start (line c) in
      if starts_with (lit "Dialogue:") l || starts_with (lit "Comment:") l then
        option_map (fun b => List.length (filter (fun x => (x =? 44)%N) b) =? 3) (slice_to (line c) (column c))
      else Some false
    else Some false
  | None => Some false
  end.

(* completions.rs:18-25 *)
Definition section_table : list (string * string) := [
    ("[Script Info]", "Script metadata and properties");
    ("[V4+ Styles]", "Style definitions for V4+ format");
    ("[V4 Styles]", "Style definitions for V4 format");
    ("[Events]", "Dialogue and comment events");
    ("[Fonts]", "Embedded font data");
    ("[Graphics]", "Embedded graphics data")]%string.
(* completions.rs:57-94 *)
Definition field_table (s : str) : list (string * string) :=
  if str_eqb s (lit "Script Info") then [
    ("Title:", "Script title");
    ("Original Script:", "Original author");
    ("Original Translation:", "Original translator");
    ("Original Editing:", "Original editor");
    ("Original Timing:", "Original timer");
    ("Synch Point:", "Synchronization point");
    ("Script Updated By:", "Last editor");
    ("Update Details:", "Update description");
    ("ScriptType:", "Script type (usually v4.00+)");
    ("Collisions:", "Collision handling (Normal/Reverse)");
    ("PlayResX:", "Playback X resolution");
    ("PlayResY:", "Playback Y resolution");
    ("PlayDepth:", "Color depth");
    ("Timer:", "Timer speed percentage");
    ("WrapStyle:", "Line wrapping style (0-3)");
    ("ScaledBorderAndShadow:", "Scale borders with video (yes/no)");
    ("YCbCr Matrix:", "Color matrix")]%string
  else if str_eqb s (lit "V4+ Styles") || str_eqb s (lit "V4 Styles") then [
    ("Format:", "Column format definition");
    ("Style:", "Style definition")]%string
  else if str_eqb s (lit "Events") then [
    ("Format:", "Column format definition");
    ("Dialogue:", "Dialogue event");
    ("Comment:", "Comment event");
    ("Picture:", "Picture event");
    ("Sound:", "Sound event");
    ("Movie:", "Movie event");
    ("Command:", "Command event")]%string
  else [].
(* tags.rs:15-62 *)
Definition tag_table : list (string * string * string) := [
    ("\b", "Bold (0/1 or weight)", "\b1");
    ("\i", "Italic (0/1)", "\i1");
    ("\u", "Underline (0/1)", "\u1");
    ("\s", "Strikeout (0/1)", "\s1");
    ("\bord", "Border width", "\bord2");
    ("\shad", "Shadow distance", "\shad2");
    ("\be", "Blur edges", "\be1");
    ("\fn", "Font name", "\fnArial");
    ("\fs", "Font size", "\fs20");
    ("\fscx", "Font X scale %", "\fscx100");
    ("\fscy", "Font Y scale %", "\fscy100");
    ("\fsp", "Font spacing", "\fsp0");
    ("\frx", "X rotation", "\frx0");
    ("\fry", "Y rotation", "\fry0");
    ("\frz", "Z rotation", "\frz0");
    ("\fr", "Z rotation (legacy)", "\fr0");
    ("\fax", "X shear", "\fax0");
    ("\fay", "Y shear", "\fay0");
    ("\c", "Primary color", "\c&H0000FF&");
    ("\1c", "Primary color", "\1c&H0000FF&");
    ("\2c", "Secondary color", "\2c&H00FF00&");
    ("\3c", "Outline color", "\3c&HFF0000&");
    ("\4c", "Shadow color", "\4c&H000000&");
    ("\alpha", "Overall alpha", "\alpha&H00&");
    ("\1a", "Primary alpha", "\1a&H00&");
    ("\2a", "Secondary alpha", "\2a&H00&");
    ("\3a", "Outline alpha", "\3a&H00&");
    ("\4a", "Shadow alpha", "\4a&H00&");
    ("\an", "Alignment (numpad)", "\an5");
    ("\a", "Alignment (legacy)", "\a2");
    ("\k", "Karaoke duration", "\k100");
    ("\kf", "Karaoke fill", "\kf100");
    ("\ko", "Karaoke outline", "\ko100");
    ("\K", "Karaoke sweep", "\K100");
    ("\q", "Wrap style", "\q2");
    ("\r", "Reset to style", "\r");
    ("\pos", "Position", "\pos(640,360)");
    ("\move", "Movement", "\move(0,0,100,100)");
    ("\org", "Rotation origin", "\org(640,360)");
    ("\fad", "Fade in/out", "\fad(200,200)");
    ("\fade", "Complex fade", "\fade(255,0,0,0,1000,2000,3000)");
    ("\t", "Animation", "\t(\fs30)");
    ("\clip", "Clipping rectangle", "\clip(0,0,100,100)");
    ("\iclip", "Inverse clip", "\iclip(0,0,100,100)");
    ("\p", "Drawing mode", "\p1");
    ("\pbo", "Baseline offset", "\pbo0")]%string.

(* what a suggestion is made of, before it is numbered *)
Definition entry := N -> item.
Definition pair_entry (k : kind) (p : string * string) : entry := fun i => Item (lit (fst p)) (lit (fst p)) k (Some (lit (snd p))) None i.
Definition tag_entry (p : string * string * string) : entry := fun i => let '(name, desc, example) := p in Item (lit example) (lit name) Tag (Some (lit desc)) (Some (lit example)) i.
Definition style_entry (name : str) : entry := fun i => Item name name StyleRef (Some (lit "Style reference")) None i.
Fixpoint number_from (i : nat) (l : list entry) : list item := match l with [] => [] | e :: r => e (N.of_nat i) :: number_from (S i) r end.

(* completions.rs:14-49 *)
Definition section_completions (lower : str -> str) (c : context) : option (list item) :=
  match (if starts_with (lit "[") (line c) then slice (line c) 1 (Nat.min (column c) (blen (line c))) else Some []) with
  | None => None
  | Some prefix =>
    Some (number_from 0 (map (pair_entry Section_) (filter (fun p => match prefix with [] => true | _ => starts_with (lower prefix) (lower (skipn 1 (lit (fst p)))) end) section_table)))
  end.
(* completions.rs:52-110 *)
Definition field_completions (lower : str -> str) (s : str) (c : context) : list item :=
  let prefix := trim_start (line c) in
  number_from 0 (map (pair_entry Field) (filter (fun p => match prefix with [] => true | _ => starts_with (lower prefix) (lower (lit (fst p))) end) (field_table s))).
(* tags.rs:14-90 *)
Definition tag_completions (c : context) : option (list item) :=
  match (match current_tag c with
         | Some t => Some t
         | None => option_map (fun b => match rfind_str (lit "\") b with Some (_, r) => tl r | None => [] end) (slice_to (line c) (column c))
         end) with
  | None => None
  | Some prefix =>
    Some (number_from 0 (map tag_entry (filter (fun p => match prefix with [] => true | _ => starts_with prefix (skipn 1 (lit (fst (fst p)))) end) tag_table)))
  end.
(* extension.rs:49-90; names: what update_style_names (93-107) read *)
Definition get_completions (alnum : char -> bool) (lower : str -> str) (cfg : config) (names : list str) (content : str) (offset : nat) : option (list item) :=
  match get_context alnum content offset with
  | None => None
  | Some c =>
    match (match line c with [] => section_completions lower c | _ => if starts_with (lit "[") (line c) then section_completions lower c else Some [] end),
          (if in_override_tag c && complete_tags cfg then tag_completions c else Some []), should_complete_style c with
    | Some sections, Some tags, Some style =>
      let fields := match section c with Some s => if negb (in_override_tag c) && complete_fields cfg then field_completions lower s c else [] | None => [] end in
      let styles := if style && complete_styles cfg then number_from 0 (map style_entry names) else [] in
      Some (firstn (max_suggestions cfg) (stable_sort (fun a b => (it_order a <=? it_order b)%N) (sections ++ fields ++ tags ++ styles)))
    | _, _, _ => None
    end
  end.
(* editor_ext.rs:72-102: the text of the first ten *)
Definition trigger (alnum : char -> bool) (lower : str -> str) (cfg : config) (names : str -> list str) (document : option str) (position : option str) : option (option (nat * list str)) :=
  match document with
  | None => Some None
  | Some content =>
    let offset := match position with Some p => match parse_uint 18446744073709551615%N 10%N p with Some n => N.to_nat n | None => blen content end | None => blen content end in
    match get_completions alnum lower cfg (names content) content offset with
    | None => None
    | Some l => Some (Some (List.length l, map it_insert (firstn 10 l)))
    end
  end.
