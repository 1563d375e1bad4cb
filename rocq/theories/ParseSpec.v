(* A reading of a script line by line, independent of the parser's cursor:
   the text is split at newlines, header lines open sections, and the lines
   after a header up to the next one are its body. *)
From Verif Require Import Base ParseModel.

Definition no_newline (l : str) : Prop := forallb (fun c => negb (is_nl c)) l = true.

(* The lines of a text, each with all the text before it. *)
Fixpoint located (pre : str) (ls : list str) : list (str * str) :=
  match ls with
  | [] => []
  | l :: r => (pre, l) :: located (pre ++ l ++ [10%N]) r
  end.
Definition lines_at (pre text : str) : list (str * str) := located pre (split_on is_nl text).

(* Where a position really is: bytes, newlines before it, bytes since the
   last newline. *)
Definition newlines (s : str) : N := N.of_nat (List.length (filter is_nl s)).
Definition tail_line (s : str) : str := rev (take_while (fun c => negb (is_nl c)) (rev s)).
Definition true_line (pre : str) : N := (1 + newlines pre)%N.
Definition true_col (pre : str) : N := (1 + N.of_nat (blen (tail_line pre)))%N.

(* Header lines. *)
Definition header_line (l : str) : bool := starts_with (lit "[") (trim_start l).
Definition header_closed (l : str) : bool := existsb is_rbracket l.
Definition header_name (l : str) : str :=
  match find_char is_rbracket (trim_start l) with
  | Some (_ :: n, _) => trim n
  | _ => []
  end.
Fixpoint body (ls : list (str * str)) : list (str * str) :=
  match ls with
  | [] => []
  | (p, l) :: r => if header_line l then [] else (p, l) :: body r
  end.
(* name of each section with the lines that follow its header (up to the end
   of the text: readers stop at the next header) *)
Fixpoint sections_in (ls : list (str * str)) : list (str * list (str * str)) :=
  match ls with
  | [] => []
  | (_, l) :: r => if header_line l then (header_name l, r) :: sections_in r else sections_in r
  end.

(* blanks: space, tab, carriage return *)
Definition blank (c : char) : bool := (c =? 32)%N || (c =? 9)%N || (c =? 13)%N.
Definition indent (l : str) : str := take_while blank l.
Definition content (l : str) : str := drop_while blank l.
(* The span of a line without its indentation; miss is the number of newlines
   the reported line number fails to count. *)
Definition line_span (miss : N) (p l : str) : span :=
  Span (blen (p ++ indent l)) (blen (p ++ l)) (true_line p - miss) (true_col (p ++ indent l)).

(* [Script Info]: the key/value lines. *)
Definition remark (l : str) : bool :=
  match content l with c :: _ => (c =? 59)%N || (c =? 35)%N | [] => false end.
Definition info_fields (b : list (str * str)) : list (str * str) :=
  flat_map (fun pl : str * str =>
    if remark (snd pl) then [] else
    match find_char is_colon (trim (snd pl)) with
    | Some (k, _ :: v) => [(trim k, trim v)]
    | _ => []
    end) b.
Definition info_version (b : list (str * str)) : option version :=
  fold_left (fun acc kv => if str_eqb (fst kv) (lit "ScriptType")
                           then match version_from_header (snd kv) with Some v => Some v | None => acc end
                           else acc) (info_fields b) None.

(* [Events]: each line is read by the public one-line parser with the format
   in force; the second component is the format after the last line ([] when
   there was no Format line). *)
Definition format_of (line : str) : option (list str) :=
  match strip_prefix (lit "Format:") line with
  | Some d => Some (map trim (split_on is_comma d))
  | None => None
  end.
Definition set_event_span (e : event) (sp : span) : event :=
  Event (e_type e) (e_layer e) (e_start e) (e_end e) (e_style e) (e_name e) (e_margin_l e) (e_margin_r e)
        (e_margin_v e) (e_margin_t e) (e_margin_b e) (e_effect e) (e_text e) sp.
Fixpoint events_in (miss : N) (fmt : list str) (b : list (str * str)) : list event * list str :=
  match b with
  | [] => ([], fmt)
  | (p, l) :: r =>
    match format_of (trim l) with
    | Some f => events_in miss f r
    | None =>
      let (es, f) := events_in miss fmt r in
      match parse_event_line (trim l) fmt 0 with
      | Ok e => (set_event_span e (line_span miss p l) :: es, f)
      | _ => (es, f)
      end
    end
  end.

(* [V4+ Styles] *)
Definition set_style_span (s : style) (sp : span) : style :=
  Style (s_name s) (s_parent s) (s_fontname s) (s_fontsize s) (s_primary s) (s_secondary s) (s_outlinec s) (s_back s)
        (s_bold s) (s_italic s) (s_underline s) (s_strikeout s) (s_scale_x s) (s_scale_y s) (s_spacing s) (s_angle s)
        (s_border_style s) (s_outline s) (s_shadow s) (s_alignment s) (s_margin_l s) (s_margin_r s) (s_margin_v s)
        (s_margin_t s) (s_margin_b s) (s_encoding s) (s_relative_to s) sp.
Fixpoint styles_in (miss : N) (fmt : list str) (b : list (str * str)) : list style * list str :=
  match b with
  | [] => ([], fmt)
  | (p, l) :: r =>
    match format_of (trim l) with
    | Some f => styles_in miss f r
    | None =>
      let (ss, f) := styles_in miss fmt r in
      match strip_prefix (lit "Style:") (trim l) with
      | Some d =>
        match parse_style_line (trim d) fmt 0 with
        | Ok s => (set_style_span s (line_span miss p l) :: ss, f)
        | _ => (ss, f)
        end
      | None => (ss, f)
      end
    end
  end.

(* [Fonts] and [Graphics]: an entry is a "key: name" line and the data lines
   after it; fin is the length of the whole text. *)
Definition close_entry (miss : N) (cur : option (str * str * list str)) (stop : nat) : list media :=
  match cur with
  | None => []
  | Some (p, name, ls) => [Media name ls (Span (blen p) stop (true_line p - miss) (true_col p))]
  end.
Definition ends_data (l : str) : bool :=
  match trim l with
  | [] => true
  | t => starts_with (lit "# ") t || str_eqb t (lit "#")
  end.
Definition first_is (c : char) (l : str) : bool := match l with x :: _ => (x =? c)%N | [] => false end.
Fixpoint media_in (miss : N) (key : str) (fin : nat) (cur : option (str * str * list str)) (ls : list (str * str))
  : list media :=
  match ls with
  | [] => close_entry miss cur fin
  | (p, l) :: r =>
    if header_line l then close_entry miss cur (blen p) else
    match cur with
    | Some (q, name, data) =>
      if ends_data l then close_entry miss cur (blen p) ++ media_in miss key fin None r
      else if first_is 59 (trim l) || first_is 33 (trim l) then media_in miss key fin cur r
      else media_in miss key fin (Some (q, name, data ++ [l])) r
    | None =>
      if starts_with (lit ";") (content l) || starts_with (lit "!:") (content l) then media_in miss key fin None r
      else match find_char is_colon (content l) with
           | Some (k, _ :: v) =>
             if str_eqb (trim k) key then media_in miss key fin (Some (p ++ indent l, trim v, [])) r
             else media_in miss key fin None r
           | _ => media_in miss key fin None r
           end
    end
  end.

Definition known_name (n : str) : bool :=
  existsb (str_eqb n) (map lit ["Script Info"; "V4+ Styles"; "V4 Styles"; "V4++ Styles"; "Events"; "Fonts"; "Graphics"]%string).
Definition styles_name (n : str) : bool :=
  existsb (str_eqb n) (map lit ["V4+ Styles"; "V4 Styles"; "V4++ Styles"]%string).

(* where the lines after a header start, and where those after the next header
   start *)
Definition lower (src : str) (ls : list (str * str)) : nat := match ls with (p, _) :: _ => blen p | [] => blen src end.
Definition next_lower (src : str) (ls : list (str * str)) : nat :=
  match sections_in ls with (_, r) :: _ => lower src r | [] => blen src end.
(* What a section of the result says about the lines after its header. *)
Definition reads (src : str) (miss : N) (name : str) (ls : list (str * str)) (s : section) : Prop :=
  match s with
  | SInfo fields sp =>
    name = lit "Script Info" /\ fields = info_fields (body ls) /\
    (exists a m b, src = a ++ m ++ b /\ sp_start sp = blen a /\ sp_end sp = blen (a ++ m) /\
                   sp_line sp = (true_line a - miss)%N) /\
    sp_start sp = lower src ls /\ sp_end sp <= next_lower src ls
  | SStyles l => styles_name name = true /\ l = fst (styles_in miss [] (body ls))
  | SEvents l => name = lit "Events" /\ l = fst (events_in miss [] (body ls))
  | SFonts l => name = lit "Fonts" /\ l = media_in miss (lit "fontname") (blen src) None ls
  | SGraphics l => name = lit "Graphics" /\ l = media_in miss (lit "filename") (blen src) None ls
  end.

(* The version and formats after a section. *)
Definition fmt_some (f : list str) : option (list str) := match f with [] => None | _ => Some f end.
Definition styles_format_of (ls : list (str * str)) : option (list str) :=
  match styles_in 0 [] (body ls) with
  | (_ :: _, []) => Some default_styles_format
  | (_, f) => fmt_some f
  end.
Definition events_format_of (ls : list (str * str)) : option (list str) := fmt_some (snd (events_in 0 [] (body ls))).
Definition settings : Type := version * option (list str) * option (list str).
Definition after_section (acc : settings) (s : str * list (str * str)) : settings :=
  let '(v, sf, ef) := acc in
  let (name, ls) := s in
  if str_eqb name (lit "Script Info") then (match info_version (body ls) with Some x => x | None => v end, sf, ef)
  else if styles_name name then (v, styles_format_of ls, ef)
  else if str_eqb name (lit "Events") then (v, sf, events_format_of ls)
  else acc.

(* The text after a byte order mark, and what comes before it. *)
Definition bom (src : str) : str := match src with c :: _ => if (c =? 65279)%N then [65279%N] else [] | [] => [] end.
Definition text (src : str) : str := match src with c :: r => if (c =? 65279)%N then r else src | [] => [] end.

(* Every header line has its closing bracket. *)
Definition headers_closed (ls : list (str * str)) : bool :=
  forallb (fun pl : str * str => implb (header_line (snd pl)) (header_closed (snd pl))) ls.
(* No blank line stands directly before a header, nor anywhere before the
   first one. *)
Definition blank_line (l : str) : bool := forallb is_ws l.
Fixpoint no_gap (inside blank_before : bool) (ls : list (str * str)) : bool :=
  match ls with
  | [] => true
  | [(_, l)] => negb (header_line l && blank_before)
  | (_, l) :: r =>
    if header_line l then negb blank_before && no_gap true false r
    else if blank_line l then inside && no_gap inside true r
    else no_gap inside false r
  end.

(* A section of the source: its header's name, the lines after the header, and
   how many newlines the reader had failed to count at that point. *)
Record mark := Mark { mk_miss : N; mk_name : str; mk_lines : list (str * str) }.
Definition mark_at (src h : str) (m : mark) (after : str) : Prop :=
  exists raw t e b, src = h ++ [91%N] ++ raw ++ [93%N] ++ t ++ e ++ b /\
    forallb (fun c => negb (is_rbracket c)) raw = true /\ no_newline t /\ mk_name m = trim raw /\
    after = h ++ [91%N] ++ raw ++ [93%N] ++ t ++ e /\
    (e = [10%N] /\ mk_lines m = lines_at after b \/ e = [] /\ b = [] /\ mk_lines m = []).
(* marks in the order of the source, each after the header of the one before *)
Inductive marks_from (src : str) : nat -> list mark -> Prop :=
| marks_nil k : marks_from src k []
| marks_cons k h m after ms : mark_at src h m after -> k <= blen h -> marks_from src (blen after) ms ->
    marks_from src k (m :: ms).

(* ---- the whole result ---- *)
(* the input size the parser accepts *)
Definition small (src : str) : Prop := (N.of_nat (blen src) <= max_input_size)%N.
Definition settings_sc (sc : script) : settings := (sc_version sc, sc_styles_format sc, sc_events_format sc).
Definition start_settings : settings := (AssV4, None, None).
Definition source_lines (src : str) : list (str * str) := lines_at (bom src) (text src).
(* sp is a piece of the source on character boundaries; its line number is
   never above the real one *)
Definition points (src : str) (miss : N) (sp : span) (t : str) : Prop :=
  exists a b, src = a ++ t ++ b /\ sp_start sp = blen a /\ sp_end sp = blen (a ++ t) /\
    sp_line sp = (true_line a - miss)%N /\ sp_col sp = true_col a.

(* every item of a section points into the source *)
Definition located_section (src : str) (miss : N) (s : section) : Prop :=
  match s with
  | SInfo _ sp => exists a t b, src = a ++ t ++ b /\ sp_start sp = blen a /\ sp_end sp = blen (a ++ t) /\ sp_line sp = (true_line a - miss)%N
  | SEvents l => forall e, In e l -> exists t f e0, points src miss (e_span e) t /\ parse_event_line (trim t) f 0 = Ok e0 /\
                  e = set_event_span e0 (e_span e)
  | SStyles l => forall s, In s l -> exists t d f s0, points src miss (s_span s) t /\ trim t = lit "Style:" ++ d /\
                  parse_style_line (trim d) f 0 = Ok s0 /\ s = set_style_span s0 (s_span s)
  | SFonts l | SGraphics l => forall m, In m l -> (exists t, points src miss (m_span m) t) /\
                  Forall (fun d => exists y z, src = y ++ d ++ z) (m_lines m)
  end.

(* ---- one line ---- *)
Definition comma_free (v : str) : Prop := forallb (fun c => negb (is_comma c)) v = true.
(* The value a line gives to a field: the one standing under the first format
   entry of that name, compared without case, without surrounding blanks. *)
Fixpoint under (fmt vals : list str) (name : str) : str :=
  match fmt, vals with
  | f :: fs, v :: vs => if eq_nocase f name then trim v else under fs vs name
  | _, _ => []
  end.
Fixpoint named (fmt : list str) (name : str) : bool :=
  match fmt with [] => false | f :: fs => eq_nocase f name || named fs name end.
Definition under_opt (fmt vals : list str) (name : string) : option str :=
  if named fmt (lit name) then Some (under fmt vals (lit name)) else None.
Definition event_of (ty : event_type) (fmt vals : list str) (sp : span) : event :=
  let u n := under fmt vals (lit n) in
  {| e_type := ty; e_layer := u "Layer"%string; e_start := u "Start"%string; e_end := u "End"%string;
     e_style := u "Style"%string; e_name := u "Name"%string;
     e_margin_l := u "MarginL"%string; e_margin_r := u "MarginR"%string; e_margin_v := u "MarginV"%string;
     e_margin_t := under_opt fmt vals "MarginT"; e_margin_b := under_opt fmt vals "MarginB";
     e_effect := u "Effect"%string; e_text := u "Text"%string; e_span := sp |}.
Definition style_of (parent : option str) (fmt vals : list str) (sp : span) : style :=
  let u n := under fmt vals (lit n) in
  {| s_name := u "Name"%string; s_parent := parent; s_fontname := u "Fontname"%string; s_fontsize := u "Fontsize"%string;
     s_primary := u "PrimaryColour"%string; s_secondary := u "SecondaryColour"%string;
     s_outlinec := u "OutlineColour"%string; s_back := u "BackColour"%string;
     s_bold := u "Bold"%string; s_italic := u "Italic"%string; s_underline := u "Underline"%string;
     s_strikeout := u "StrikeOut"%string; s_scale_x := u "ScaleX"%string; s_scale_y := u "ScaleY"%string;
     s_spacing := u "Spacing"%string; s_angle := u "Angle"%string; s_border_style := u "BorderStyle"%string;
     s_outline := u "Outline"%string; s_shadow := u "Shadow"%string; s_alignment := u "Alignment"%string;
     s_margin_l := u "MarginL"%string; s_margin_r := u "MarginR"%string; s_margin_v := u "MarginV"%string;
     s_margin_t := under_opt fmt vals "MarginT"; s_margin_b := under_opt fmt vals "MarginB";
     s_encoding := u "Encoding"%string; s_relative_to := under_opt fmt vals "RelativeTo"; s_span := sp |}.
(* A format, or the default one when none is in force. *)
Definition format_or (d fmt : list str) : list str := match fmt with [] => d | _ => fmt end.
(* The values of an event line.  With a Text column only the last value may
   hold commas and there are as many values as columns; without one the line
   is cut into at most ten values. *)
Definition event_values (fmt vals : list str) : Prop :=
  if named fmt (lit "Text") then List.length vals = List.length fmt /\ Forall comma_free (removelast vals)
  else List.length fmt <= List.length vals /\
       (List.length vals < 10 /\ Forall comma_free vals \/ List.length vals = 10 /\ Forall comma_free (removelast vals)).
(* Column names the reader knows, in any spelling but its own. *)
Definition event_columns : list str :=
  map lit ["Layer"; "Start"; "End"; "Style"; "Name"; "MarginL"; "MarginR"; "MarginV"; "MarginT"; "MarginB"; "Effect"; "Text"]%string.
Definition style_columns : list str :=
  map lit ["Name"; "Fontname"; "Fontsize"; "PrimaryColour"; "SecondaryColour"; "OutlineColour"; "BackColour"; "Bold"; "Italic";
           "Underline"; "StrikeOut"; "ScaleX"; "ScaleY"; "Spacing"; "Angle"; "BorderStyle"; "Outline"; "Shadow"; "Alignment";
           "MarginL"; "MarginR"; "MarginV"; "MarginT"; "MarginB"; "Encoding"; "RelativeTo"]%string.
(* Known columns are spelled as the reader's own names. *)
Definition spelled (columns fmt : list str) : Prop :=
  forall f c, In f fmt -> In c columns -> eq_nocase f c = true -> f = c.
(* style columns may also be spelled "Strikeout" *)
Definition spelled_style (fmt : list str) : Prop :=
  forall f c, In f fmt -> In c style_columns -> eq_nocase f c = true -> f = c \/ f = lit "Strikeout" /\ c = lit "StrikeOut".
(* What a line says about the parent: "*Name," in front of the values. *)
Definition star (s : str) : bool := starts_with (lit "*") (trim_start s).
Definition parent_name (a : str) : str := trim (drop_while (fun c => (c =? 42)%N) (trim_start a)).

(* ---- scripts that can be written out and read again ---- *)
Definition here : span := Span 0 0 0 1.
Definition bare_media (m : media) : media := Media (m_name m) (m_lines m) here.
(* a section without the positions of its items *)
Definition bare (s : section) : section :=
  match s with
  | SInfo f _ => SInfo f here
  | SStyles l => SStyles (map (fun x => set_style_span x here) l)
  | SEvents l => SEvents (map (fun x => set_event_span x here) l)
  | SFonts l => SFonts (map bare_media l)
  | SGraphics l => SGraphics (map bare_media l)
  end.
Definition trim_ok (v : str) : Prop := trim v = v.
Definition plain (v : str) : Prop := trim_ok v /\ no_newline v.
Definition starts_any (cs : list char) (v : str) : bool := match v with c :: _ => existsb (N.eqb c) cs | [] => false end.
Definition format_ok (f : list str) : Prop := f <> [] /\ Forall (fun v => plain v /\ comma_free v) f.
(* the event is what some line says under format f (the default one for []) *)
Definition event_ok (f : list str) (e : event) : Prop :=
  exists vals, Forall no_newline vals /\ event_values (format_or default_events_format f) vals /\
    e = event_of (e_type e) (format_or default_events_format f) vals (e_span e).
Definition style_ok (f : list str) (s : style) : Prop :=
  exists vals, Forall no_newline vals /\ Forall comma_free vals /\ (star (hd [] vals) = false \/ List.length vals = 1) /\
    List.length f <= List.length vals /\ s = style_of None f vals (s_span s).
(* keys: no colon, and not taken for a remark or a header *)
Definition field_ok (kv : str * str) : Prop :=
  plain (fst kv) /\ plain (snd kv) /\ forallb (fun c => negb (is_colon c)) (fst kv) = true /\
  starts_any [59%N; 35%N; 91%N] (fst kv) = false.
Definition data_ok (l : str) : Prop :=
  no_newline l /\ header_line l = false /\ ends_data l = false /\ starts_any [59%N; 33%N] (trim l) = false.
Definition media_ok (m : media) : Prop := plain (m_name m) /\ Forall data_ok (m_lines m).
(* an optional format as a list *)
Definition opt_list (f : option (list str)) : list str := match f with Some l => l | None => [] end.
Definition section_ok (sf ef : option (list str)) (s : section) : Prop :=
  match s with
  | SInfo fs _ => Forall field_ok fs
  | SStyles l => match sf with Some f => Forall (style_ok f) l | None => l = [] end
  | SEvents l => Forall (event_ok (opt_list ef)) l
  | SFonts l | SGraphics l => List.length l <= 1 /\ Forall media_ok l
  end.
Definition is_styles (s : section) : bool := match s with SStyles _ => true | _ => false end.
Definition is_events (s : section) : bool := match s with SEvents _ => true | _ => false end.
(* the version the ScriptType fields declare *)
Definition declared (fs : list (str * str)) : option version :=
  fold_left (fun acc kv => if str_eqb (fst kv) (lit "ScriptType")
                           then match version_from_header (snd kv) with Some v => Some v | None => acc end
                           else acc) fs None.
Definition declared_version (l : list section) : version :=
  fold_left (fun v s => match s with SInfo fs _ => match declared fs with Some x => x | None => v end | _ => v end) l AssV4.
Record script_ok (sc : script) : Prop := ScriptOk {
  ok_sections : Forall (section_ok (sc_styles_format sc) (sc_events_format sc)) (sc_sections sc);
  ok_styles_format : forall f, sc_styles_format sc = Some f -> format_ok f /\ spelled_style f /\
    (In (lit "TertiaryColour") f -> named f (lit "OutlineColour") = false) /\ existsb is_styles (sc_sections sc) = true;
  ok_events_format : forall f, sc_events_format sc = Some f -> format_ok f /\ spelled event_columns f /\
    (In (lit "Actor") f -> named f (lit "Name") = false) /\ existsb is_events (sc_sections sc) = true;
  ok_version : sc_version sc = declared_version (sc_sections sc) }.

(* Every event (style) line of the section is read under format f, which is
   still in force at its end. *)
Fixpoint all_under (item : str -> bool) (f cur : list str) (b : list (str * str)) : Prop :=
  match b with
  | [] => cur = f
  | (_, l) :: r =>
    match format_of (trim l) with
    | Some g => all_under item f g r
    | None => (item (trim l) = true -> cur = f) /\ all_under item f cur r
    end
  end.
Definition event_item (l : str) : bool := match event_prefix l with Some _ => true | None => false end.
Definition style_item (l : str) : bool := starts_with (lit "Style:") l.
(* what the writer cannot express *)
Record expressible (fs fe : list str) (ls : list (str * str)) (sc : script) : Prop := Expressible {
  ex_events : forall n r, In (n, r) (sections_in ls) -> n = lit "Events" -> all_under event_item fe [] (body r);
  ex_styles : forall n r, In (n, r) (sections_in ls) -> styles_name n = true -> all_under style_item fs [] (body r);
  ex_events_names : spelled event_columns fe /\ (In (lit "Actor") fe -> named fe (lit "Name") = false);
  ex_styles_names : spelled_style fs /\ (In (lit "TertiaryColour") fs -> named fs (lit "OutlineColour") = false);
  ex_parent : forall l s, In (SStyles l) (sc_sections sc) -> In s l -> s_parent s = None;
  ex_format : forall l, In (SStyles l) (sc_sections sc) -> sc_styles_format sc = None -> l = [];
  ex_media : forall l, In (SFonts l) (sc_sections sc) \/ In (SGraphics l) (sc_sections sc) -> List.length l <= 1;
  ex_keys : forall fields sp k v, In (SInfo fields sp) (sc_sections sc) -> In (k, v) fields -> starts_any [59%N; 35%N] k = false }.
