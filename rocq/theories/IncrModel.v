(* Model of the incremental parsing helpers of ass-core:
   parser/incremental/*.rs, parser/streaming/source.rs,
   parser/script/incremental.rs, parser/script/partial.rs. *)
From Verif Require Export Base UuModel Utf8Model ParseModel.

(* range_adjust.rs:9-17 TextChange (line_range is never read) *)
Record text_change := Change { ch_start : nat; ch_end : nat; ch_text : str }.

(* line_calc.rs:36-51 calculate_line_number; u32 overflow is a panic *)
Fixpoint line_number_loop (s : str) (cur pos : nat) (line : N) : res N :=
  match s with
  | [] => Ok line
  | c :: r =>
    if pos <=? cur then Ok line else
    if is_nl c then res_bind (u32_add line 1) (line_number_loop r (cur + len_utf8 c) pos)
    else line_number_loop r (cur + len_utf8 c) pos line
  end.
Definition calculate_line_number (source : str) (pos : nat) : res N := line_number_loop source 0 pos 1.

(* line_calc.rs:7-32 calculate_line_range; start = 0 means "not yet set" *)
Fixpoint line_range_loop (s : str) (cur a b : nat) (line start : N) : res (N * N) :=
  match s with
  | [] => Ok (start, line)
  | c :: r =>
    let start' := if (a <=? cur) && (start =? 0)%N then line else start in
    if b <=? cur then Ok (start', line) else
    if is_nl c then res_bind (u32_add line 1) (fun l => line_range_loop r (cur + len_utf8 c) a b l start')
    else line_range_loop r (cur + len_utf8 c) a b line start'
  end.
Definition calculate_line_range (source : str) (a b : nat) : res (N * N) := line_range_loop source 0 a b 1 0.

(* range_adjust.rs:24-64 adjust_range_for_change; usize subtraction
   change.end - change.start panics when the range is reversed.  Natural
   number subtraction is saturating_sub. *)
Definition adjust_range (a b : nat) (c : text_change) : res (nat * nat) :=
  let new_len := blen (ch_text c) in
  if ch_end c <=? a then
    if ch_end c <? ch_start c then Panic else
    let old_len := ch_end c - ch_start c in
    if old_len <=? new_len then Ok (a + (new_len - old_len), b + (new_len - old_len))
    else Ok (a - (old_len - new_len), b - (old_len - new_len))
  else if b <=? ch_start c then Ok (a, b)
  else
    if ch_end c <? ch_start c then Panic else
    let new_start := Nat.min a (ch_start c) in
    let old_len := ch_end c - ch_start c in
    let new_end :=
      if b <=? ch_end c then ch_start c + new_len
      else if old_len <=? new_len then b + (new_len - old_len)
      else b - (old_len - new_len) in
    Ok (new_start, new_end).

(* streaming/source.rs:24-38 build_modified_source *)
Definition build_modified_source (original : str) (a b : nat) (replacement : str) : res str :=
  if b <? a then Panic else
  if blen original <? b - a then Panic else
  res_bind (or_panic (slice_to original a)) (fun before =>
  res_bind (or_panic (slice_from original b)) (fun after => Ok (before ++ replacement ++ after))).

(* ast/section/section_enum.rs:132-140 *)
Definition section_type_of (s : section) : section_type :=
  match s with SInfo _ _ => TInfo | SStyles _ => TStyles | SEvents _ => TEvents | SFonts _ => TFonts | SGraphics _ => TGraphics end.
Definition section_type_eqb (a b : section_type) : bool :=
  match a, b with TInfo, TInfo | TStyles, TStyles | TEvents, TEvents | TFonts, TFonts | TGraphics, TGraphics => true | _, _ => false end.

(* section_enum.rs:73-117 *)
Definition ends_span (l : list span) : option span :=
  match l with
  | [] => None
  | f :: _ => Some (Span (sp_start f) (sp_end (List.last l f)) (sp_line f) (sp_col f))
  end.
Definition section_span (s : section) : option span :=
  match s with
  | SInfo _ sp => Some sp
  | SStyles l => ends_span (map s_span l)
  | SEvents l => ends_span (map e_span l)
  | SFonts l | SGraphics l => ends_span (map m_span l)
  end.

(* section_bounds.rs:17-23, script/incremental.rs:104-110 *)
Definition section_header (t : section_type) : str :=
  match t with
  | TInfo => lit "[Script Info]" | TStyles => lit "[V4+ Styles]" | TEvents => lit "[Events]"
  | TFonts => lit "[Fonts]" | TGraphics => lit "[Graphics]"
  end.

(* str::rfind, as the pair (before, from-the-match-on) *)
Fixpoint rfind_str (p s : str) : option (str * str) :=
  match s with
  | [] => if starts_with p s then Some ([], s) else None
  | c :: r =>
    match rfind_str p r with
    | Some (a, b) => Some (c :: a, b)
    | None => if starts_with p s then Some ([], s) else None
    end
  end.
(* source[..pos].rfind('\n').map_or(0, |p| p + 1) *)
Definition start_of_line (source : str) (pos : nat) : res nat :=
  res_bind (or_panic (slice_to source pos)) (fun s =>
  Ok (match rfind_str [10%N] s with Some (a, _) => blen a + 1 | None => 0 end)).

(* section_bounds.rs:11-37 *)
Definition find_section_header_start (source : str) (hint : nat) (t : section_type) : res nat :=
  let header := section_header t in
  let search_start := hint - (blen header + 100) in
  res_bind (or_panic (slice source search_start (Nat.min hint (blen source)))) (fun text =>
  match rfind_str header text with
  | None => Err
  | Some (a, _) => start_of_line source (search_start + blen a)
  end).

(* section_bounds.rs:44-74 *)
Definition all_headers : list str := map section_header [TInfo; TStyles; TEvents; TFonts; TGraphics].
Definition min_opt (m : option nat) (p : option (str * str)) : option nat :=
  match p with
  | None => m
  | Some (a, _) => Some (match m with None => blen a | Some k => Nat.min k (blen a) end)
  end.
Definition find_section_end (source : str) (hint : nat) : res nat :=
  res_bind (or_panic (slice_from source hint)) (fun text =>
  match fold_left (fun m h => min_opt m (find_str h text)) all_headers None with
  | None => Ok (blen source)
  | Some p => start_of_line source (hint + p)
  end).

(* script/partial.rs:89-168 adjust_section_spans (change.start <= change.end
   is checked by the caller's subtraction) *)
Definition adjust_span (c : text_change) (sp : span) : span :=
  let new_len := blen (ch_text c) in
  let old_len := ch_end c - ch_start c in
  if old_len <=? new_len
  then Span (sp_start sp + (new_len - old_len)) (sp_end sp + (new_len - old_len)) (sp_line sp) (sp_col sp)
  else Span (sp_start sp - (old_len - new_len)) (sp_end sp - (old_len - new_len)) (sp_line sp) (sp_col sp).
Definition with_event_span (e : event) (sp : span) : event :=
  Event (e_type e) (e_layer e) (e_start e) (e_end e) (e_style e) (e_name e) (e_margin_l e) (e_margin_r e) (e_margin_v e)
        (e_margin_t e) (e_margin_b e) (e_effect e) (e_text e) sp.
Definition with_style_span (s : style) (sp : span) : style :=
  Style (s_name s) (s_parent s) (s_fontname s) (s_fontsize s) (s_primary s) (s_secondary s) (s_outlinec s) (s_back s)
        (s_bold s) (s_italic s) (s_underline s) (s_strikeout s) (s_scale_x s) (s_scale_y s) (s_spacing s) (s_angle s)
        (s_border_style s) (s_outline s) (s_shadow s) (s_alignment s) (s_margin_l s) (s_margin_r s) (s_margin_v s)
        (s_margin_t s) (s_margin_b s) (s_encoding s) (s_relative_to s) sp.
Definition with_media_span (m : media) (sp : span) : media := Media (m_name m) (m_lines m) sp.
Definition adjust_section_spans (s : section) (c : text_change) : section :=
  match s with
  | SInfo f sp => SInfo f (adjust_span c sp)
  | SStyles l => SStyles (map (fun x => with_style_span x (adjust_span c (s_span x))) l)
  | SEvents l => SEvents (map (fun x => with_event_span x (adjust_span c (e_span x))) l)
  | SFonts l => SFonts (map (fun x => with_media_span x (adjust_span c (m_span x))) l)
  | SGraphics l => SGraphics (map (fun x => with_media_span x (adjust_span c (m_span x))) l)
  end.

(* script/incremental.rs:28-52 affected_sections *)
Definition affected (c : text_change) (s : section) : bool :=
  match section_span s with
  | None => false
  | Some sp =>
    ((ch_start c <? sp_end sp) && (sp_start sp <? ch_end c))
    || ((ch_end c <=? ch_start c) && (ch_start c =? sp_end sp))
  end.
Definition affected_sections (sc : script) (c : text_change) : list section_type :=
  map section_type_of (filter (affected c) (sc_sections sc)).

(* script/incremental.rs:118-157 re-reading one affected section *)
Definition reread (new_source : str) (ty : section_type) (next : option section_type) : run (option section) :=
  match find_str (section_header ty) new_source with
  | None => Done None
  | Some (a, _) =>
    let header_pos := blen a in
    let after := header_pos + blen (section_header ty) in
    section_end <- match next with
      | None => Done (blen new_source)
      | Some nt =>
        rest <- need (slice_from new_source after) ;;
        Done (match find_str (section_header nt) rest with None => blen new_source | Some (x, _) => after + blen x end)
      end ;;
    text <- need (slice new_source header_pos section_end) ;;
    parsed <- parse text ;;
    Done (find (fun s => section_type_eqb (section_type_of s) ty) (sc_sections parsed))
  end.
(* script/incremental.rs:113-173 *)
Fixpoint incremental_loop (new_source : str) (c : text_change) (hit : list section_type) (l : list section) : run (list section) :=
  match l with
  | [] => Done []
  | s :: r =>
    rest <- incremental_loop new_source c hit r ;;
    let ty := section_type_of s in
    if existsb (section_type_eqb ty) hit then
      o <- reread new_source ty (match r with [] => None | n :: _ => Some (section_type_of n) end) ;;
      Done (match o with Some x => x :: rest | None => rest end)
    else
      match section_span s with
      | Some sp => if ch_end c <=? sp_start sp
                   then if ch_end c <? ch_start c then Crash else Done (adjust_section_spans s c :: rest)
                   else Done (s :: rest)
      | None => Done (s :: rest)
      end
  end.
(* script/incremental.rs:71-184 parse_incremental *)
Definition parse_incremental (sc : script) (new_source : str) (c : text_change) : run script :=
  match affected_sections sc c with
  | [] => Done (Script (sc_version sc) (sc_sections sc) [] (sc_styles_format sc) (sc_events_format sc))
  | hit =>
    l <- incremental_loop new_source c hit (sc_sections sc) ;;
    Done (Script (sc_version sc) l [] (sc_styles_format sc) (sc_events_format sc))
  end.

(* script/delta_eq.rs:13-137 sections_equal_ignoring_spans *)
Definition opt_str_eqb (a b : option str) : bool :=
  match a, b with Some x, Some y => str_eqb x y | None, None => true | _, _ => false end.
Definition event_type_eqb (a b : event_type) : bool :=
  match a, b with
  | Dialogue, Dialogue | Comment, Comment | Picture, Picture | Sound, Sound | Movie, Movie | Command, Command => true
  | _, _ => false
  end.
Definition events_equal (a b : event) : bool :=
  event_type_eqb (e_type a) (e_type b) && str_eqb (e_layer a) (e_layer b) && str_eqb (e_start a) (e_start b) && str_eqb (e_end a) (e_end b)
  && str_eqb (e_style a) (e_style b) && str_eqb (e_name a) (e_name b) && str_eqb (e_margin_l a) (e_margin_l b)
  && str_eqb (e_margin_r a) (e_margin_r b) && str_eqb (e_margin_v a) (e_margin_v b) && opt_str_eqb (e_margin_t a) (e_margin_t b)
  && opt_str_eqb (e_margin_b a) (e_margin_b b) && str_eqb (e_effect a) (e_effect b) && str_eqb (e_text a) (e_text b).
Definition styles_equal (a b : style) : bool :=
  str_eqb (s_name a) (s_name b) && opt_str_eqb (s_parent a) (s_parent b) && str_eqb (s_fontname a) (s_fontname b) && str_eqb (s_fontsize a) (s_fontsize b)
  && str_eqb (s_primary a) (s_primary b) && str_eqb (s_secondary a) (s_secondary b) && str_eqb (s_outlinec a) (s_outlinec b)
  && str_eqb (s_back a) (s_back b) && str_eqb (s_bold a) (s_bold b) && str_eqb (s_italic a) (s_italic b) && str_eqb (s_underline a) (s_underline b)
  && str_eqb (s_strikeout a) (s_strikeout b) && str_eqb (s_scale_x a) (s_scale_x b) && str_eqb (s_scale_y a) (s_scale_y b)
  && str_eqb (s_spacing a) (s_spacing b) && str_eqb (s_angle a) (s_angle b) && str_eqb (s_border_style a) (s_border_style b)
  && str_eqb (s_outline a) (s_outline b) && str_eqb (s_shadow a) (s_shadow b) && str_eqb (s_alignment a) (s_alignment b)
  && str_eqb (s_margin_l a) (s_margin_l b) && str_eqb (s_margin_r a) (s_margin_r b) && str_eqb (s_margin_v a) (s_margin_v b)
  && opt_str_eqb (s_margin_t a) (s_margin_t b) && opt_str_eqb (s_margin_b a) (s_margin_b b) && str_eqb (s_encoding a) (s_encoding b)
  && opt_str_eqb (s_relative_to a) (s_relative_to b).
(* lengths equal and all pairs equal *)
Fixpoint all2 {A} (eq : A -> A -> bool) (a b : list A) : bool :=
  match a, b with [], [] => true | x :: a', y :: b' => eq x y && all2 eq a' b' | _, _ => false end.
Definition media_equal (a b : media) : bool := str_eqb (m_name a) (m_name b) && all2 str_eqb (m_lines a) (m_lines b).
Definition field_equal (a b : str * str) : bool := str_eqb (fst a) (fst b) && str_eqb (snd a) (snd b).
Definition sections_equal (a b : section) : bool :=
  match a, b with
  | SInfo f _, SInfo g _ => all2 field_equal f g
  | SStyles l, SStyles m => all2 styles_equal l m
  | SEvents l, SEvents m => all2 events_equal l m
  | SFonts l, SFonts m | SGraphics l, SGraphics m => all2 media_equal l m
  | _, _ => false
  end.

(* script/delta.rs:46-96 calculate_delta *)
Record delta := Delta { dl_added : list section; dl_modified : list (nat * section); dl_removed : list nat; dl_issues : list issue }.
Definition same_type (t : section_type) (s : section) : bool := section_type_eqb (section_type_of s) t.
Fixpoint delta_old (i : nat) (old new : list section) : list (nat * section) * list nat :=
  match old with
  | [] => ([], [])
  | s :: r =>
    let (m, d) := delta_old (S i) r new in
    match find (same_type (section_type_of s)) new with
    | Some n => if sections_equal s n then (m, d) else ((i, n) :: m, d)
    | None => (m, i :: d)
    end
  end.
Definition calculate_delta (old new : script) : delta :=
  let (m, d) := delta_old 0 (sc_sections old) (sc_sections new) in
  Delta (filter (fun n => negb (existsb (same_type (section_type_of n)) (sc_sections old))) (sc_sections new)) m d (sc_issues new).
Definition delta_is_empty (d : delta) : bool :=
  match dl_added d, dl_modified d, dl_removed d, dl_issues d with [], [], [], [] => true | _, _, _, _ => false end.
