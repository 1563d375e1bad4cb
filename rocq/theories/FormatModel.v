(* SRT, WebVTT and plain text: reading them into ASS text and writing the
   events of a script in them.  Two families of code are modelled:
   crates/ass-editor/utils/formats/*.rs (FormatConverter) and
   crates/ass-editor/formats/{srt,webvtt}/*.rs (SrtFormat, WebVttFormat).

   Simplifications.  Readers and writers are the strings they carry (I/O
   errors and invalid UTF-8 are outside the model).  Error messages are
   dropped, warnings are counted.  Each regular expression is a hand-written
   matcher of the same language; regex::replace_all is [rewrite].  The code is
   taken with the features "std" and "formats" (the default).  Documents are
   lists of parsed sections on the way out and texts on the way in. *)
From Verif Require Import Base Utf8Model ParseModel FloatModel StyleModel.

(* ---- text tools ---- *)
(* str::split with a string pattern; skip counts the characters of the
   separator still to be dropped *)
Fixpoint split_str_go (pat s : str) (skip : nat) : list str :=
  match s with
  | [] => [[]]
  | c :: r =>
    match skip with
    | S k => split_str_go pat r k
    | 0 => if starts_with pat s then [] :: split_str_go pat r (List.length pat - 1)
           else match split_str_go pat r 0 with
                | [] => [[c]]
                | w :: ws => (c :: w) :: ws
                end
    end
  end.
Definition split_str (pat s : str) : list str := split_str_go pat s 0.
(* str::split_whitespace *)
Definition nonempty (s : str) : bool := match s with [] => false | _ => true end.
Definition words (s : str) : list str := filter nonempty (split_on is_ws s).

(* Regex::replace_all: leftmost matches, left to right.  The matcher gives the
   replacement and the text after the match; no pattern here matches the empty
   string. *)
Fixpoint rewrite_go (m : str -> option (str * str)) (s : str) (skip : nat) : str :=
  match s with
  | [] => []
  | c :: r =>
    match skip with
    | S k => rewrite_go m r k
    | 0 => match m s with
           | Some (rep, rest) => rep ++ rewrite_go m r (List.length s - List.length rest - 1)
           | None => c :: rewrite_go m r 0
           end
    end
  end.
Definition rewrite_all (m : str -> option (str * str)) (s : str) : str := rewrite_go m s 0.
Definition is_c (k : char) (c : char) : bool := (c =? k)%N.
(* a run of characters other than k, then k: (run, text after k) *)
Definition upto (k : char) (s : str) : option (str * str) :=
  match find_char (is_c k) s with
  | Some (a, _ :: b) => Some (a, b)
  | _ => None
  end.
Definition upto1 (k : char) (s : str) : option (str * str) :=
  match upto k s with Some ([], _) => None | o => o end.
Definition opt_char (k : char) (s : str) : str :=
  match s with c :: r => if (c =? k)%N then r else s | [] => s end.
(* exactly six hexadecimal digits *)
Definition six_hex (s : str) : option (str * str) :=
  let h := firstn 6 s in
  if (List.length h =? 6) && forallb is_hex h then Some (h, skipn 6 s) else None.
Notation "x <-? e ; f" := (match e with Some x => f | None => None end) (at level 61, e at next level, right associativity).

(* <[^>]+> *)
Definition m_tag (s : str) : option (str * str) :=
  r <-? strip_prefix (lit "<") s ; p <-? upto1 62 r ; Some ([], snd p).
(* \{[^}]*\} *)
Definition m_braces (s : str) : option (str * str) :=
  r <-? strip_prefix (lit "{") s ; p <-? upto 125 r ; Some ([], snd p).
(* The regex class \s and str::trim use the same White_Space property. *)
Definition m_voice_split (s : str) : option (str * str) :=
  r <-? strip_prefix (lit "<v") s ;
  p <-? upto 62 r ;
  match fst p with
  | c :: b => if is_ws c && nonempty b
              then Some (match drop_while is_ws b with [] => [last b 0%N] | n => n end, snd p)
              else None
  | [] => None
  end.
(* <v\s+([^>]+)>: greedy \s+ gives back one character when all is blank *)
Definition m_voice_open (s : str) : option (str * str) :=
  p <-? m_voice_split s ; Some ([], snd p).

(* ---- utils/formats/types.rs ---- *)
Inductive fmt := FAss | FSsa | FSrt | FVtt | FPlain.
(* types.rs:35-45 *)
Definition from_content (content : str) : fmt :=
  if contains (lit "[Script Info]") content || contains (lit "[Events]") content then FAss
  else if starts_with (lit "WEBVTT") content then FVtt
  else if contains (lit "-->") content && negb (starts_with (lit "WEBVTT") content) then FSrt
  else FPlain.

(* ---- the ASS text around imported events ---- *)
Definition ln (s : string) : str := lit s ++ [10%N].
Definition styles_columns_line : string :=
  "Format: Name, Fontname, Fontsize, PrimaryColour, SecondaryColour, OutlineColour, BackColour, Bold, Italic, Underline, StrikeOut, ScaleX, ScaleY, Spacing, Angle, BorderStyle, Outline, Shadow, Alignment, MarginL, MarginR, MarginV, Encoding".
Definition events_columns_line : string :=
  "Format: Layer, Start, End, Style, Name, MarginL, MarginR, MarginV, Effect, Text".
(* import_srt.rs:20-40, import_webvtt.rs:20-40 *)
Definition converter_head (title : string) : str :=
  concat (map ln ["[Script Info]"; title; "ScriptType: v4.00+"; "WrapStyle: 0"; "PlayResX: 640"; "PlayResY: 480";
    "ScaledBorderAndShadow: yes"; ""; "[V4+ Styles]"; styles_columns_line;
    "Style: Default,Arial,20,&H00FFFFFF,&H000000FF,&H00000000,&H00000000,0,0,0,0,100,100,0,0,1,2,0,2,10,10,10,1"; "";
    "[Events]"; events_columns_line]%string).
(* plain_text.rs:21-35 *)
Definition plain_head : str :=
  concat (map ln ["[Script Info]"; "Title: Imported from Plain Text"; "ScriptType: v4.00+"; ""; "[V4+ Styles]"; styles_columns_line;
    "Style: Default,Arial,20,&H00FFFFFF,&H000000FF,&H00000000,&H00000000,0,0,0,0,100,100,0,0,1,2,0,2,10,10,10,1"; "";
    "[Events]"; events_columns_line]%string).
(* srt/import.rs:130-152, webvtt/importer.rs:62-86 *)
Definition format_head (title : string) (extra : list string) : str :=
  concat (map ln (["[Script Info]"; title; "ScriptType: v4.00+"; "Collisions: Normal"; "PlayDepth: 0"; "Timer: 100.0000";
    "Video Aspect Ratio: 0"; "Video Zoom: 6"; "Video Position: 0"]%string ++ extra ++ [""; "[V4+ Styles]"; styles_columns_line;
    "Style: Default,Arial,20,&H00FFFFFF,&H000000FF,&H00000000,&H80000000,0,0,0,0,100,100,0,0,1,2,0,2,10,10,10,1"; "";
    "[Events]"; events_columns_line]%string)).
Definition break : str := lit "\N".

(* the text of one imported line *)
Definition dialogue_line (start stop text : str) : str :=
  lit "Dialogue: 0," ++ start ++ lit "," ++ stop ++ lit ",Default,,0,0,0,," ++ text.
Record entry := Entry { en_start : str; en_end : str; en_text : str }.
Definition entry_line (e : entry) : str := dialogue_line (en_start e) (en_end e) (en_text e).
Definition entry_lines (l : list entry) : str := concat (map (fun e => entry_line e ++ [10%N]) l).

(* ---- FormatConverter: import ---- *)
(* import_srt.rs:113-152, import_webvtt.rs:129-146  after the fields are found *)
Definition dot_time (h m : N) (sec : str) : res str :=
  match split_on (is_c 46) sec with
  | s :: more =>
    s <~ of_opt (parse_u32 s) ;
    let cs := match more with ms :: _ => (match parse_u32 ms with Some v => v | None => 0 end / 10)%N | [] => 0%N end in
    Ok (to_dec h ++ lit ":" ++ dec_pad 2 m ++ lit ":" ++ dec_pad 2 s ++ lit "." ++ dec_pad 2 cs)
  | [] => Panic
  end.
(* import_srt.rs:113-152 *)
Definition conv_srt_time (time : str) : res str :=
  let time := replace (lit ",") (lit ".") time in
  match split_on is_colon time with
  | [h; m; s] =>
    h <~ of_opt (parse_u32 h) ;
    m <~ of_opt (parse_u32 m) ;
    dot_time h m s
  | _ => Err
  end.
(* import_webvtt.rs:107-147 *)
Definition conv_vtt_time (time : str) : res str :=
  match split_on is_colon time with
  | [h; m; s] => let h := match parse_u32 h with Some v => v | None => 0%N end in
                 m <~ of_opt (parse_u32 m) ; dot_time h m s
  | [m; s] => m <~ of_opt (parse_u32 m) ; dot_time 0 m s
  | _ => Err
  end.
(* import_srt.rs:158-164, import_webvtt.rs:153-159 *)
Definition biu_in (s : str) : str :=
  fold_left (fun s p => replace (lit (fst p)) (lit (snd p)) s)
    [("<i>", "{\i1}"); ("</i>", "{\i0}"); ("<b>", "{\b1}"); ("</b>", "{\b0}"); ("<u>", "{\u1}"); ("</u>", "{\u0}")]%string s.
(* import_srt.rs:155-176 *)
Definition conv_srt_text (s : str) : str := rewrite_all m_tag (biu_in s).
(* import_webvtt.rs:150-175 *)
Definition conv_vtt_text (s : str) : str :=
  rewrite_all m_tag (replace (lit "</v>") [] (rewrite_all m_voice_open (biu_in s))).

(* import_srt.rs:55-110: the loop over the lines *)
Record srt_state := SrtState { st_done : list entry; st_cur : option entry; st_text : bool }.
Definition add_text (conv : str -> str) (line : str) (e : entry) : entry :=
  Entry (en_start e) (en_end e) (match en_text e with [] => [] | t => t ++ break end ++ conv line).
Definition close_entry (st : srt_state) : srt_state :=
  SrtState (match st_cur st with Some e => st_done st ++ [e] | None => st_done st end) None false.
Definition srt_line (st : srt_state) (line : str) : res srt_state :=
  let line := trim line in
  if negb (nonempty line) then Ok (close_entry st)
  else if forallb is_digit line && negb (st_text st) then Ok (SrtState (st_done st) (Some (Entry [] [] [])) (st_text st))
  else if contains (lit "-->") line then
    match st_cur st with
    | Some e =>
      match split_str (lit "-->") line with
      | [a; b] => a <~ conv_srt_time (trim a) ; b <~ conv_srt_time (trim b) ;
                  Ok (SrtState (st_done st) (Some (Entry a b (en_text e))) true)
      | _ => Ok st
      end
    | None => Ok st
    end
  else if st_text st then Ok (SrtState (st_done st) (option_map (add_text conv_srt_text line) (st_cur st)) (st_text st))
  else Ok st.
Fixpoint fold_res {A B} (f : A -> B -> res A) (l : list B) (a : A) : res A :=
  match l with [] => Ok a | x :: r => a <~ f a x ; fold_res f r a end.
Definition conv_srt_entries (content : str) : res (list entry) :=
  st <~ fold_res srt_line (lines content) (SrtState [] None false) ;
  Ok (match st_cur st with Some e => st_done st ++ [e] | None => st_done st end).
(* import_srt.rs:19-52 *)
Definition import_srt (content : str) : res str :=
  es <~ conv_srt_entries content ; Ok (converter_head "Title: Imported from SRT" ++ entry_lines es).

(* import_webvtt.rs:55-104 *)
Definition vtt_line (st : srt_state) (line : str) : res srt_state :=
  let line := trim line in
  if starts_with (lit "WEBVTT") line || starts_with (lit "NOTE") line || negb (nonempty line) then Ok (close_entry st)
  else if contains (lit "-->") line then
    match split_str (lit "-->") line with
    | a :: b :: _ => a <~ conv_vtt_time (trim a) ; b <~ conv_vtt_time (trim b) ;
                     Ok (SrtState (st_done st) (Some (Entry a b [])) true)
    | _ => Ok (SrtState (st_done st) (Some (Entry [] [] [])) (st_text st))
    end
  else if st_text st then Ok (SrtState (st_done st) (option_map (add_text conv_vtt_text line) (st_cur st)) (st_text st))
  else Ok st.
Definition conv_vtt_entries (content : str) : res (list entry) :=
  st <~ fold_res vtt_line (lines content) (SrtState [] None false) ;
  Ok (match st_cur st with Some e => st_done st ++ [e] | None => st_done st end).
(* import_webvtt.rs:19-52 *)
Definition import_webvtt (content : str) : res str :=
  es <~ conv_vtt_entries content ; Ok (converter_head "Title: Imported from WebVTT" ++ entry_lines es).
(* plain_text.rs:20-44 *)
Definition import_plain (content : str) : str :=
  plain_head ++ entry_lines [Entry (lit "0:00:00.00") (lit "0:00:05.00") (join break (lines content))].
(* converter.rs:17-29 *)
Definition import (content : str) (f : option fmt) : res str :=
  match match f with Some x => x | None => from_content content end with
  | FAss | FSsa => Ok content
  | FSrt => import_srt content
  | FVtt => import_webvtt content
  | FPlain => Ok (import_plain content)
  end.

(* ---- FormatConverter: export ---- *)
(* export_srt.rs:71-91, export_webvtt.rs:86-106 (dot is the only difference) *)
Definition conv_time_out (dot : char) (time : str) : res str :=
  match split_on is_colon time with
  | [h; m; s] =>
    let h := match parse_u32 h with Some v => v | None => 0%N end in
    match split_on (is_c 46) s with
    | sec :: more =>
      let cs := match more with c :: _ => c | [] => lit "00" end in
      ms <~ u32_mul (match parse_u32 cs with Some v => v | None => 0%N end) 10 ;
      Ok (dec_pad 2 h ++ lit ":" ++ m ++ lit ":" ++ sec ++ [dot] ++ dec_pad 3 ms)
    | [] => Panic
    end
  | _ => Ok time
  end.
(* export_srt.rs:118-128: while there is a '{' with a '}' after it, drop the
   piece; None when the fuel runs out *)
Fixpoint strip_braces (fuel : nat) (s : str) : option str :=
  match fuel with
  | 0 => None
  | S k =>
    match find_char (is_c 123) s with
    | Some (a, b) =>
      match upto 125 b with
      | Some (_, rest) => strip_braces k (a ++ rest)
      | None => Some s
      end
    | None => Some s
    end
  end.
Definition strip_ass_tags (s : str) : res str := or_panic (strip_braces (S (List.length s)) s).
(* export_srt.rs:97-103, export_webvtt.rs:112-118 *)
Definition biu_out (s : str) : str :=
  fold_left (fun s p => replace (lit (fst p)) (lit (snd p)) s)
    [("{\i1}", "<i>"); ("{\i0}", "</i>"); ("{\b1}", "<b>"); ("{\b0}", "</b>"); ("{\u1}", "<u>"); ("{\u0}", "</u>")]%string s.
(* export_srt.rs:94-115, export_webvtt.rs:109-130 *)
Definition conv_text_out (s : str) : res str := strip_ass_tags (biu_out s).
(* types.rs:61-114: the options that are read *)
Record conversion := Conversion { op_strip : bool; op_vtt : option (bool * bool) (* style block, cue settings *) }.
Definition is_dialogue (e : event) : bool := match e_type e with Dialogue => true | _ => false end.
Definition all_dialogues (l : list section) : list event :=
  flat_map (fun s => match s with SEvents es => filter is_dialogue es | _ => [] end) l.
(* export_srt.rs:54-60, export_webvtt.rs:69-75 *)
Definition conv_body (o : conversion) (e : event) : res str :=
  t <~ (if op_strip o then strip_ass_tags (e_text e) else conv_text_out (e_text e)) ;
  Ok (replace break [10%N] t ++ [10%N; 10%N]).
(* export_srt.rs:32-68 *)
Fixpoint export_srt_from (o : conversion) (i : N) (l : list event) : res str :=
  match l with
  | [] => Ok []
  | e :: r =>
    a <~ conv_time_out 44 (e_start e) ;
    b <~ conv_time_out 44 (e_end e) ;
    t <~ conv_body o e ;
    rest <~ export_srt_from o (i + 1) r ;
    Ok (to_dec i ++ [10%N] ++ a ++ lit " --> " ++ b ++ [10%N] ++ t ++ rest)
  end.
Definition export_srt (o : conversion) (l : list section) : res str := export_srt_from o 1 (all_dialogues l).
(* str::parse::<i32> *)
Definition parse_i32 (s : str) : option Z :=
  match s with
  | 45%N :: _ :: _ => option_map (fun v => - Z.of_N v)%Z (digits_val 2147483648 10 0 (tl s))
  | _ => option_map Z.of_N (parse_uint 2147483647 10 s)
  end.
Definition z_dec (z : Z) : str := if (z <? 0)%Z then lit "-" ++ to_dec (Z.to_N (- z)) else to_dec (Z.to_N z).
(* export_webvtt.rs:54-64 *)
Definition cue_line (o : conversion) (e : event) : res str :=
  match op_vtt o with
  | Some (_, true) =>
    let m := match parse_i32 (e_margin_v e) with Some v => v | None => 0%Z end in
    if (m =? 0)%Z then Ok []
    else if (2147483647 <? 100 - m)%Z then Panic
    else Ok (lit " line:" ++ z_dec (100 - m))
  | _ => Ok []
  end.
Fixpoint export_vtt_from (o : conversion) (l : list event) : res str :=
  match l with
  | [] => Ok []
  | e :: r =>
    a <~ conv_time_out 46 (e_start e) ;
    b <~ conv_time_out 46 (e_end e) ;
    k <~ cue_line o e ;
    t <~ conv_body o e ;
    rest <~ export_vtt_from o r ;
    Ok (a ++ lit " --> " ++ b ++ k ++ [10%N] ++ t ++ rest)
  end.
(* export_webvtt.rs:20-83 *)
Definition style_block : str :=
  concat (map ln ["STYLE"; "::cue {"; "  background-image: linear-gradient(to bottom, dimgray, lightgray);"; "  color: papayawhip;"; "}"; ""]%string).
Definition export_webvtt (o : conversion) (l : list section) : res str :=
  r <~ export_vtt_from o (all_dialogues l) ;
  Ok (lit "WEBVTT" ++ [10%N; 10%N] ++ (match op_vtt o with Some (true, _) => style_block | _ => [] end) ++ r).
(* export_srt.rs:20-29 *)
Definition export_ssa (text : str) : str :=
  replace (lit "ScriptType: v4.00+") (lit "ScriptType: v4.00") (replace (lit "[V4+ Styles]") (lit "[V4 Styles]") text).
(* plain_text.rs:47-72 *)
Fixpoint export_plain_from (strip : bool) (l : list event) : res str :=
  match l with
  | [] => Ok []
  | e :: r =>
    t <~ (if strip then strip_ass_tags (e_text e) else Ok (e_text e)) ;
    rest <~ export_plain_from strip r ;
    Ok (replace break [10%N] t ++ [10%N] ++ rest)
  end.
Definition export_plain (o : conversion) (l : list section) : res str := export_plain_from (op_strip o) (all_dialogues l).

(* ---- formats/srt, formats/webvtt: times ---- *)
Definition drop_zero (s : str) : str :=
  match s with
  | 48%N :: _ :: _ => tl s
  | _ => s
  end.
(* srt/time.rs:8-35 *)
Definition srt_time_in (s : str) : res str :=
  match upto 44 (trim s) with
  | Some (t, ms) => ms <~ of_opt (parse_u32 ms) ; Ok (drop_zero t ++ lit "." ++ dec_pad 2 (ms / 10))
  | None => Err
  end.
(* srt/time.rs:38-69, webvtt/time.rs:63-94 (dot is the only difference) *)
Definition time_out (dot : char) (s : str) : res str :=
  match upto 46 (trim s) with
  | Some (t, cs) =>
    cs <~ of_opt (parse_u32 cs) ;
    ms <~ u32_mul cs 10 ;
    match split_on is_colon t with
    | [h; m; sec] => h <~ of_opt (parse_u32 h) ;
                     Ok (dec_pad 2 h ++ lit ":" ++ m ++ lit ":" ++ sec ++ [dot] ++ dec_pad 3 ms)
    | _ => Err
    end
  | None => Err
  end.
(* webvtt/time.rs:12-60 *)
Definition vtt_time_in (s : str) : res str :=
  match split_on (is_c 46) (trim s) with
  | [t; ms] =>
    ms <~ of_opt (parse_u32 ms) ;
    match split_on is_colon t with
    | [_; _] => Ok (lit "0:" ++ t ++ lit "." ++ dec_pad 2 (ms / 10))
    | [h; m; sec] => Ok (drop_zero h ++ lit ":" ++ m ++ lit ":" ++ sec ++ lit "." ++ dec_pad 2 (ms / 10))
    | _ => Err
    end
  | _ => Err
  end.

(* ---- formats/srt/styling.rs ---- *)
Definition bius_in (with_s : bool) (s : str) : str :=
  fold_left (fun s p => replace (lit (fst p)) (lit (snd p)) s)
    ([("<b>", "{\b1}"); ("</b>", "{\b0}"); ("<i>", "{\i1}"); ("</i>", "{\i0}"); ("<u>", "{\u1}"); ("</u>", "{\u0}")]%string ++
     (if with_s then [("<s>", "{\s1}"); ("</s>", "{\s0}")]%string else [])) s.
Definition bius_out (with_s : bool) (s : str) : str :=
  fold_left (fun s p => replace (lit (fst p)) (lit (snd p)) s)
    ([("{\b1}", "<b>"); ("{\b0}", "</b>"); ("{\i1}", "<i>"); ("{\i0}", "</i>"); ("{\u1}", "<u>"); ("{\u0}", "</u>")]%string ++
     (if with_s then [("{\s1}", "<s>"); ("{\s0}", "</s>")]%string else [])) s.
(* <font color=Q?#?([0-9A-Fa-f]{6})Q?> where Q is the double quote *)
Definition m_font_color (s : str) : option (str * str) :=
  r <-? strip_prefix (lit "<font color=") s ;
  h <-? six_hex (opt_char 35 (opt_char 34 r)) ;
  e <-? strip_prefix (lit ">") (opt_char 34 (snd h)) ;
  Some (lit "{\c&H" ++ fst h ++ lit "&}", e).
(* <font face=Q([^Q]+)Q> where Q is the double quote *)
Definition m_font_face (s : str) : option (str * str) :=
  r <-? strip_prefix (lit "<font face=" ++ [34%N]) s ;
  p <-? upto1 34 r ;
  e <-? strip_prefix (lit ">") (snd p) ;
  Some (lit "{\fn" ++ fst p ++ lit "}", e).
(* styling.rs:7-33 *)
Definition srt_styling_in (s : str) : str :=
  rewrite_all m_font_face (replace (lit "</font>") (lit "{\c}") (rewrite_all m_font_color (bius_in true s))).
(* \\c&H([0-9A-Fa-f]{6})& with the text put around the digits *)
Definition m_color (before after : str) (s : str) : option (str * str) :=
  r <-? strip_prefix (lit "\c&H") s ;
  h <-? six_hex r ;
  e <-? strip_prefix (lit "&") (snd h) ;
  Some (before ++ fst h ++ after, e).
(* \\fn([^}]+) *)
Definition not_c (k : char) (c : char) : bool := negb (c =? k)%N.
Definition m_font (before after : str) (s : str) : option (str * str) :=
  r <-? strip_prefix (lit "\fn") s ;
  match take_while (not_c 125) r with
  | [] => None
  | n => Some (before ++ n ++ after, drop_while (not_c 125) r)
  end.
Definition quote : str := [34%N].
(* styling.rs:36-70 *)
Definition srt_styling_out (s : str) : str :=
  let s := bius_out true s in
  let s := rewrite_all (m_color (lit "<font color=" ++ quote ++ lit "#") (quote ++ lit ">")) s in
  let s := replace (lit "{\c}") (lit "</font>") s in
  let s := rewrite_all (m_font (lit "<font face=" ++ quote) (quote ++ lit ">")) s in
  rewrite_all m_braces s.

(* ---- formats/webvtt/styling.rs ---- *)
(* <c\.([^>]+)>([^<]* )</c> *)
Definition m_class (s : str) : option (str * str) :=
  r <-? strip_prefix (lit "<c.") s ;
  p <-? upto1 62 r ;
  q <-? upto 60 (snd p) ;
  e <-? strip_prefix (lit "/c>") (snd q) ;
  Some (lit "{\c&H" ++ fst p ++ lit "&}" ++ fst q ++ lit "{\c}", e).
(* <v\s+([^>]+)>([^<]* )</v> *)
Definition m_voice (s : str) : option (str * str) :=
  p <-? m_voice_split s ;
  q <-? upto 60 (snd p) ;
  e <-? strip_prefix (lit "/v>") (snd q) ;
  Some (lit "{\fn" ++ fst p ++ lit "}" ++ fst q ++ lit "{\fn}", e).
(* <ruby>([^<]* )<rt>([^<]* )</rt></ruby> *)
Definition m_ruby (s : str) : option (str * str) :=
  r <-? strip_prefix (lit "<ruby>") s ;
  p <-? upto 60 r ;
  r <-? strip_prefix (lit "rt>") (snd p) ;
  q <-? upto 60 r ;
  e <-? strip_prefix (lit "/rt></ruby>") (snd q) ;
  Some (fst p ++ lit "(" ++ fst q ++ lit ")", e).
(* <([0-9:.,]+)> *)
Definition stamp_char (c : char) : bool := is_digit c || (c =? 58)%N || (c =? 46)%N || (c =? 44)%N.
Definition m_stamp (s : str) : option (str * str) :=
  r <-? strip_prefix (lit "<") s ;
  p <-? upto1 62 r ;
  if forallb stamp_char (fst p) then Some ([], snd p) else None.
(* styling.rs:11-46 *)
Definition vtt_styling_in (s : str) : str :=
  rewrite_all m_stamp (rewrite_all m_ruby (rewrite_all m_voice (rewrite_all m_class (bius_in false s)))).
(* \\pos\(([^,]+),([^)]+)\) *)
Definition m_pos (s : str) : option (str * str) :=
  r <-? strip_prefix (lit "\pos(") s ;
  p <-? upto1 44 r ;
  q <-? upto1 41 (snd p) ;
  Some ([], snd q).
(* styling.rs:49-82 *)
Definition vtt_styling_out (s : str) : str :=
  let s := bius_out false s in
  let s := rewrite_all (m_color (lit "<c.") (lit ">")) s in
  let s := replace (lit "{\c}") (lit "</c>") s in
  let s := rewrite_all (m_font (lit "<v ") (lit ">")) s in
  let s := replace (lit "{\fn}") (lit "</v>") s in
  let s := rewrite_all m_pos s in
  rewrite_all m_braces s.

(* ---- formats/srt/import.rs ---- *)
Definition blank_text (l : str) : bool := negb (nonempty (trim l)).
Fixpoint skip_lines (p : str -> bool) (ls : list str) : list str :=
  match ls with l :: r => if p l then skip_lines p r else ls | [] => [] end.
(* the lines of a subtitle up to the next blank one, and what follows *)
Fixpoint text_block (ls : list str) : list str * list str :=
  match ls with
  | l :: r => if blank_text l then ([], ls) else let (a, b) := text_block r in (l :: a, b)
  | [] => ([], [])
  end.
(* import.rs:11-82  parse_srt_subtitle, on the lines from start_idx on *)
Definition srt_subtitle (ls : list str) : res (entry * list str) :=
  match skip_lines blank_text ls with
  | _ :: stamp :: r =>
    match split_str (lit "-->") stamp with
    | [a; b] =>
      a <~ srt_time_in a ;
      b <~ srt_time_in b ;
      let (t, rest) := text_block r in
      match t with
      | [] => Err
      | _ => Ok (Entry a b (join break (map srt_styling_in t)), rest)
      end
    | _ => Err
    end
  | _ => Err
  end.
(* import.rs:108-127 and importer.rs:43-59: read at each position, drop one
   line on an error.  The fuel is more than the number of lines.  The result
   is the entries and the number of warnings. *)
Fixpoint import_loop (fuel : nat) (one : list str -> res (entry * list str)) (ls : list str) : res (list entry * nat) :=
  match fuel with
  | 0 => Panic
  | S k =>
    match ls with
    | [] => Ok ([], 0)
    | _ :: tail =>
      match one ls with
      | Ok (e, rest) => p <~ import_loop k one rest ; Ok (e :: fst p, snd p)
      | Err => p <~ import_loop k one tail ; Ok (fst p, S (snd p))
      | Panic => Panic
      end
    end
  end.
Record imported := Imported { im_text : str; im_count : nat; im_warnings : nat }.
Definition finish_import (head : str) (warned : nat) (p : list entry * nat) : imported :=
  Imported (head ++ entry_lines (fst p)) (List.length (fst p)) (warned + snd p).
(* import.rs:90-176 *)
Definition srt_import (content : str) : res imported :=
  let ls := lines content in
  p <~ import_loop (S (List.length ls)) srt_subtitle ls ;
  Ok (finish_import (format_head "Title: Converted from SRT" []) 0 p).

(* ---- formats/webvtt/cue.rs ---- *)
(* cue.rs:13-25: the map, last insertion first *)
Definition cue_settings (ws : list str) : list (str * str) :=
  fold_left (fun m w => match upto 58 w with Some kv => kv :: m | None => m end) ws [].
Fixpoint setting (m : list (str * str)) (k : str) : option str :=
  match m with [] => None | (a, v) :: r => if str_eqb a k then Some v else setting r k end.
(* cue.rs:28-57 *)
Definition ass_positioning (m : list (str * str)) : str :=
  let pos :=
    match setting m (lit "line"), setting m (lit "position") with
    | Some l, Some p =>
      match parse_float f32 l, parse_float f32 p with
      | Some lv, Some pv =>
        lit "\pos(" ++ to_dec (f_to_N u32_max (f_mul f32 pv (f_of_N f32 640))) ++ lit "," ++
        to_dec (f_to_N u32_max (f_mul f32 lv (f_of_N f32 480))) ++ lit ")"
      | _, _ => []
      end
    | _, _ => []
    end in
  let align :=
    match setting m (lit "align") with
    | Some a => lit "\an" ++ (if str_eqb a (lit "start") || str_eqb a (lit "left") then lit "1"
                              else if str_eqb a (lit "end") || str_eqb a (lit "right") then lit "3" else lit "2")
    | None => []
    end in
  match pos ++ align with [] => [] | t => lit "{" ++ t ++ lit "}" end.
Definition skipped_vtt (l : str) : bool := blank_text l || starts_with (lit "NOTE") (trim l).
(* cue.rs:60-144  parse_vtt_cue; a cue identifier makes it call itself at the
   next line *)
Fixpoint vtt_cue (fuel : nat) (ls : list str) : res (entry * list str) :=
  match fuel with
  | 0 => Panic
  | S k =>
    match skip_lines skipped_vtt ls with
    | [] => Err
    | l :: r =>
      if contains (lit "-->") l then
        match split_str (lit "-->") l with
        | a :: b :: _ =>
          a <~ vtt_time_in a ;
          match words b with
          | [] => Panic
          | e :: more =>
            e <~ vtt_time_in e ;
            let (t, rest) := text_block r in
            match t with
            | [] => Err
            | _ => Ok (Entry a e (ass_positioning (cue_settings more) ++ join break (map vtt_styling_in t)), rest)
            end
          end
        | _ => Err
        end
      else
        match r with
        | n :: _ => if contains (lit "-->") n then vtt_cue k r else Err
        | [] => Err
        end
    end
  end.
(* importer.rs:18-110 *)
Definition vtt_import (content : str) : res imported :=
  let ls := lines content in
  let (rest, warned) :=
    match ls with
    | h :: r => if starts_with (lit "WEBVTT") (trim h) then (r, 0) else (ls, 1)
    | [] => ([], 1)
    end in
  p <~ import_loop (S (List.length rest)) (fun x => vtt_cue (S (List.length x)) x) rest ;
  Ok (finish_import (format_head "Title: Converted from WebVTT" ["PlayResX: 640"; "PlayResY: 480"]%string) warned p).

(* ---- formats/srt/export.rs, formats/webvtt/exporter.rs ---- *)
(* export.rs:20-40, exporter.rs:24-44: the first events section *)
Fixpoint first_events (l : list section) : list event :=
  match l with
  | [] => []
  | SEvents es :: _ => es
  | _ :: r => first_events r
  end.
Record exported := Exported { ex_text : str; ex_count : N; ex_warnings : nat }.
(* export.rs:46-88, exporter.rs:53-93: a subtitle with an unreadable time is
   left out with a warning *)
Fixpoint export_from (dot : char) (styling : str -> str) (i : N) (l : list event) : res exported :=
  match l with
  | [] => Ok (Exported [] (i - 1) 0)
  | e :: r =>
    if negb (is_dialogue e) then export_from dot styling i r else
    let skip := x <~ export_from dot styling i r ; Ok (Exported (ex_text x) (ex_count x) (S (ex_warnings x))) in
    match time_out dot (e_start e) with
    | Panic => Panic
    | Err => skip
    | Ok a =>
      match time_out dot (e_end e) with
      | Panic => Panic
      | Err => skip
      | Ok b =>
        let t := styling (replace (lit "\n") [10%N] (replace break [10%N] (e_text e))) in
        x <~ export_from dot styling (i + 1) r ;
        Ok (Exported (to_dec i ++ [10%N] ++ a ++ lit " --> " ++ b ++ [10%N] ++ t ++ [10%N; 10%N] ++ ex_text x)
                     (ex_count x) (ex_warnings x))
      end
    end
  end.
Definition encoding_warning (utf8 : bool) (x : exported) : exported :=
  if utf8 then x else Exported (ex_text x) (ex_count x) (S (ex_warnings x)).
(* export.rs:13-117 *)
Definition srt_export (utf8 : bool) (l : list section) : res exported :=
  x <~ export_from 44 srt_styling_out 1 (first_events l) ; Ok (encoding_warning utf8 x).
(* exporter.rs:17-119 *)
Definition vtt_export (utf8 : bool) (l : list section) : res exported :=
  x <~ export_from 46 vtt_styling_out 1 (first_events l) ;
  Ok (encoding_warning utf8 (Exported (lit "WEBVTT" ++ [10%N; 10%N] ++ ex_text x) (ex_count x) (ex_warnings x))).
