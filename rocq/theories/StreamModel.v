(* Model of the streaming parser of ass-core: parser/streaming/{parser,result}.rs,
   processor/*.rs, state/*.rs, delta/*.rs.  Not modelled: the "benches" memory
   counters and capacity hints; the usize line counter is unbounded. *)
From Verif Require Export Base ParseModel.

(* ---- bytes ---- *)
(* The bytes of a character, as String stores it. *)
Definition encode_char (c : char) : list N :=
  if (c <? 128)%N then [c]
  else if (c <? 2048)%N then [192 + c / 64; 128 + c mod 64]%N
  else if (c <? 65536)%N then [224 + c / 4096; 128 + (c / 64) mod 64; 128 + c mod 64]%N
  else [240 + c / 262144; 128 + (c / 4096) mod 64; 128 + (c / 64) mod 64; 128 + c mod 64]%N.
Definition encode (s : str) : list N := flat_map encode_char s.
(* core::str::from_utf8 (the table in core/src/str/validations.rs) *)
Definition within (lo hi b : N) : bool := ((lo <=? b) && (b <=? hi))%N.
Definition cont (b : N) : bool := within 128 191 b.
Definition second_of_three (b0 b1 : N) : bool :=
  if (b0 =? 224)%N then within 160 191 b1 else if (b0 =? 237)%N then within 128 159 b1 else cont b1.
Definition second_of_four (b0 b1 : N) : bool :=
  if (b0 =? 240)%N then within 144 191 b1 else if (b0 =? 244)%N then within 128 143 b1 else cont b1.
Definition push (c : char) (o : option str) : option str := match o with Some s => Some (c :: s) | None => None end.
Fixpoint from_utf8 (b : list N) : option str :=
  match b with
  | [] => Some []
  | b0 :: r0 =>
    if (b0 <? 128)%N then push b0 (from_utf8 r0)
    else if within 194 223 b0 then
      match r0 with
      | b1 :: r1 => if cont b1 then push ((b0 - 192) * 64 + (b1 - 128))%N (from_utf8 r1) else None
      | [] => None
      end
    else if within 224 239 b0 then
      match r0 with
      | b1 :: b2 :: r2 =>
        if second_of_three b0 b1 && cont b2
        then push ((b0 - 224) * 4096 + (b1 - 128) * 64 + (b2 - 128))%N (from_utf8 r2) else None
      | _ => None
      end
    else if within 240 244 b0 then
      match r0 with
      | b1 :: b2 :: b3 :: r3 =>
        if second_of_four b0 b1 && cont b2 && cont b3
        then push ((b0 - 240) * 262144 + (b1 - 128) * 4096 + (b2 - 128) * 64 + (b3 - 128))%N (from_utf8 r3) else None
      | _ => None
      end
    else None
  end.

(* ---- the line processor ---- *)
(* state/section_kind.rs:10-50 *)
Inductive section_kind := KInfo | KStyles | KEvents | KFonts | KGraphics | KUnknown.
Definition from_header (header : str) : section_kind :=
  let h := trim header in
  if str_eqb h (lit "Script Info") then KInfo
  else if str_eqb h (lit "V4+ Styles") || str_eqb h (lit "V4 Styles") then KStyles
  else if str_eqb h (lit "Events") then KEvents
  else if str_eqb h (lit "Fonts") then KFonts
  else if str_eqb h (lit "Graphics") then KGraphics
  else KUnknown.
(* state/parser_state.rs:12-61; fields_seen is always 0 *)
Inductive parser_state := Expecting | InSection (k : section_kind) | InEvent (k : section_kind).
Definition state_section (s : parser_state) : option section_kind :=
  match s with Expecting => None | InSection k | InEvent k => Some k end.
(* state/context.rs:14-70, processor/line_processor.rs:18-33 *)
Record processor := Proc { pr_state : parser_state; pr_line : nat; pr_section : option section_kind;
                           pr_events : option str; pr_styles : option str }.
Definition proc_new : processor := Proc Expecting 0 None None None.
(* delta/parse_delta.rs:46-70; the message of an issue is left out *)
Inductive parse_delta := DAdd (s : section) | DUpdate (i : nat) (s : section) | DRemove (i : nat) | DIssue.
Definition is_error (d : parse_delta) : bool := match d with DIssue => true | _ => false end.
Definition is_structural (d : parse_delta) : bool := match d with DIssue => false | _ => true end.
(* delta/batch.rs:69-97 *)
Definition structural_only (l : list parse_delta) : list parse_delta := filter is_structural l.
Definition errors_only (l : list parse_delta) : list parse_delta := filter is_error l.
Definition has_errors (l : list parse_delta) : bool := existsb is_error l.

(* processor/line_processor.rs:75-93 process_section_header: trimmed is
   "[" ... "]", so the slice is its inside *)
Definition process_header (p : processor) (trimmed : str) : processor :=
  let k := from_header (removelast (tl trimmed)) in
  Proc (InSection k) (pr_line p) (Some k)
       (match k with KEvents => None | _ => pr_events p end)
       (match k with KStyles => None | _ => pr_styles p end).
(* processor/section_lines.rs:29-59 *)
Definition process_styles (p : processor) (t : str) : processor :=
  match strip_prefix (lit "Format:") t with
  | Some f => Proc (pr_state p) (pr_line p) (pr_section p) (pr_events p) (Some (trim f))
  | None => p
  end.
Definition process_events (p : processor) (t : str) : processor :=
  match strip_prefix (lit "Format:") t with
  | Some f => Proc (pr_state p) (pr_line p) (pr_section p) (Some (trim f)) (pr_styles p)
  | None =>
    if starts_with (lit "Dialogue:") t || starts_with (lit "Comment:") t
    then Proc (InEvent KEvents) (pr_line p) (pr_section p) (pr_events p) (pr_styles p) else p
  end.
Definition ends_with_char (c : char) (s : str) : bool := match rev s with x :: _ => (x =? c)%N | [] => false end.
(* processor/line_processor.rs:44-72 process_line: the new state and the
   deltas, which every branch makes with DeltaBatch::new() *)
Definition process_line (p0 : processor) (line : str) : processor * list parse_delta :=
  let p := Proc (pr_state p0) (S (pr_line p0)) (pr_section p0) (pr_events p0) (pr_styles p0) in
  let t := trim line in
  match t with
  | [] => (p, [])
  | _ =>
    if starts_with (lit ";") t || starts_with (lit "!:") t then (p, [])
    else if starts_with (lit "[") t && ends_with_char 93%N t then (process_header p t, [])
    else match pr_state p with
         | Expecting => (p, [])
         | InSection KStyles => (process_styles p t, [])
         | InSection KEvents => (process_events p t, [])
         | InSection _ => (p, [])
         | InEvent k => (Proc (InSection k) (pr_line p) (pr_section p) (pr_events p) (pr_styles p), [])
         end
  end.
Fixpoint process_lines (p : processor) (l : list str) : processor * list parse_delta :=
  match l with
  | [] => (p, [])
  | x :: r => let (p1, d1) := process_line p x in let (p2, d2) := process_lines p1 r in (p2, d1 ++ d2)
  end.

(* ---- the streaming parser ---- *)
(* parser.rs:19-44 *)
Record stream := Stream { st_proc : processor; st_buffer : str; st_sections : list str }.
Definition stream_new : stream := Stream proc_new [] [].
(* parser.rs:64-106 feed_chunk: None is the error for invalid UTF-8 *)
Definition feed_text (s : stream) (chunk : str) : stream * list parse_delta :=
  let buffer := st_buffer s ++ chunk in
  let ls := lines buffer in
  let n := if ends_with_char 10%N buffer || ends_with_char 13%N buffer then List.length ls else List.length ls - 1 in
  let (p, d) := process_lines (st_proc s) (firstn n ls) in
  (Stream p (match skipn n ls with [] => [] | x :: _ => x end) (st_sections s), d).
Definition feed_chunk (s : stream) (chunk : list N) : stream * option (list parse_delta) :=
  match chunk with
  | [] => (s, Some [])
  | _ =>
    match from_utf8 chunk with
    | None => (s, None)
    | Some t => let (s', d) := feed_text s t in (s', Some d)
    end
  end.
(* result.rs:12-19 *)
Record stream_result := StreamResult { sr_sections : list str; sr_version : version; sr_issues : list issue }.
(* parser.rs:113-123 finish: with the processor's last state, which it drops *)
Definition finish_processor (s : stream) : processor :=
  match trim (st_buffer s) with
  | [] => st_proc s
  | _ => fst (process_line (st_proc s) (st_buffer s))
  end.
Definition finish_stream (s : stream) : stream_result := StreamResult (st_sections s) AssV4 [].
(* parser.rs:126-135 *)
Definition reset_stream (s : stream) : stream := Stream (Proc Expecting 0 None None None) [] [].

Fixpoint feed_all (s : stream) (chunks : list (list N)) : stream * list (option (list parse_delta)) :=
  match chunks with
  | [] => (s, [])
  | c :: r => let (s1, d) := feed_chunk s c in let (s2, ds) := feed_all s1 r in (s2, d :: ds)
  end.
