(* Subtitle files written out by hand: what a file with given cues looks like
   in SRT, WebVTT and ASS, independent of the readers and writers. *)
From Verif Require Import Base ParseModel.

Definition unlines (ls : list str) : str := concat (map (fun l => l ++ [10%N]) ls).

(* ---- times ---- *)
Record clock := Clock { ck_h : N; ck_m : N; ck_s : N; ck_cs : N }.
(* 1:02:03.45 *)
Definition ass_time (t : clock) : str :=
  to_dec (ck_h t) ++ lit ":" ++ dec_pad 2 (ck_m t) ++ lit ":" ++ dec_pad 2 (ck_s t) ++ lit "." ++ dec_pad 2 (ck_cs t).
(* 01:02:03,456 and 01:02:03.456, with the milliseconds given apart *)
Definition ms_time (sep : char) (t : clock) (ms : N) : str :=
  dec_pad 2 (ck_h t) ++ lit ":" ++ dec_pad 2 (ck_m t) ++ lit ":" ++ dec_pad 2 (ck_s t) ++ [sep] ++ dec_pad 3 ms.
Definition sub_time (sep : char) (t : clock) : str := ms_time sep t (ck_cs t * 10).
Definition clock_ok (t : clock) : Prop :=
  (ck_h t <= u32_max /\ ck_m t <= u32_max /\ ck_s t <= u32_max /\ ck_cs t * 10 <= u32_max)%N.

(* ---- styled text ---- *)
Inductive kind := Bold | Italic | Underline | Strike.
Inductive piece := Plain (c : char) | Switch (k : kind) (on : bool).
Definition letter (k : kind) : str := match k with Bold => lit "b" | Italic => lit "i" | Underline => lit "u" | Strike => lit "s" end.
Definition ass_piece (p : piece) : str :=
  match p with Plain c => [c] | Switch k on => lit "{\" ++ letter k ++ (if on then lit "1" else lit "0") ++ lit "}" end.
Definition html_piece (p : piece) : str :=
  match p with Plain c => [c] | Switch k on => (if on then lit "<" else lit "</") ++ letter k ++ lit ">" end.
Definition ass_line (l : list piece) : str := concat (map ass_piece l).
Definition html_line (l : list piece) : str := concat (map html_piece l).

Record cue := Cue { cu_start : clock; cu_end : clock; cu_lines : list (list piece) }.
Definition ass_text (c : cue) : str := join (lit "\N") (map ass_line (cu_lines c)).

(* Characters that mean something in one of the formats. *)
Definition special (c : char) : bool := existsb (N.eqb c) [10; 60; 123; 125; 92]%N.
Definition piece_ok (strike : bool) (p : piece) : Prop :=
  match p with
  | Plain c => special c = false
  | Switch Strike _ => strike = true
  | Switch _ _ => True
  end.
Record line_ok (strike : bool) (l : list piece) : Prop := LineOk {
  lo_pieces : Forall (piece_ok strike) l;
  lo_some : l <> [];
  lo_trim : trim (html_line l) = html_line l }.
Record cue_ok (strike : bool) (c : cue) : Prop := CueOk {
  co_start : clock_ok (cu_start c);
  co_end : clock_ok (cu_end c);
  co_some : cu_lines c <> [];
  co_lines : Forall (line_ok strike) (cu_lines c) }.
(* text lines that could be taken for something else by a reader that looks
   at every line: an arrow anywhere, or a word at the start *)
Definition no_arrow (s : str) : Prop := forall a b, s <> a ++ lit "-->" ++ b.
Definition arrowless (c : cue) : Prop := Forall (fun l => no_arrow (html_line l)) (cu_lines c).
Definition wordless (w : string) (c : cue) : Prop := Forall (fun l => starts_with (lit w) (html_line l) = false) (cu_lines c).

(* cues that a reader looking at every line gets right *)
Definition srt_ok (c : cue) : Prop := cue_ok false c /\ arrowless c.
Definition vtt_ok (c : cue) : Prop := cue_ok false c /\ arrowless c /\ wordless "WEBVTT" c /\ wordless "NOTE" c.

(* ---- files ---- *)
Definition stamp (sep : char) (c : cue) : str := sub_time sep (cu_start c) ++ lit " --> " ++ sub_time sep (cu_end c).
(* a cue and the blank line after it, with or without a number before it *)
Definition cue_block (sep : char) (c : cue) : list str := stamp sep c :: map html_line (cu_lines c) ++ [[]].
Fixpoint blocks (num : bool) (sep : char) (i : N) (l : list cue) : list str :=
  match l with [] => [] | c :: r => (if num then [to_dec i] else []) ++ cue_block sep c ++ blocks num sep (i + 1) r end.
Definition srt_file (l : list cue) : str := unlines (blocks true 44 1 l).
Definition vtt_file (num : bool) (l : list cue) : str := unlines ([lit "WEBVTT"; []] ++ blocks num 46 1 l).

(* after every arrow of the file comes, past blanks, something that is not a dash *)
Definition timed_line (l : str) : Prop := forall u v, l = u ++ lit "-->" ++ v ->
  exists x c y, v = x ++ c :: y /\ forallb is_ws x = true /\ is_ws c = false /\ c <> 45%N.

(* ---- scripts ---- *)
Definition events_of (l : list section) : list event := concat (map (fun s => match s with SEvents es => es | _ => [] end) l).
Definition dialogues_of (l : list section) : list event := filter (fun e => match e_type e with Dialogue => true | _ => false end) (events_of l).
Definition says (e : event) (c : cue) : Prop :=
  e_type e = Dialogue /\ e_start e = ass_time (cu_start c) /\ e_end e = ass_time (cu_end c) /\ e_text e = ass_text c.
Definition events_sections (l : list section) : nat := List.length (filter (fun s => match s with SEvents _ => true | _ => false end) l).

(* ---- removing {...} blocks ---- *)
Definition without (k : char) (s : str) : Prop := forallb (fun c => negb (c =? k)%N) s = true.
Inductive unbraced : str -> str -> Prop :=
| unbraced_end s : (forall a b, s = a ++ [123%N] ++ b -> without 125 b) -> unbraced s s
| unbraced_cut a b r t : without 123 a -> without 125 b -> unbraced r t ->
    unbraced (a ++ [123%N] ++ b ++ [125%N] ++ r) (a ++ t).
