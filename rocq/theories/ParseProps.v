(* C11-C15, C55, C56: the script parser and the text it writes. *)
From Verif Require Import Base UuModel Utf8Model ParseModel ParseSpec ParseProofs ParseLineProofs ParseScriptProofs ParseAgainProofs.

Definition rows (l : list string) : str := join nl (map lit l).
Definition sample : str := rows
  ["[Script Info]"; "; made by hand"; "Title: a"; "ScriptType: v4.00++"; "[V4+ Styles]"; "Format: Name, Fontname"; "  Style: Main, Arial";
   "[Events]"; "Format: Start, Text"; "Dialogue: 0:00:01.00,Hello, world"; ""; "Comment: 0:00:02.00,x"; "[Extra]"; "anything";
   "[Fonts]"; "fontname: f.ttf"; "0123"; ""]%string.
Definition sample_result : script := Eval vm_compute in match parse sample with Done s => s | _ => Script AssV4 [] [] None None end.
Example sample_parsed : parse sample = Done sample_result /\ List.length (sc_sections sample_result) = 4 /\
  exists e1 e2, nth_error (sc_sections sample_result) 2 = Some (SEvents [e1; e2]) /\ e_text e1 = lit "Hello, world" /\ sp_line (e_span e2) = 12%N.
Proof. split; [vm_compute; reflexivity|]. split; [reflexivity|]. do 2 eexists. repeat split. Qed.

(* ---- C11 ---- *)
(* The parser ends with a script for every string and every plugin registry:
   no panic (Crash) and no missing step (Stuck). *)
Theorem parse_total : forall reg src, exists sc, parse_with reg src = Done sc.
Proof. exact parse_done. Qed.
Print Assumptions parse_total.
(* Everything it returns is a piece of the source on character boundaries. *)
Theorem parse_in_bounds : forall reg src sc s, parse_with reg src = Done sc -> In s (sc_sections sc) ->
  exists miss, located_section src miss s.
Proof. exact parse_located. Qed.
Print Assumptions parse_in_bounds.
(* The sections are readings of disjointly headed parts of the source, in the
   order of the source. *)
Theorem parse_in_order : forall reg src sc, small src -> parse_with reg src = Done sc ->
  exists marks, marks_from src 0 marks /\ Forall (fun m => known_name (mk_name m) = true) marks /\
    Forall2 (fun m s => reads src (mk_miss m) (mk_name m) (mk_lines m) s) marks (sc_sections sc) /\
    settings_sc sc = fold_left after_section (map (fun m => (mk_name m, mk_lines m)) marks) start_settings.
Proof. exact parse_marks. Qed.
Print Assumptions parse_in_order.
Example parse_in_bounds_instance : small sample /\ exists l e, nth_error (sc_sections sample_result) 2 = Some (SEvents l) /\
  nth_error l 0 = Some e /\ slice sample (sp_start (e_span e)) (sp_end (e_span e)) = Some (lit "Dialogue: 0:00:01.00,Hello, world").
Proof. split; [vm_compute; discriminate|]. do 2 eexists. split; [reflexivity|]. split; [reflexivity|]. vm_compute. reflexivity. Qed.

(* ---- C12 ---- *)
(* With closed headers and no blank line before a header the line numbers are
   the real ones; the columns always are (parse_in_bounds). *)
Theorem parse_line_numbers : forall reg src sc s,
  headers_closed (source_lines src) = true -> no_gap false false (source_lines src) = true ->
  parse_with reg src = Done sc -> In s (sc_sections sc) -> located_section src 0 s.
Proof. exact parse_numbers. Qed.
Print Assumptions parse_line_numbers.
Example parse_line_numbers_instance : headers_closed (source_lines sample) = true /\ no_gap false false (source_lines sample) = true.
Proof. split; vm_compute; reflexivity. Qed.
(* They are never too large. *)
Theorem parse_line_numbers_below : forall reg src sc l e, parse_with reg src = Done sc -> In (SEvents l) (sc_sections sc) -> In e l ->
  exists a t b, src = a ++ t ++ b /\ sp_start (e_span e) = blen a /\ (sp_line (e_span e) <= 1 + newlines a)%N.
Proof.
  intros reg src sc l e H1 H2 H3. destruct (parse_located reg src sc _ H1 H2) as (miss & H). destruct (H e H3) as (t & f & e0 & (a & b & E1 & E2 & _ & E3 & _) & _).
  exists a, t, b. split; [exact E1|]. split; [exact E2|]. rewrite E3. unfold true_line. lia.
Qed.
Print Assumptions parse_line_numbers_below.
(* A blank line in front of a header makes every later number too small. *)
Definition gap : str := rows ["[Script Info]"; "Title: a"; "[Other]"; "x"; ""; "[Events]"; "Dialogue: 0,0,0,D,,0,0,0,,hi"]%string.
Definition gap_result : script := Eval vm_compute in match parse gap with Done s => s | _ => Script AssV4 [] [] None None end.
Theorem parse_line_numbers_refuted : exists src sc l e a b, parse src = Done sc /\ In (SEvents l) (sc_sections sc) /\ In e l /\
  src = a ++ b /\ sp_start (e_span e) = blen a /\ sp_line (e_span e) <> (1 + newlines a)%N.
Proof.
  exists gap, gap_result. do 2 eexists.
  exists (rows ["[Script Info]"; "Title: a"; "[Other]"; "x"; ""; "[Events]"; ""]%string), (lit "Dialogue: 0,0,0,D,,0,0,0,,hi").
  split; [vm_compute; reflexivity|]. split; [right; left; reflexivity|]. split; [left; reflexivity|].
  split; [vm_compute; reflexivity|]. split; [vm_compute; reflexivity|]. vm_compute. discriminate.
Qed.
Print Assumptions parse_line_numbers_refuted.

(* ---- C55: the parse is the line-by-line reading ---- *)
Theorem parse_reads_lines : forall reg src sc, small src -> headers_closed (source_lines src) = true -> parse_with reg src = Done sc ->
  let named_sections := filter (fun x => known_name (fst x)) (sections_in (source_lines src)) in
  Forall2 (fun x s => exists miss, reads src miss (fst x) (snd x) s) named_sections (sc_sections sc) /\
  settings_sc sc = fold_left after_section named_sections start_settings.
Proof. intros reg src sc H1 H2 H3. destruct (parse_closed reg src sc H1 H2 H3) as (A & B & _). split; [exact A|exact B]. Qed.
Print Assumptions parse_reads_lines.
(* so a plugin registry cannot change the sections, formats or version *)
Theorem plugins_keep_sections : forall reg src sc sc', small src -> headers_closed (source_lines src) = true ->
  parse_with reg src = Done sc -> parse src = Done sc' ->
  settings_sc sc = settings_sc sc' /\ map bare (sc_sections sc) = map bare (sc_sections sc').
Proof.
  intros reg src sc sc' H1 H2 H4 H5. destruct (parse_closed reg src sc H1 H2 H4) as (A1 & A2 & _). destruct (parse_closed None src sc' H1 H2 H5) as (B1 & B2 & _).
  split; [congruence|]. exact (reads_same src _ _ _ A1 B1).
Qed.
Print Assumptions plugins_keep_sections.

(* ---- C15 ---- *)
Theorem event_line_reads : forall ty fmt vals n, event_values (format_or default_events_format fmt) vals ->
  parse_event_line (event_type_str ty ++ lit ":" ++ join [44%N] vals) fmt n =
    Ok (event_of ty (format_or default_events_format fmt) vals (Span 0 0 n 1)).
Proof. exact event_line_ok. Qed.
Print Assumptions event_line_reads.
Theorem event_line_reads_only : forall line fmt n e, parse_event_line line fmt n = Ok e -> exists ty vals,
  line = event_type_str ty ++ lit ":" ++ join [44%N] vals /\ event_values (format_or default_events_format fmt) vals /\
  e = event_of ty (format_or default_events_format fmt) vals (Span 0 0 n 1).
Proof. exact event_line_inv. Qed.
Print Assumptions event_line_reads_only.
Theorem event_text_keeps_commas : forall ty columns text vals n, Forall comma_free vals -> List.length vals = List.length columns ->
  named columns (lit "Text") = false ->
  exists e, parse_event_line (event_type_str ty ++ lit ":" ++ join [44%N] (vals ++ [text])) (columns ++ [lit "Text"]) n = Ok e /\
    e_text e = trim text /\ e_start e = under columns vals (lit "Start").
Proof. exact event_text_commas. Qed.
Print Assumptions event_text_keeps_commas.
Example event_text_instance :
  named [lit "start"; lit "Layer"] (lit "Text") = false /\ Forall comma_free [lit " 1"; lit "2 "] /\
  exists e, parse_event_line (lit "Dialogue: 1,2 ,a,b,{\k1},") [lit "start"; lit "Layer"; lit "Text"] 7 = Ok e /\
    e_start e = lit "1" /\ e_layer e = lit "2" /\ e_text e = lit "a,b,{\k1},".
Proof. split; [reflexivity|]. split; [repeat constructor|]. eexists. split; [vm_compute; reflexivity|]. repeat split. Qed.

(* ---- C13 ---- *)
Theorem event_write_read : forall e n, e_margin_t e = None -> e_margin_b e = None ->
  Forall comma_free [e_layer e; e_start e; e_end e; e_style e; e_name e; e_margin_l e; e_margin_r e; e_margin_v e; e_effect e] ->
  Forall trim_ok [e_layer e; e_start e; e_end e; e_style e; e_name e; e_margin_l e; e_margin_r e; e_margin_v e; e_effect e; e_text e] ->
  parse_event_line (event_to_string e) [] n = Ok (set_event_span e (Span 0 0 n 1)).
Proof. exact event_built. Qed.
Print Assumptions event_write_read.
Theorem event_read_write_read : forall line fmt n e, parse_event_line line fmt n = Ok e -> fmt <> [] -> spelled event_columns fmt ->
  (In (lit "Actor") fmt -> named fmt (lit "Name") = false) ->
  parse_event_line (event_to_string_with e fmt) fmt n = Ok e.
Proof. exact event_roundtrip. Qed.
Print Assumptions event_read_write_read.
Theorem event_read_write_read_default : forall line n e, parse_event_line line [] n = Ok e -> parse_event_line (event_to_string e) [] n = Ok e.
Proof. exact event_roundtrip_default. Qed.
Print Assumptions event_read_write_read_default.
Definition three : list str := map lit ["Start"; "MarginT"; "Text"]%string.
Example event_write_read_instance : spelled event_columns three /\ ~ In (lit "Actor") three /\
  exists e, parse_event_line (lit "Comment: 1, 5 ,a,b") three 3 = Ok e /\ event_to_string_with e three = lit "Comment: 1,5,a,b".
Proof.
  split; [|split; [|eexists; split; vm_compute; reflexivity]].
  - intros f c Hf Hc. unfold three, event_columns in *. cbn [map In] in *.
    repeat (destruct Hf as [<-|Hf]; [repeat (destruct Hc as [<-|Hc]; [vm_compute; congruence|]); contradiction|]). contradiction.
  - cbn. intuition discriminate.
Qed.
(* The writer compares column names exactly, the reader without case: a column
   spelled otherwise is lost. *)
Theorem event_case_lost_refuted : exists line fmt n e e', parse_event_line line fmt n = Ok e /\
  parse_event_line (event_to_string_with e fmt) fmt n = Ok e' /\ e_text e = lit "hi" /\ e_text e' = [].
Proof.
  exists (lit "Dialogue: 1,hi"), [lit "Start"; lit "text"], 0%N. do 2 eexists. split; [vm_compute; reflexivity|]. split; [vm_compute; reflexivity|]. split; reflexivity.
Qed.
Print Assumptions event_case_lost_refuted.
(* The reader ignores an Actor column, which the writer knows. *)
Theorem actor_column_lost_refuted : exists line fmt n e, parse_event_line line fmt n = Ok e /\ In (lit "Actor") fmt /\
  e_name e = [] /\ event_to_string_with e fmt <> line /\ line = lit "Dialogue: Bob,hi".
Proof.
  exists (lit "Dialogue: Bob,hi"), [lit "Actor"; lit "Text"], 0%N. eexists. split; [vm_compute; reflexivity|]. split; [left; reflexivity|]. split; [reflexivity|].
  split; [vm_compute; discriminate|reflexivity].
Qed.
Print Assumptions actor_column_lost_refuted.

(* ---- C14 ---- *)
Theorem style_line_reads : forall fmt vals n, vals <> [] -> Forall comma_free vals -> star (hd [] vals) = false \/ List.length vals = 1 ->
  List.length (format_or default_styles_format fmt) <= List.length vals ->
  parse_style_line (join [44%N] vals) fmt n = Ok (style_of None (format_or default_styles_format fmt) vals (Span 0 0 n 1)).
Proof. exact style_line_ok. Qed.
Print Assumptions style_line_reads.
Theorem style_line_reads_parent : forall fmt a vals n, vals <> [] -> Forall comma_free vals -> comma_free a -> star a = true ->
  List.length (format_or default_styles_format fmt) <= List.length vals ->
  parse_style_line (join [44%N] (a :: vals)) fmt n = Ok (style_of (Some (parent_name a)) (format_or default_styles_format fmt) vals (Span 0 0 n 1)).
Proof. exact style_line_parent. Qed.
Print Assumptions style_line_reads_parent.
Theorem style_read_write_read : forall line fmt n s, parse_style_line line fmt n = Ok s -> s_parent s = None -> fmt <> [] -> spelled_style fmt ->
  (In (lit "TertiaryColour") fmt -> named fmt (lit "OutlineColour") = false) ->
  exists d, strip_prefix (lit "Style:") (style_to_string_with s fmt) = Some d /\ parse_style_line (trim d) fmt n = Ok s.
Proof. exact style_roundtrip. Qed.
Print Assumptions style_read_write_read.
Theorem style_read_write_read_default : forall line n s, parse_style_line line [] n = Ok s -> s_parent s = None ->
  exists d, strip_prefix (lit "Style:") (style_to_string s) = Some d /\ parse_style_line (trim d) [] n = Ok s.
Proof. exact style_roundtrip_default. Qed.
Print Assumptions style_read_write_read_default.
Example style_instance : star (lit "Main") = false /\
  exists s, parse_style_line (lit "Main, Arial ,20") [lit "Name"; lit "Fontname"; lit "Fontsize"] 1 = Ok s /\ s_parent s = None /\
    style_to_string_with s [lit "Name"; lit "Fontname"; lit "Fontsize"] = lit "Style: Main,Arial,20".
Proof. split; [reflexivity|]. eexists. split; [vm_compute; reflexivity|]. split; vm_compute; reflexivity. Qed.
(* The writer drops the parent. *)
Theorem style_parent_lost_refuted : exists line fmt n s d s', parse_style_line line fmt n = Ok s /\ s_parent s = Some (lit "Base") /\
  strip_prefix (lit "Style:") (style_to_string_with s fmt) = Some d /\ parse_style_line (trim d) fmt n = Ok s' /\ s_parent s' = None.
Proof.
  exists (lit "*Base,Main,Arial"), [lit "Name"; lit "Fontname"], 0%N. do 3 eexists. split; [vm_compute; reflexivity|]. split; [vm_compute; reflexivity|].
  split; [vm_compute; reflexivity|]. split; vm_compute; reflexivity.
Qed.
Print Assumptions style_parent_lost_refuted.

(* ---- C56 ---- *)
Theorem script_write_read : forall reg sc, script_ok sc -> small (script_to_string sc) ->
  exists sc', parse_with reg (script_to_string sc) = Done sc' /\ map bare (sc_sections sc') = map bare (sc_sections sc) /\
    sc_version sc' = sc_version sc /\ sc_styles_format sc' = sc_styles_format sc /\ sc_events_format sc' = sc_events_format sc.
Proof. exact script_roundtrip. Qed.
Print Assumptions script_write_read.
Theorem script_read_write_read : forall reg src sc fs fe, small src -> small (script_to_string sc) ->
  headers_closed (source_lines src) = true -> parse_with reg src = Done sc -> expressible fs fe (source_lines src) sc ->
  exists sc', parse_with reg (script_to_string sc) = Done sc' /\ map bare (sc_sections sc') = map bare (sc_sections sc) /\
    sc_version sc' = sc_version sc /\ sc_styles_format sc' = sc_styles_format sc /\ sc_events_format sc' = sc_events_format sc.
Proof. exact parse_again. Qed.
Print Assumptions script_read_write_read.
Example script_instance : expressible (map lit ["Name"; "Fontname"]%string) (map lit ["Start"; "Text"]%string) (source_lines sample) sample_result /\
  script_to_string sample_result = rows
  ["[Script Info]"; "Title: a"; "ScriptType: v4.00++"; ""; "[V4+ Styles]"; "Format: Name, Fontname"; "Style: Main,Arial"; "";
   "[Events]"; "Format: Start, Text"; "Dialogue: 0:00:01.00,Hello, world"; "Comment: 0:00:02.00,x"; "";
   "[Fonts]"; "fontname: f.ttf"; "0123"; ""]%string.
Proof.
  split; [|vm_compute; reflexivity]. constructor.
  - intros n r H E. subst n. vm_compute in H. repeat (destruct H as [H|H]; [injection H; intros; try discriminate; subst r; vm_compute; tauto|]). contradiction.
  - intros n r H E. vm_compute in H. repeat (destruct H as [H|H]; [injection H; intros <- <-; try discriminate E; vm_compute; intuition discriminate|]). contradiction.
  - split; [|vm_compute; intuition discriminate]. intros f c Hf Hc. unfold event_columns in *. cbn [map In] in *.
    repeat (destruct Hf as [<-|Hf]; [repeat (destruct Hc as [<-|Hc]; [vm_compute; congruence|]); contradiction|]). contradiction.
  - split; [|vm_compute; intuition discriminate]. intros f c Hf Hc. unfold style_columns in *. cbn [map In] in *.
    repeat (destruct Hf as [<-|Hf]; [repeat (destruct Hc as [<-|Hc]; [vm_compute; intuition congruence|]); contradiction|]). contradiction.
  - intros l s H K. unfold sample_result in H. cbn [sc_sections In] in H. repeat (destruct H as [H|H]; [try discriminate H; injection H as <-; cbn [In] in K; repeat (destruct K as [<-|K]; [reflexivity|]); contradiction|]). contradiction.
  - intros l _ E. discriminate E.
  - intros l [H|H]; unfold sample_result in H; cbn [sc_sections In] in H; repeat (destruct H as [H|H]; [try discriminate H; injection H as <-; cbn; lia|]); contradiction.
  - intros fields sp k v H K. unfold sample_result in H. cbn [sc_sections In] in H. repeat (destruct H as [H|H]; [try discriminate H; injection H as <- <-; cbn [In] in K; repeat (destruct K as [K|K]; [injection K as <- <-; reflexivity|]); contradiction|]). contradiction.
Qed.
(* Two sections with different Format lines: the writer uses the last format for
   both. *)
Definition two_formats : str := rows ["[Events]"; "Format: Start, Text"; "Dialogue: 1,hi"; "[Events]"; "Format: Layer, Text"; "Dialogue: 2,ho"]%string.
Definition two_formats_result : script := Eval vm_compute in match parse two_formats with Done s => s | _ => Script AssV4 [] [] None None end.
Theorem script_formats_mixed_refuted : exists src sc sc' e r e' r', parse src = Done sc /\ parse (script_to_string sc) = Done sc' /\
  sc_sections sc = SEvents [e] :: r /\ sc_sections sc' = SEvents [e'] :: r' /\ e_start e = lit "1" /\ e_start e' = [].
Proof.
  exists two_formats, two_formats_result. do 5 eexists. split; [vm_compute; reflexivity|]. split; [vm_compute; reflexivity|]. split; [reflexivity|]. split; [reflexivity|]. split; reflexivity.
Qed.
Print Assumptions script_formats_mixed_refuted.
(* A second section without a Format line makes the writer forget the first
   one's, and with it the columns outside the default format. *)
Definition lost_format : str := rows ["[Events]"; "Format: MarginT, Text"; "Dialogue: 5,hi"; "[Events]"]%string.
Definition lost_format_result : script := Eval vm_compute in match parse lost_format with Done s => s | _ => Script AssV4 [] [] None None end.
Theorem script_format_forgotten_refuted : exists src sc sc' e e' r r', parse src = Done sc /\ parse (script_to_string sc) = Done sc' /\
  sc_sections sc = SEvents [e] :: r /\ e_margin_t e = Some (lit "5") /\ sc_sections sc' = SEvents [e'] :: r' /\ e_margin_t e' = None.
Proof.
  exists lost_format, lost_format_result. do 5 eexists. split; [vm_compute; reflexivity|]. split; [vm_compute; reflexivity|].
  split; [reflexivity|]. split; [reflexivity|]. split; reflexivity.
Qed.
Print Assumptions script_format_forgotten_refuted.
(* A key that an unusual blank protects from being a remark is written as one. *)
Theorem info_key_becomes_remark_refuted : exists src sc sc' k v sp sp', parse src = Done sc /\ parse (script_to_string sc) = Done sc' /\
  sc_sections sc = [SInfo [(k, v)] sp] /\ sc_sections sc' = [SInfo [] sp'].
Proof.
  exists (lit "[Script Info]" ++ nl ++ [12288%N] ++ lit ";abc: x"). do 6 eexists. split; [vm_compute; reflexivity|]. split; [vm_compute; reflexivity|]. split; reflexivity.
Qed.
Print Assumptions info_key_becomes_remark_refuted.
