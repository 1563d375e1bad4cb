(* C116-C118: editing events, styles and fields at places found by text search. *)
From Verif Require Import Base BaseLemmas DocModel DocSpec DocProofs ParseModel ParseSpec ParseProps EventCmdModel EventCmdSpec EventCmdProofs IncrModel IncrBounds StyleCmdSpec StyleCmdProofs StyleCmdProps InfoCmdSpec InfoCmdProofs BuilderModel BuilderSpec BuilderProofs BuilderProps QueryModel LineEditModel LineEditSpec LineEditProofs.

Local Notation known := (Forall (fun m : str * str => In (fst m) event_fields)).
Local Definition opened t := fresh 10 1000 t.
Local Definition lines (l : list string) : str := flat_map (fun s => lit s ++ [10%N]) l.
Local Definition head_ := lines ["[Events]"; "Format: Layer, Start, End, Style, Name, MarginL, MarginR, MarginV, Effect, Text"]%string.

(* ---- C116: an event edited by its index ---- *)
(* Where the first text like the start of the event's line is that line, the
   line becomes the event with its fields changed, and nothing else changes. *)
Theorem edit_index_exact sz d i update sc e A l rest : handled sz d -> parse (text d) = Done sc -> nth_error (events_of sc) i = Some e ->
  first_place (shown e) (text d) A l rest -> known (update e) ->
  exists d', edit_event_by_index sz d i update = Done (d', Some (event_to_string (with_fields e (update e)))) /\
    text d' = A ++ event_to_string (with_fields e (update e)) ++ rest /\ handled sz d'.
Proof.
  intros H P N F K. unfold edit_event_by_index. rewrite P. cbn [bind]. rewrite N, pattern_shown, (locate_first _ _ _ _ _ (shown_ne e) F). unfold modified_line. rewrite (set_fields_known _ _ K). cbn [option_map].
  destruct F as (T & _). rewrite (app_assoc (shown e)) in T. now apply put_line_ok.
Qed.
(* The new line reads as the changed event, if its fields can stand in a line. *)
Theorem edit_index_reads e ms n : let x := with_fields e ms in e_margin_t e = None -> e_margin_b e = None ->
  Forall comma_free [e_layer x; e_start x; e_end x; e_style x; e_name x; e_margin_l x; e_margin_r x; e_margin_v x; e_effect x] ->
  Forall trim_ok [e_layer x; e_start x; e_end x; e_style x; e_name x; e_margin_l x; e_margin_r x; e_margin_v x; e_effect x; e_text x] ->
  parse_event_line (event_to_string x) [] n = Ok (set_event_span x (Span 0 0 n 1)).
Proof. intros x T B C R. now apply event_write_read. Qed.
(* Otherwise the call is an error and changes nothing. *)
Theorem edit_index_errors sz d i update sc : parse (text d) = Done sc ->
  nth_error (events_of sc) i = None \/ (exists e, nth_error (events_of sc) i = Some e /\ (~ known (update e) \/ ~ has (shown e) (text d))) ->
  edit_event_by_index sz d i update = Done (d, None).
Proof.
  intros P H. unfold edit_event_by_index. rewrite P. cbn [bind]. destruct H as [->|(e & -> & [K|K])]; [reflexivity| |].
  - unfold modified_line. rewrite set_fields_unknown by exact K. destruct (locate _ _); reflexivity.
  - rewrite pattern_shown, locate_none by exact K. reflexivity.
Qed.
(* The event changed is the first with that kind, layer and times: with two,
   the second cannot be edited and the first is overwritten by it. *)
Theorem edit_index_same_refuted : exists d e d' l, (exists sc, parse (text d) = Done sc /\ nth_error (events_of sc) 1 = Some e /\ e_text e = lit "two") /\
  edit_event_by_index 64 d 1 (fun _ => [(lit "text", lit "new")]) = Done (d', Some l) /\
  text d = head_ ++ lines ["Dialogue: 0,0:00:01.00,0:00:02.00,A,,0,0,0,,one"; "Dialogue: 0,0:00:01.00,0:00:02.00,B,,0,0,0,,two"]%string /\
  text d' = head_ ++ lines ["Dialogue: 0,0:00:01.00,0:00:02.00,B,,0,0,0,,new"; "Dialogue: 0,0:00:01.00,0:00:02.00,B,,0,0,0,,two"]%string.
Proof.
  exists (opened (head_ ++ lines ["Dialogue: 0,0:00:01.00,0:00:02.00,A,,0,0,0,,one"; "Dialogue: 0,0:00:01.00,0:00:02.00,B,,0,0,0,,two"]%string)).
  do 3 eexists. split; [eexists; split; [vm_compute; reflexivity|split; [vm_compute; reflexivity|vm_compute; reflexivity]]|]. split; [vm_compute; reflexivity|]. split; vm_compute; reflexivity.
Qed.
(* A line with other blanks, or with the fields in another order, is not found. *)
Theorem edit_index_blank_refuted : exists d, (exists sc e, parse (text d) = Done sc /\ nth_error (events_of sc) 0 = Some e) /\
  edit_event_by_index 64 d 0 (fun _ => [(lit "text", lit "new")]) = Done (d, None).
Proof.
  exists (opened (head_ ++ lines ["Dialogue:0,0:00:01.00,0:00:02.00,A,,0,0,0,,one"]%string)). split; [do 2 eexists; split; vm_compute; reflexivity|vm_compute; reflexivity].
Qed.
Theorem edit_index_order_refuted : exists d, (exists sc e, parse (text d) = Done sc /\ nth_error (events_of sc) 0 = Some e) /\
  edit_event_by_index 64 d 0 (fun _ => [(lit "text", lit "new")]) = Done (d, None).
Proof.
  exists (opened (lines ["[Events]"; "Format: Start, End, Layer, Text"; "Dialogue: 0:00:01.00,0:00:02.00,0,one"]%string)). split; [do 2 eexists; split; vm_compute; reflexivity|vm_compute; reflexivity].
Qed.
(* The line written has the ten standard fields, whatever the format line is. *)
Theorem edit_index_columns_refuted : exists d d' l, edit_event_by_index 64 d 0 (fun _ => [(lit "text", lit "new")]) = Done (d', Some l) /\
  text d = lines ["[Events]"; "Format: Layer, Start, End, Text"; "Dialogue: 0,0:00:01.00,0:00:02.00,one"]%string /\
  exists sc e, parse (text d') = Done sc /\ nth_error (events_of sc) 0 = Some e /\ e_text e = lit ",,,,,,new".
Proof.
  exists (opened (lines ["[Events]"; "Format: Layer, Start, End, Text"; "Dialogue: 0,0:00:01.00,0:00:02.00,one"]%string)).
  do 2 eexists. split; [vm_compute; reflexivity|]. split; [reflexivity|]. do 2 eexists. split; [vm_compute; reflexivity|]. split; vm_compute; reflexivity.
Qed.
Example edit_index_instance : let d := opened (head_ ++ lines ["Dialogue: 0,0:00:01.00,0:00:02.00,A,,0,0,0,,one"; "Comment: 1,0:00:01.00,0:00:02.00,B,,0,0,0,,two"]%string) in
  (exists sc e, parse (text d) = Done sc /\ nth_error (events_of sc) 1 = Some e /\
    first_place (shown e) (text d) (head_ ++ lines ["Dialogue: 0,0:00:01.00,0:00:02.00,A,,0,0,0,,one"]%string) (lit ",B,,0,0,0,,two") [10%N]) /\
  exists d', edit_event_by_index 64 d 1 (fun e => [(lit "text", e_text e ++ lit "!"); (lit "style", lit "C")]) = Done (d', Some (lit "Comment: 1,0:00:01.00,0:00:02.00,C,,0,0,0,,two!")).
Proof.
  cbv zeta. split; [do 2 eexists; split; [vm_compute; reflexivity|split; [vm_compute; reflexivity|]]|eexists; vm_compute; reflexivity].
  split; [vm_compute; reflexivity|]. split; [apply first_at_dec; vm_compute; reflexivity|]. split; [|right; now exists []]. vm_compute. intros Q. repeat (destruct Q as [Q|Q]; [discriminate Q|]). exact Q.
Qed.

(* ---- C117: an event edited through a builder ---- *)
(* With a format line of known columns that ends in the text, the new line is
   under that format the event told: what the builder was told last, and
   otherwise what the event said. *)
Theorem edit_builder_exact sz d i calls sc e A l rest a m f rest' cols n : handled sz d -> parse (text d) = Done sc -> nth_error (events_of sc) i = Some e ->
  first_place (shown e) (text d) A l rest -> format_after (lit "[Events]") (text d) a m f rest' ->
  map trim (split_on is_comma (trim f)) = map lit (cols ++ ["Text"%string]) -> incl cols event_names -> ~ In "Text"%string cols ->
  plain_numbers e -> Forall comma_free [e_start e; e_end e; e_style e; e_name e; e_effect e] ->
  Forall trim_ok [e_start e; e_end e; e_style e; e_name e; e_effect e; e_text e] -> Forall call_ok calls ->
  exists d' line x, edit_event_with_builder sz d i (fun b => fold_left set_event calls b) = Done (d', Some line) /\ text d' = A ++ line ++ rest /\ handled sz d' /\
    parse_event_line line (map lit (cols ++ ["Text"%string])) n = Ok x /\
    e_type x = (match e_type e with Comment => Comment | _ => Dialogue end) /\
    (forall c, In c cols \/ c = "Text"%string -> own x c = latest (map writes calls) c (own e c)).
Proof.
  intros H P N F G FM I NT PN CF TO CO. assert (CK : Forall call_ok (calls_of e ++ calls)) by (apply Forall_app; split; [now apply plain_ok|exact CO]).
  destruct (event_format_reads (kind_of e) (calls_of e ++ calls) cols n CK I NT) as (line & B & R).
  assert (T := F). destruct T as (T & _). rewrite (app_assoc (shown e)) in T. destruct (put_line_ok sz d A (shown e ++ l) rest line H T) as (d' & E & T' & H').
  eexists d', line, _. split; [|split; [exact T'|split; [exact H'|split; [exact R|]]]].
  - unfold edit_event_with_builder. rewrite P. cbn [bind]. rewrite N, (events_format_first _ _ _ _ _ G), FM, pattern_shown, (locate_first _ _ _ _ _ (shown_ne e) F).
    replace (fold_left set_event calls (event_builder_of (kind_of e) (calls_of e))) with (event_builder_of (kind_of e) (calls_of e ++ calls)) by (unfold event_builder_of; apply fold_left_app).
    cbv zeta. rewrite B. exact E.
  - split; [unfold kind_of; cbn [told_event e_type]; destruct (e_type e); reflexivity|].
    intros c C. assert (Cn : In c event_names) by (destruct C as [C| ->]; [now apply I|unfold event_names; cbn [In]; tauto]).
    assert (X : existsb (String.eqb c) (cols ++ ["Text"%string]) = true).
    { apply existsb_exists. exists c. split; [|apply String.eqb_refl]. apply in_or_app. destruct C as [C| ->]; [now left|right; now left]. }
    rewrite <- told_kept by assumption. unfold told_event, own. cbn [e_layer e_start e_end e_style e_name e_margin_l e_margin_r e_margin_v e_margin_t e_margin_b e_effect e_text].
    unfold event_names in Cn. repeat (destruct Cn as [<-|Cn]; [rewrite X; reflexivity|]). destruct Cn.
Qed.
(* errors: no such event, a column the builder does not know, no such line *)
Theorem edit_builder_errors sz d i calls sc : parse (text d) = Done sc ->
  nth_error (events_of sc) i = None \/
  (exists e, nth_error (events_of sc) i = Some e /\ ~ has (shown e) (text d)) \/
  (exists a m f rest c, format_after (lit "[Events]") (text d) a m f rest /\ In c (map trim (split_on is_comma (trim f))) /\ ~ In c (map lit ("Actor"%string :: event_names))) ->
  edit_event_with_builder sz d i (fun b => fold_left set_event calls b) = Done (d, None).
Proof.
  intros P H. unfold edit_event_with_builder. rewrite P. cbn [bind]. destruct (nth_error (events_of sc) i) as [e|] eqn:N; [|reflexivity]. cbv zeta.
  destruct H as [H|[(x & X & H)|(a & m & f & rest & c & G & C & NC)]]; [discriminate H| |].
  - injection X as <-. rewrite pattern_shown, locate_none by exact H. destruct (match events_format (text d) with Some f => _ | None => _ end); reflexivity.
  - rewrite (events_format_first _ _ _ _ _ G). replace (fold_left set_event calls (event_builder_of (kind_of e) (calls_of e))) with (event_builder_of (kind_of e) (calls_of e ++ calls)) by (unfold event_builder_of; apply fold_left_app).
    destruct (event_format_errors (kind_of e) (calls_of e ++ calls) (map trim (split_on is_comma (trim f)))) as [_ Z]. rewrite Z; [reflexivity|]. right. eauto.
Qed.
(* A picture, sound, movie or command becomes a dialogue, and margins that are
   not numbers become 0, also with no change asked for. *)
Theorem edit_builder_kind_refuted : exists d d' l, text d = head_ ++ lines ["Picture: 0,0:00:01.00,0:00:02.00,A,,0,0,0,,one.png"]%string /\
  edit_event_with_builder 64 d 0 (fun b => b) = Done (d', Some l) /\ text d' = head_ ++ lines ["Dialogue: 0,0:00:01.00,0:00:02.00,A,,0,0,0,,one.png"]%string.
Proof.
  exists (opened (head_ ++ lines ["Picture: 0,0:00:01.00,0:00:02.00,A,,0,0,0,,one.png"]%string)). do 2 eexists. split; [reflexivity|]. split; vm_compute; reflexivity.
Qed.
Theorem edit_builder_number_refuted : exists d d' l, text d = head_ ++ lines ["Dialogue: -1,0:00:01.00,0:00:02.00,A,,-5,0,0,,one"]%string /\
  edit_event_with_builder 64 d 0 (fun b => b) = Done (d', Some l) /\ text d' = head_ ++ lines ["Dialogue: 0,0:00:01.00,0:00:02.00,A,,0,0,0,,one"]%string.
Proof.
  exists (opened (head_ ++ lines ["Dialogue: -1,0:00:01.00,0:00:02.00,A,,-5,0,0,,one"]%string)). do 2 eexists. split; [reflexivity|]. split; vm_compute; reflexivity.
Qed.
(* With a second events section, the format is that of the first. *)
Theorem edit_builder_sections_refuted : exists d d' l,
  text d = lines ["[Events]"; "Format: Layer, Start, End, Style, Text"; "[Events]"; "Format: Layer, Start, End, Text"; "Dialogue: 0,0:00:01.00,0:00:02.00,one"]%string /\
  edit_event_with_builder 64 d 0 (fun b => b) = Done (d', Some l) /\ exists sc e, parse (text d') = Done sc /\ nth_error (events_of sc) 0 = Some e /\ e_text e = lit ",one".
Proof.
  exists (opened (lines ["[Events]"; "Format: Layer, Start, End, Style, Text"; "[Events]"; "Format: Layer, Start, End, Text"; "Dialogue: 0,0:00:01.00,0:00:02.00,one"]%string)).
  do 2 eexists. split; [reflexivity|]. split; [vm_compute; reflexivity|]. do 2 eexists. split; [vm_compute; reflexivity|]. split; vm_compute; reflexivity.
Qed.
Example edit_builder_instance : let t := lines ["[Events]"; "Format: Layer, Start, End, Style, Text"; "Comment: 7,0:00:01.00,0:00:02.00,A,one, two"]%string in
  format_after (lit "[Events]") t [] [10%N] (lit " Layer, Start, End, Style, Text") (lines ["Comment: 7,0:00:01.00,0:00:02.00,A,one, two"]%string) /\
  map trim (split_on is_comma (trim (lit " Layer, Start, End, Style, Text"))) = map lit (["Layer"; "Start"; "End"; "Style"]%string ++ ["Text"%string]) /\
  exists d', edit_event_with_builder 64 (opened t) 0 (fun b => fold_left set_event [CLayer 9; CText (lit "x")] b) = Done (d', Some (lit "Comment: 9,0:00:01.00,0:00:02.00,A,x")).
Proof.
  cbv zeta. split; [|split; [vm_compute; reflexivity|eexists; vm_compute; reflexivity]].
  split; [reflexivity|]. split; [apply first_at_dec; vm_compute; reflexivity|]. split; [apply first_at_dec; vm_compute; reflexivity|].
  vm_compute. intros Q. repeat (destruct Q as [Q|Q]; [discriminate Q|]). exact Q.
Qed.

Lemma found p t A rest : p <> [] -> t = A ++ p ++ rest -> first_at p A -> find_str p t = Some (A, p ++ rest).
Proof. intros N -> F. now apply find_first. Qed.
(* ---- C118: texts, fields and lines found by search ---- *)
(* The first occurrence of the text, anywhere in the document, is replaced. *)
Theorem edit_text_exact sz d old new A rest : handled sz d -> old <> [] -> text d = A ++ old ++ rest -> first_at old A ->
  exists d', edit_event_text sz d old new = OOk d' tt /\ text d' = A ++ new ++ rest /\ handled sz d'.
Proof. intros H N T F. unfold edit_event_text. rewrite (found _ _ _ _ N T F). now apply located_replace. Qed.
Theorem edit_text_absent sz d old new : ~ has old (text d) -> edit_event_text sz d old new = OOk d tt.
Proof. intros H. unfold edit_event_text. now rewrite find_missing. Qed.
Theorem edit_text_refuted : exists d d', text d = lines ["[Script Info]"; "Title: one"; "[Events]"; "Dialogue: 0,0:00:01.00,0:00:02.00,A,,0,0,0,,one"]%string /\
  edit_event_text 64 d (lit "one") (lit "two") = OOk d' tt /\ text d' = lines ["[Script Info]"; "Title: two"; "[Events]"; "Dialogue: 0,0:00:01.00,0:00:02.00,A,,0,0,0,,one"]%string.
Proof.
  exists (opened (lines ["[Script Info]"; "Title: one"; "[Events]"; "Dialogue: 0,0:00:01.00,0:00:02.00,A,,0,0,0,,one"]%string)). eexists. split; [reflexivity|]. split; vm_compute; reflexivity.
Qed.
Theorem set_field_exact sz d key value A l rest : handled sz d -> first_place (key ++ lit ":") (text d) A l rest ->
  exists d', set_info_field sz d key value = OOk d' tt /\ text d' = A ++ key ++ lit ": " ++ value ++ rest /\ handled sz d'.
Proof.
  intros H F. unfold set_info_field. assert (NE : key ++ lit ":" <> []) by (destruct key; discriminate). rewrite (locate_first _ _ _ _ _ NE F). destruct F as (T & _). rewrite (app_assoc (key ++ lit ":")) in T.
  destruct (located_replace sz d A ((key ++ lit ":") ++ l) rest (key ++ lit ": " ++ value) H T) as (d' & E & T' & H'). exists d'. split; [exact E|]. split; [|exact H']. rewrite T'. now rewrite <- !app_assoc.
Qed.
(* A field that is not there is not added, and there is no error. *)
Theorem set_field_absent sz d key value : ~ has (key ++ lit ":") (text d) -> set_info_field sz d key value = OOk d tt.
Proof. intros H. unfold set_info_field. now rewrite locate_none. Qed.
(* The name may be found inside another one, whose line is cut. *)
Theorem set_field_inside_refuted : exists d d', text d = lines ["[Script Info]"; "Original Title: one"; "Title: two"]%string /\
  set_info_field 64 d (lit "Title") (lit "three") = OOk d' tt /\ text d' = lines ["[Script Info]"; "Original Title: three"; "Title: two"]%string.
Proof.
  exists (opened (lines ["[Script Info]"; "Original Title: one"; "Title: two"]%string)). eexists. split; [reflexivity|]. split; vm_compute; reflexivity.
Qed.
(* An event or style line is put right after the format line. *)
Theorem add_event_exact sz d line a m f rest : handled sz d -> format_after (lit "[Events]") (text d) a m f rest ->
  exists d', add_event_line sz d line = OOk d' tt /\ text d' = (a ++ lit "[Events]" ++ m ++ lit "Format:" ++ f ++ [10%N]) ++ line ++ 10%N :: rest /\ handled sz d'.
Proof.
  intros H G. pose proof (after_format_first _ _ _ _ _ _ G) as L. destruct G as (T & F1 & _). unfold add_event_line. rewrite (found (lit "[Events]") _ _ _ ltac:(discriminate) T F1), L.
  assert (T' : text d = (a ++ lit "[Events]" ++ m ++ lit "Format:" ++ f ++ [10%N]) ++ rest) by (rewrite T, <- !app_assoc; reflexivity).
  destruct (handled_insert sz d _ _ (line ++ [10%N]) H T') as (d' & E & X & H'). exists d'. split; [exact E|]. split; [|exact H']. rewrite X, <- (app_assoc line). reflexivity.
Qed.
Theorem add_event_new sz d line : handled sz d -> ~ has (lit "[Events]") (text d) ->
  exists d', add_event_line sz d line = OOk d' tt /\
    text d' = text d ++ 10%N :: lines ["[Events]"; "Format: Layer, Start, End, Style, Name, MarginL, MarginR, MarginV, Effect, Text"]%string ++ line ++ [10%N] /\ handled sz d'.
Proof.
  intros H N. unfold add_event_line. rewrite find_missing by exact N. destruct (handled_insert sz d (text d) [] (events_section line) H (eq_sym (app_nil_r _))) as (d' & E & X & H'). exists d'. split; [exact E|]. split; [|exact H']. rewrite X, app_nil_r. reflexivity.
Qed.
Theorem add_style_exact sz d line h a m f rest : handled sz d -> format_after h (text d) a m f rest ->
  h = lit "[V4+ Styles]" \/ (h = lit "[V4 Styles]" /\ ~ has (lit "[V4+ Styles]") (text d)) ->
  exists d', add_style_line sz d line = OOk d' tt /\ text d' = (a ++ h ++ m ++ lit "Format:" ++ f ++ [10%N]) ++ line ++ 10%N :: rest /\ handled sz d'.
Proof.
  intros H G Hh. pose proof (after_format_first _ _ _ _ _ _ G) as L. destruct G as (T & F1 & _). unfold add_style_line.
  assert (Q : (match find_str (lit "[V4+ Styles]") (text d) with Some p => Some p | None => find_str (lit "[V4 Styles]") (text d) end) = Some (a, h ++ m ++ lit "Format:" ++ f ++ 10%N :: rest)).
  { destruct Hh as [-> |[-> N]]; [|rewrite (find_missing _ _ N)]; rewrite T, find_first by (try discriminate; exact F1); reflexivity. }
  rewrite Q, L. assert (T' : text d = (a ++ h ++ m ++ lit "Format:" ++ f ++ [10%N]) ++ rest) by (rewrite T, <- !app_assoc; reflexivity).
  destruct (handled_insert sz d _ _ (line ++ [10%N]) H T') as (d' & E & X & H'). exists d'. split; [exact E|]. split; [|exact H']. rewrite X, <- (app_assoc line). reflexivity.
Qed.
(* Without a styles section one is made before the events, or at the end. *)
Theorem add_style_new sz d line a b : handled sz d -> ~ has (lit "[V4+ Styles]") (text d) -> ~ has (lit "[V4 Styles]") (text d) -> text d = a ++ b ->
  (exists r, b = 10%N :: lit "[Events]" ++ r /\ first_at (10%N :: lit "[Events]") a) \/ (b = [] /\ ~ has (10%N :: lit "[Events]") (text d)) ->
  exists d', add_style_line sz d line = OOk d' tt /\ handled sz d' /\ text d' = a ++ 10%N ::
    lines ["[V4+ Styles]"; "Format: Name, Fontname, Fontsize, PrimaryColour, SecondaryColour, OutlineColour, BackColour, Bold, Italic, Underline, StrikeOut, ScaleX, ScaleY, Spacing, Angle, BorderStyle, Outline, Shadow, Alignment, MarginL, MarginR, MarginV, Encoding"]%string
    ++ line ++ 10%N :: b.
Proof.
  intros H N1 N2 T B. unfold add_style_line. rewrite (find_missing _ _ N1), (find_missing _ _ N2). cbv zeta.
  assert (P : (match find_str (10%N :: lit "[Events]") (text d) with Some (x, _) => blen x | None => blen (text d) end) = blen a).
  { destruct B as [(r & -> & F)|[-> N]]; [rewrite T; change (10%N :: lit "[Events]" ++ r) with ((10%N :: lit "[Events]") ++ r); now rewrite find_first by (try discriminate; exact F)|].
    rewrite (find_missing _ _ N), T. now rewrite app_nil_r. }
  rewrite P. destruct (handled_insert sz d a b (styles_section line) H T) as (d' & E & X & H'). exists d'. split; [exact E|]. split; [exact H'|]. rewrite X. unfold styles_section. rewrite <- !app_assoc. reflexivity.
Qed.
Theorem edit_style_exact sz d name line A l rest : handled sz d -> first_place (lit "Style: " ++ name ++ lit ",") (text d) A l rest ->
  exists d', edit_style_line sz d name line = OOk d' tt /\ text d' = A ++ line ++ rest /\ handled sz d'.
Proof.
  intros H F. unfold edit_style_line. rewrite (locate_first (lit "Style: " ++ name ++ lit ",") (text d) A l rest) by (try discriminate; exact F). destruct F as (T & _). rewrite (app_assoc (lit "Style: " ++ name ++ lit ",")) in T. now apply located_replace.
Qed.
Theorem edit_style_absent sz d name line : ~ has (lit "Style: " ++ name ++ lit ",") (text d) -> edit_style_line sz d name line = add_style_line sz d line.
Proof. intros H. unfold edit_style_line. now rewrite locate_none. Qed.
(* A format line that ends the text is cut in two by the new line. *)
Theorem add_event_cut_refuted : exists d d', text d = lit "[Events]" ++ 10%N :: lit "Format: Layer, Start, End, Text" /\
  add_event_line 64 d (lit "Dialogue: 0,1,2,x") = OOk d' tt /\
  text d' = lines ["[Events]"; "FDialogue: 0,1,2,x"]%string ++ lit "ormat: Layer, Start, End, Text".
Proof. exists (opened (lit "[Events]" ++ 10%N :: lit "Format: Layer, Start, End, Text")). eexists. split; [reflexivity|]. split; vm_compute; reflexivity. Qed.
(* In a styles section without format line, the style goes among the events. *)
Theorem add_style_place_refuted : exists d d', text d = lines ["[V4+ Styles]"; "Style: A,Arial"; "[Events]"; "Format: Layer, Start, End, Text"]%string /\
  add_style_line 64 d (lit "Style: B,Arial") = OOk d' tt /\ text d' = lines ["[V4+ Styles]"; "Style: A,Arial"; "[Events]"; "Format: Layer, Start, End, Text"; "Style: B,Arial"]%string.
Proof.
  exists (opened (lines ["[V4+ Styles]"; "Style: A,Arial"; "[Events]"; "Format: Layer, Start, End, Text"]%string)). eexists. split; [reflexivity|]. split; vm_compute; reflexivity.
Qed.
Example line_edit_instance : let t := lines ["[V4+ Styles]"; "Format: Name, Fontname"; "Style: A,Arial"; "[Events]"; "Format: Layer, Start, End, Text"]%string in
  format_after (lit "[Events]") t (lines ["[V4+ Styles]"; "Format: Name, Fontname"; "Style: A,Arial"]%string) [10%N] (lit " Layer, Start, End, Text") [] /\
  first_place (lit "Style: " ++ lit "A" ++ lit ",") t (lines ["[V4+ Styles]"; "Format: Name, Fontname"]%string) (lit "Arial") (10%N :: lines ["[Events]"; "Format: Layer, Start, End, Text"]%string) /\
  exists d', edit_style_line 64 (opened t) (lit "A") (lit "Style: A,Times") = OOk d' tt /\ text d' = lines ["[V4+ Styles]"; "Format: Name, Fontname"; "Style: A,Times"; "[Events]"; "Format: Layer, Start, End, Text"]%string.
Proof.
  cbv zeta. split; [|split; [|eexists; split; vm_compute; reflexivity]].
  - split; [reflexivity|]. split; [apply first_at_dec; vm_compute; reflexivity|]. split; [apply first_at_dec; vm_compute; reflexivity|].
    vm_compute. intros Q. repeat (destruct Q as [Q|Q]; [discriminate Q|]). exact Q.
  - split; [reflexivity|]. split; [apply first_at_dec; vm_compute; reflexivity|]. split; [|right; eexists; reflexivity].
    vm_compute. intros Q. repeat (destruct Q as [Q|Q]; [discriminate Q|]). exact Q.
Qed.

Print Assumptions edit_index_exact.
Print Assumptions edit_index_reads.
Print Assumptions edit_index_errors.
Print Assumptions edit_index_same_refuted.
Print Assumptions edit_index_blank_refuted.
Print Assumptions edit_index_order_refuted.
Print Assumptions edit_index_columns_refuted.
Print Assumptions edit_builder_exact.
Print Assumptions edit_builder_errors.
Print Assumptions edit_builder_kind_refuted.
Print Assumptions edit_builder_number_refuted.
Print Assumptions edit_builder_sections_refuted.
Print Assumptions edit_text_exact.
Print Assumptions edit_text_absent.
Print Assumptions edit_text_refuted.
Print Assumptions set_field_exact.
Print Assumptions set_field_absent.
Print Assumptions set_field_inside_refuted.
Print Assumptions add_event_exact.
Print Assumptions add_event_new.
Print Assumptions add_style_exact.
Print Assumptions add_style_new.
Print Assumptions edit_style_exact.
Print Assumptions edit_style_absent.
Print Assumptions add_event_cut_refuted.
Print Assumptions add_style_place_refuted.
