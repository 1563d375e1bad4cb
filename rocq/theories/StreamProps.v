(* Properties of the streaming parser: C18. *)
From Verif Require Import Base BaseLemmas ParseModel StreamModel StreamSpec StreamProofs.

(* from_utf8 accepts exactly the encodings of texts. *)
Theorem from_utf8_exact : forall b s, from_utf8 b = Some s <-> b = encode s /\ Forall scalar s.
Proof. intros b s. split; [apply encode_decode|]. intros [-> H]. apply decode_encode, H. Qed.
Print Assumptions from_utf8_exact.
Theorem encode_bytes : forall s, List.length (encode s) = blen s.
Proof. exact encode_length. Qed.
Print Assumptions encode_bytes.

(* Any two divisions of the same bytes, cut between characters and not after a
   carriage return, lead to the same state, and to that of one single chunk. *)
Theorem stream_division_free : forall cs ts cs' ts', division cs ts -> division cs' ts' -> concat cs = concat cs' ->
  fst (feed_all stream_new cs) = fst (feed_all stream_new cs').
Proof. intros cs ts cs' ts' H H' E. rewrite (feed_at_once cs ts H), (feed_at_once cs' ts' H'), E. reflexivity. Qed.
Print Assumptions stream_division_free.
Theorem stream_same_as_at_once : forall cs ts, division cs ts -> fst (feed_all stream_new cs) = fst (feed_chunk stream_new (concat cs)).
Proof. exact feed_at_once. Qed.
Print Assumptions stream_same_as_at_once.
(* The state is that of the closed lines; the open one is held back. *)
Theorem stream_state_of_lines : forall cs ts, division cs ts -> no_cr_end (concat ts) ->
  let s := fst (feed_all stream_new cs) in
  st_proc s = fst (process_lines proc_new (closed_lines (concat ts))) /\ st_buffer s = open_line (concat ts).
Proof. intros cs ts H N. rewrite (feed_all_division cs ts H). unfold after_text. rewrite N, app_nil_r. split; reflexivity. Qed.
Print Assumptions stream_state_of_lines.
Definition sample : str := lit "[Events]" ++ [10%N] ++ lit "Format: Start, Text" ++ [13; 10; 233]%N.
Example stream_instance : division [encode (firstn 4 sample); encode (skipn 4 sample)] [firstn 4 sample; skipn 4 sample] /\ no_cr_end sample /\
  let s := fst (feed_all stream_new [encode (firstn 4 sample); encode (skipn 4 sample)]) in
  pr_events (st_proc s) = Some (lit "Start, Text") /\ st_buffer s = [233]%N /\ pr_line (st_proc s) = 2.
Proof.
  split; [|split; [reflexivity|vm_compute; auto]]. split; [repeat constructor|]. cbn [removelast]. constructor; [reflexivity|constructor].
Qed.
(* Cut inside a CRLF pair the line end is counted twice, *)
Theorem stream_crlf_cut_refuted : exists a b, pr_line (st_proc (fst (feed_all stream_new [a; b]))) <> pr_line (st_proc (fst (feed_chunk stream_new (a ++ b)))).
Proof. exists (lit "x" ++ [13%N]), [10%N]. vm_compute. discriminate. Qed.
Print Assumptions stream_crlf_cut_refuted.
(* and a format may be cut short. *)
Theorem stream_cr_cut_refuted : exists a b, pr_events (st_proc (fst (feed_all stream_new [a; b]))) <> pr_events (st_proc (fst (feed_chunk stream_new (a ++ b)))).
Proof. exists (lit "[Events]" ++ [10%N] ++ lit "Format: Start," ++ [13%N]), (lit " Text" ++ [10%N]). vm_compute. discriminate. Qed.
Print Assumptions stream_cr_cut_refuted.
(* Cut inside a character both halves are refused, although together they are
   valid, and the text around them is lost. *)
Theorem stream_char_cut_refuted : exists a b, snd (feed_chunk stream_new (a ++ b)) = Some [] /\
  snd (feed_all stream_new [a; b]) = [None; None] /\ fst (feed_all stream_new [a; b]) = stream_new /\ fst (feed_chunk stream_new (a ++ b)) <> stream_new.
Proof. exists (lit "[Events]" ++ [10; 195]%N), ([169]%N ++ lit "abc"). vm_compute. repeat split. discriminate. Qed.
Print Assumptions stream_char_cut_refuted.
(* A refused chunk leaves the parser as it was. *)
Theorem stream_refused_chunk : forall s c, c <> [] -> from_utf8 c = None -> feed_chunk s c = (s, None).
Proof. exact feed_invalid. Qed.
Print Assumptions stream_refused_chunk.
Theorem stream_reset_fresh : forall s, reset_stream s = stream_new.
Proof. reflexivity. Qed.
Print Assumptions stream_reset_fresh.

(* ---- the line processor ---- *)
Theorem stream_line_number : forall ls p, pr_line (fst (process_lines p ls)) = pr_line p + List.length ls.
Proof. exact lines_number. Qed.
Print Assumptions stream_line_number.
Theorem stream_section_is_last_header : forall ls, let p := fst (process_lines proc_new ls) in
  pr_section p = last_kind ls /\ state_section (pr_state p) = last_kind ls.
Proof. intros ls p. destruct (lines_kind ls proc_new eq_refl) as [H1 H2]. unfold agrees in H1. subst p. rewrite H1. split; exact H2. Qed.
Print Assumptions stream_section_is_last_header.
Example stream_section_instance : last_kind [lit " [Fonts] "; lit "x"; lit "; [Events]"; lit "[Events"] = Some KFonts.
Proof. vm_compute. reflexivity. Qed.

(* ---- the column list in force ---- *)
(* It comes from a Format line of the last section of that kind, *)
Theorem stream_format_sound : forall k ls f, has_format k -> format_for k (fst (process_lines proc_new ls)) = Some f ->
  exists a h b l c f', ls = a ++ h :: b ++ l :: c /\ stream_header h = Some k /\ (forall x, In x b -> stream_header x = None) /\
    (forall x, In x c -> stream_header x <> Some k) /\ format_line l f' /\ f = trim f'.
Proof. exact format_sound. Qed.
Print Assumptions stream_format_sound.
(* and one that follows the header is taken. *)
Theorem stream_format_complete : forall k a h b l c f p, has_format k -> stream_header h = Some k -> Forall (fun x => stream_comment x = true) b -> format_line l f ->
  Forall (fun x => stream_header x <> Some k /\ strip_prefix (lit "Format:") (trim x) = None) c ->
  format_for k (fst (process_lines p (a ++ h :: b ++ l :: c))) = Some (trim f).
Proof. exact format_complete. Qed.
Print Assumptions stream_format_complete.
Example stream_format_instance : stream_header (lit "[Events]") = Some KEvents /\ format_line (lit "Format: A, B ") (lit " A, B") /\
  format_for KEvents (fst (process_lines proc_new [lit "[Events]"; lit "; x"; lit "Format: A, B "; lit "[Fonts]"])) = Some (lit "A, B") /\
  format_for KEvents (fst (process_lines proc_new [lit "[Events]"; lit "Format: A, B "; lit "[Events]"])) = None.
Proof. repeat split. Qed.
(* Finishing reads the open line, unless it is blank. *)
Theorem stream_finish_reads_rest : forall cs ts, division cs ts -> no_cr_end (concat ts) ->
  let s := fst (feed_all stream_new cs) in
  (blank (open_line (concat ts)) -> finish_processor s = fst (process_lines proc_new (closed_lines (concat ts)))) /\
  (~ blank (open_line (concat ts)) -> finish_processor s = fst (process_lines proc_new (closed_lines (concat ts) ++ [open_line (concat ts)]))).
Proof.
  intros cs ts H N s. destruct (stream_state_of_lines cs ts H N) as [A B]. fold s in A, B. destruct (finish_open s) as [C D]. rewrite A, B in *.
  rewrite lines_app. split; assumption.
Qed.
Print Assumptions stream_finish_reads_rest.

(* ---- what it reports ---- *)
(* No chunk is ever answered with a change, and the result never names a
   section, whatever was fed. *)
Theorem stream_reports_nothing : forall s c, snd (feed_chunk s c) = None \/ snd (feed_chunk s c) = Some [].
Proof. exact feed_silent. Qed.
Print Assumptions stream_reports_nothing.
Theorem stream_result_constant : forall cs, finish_stream (fst (feed_all stream_new cs)) = StreamResult [] AssV4 [].
Proof. intros cs. unfold finish_stream. rewrite all_sections. reflexivity. Qed.
Print Assumptions stream_result_constant.
Definition whole : str := lit "[Script Info]" ++ [10%N] ++ lit "ScriptType: v4.00" ++ [10%N].
Theorem stream_result_empty_refuted : exists src sc, parse src = Done sc /\ sc_sections sc <> [] /\
  sr_sections (finish_stream (fst (feed_chunk stream_new (encode src)))) = [] /\
  sc_version sc <> sr_version (finish_stream (fst (feed_chunk stream_new (encode src)))).
Proof.
  exists whole. eexists. split; [vm_compute; reflexivity|]. split; [discriminate|]. split; [vm_compute; reflexivity|]. vm_compute. discriminate.
Qed.
Print Assumptions stream_result_empty_refuted.
(* A Format line right after a dialogue line is taken for its continuation. *)
Theorem stream_format_after_dialogue_refuted : exists ls, last_kind ls = Some KEvents /\ In (lit "Format: Start") ls /\
  pr_events (fst (process_lines proc_new ls)) = None.
Proof. exists [lit "[Events]"; lit "Dialogue: 1,a"; lit "Format: Start"]. split; [reflexivity|]. split; [right; right; left; reflexivity|]. vm_compute. reflexivity. Qed.
Print Assumptions stream_format_after_dialogue_refuted.
(* A section name the whole-text parser knows is unknown here. *)
Theorem stream_v4pp_refuted : exists name, is_style_header name = true /\ from_header name = KUnknown.
Proof. exists (lit "V4++ Styles"). split; vm_compute; reflexivity. Qed.
Print Assumptions stream_v4pp_refuted.
Theorem delta_kinds : forall l, List.length (structural_only l) + List.length (errors_only l) = List.length l /\
  (has_errors l = true <-> errors_only l <> []).
Proof. exact delta_split. Qed.
Print Assumptions delta_kinds.
