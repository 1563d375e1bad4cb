(* C163-C165: the syntax highlighter. *)
From Verif Require Import Base BaseLemmas PluginModel HighlightModel HighlightSpec HighlightProofs HighlightLine HighlightDoc.

(* ---- C163: which pieces of a document are coloured, and how ---- *)
Theorem highlight_exact (alnum : char -> bool) (cfg : config) (text : str) (toks : list token) :
  tokenize alnum cfg text = Some toks <-> exists L, doc_painted alnum cfg 0 None (lines text) L /\ toks = page 0 L.
Proof. exact (highlighted alnum cfg text toks). Qed.
Theorem highlight_total (alnum : char -> bool) (cfg : config) (text : str) : exists toks, tokenize alnum cfg text = Some toks.
Proof. exact (always_tokens alnum cfg text). Qed.
Definition letters (c : char) : bool := is_digit c || is_upper c || is_lower c.
Definition nl : str := [10%N].
Definition example_text : str := lit "[Script Info]" ++ nl ++ lit "Title: T" ++ nl ++ lit "; note" ++ nl ++ lit "[Events]" ++ nl ++ lit "Dialogue: 0,0:00:01.00,0:00:02.00,Main,,0,0,0,,a{\b1\pos(1,2)}b{" ++ nl.
Example highlight_instance :
  option_map (map (under example_text)) (tokenize letters (Config true 0) example_text) =
  Some (map (fun p => (Some (lit (fst p)), snd p))
    [("[Script Info]"%string, (SectionHeader, Some (lit "Script Info"))); ("Title:"%string, (FieldName, Some (lit "Title"))); (" T"%string, (FieldValue, None)); ("; note"%string, (Comment, None));
     ("[Events]"%string, (SectionHeader, Some (lit "Events"))); ("Dialogue:"%string, (EventType, Some (lit "Dialogue")));
     (" 0"%string, (FieldValue, None)); ("0:00:01.00"%string, (TimeCode, None)); ("0:00:02.00"%string, (TimeCode, None)); ("Main"%string, (StyleName, Some (lit "Main")));
     (""%string, (FieldValue, None)); ("0"%string, (FieldValue, None)); ("0"%string, (FieldValue, None)); ("0"%string, (FieldValue, None)); (""%string, (FieldValue, None)); (""%string, (FieldValue, None));
     ("a"%string, (Text, None)); ("{"%string, (OverrideTag, None)); ("b1"%string, (OverrideTag, Some (lit "b1"))); ("pos"%string, (OverrideTag, Some (lit "pos"))); ("(1,2)"%string, (TagParameter, None));
     ("}"%string, (OverrideTag, None)); ("b"%string, (Text, None)); ("{"%string, (Error, Some (lit "Unclosed override tag")))]).
Proof. vm_compute. reflexivity. Qed.
(* the line that reaches the limit is still coloured to its end *)
Example limit_instance :
  option_map (@List.length _) (tokenize letters (Config true 2) example_text) = Some 3 /\ option_map (@List.length _) (tokenize letters (Config true 5) example_text) = Some 5.
Proof. split; vm_compute; reflexivity. Qed.

(* ---- C164: where the tokens are ---- *)
Theorem highlight_orderly (alnum : char -> bool) (cfg : config) (text : str) (toks : list token) :
  tokenize alnum cfg text = Some toks -> orderly 0 (blen text) toks.
Proof. exact (tokens_orderly alnum cfg text toks). Qed.
Theorem highlight_reads (alnum : char -> bool) (cfg : config) (text : str) (A : list painted_line) (x : painted_line) (B : list painted_line) :
  ~ In 13%N text -> doc_painted alnum cfg 0 None (lines text) (A ++ x :: B) -> shifted x = false ->
  exists ta tx tb, tokenize alnum cfg text = Some (ta ++ tx ++ tb) /\ List.length ta = List.length (flat_map (fun y => colours (pieces y)) A) /\
    map (under text) tx = map (fun p => (Some (fst p), snd p)) (colours (pieces x)).
Proof. exact (line_reads alnum cfg text A x B). Qed.
Theorem pieces_are_line (alnum : char -> bool) (cfg : config) (sec : option str) (s : str) (l : list piece) (sec' : option str) :
  line_painted alnum cfg sec s false l sec' -> painted l = s.
Proof. intros H. exact (proj1 (line_text alnum cfg sec s false l sec' H) eq_refl). Qed.
Example reads_instance :
  let text := lit "[A]" ++ nl ++ lit "x" ++ nl in
  ~ In 13%N text /\
  doc_painted letters (Config true 0) 0 None (lines text) ([Painted (lit "[A]") false [(lit "[A]", Some (SectionHeader, Some (lit "A")))]] ++ Painted (lit "x") false [(lit "x", Some (Text, None))] :: []).
Proof.
  cbv zeta. split; [intros H; cbn in H; repeat (destruct H as [H|H]; [discriminate H|]); exact H|].
  change (lines (lit "[A]" ++ nl ++ lit "x" ++ nl)) with [lit "[A]"; lit "x"]. cbn [app].
  eapply doc_line; [apply (p_header letters (Config true 0) None (lit "A"))|now left|].
  eapply doc_line; [|now left|apply doc_end]. apply (p_unknown _ _ _ (lit "A")); [reflexivity| | |].
  - cbn. intros H. repeat (destruct H as [H|H]; [discriminate H|]). exact H.
  - intros [n E]. discriminate E.
  - intros [r E]. discriminate E.
Qed.
(* a line end of two characters moves every later token, and so does a blank before the first field of a style *)
Theorem crlf_shift_refuted : ~ (forall alnum cfg text L toks, doc_painted alnum cfg 0 None (lines text) L -> tokenize alnum cfg text = Some toks ->
  map (under text) toks = map (fun p => (Some (fst p), snd p)) (flat_map (fun x => colours (pieces x)) L)).
Proof.
  intros H. set (text := lit "[A]" ++ [13; 10]%N ++ lit "[B]").
  specialize (H letters (Config true 0) text [Painted (lit "[A]") false [(lit "[A]", Some (SectionHeader, Some (lit "A")))]; Painted (lit "[B]") false [(lit "[B]", Some (SectionHeader, Some (lit "B")))]] _
    (doc_line letters (Config true 0) 0 None (lit "[A]") _ _ _ _ _ (p_header letters (Config true 0) None (lit "A")) (or_introl eq_refl)
      (doc_line letters (Config true 0) _ _ (lit "[B]") _ _ _ [] _ (p_header letters (Config true 0) _ (lit "B")) (or_introl eq_refl) (doc_end _ _ _ _))) eq_refl).
  vm_compute in H. discriminate H.
Qed.
Theorem style_shift_refuted :
  let text := lit "[V4+ Styles]" ++ nl ++ lit "Style: Default,Arial" in
  option_map (fun l => nth 2 (map (under text) l) (None, (Text, None))) (tokenize letters (Config true 0) text) = Some (Some (lit " Defaul"), (StyleName, Some (lit "Default"))).
Proof. vm_compute. reflexivity. Qed.

(* ---- C165: the cache ---- *)
Theorem highlight_cache (alnum : char -> bool) (past : list call) (id text : str) :
  snd (call_step alnum (calls_run alnum (rev past)) (Tokenize id text)) =
  match first_seen id past with Some (text0, c) => tokenize alnum c text0 | None => tokenize alnum (settings past) text end.
Proof. exact (cached_answer alnum past id text). Qed.
(* a request that changes nothing is answered from the text of that request only if the document was forgotten since *)
Theorem forgotten_fresh (alnum : char -> bool) (past : list call) (id text : str) (c : call) : c = ClearCache \/ c = Invalidate id ->
  snd (call_step alnum (calls_run alnum (rev (c :: past))) (Tokenize id text)) = tokenize alnum (settings past) text.
Proof.
  intros H. rewrite cached_answer. destruct H as [-> | ->]; cbn [first_seen settings]; [reflexivity|]. now rewrite str_eqb_refl.
Qed.
Theorem cache_follows_text_refuted : ~ (forall alnum past id text, snd (call_step alnum (calls_run alnum (rev past)) (Tokenize id text)) = tokenize alnum (settings past) text).
Proof. intros H. specialize (H letters [Tokenize (lit "d") (lit "[A]")] (lit "d") (lit "[Events]")). vm_compute in H. discriminate H. Qed.
Example cache_instance :
  first_seen (lit "d") [Configure (Config false 0); Tokenize (lit "d") (lit "[B]"); Tokenize (lit "e") (lit "[C]"); Tokenize (lit "d") (lit "[A]")] = Some (lit "[A]", h_config new_highlighter).
Proof. vm_compute. reflexivity. Qed.

Print Assumptions highlight_exact.
Print Assumptions highlight_total.
Print Assumptions highlight_orderly.
Print Assumptions highlight_reads.
Print Assumptions pieces_are_line.
Print Assumptions crlf_shift_refuted.
Print Assumptions style_shift_refuted.
Print Assumptions highlight_cache.
Print Assumptions forgotten_fresh.
Print Assumptions cache_follows_text_refuted.
