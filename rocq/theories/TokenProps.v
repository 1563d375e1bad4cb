(* Properties of the tokenizer and its byte utilities: C28, C64, C65. *)
From Verif Require Import Base BaseLemmas StreamModel TokenModel TokenSpec TokenProofs TokenLexProofs.

(* ---- C28: tokens ---- *)
(* Calling next_token again and again yields exactly the tokens of the lexical
   grammar, and leaves the tokenizer in front of what the grammar leaves. *)
Theorem tokens_follow_grammar : forall simd source l c rest,
  lexes simd CtxDocument (text_body source) l c rest <->
  exists k ts k' before, new_tokenizer source = Some k /\ calls simd k ts k' /\ kinds ts = l /\ tz_ctx k' = c /\
    source = before ++ rest /\ nv_pos (tz_nav k') = blen before /\ nv_rest (tz_nav k') = rest.
Proof.
  intros simd source l c rest. destruct (new_at source) as (k & b & N & S & C & B & _ & A & _). split.
  - intros X. destruct (lexes_calls _ _ _ _ _ _ X k b [] A C) as (ts & k' & p & Q & K & C' & A1 & A2 & A3).
    exists k, ts, k', (b ++ p). repeat split; auto. rewrite <- app_assoc, <- A1.
    assert (Src : forall k ts k', calls simd k ts k' -> tz_source k' = tz_source k).
    { clear. induction 1 as [|k t k1 ts k2 E _ IH]; [reflexivity|]. rewrite IH. unfold next_token in E.
      destruct (nv_rest _); [discriminate|]. destruct (match_arm _ _ _ _ _); try discriminate. destruct (slice _ _ _); [|discriminate].
      destruct (_ && _); [discriminate|]. now injection E as _ <-. }
    now rewrite (Src _ _ _ Q).
  - intros (k0 & ts & k' & before & N' & Q & <- & <- & E & P & R). rewrite N in N'. injection N' as <-.
    destruct (calls_ok simd k ts k' Q b [] (text_body source) A) as (p' & s' & (A1 & A2 & A3) & _ & _ & L & _); [now rewrite C|].
    rewrite C in L. rewrite A2 in R. now subst s'.
Qed.
Print Assumptions tokens_follow_grammar.
(* Nothing is lost: the text is the tokens in order, with only blanks between. *)
Theorem tokens_cover : forall simd source k ts k', new_tokenizer source = Some k -> calls simd k ts k' ->
  exists gaps, List.length gaps = List.length ts /\ Forall (Forall blank) gaps /\ Forall (fun t => tk_span t <> []) ts /\
    text_body source = concat (map (fun x => fst x ++ tk_span (snd x)) (combine gaps ts)) ++ nv_rest (tz_nav k').
Proof.
  intros simd source k ts k' N Q. destruct (new_at source) as (k0 & b & N0 & S & C & B & _ & A & _). rewrite N in N0. injection N0 as <-.
  destruct (calls_ok simd k ts k' Q b [] (text_body source) A) as (p' & s' & (A1 & A2 & A3) & _ & _ & L & _); [now rewrite C|].
  destruct (lexes_woven _ _ _ _ _ _ L) as (gaps & G1 & G2 & G3 & G4). unfold kinds in G1. rewrite map_length in G1. exists gaps. repeat split; auto.
  - unfold kinds in G3. rewrite Forall_map in G3. exact G3.
  - rewrite A2, G4. clear -G1. revert gaps G1. induction ts as [|t ts IH]; intros [|g gaps] G; try discriminate G; [reflexivity|].
    cbn [kinds map woven combine concat fst snd]. unfold kinds in IH. rewrite IH by (now injection G). now rewrite <- !app_assoc.
Qed.
Print Assumptions tokens_cover.
(* The line and column of a token are those of the text before it.  With simd
   only the lines are, and only if every CR is followed by LF: see below. *)
Theorem token_positions : forall simd cols source k ts k', new_tokenizer source = Some k -> calls simd k ts k' ->
  simd = false \/ (cols = false /\ crlf_only (text_body source)) ->
  laid_out cols [] (text_body source) ts (nv_rest (tz_nav k')).
Proof.
  intros simd cols source k ts k' N Q Ok. destruct (new_at source) as (k0 & b & N0 & S & C & B & _ & A & Pl). rewrite N in N0. injection N0 as <-.
  destruct (calls_ok simd k ts k' Q b [] (text_body source) A) as (p' & s' & (A1 & A2 & A3) & _ & _ & _ & L); [now rewrite C|].
  rewrite A2. apply L; [apply Pl|exact Ok].
Qed.
Print Assumptions token_positions.
(* There are at most as many tokens as characters. *)
Theorem tokens_terminate : forall simd source k ts k', new_tokenizer source = Some k -> calls simd k ts k' -> List.length ts <= List.length (text_body source).
Proof.
  intros simd source k ts k' N Q. destruct (new_at source) as (k0 & b & N0 & S & C & B & _ & A & _). rewrite N in N0. injection N0 as <-.
  destruct (calls_ok simd k ts k' Q b [] (text_body source) A) as (p' & s' & _ & _ & _ & L & _); [now rewrite C|].
  apply lexes_length in L. unfold kinds in L. rewrite map_length in L. lia.
Qed.
Print Assumptions tokens_terminate.
(* tokenize_all succeeds exactly on the texts with at most 50 tokens that do not
   end in a CR that is a token of its own, and returns all the tokens. *)
Theorem tokenize_ok : forall simd source l, (exists ts, tokenize simd source = Ok ts /\ kinds ts = l) <->
  List.length l <= 50 /\ exists c rest, lexes simd CtxDocument (text_body source) l c rest /\ skipped c rest [].
Proof.
  intros simd source l. destruct (new_at source) as (k & b & N & S & C & B & _ & A & _). unfold tokenize, tokenize_all. rewrite N. split.
  - intros (ts & E & <-). apply collect_ok_iff in E as (L & k' & k2 & Q & E). unfold kinds at 1. rewrite map_length. split; [exact L|].
    destruct (calls_ok simd k ts k' Q b [] (text_body source) A) as (p' & s' & A' & _ & G' & X & _); [now rewrite C|].
    exists (tz_ctx k'), s'. rewrite C in X. split; [exact X|]. apply (next_end_iff simd k' b p' s' A' G'). eauto.
  - intros (L & c & rest & X & Sk). destruct (lexes_calls _ _ _ _ _ _ X k b [] A C) as (ts & k' & p & Q & <- & <- & A').
    exists ts. split; [|reflexivity]. apply collect_ok_iff. unfold kinds in L. rewrite map_length in L. split; [exact L|].
    destruct (calls_ok simd k ts k' Q b [] (text_body source) A) as (p' & s' & A2 & _ & G2 & _); [now rewrite C|].
    assert (E : s' = rest) by (destruct A2 as (_ & <- & _), A' as (_ & <- & _); reflexivity). subst s'.
    apply (next_end_iff simd k' b p' rest A2 G2) in Sk as [k2 E]. eauto.
Qed.
Print Assumptions tokenize_ok.
Theorem tokenize_err : forall simd source, tokenize simd source = Err <->
  exists l c rest, lexes simd CtxDocument (text_body source) l c rest /\
    (List.length l = 51 \/ List.length l <= 50 /\ exists gap, rest = gap ++ [13%N] /\ skipped c gap [13%N]).
Proof.
  intros simd source. destruct (new_at source) as (k & b & N & S & C & B & _ & A & _). unfold tokenize, tokenize_all. rewrite N, collect_err_iff. split.
  - intros (ts & k' & Q & H).
    destruct (calls_ok simd k ts k' Q b [] (text_body source) A) as (p' & s' & A' & _ & G' & X & _); [now rewrite C|].
    exists (kinds ts), (tz_ctx k'), s'. rewrite C in X. split; [exact X|]. unfold kinds. rewrite map_length.
    destruct H as [H|[H F]]; [now left|right]. split; [exact H|]. now apply (next_fail_iff simd k' b p' s' A' G').
  - intros (l & c & rest & X & H). destruct (lexes_calls _ _ _ _ _ _ X k b [] A C) as (ts & k' & p & Q & <- & <- & A').
    exists ts, k'. split; [exact Q|]. unfold kinds in H. rewrite map_length in H. destruct H as [H|[H F]]; [now left|right]. split; [exact H|].
    destruct (calls_ok simd k ts k' Q b [] (text_body source) A) as (p' & s' & A2 & _ & G2 & _); [now rewrite C|].
    assert (E : s' = rest) by (destruct A2 as (_ & <- & _), A' as (_ & <- & _); reflexivity). subst s'.
    now apply (next_fail_iff simd k' b p' rest A2 G2).
Qed.
Print Assumptions tokenize_err.
Theorem tokenize_never_panics : forall simd source, tokenize simd source <> Panic.
Proof.
  intros simd source. destruct (new_at source) as (k & b & N & S & C & B & _ & A & _). unfold tokenize, tokenize_all. rewrite N.
  apply (collect_no_panic simd 50 k b [] (text_body source) A). now rewrite C.
Qed.
Print Assumptions tokenize_never_panics.
(* The tokens it returns are placed as above. *)
Theorem tokenize_positions : forall simd cols source ts, tokenize simd source = Ok ts ->
  simd = false \/ (cols = false /\ crlf_only (text_body source)) ->
  exists rest, laid_out cols [] (text_body source) ts rest /\ Forall blank rest.
Proof.
  intros simd cols source ts E Ok. destruct (new_at source) as (k & b & N & S & C & B & _ & A & Pl). unfold tokenize, tokenize_all in E. rewrite N in E.
  apply collect_ok_iff in E as (_ & k' & k2 & Q & E).
  destruct (calls_ok simd k ts k' Q b [] (text_body source) A) as (p' & s' & A' & _ & G' & _ & L); [now rewrite C|].
  exists s'. split; [apply L; [apply Pl|exact Ok]|]. apply (skipped_blank (tz_ctx k') s' []). apply (next_end_iff simd k' b p' s' A' G'). eauto.
Qed.
Print Assumptions tokenize_positions.
(* A text has one token sequence: two derivations of the grammar agree. *)
Theorem grammar_deterministic : forall simd source l1 c1 r1 l2 c2 r2,
  lexes simd CtxDocument (text_body source) l1 c1 r1 -> lexes simd CtxDocument (text_body source) l2 c2 r2 -> List.length l1 = List.length l2 ->
  l1 = l2 /\ c1 = c2 /\ r1 = r2.
Proof.
  intros simd source l1 c1 r1 l2 c2 r2 X1 X2 L. destruct (new_at source) as (k & b & N & S & C & B & _ & A & _).
  destruct (lexes_calls _ _ _ _ _ _ X1 k b [] A C) as (t1 & k1 & p1 & Q1 & <- & <- & _ & <- & _).
  destruct (lexes_calls _ _ _ _ _ _ X2 k b [] A C) as (t2 & k2 & p2 & Q2 & <- & <- & _ & <- & _).
  unfold kinds in L. rewrite !map_length in L. clear -Q1 Q2 L. revert t2 Q2 L. induction Q1 as [k|k t k1 ts k3 E _ IH]; intros t2 Q2 L.
  - destruct t2; [|discriminate]. inversion Q2; subst. auto.
  - destruct t2 as [|t' t2]; [discriminate|]. inversion Q2 as [|? ? k1' ? ? E' Q2']; subst. rewrite E in E'. injection E' as <- <-.
    destruct (IH t2 Q2') as (H1 & H2 & H3); [now injection L|]. cbn. unfold kinds in H1. now rewrite H1, H2, H3.
Qed.
Print Assumptions grammar_deterministic.
(* A line "Key: value,value,..." is its key, a colon, and the values with commas
   between them; a value keeps its blanks and its colons. *)
Theorem tokenize_field : forall simd key k vals ks, plain_key simd key -> hd 0%N key <> 65279%N -> text_kind key k -> vals <> [] ->
  Forall plain_value vals -> Forall2 value_kind vals ks -> List.length vals <= 24 ->
  exists ts, tokenize simd (field_text key vals) = Ok ts /\ kinds ts = (k, key) :: (TkColon, [58%N]) :: with_commas (combine ks vals).
Proof.
  intros simd key k vals ks K H Kk N P F L. apply tokenize_ok.
  assert (E : text_body (field_text key vals) = field_text key vals).
  { unfold field_text. destruct key as [|c key]; [destruct K; congruence|]. cbn in H |- *. destruct (N.eqb_spec c 65279); [contradiction|reflexivity]. }
  split.
  - cbn [List.length]. rewrite with_commas_length, combine_length. assert (Q : List.length vals = List.length ks) by (clear -F; induction F; cbn; congruence). lia.
  - exists CtxField, []. split; [|reflexivity]. rewrite E. rewrite <- (app_nil_r (field_text key vals)). now apply field_lexes.
Qed.
Print Assumptions tokenize_field.
(* On texts without ; both builds find the same tokens. *)
Theorem simd_same_tokens : forall source l, ~ In 59%N source ->
  (exists ts, tokenize true source = Ok ts /\ kinds ts = l) <-> (exists ts, tokenize false source = Ok ts /\ kinds ts = l).
Proof.
  intros source l H. rewrite !tokenize_ok.
  assert (H' : ~ In 59%N (text_body source)).
  { destruct source as [|c r]; [exact H|]. cbn. destruct (c =? 65279)%N; [|exact H]. intros Q. apply H. now right. }
  split; intros (L & c & rest & X & S); (split; [exact L|]); exists c, rest; (split; [|exact S]); now apply lexes_flag.
Qed.
Print Assumptions simd_same_tokens.

Definition doc : str := lit "[Events]" ++ [13; 10]%N ++ lit "; note" ++ [10%N] ++ lit "Dialogue: 0,0:00:01.00, {\b1}go".
Example tokens_instance : option_map kinds (match tokenize false doc with Ok ts => Some ts | _ => None end) = Some
  [(TkSectionHeader, lit "[Events"); (TkSectionClose, lit "]"); (TkNewline, [13; 10]%N); (TkComment, lit "; note"); (TkNewline, [10%N]);
   (TkText, lit "Dialogue"); (TkColon, lit ":"); (TkText, lit " 0"); (TkComma, lit ","); (TkNumber, lit "0:00:01.00"); (TkComma, lit ",");
   (TkWhitespace, lit " "); (TkOverrideBlock, lit "{\b1"); (TkOverrideClose, lit "}"); (TkText, lit "go")].
Proof. vm_compute. reflexivity. Qed.
Example positions_instance : option_map (map (fun t => (tk_line t, tk_col t))) (match tokenize false doc with Ok ts => Some ts | _ => None end) = Some
  [(1, 1); (1, 8); (1, 9); (2, 1); (2, 7); (3, 1); (3, 9); (3, 10); (3, 12); (3, 13); (3, 23); (3, 24); (3, 25); (3, 29); (3, 30)].
Proof. vm_compute. reflexivity. Qed.
Example field_instance : plain_key true (lit "Style") /\ Forall plain_value [lit " A"; lit "1:2"] /\ text_kind (lit "Style") TkText /\
  Forall2 value_kind [lit " A"; lit "1:2"] [TkText; TkNumber].
Proof.
  split; [|split; [|split]].
  - split; [discriminate|]. split; [repeat constructor; cbn; lia|]. split; [|discriminate]. cbn. split; [intros [Q _]; discriminate Q|discriminate].
  - repeat constructor; cbn; try discriminate; try lia.
  - apply (text_kind_spec true); [discriminate|]. vm_compute. reflexivity.
  - constructor; [|constructor; [|constructor]]; (apply value_kind_spec; [discriminate|vm_compute; reflexivity]).
Qed.

(* FALSE: "any text can be tokenized".  More than 50 tokens are an error, as is
   a CR at the end. *)
Theorem tokenize_limit_refuted : exists source, tokenize false source = Err /\ List.length source = 51 /\ Forall (fun c => c = 44%N) source.
Proof. exists (repeat 44%N 51). repeat split. - apply Forall_forall. intros x H. now apply repeat_spec in H. Qed.
Print Assumptions tokenize_limit_refuted.
Theorem tokenize_final_cr_refuted : forall simd, tokenize simd (lit "a" ++ [13%N]) = Err /\ exists ts, tokenize simd (lit "a" ++ [10%N]) = Ok ts.
Proof. intros simd. split; [destruct simd; reflexivity|]. destruct simd; eexists; vm_compute; reflexivity. Qed.
Print Assumptions tokenize_final_cr_refuted.
(* FALSE: "the simd feature changes nothing": the comment in a;b, columns and,
   with a lone CR, lines. *)
Theorem simd_same_tokens_refuted : exists source a b, tokenize true source = Ok a /\ tokenize false source = Ok b /\ kinds a <> kinds b.
Proof. exists (lit "a;b"). eexists _, _. split; [vm_compute; reflexivity|]. split; [vm_compute; reflexivity|]. vm_compute. discriminate. Qed.
Print Assumptions simd_same_tokens_refuted.
Theorem simd_columns_refuted : exists source a b, tokenize true source = Ok a /\ tokenize false source = Ok b /\ kinds a = kinds b /\
  laid_out true [] (text_body source) b [] /\ map tk_line a = map tk_line b /\ map tk_col a <> map tk_col b.
Proof.
  exists (lit "a,b"). eexists _, _. split; [vm_compute; reflexivity|].
  assert (E : exists b, tokenize false (lit "a,b") = Ok b) by (eexists; vm_compute; reflexivity). destruct E as [b E].
  destruct (tokenize_positions false true _ _ E (or_introl eq_refl)) as (rest & L & _). pose proof E as E'. vm_compute in E. injection E as <-.
  split; [exact E'|]. split; [reflexivity|]. split; [|split; [reflexivity|discriminate]].
  assert (R : rest = []).
  { clear -L. apply laid_out_length in L. change (text_body (lit "a,b")) with [97; 44; 98]%N in L. cbn in L. destruct rest; [reflexivity|cbn in L; lia]. }
  now subst rest.
Qed.
Print Assumptions simd_columns_refuted.
Theorem simd_lines_refuted : exists source a b, tokenize true source = Ok a /\ tokenize false source = Ok b /\ kinds a = kinds b /\ map tk_line a <> map tk_line b.
Proof. exists ([13%N] ++ lit "a" ++ [10%N] ++ lit "b"). eexists _, _. split; [vm_compute; reflexivity|]. split; [vm_compute; reflexivity|]. split; [reflexivity|discriminate]. Qed.
Print Assumptions simd_lines_refuted.
(* FALSE: "a ; in the text of a line is text": behind an override block it
   starts a comment, and a : there is a separator. *)
Theorem text_after_block_refuted : exists source a b, tokenize true source = Ok a /\ In (TkComment, b) (kinds a) /\
  source = lit "Dialogue: 0,{\b1}" ++ b.
Proof. exists (lit "Dialogue: 0,{\b1};-)"). eexists _, (lit ";-)"). split; [vm_compute; reflexivity|]. split; [vm_compute; tauto|reflexivity]. Qed.
Print Assumptions text_after_block_refuted.

(* ---- C64: the vector routines ---- *)
(* The offset of the first delimiter, in bytes, in both builds. *)
Theorem first_delimiter : forall simd text n, scan_delimiters simd text = Some n <->
  exists a c b, text = a ++ c :: b /\ (forall d, In d a -> ~ In d delimiters) /\ In c delimiters /\ n = blen a.
Proof.
  intros simd text n. rewrite delimiters_some. split; intros (a & c & b & E & L & I & P); exists a, c, b; repeat split; auto; now apply Forall_forall.
Qed.
Print Assumptions first_delimiter.
Theorem no_delimiter : forall simd text, scan_delimiters simd text = None <-> forall d, In d text -> ~ In d delimiters.
Proof. intros simd text. rewrite delimiters_none. apply Forall_forall. Qed.
Print Assumptions no_delimiter.
Example delimiter_instance : scan_delimiters true (lit "a text of more than 16 bytes" ++ [233%N] ++ lit ":x") = Some 30. Proof. reflexivity. Qed.
(* One to eight hexadecimal digits are read exactly; but a leading + is accepted
   too, with simd only in front of one or two digits. *)
Theorem hex_parsed : forall simd s v, parse_hex_u32 simd s = Some v <->
  (s <> [] /\ List.length s <= 8 /\ hex_value s v) \/
  (exists r, s = 43%N :: r /\ r <> [] /\ hex_value r v /\ if simd then List.length r <= 2 else List.length r <= 7).
Proof. exact hex_parse. Qed.
Print Assumptions hex_parsed.
Theorem hex_flag_refuted : exists s, parse_hex_u32 true s = None /\ parse_hex_u32 false s = Some 2748%N.
Proof. exists (lit "+ABC"). split; reflexivity. Qed.
Print Assumptions hex_flag_refuted.

(* ---- C65: checking UTF-8 ---- *)
Theorem utf8_accepted : forall simd b, validate_utf8_batch simd b = None <-> is_text b.
Proof. exact validate_none. Qed.
Print Assumptions utf8_accepted.
(* Without simd an error names the length of the longest valid beginning. *)
Theorem utf8_error_position : forall b p, validate_utf8_batch false b = Some p ->
  p < List.length b /\ is_text (firstn p b) /\ forall m, p < m <= List.length b -> ~ is_text (firstn m b).
Proof. intros b p H. now apply validate_position in H. Qed.
Print Assumptions utf8_error_position.
(* FALSE with simd: behind 16 ASCII bytes the position counts from the last
   whole chunk. *)
Theorem utf8_error_position_refuted : exists b, validate_utf8_batch true b = Some 0 /\ validate_utf8_batch false b = Some 16.
Proof. exists (repeat 65%N 16 ++ [255%N]). split; reflexivity. Qed.
Print Assumptions utf8_error_position_refuted.
Example utf8_instance : is_text (encode (lit "ab")) /\ validate_utf8_batch true (repeat 200%N 17) = Some 0.
Proof. split; [now exists (lit "ab")|reflexivity]. Qed.
