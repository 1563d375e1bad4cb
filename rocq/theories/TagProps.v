(* Properties of override blocks, event text, scores and line breaks:
   C24, C25, C26, C60, C61. *)
From Coq Require Import Sorted.
From Verif Require Import Base BaseLemmas TagModel TagSpec TagProofs TextProofs ScoreProofs.

(* ---- C24: override blocks ---- *)
(* Every block text is made of pieces in exactly one way. *)
Theorem block_has_unique_pieces : forall content, exists ps, (content = pieces_text ps /\ pieces_ok ps) /\
  forall ps', content = pieces_text ps' -> pieces_ok ps' -> ps' = ps.
Proof.
  intros content. destruct (block_pieces content) as (ps & E & K). exists ps. split; [split; assumption|]. intros ps' E' K'. apply pieces_unique; congruence.
Qed.
Print Assumptions block_has_unique_pieces.
(* The parser reports exactly the tags of these pieces, with their arguments,
   complexity and offset, and exactly the backslashes that start no tag. *)
Theorem block_reported : forall ps o, pieces_ok ps -> Forall (fun p => ~ splits_char p) ps ->
  exists ts ds, parse_override_block (pieces_text ps) o = Done (ts, ds) /\ reported o ps ts ds.
Proof.
  intros ps o K S. destruct (block_exact ps o K) as [[X _]|[_ (ts & ds & A & B)]].
  - exfalso. apply Exists_exists in X as (p & I & X). rewrite Forall_forall in S. exact (S p I X).
  - exists ts, ds. rewrite Nat.add_0_r in B. split; assumption.
Qed.
Print Assumptions block_reported.
Theorem block_reported_members : forall o ps ts ds, reported o ps ts ds ->
  (forall t, In t ts <-> exists a n g b, ps = a ++ PTag n g :: b /\ tg_name t = n /\ tg_args t = g /\ valued complexity_table n (tg_complexity t) /\ tg_pos t = o + blen (pieces_text a)) /\
  (forall d, In d ds <-> exists a x b, ps = a ++ PBad x :: b /\ d = Diag (piece_text (PBad x)) (o + blen (pieces_text a)) EmptyOverride).
Proof. exact reported_tags. Qed.
Print Assumptions block_reported_members.
(* Whatever it reports lies in the block, on character boundaries, in order. *)
Theorem block_spans_in_block : forall content o ts ds, parse_override_block content o = Done (ts, ds) ->
  (forall t, In t ts -> exists u v, content = u ++ (92%N :: tg_name t ++ tg_args t) ++ v /\ tg_pos t = o + blen u) /\
  (forall d, In d ds -> exists u v, content = u ++ dg_span d ++ v /\ dg_offset d = o + blen u) /\
  StronglySorted lt (map tg_pos ts) /\ StronglySorted lt (map dg_offset ds).
Proof. exact block_spans. Qed.
Print Assumptions block_spans_in_block.
(* It panics exactly when a backslash stands before a multi-byte character
   where a tag should start, and always finishes. *)
Theorem block_panics_iff : forall content o,
  parse_override_block content o <> Stuck /\
  (parse_override_block content o = Crash <-> exists ps, content = pieces_text ps /\ pieces_ok ps /\ Exists splits_char ps).
Proof.
  intros content o. destruct (block_pieces content) as (ps & -> & K). destruct (block_exact ps o K) as [[X C]|[F (ts & ds & C & _)]]; rewrite C.
  - split; [discriminate|]. split; [intros _; now exists ps|reflexivity].
  - split; [discriminate|]. split; [discriminate|]. intros (ps' & E & K' & X). exfalso. apply (pieces_unique _ _ K K') in E. subst ps'.
    apply Exists_exists in X as (p & I & X). rewrite Forall_forall in F. exact (F p I X).
Qed.
Print Assumptions block_panics_iff.
Definition sample_pieces : list piece := [PChar 32%N; PTag (lit "b") (lit "1"); PTag (lit "t") (lit "(\fs9)"); PTag (lit "fn") (lit "Arial"); PBad (Some 33%N); PTag (lit "1c") (lit "&H0&")].
Example block_instance : pieces_text sample_pieces = lit " \b1\t(\fs9)\fnArial\!\1c&H0&" /\
  parse_override_block (pieces_text sample_pieces) 5 =
    Done ([Tag (lit "b") (lit "1") 1 6; Tag (lit "t") (lit "(\fs9)") 4 9; Tag (lit "fn") (lit "Arial") 1 17; Tag (lit "1c") (lit "&H0&") 1 27]%N,
          [Diag (lit "\!") 25 EmptyOverride]) /\ Forall (fun p => ~ splits_char p) sample_pieces.
Proof. vm_compute. repeat split. repeat (constructor; [intros H; (exact H || discriminate H || (apply H; reflexivity))|]). constructor. Qed.
Theorem block_no_panic_refuted : exists content, parse_override_block content 0 = Crash.
Proof. exists [92; 233]%N. vm_compute. reflexivity. Qed.
Print Assumptions block_no_panic_refuted.
(* The name is cut after "r", so \rnd or \rotate are a reset with an argument. *)
Theorem block_long_name_refuted : exists content, content = lit "\rnd5" /\ parse_override_block content 0 = Done ([Tag (lit "r") (lit "nd5") 2 0]%N, []).
Proof. exists (lit "\rnd5"). vm_compute. repeat split. Qed.
Print Assumptions block_long_name_refuted.

(* ---- C61: tag handlers of plugins ---- *)
(* A plugin never hides or moves a tag, nor an empty-override diagnostic. *)
Theorem plugins_hide_no_tag : forall reg content o, agree (parse_override_block content o) (parse_override_block_with reg content o).
Proof. exact registry_agree. Qed.
Print Assumptions plugins_hide_no_tag.
Example plugins_instance : let reg := fun n _ => if str_eqb n (lit "b") then Some Failed else Some Processed in
  parse_override_block_with reg (lit "\b1\x") 0 = Done ([Tag (lit "b") (lit "1") 1 0; Tag (lit "x") [] 2 3]%N, [Diag (lit "\b1") 0 MalformedTag]).
Proof. vm_compute. reflexivity. Qed.

(* ---- C25: the text of an event ---- *)
(* Every text is a sequence of characters, escapes and closed blocks, with an
   ending, or has braces nested over 100 deep. *)
Theorem text_has_segments : forall text, exists l, Forall seg_ok l /\
  ((exists e, ending_ok e /\ text = event_text l e) \/ exists tail, text = flat_map seg_text l ++ tail /\ too_deep tail).
Proof. intros text. exact (text_cases (List.length text) text (le_n _)). Qed.
Print Assumptions text_has_segments.
(* The plain text is what these segments show, the tags those of its blocks. *)
Theorem text_analysis_exact : forall l e, Forall seg_ok l -> ending_ok e -> Forall safe_seg l -> safe_end e ->
  exists plain m ts ds ts' ds' ta, analyze_text (event_text l e) = Done (Some ta) /\
    visible false l plain m /\ tagged 0 l ts ds /\ tagged_end (blen (flat_map seg_text l)) e ts' ds' /\
    ta_plain ta = plain /\ ta_chars ta = List.length plain /\ ta_tags ta = ts ++ ts' /\ ta_diags ta = ds ++ ds'.
Proof.
  intros l e A B C D. destruct (analyze_safe l e A B C D) as (pl & m & ts & ds & ts' & ds' & V & T & T' & H).
  exists pl, m, ts, ds, ts', ds', (finished pl (ts ++ ts') (ds ++ ds')). repeat split; assumption.
Qed.
Print Assumptions text_analysis_exact.
(* Otherwise it panics; over 100 deep it is refused. *)
Theorem text_analysis_panics : forall l e, Forall seg_ok l -> ending_ok e -> ~ (Forall safe_seg l /\ safe_end e) -> analyze_text (event_text l e) = Crash.
Proof. exact analyze_unsafe. Qed.
Print Assumptions text_analysis_panics.
Theorem text_analysis_too_deep : forall l tail, Forall seg_ok l -> Forall safe_seg l -> too_deep tail -> analyze_text (flat_map seg_text l ++ tail) = Done None.
Proof. exact analyze_deep. Qed.
Print Assumptions text_analysis_too_deep.
Theorem text_analysis_panics_first : forall l tail, Forall seg_ok l -> ~ Forall safe_seg l -> analyze_text (flat_map seg_text l ++ tail) = Crash.
Proof. exact analyze_unsafe_before. Qed.
Print Assumptions text_analysis_panics_first.
Theorem text_analysis_ends : forall text, analyze_text text = Crash \/ exists o, analyze_text text = Done o.
Proof. exact analyze_text_runs. Qed.
Print Assumptions text_analysis_ends.
Theorem drawing_mode_decided : forall x m, exists m', drawing_after x m m' /\ forall a, drawing_after x m a -> a = m'.
Proof. intros x m. destruct (drawing_ok x m) as (m' & _ & D). exists m'. split; [exact D|]. intros a A. exact (drawing_fun _ _ _ _ A D). Qed.
Print Assumptions drawing_mode_decided.
Definition sample_text : str := lit "{\b1}A\N{\p1}m 0 0{\p0}\hB{}".
Example text_instance : match analyze_text sample_text with
  | Done (Some ta) => ta_plain ta = [65; 10; 160; 66]%N /\ ta_lines ta = 2 /\ map tg_pos (ta_tags ta) = [1; 9; 19] /\ ta_diags ta = [Diag (lit "}") 27 EmptyOverride]
  | _ => False end.
Proof. vm_compute. repeat split. Qed.
(* An open brace at the end panics, *)
Theorem text_analysis_total_refuted : analyze_text (lit "a{") = Crash /\ analyze_text [123; 233]%N = Crash /\ analyze_text [123; 92; 233; 125]%N = Crash.
Proof. vm_compute. repeat split. Qed.
Print Assumptions text_analysis_total_refuted.
(* an unclosed block loses its last character, *)
Theorem text_open_block_refuted : exists ta, analyze_text (lit "{\fs12") = Done (Some ta) /\ map tg_args (ta_tags ta) = [lit "1"].
Proof. eexists. split; [vm_compute; reflexivity|reflexivity]. Qed.
Print Assumptions text_open_block_refuted.
(* and a final backslash is dropped. *)
Theorem text_final_backslash_refuted : exists ta, analyze_text (lit "a\") = Done (Some ta) /\ ta_plain ta = lit "a".
Proof. eexists. split; [vm_compute; reflexivity|reflexivity]. Qed.
Print Assumptions text_final_backslash_refuted.
(* Derived fields. *)
Theorem text_flags : forall text ta, analyze_text text = Done (Some ta) ->
  (ta_bidi ta = true <-> exists c, In c (ta_plain ta) /\ (1424 <= c <= 1791 \/ 1872 <= c <= 1919 \/ 2208 <= c <= 2303)%N) /\
  (ta_complex ta = true <-> exists c, In c (ta_plain ta) /\ (255 < c \/ c <= 31 \/ 127 <= c <= 159)%N).
Proof.
  intros text ta H. unfold analyze_text, analyze_text_with in H. destruct (analyze_loop _ _ _ _ _ _ _) as [[a|]| |]; try discriminate. injection H as <-. split; [apply bidi_iff|apply complex_iff].
Qed.
Print Assumptions text_flags.
Theorem text_line_count : forall text ta, analyze_text text = Done (Some ta) ->
  (newlines_in (ta_plain ta) = 0 -> ta_lines ta = 1) /\
  (ta_plain ta <> [] -> Forall (eq 10%N) (ta_plain ta) -> ta_lines ta = newlines_in (ta_plain ta) + 1) /\
  (newlines_in (ta_plain ta) <> 0 -> ~ Forall (eq 10%N) (ta_plain ta) -> ta_lines ta = newlines_in (ta_plain ta) + (if N.eqb (last (ta_plain ta) 0%N) 10%N then 0 else 1)).
Proof.
  intros text ta H. unfold analyze_text, analyze_text_with in H. destruct (analyze_loop _ _ _ _ _ _ _) as [[a|]| |]; try discriminate. injection H as <-.
  split; [exact (lines_one _)|]. split; [exact (lines_only _)|exact (lines_mixed _)].
Qed.
Print Assumptions text_line_count.
(* A trailing break starts a line only when there is nothing else. *)
Theorem text_line_count_refuted : exists a b, analyze_text (lit "\N") = Done (Some a) /\ analyze_text (lit "x\N") = Done (Some b) /\ ta_lines a = 2 /\ ta_lines b = 1.
Proof. do 2 eexists. split; [vm_compute; reflexivity|]. split; [vm_compute; reflexivity|]. split; reflexivity. Qed.
Print Assumptions text_line_count_refuted.

(* ---- C26: scores ---- *)
Theorem animation_score_exact : forall ts n, total_score ts n -> animation_score ts = if (n <=? 255)%N then Done (N.min n 10) else Crash.
Proof. exact animation_exact. Qed.
Print Assumptions animation_score_exact.
Theorem total_score_exists : forall ts, exists n, total_score ts n /\ forall m, total_score ts m -> m = n.
Proof. intros ts. eexists. split; [apply total_is; reflexivity|]. intros m H. now apply total_is in H. Qed.
Print Assumptions total_score_exists.
Theorem animation_score_bounded : forall ts n, animation_score ts = Done n -> (n <= 10)%N.
Proof.
  intros ts n H. destruct (total_score_exists ts) as (m & T & _). rewrite (animation_exact ts m T) in H. destruct (m <=? 255)%N; [|discriminate]. injection H as <-. lia.
Qed.
Print Assumptions animation_score_bounded.
Theorem animation_score_overflow_refuted : exists ts, animation_score ts = Crash.
Proof. exists (repeat (Tag (lit "p") [] 5%N 0) 32). vm_compute. reflexivity. Qed.
Print Assumptions animation_score_overflow_refuted.
Theorem complexity_score_exact : forall a c o,
  complexity_score a c o = N.min 100 (5 * a + points_above length_points (N.of_nat c) + points_above tag_points (N.of_nat o))%N.
Proof.
  intros a c o. unfold complexity_score, points_above, length_points, tag_points. cbn [filter map fst snd].
  destruct (N.eqb_spec (N.of_nat o) 0), (N.leb_spec (N.of_nat c) 50), (N.leb_spec (N.of_nat c) 200), (N.leb_spec (N.of_nat c) 500), (N.leb_spec (N.of_nat c) 1000); try lia;
  destruct (N.leb_spec (N.of_nat o) 5), (N.leb_spec (N.of_nat o) 15), (N.leb_spec (N.of_nat o) 30); try lia;
  destruct (N.ltb_spec 50 (N.of_nat c)), (N.ltb_spec 200 (N.of_nat c)), (N.ltb_spec 500 (N.of_nat c)), (N.ltb_spec 1000 (N.of_nat c)); try lia;
  destruct (N.ltb_spec 0 (N.of_nat o)), (N.ltb_spec 5 (N.of_nat o)), (N.ltb_spec 15 (N.of_nat o)), (N.ltb_spec 30 (N.of_nat o)); try lia; cbn [fold_right snd map]; lia.
Qed.
Print Assumptions complexity_score_exact.
Theorem complexity_score_bounded : forall a c o, (complexity_score a c o <= 100)%N.
Proof. exact complexity_max. Qed.
Print Assumptions complexity_score_bounded.
Theorem complexity_score_monotone : forall a a' c c' o o', (a <= a')%N -> c <= c' -> o <= o' -> (complexity_score a c o <= complexity_score a' c' o')%N.
Proof. exact complexity_mono. Qed.
Print Assumptions complexity_score_monotone.
Theorem performance_impact_bands : forall s, match performance_impact s with
  | Minimal => (s <= 20)%N | Low => (20 < s <= 40)%N | Medium => (40 < s <= 60)%N | High => (60 < s <= 80)%N | Critical => (80 < s)%N end.
Proof. exact impact_bands. Qed.
Print Assumptions performance_impact_bands.
Example score_instance : animation_score [Tag (lit "t") [] 4%N 0; Tag (lit "b") [] 1%N 0] = Done 6%N /\ complexity_score 6 120 4 = 40%N /\ performance_impact 40 = Low.
Proof. vm_compute. repeat split. Qed.

(* ---- C60: line breaks ---- *)
Theorem line_segments : forall text, exists l slash, Forall line_seg l /\ text = line_text l slash.
Proof.
  intros text. assert (H : forall n t, List.length t <= n -> exists l slash, Forall line_seg l /\ t = line_text l slash); [|exact (H _ text (le_n _))].
  induction n as [|n IH]; intros t L; [destruct t; [|cbn in L; lia]; exists [], false; split; [constructor|reflexivity]|].
  destruct t as [|c t]; [exists [], false; split; [constructor|reflexivity]|]. cbn [List.length] in L. destruct (N.eq_dec c 92) as [->|N].
  - destruct t as [|d t]; [exists [], true; split; [constructor|reflexivity]|]. destruct (IH t) as (l & s & F & ->); [cbn [List.length] in L; lia|].
    exists (Esc d :: l), s. split; [constructor; [exact I|exact F]|reflexivity].
  - destruct (IH t) as (l & s & F & ->); [lia|]. exists (Chr c :: l), s. split; [constructor; [exact N|exact F]|reflexivity].
Qed.
Print Assumptions line_segments.
Theorem line_breaks_exact : forall l slash drawing, Forall line_seg l -> let w := from_text (line_text l slash) drawing in
  wb_text w = flat_map (broken drawing) l ++ (if slash then [92%N] else []) /\
  (forall p b, break_type_at w p = Some b <-> exists pre s post, l = pre ++ s :: post /\ brk_of drawing s = Some b /\ p = blen (flat_map (broken drawing) pre)) /\
  (forall p, is_nbsp_at w p = true <-> exists pre s post, l = pre ++ s :: post /\ nb_of drawing s = true /\ p = blen (flat_map (broken drawing) pre)).
Proof. exact breaks_exact. Qed.
Print Assumptions line_breaks_exact.
Theorem line_break_is_newline : forall l slash drawing p b, Forall line_seg l -> break_type_at (from_text (line_text l slash) drawing) p = Some b ->
  slice (wb_text (from_text (line_text l slash) drawing)) p (p + 1) = Some [10%N].
Proof. exact break_is_newline. Qed.
Print Assumptions line_break_is_newline.
Theorem line_breaks_agree_with_analysis : forall l, Forall (fun s => line_seg s /\ s <> Chr 123%N) l ->
  exists ta, analyze_text (line_text l false) = Done (Some ta) /\ ta_plain ta = wb_text (from_text (line_text l false) false).
Proof. exact plain_same. Qed.
Print Assumptions line_breaks_agree_with_analysis.
Example line_breaks_instance : from_text (lit "a\Nb\nc\h\x\") false = WithBreaks ([97; 10; 98; 10; 99; 160; 92; 120; 92]%N) [(1, Hard); (3, Soft)] [5].
Proof. vm_compute. reflexivity. Qed.
(* The two readers of escapes differ on a final backslash. *)
Theorem line_breaks_final_backslash_refuted : exists text ta, analyze_text text = Done (Some ta) /\ ta_plain ta <> wb_text (from_text text false).
Proof. exists (lit "a\"). eexists. split; [vm_compute; reflexivity|]. vm_compute. discriminate. Qed.
Print Assumptions line_breaks_final_backslash_refuted.
