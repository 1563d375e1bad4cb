(* C88, C89: lines made by the builders read back as what the builder was told. *)
From Verif Require Import Base BaseLemmas ParseModel ParseSpec ParseLineProofs FloatModel FormatModel BuilderModel BuilderSpec BuilderProofs.

(* ---- C88: events ---- *)
(* The line of any sequence of setter calls reads back as what they told,
   the last call for a column counting. *)
Theorem event_build_reads ty calls v n : Forall call_ok calls -> v <> SsaV4 ->
  parse_event_line (build_event_version (event_builder_of ty calls) v) [] n = Ok (told_event (type_or ty) ass_columns calls n).
Proof.
  intros H V. rewrite event_version_values.
  pose proof (told_line (type_or ty) (removelast ass_columns) calls n (told calls) H) as T.
  assert (E : parse_event_line (event_type_str (type_or ty) ++ lit ": " ++ join (lit ",") (map (told calls) ass_columns)) default_events_format n = Ok (told_event (type_or ty) ass_columns calls n)).
  { apply T.
    - unfold ass_columns, event_names. intros c C. cbn [removelast In] in *. tauto.
    - cbn. intuition discriminate.
    - reflexivity.
    - intros c C. apply told_free; [exact H|]. intros ->. cbn in C. intuition discriminate.
    - reflexivity. }
  destruct v; [now destruct V|exact E|exact E].
Qed.
Theorem event_build_default ty calls : build_event (event_builder_of ty calls) = build_event_version (event_builder_of ty calls) AssV4.
Proof. reflexivity. Qed.
(* For SSA the first column is Marked, and all else is as told. *)
Theorem event_build_ssa_reads ty calls n : Forall call_ok calls ->
  parse_event_line (build_event_version (event_builder_of ty calls) SsaV4) (map lit ssa_columns) n = Ok (told_event (type_or ty) ssa_columns calls n).
Proof.
  intros H. rewrite event_version_values.
  pose (g := fun c => if String.eqb c "Marked" then lit "Marked=0" else told calls c).
  apply (told_line (type_or ty) (removelast ssa_columns) calls n g H).
  - unfold ssa_columns, event_names. intros c C. cbn [removelast In] in *. tauto.
  - cbn. intuition discriminate.
  - reflexivity.
  - intros c C. unfold g. destruct (String.eqb_spec c "Marked") as [->|N]; [reflexivity|]. apply told_free; [exact H|]. intros ->. cbn in C. intuition discriminate.
  - intros c C1 C2. unfold g. destruct (String.eqb_spec c "Marked") as [->|N]; [|reflexivity]. exfalso. cbn in C1. intuition discriminate.
Qed.
(* The same for any format of known columns that ends in the text. *)
Theorem event_format_reads ty calls cols n : Forall call_ok calls -> incl cols event_names -> ~ In "Text"%string cols ->
  exists line, build_event_format (event_builder_of ty calls) (map lit (cols ++ ["Text"%string])) = Some line /\
    parse_event_line line (map lit (cols ++ ["Text"%string])) n = Ok (told_event (type_or ty) (cols ++ ["Text"%string]) calls n).
Proof.
  intros H I NT. eexists. split.
  - apply format_built; [destruct cols; discriminate|]. intros c C. apply in_app_iff in C as [C|[<-|[]]]; [now apply I|]. unfold event_names. cbn [In]. tauto.
  - apply told_line; try assumption; [intros c C; right; now apply I|reflexivity| |reflexivity].
    intros c C. apply told_free; [exact H|]. intros ->. contradiction.
Qed.
(* Formats are refused exactly when empty or when a column is unknown. *)
Theorem event_format_errors ty calls fmt : build_event_format (event_builder_of ty calls) fmt = None <->
  fmt = [] \/ exists f, In f fmt /\ ~ In f (map lit ("Actor"%string :: event_names)).
Proof.
  set (b := event_builder_of ty calls). clearbody b. destruct fmt as [|f fs]; [cbn; split; auto|]. unfold build_event_format.
  assert (K : forall x, event_builder_value b x = None <-> ~ In x (map lit ("Actor"%string :: event_names))).
  { intros x. unfold event_builder_value. rewrite lookup_none. cbn [map fst event_names In]. tauto. }
  set (fmt := f :: fs) in *. destruct (map_all (event_builder_value b) fmt) as [vs|] eqn:M; cbn [option_map].
  - split; [discriminate|]. intros [Q|(x & X & N)]; [discriminate Q|]. exfalso. apply K in N. assert (Z : map_all (event_builder_value b) fmt = None) by (apply map_all_none; eauto). congruence.
  - split; [|reflexivity]. intros _. right. apply map_all_none in M as (x & X & E). exists x. split; [exact X|]. now apply K.
Qed.
(* What is told is not always written: the layer for SSA, the top and bottom
   margins in all three versions. *)
Theorem ssa_layer_lost_refuted : exists calls, Forall call_ok calls /\
  build_event_version (event_builder_of None calls) SsaV4 = build_event_version (event_builder_of None []) SsaV4 /\ told calls "Layer" = lit "3".
Proof. exists [CLayer 3]. split; [|split; reflexivity]. constructor; [|constructor]. split; [right; reflexivity|reflexivity]. Qed.
Theorem top_margin_lost_refuted v : exists calls, Forall call_ok calls /\
  build_event_version (event_builder_of None calls) v = build_event_version (event_builder_of None []) v /\ told calls "MarginT" = lit "30".
Proof. exists [CMarginT 30]. split; [|split; reflexivity]. constructor; [|constructor]. split; [right; reflexivity|reflexivity]. Qed.
(* The conditions on the texts are needed: a comma in a speaker's name moves
   the fields after it, and a line break ends the event and starts another. *)
Theorem speaker_comma_refuted : exists e, parse_event_line (build_event (event_builder_of None [CSpeaker (lit "Smith, Ann"); CText (lit "Hi")])) [] 1 = Ok e /\
  e_name e = lit "Smith" /\ e_margin_l e = lit "Ann" /\ e_text e = lit ",Hi".
Proof. eexists. split; [vm_compute; reflexivity|]. repeat split. Qed.
Theorem text_break_refuted : exists sc e1 e2,
  parse (lit "[Events]" ++ [10%N] ++ build_event (event_builder_of None [CText (lit "a" ++ [10%N] ++ lit "Comment: 9,1,2,S,N,0,0,0,,b")])) = Done sc /\
  sc_sections sc = [SEvents [e1; e2]] /\ e_text e1 = lit "a" /\ e_type e2 = Comment /\ e_layer e2 = lit "9".
Proof. do 3 eexists. split; [vm_compute; reflexivity|]. split; [vm_compute; reflexivity|]. repeat split. Qed.
Example event_build_instance :
  let calls := [CText (lit "old"); CStart (lit "0:00:01.00"); CSpeaker (lit "Ann"); CLayer 2; CText (lit "Hi, you")] in
  Forall call_ok calls /\ build_event (event_builder_of (Some Comment) calls) = lit "Comment: 2,0:00:01.00,0:00:05.00,Default,Ann,0,0,0,,Hi, you" /\
  e_text (told_event Comment ass_columns calls 4) = lit "Hi, you" /\ e_layer (told_event Comment ass_columns calls 4) = lit "2".
Proof. split; [|repeat split]. repeat constructor; (left; reflexivity) || (right; reflexivity) || reflexivity. Qed.
Print Assumptions event_build_reads.
Print Assumptions event_build_default.
Print Assumptions event_build_ssa_reads.
Print Assumptions event_format_reads.
Print Assumptions event_format_errors.
Print Assumptions ssa_layer_lost_refuted.
Print Assumptions top_margin_lost_refuted.
Print Assumptions speaker_comma_refuted.
Print Assumptions text_break_refuted.

(* ---- C89: styles ---- *)
Definition ass_style : list string := filter (fun c => negb (among c ["MarginT"; "MarginB"; "RelativeTo"]%string)) style_names.
(* SSA v4 has columns of its own. *)
Definition ssa_style : list string := ["Name"; "Fontname"; "Fontsize"; "PrimaryColour"; "SecondaryColour"; "TertiaryColour"; "BackColour"; "Bold"; "Italic";
  "BorderStyle"; "Outline"; "Shadow"; "Alignment"; "MarginL"; "MarginR"; "MarginV"; "AlphaLevel"; "Encoding"]%string.
Lemma ass_version_format : version_format AssV4 = map lit ass_style.
Proof. reflexivity. Qed.
Lemma style_space : lit "Style: " = lit "Style:" ++ lit " ".
Proof. reflexivity. Qed.
Lemma default_style_format line n : parse_style_line line [] n = parse_style_line line (map lit ass_style) n.
Proof. reflexivity. Qed.
Lemma style_build_default show b : build_style_format show b (version_format AssV4) = Some (build_style show b).
Proof. destruct b. reflexivity. Qed.
Lemma ass_style_ne : ass_style <> [].
Proof. discriminate. Qed.
Lemma filter_incl (f : string -> bool) l : incl (filter f l) l.
Proof. intros c C. apply filter_In in C. exact (proj1 C). Qed.
Lemma ass_style_in : incl ass_style style_names.
Proof. unfold ass_style. apply filter_incl. Qed.
Lemma style_build_text show start calls : start = new_style \/ start = default_style ->
  build_style show (style_builder_of start calls) = lit "Style: " ++ join (lit ",") (map (style_told show calls) ass_style).
Proof.
  intros B. pose proof (style_format_built show start ass_style calls B ass_style_ne ass_style_in) as F.
  rewrite <- ass_version_format in F. rewrite style_build_default in F. generalize dependent (build_style show (style_builder_of start calls)). intros x F. congruence.
Qed.
(* Whatever way f32 is displayed, provided it has no comma, blank or star at
   the wrong place. *)
Theorem style_build_reads show start calls n : (forall x, cell (show x)) -> Forall (style_call_ok show) calls -> start = new_style \/ start = default_style ->
  exists d, build_style show (style_builder_of start calls) = lit "Style:" ++ d /\ parse_style_line (trim d) [] n = Ok (style_told_as show ass_style calls n).
Proof.
  intros S H B. exists (lit " " ++ join (lit ",") (map (style_told show calls) ass_style)). split.
  - rewrite style_build_text by exact B. rewrite style_space. symmetry. apply app_assoc.
  - rewrite default_style_format. exact (style_line_told show ass_style calls n S H ass_style_ne ass_style_in).
Qed.
(* build is build_with_version for ASS. *)
Theorem style_build_version show b : build_style_version show b AssV4 = Some (build_style show b).
Proof. exact (style_build_default show b). Qed.
(* Any format of columns the reader knows, that of v4++ among them. *)
Theorem style_format_reads show start calls cols n : (forall x, cell (show x)) -> Forall (style_call_ok show) calls -> start = new_style \/ start = default_style ->
  cols <> [] -> incl cols style_names ->
  exists d, build_style_format show (style_builder_of start calls) (map lit cols) = Some (lit "Style:" ++ d) /\
    parse_style_line (trim d) (map lit cols) n = Ok (style_told_as show cols calls n).
Proof.
  intros S H B NE I. exists (lit " " ++ join (lit ",") (map (style_told show calls) cols)). split; [now apply style_format_built|now apply style_line_told].
Qed.
Theorem style_plus_format show b : build_style_version show b AssV4Plus = build_style_format show b (map lit style_names).
Proof. reflexivity. Qed.
Theorem style_ssa_format show b : build_style_version show b SsaV4 = build_style_format show b (map lit ssa_style).
Proof. reflexivity. Qed.
Theorem style_format_errors show b fmt : build_style_format show b fmt = None <->
  fmt = [] \/ exists f, In f fmt /\ ~ In f (map lit ("TertiaryColour" :: "Strikeout" :: "AlphaLevel" :: style_names)%string).
Proof.
  destruct fmt as [|f fs]; [cbn; split; auto|]. unfold build_style_format.
  assert (K : forall x, style_builder_value show b x = None <-> ~ In x (map lit ("TertiaryColour" :: "Strikeout" :: "AlphaLevel" :: style_names)%string)).
  { intros x. unfold style_builder_value. rewrite lookup_none. cbn [map fst style_names In]. tauto. }
  set (fmt := f :: fs) in *. destruct (map_all (style_builder_value show b) fmt) as [vs|] eqn:M; cbn [option_map].
  - split; [discriminate|]. intros [Q|(x & X & N)]; [discriminate Q|]. exfalso. apply K in N. assert (Z : map_all (style_builder_value show b) fmt = None) by (apply map_all_none; eauto). congruence.
  - split; [|reflexivity]. intros _. right. apply map_all_none in M as (x & X & E). exists x. split; [exact X|]. now apply K.
Qed.
(* f32 written for whole numbers *)
Definition whole (x : float) : str := match x with Fin q => z_dec (QArith_base.Qnum q / Zpos (QArith_base.Qden q)) | Inf _ => lit "inf" | NaN => lit "NaN" end.
Lemma dec_cell n : cell (to_dec n).
Proof.
  assert (D : Forall (fun c => (48 <= c <= 57)%N) (to_dec n)).
  { unfold to_dec. generalize (S (N.size_nat n)). intros f. revert n. induction f as [|f IH]; intros n; [constructor|]. cbn [dec_digits].
    destruct (N.ltb_spec n 10); [repeat constructor; lia|]. apply Forall_app. split; [apply IH|]. pose proof (N.mod_lt n 10). repeat constructor; lia. }
  assert (W : forall c, (48 <= c <= 57)%N -> is_ws c = false). { intros c H. unfold is_ws. lia. }
  assert (NE : forall c, In c (to_dec n) -> is_ws c = false) by (intros c C; rewrite Forall_forall in D; apply W, D, C).
  assert (TS : trim_start (to_dec n) = to_dec n). { destruct (to_dec n) as [|c r]; [reflexivity|]. unfold trim_start. cbn [drop_while]. now rewrite (NE c (or_introl eq_refl)). }
  split; [|split].
  - apply forallb_forall. intros c C. rewrite Forall_forall in D. specialize (D c C). unfold ParseModel.is_comma. destruct (N.eqb_spec c 44); [lia|reflexivity].
  - unfold trim_ok, trim. rewrite TS. unfold trim_end. destruct (to_dec n) as [|c r] eqn:E; [reflexivity|]. apply drop_end_id. right. rewrite <- E in *.
    destruct (exists_last (l := to_dec n)) as (x & y & Q); [rewrite E; discriminate|]. exists x, y. split; [exact Q|]. apply NE. rewrite Q. apply in_or_app. right. now left.
  - unfold star. rewrite TS. destruct (to_dec n) as [|c r]; [reflexivity|]. inversion D; subst. unfold starts_with. cbn [lit strip_prefix].
    destruct (N.eqb_spec (N_of_ascii "*") c) as [Q|Q]; [|reflexivity]. subst c. exfalso. change (N_of_ascii "*") with 42%N in *. lia.
Qed.
Lemma whole_cell x : cell (whole x).
Proof.
  destruct x as [|b|q]; [repeat split; reflexivity|repeat split; reflexivity|]. unfold whole, z_dec. set (z := (_ / _)%Z). clearbody z. destruct (z <? 0)%Z; [|apply dec_cell].
  destruct (dec_cell (Z.to_N (- z))) as (A & B & _). set (s := to_dec (Z.to_N (- z))) in *.
  assert (TS : trim_start (lit "-" ++ s) = lit "-" ++ s) by reflexivity. split; [exact A|]. split; [|reflexivity].
  unfold trim_ok, trim. rewrite TS. unfold trim_end. destruct s as [|c r]; [reflexivity|]. apply drop_end_id. right.
  destruct (exists_last (l := c :: r)) as (x & y & Q); [discriminate|]. exists (lit "-" ++ x), y. rewrite Q. split; [reflexivity|].
  unfold trim_ok, trim in B. destruct (is_ws y) eqn:W; [|reflexivity]. exfalso.
  assert (L : List.length (trim_end (trim_start (c :: r))) < List.length (c :: r)).
  { rewrite Q. unfold trim_end, trim_start. destruct (drop_while_spec is_ws (x ++ [y])) as (a & E & _ & _). rewrite E at 2.
    assert (DL : forall l, List.length (drop_end is_ws l) <= List.length l). { clear. intros l. induction l as [|h l IH]; [auto|]. cbn [drop_end]. destruct (drop_end is_ws l); [destruct (is_ws h); cbn; lia|cbn in *; lia]. }
    assert (DD : forall l, l <> [] -> is_ws (last l 0%N) = true -> List.length (drop_end is_ws l) < List.length l).
    { clear. intros l. induction l as [|h [|k l] IH]; [congruence| |]; intros _ K. { cbn in *. rewrite K. cbn. lia. } specialize (IH ltac:(discriminate) K).
      change (drop_end is_ws (h :: k :: l)) with (match drop_end is_ws (k :: l) with [] => if is_ws h then [] else [h] | r' => h :: r' end). destruct (drop_end is_ws (k :: l)); [destruct (is_ws h); cbn; lia|cbn in *; lia]. }
    destruct (drop_while is_ws (x ++ [y])) as [|h l] eqn:DW.
    - rewrite app_length. cbn. destruct a; [|cbn; lia]. cbn in E. destruct x; discriminate E.
    - rewrite app_length. enough (List.length (drop_end is_ws (h :: l)) < List.length (h :: l)) by (cbn in *; lia). apply DD; [discriminate|].
      assert (LA : last (a ++ h :: l) 0%N = last (h :: l) 0%N). { clear. induction a as [|z a IH]; [reflexivity|]. cbn [app]. destruct (a ++ h :: l) eqn:Z; [destruct a; discriminate Z|]. exact IH. }
      rewrite <- LA, <- E, last_last. exact W. }
  rewrite B in L. lia.
Qed.
(* The reader has no column for SSA's tertiary colour, and takes a style name
   with a star for a parent. *)
Theorem ssa_outline_lost_refuted : exists d s, build_style_version whole (style_builder_of new_style [SOutlineColor (lit "&HFF")]) SsaV4 = Some (lit "Style:" ++ d) /\
  parse_style_line (trim d) (version_format SsaV4) 1 = Ok s /\ s_outlinec s = [].
Proof. do 2 eexists. split; [vm_compute; reflexivity|]. split; vm_compute; reflexivity. Qed.
Theorem star_name_refuted : exists d, build_style whole (style_builder_of new_style [SName (lit "*Big")]) = lit "Style:" ++ d /\
  parse_style_line (trim d) [] 1 = Err.
Proof. eexists. split; [vm_compute; reflexivity|]. vm_compute. reflexivity. Qed.
Theorem top_margin_style_lost_refuted show : exists calls, Forall (style_call_ok show) calls /\
  build_style show (style_builder_of new_style calls) = build_style show (style_builder_of new_style []) /\ style_told show calls "MarginT" = lit "30".
Proof. exists [SMarginT 30]. split; [|split; reflexivity]. constructor; [|constructor]. repeat split. Qed.
Example style_build_instance :
  let calls := [SBold true; SSize 24; SName (lit "Main"); SScaleX (Fin (90 # 1)); SBold false; SItalic true] in
  Forall (style_call_ok whole) calls /\ (forall x, cell (whole x)) /\
  build_style whole (style_builder_of default_style calls) = lit "Style: Main,Arial,24,&Hffffff,&Hff0000,&H0,&H0,0,-1,0,0,90,100,0,0,1,2,0,2,10,10,10,1" /\
  s_italic (style_told_as whole ass_style calls 1) = lit "-1" /\ s_scale_x (style_told_as whole ass_style calls 1) = lit "90".
Proof. cbv zeta. split; [|split; [exact whole_cell|repeat split]]. repeat constructor. Qed.
Print Assumptions style_build_reads.
Print Assumptions style_build_version.
Print Assumptions style_format_reads.
Print Assumptions style_plus_format.
Print Assumptions style_ssa_format.
Print Assumptions style_format_errors.
Print Assumptions ssa_outline_lost_refuted.
Print Assumptions star_name_refuted.
Print Assumptions top_margin_style_lost_refuted.
