(* The style commands: C90-C94. *)
From Verif Require Import Base BaseLemmas FloatModel DocModel DocSpec DocProofs ParseModel EventCmdModel EventCmdSpec EventCmdProofs
  BuilderModel BuilderSpec BuilderProps StyleCmdModel StyleCmdSpec StyleCmdProofs StyleCmdApply.
From Verif Require EventCmdProps.

Definition nl : str := [10%N].
Definition doc_of (s : str) : doc := fresh 50 0 s.
Definition text_after {A} (o : outcome A) : option str := match o with Done (d, Some _) => Some (text d) | _ => None end.
Definition lns (l : list string) : str := ended (map lit l).
Lemma fresh_reached sz s : reached sz (doc_of s).
Proof. exists 50, 0, s, []. reflexivity. Qed.
(* by trying every place *)
Fixpoint has_b (p s : str) : bool := starts_with p s || match s with [] => false | _ :: r => has_b p r end.
Lemma has_dec p s : has_b p s = false -> ~ has p s.
Proof.
  intros H (a & b & ->). induction a as [|c a IH].
  - cbn [app] in H. destruct (p ++ b) eqn:E; cbn [has_b] in H; rewrite <- E, starts_with_app in H; discriminate H.
  - cbn [app has_b] in H. apply orb_false_iff in H as [_ H]. now apply IH.
Qed.
Fixpoint only_at_end (p s : str) : bool :=
  match s with [] => true | c :: r => negb (starts_with p (s ++ p)) && only_at_end p r end.
Lemma first_at_dec p a : only_at_end p a = true -> first_at p a.
Proof.
  induction a as [|c a IH]; intros H x y E.
  - apply (f_equal (@List.length N)) in E. rewrite !app_length in E. destruct y; [reflexivity|]. cbn in E. lia.
  - cbn [only_at_end] in H. apply andb_true_iff in H as [H1 H2]. destruct x as [|c2 x].
    + exfalso. cbn [app] in E. apply negb_true_iff in H1. cbn [app] in H1. rewrite E, starts_with_app in H1. discriminate H1.
    + cbn [app] in E. injection E as <- E. exact (IH H2 x y E).
Qed.

(* ---- C90: create ---- *)
(* Under the main header and the line after it, *)
Theorem create_style_under : forall show sz name start calls d A h m f rest n,
  reached sz d -> text d = A ++ h ++ m ++ [10%N] ++ f ++ [10%N] ++ rest ->
  main_header A h (m ++ [10%N] ++ f ++ [10%N] ++ rest) -> ~ In 10%N m -> ~ In 10%N f ->
  (forall x, cell (show x)) -> Forall (style_call_ok show) calls -> cell name -> start = new_style \/ start = default_style ->
  exists d' r line, create_style show sz name (style_builder_of start calls) d = Done (d', Some r) /\
    text d' = A ++ h ++ m ++ [10%N] ++ f ++ [10%N] ++ line ++ [10%N] ++ rest /\ reached sz d' /\
    m_range r = Some (mkRange (blen (A ++ h ++ m ++ [10%N] ++ f ++ [10%N])) (blen (A ++ h ++ m ++ [10%N] ++ f ++ [10%N] ++ line ++ [10%N]))) /\
    exists body, line = lit "Style:" ++ body /\
      parse_style_line (trim body) [] n = Ok (style_told_as show ass_style (calls ++ [SName name]) n).
Proof.
  intros show sz name start calls d A h m f rest n HR E HM Hm Hf Hs Hc Hn Hb. unfold create_style.
  set (line := build_style show (set_style (style_builder_of start calls) (SName name))).
  destruct (create_under sz line d A h m f rest HR E HM Hm Hf) as (d' & D & T & R).
  exists d'. eexists. exists line. split; [exact D|]. split; [exact T|]. split; [exact R|]. split.
  - cbn [m_range success_with_change]. do 2 f_equal. rewrite !blen_app. lia.
  - assert (B : line = build_style show (style_builder_of start (calls ++ [SName name]))).
    { unfold line, style_builder_of. now rewrite fold_left_app. }
    rewrite B. apply style_build_reads; [exact Hs|apply Forall_app; split; [exact Hc|repeat constructor; apply Hn]|exact Hb].
Qed.
(* or in a section of its own, before the events or at the end. *)
Theorem create_style_apart : forall show sz name start calls d A B n, reached sz d -> text d = A ++ B -> no_styles (text d) ->
  (first_at (lit "[Events]") A /\ exists r, B = lit "[Events]" ++ r) \/ (~ has (lit "[Events]") (text d) /\ B = []) ->
  (forall x, cell (show x)) -> Forall (style_call_ok show) calls -> cell name -> start = new_style \/ start = default_style ->
  exists d' r line, create_style show sz name (style_builder_of start calls) d = Done (d', Some r) /\
    text d' = A ++ [10%N] ++ lit "[V4+ Styles]" ++ [10%N] ++ ass_format ++ [10%N] ++ line ++ [10%N] ++ B /\ reached sz d' /\
    exists body, line = lit "Style:" ++ body /\
      parse_style_line (trim body) [] n = Ok (style_told_as show ass_style (calls ++ [SName name]) n).
Proof.
  intros show sz name start calls d A B n HR E HN HB Hs Hc Hn Hb. unfold create_style.
  set (line := build_style show (set_style (style_builder_of start calls) (SName name))).
  destruct (create_apart sz line d A B HR E (or_introl HN) HB) as (d' & D & T & R).
  exists d'. eexists. exists line. split; [exact D|]. split; [rewrite T; unfold styles_section; now rewrite <- !app_assoc|]. split; [exact R|].
  assert (Q : line = build_style show (style_builder_of start (calls ++ [SName name]))).
  { unfold line, style_builder_of. now rewrite fold_left_app. }
  rewrite Q. apply style_build_reads; [exact Hs|apply Forall_app; split; [exact Hc|repeat constructor; apply Hn]|exact Hb].
Qed.
Example create_instance :
  let t := lns ["[Script Info]"; "Title: x"; "[V4+ Styles]"; "Format: Name, Fontname"; "Style: Default,Arial"; "[Events]"]%string in
  reached 0 (doc_of t) /\
  (exists A h m f rest, t = A ++ h ++ m ++ [10%N] ++ f ++ [10%N] ++ rest /\ main_header A h (m ++ [10%N] ++ f ++ [10%N] ++ rest) /\ ~ In 10%N m /\ ~ In 10%N f) /\
  text_after (create_style whole 0 (lit "Big") (style_builder_of default_style [SSize 40]) (doc_of t)) = Some
    (lns ["[Script Info]"; "Title: x"; "[V4+ Styles]"; "Format: Name, Fontname";
          "Style: Big,Arial,40,&Hffffff,&Hff0000,&H0,&H0,0,0,0,0,100,100,0,0,1,2,0,2,10,10,10,1"; "Style: Default,Arial"; "[Events]"]%string).
Proof.
  cbv zeta. split; [apply fresh_reached|]. split; [|vm_compute; reflexivity].
  exists (lns ["[Script Info]"; "Title: x"]%string), (lit "[V4+ Styles]"), [], (lit "Format: Name, Fontname"), (lns ["Style: Default,Arial"; "[Events]"]%string).
  split; [reflexivity|]. split; [split; [apply first_at_dec; reflexivity|now left]|]. split; [easy|]. cbn. intuition discriminate.
Qed.
(* Nothing checks for a style of the same name, *)
Theorem create_twice_refuted : exists d d1 r1 d2 r2, reached 0 d /\
  create_style whole 0 (lit "A") (style_builder_of default_style []) d = Done (d1, Some r1) /\
  create_style whole 0 (lit "A") (style_builder_of default_style []) d1 = Done (d2, Some r2) /\
  exists line, text d2 = [10%N] ++ lit "[V4+ Styles]" ++ [10%N] ++ ass_format ++ [10%N] ++ line ++ [10%N] ++ line ++ [10%N].
Proof.
  exists (doc_of []). do 4 eexists. split; [apply fresh_reached|]. split; [vm_compute; reflexivity|]. split; [vm_compute; reflexivity|].
  exists (lit "Style: A,Arial,20,&Hffffff,&Hff0000,&H0,&H0,0,0,0,0,100,100,0,0,1,2,0,2,10,10,10,1"). vm_compute. reflexivity.
Qed.
(* a format line that ends the text comes to stand after the style, *)
Theorem create_format_last_refuted : forall show sz name b d A h m f, reached sz d -> text d = A ++ h ++ m ++ [10%N] ++ f ->
  main_header A h (m ++ [10%N] ++ f) -> ~ In 10%N m -> ~ In 10%N f ->
  exists d' r line, create_style show sz name b d = Done (d', Some r) /\ text d' = A ++ h ++ m ++ [10%N] ++ line ++ [10%N] ++ f.
Proof.
  intros show sz name b d A h m f HR E HM Hm Hf. unfold create_style.
  destruct (create_before sz (build_style show (set_style b (SName name))) d A h m f HR E HM Hm Hf) as (d' & r & D & T & _). eauto 10.
Qed.
(* without a format line the style lands in the section that follows, *)
Theorem create_next_section_refuted :
  text_after (create_line 0 (lit "Style: A") (doc_of (lns ["[V4+ Styles]"; "[Events]"; "Format: Text"]%string))) =
    Some (lns ["[V4+ Styles]"; "[Events]"; "Style: A"; "Format: Text"]%string).
Proof. vm_compute. reflexivity. Qed.
(* and a header named in a comment is taken for one. *)
Theorem create_mention_refuted :
  text_after (create_line 0 (lit "Style: A") (doc_of (lns ["; see [V4+ Styles]"; "[Script Info]"; "Title: x"; "[V4+ Styles]"; "Format: Name"]%string))) =
    Some (lns ["; see [V4+ Styles]"; "[Script Info]"; "Style: A"; "Title: x"; "[V4+ Styles]"; "Format: Name"]%string).
Proof. vm_compute. reflexivity. Qed.
Print Assumptions create_style_under.
Print Assumptions create_style_apart.
Print Assumptions create_twice_refuted.
Print Assumptions create_format_last_refuted.
Print Assumptions create_next_section_refuted.
Print Assumptions create_mention_refuted.

(* ---- C91: delete ---- *)
Theorem delete_style_exact : forall sz name d A l rest rest', reached sz d -> text d = A ++ l ++ rest ->
  first_in_line (style_text name) A l rest -> after_newline rest rest' ->
  exists d', delete_style sz name d = Done (d', Some (success_with_change (mkRange (blen A) (blen A)) (blen A))) /\
    text d' = A ++ rest' /\ reached sz d'.
Proof. exact delete_exact. Qed.
(* It fails only if the text is nowhere, and then changes nothing; it never
   panics. *)
Theorem delete_style_fails : forall sz name d, reached sz d -> ~ In 10%N name ->
  (has (style_text name) (text d) -> exists d' r, delete_style sz name d = Done (d', Some r) /\ reached sz d') /\
  (~ has (style_text name) (text d) -> delete_style sz name d = Done (d, None)).
Proof.
  intros sz name d HR Hn. split; intros H.
  - destruct (has_line (style_text name) (text d)) as (A & l & rest & E & F); [discriminate| |exact H|].
    { intros Q. apply in_app_iff in Q as [Q|Q]; [cbn in Q; intuition discriminate|contradiction]. }
    assert (X : exists rest', after_newline rest rest'). { destruct F as (_ & _ & [->|[r ->]] & _); [exists []; now left|exists r; now right]. }
    destruct X as [rest' X]. destruct (delete_exact sz name d A l rest rest' HR E F X) as (d' & D & _ & R). eauto.
  - unfold delete_style. change (style_pattern name) with (style_text name). now rewrite find_missing.
Qed.
Example delete_instance :
  let t := lns ["[V4+ Styles]"; "Style: A,x"; "Style: B,y"; "Style: C,z"]%string in
  (exists A l rest, t = A ++ l ++ rest /\ l = lit "Style: B,y" /\ first_in_line (style_text (lit "B")) A l rest) /\
  text_after (delete_style 0 (lit "B") (doc_of t)) = Some (lns ["[V4+ Styles]"; "Style: A,x"; "Style: C,z"]%string).
Proof.
  cbv zeta. split; [|vm_compute; reflexivity]. exists (lns ["[V4+ Styles]"; "Style: A,x"]%string), (lit "Style: B,y"), (10%N :: lns ["Style: C,z"]%string).
  split; [reflexivity|]. split; [reflexivity|]. split; [right; exists (lit "[V4+ Styles]" ++ nl ++ lit "Style: A,x"); reflexivity|].
  split; [cbn; intuition discriminate|]. split; [right; eexists; reflexivity|]. exists [], (lit ",y"). split; [reflexivity|]. apply first_at_dec. reflexivity.
Qed.
(* A style whose name only begins with the name is deleted if it comes first,
   and a line of text that mentions the style. *)
Theorem delete_prefix_refuted :
  text_after (delete_style 0 (lit "Default") (doc_of (lns ["[V4+ Styles]"; "Style: Default2,x"; "Style: Default,y"]%string))) =
    Some (lns ["[V4+ Styles]"; "Style: Default,y"]%string).
Proof. vm_compute. reflexivity. Qed.
Theorem delete_mention_refuted :
  text_after (delete_style 0 (lit "A") (doc_of (lns ["[Events]"; "Dialogue: 0,0:00:01.00,0:00:02.00,B,,0,0,0,,No Style: A here"]%string))) = Some (lns ["[Events]"]%string).
Proof. vm_compute. reflexivity. Qed.
Print Assumptions delete_style_exact.
Print Assumptions delete_style_fails.
Print Assumptions delete_prefix_refuted.
Print Assumptions delete_mention_refuted.

(* ---- C92: edit ---- *)
Theorem edit_style_exact : forall sz name ups d A l rest h B m cols C fields, reached sz d -> text d = A ++ l ++ rest ->
  first_in_line (style_text name) A l rest ->
  styles_header A h B (m ++ lit "Format: " ++ join (lit ", ") cols ++ [10%N] ++ C) -> first_at (lit "Format:") (h ++ m) ->
  Forall no_comma cols -> cols <> [] -> NoDup cols -> Forall (fun c => ~ In 10%N c) cols ->
  l = join (lit ",") fields -> Forall no_comma fields -> 2 <= List.length fields -> NoDup (map fst ups) ->
  exists d', let l' := join (lit ",") (set_columns ups cols fields) in
    edit_style sz name ups d = Done (d', Some (success_with_change (mkRange (blen A) (blen A + blen l')) (blen A + blen l'))) /\
    text d' = A ++ l' ++ rest /\ reached sz d'.
Proof. exact edit_exact. Qed.
(* The order in which the map of updates is iterated does not matter; the
   last value set for a field counts. *)
Theorem edit_order_free : forall sets u1 u2 cols fields, lists_map sets u1 -> lists_map sets u2 ->
  set_columns u1 cols fields = set_columns u2 cols fields.
Proof.
  intros sets u1 u2 cols fields [N1 M1] [N2 M2].
  assert (V : forall ups, NoDup (map fst ups) -> forall k v, In (k, v) ups -> forall d, value_in ups k d = v).
  { induction ups as [|[k' v'] r IH]; intros HN k v Hin d; [destruct Hin|]. cbn [map fst] in HN. inversion HN as [|? ? H1 H2]; subst. cbn [value_in].
    destruct Hin as [Q|Q]; [injection Q as -> ->; now rewrite str_eqb_refl|]. destruct (str_eqb k' k) eqn:X; [|now apply IH].
    apply str_eqb_eq in X. subst k'. exfalso. apply H1. apply in_map_iff. now exists (k, v). }
  assert (W : forall k d, value_in u1 k d = value_in u2 k d).
  { intros k d. destruct (in_dec (list_eq_dec N.eq_dec) k (map fst u1)) as [Q|Q].
    - apply in_map_iff in Q as ([k' v] & <- & Q). cbn [fst]. rewrite (V u1 N1 _ _ Q). symmetry. apply V; [exact N2|]. now apply M2, M1.
    - rewrite value_in_none by exact Q. symmetry. apply value_in_none. intros X. apply Q. apply in_map_iff in X as ([k' v] & <- & X). apply in_map_iff.
      exists (k', v). split; [reflexivity|]. now apply M1, M2. }
  revert fields. induction cols as [|c cs IH]; intros [|f fs]; try reflexivity. cbn [set_columns]. now rewrite W, IH.
Qed.
(* What a field holds afterwards. *)
Theorem edit_fields : forall ups cols fields i c f, NoDup (map fst ups) -> nth_error cols i = Some c -> nth_error fields i = Some f ->
  List.length (set_columns ups cols fields) = List.length fields /\
  (forall v, In (c, v) ups -> nth_error (set_columns ups cols fields) i = Some v) /\
  (~ In c (map fst ups) -> nth_error (set_columns ups cols fields) i = Some f).
Proof.
  intros ups cols fields i c f HN Hc Hf. 
  assert (L : forall cols fields, List.length (set_columns ups cols fields) = List.length fields).
  { clear. induction cols as [|c cs IH]; intros [|f fs]; cbn; try reflexivity. now rewrite IH. }
  split; [apply L|]. revert cols fields Hc Hf. induction i as [|i IH]; intros [|c' cs] [|f' fs] Hc Hf; try discriminate; cbn [nth_error set_columns] in *.
  - injection Hc as ->. injection Hf as ->. split.
    + intros v Hin. f_equal. revert HN Hin. clear. induction ups as [|[k' v'] r IH]; intros HN Hin; [destruct Hin|]. cbn [map fst] in HN. inversion HN as [|? ? H1 H2]; subst. cbn [value_in].
      destruct Hin as [Q|Q]; [injection Q as -> ->; now rewrite str_eqb_refl|]. destruct (str_eqb k' c) eqn:X; [|now apply IH].
      apply str_eqb_eq in X. subst k'. exfalso. apply H1. apply in_map_iff. now exists (c, v).
    + intros Q. now rewrite value_in_none.
  - now apply IH.
Qed.
Example edit_instance :
  let t := lns ["[V4+ Styles]"; "Format: Name, Fontname, Fontsize, Bold"; "Style: A,Arial,20,0"; "Style: B,Times,30,-1"]%string in
  (exists A l rest h B m cols C fields, t = A ++ l ++ rest /\ first_in_line (style_text (lit "B")) A l rest /\
    styles_header A h B (m ++ lit "Format: " ++ join (lit ", ") cols ++ [10%N] ++ C) /\ first_at (lit "Format:") (h ++ m) /\
    cols = map lit ["Name"; "Fontname"; "Fontsize"; "Bold"]%string /\ l = join (lit ",") fields /\ List.length fields = 4) /\
  text_after (edit_style 0 (lit "B") [(lit "Bold", lit "0"); (lit "Angle", lit "9"); (lit "Fontname", lit "Mono")] (doc_of t)) =
    Some (lns ["[V4+ Styles]"; "Format: Name, Fontname, Fontsize, Bold"; "Style: A,Arial,20,0"; "Style: B,Mono,30,0"]%string).
Proof.
  cbv zeta. split; [|vm_compute; reflexivity].
  exists (lns ["[V4+ Styles]"; "Format: Name, Fontname, Fontsize, Bold"; "Style: A,Arial,20,0"]%string), (lit "Style: B,Times,30,-1"), nl.
  exists (lit "[V4+ Styles]"), [], nl, (map lit ["Name"; "Fontname"; "Fontsize"; "Bold"]%string), (lns ["Style: A,Arial,20,0"]%string), (map lit ["Style: B"; "Times"; "30"; "-1"]%string).
  split; [reflexivity|]. split.
  - split; [right; exists (lit "[V4+ Styles]" ++ nl ++ lit "Format: Name, Fontname, Fontsize, Bold" ++ nl ++ lit "Style: A,Arial,20,0"); reflexivity|].
    split; [cbn; intuition discriminate|]. split; [right; eexists; reflexivity|]. exists [], (lit ",Times,30,-1"). split; [reflexivity|]. apply first_at_dec. reflexivity.
  - split; [|split; [apply first_at_dec; reflexivity|repeat split]]. split; [reflexivity|]. left. split; [reflexivity|].
    intros x y E. destruct x as [|c x]; [reflexivity|]. exfalso. change (lit "[V4+ Styles]") with (91%N :: lit "V4+ Styles]") in E at 1. cbn [app] in E. injection E as _ E.
    refine (has_dec (lit "[V4+ Styles]") _ _ (ex_intro _ x (ex_intro _ y E))). vm_compute. reflexivity.
Qed.
(* Setting the name destroys the line, as the first field holds its type; *)
Theorem edit_name_refuted :
  text_after (edit_style 0 (lit "A") [(lit "Name", lit "B")] (doc_of (lns ["[V4+ Styles]"; "Format: Name, Fontname"; "Style: A,Arial"]%string))) =
    Some (lns ["[V4+ Styles]"; "Format: Name, Fontname"; "B,Arial"]%string).
Proof. vm_compute. reflexivity. Qed.
(* a format without blanks after the commas makes all edits do nothing, and
   succeed; *)
Theorem edit_no_blanks_refuted : 
  text_after (edit_style 0 (lit "A") [(lit "Fontname", lit "Mono")] (doc_of (lns ["[V4+ Styles]"; "Format: Name,Fontname"; "Style: A,Arial"]%string))) =
    Some (lns ["[V4+ Styles]"; "Format: Name,Fontname"; "Style: A,Arial"]%string).
Proof. vm_compute. reflexivity. Qed.
(* and another style is edited if its name begins with the name. *)
Theorem edit_prefix_refuted :
  text_after (edit_style 0 (lit "A") [(lit "Fontname", lit "Mono")] (doc_of (lns ["[V4+ Styles]"; "Format: Name, Fontname"; "Style: A2,Arial"; "Style: A,Arial"]%string))) =
    Some (lns ["[V4+ Styles]"; "Format: Name, Fontname"; "Style: A2,Mono"; "Style: A,Arial"]%string).
Proof. vm_compute. reflexivity. Qed.
Print Assumptions edit_style_exact.
Print Assumptions edit_order_free.
Print Assumptions edit_fields.
Print Assumptions edit_name_refuted.
Print Assumptions edit_no_blanks_refuted.
Print Assumptions edit_prefix_refuted.

(* ---- C93: clone ---- *)
Theorem clone_style_exact : forall sz src tgt d A y rest, reached sz d -> text d = A ++ (style_text src ++ y) ++ rest ->
  first_in_line (style_text src) A (style_text src ++ y) rest -> ~ has (style_text src) y -> ~ has (style_text tgt) (text d) ->
  exists d' r, clone_style sz src tgt d = Done (d', Some r) /\
    text d' = A ++ (style_text src ++ y) ++ [10%N] ++ (style_text tgt ++ y) ++ rest /\ reached sz d' /\
    m_range r = Some (mkRange (blen (A ++ style_text src ++ y)) (blen (A ++ (style_text src ++ y) ++ [10%N] ++ style_text tgt ++ y))).
Proof.
  intros sz src tgt d A y rest HR E HF Hy HT. destruct (clone_exact sz src tgt d A (style_text src ++ y) rest HR E HF HT) as (d' & D & T & R).
  cbv zeta in *. rewrite replace_at, replace_none in D, T by (exact Hy || discriminate).
  exists d'. eexists. split; [exact D|]. split; [rewrite T; now rewrite <- !app_assoc|]. split; [exact R|].
  cbn [m_range success_with_change]. do 2 f_equal. rewrite !blen_app. lia.
Qed.
(* It fails if the target's text is there or the source's is not, and then
   changes nothing; otherwise it succeeds. *)
Theorem clone_style_fails : forall sz src tgt d, reached sz d -> ~ In 10%N src ->
  (has (style_text tgt) (text d) \/ ~ has (style_text src) (text d) -> clone_style sz src tgt d = Done (d, None)) /\
  (~ has (style_text tgt) (text d) -> has (style_text src) (text d) -> exists d' r, clone_style sz src tgt d = Done (d', Some r) /\ reached sz d').
Proof.
  intros sz src tgt d HR Hn. split.
  - intros [H|H]; unfold clone_style; change style_pattern with style_text.
    + destruct (has_find _ _ H) as [r ->]. reflexivity.
    + rewrite (find_missing _ _ H). now destruct (find_str (style_text tgt) (text d)).
  - intros H1 H2. destruct (has_line (style_text src) (text d)) as (A & l & rest & E & F); [discriminate| |exact H2|].
    { intros Q. apply in_app_iff in Q as [Q|Q]; [cbn in Q; intuition discriminate|contradiction]. }
    destruct (clone_exact sz src tgt d A l rest HR E F H1) as (d' & D & _ & R). eauto.
Qed.
Example clone_instance :
  text_after (clone_style 0 (lit "A") (lit "New") (doc_of (lns ["[V4+ Styles]"; "Style: A,Arial"; "Style: B,x"]%string))) =
    Some (lns ["[V4+ Styles]"; "Style: A,Arial"; "Style: New,Arial"; "Style: B,x"]%string) /\
  ~ has (style_text (lit "A")) (lit ",Arial") /\ ~ has (style_text (lit "New")) (lns ["[V4+ Styles]"; "Style: A,Arial"; "Style: B,x"]%string).
Proof. split; [vm_compute; reflexivity|]. split; apply has_dec; vm_compute; reflexivity. Qed.
(* A style is cloned although only one with a longer name exists, and a name
   is refused although only a longer one exists. *)
Theorem clone_prefix_refuted :
  text_after (clone_style 0 (lit "A") (lit "New") (doc_of (lns ["[V4+ Styles]"; "Style: Alt,Arial"]%string))) =
    Some (lns ["[V4+ Styles]"; "Style: Alt,Arial"; "Style: Newlt,Arial"]%string).
Proof. vm_compute. reflexivity. Qed.
Theorem clone_free_name_refuted :
  text_after (clone_style 0 (lit "A") (lit "B") (doc_of (lns ["[V4+ Styles]"; "Style: A,Arial"; "Style: Bold,Arial"]%string))) = None.
Proof. vm_compute. reflexivity. Qed.
Print Assumptions clone_style_exact.
Print Assumptions clone_style_fails.
Print Assumptions clone_prefix_refuted.
Print Assumptions clone_free_name_refuted.

(* ---- C94: apply ---- *)
Theorem apply_style_exact : forall sz old new filter d head ls ls' rest k fuel,
  reached sz d -> events_top head -> text d = head ++ join [10%N] ls ++ rest -> other_section rest ->
  ls <> [] -> Forall in_section ls -> restyles old new filter ls ls' k -> 2 * List.length ls + 1 <= fuel ->
  exists d' r, apply_style fuel sz old new filter d = Done (d', Some (r, k)) /\ changed r = (0 <? k) /\
    text d' = head ++ join [10%N] ls' ++ rest /\ reached sz d'.
Proof.
  intros sz old new flt d head ls ls' rest k fuel HR Hh E Hr NE HF HC Hf. unfold apply_style. rewrite E, top_found by exact Hh. cbn [bind].
  destruct (apply_all sz old new flt ls ls' k fuel d head rest None 0 HR E Hr NE HF HC Hf) as (d' & tot & D & T & X).
  rewrite D. cbn [and_then bind fst snd plus]. exists d'. eexists. split; [reflexivity|]. split; [now destruct (0 <? k)|]. auto.
Qed.
(* It ends if the new name is free of commas and newlines, *)
Theorem apply_style_ends : forall sz old new filter d fuel, reached sz d -> no_comma new -> ~ In 10%N new -> blen (text d) + 1 < fuel ->
  apply_style fuel sz old new filter d <> Stuck.
Proof.
  intros sz old new flt d fuel HR H1 H2 Hf. unfold apply_style.
  assert (F : first_event_start (text d) <> Stuck).
  { unfold first_event_start. destruct (find_str _ _) as [[a b]|]; [|discriminate]. destruct (find_char is_nl b) as [[l r]|]; [|discriminate].
    destruct (slice_from _ _); discriminate. }
  destruct (first_event_start (text d)) as [[p|]| |]; cbn [bind]; try discriminate; [|congruence].
  assert (L : apply_loop fuel sz old new flt d p None 0 <> Stuck).
  { apply apply_loop_ends; [split; assumption|exact HR|]. unfold left. destruct (slice_from (text d) p) as [b|] eqn:Q; [|lia].
    apply slice_from_spec in Q as (a & E & _). rewrite E, blen_app in Hf. enough (seps b <= blen b) by lia. clear.
    induction b as [|c b IH]; [cbn; lia|]. change (c :: b) with ([c] ++ b). rewrite seps_app, blen_app. enough (seps [c] <= blen [c]) by lia.
    unfold seps. cbn [filter blen]. pose proof (len_utf8_pos c). destruct (_ || _); cbn; lia. }
  unfold and_then. destruct (apply_loop _ _ _ _ _ _ _ _ _) as [[d1 [[t n]|]]| |]; cbn [bind fst snd]; try discriminate. congruence.
Qed.
(* and need not end otherwise. *)
Theorem apply_style_endless_refuted : exists d old new, reached 0 d /\ forall fuel, apply_style fuel 0 old new None d = Stuck.
Proof.
  set (T := lit "Dialogue:a,b,c,o,"). set (old := lit "o"). set (new := lit "xxxDialogue:a,b,c,o").
  exists (doc_of (lns ["[Events]"; "Format: x"]%string ++ T)), old, new. split; [apply fresh_reached|].
  assert (G : forall fuel d A tot n, reached 0 d -> text d = A ++ T -> apply_loop fuel 0 old new None d (blen A) tot n = Stuck).
  { induction fuel as [|f IH]; intros d A tot n HR E; [reflexivity|].
    rewrite (apply_step f 0 old new None d A T []); [|now rewrite app_nil_r| |now left].
    2: { split; [discriminate|]. split; [cbn; intuition discriminate|]. intros r. discriminate. }
    replace (is_event_line T && (has_style old T && passes None T)) with true by reflexivity.
    set (U := lit "Dialogue:a,b,c,xxx"). replace (swap_style old new T) with (U ++ T) by (vm_compute; reflexivity).
    destruct (replace_ok 0 d A T [] (U ++ T) HR) as (d1 & D & E1 & R1); [now rewrite app_nil_r|].
    rewrite D. cbn [of_out and_then bind fst snd]. replace (blen A + blen T + 1) with (blen (A ++ U)) by (rewrite blen_app; change (blen U) with 18; change (blen T) with 17; lia).
    apply IH; [exact R1|]. rewrite E1, app_nil_r. now rewrite app_assoc. }
  intros fuel. unfold apply_style.
  replace (first_event_start _) with (Done (Some (blen (lns ["[Events]"; "Format: x"]%string)))) by (vm_compute; reflexivity). cbn [bind].
  rewrite G; [reflexivity|apply fresh_reached|reflexivity].
Qed.
Example apply_instance :
  let ls := map lit ["Dialogue: 0,1,2,Old,N,x"; "; note"; "Comment: 0,1,2,Alt,N,y"; "Dialogue: 0,1,2,Old,N,Old"]%string in
  let head := lns ["[Script Info]"; "[Events]"; "Format: x"]%string in
  events_top head /\ Forall in_section ls /\ other_section nl /\
  (exists ls', restyles (lit "Old") (lit "New") None ls ls' 2 /\ ls' = map lit ["Dialogue: 0,1,2,New,N,x"; "; note"; "Comment: 0,1,2,Alt,N,y"; "Dialogue: 0,1,2,New,N,Old"]%string) /\
  text_after (apply_style 20 0 (lit "Old") (lit "New") None (doc_of (head ++ join nl ls ++ nl))) =
    Some (lns ["[Script Info]"; "[Events]"; "Format: x"; "Dialogue: 0,1,2,New,N,x"; "; note"; "Comment: 0,1,2,Alt,N,y"; "Dialogue: 0,1,2,New,N,Old"]%string).
Proof.
  cbv zeta. split; [|split; [|split; [|split; [|vm_compute; reflexivity]]]].
  - exists (lns ["[Script Info]"]%string), [], (lit "Format: x"). split; [reflexivity|]. split; [apply first_at_dec; reflexivity|]. split; [easy|cbn; intuition discriminate].
  - repeat constructor; try discriminate; cbn; intuition discriminate.
  - split; [right; left; reflexivity|]. intros r Q. discriminate Q.
  - eexists. split; [|reflexivity].
    assert (RS : forall t, has_b (lit ",Old,") t = false -> restyled (lit "Old") (lit "New") (lit "Dialogue: 0,1,2,Old," ++ t) (lit "Dialogue: 0,1,2,New," ++ t)).
    { intros t Ht. exists (lit "Dialogue: 0"), (lit "1"), (lit "2"), t. cbv zeta. split; [reflexivity|]. split; [reflexivity|].
      do 4 (split; [unfold no_comma; cbn; intuition discriminate|]). split; [reflexivity|]. split; [apply first_at_dec; reflexivity|now apply has_dec]. }
    apply rs_change; [left; eexists; reflexivity|exact I|apply (RS (lit "N,x")); reflexivity|left; reflexivity|].
    apply rs_keep; [intros ([[r Q]|[r Q]] & _); discriminate Q|].
    apply rs_keep; [intros (_ & Q & _); apply has_style_spec in Q; discriminate Q|].
    apply rs_change; [left; eexists; reflexivity|exact I|apply (RS (lit "N,Old")); reflexivity|left; reflexivity|]. apply rs_nil.
Qed.
(* With a new name of another length the claim is false: one byte more, and
   the events after the first are not seen; *)
Theorem apply_longer_refuted :
  text_after (apply_style 50 0 (lit "Old") (lit "Newy") None (doc_of (lns ["[Events]"; "Format: x"; "Dialogue: 0,1,2,Old,N,x"; "Dialogue: 0,1,2,Old,N,y"]%string))) =
    Some (lns ["[Events]"; "Format: x"; "Dialogue: 0,1,2,Newy,N,x"; "Dialogue: 0,1,2,Old,N,y"]%string).
Proof. vm_compute. reflexivity. Qed.
(* less, and the next event is not seen, *)
Theorem apply_shorter_refuted :
  text_after (apply_style 50 0 (lit "Old") (lit "N") None (doc_of (lns ["[Events]"; "Format: x"; "Dialogue: 0,1,2,Old,N,x"; "Dialogue: 0,1,2,Old,N,y"; "Dialogue: 0,1,2,Old,N,z"]%string))) =
    Some (lns ["[Events]"; "Format: x"; "Dialogue: 0,1,2,N,N,x"; "Dialogue: 0,1,2,Old,N,y"; "Dialogue: 0,1,2,N,N,z"]%string).
Proof. vm_compute. reflexivity. Qed.
(* or it panics in the middle of a character. *)
Theorem apply_panics_refuted :
  apply_style 50 0 (lit "Old") (lit "Ol") None (doc_of (lns ["[Events]"; "Format: x"; "Dialogue: 0,1,2,Old,N,x"]%string ++ [233%N; 10%N])) = Crash.
Proof. vm_compute. reflexivity. Qed.
(* The text of an event is changed where it has the name between commas, and
   a style with blanks around it is counted but not changed. *)
Theorem apply_text_refuted :
  text_after (apply_style 50 0 (lit "Old") (lit "New") None (doc_of (lns ["[Events]"; "Format: x"; "Dialogue: 0,1,2,Old,N,0,0,0,,Young,Old,all"]%string))) =
    Some (lns ["[Events]"; "Format: x"; "Dialogue: 0,1,2,New,N,0,0,0,,Young,New,all"]%string).
Proof. vm_compute. reflexivity. Qed.
Theorem apply_blanks_refuted : exists d r,
  apply_style 50 0 (lit "Old") (lit "New") None (doc_of (lns ["[Events]"; "Format: x"; "Dialogue: 0,1,2, Old,N,x"]%string)) = Done (d, Some (r, 1)) /\
  text d = lns ["[Events]"; "Format: x"; "Dialogue: 0,1,2, Old,N,x"]%string.
Proof. do 2 eexists. split; [vm_compute; reflexivity|]. reflexivity. Qed.
Print Assumptions apply_style_exact.
Print Assumptions apply_style_ends.
Print Assumptions apply_style_endless_refuted.
Print Assumptions apply_longer_refuted.
Print Assumptions apply_shorter_refuted.
Print Assumptions apply_panics_refuted.
Print Assumptions apply_text_refuted.
Print Assumptions apply_blanks_refuted.
