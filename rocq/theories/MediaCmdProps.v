(* The commands on embedded fonts and graphics: C98-C100. *)
From Verif Require Import Base BaseLemmas DocModel DocSpec DocProofs ParseModel EventCmdModel EventCmdSpec UuModel UuSpec
  StyleCmdSpec StyleCmdProps InfoCmdModel InfoCmdSpec InfoCmdProofs InfoCmdProps MediaCmdModel MediaCmdSpec MediaCmdProofs.

(* ---- C98: add and list ---- *)
Theorem list_media_names : forall k d A m ls rest l, known k -> sectioned (md_header k) (text d) A m ls rest -> listed (md_key k) ls l ->
  list_media k d = Done l.
Proof. exact list_exact. Qed.
Theorem listed_exists : forall key ls, exists l, listed key ls l.
Proof. exact listed_total. Qed.
(* A file added to a section that ends in an empty line comes last, *)
Theorem add_media_listed : forall k sz f data d A m X rest l, known k -> handled sz d -> sectioned (md_header k) (text d) A m (X ++ [[]]) rest ->
  ~ In 10%N f -> Forall (data_line (md_key k)) data -> list_media k d = Done l ->
  exists d' r, add_media k f data d = Done (d', Some r) /\
    text d' = A ++ md_header k ++ m ++ put (X ++ (title (md_key k) f :: data) ++ [[]]) ++ rest /\ handled sz d' /\
    list_media k d' = Done (l ++ [trim f]).
Proof.
  intros k sz f data d A m X rest l K HR S Hf Hd HL. destruct (add_within k f data d A m (X ++ [[]]) rest sz K HR S) as (d' & D & T & H & _).
  assert (T' : text d' = A ++ md_header k ++ m ++ put (X ++ (title (md_key k) f :: data) ++ [[]]) ++ rest) by (rewrite T, <- file_lines; now rewrite <- !app_assoc).
  exists d'. eexists. split; [exact D|]. split; [exact T'|]. split; [exact H|].
  assert (S' : sectioned (md_header k) (text d') A m (X ++ (title (md_key k) f :: data) ++ [[]]) rest).
  { eapply section_text; [exact S| |exact T']. destruct S as (_ & _ & _ & HI & _). apply Forall_app in HI as [I1 I2]. apply Forall_app. split; [exact I1|].
    apply Forall_app. split; [constructor; [now apply title_inner|now apply data_inner with (key := md_key k)]|exact I2]. }
  rewrite (list_of k d A m _ rest K S) in HL. injection HL as <-. rewrite (list_of k d' A m _ rest K S'). rewrite !flat_map_app. cbn [flat_map].
  rewrite name_title. rewrite (data_names (md_key k) data) by exact Hd. rewrite empty_name. cbn [app]. now rewrite !app_nil_r.
Qed.
(* and without a section one is made at the end. *)
Theorem add_media_new : forall k sz f data d, known k -> handled sz d -> ~ has (md_header k) (text d) -> ~ In 10%N f -> Forall (data_line (md_key k)) data ->
  exists d' r, add_media k f data d = Done (d', Some r) /\
    text d' = text d ++ (if ends_with [10%N] (text d) then [] else [10%N]) ++ md_header k ++ [10%N] ++ join [10%N] (title (md_key k) f :: data) ++ [10%N] /\
    handled sz d' /\ list_media k d = Done [] /\ list_media k d' = Done [trim f].
Proof.
  intros k sz f data d K HR HN Hf Hd. destruct (add_apart k f data d sz K HR HN) as (d' & r & D & T & H & FA).
  set (A := text d ++ (if ends_with [10%N] (text d) then [] else [10%N])) in *.
  assert (J : forall x ls, 10%N :: join [10%N] (x :: ls) = put (x :: ls)).
  { intros x ls. revert x. induction ls as [|y ls IH]; intros x; [cbn [join put flat_map]; now rewrite app_nil_r|].
    cbn [join]. rewrite put_cons. rewrite <- IH. reflexivity. }
  assert (E : [10%N] ++ file_text (md_key k) f data = put ((title (md_key k) f :: data) ++ [[]])).
  { exact (file_lines (md_key k) f data []). }
  exists d', r. split; [exact D|]. split; [|split; [exact H|split]].
  - rewrite T, E, put_app, <- J. unfold A. cbn [put flat_map]. rewrite <- !app_assoc. reflexivity.
  - unfold list_media, section_span. now rewrite StyleCmdProofs.find_missing.
  - assert (S' : sectioned (md_header k) (text d') A [] ((title (md_key k) f :: data) ++ [[]]) []).
    { split; [rewrite T, E; now rewrite app_nil_r|]. split; [exact FA|]. split; [easy|]. split; [|now left].
      apply Forall_app. split; [constructor; [now apply title_inner|now apply data_inner with (key := md_key k)]|]. constructor; [apply empty_inner|constructor]. }
    rewrite (list_of k d' A [] _ [] K S'). rewrite flat_map_app. cbn [flat_map]. rewrite name_title. rewrite (data_names (md_key k) data) by exact Hd. now rewrite empty_name.
Qed.
(* The lines any data is encoded as are lines of data. *)
Theorem encoded_lines : forall k f data, known k -> ~ In 10%N f -> bytes data -> Forall (data_line (md_key k)) (uuencode_data f data).
Proof. exact uu_data_lines. Qed.
Theorem add_binary_listed : forall k sz f data d A m X rest l, known k -> handled sz d -> sectioned (md_header k) (text d) A m (X ++ [[]]) rest ->
  ~ In 10%N f -> bytes data -> list_media k d = Done l ->
  exists d' r, add_binary k f data d = Done (d', Some r) /\ list_media k d' = Done (l ++ [trim f]) /\
    text d' = A ++ md_header k ++ m ++ put (X ++ (title (md_key k) f :: uuencode_data f data) ++ [[]]) ++ rest.
Proof.
  intros k sz f data d A m X rest l K HR S Hf Hb HL.
  destruct (add_media_listed k sz f (uuencode_data f data) d A m X rest l K HR S Hf (uu_data_lines k f data K Hf Hb) HL) as (d' & r & D & T & _ & L).
  exists d', r. now repeat split.
Qed.
Example add_instance :
  let t := lns ["[Script Info]"; "[Fonts]"; "fontname: a.ttf"; "!!!"; ""; "[Events]"]%string in
  (exists A m X rest, sectioned (md_header fonts) t A m (X ++ [[]]) rest) /\
  (exists d r, add_binary fonts (lit "b.ttf") [1; 2; 3; 255]%N (doc_of t) = Done (d, Some r) /\
    list_media fonts (doc_of t) = Done [lit "a.ttf"] /\ list_media fonts d = Done [lit "a.ttf"; lit "b.ttf"] /\
    text d = lns ["[Script Info]"; "[Fonts]"; "fontname: a.ttf"; "!!!"; "fontname: b.ttf"; "begin 644 b.ttf"; "$ 0(#_P "; "`"; "end"; ""; "[Events]"]%string).
Proof.
  cbv zeta. split.
  - exists (lns ["[Script Info]"]%string), [], (map lit ["fontname: a.ttf"; "!!!"]%string), (10%N :: lns ["[Events]"]%string).
    split; [reflexivity|]. split; [apply first_at_dec; reflexivity|]. split; [easy|]. split; [|right; eexists; reflexivity].
    repeat constructor; try (cbn; intuition discriminate); intros r Q; discriminate Q.
  - eexists. eexists. split; [vm_compute; reflexivity|]. split; [vm_compute; reflexivity|]. split; [vm_compute; reflexivity|]. vm_compute. reflexivity.
Qed.
(* What does not hold: without an empty line at the end of the section, the
   new file is glued to its last line, and not listed. *)
Theorem add_glued : forall k sz f data d A m ls rest, known k -> handled sz d -> sectioned (md_header k) (text d) A m ls rest ->
  exists d' r, add_media k f data d = Done (d', Some r) /\
    text d' = A ++ md_header k ++ m ++ put ls ++ title (md_key k) f ++ [10%N] ++ concat (map (fun l => l ++ [10%N]) data) ++ rest.
Proof.
  intros k sz f data d A m ls rest K HR S. destruct (add_within k f data d A m ls rest sz K HR S) as (d' & D & T & _). exists d'. eexists. split; [exact D|].
  rewrite T. unfold file_text. rewrite flat_map_concat_map. now rewrite <- !app_assoc.
Qed.
Theorem add_glued_refuted : exists t d r, t = lns ["[Fonts]"; "fontname: a.ttf"; "!!!"; "[Events]"]%string /\
  add_media fonts (lit "b.ttf") [lit "###"] (doc_of t) = Done (d, Some r) /\ list_media fonts d = Done [lit "a.ttf"] /\
  text d = lns ["[Fonts]"; "fontname: a.ttf"; "!!!fontname: b.ttf"; "###"; ""; "[Events]"]%string.
Proof. eexists. eexists. eexists. split; [reflexivity|]. split; [vm_compute; reflexivity|]. split; vm_compute; reflexivity. Qed.
(* A name that ends in white space is listed without it. *)
Theorem exists_blank_refuted : exists d r, add_media fonts (lit "b ") [] (doc_of []) = Done (d, Some r) /\ media_exists fonts (lit "b ") d = Done false.
Proof. eexists. eexists. split; vm_compute; reflexivity. Qed.

(* ---- C99: remove ---- *)
(* The first file whose name starts so is emptied, up to the next one. *)
Theorem remove_media_first : forall k sz f s data Y d A m X rest l, known k -> handled sz d ->
  sectioned (md_header k) (text d) A m (X ++ (title (md_key k) f ++ s) :: data ++ Y) rest ->
  ~ has (title (md_key k) f) (md_header k ++ m) -> Forall (fun x => ~ has (title (md_key k) f) x) X -> Forall (data_line (md_key k)) data ->
  file_end (md_key k) Y rest -> list_media k d = Done l ->
  exists d' r, remove_media sz k f d = Done (d', Some r) /\ text d' = A ++ md_header k ++ m ++ put (X ++ [] :: Y) ++ rest /\ handled sz d' /\
    exists l1 l2, l = l1 ++ trim (f ++ s) :: l2 /\ list_media k d' = Done (l1 ++ l2).
Proof.
  intros k sz f s data Y d A m X rest l K HR S Hm HX Hd HE HL. destruct (remove_some k sz f s data Y d A m X rest K HR S Hm HX Hd HE) as (d' & D & T & H).
  exists d'. eexists. split; [exact D|]. split; [exact T|]. split; [exact H|].
  exists (flat_map (name_of (md_key k)) X), (flat_map (name_of (md_key k)) Y).
  assert (S' : sectioned (md_header k) (text d') A m (X ++ [] :: Y) rest).
  { eapply section_text; [exact S| |exact T]. destruct S as (_ & _ & _ & HI & _). apply Forall_app in HI as [I1 I2]. inversion I2 as [|? ? _ I3]; subst.
    apply Forall_app in I3 as [_ I3]. apply Forall_app. split; [exact I1|]. constructor; [apply empty_inner|exact I3]. }
  rewrite (list_of k d A m _ rest K S) in HL. injection HL as <-. rewrite (list_of k d' A m _ rest K S'). split.
  - rewrite flat_map_app. cbn [flat_map]. rewrite flat_map_app, (data_names (md_key k) data) by exact Hd.
    replace (title (md_key k) f ++ s) with (title (md_key k) (f ++ s)) by (unfold title; now rewrite <- !app_assoc). now rewrite name_title.
  - rewrite flat_map_app. cbn [flat_map]. now rewrite empty_name.
Qed.
Theorem remove_media_none : forall k sz f d, known k -> ~ has (title (md_key k) f) (text d) ->
  (has (md_header k) (text d) -> exists r, remove_media sz k f d = Done (d, Some r) /\ changed r = false) /\
  (~ has (md_header k) (text d) -> remove_media sz k f d = Done (d, None)).
Proof.
  intros k sz f d K HN. destruct (known_facts k K) as (F1 & F2 & _). split; intros H.
  - destruct (section_of (md_header k) (text d) F1 H) as (A & m & ls & rest & S). unfold remove_media.
    destruct (span_of _ _ _ _ _ _ F1 F2 S) as (-> & -> & _). cbn [need bind]. rewrite StyleCmdProofs.find_missing; [eexists; split; reflexivity|].
    intros (a & b & E). apply HN. destruct S as (-> & _). exists (A ++ a), (b ++ rest). change (md_key k ++ [32%N] ++ f) with (title (md_key k) f) in E.
    transitivity (A ++ (md_header k ++ m ++ put ls) ++ rest); [now rewrite <- !app_assoc|]. rewrite E. now rewrite <- !app_assoc.
  - unfold remove_media, section_span. now rewrite StyleCmdProofs.find_missing.
Qed.
Example remove_instance :
  let t := lns ["[Graphics]"; "filename: a.png"; "!!!"; "filename: b.png"; "###"; "[Events]"]%string in
  (exists A m rest, sectioned (md_header graphics) t A m ([] ++ (title (md_key graphics) (lit "a.png") ++ []) :: [lit "!!!"] ++ [lit "filename: b.png"; lit "###"]) rest /\
    ~ has (title (md_key graphics) (lit "a.png")) (md_header graphics ++ m) /\ Forall (data_line (md_key graphics)) [lit "!!!"] /\
    file_end (md_key graphics) [lit "filename: b.png"; lit "###"] rest) /\
  text_after (remove_media 0 graphics (lit "a.png") (doc_of t)) = Some (lns ["[Graphics]"; ""; "filename: b.png"; "###"; "[Events]"]%string) /\
  text_after (remove_media 0 graphics (lit "b.png") (doc_of t)) = Some (lns ["[Graphics]"; "filename: a.png"; "!!!"; ""; "[Events]"]%string).
Proof.
  cbv zeta. split; [|split; vm_compute; reflexivity]. exists [], [], (10%N :: lns ["[Events]"]%string). split; [|split; [|split]].
  - split; [reflexivity|]. split; [apply first_at_dec; reflexivity|]. split; [easy|]. split; [|right; eexists; reflexivity].
    repeat constructor; try (cbn; intuition discriminate); intros r Q; discriminate Q.
  - apply has_dec. reflexivity.
  - repeat constructor; try (cbn; intuition discriminate); try (intros r Q; discriminate Q). intros [r Q]. discriminate Q.
  - right. eexists. eexists. split; [reflexivity|]. now exists (lit " b.png").
Qed.
(* What does not hold: a longer name that starts the same is taken, *)
Theorem remove_prefix_refuted : exists t, t = lns ["[Fonts]"; "fontname: arial-bold"; "!!!"; "fontname: arial"; "###"]%string /\
  text_after (remove_media 0 fonts (lit "arial") (doc_of t)) = Some (lns ["[Fonts]"; ""; "fontname: arial"; "###"]%string).
Proof. eexists. split; [reflexivity|]. vm_compute. reflexivity. Qed.
(* and the last file of a section takes everything with it up to a file in a
   later section. *)
Theorem remove_sections_refuted : exists t, t = lns ["[Fonts]"; "fontname: a"; "!!!"; "[Events]"; "Dialogue: 1"; "[Fonts]"; "fontname: b"; "###"]%string /\
  text_after (remove_media 0 fonts (lit "a") (doc_of t)) = Some (lns ["[Fonts]"; ""; "fontname: b"; "###"]%string).
Proof. eexists. split; [reflexivity|]. vm_compute. reflexivity. Qed.

(* ---- C100: clear ---- *)
Theorem clear_media_empties : forall k sz d A m l ls rest, known k -> handled sz d -> sectioned (md_header k) (text d) A m (l :: ls) rest ->
  exists d' r, clear_media sz k d = Done (d', Some r) /\ text d' = A ++ md_header k ++ m ++ [10%N] ++ rest /\ handled sz d' /\ list_media k d' = Done [].
Proof.
  intros k sz d A m l ls rest K HR S. destruct (clear_some k sz d A m l ls rest K HR S) as (d' & r & D & T & H). exists d', r. split; [exact D|]. split; [exact T|]. split; [exact H|].
  rewrite (list_of k d' A m [[]] rest K); [cbn [flat_map]; now rewrite empty_name|]. eapply section_text; [exact S| |exact T]. constructor; [apply empty_inner|constructor].
Qed.
Theorem clear_media_none : forall k sz d, ~ has (md_header k) (text d) -> exists r, clear_media sz k d = Done (d, Some r) /\ changed r = false.
Proof. intros k sz d H. unfold clear_media, section_span. rewrite StyleCmdProofs.find_missing by exact H. eexists. split; reflexivity. Qed.
Example clear_instance :
  let t := lns ["[Fonts]"; "fontname: a"; "!!!"; "[Events]"]%string in
  (exists A m l ls rest, sectioned (md_header fonts) t A m (l :: ls) rest) /\
  text_after (clear_media 0 fonts (doc_of t)) = Some (lns ["[Fonts]"; ""; "[Events]"]%string).
Proof.
  cbv zeta. split; [|vm_compute; reflexivity]. exists [], [], (lit "fontname: a"), [lit "!!!"], (10%N :: lns ["[Events]"]%string).
  split; [reflexivity|]. split; [apply first_at_dec; reflexivity|]. split; [easy|]. split; [|right; eexists; reflexivity].
  repeat constructor; try (cbn; intuition discriminate); intros r Q; discriminate Q.
Qed.
(* Only the first of several sections is emptied. *)
Theorem clear_second_refuted : exists t, t = lns ["[Fonts]"; "[Events]"; "[Fonts]"; "fontname: b"; "###"]%string /\
  text_after (clear_media 0 fonts (doc_of t)) = Some t.
Proof. eexists. split; [reflexivity|]. vm_compute. reflexivity. Qed.

Print Assumptions list_media_names.
Print Assumptions listed_exists.
Print Assumptions add_media_listed.
Print Assumptions add_media_new.
Print Assumptions encoded_lines.
Print Assumptions add_binary_listed.
Print Assumptions add_glued.
Print Assumptions add_glued_refuted.
Print Assumptions exists_blank_refuted.
Print Assumptions remove_media_first.
Print Assumptions remove_media_none.
Print Assumptions remove_prefix_refuted.
Print Assumptions remove_sections_refuted.
Print Assumptions clear_media_empties.
Print Assumptions clear_media_none.
Print Assumptions clear_second_refuted.
