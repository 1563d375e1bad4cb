(* A parsed script, written out, parses to the same script. *)
From Verif Require Import Base BaseLemmas UuModel Utf8Model ParseModel ParseSpec ParseTracker ParseLines ParseSections ParseMain ParseProofs ParseLineProofs ParseScriptProofs.

Definition one_line (ls : list (str * str)) : Prop := Forall (fun pl : str * str => no_newline (snd pl)) ls.
Lemma split_lines t : Forall no_newline (split_on is_nl t).
Proof.
  induction t as [|c t IH]; [repeat constructor|]. cbn [split_on]. destruct (is_nl c) eqn:E; [constructor; [reflexivity|exact IH]|].
  destruct (split_on is_nl t) as [|w ws]; [constructor; [|constructor]; unfold no_newline; cbn; rewrite E; reflexivity|].
  constructor; [|exact (Forall_inv_tail IH)]. unfold no_newline. cbn. rewrite E. exact (Forall_inv IH).
Qed.
Lemma located_one_line xs : forall pre, Forall no_newline xs -> one_line (located pre xs).
Proof. induction xs as [|x xs IH]; intros pre H; constructor; [exact (Forall_inv H)|apply IH, (Forall_inv_tail H)]. Qed.
Lemma lines_one_line src : one_line (source_lines src).
Proof. apply located_one_line, split_lines. Qed.
Lemma section_one_line ls n r : one_line ls -> In (n, r) (sections_in ls) -> one_line r.
Proof.
  induction ls as [|[p l] ls IH]; intros H Hin; [contradiction|]. cbn [sections_in] in Hin. pose proof (Forall_inv_tail H) as Ht.
  destruct (header_line l); [|auto]. destruct Hin as [Hin|Hin]; [|auto]. injection Hin as _ <-. exact Ht.
Qed.
Lemma body_one_line ls : one_line ls -> one_line (body ls).
Proof. intros H. apply Forall_forall. intros x Hx. unfold one_line in H. rewrite Forall_forall in H. apply H, body_in, Hx. Qed.
Lemma body_no_header ls p l : In (p, l) (body ls) -> header_line l = false.
Proof.
  induction ls as [|[q x] ls IH]; [contradiction|]. cbn [body]. destruct (header_line x) eqn:E; [contradiction|]. intros [H|H]; [injection H as _ <-; exact E|auto].
Qed.
Lemma suffix_no_newline a b : no_newline (a ++ b) -> no_newline b. Proof. intros H. apply no_newline_app in H. tauto. Qed.
Lemma join_parts sep l : no_newline (join sep l) -> Forall no_newline l.
Proof.
  induction l as [|x [|y l] IH]; intros H; [constructor|constructor; [exact H|constructor]|].
  change (join sep (x :: y :: l)) with (x ++ sep ++ join sep (y :: l)) in H. rewrite !no_newline_app in H. destruct H as (H1 & _ & H2). constructor; auto.
Qed.

Lemma settled_events miss f b : one_line b -> forall cur, all_under event_item f cur b ->
  snd (events_in miss cur b) = f /\ Forall (event_ok f) (fst (events_in miss cur b)).
Proof.
  intros H. induction H as [|[p l] b Hl _ IH]; intros cur Hs; cbn [events_in all_under] in *; [split; [exact Hs|constructor]|].
  destruct (format_of (trim l)) as [g|]; [apply IH, Hs|]. destruct Hs as [Hc Hs]. destruct (IH cur Hs) as [H1 H2].
  destruct (events_in miss cur b) as [es g]. cbn [fst snd] in *. destruct (parse_event_line (trim l) cur 0) as [e0| |] eqn:Ep; [|split; assumption|split; assumption].
  cbn [fst snd]. split; [exact H1|]. constructor; [|exact H2].
  assert (Ei : event_item (trim l) = true) by (unfold event_item; unfold parse_event_line in Ep; destruct (event_prefix (trim l)); [reflexivity|discriminate]).
  rewrite (Hc Ei) in Ep. apply event_line_inv in Ep. destruct Ep as (ty & vals & El & Hv & ->).
  exists vals. split; [|split; [exact Hv|reflexivity]]. cbn [snd] in Hl. pose proof (trim_no_newline _ Hl) as Ht. rewrite El in Ht.
  apply suffix_no_newline, suffix_no_newline in Ht. exact (join_parts _ _ Ht).
Qed.
Lemma settled_styles miss f b : one_line b -> forall cur, all_under style_item f cur b ->
  snd (styles_in miss cur b) = f /\ (Forall (fun s => s_parent s = None) (fst (styles_in miss cur b)) ->
    Forall (style_ok (format_or default_styles_format f)) (fst (styles_in miss cur b))).
Proof.
  intros H. induction H as [|[p l] b Hl _ IH]; intros cur Hs; cbn [styles_in all_under] in *; [split; [exact Hs|constructor]|].
  destruct (format_of (trim l)) as [g|]; [apply IH, Hs|]. destruct Hs as [Hc Hs]. destruct (IH cur Hs) as [H1 H2].
  destruct (styles_in miss cur b) as [es g]. cbn [fst snd] in *.
  unfold style_item, starts_with in Hc. destruct (strip_prefix (lit "Style:") (trim l)) as [d|] eqn:Es; [|split; assumption].
  destruct (parse_style_line (trim d) cur 0) as [e0| |] eqn:Ep; [|split; assumption|split; assumption].
  cbn [fst snd]. split; [exact H1|]. intros Hp. constructor; [|apply H2, (Forall_inv_tail Hp)]. pose proof (Forall_inv Hp) as Hp0. cbn in Hp0.
  rewrite (Hc eq_refl) in Ep. apply style_line_inv in Ep. destruct Ep as (vals & Hne & Hcf & L & [(El & Hst & E0)|(a & El & _ & _ & E0)]);
    [|rewrite E0 in Hp0; discriminate].
  exists vals. cbn [snd] in Hl. apply strip_prefix_some in Es. split.
  - pose proof (trim_no_newline _ Hl) as Ht. rewrite Es in Ht. apply suffix_no_newline, trim_no_newline in Ht. rewrite El in Ht. exact (join_parts _ _ Ht).
  - split; [exact Hcf|]. split; [exact Hst|]. split; [exact L|]. rewrite E0. reflexivity.
Qed.

(* formats come from Format lines *)
Lemma format_of_ok l f : no_newline l -> format_of l = Some f -> format_ok f.
Proof.
  intros Hl. unfold format_of. destruct (strip_prefix (lit "Format:") l) as [d|] eqn:E; [|discriminate]. intros K. injection K as <-.
  apply strip_prefix_some in E. subst l. apply suffix_no_newline in Hl. destruct (split_comma d) as (J & N1 & F).
  split; [intros K; apply map_eq_nil in K; congruence|]. rewrite <- J in Hl. apply join_parts in Hl.
  apply Forall_forall. intros v Hv. apply in_map_iff in Hv. destruct Hv as (w & <- & Hw). rewrite Forall_forall in F, Hl.
  split; [split; [apply trim_idem|apply trim_no_newline, Hl, Hw]|apply trim_free, F, Hw].
Qed.
Lemma settled_format item f b : one_line b -> forall cur, all_under item f cur b -> (cur <> [] -> format_ok cur) -> f <> [] -> format_ok f.
Proof.
  intros H. induction H as [|[p l] b Hl _ IH]; intros cur Hs Hc Hf; cbn [all_under] in Hs; [subst; auto|].
  destruct (format_of (trim l)) as [g|] eqn:E.
  - apply (IH g Hs); [|exact Hf]. intros _. apply (format_of_ok (trim l)); [apply trim_no_newline, Hl|exact E].
  - destruct Hs as [_ Hs]. apply (IH cur Hs Hc Hf).
Qed.

(* what the readers produce is well formed *)
Lemma fields_ok b fields : one_line b -> (forall p l, In (p, l) b -> header_line l = false) ->
  (forall k v, In (k, v) fields -> starts_any [59%N; 35%N] k = false) -> fields = info_fields b -> Forall field_ok fields.
Proof.
  intros Hl Hh Hk ->. apply Forall_forall. intros [k v] Hin. specialize (Hk k v Hin). unfold info_fields in Hin. apply in_flat_map in Hin.
  destruct Hin as ([p l] & Hp & Hin). cbn [snd] in Hin. destruct (remark l); [contradiction|].
  destruct (find_char is_colon (trim l)) as [[k0 v0]|] eqn:E; [|contradiction]. apply find_char_some in E. destruct E as (El & Hc & (c & r & -> & Hcol)).
  destruct Hin as [Hin|[]]. injection Hin as <- <-. unfold one_line in Hl. rewrite Forall_forall in Hl. specialize (Hl _ Hp). cbn [snd] in Hl.
  pose proof (trim_no_newline _ Hl) as Ht. rewrite El in Ht. apply no_newline_app in Ht. destruct Ht as [Ht1 Ht2].
  change (c :: r) with ([c] ++ r) in Ht2. apply suffix_no_newline in Ht2.
  split; [split; [apply trim_idem|apply trim_no_newline, Ht1]|]. split; [split; [apply trim_idem|apply trim_no_newline, Ht2]|]. cbn [fst snd].
  split; [destruct (trim_spec k0) as (x & y & Ek & _); rewrite Ek in Hc; exact (forallb_part _ _ _ _ Hc)|].
  destruct (trim k0) as [|c0 k1] eqn:Ek; [reflexivity|]. cbn in Hk |- *. destruct (c0 =? 59)%N; [discriminate|]. destruct (c0 =? 35)%N; [discriminate|].
  destruct (N.eqb_spec c0 91) as [->|]; [|reflexivity]. exfalso. specialize (Hh p l Hp). unfold header_line in Hh.
  (* the key begins the line *)
  destruct k0 as [|y k0]; [discriminate|]. assert (Hy : is_ws y = false) by (apply (trim_head (trim l) y (k0 ++ c :: r)); [apply trim_idem|exact El]).
  assert (y = 91%N).
  { unfold trim, trim_start in Ek. cbn [drop_while] in Ek. rewrite Hy in Ek. pose proof (trim_end_start_head (y :: k0)) as Hh0. rewrite Ek in Hh0. auto. }
  subst y. unfold trim in El. pose proof (trim_end_start_head (trim_start l)) as Hh1. rewrite El in Hh1. cbn [app] in Hh1.
  destruct (trim_start l) as [|x t]; [contradiction|]. subst x. discriminate Hh.
Qed.
Lemma media_all_ok miss key fin xs : one_line xs -> forall cur,
  (match cur with Some (_, name, data) => plain name /\ Forall data_ok data | None => True end) ->
  Forall media_ok (media_in miss key fin cur xs).
Proof.
  intros H. induction H as [|[p l] xs Hl _ IH]; intros cur Hc; cbn [media_in].
  - destruct cur as [[[q name] data]|]; [|constructor]. constructor; [exact Hc|constructor].
  - assert (Hclose : forall stop, Forall media_ok (close_entry miss cur stop)).
    { intros stop. destruct cur as [[[q name] data]|]; [|constructor]. constructor; [exact Hc|constructor]. }
    destruct (header_line l) eqn:Eh; [apply Hclose|]. cbn [snd] in Hl. destruct cur as [[[q name] data]|].
    + destruct (ends_data l) eqn:Ee; [apply Forall_app; split; [apply Hclose|apply IH; exact I]|].
      destruct (first_is 59 (trim l) || first_is 33 (trim l)) eqn:Ef; [apply IH, Hc|].
      apply IH. destruct Hc as [Hc1 Hc2]. split; [exact Hc1|]. apply Forall_app. split; [exact Hc2|]. constructor; [|constructor].
      split; [exact Hl|]. split; [exact Eh|]. split; [exact Ee|]. unfold first_is in Ef. destruct (trim l); [reflexivity|]. cbn. rewrite orb_false_r. exact Ef.
    + destruct (starts_with (lit ";") (content l) || starts_with (lit "!:") (content l)); [apply IH; exact I|].
      destruct (find_char is_colon (content l)) as [[k [|ch v]]|] eqn:E; [apply IH; exact I| |apply IH; exact I].
      destruct (str_eqb (trim k) key); [|apply IH; exact I]. apply IH. split; [|constructor].
      apply find_char_some in E. destruct E as (El & _). split; [apply trim_idem|]. apply trim_no_newline.
      rewrite <- (indent_content l), El in Hl. apply suffix_no_newline, suffix_no_newline in Hl. exact (suffix_no_newline [ch] v Hl).
Qed.

Lemma Forall2_in_r {A B} (P : A -> B -> Prop) l m b : Forall2 P l m -> In b m -> exists a, In a l /\ P a b.
Proof. induction 1 as [|x y l m H _ IH]; [contradiction|]. intros [->|Hb]; [exists x; split; [left; reflexivity|exact H]|]. destruct (IH Hb) as (a & Ha & Hp). exists a. split; [right|]; assumption. Qed.

Lemma reads_version src miss n r s v a b : known_name n = true -> reads src miss n r s ->
  fst (fst (after_section (v, a, b) (n, r))) = match s with SInfo fs _ => match declared fs with Some x => x | None => v end | _ => v end.
Proof.
  intros Hk. destruct s as [fs sp|l|l|l|l]; cbn [reads]; intros (Hn & H).
  - destruct H as [-> _]. subst n. reflexivity.
  - unfold after_section. destruct (str_eqb n (lit "Script Info")) eqn:E; [apply str_eqb_eq in E; subst n; discriminate Hn|]. rewrite Hn. reflexivity.
  - subst n. reflexivity.
  - subst n. reflexivity.
  - subst n. reflexivity.
Qed.
Lemma after_section_formats src miss n r s fs fe v a b : one_line r -> reads src miss n r s ->
  (n = lit "Events" -> all_under event_item fe [] (body r)) -> (styles_name n = true -> all_under style_item fs [] (body r)) ->
  snd (after_section (v, a, b) (n, r)) = (if is_events s then fmt_some fe else b) /\
  (if is_styles s then snd (fst (after_section (v, a, b) (n, r))) = fmt_some fs \/
      fs = [] /\ snd (fst (after_section (v, a, b) (n, r))) = Some default_styles_format
   else snd (fst (after_section (v, a, b) (n, r))) = a).
Proof.
  intros Hl R He Hs. destruct s as [f sp|l|l|l|l]; cbn [reads is_events is_styles] in *; destruct R as (Hn & H).
  - subst n. split; reflexivity.
  - unfold after_section. destruct (str_eqb n (lit "Script Info")) eqn:E; [apply str_eqb_eq in E; subst n; discriminate Hn|]. rewrite Hn. cbn [fst snd].
    split; [reflexivity|]. unfold styles_format_of. destruct (settled_styles 0 fs (body r) (body_one_line r Hl) [] (Hs Hn)) as [H1 _].
    destruct (styles_in 0 [] (body r)) as [es g]. cbn [snd] in H1. subst g. destruct es, fs; cbn; auto.
  - subst n. split; [|reflexivity]. cbn. unfold events_format_of. destruct (settled_events 0 fe (body r) (body_one_line r Hl) [] (He eq_refl)) as [H1 _]. rewrite H1. reflexivity.
  - subst n. split; reflexivity.
  - subst n. split; reflexivity.
Qed.

Lemma parsed_ok reg src sc fs fe : small src -> headers_closed (source_lines src) = true -> parse_with reg src = Done sc ->
  expressible fs fe (source_lines src) sc -> script_ok sc.
Proof.
  intros Hsm Hc E [X1 X2 X3 X4 X5 X6 X7 X8]. destruct (parse_closed reg src sc Hsm Hc E) as (R1 & R2 & _).
  set (secs := filter (fun x => known_name (fst x)) (sections_in (source_lines src))) in *.
  assert (Hsub : forall n r, In (n, r) secs -> In (n, r) (sections_in (source_lines src)) /\ known_name n = true) by (intros n r Hin; apply filter_In in Hin; exact Hin).
  clearbody secs.
  assert (Hset : forall l m, Forall2 (fun x s => exists miss, reads src miss (fst x) (snd x) s) l m -> (forall n r, In (n, r) l -> In (n, r) secs) ->
    forall v a b, fst (fst (fold_left after_section l (v, a, b))) =
        fold_left (fun v s => match s with SInfo fs _ => match declared fs with Some x => x | None => v end | _ => v end) m v /\
      snd (fold_left after_section l (v, a, b)) = (if existsb is_events m then fmt_some fe else b) /\
      (if existsb is_styles m then snd (fst (fold_left after_section l (v, a, b))) = fmt_some fs \/
          fs = [] /\ snd (fst (fold_left after_section l (v, a, b))) = Some default_styles_format
       else snd (fst (fold_left after_section l (v, a, b))) = a)).
  { intros l m W. induction W as [|[n r] s l m (miss & R) _ IH]; intros Hin v a b; [repeat split|]. cbn [fst snd] in R.
    destruct (Hsub n r (Hin n r (or_introl eq_refl))) as [Hi Hk].
    assert (Hl : one_line r) by (exact (section_one_line _ _ _ (lines_one_line src) Hi)).
    pose proof (reads_version src miss n r s v a b Hk R) as V. pose proof (after_section_formats src miss n r s fs fe v a b Hl R (X1 n r Hi) (X2 n r Hi)) as [F1 F2].
    cbn [fold_left]. destruct (after_section (v, a, b) (n, r)) as [[v1 a1] b1]. cbn [fst snd] in V, F1, F2.
    destruct (IH (fun n' r' Hin' => Hin n' r' (or_intror Hin')) v1 a1 b1) as (I1 & I2 & I3). cbn [existsb]. split; [rewrite I1, V; reflexivity|]. split.
    - rewrite I2, F1. destruct (existsb is_events m); [rewrite orb_true_r; reflexivity|]. rewrite orb_false_r. reflexivity.
    - destruct (existsb is_styles m); [rewrite orb_true_r; exact I3|]. rewrite orb_false_r. rewrite I3. exact F2. }
  destruct (Hset _ _ R1 (fun n r H => H) AssV4 None None) as (V1 & V2 & V3). fold start_settings in V1, V2, V3. rewrite <- R2 in V1, V2, V3. unfold settings_sc in V1, V2, V3. cbn [fst snd] in V1, V2, V3.
  clear Hset R2.
  assert (Hdef : forall f, sc_styles_format sc = Some f -> f = format_or default_styles_format fs).
  { intros f Ef. rewrite Ef in V3. destruct (existsb is_styles (sc_sections sc)); [|discriminate]. destruct V3 as [V3|[-> V3]]; [|injection V3 as ->; reflexivity].
    destruct fs as [|x fs']; [discriminate|]. injection V3 as ->. reflexivity. }
  constructor.
  - apply Forall_forall. intros s Hin. destruct (Forall2_in_r _ _ _ _ R1 Hin) as ([n r] & Hsec & miss & R). cbn [fst snd] in R. destruct (Hsub n r Hsec) as [Hi _].
    assert (Hl : one_line r) by (exact (section_one_line _ _ _ (lines_one_line src) Hi)). pose proof (body_one_line r Hl) as Hb.
    destruct s as [f sp|l|l|l|l]; cbn [reads section_ok] in *; destruct R as (Hn & R).
    + destruct R as [R _]. apply (fields_ok (body r)); [exact Hb|intros p x; apply body_no_header|intros k v Hkv; apply (X8 f sp k v Hin Hkv)|exact R].
    + destruct (sc_styles_format sc) as [f|] eqn:Ef; [|exact (X6 l Hin eq_refl)]. rewrite (Hdef f eq_refl).
      destruct (settled_styles miss fs (body r) Hb [] (X2 n r Hi Hn)) as [_ H]. rewrite R. apply H. rewrite <- R. apply Forall_forall. intros x Hx. exact (X5 l x Hin Hx).
    + assert (Ee : existsb is_events (sc_sections sc) = true) by (apply existsb_exists; exists (SEvents l); split; [exact Hin|reflexivity]).
      rewrite V2, Ee. replace (opt_list (fmt_some fe)) with fe by (destruct fe; reflexivity).
      destruct (settled_events miss fe (body r) Hb [] (X1 n r Hi Hn)) as [_ H]. rewrite R. exact H.
    + split; [apply (X7 l); auto|]. rewrite R. apply media_all_ok; [exact Hl|exact I].
    + split; [apply (X7 l); auto|]. rewrite R. apply media_all_ok; [exact Hl|exact I].
  - intros f Ef. rewrite (Hdef f Ef). rewrite Ef in V3. destruct (existsb is_styles (sc_sections sc)) eqn:Es; [|discriminate].
    destruct fs as [|x fs'].
    + cbn [format_or]. split; [split; [discriminate|unfold default_styles_format; cbn [map]; repeat constructor]|]. split; [apply default_spelled_style|].
      split; [|reflexivity]. intros K. exfalso. revert K. unfold default_styles_format. cbn [map In]. intros K. repeat (destruct K as [K|K]; [vm_compute in K; discriminate|]). exact K.
    + cbn [format_or]. destruct X4 as [X4a X4b]. split; [|auto]. apply existsb_exists in Es. destruct Es as (s & Hin & Hs). destruct s as [|l| | |]; try discriminate.
      destruct (Forall2_in_r _ _ _ _ R1 Hin) as ([n r] & Hsec & miss & (Hn & _)). cbn [fst] in Hn. destruct (Hsub n r Hsec) as [Hi _].
      apply (settled_format style_item (x :: fs') (body r)) with (cur := []); [apply body_one_line, (section_one_line _ _ _ (lines_one_line src) Hi)|exact (X2 n r Hi Hn)|intros K; congruence|discriminate].
  - intros f Ef. rewrite Ef in V2. destruct (existsb is_events (sc_sections sc)) eqn:Es; [|discriminate].
    destruct fe as [|x fe']; [discriminate|]. injection V2 as ->. destruct X3 as [X3a X3b]. split; [|auto]. apply existsb_exists in Es. destruct Es as (s & Hin & Hs). destruct s as [| |l| |]; try discriminate.
    destruct (Forall2_in_r _ _ _ _ R1 Hin) as ([n r] & Hsec & miss & (Hn & _)). cbn [fst] in Hn. destruct (Hsub n r Hsec) as [Hi _].
    apply (settled_format event_item (x :: fe') (body r)) with (cur := []); [apply body_one_line, (section_one_line _ _ _ (lines_one_line src) Hi)|exact (X1 n r Hi Hn)|intros K; congruence|discriminate].
  - exact V1.
Qed.
Lemma parse_again reg src sc fs fe : small src -> small (script_to_string sc) -> headers_closed (source_lines src) = true -> parse_with reg src = Done sc ->
  expressible fs fe (source_lines src) sc ->
  exists sc', parse_with reg (script_to_string sc) = Done sc' /\ map bare (sc_sections sc') = map bare (sc_sections sc) /\
    sc_version sc' = sc_version sc /\ sc_styles_format sc' = sc_styles_format sc /\ sc_events_format sc' = sc_events_format sc.
Proof. intros H1 H2 H3 H4 H5. apply script_roundtrip; [exact (parsed_ok reg src sc fs fe H1 H3 H4 H5)|exact H2]. Qed.
