(* Each section reader computes the line-by-line reading of its body. *)
From Verif Require Import Base BaseLemmas UuModel ParseModel ParseSpec ParseTracker ParseLines.

(* ---- common ---- *)
Lemma indent_content l : indent l ++ content l = l.
Proof. apply take_drop_while. Qed.
Lemma indent_no_nl l : no_newline (indent l).
Proof. apply blank_no_nl, take_while_forall. Qed.
Lemma span_place miss p l : span_for (place miss (p ++ indent l)) (blen (content l)) = line_span miss p l.
Proof.
  assert (H : blen (p ++ l) = blen (p ++ indent l) + blen (content l)).
  { rewrite <- blen_app, <- app_assoc, indent_content. reflexivity. }
  unfold span_for, line_span, place. cbn [toff tline tcol]. rewrite H.
  unfold true_line. rewrite newlines_app, (newlines_none _ (indent_no_nl l)). f_equal. lia.
Qed.

(* A remark line has no meaning for the field parsers. *)
Lemma trim_head c s : is_ws c = false -> exists s', trim (c :: s) = c :: s'.
Proof.
  intros H. unfold trim, trim_start. cbn [drop_while]. rewrite H. unfold trim_end. cbn [drop_end]. rewrite H.
  destruct (drop_end is_ws s) as [|x y]; eauto.
Qed.
Lemma remark_trim l : remark l = true -> exists c s, trim l = c :: s /\ (c = 59 \/ c = 35)%N.
Proof.
  unfold remark. rewrite <- trim_content. destruct (content l) as [|c s]; [discriminate|]. intros H.
  assert (Hw : is_ws c = false) by (unfold is_ws; lia). destruct (trim_head c s Hw) as (s' & ->). exists c, s'. split; [reflexivity|lia].
Qed.
Lemma strip_head p c s : hd 0%N p <> c -> p <> [] -> strip_prefix p (c :: s) = None.
Proof. destruct p as [|x p]; [congruence|]. cbn. intros H _. destruct (N.eqb_spec x c); [contradiction|reflexivity]. Qed.
Lemma remark_no_prefix c s : (c = 59 \/ c = 35)%N ->
  strip_prefix (lit "Format:") (c :: s) = None /\ strip_prefix (lit "Style:") (c :: s) = None /\ event_prefix (c :: s) = None.
Proof.
  intros H. unfold event_prefix.
  rewrite !strip_head; try (lits; discriminate); try (lits; cbn; destruct H; subst; discriminate). auto.
Qed.
Lemma format_of_comma d : map trim (split_on is_comma d) <> [].
Proof. pose proof (split_on_nonempty is_comma d). destruct (split_on is_comma d); [congruence|discriminate]. Qed.

(* ---- [Script Info] ---- *)
Definition ver_step (acc : option version) (kv : str * str) : option version :=
  if str_eqb (fst kv) (lit "ScriptType")
  then match version_from_header (snd kv) with Some v => Some v | None => acc end else acc.
Lemma info_fold miss b st :
  let st' := fold_left (line_effect info_line miss) b st in
  is_fields st' = is_fields st ++ info_fields b /\
  is_version st' = fold_left ver_step (info_fields b) (is_version st).
Proof.
  revert st. induction b as [|[p l] b IH]; intros st; [cbn; rewrite app_nil_r; auto|].
  cbn [fold_left]. cbv zeta in *. destruct (IH (line_effect info_line miss st (p, l))) as [H1 H2]. rewrite H1, H2. clear H1 H2 IH.
  unfold info_fields. cbn [flat_map snd]. fold (info_fields b).
  unfold line_effect. destruct (trim l) as [|c s] eqn:Et.
  - cbn [find_char]. destruct (remark l); auto.
  - destruct (remark l); [auto|]. unfold info_line. rewrite <- Et. clear Et c s.
    destruct (find_char is_colon (trim l)) as [[k [|x v]]|]; auto.
    cbn [is_fields is_version app fold_left]. rewrite <- app_assoc. split; [reflexivity|]. f_equal.
Qed.

(* ---- [Events] ---- *)
Definition fmt_list (f : option (list str)) : list str := match f with Some x => x | None => [] end.
Definition fmt_ok (f : option (list str)) : Prop := f <> Some [].
Lemma event_step miss st p l : fmt_ok (es_format st) ->
  let st1 := line_effect event_line miss st (p, l) in
  match format_of (trim l) with
  | Some f => f <> [] /\ es_events st1 = es_events st /\ es_format st1 = Some f
  | None => es_format st1 = es_format st /\
    es_events st1 = es_events st ++ match parse_event_line (trim l) (fmt_list (es_format st)) 0 with
                                    | Ok e => [set_event_span e (line_span miss p l)] | _ => [] end
  end.
Proof.
  intros Hf. cbv zeta. unfold line_effect. destruct (trim l) as [|c s] eqn:Et.
  { cbn. rewrite app_nil_r. auto. }
  destruct (remark l) eqn:Er.
  { destruct (remark_trim l Er) as (c' & s' & Et' & Hc). rewrite Et in Et'. injection Et' as <- <-.
    destruct (remark_no_prefix c s Hc) as (R1 & R2 & R3).
    unfold format_of, parse_event_line. rewrite R1, R3, app_nil_r. auto. }
  unfold format_of, event_line, parse_event_line.
  destruct (strip_prefix (lit "Format:") (c :: s)) as [d|]; [repeat split; apply format_of_comma|].
  destruct (event_prefix (c :: s)) as [[ty d]|] eqn:Ep; [|rewrite app_nil_r; auto].
  assert (Efmt : match es_format st with Some f => f | None => default_events_format end =
    match fmt_list (es_format st) with [] => default_events_format | _ => fmt_list (es_format st) end).
  { unfold fmt_ok in Hf. destruct (es_format st) as [[|x y]|]; cbn; congruence. }
  rewrite Efmt, span_place. cbv zeta.
  set (fmt := match fmt_list (es_format st) with [] => default_events_format | _ => fmt_list (es_format st) end).
  destruct (List.length (event_parts fmt (trim d)) <? List.length fmt) eqn:El; cbn [es_events es_format].
  - rewrite app_nil_r. auto.
  - auto.
Qed.
Lemma events_fold miss b st : fmt_ok (es_format st) ->
  let st' := fold_left (line_effect event_line miss) b st in
  fmt_ok (es_format st') /\
  es_events st' = es_events st ++ fst (events_in miss (fmt_list (es_format st)) b) /\
  fmt_list (es_format st') = snd (events_in miss (fmt_list (es_format st)) b).
Proof.
  revert st. induction b as [|[p l] b IH]; intros st Hf; [cbn; rewrite app_nil_r; auto|].
  cbn [fold_left events_in]. cbv zeta in *.
  pose proof (event_step miss st p l Hf) as H. cbv zeta in H.
  set (st1 := line_effect event_line miss st (p, l)) in *. clearbody st1.
  destruct (format_of (trim l)) as [f|].
  - destruct H as (Hf1 & He & Hfm). destruct (IH st1) as (A & B & C).
    { unfold fmt_ok. rewrite Hfm. congruence. }
    rewrite Hfm in B, C. cbn [fmt_list] in B, C. rewrite He in B. auto.
  - destruct H as (Hfm & He). destruct (IH st1) as (A & B & C); [rewrite Hfm; exact Hf|].
    rewrite Hfm in B, C. rewrite He in B.
    destruct (events_in miss (fmt_list (es_format st)) b) as [es f]. cbn [fst snd] in *.
    destruct (parse_event_line (trim l) (fmt_list (es_format st)) 0) as [e| |];
      rewrite <- app_assoc in B; auto.
Qed.

(* ---- [V4+ Styles] ---- *)
Lemma style_step miss st p l : fmt_ok (ss_format st) ->
  let st1 := line_effect style_line miss st (p, l) in
  match format_of (trim l) with
  | Some f => f <> [] /\ ss_styles st1 = ss_styles st /\ ss_format st1 = Some f
  | None => ss_format st1 = ss_format st /\
    ss_styles st1 = ss_styles st ++
      match strip_prefix (lit "Style:") (trim l) with
      | Some d => match parse_style_line (trim d) (fmt_list (ss_format st)) 0 with
                  | Ok s => [set_style_span s (line_span miss p l)] | _ => [] end
      | None => []
      end
  end.
Proof.
  intros Hf. cbv zeta. unfold line_effect. destruct (trim l) as [|c s] eqn:Et.
  { cbn. rewrite app_nil_r. auto. }
  destruct (remark l) eqn:Er.
  { destruct (remark_trim l Er) as (c' & s' & Et' & Hc). rewrite Et in Et'. injection Et' as <- <-.
    destruct (remark_no_prefix c s Hc) as (R1 & R2 & R3).
    unfold format_of. rewrite R1, R2, app_nil_r. auto. }
  unfold format_of, style_line, parse_style_line.
  destruct (strip_prefix (lit "Format:") (c :: s)) as [d|]; [repeat split; apply format_of_comma|].
  destruct (strip_prefix (lit "Style:") (c :: s)) as [d|]; [|rewrite app_nil_r; auto].
  assert (Efmt : match ss_format st with Some f => f | None => default_styles_format end =
    match fmt_list (ss_format st) with [] => default_styles_format | _ => fmt_list (ss_format st) end).
  { unfold fmt_ok in Hf. destruct (ss_format st) as [[|x y]|]; cbn; congruence. }
  rewrite Efmt, span_place. destruct (style_parent (trim d)) as [adj par]. cbv zeta.
  set (fmt := match fmt_list (ss_format st) with [] => default_styles_format | _ => fmt_list (ss_format st) end).
  destruct (List.length (split_on is_comma adj) <? List.length fmt) eqn:El; cbn [ss_styles ss_format].
  - rewrite app_nil_r. auto.
  - auto.
Qed.
Lemma styles_fold miss b st : fmt_ok (ss_format st) ->
  let st' := fold_left (line_effect style_line miss) b st in
  fmt_ok (ss_format st') /\
  ss_styles st' = ss_styles st ++ fst (styles_in miss (fmt_list (ss_format st)) b) /\
  fmt_list (ss_format st') = snd (styles_in miss (fmt_list (ss_format st)) b).
Proof.
  revert st. induction b as [|[p l] b IH]; intros st Hf; [cbn; rewrite app_nil_r; auto|].
  cbn [fold_left styles_in]. cbv zeta in *.
  pose proof (style_step miss st p l Hf) as H. cbv zeta in H.
  set (st1 := line_effect style_line miss st (p, l)) in *. clearbody st1.
  destruct (format_of (trim l)) as [f|].
  - destruct H as (Hf1 & He & Hfm). destruct (IH st1) as (A & B & C).
    { unfold fmt_ok. rewrite Hfm. congruence. }
    rewrite Hfm in B, C. cbn [fmt_list] in B, C. rewrite He in B. auto.
  - destruct H as (Hfm & He). destruct (IH st1) as (A & B & C); [rewrite Hfm; exact Hf|].
    rewrite Hfm in B, C. rewrite He in B.
    destruct (styles_in miss (fmt_list (ss_format st)) b) as [es f]. cbn [fst snd] in *.
    destruct (strip_prefix (lit "Style:") (trim l)) as [d|]; [|rewrite <- app_assoc in B; auto].
    destruct (parse_style_line (trim d) (fmt_list (ss_format st)) 0) as [e| |];
      rewrite <- app_assoc in B; auto.
Qed.

(* ---- [Fonts], [Graphics] ---- *)
Section Media.
Context (miss : N) (key : str) (src : str).
Hypothesis Hkey : first_is 35 key = false.
Hypothesis Hsmall : small src.
Definition mi (cur : option (str * str * list str)) (pre rest : str) : list media :=
  media_in miss key (blen src) cur (lines_at pre rest).

Lemma media_none_step p l r : header_line l = false ->
  (forall k v, find_char is_colon (content l) = Some (k, v) -> str_eqb (trim k) key = false) ->
  media_in miss key (blen src) None ((p, l) :: r) = media_in miss key (blen src) None r.
Proof.
  intros Hh Hk. cbn [media_in]. rewrite Hh.
  destruct (starts_with (lit ";") (content l) || starts_with (lit "!:") (content l)); [reflexivity|].
  destruct (find_char is_colon (content l)) as [[k [|x v]]|]; try reflexivity.
  rewrite (Hk k (x :: v) eq_refl). reflexivity.
Qed.
Lemma ws_no_colon l : all_ws l = true -> find_char is_colon (content l) = None.
Proof.
  intros H. apply find_char_none. assert (H' : all_ws (content l) = true).
  { unfold all_ws in *. rewrite <- (indent_content l), forallb_app in H. apply andb_true_iff in H. apply H. }
  revert H'. apply forallb_imp. intros c. unfold is_ws, is_colon. lia.
Qed.
Lemma mi_blank_line p l r : all_ws l = true ->
  media_in miss key (blen src) None ((p, l) :: r) = media_in miss key (blen src) None r.
Proof.
  intros H. apply media_none_step; [apply ws_not_header, H|]. rewrite ws_no_colon by exact H. discriminate.
Qed.
Lemma mi_nil pre : mi None pre [] = [].
Proof. unfold mi. rewrite lines_at_end by reflexivity. rewrite mi_blank_line by reflexivity. reflexivity. Qed.

Lemma binary_comment_step p l r : binary_comment l = true -> header_line l = false /\
  media_in miss key (blen src) None ((p, l) :: r) = media_in miss key (blen src) None r.
Proof.
  intros H. assert (Hc : exists c s, l = c :: s /\ (c = 59 \/ c = 33)%N).
  { unfold binary_comment in H. lits. destruct l as [|c s]; [discriminate|]. exists c, s. split; [reflexivity|].
    unfold starts_with in H. cbn in H. destruct (N.eqb_spec 59 c); [left; congruence|]. destruct (N.eqb_spec 33 c); [right; congruence|discriminate]. }
  destruct Hc as (c & s & -> & Hc).
  assert (Hw : is_ws c = false /\ blank c = false /\ c <> 91%N) by (unfold is_ws, blank; lia). destruct Hw as (Hw & Hb & Hx).
  assert (Hh : header_line (c :: s) = false).
  { unfold header_line, trim_start. cbn [drop_while]. rewrite Hw. lits. rewrite starts1'. apply N.eqb_neq. congruence. }
  split; [exact Hh|]. cbn [media_in]. rewrite Hh, content_id by exact Hb. unfold binary_comment in H. rewrite H. reflexivity.
Qed.

Lemma media_passes : passes binary_comment (fun pre rest => (heads pre rest, mi None pre rest)).
Proof.
  constructor.
  - intros pre b r Hb. rewrite heads_shift by exact Hb. f_equal. unfold mi.
    destruct (lines_at_shift pre b r (blank_no_nl b Hb)) as (l & T & Hl & -> & ->).
    cbn [media_in]. rewrite header_line_app, content_app, indent_app by exact Hb. rewrite <- app_assoc. reflexivity.
  - intros pre r. change (10%N :: r) with ([] ++ 10%N :: r). rewrite heads_line by reflexivity. f_equal.
  - intros pre l r Hl Hc. destruct (binary_comment_step pre l (lines_at (pre ++ l ++ [10%N]) r) Hc) as [Hh He].
    rewrite heads_line by assumption. f_equal. unfold mi. rewrite lines_at_nl by exact Hl. exact He.
  - intros pre l Hl Hc. destruct (binary_comment_step pre l [] Hc) as [Hh He].
    rewrite heads_last by assumption. rewrite mi_nil. f_equal. unfold mi. rewrite lines_at_end by exact Hl. exact He.
Qed.

Lemma at_next_mi pre rest : at_next_section rest = true -> mi None pre rest = [].
Proof.
  remember (List.length rest) as n eqn:En. revert pre rest En. induction n as [n IH] using lt_wf_ind. intros pre rest En H.
  unfold mi. destruct (first_line rest) as [Hn|(l & r & -> & Hl)].
  - rewrite lines_at_end by exact Hn. cbn [media_in]. unfold header_line. unfold at_next_section in H. rewrite H. reflexivity.
  - rewrite at_next_line in H. rewrite lines_at_nl by exact Hl. destruct (all_ws l) eqn:Ew.
    + rewrite mi_blank_line by exact Ew. eapply IH; [|reflexivity|exact H]. rewrite En, app_length. cbn. lia.
    + cbn [media_in]. rewrite H. reflexivity.
Qed.

Definition entry (q name : str) (data : list str) (stop : nat) : media :=
  Media name data (Span (blen q) stop (true_line q - miss) (true_col q)).

(* a line that ends the data is not an entry of its own *)
Lemma trim_ws_prefix l c s : trim l = c :: s -> exists a b, l = a ++ c :: b /\ all_ws a = true /\ is_ws c = false.
Proof.
  intros H. destruct (trim_spec l) as (a & b & E & Ha & Hb). rewrite H in E. exists a, (s ++ b).
  split; [exact E|]. split; [exact Ha|]. pose proof (drop_while_head is_ws l) as Hh.
  unfold trim in H. fold (trim_start l) in Hh. pose proof (trim_end_start_head (trim_start l)) as K. rewrite H in K.
  destruct (trim_start l) as [|d t]; [contradiction|]. subst. exact Hh.
Qed.
Lemma hash_line_none p l r : header_line l = false -> first_is 35 (trim l) = true ->
  media_in miss key (blen src) None ((p, l) :: r) = media_in miss key (blen src) None r.
Proof.
  intros Hh H. apply media_none_step; [exact Hh|]. intros k v Ek.
  rewrite <- trim_content in H. destruct (trim (content l)) as [|c s] eqn:Et; [discriminate|].
  cbn in H. apply N.eqb_eq in H. subst c.
  destruct (trim_ws_prefix _ _ _ Et) as (a & b & El & Ha & _).
  apply find_char_some in Ek. destruct Ek as (E & Hk & (x & v' & -> & Hx)).
  assert (Hpre : exists k', k = a ++ 35%N :: k').
  { rewrite El in E. clear - E Ha Hx. revert k E. induction a as [|y a IH]; intros k E.
    - destruct k as [|z k]; cbn in E; injection E as E1 E2; [exfalso; subst x; vm_compute in Hx; discriminate Hx|subst z; exists k; reflexivity].
    - unfold all_ws in Ha. cbn in Ha. apply andb_true_iff in Ha. destruct Ha as [Hy Ha]. destruct k as [|z k].
      + cbn in E. injection E as E1 E2. subst y. unfold is_colon in Hx. apply N.eqb_eq in Hx. subst x. vm_compute in Hy. discriminate Hy.
      + cbn in E. injection E as E1 E2. subst z. destruct (IH Ha k E2) as (k' & ->). exists k'. reflexivity. }
  destruct Hpre as (k' & ->). apply str_eqb_neq. intros Hc.
  unfold trim in Hc. rewrite trim_start_ws in Hc by exact Ha. fold (trim (35%N :: k')) in Hc.
  destruct (trim_head 35 k' eq_refl) as (s' & Es). rewrite Es in Hc. rewrite <- Hc in Hkey. discriminate.
Qed.

Lemma ends_data_cases l : ends_data l = true -> all_ws l = true \/ first_is 35 (trim l) = true.
Proof.
  unfold ends_data. destruct (trim l) as [|c s] eqn:Et; [left; apply trim_nil, Et|]. intros H. right. cbn. apply orb_true_iff in H.
  destruct H as [H|H].
  - lits. unfold starts_with in H. cbn in H. rewrite N.eqb_sym. destruct (35 =? c)%N; [reflexivity|discriminate].
  - apply str_eqb_eq in H. lits. injection H as -> _. reflexivity.
Qed.
Lemma ends_data_step q name data p l r : header_line l = false -> ends_data l = true ->
  media_in miss key (blen src) (Some (q, name, data)) ((p, l) :: r) =
  entry q name data (blen p) :: media_in miss key (blen src) None ((p, l) :: r).
Proof.
  intros Hh He. cbn [media_in]. rewrite Hh, He. cbn [close_entry app]. unfold entry. f_equal.
  transitivity (media_in miss key (blen src) None ((p, l) :: r)).
  - symmetry. destruct (ends_data_cases l He) as [H|H]; [apply mi_blank_line, H|apply hash_line_none; assumption].
  - cbn [media_in]. rewrite Hh. reflexivity.
Qed.

Lemma head_bracket l : starts_with (lit "[") (trim l) = header_line l.
Proof.
  unfold header_line, trim. pose proof (trim_end_start_head (trim_start l)) as K.
  destruct (trim_end (trim_start l)) as [|x y] eqn:Ee.
  - destruct (trim_start l) as [|z w] eqn:Ez; [reflexivity|]. apply drop_end_nil_all in Ee. unfold all_ws in Ee. cbn in Ee.
    pose proof (drop_while_head is_ws l) as K2. fold (trim_start l) in K2. rewrite Ez in K2. rewrite K2 in Ee. discriminate.
  - destruct (trim_start l) as [|z w]; [contradiction|]. subst z. lits. rewrite !starts1'. reflexivity.
Qed.
Lemma starts_first c s : starts_with [c] s = first_is c s.
Proof. destruct s as [|x y]; [reflexivity|]. rewrite starts1'. cbn. apply N.eqb_sym. Qed.

Lemma media_in_ext cur x T T' : (forall c, media_in miss key (blen src) c T = media_in miss key (blen src) c T') ->
  media_in miss key (blen src) cur (x :: T) = media_in miss key (blen src) cur (x :: T').
Proof.
  intros H. destruct x as [p l]. cbn [media_in]. destruct (header_line l); [reflexivity|].
  destruct cur as [[[q n] d]|]; rewrite ?H; [reflexivity|].
  destruct (find_char is_colon (content l)) as [[k [|y v]]|]; rewrite ?H; reflexivity.
Qed.

(* the current line, with the newline that ends it if there is one *)
Lemma line_step pre rest : src = pre ++ rest -> (miss <= newlines pre)%N -> rest <> [] ->
  exists l e r, rest = l ++ e ++ r /\ no_newline l /\ current_line rest = l /\
    next_line src (place miss pre) = Done (place miss (pre ++ l ++ e)) /\ (r <> [] -> tail_line (pre ++ l ++ e) = []) /\
    src = (pre ++ l ++ e) ++ r /\ (miss <= newlines (pre ++ l ++ e))%N /\ List.length r < List.length rest /\
    (at_next_section rest = false -> header_line l = false) /\
    (at_next_section rest = true -> all_ws l = true \/ header_line l = true) /\
    (header_line l = false -> heads pre rest = heads (pre ++ l ++ e) r) /\
    (forall cur, mi cur pre rest = media_in miss key (blen src) cur ((pre, l) :: lines_at (pre ++ l ++ e) r)).
Proof.
  intros E Hm Hne. destruct (first_line rest) as [Hn|(l & r & -> & Hl)].
  - exists rest, [], []. rewrite !app_nil_r, <- E. repeat split; try exact Hn.
    + apply current_line_end, Hn.
    + rewrite (next_line_end src pre rest miss Hsmall E Hn), E. reflexivity.
    + congruence.
    + rewrite E. apply nl_no_nl_miss, Hm.
    + destruct rest; [congruence|cbn; lia].
    + auto.
    + auto.
    + intros Hh. rewrite heads_last by assumption. reflexivity.
    + intros cur. unfold mi. rewrite lines_at_end by exact Hn. unfold lines_at. cbn [split_on located].
      apply media_in_ext. intros [[[q n] d]|]; reflexivity.
  - exists l, [10%N], r. assert (E' : src = (pre ++ l ++ [10%N]) ++ r) by (rewrite E, <- !app_assoc; reflexivity).
    repeat split; try assumption.
    + apply current_line_nl, Hl.
    + apply next_line_mid with (r := r); assumption.
    + intros _. rewrite app_assoc. apply tail_line_nl.
    + apply nl_no_nl_miss, Hm.
    + rewrite app_length. cbn. lia.
    + rewrite at_next_line. destruct (all_ws l) eqn:Ew; [intros _; apply ws_not_header, Ew|auto].
    + rewrite at_next_line. destruct (all_ws l); auto.
    + intros Hh. apply heads_line; assumption.
    + intros cur. unfold mi. rewrite lines_at_nl by exact Hl. reflexivity.
Qed.

Lemma data_spec fuel : forall pre rest q name acc, src = pre ++ rest -> (miss <= newlines pre)%N -> List.length rest < fuel ->
  exists m rest' acc', data_lines_loop fuel src (place miss pre) acc = Done (place miss (pre ++ m), acc') /\
    rest = m ++ rest' /\ heads pre rest = heads (pre ++ m) rest' /\
    mi (Some (q, name, acc)) pre rest = entry q name acc' (blen (pre ++ m)) :: mi None (pre ++ m) rest' /\
    (all_ws (tail_line pre) = true -> rest' <> [] -> all_ws (tail_line (pre ++ m)) = true).
Proof.
  induction fuel as [|f IH]; intros pre rest q name acc E Hm Hf; [lia|]. cbn [data_lines_loop].
  rewrite (at_end_place src pre rest miss E).
  destruct rest as [|c0 rest0] eqn:Er.
  { exists [], [], acc. rewrite app_nil_r. repeat split. congruence. }
  rewrite <- Er in *. assert (Hne : rest <> []) by (rewrite Er; discriminate). clear c0 rest0 Er.
  destruct (line_step pre rest E Hm Hne) as (l & e & r & El & Hl & Hcur & Hnext & Htl & E' & Hm' & Hlen & Hns & Hns' & Hheads & Hmi).
  rewrite (next_section_place src pre rest miss E). cbn [bind].
  assert (Hstop : header_line l = true \/ ends_data l = true -> exists m rest' acc',
      Done (place miss pre, acc) = Done (place miss (pre ++ m), acc') /\
      rest = m ++ rest' /\ heads pre rest = heads (pre ++ m) rest' /\
      mi (Some (q, name, acc)) pre rest = entry q name acc' (blen (pre ++ m)) :: mi None (pre ++ m) rest' /\
      (all_ws (tail_line pre) = true -> rest' <> [] -> all_ws (tail_line (pre ++ m)) = true)).
  { intros H. exists [], rest, acc. rewrite app_nil_r. repeat split; [|auto]. rewrite !Hmi.
    destruct (header_line l) eqn:Hh; [cbn [media_in]; rewrite Hh; reflexivity|].
    destruct H as [H|H]; [discriminate|]. apply ends_data_step; assumption. }
  destruct (at_next_section rest) eqn:En.
  { apply Hstop. destruct (Hns' eq_refl) as [H|H]; [right|left; exact H]. unfold ends_data. rewrite trim_all by exact H. reflexivity. }
  assert (Hh : header_line l = false) by (apply Hns; reflexivity).
  rewrite (this_line_place src pre rest miss E), Hcur. cbn [bind]. cbv zeta.
  rewrite head_bracket, Hh, orb_false_r.
  destruct (match trim l with [] => true | _ => false end) eqn:Ee.
  { apply Hstop. right. unfold ends_data. destruct (trim l); [reflexivity|discriminate]. }
  change (lit ";") with [59%N]. change (lit "!") with [33%N]. rewrite !starts_first, Hnext. cbn [bind].
  assert (Hgo : forall acc1, mi (Some (q, name, acc)) pre rest = mi (Some (q, name, acc1)) (pre ++ l ++ e) r ->
     exists m rest' acc', data_lines_loop f src (place miss (pre ++ l ++ e)) acc1 = Done (place miss (pre ++ m), acc') /\
      rest = m ++ rest' /\ heads pre rest = heads (pre ++ m) rest' /\
      mi (Some (q, name, acc)) pre rest = entry q name acc' (blen (pre ++ m)) :: mi None (pre ++ m) rest' /\
      (all_ws (tail_line pre) = true -> rest' <> [] -> all_ws (tail_line (pre ++ m)) = true)).
  { intros acc1 Hacc. destruct (IH (pre ++ l ++ e) r q name acc1 E' Hm' ltac:(lia)) as (m & r' & a & K1 & K2 & K3 & K4 & K5).
    exists (l ++ e ++ m), r', a. rewrite <- !app_assoc in K1, K3, K4. rewrite Hacc, (Hheads Hh). repeat split; try assumption.
    - rewrite El, K2, <- !app_assoc. reflexivity.
    - intros _ Hne'. replace (pre ++ l ++ e ++ m) with ((pre ++ l ++ e) ++ m) by (rewrite <- !app_assoc; reflexivity).
      apply K5; [|exact Hne']. rewrite Htl; [reflexivity|]. rewrite K2. destruct m; [exact Hne'|discriminate]. }
  assert (Hed : ends_data l = starts_with (lit "# ") (trim l) || str_eqb (trim l) (lit "#")).
  { unfold ends_data. destruct (trim l); [discriminate|reflexivity]. }
  destruct (first_is 59 (trim l) || first_is 33 (trim l)) eqn:Ec.
  - apply Hgo. rewrite Hmi. cbn [media_in]. rewrite Hh, Ec.
    replace (ends_data l) with false; [reflexivity|]. symmetry. destruct (ends_data l) eqn:K; [|reflexivity].
    destruct (ends_data_cases l K) as [K'|K']; [rewrite (trim_all l K') in Ee; discriminate|].
    destruct (trim l) as [|x y]; [discriminate|]. cbn in *. lia.
  - rewrite <- Hed. destruct (ends_data l) eqn:Eh; [apply Hstop; auto|].
    apply Hgo. rewrite Hmi. cbn [media_in]. rewrite Hh, Ec, Eh. reflexivity.
Qed.

Lemma media_spec fuel : forall pre rest acc, src = pre ++ rest -> (miss <= newlines pre)%N -> List.length rest < fuel ->
  exists m rest', media_loop fuel key src (place miss pre) acc = Done (place miss (pre ++ m), acc ++ mi None pre rest) /\
    rest = m ++ rest' /\ (rest' = [] \/ at_next_section rest' = true) /\ heads pre rest = heads (pre ++ m) rest' /\
    (all_ws (tail_line pre) = true -> rest' <> [] -> all_ws (tail_line (pre ++ m)) = true).
Proof.
  induction fuel as [|f IH]; intros pre rest acc E Hm Hf; [lia|]. cbn [media_loop].
  rewrite (at_end_place src pre rest miss E).
  destruct rest as [|c0 rest0] eqn:Er.
  { exists [], []. rewrite app_nil_r, mi_nil, app_nil_r. repeat split; auto. }
  rewrite <- Er in *. clear c0 rest0 Er.
  rewrite (next_section_place src pre rest miss E). cbn [bind].
  destruct (at_next_section rest) eqn:En.
  { exists [], rest. rewrite app_nil_r, at_next_mi, app_nil_r by exact En. repeat split; auto. }
  destruct (skip_ws_spec binary_comment _ src miss (S (blen src)) Hsmall binary_comment_line media_passes pre rest E Hm)
    as (m & r1 & H1 & H2 & H3 & H4 & H5).
  { pose proof (blen_length rest). rewrite E, blen_app. lia. }
  unfold skip_ws. rewrite H1. cbn [bind]. injection H3 as H3a H3b. rewrite H3a, H3b. clear H3a H3b.
  assert (E1 : src = (pre ++ m) ++ r1) by (rewrite <- app_assoc, <- H2; exact E).
  rewrite (at_end_place src (pre ++ m) r1 miss E1).
  destruct r1 as [|c r0] eqn:Er.
  { exists m, []. rewrite mi_nil, app_nil_r. repeat split; auto. }
  rewrite <- Er in *. assert (Hne : r1 <> []) by (rewrite Er; discriminate).
  assert (Hc : content r1 = r1 /\ binary_comment r1 = false).
  { rewrite Er in H4 |- *. destruct H4 as (Hb & _ & Hc). split; [apply content_id, Hb|exact Hc]. }
  clear c r0 Er.
  rewrite (next_section_place src (pre ++ m) r1 miss E1). cbn [bind].
  destruct (at_next_section r1) eqn:En1.
  { exists m, r1. rewrite at_next_mi, app_nil_r by exact En1. repeat split; auto. }
  assert (Hm1 : (miss <= newlines (pre ++ m))%N) by (apply nl_no_nl_miss, Hm).
  destruct (line_step (pre ++ m) r1 E1 Hm1 Hne) as (l & e & r & El & Hl & Hcur & Hnext & Htl & E' & Hm' & Hlen & Hns & Hns' & Hheads & Hmi).
  assert (Hh : header_line l = false) by (apply Hns; exact En1).
  assert (Lr : List.length r1 <= List.length rest) by (rewrite H2, app_length; lia).
  assert (Hcl : content l = l /\ indent l = [] /\ (starts_with (lit ";") l || starts_with (lit "!:") l) = false).
  { destruct Hc as [Hc1 Hc2]. destruct l as [|x l0].
    - split; [reflexivity|split; reflexivity].
    - rewrite El in Hc1. cbn [app] in Hc1. assert (Hb : blank x = false).
      { pose proof (drop_while_head blank (x :: l0 ++ e ++ r)) as K. unfold content in Hc1. rewrite Hc1 in K. exact K. }
      split; [apply content_id, Hb|]. split; [apply indent_id, Hb|].
      unfold binary_comment in Hc2. rewrite El in Hc2. destruct (starts_with (lit ";") (x :: l0)) eqn:S1.
      { apply starts_with_spec in S1. destruct S1 as (t & S1). rewrite S1 in Hc2. rewrite <- app_assoc in Hc2.
        rewrite (proj2 (starts_with_spec _ _)) in Hc2 by eauto. discriminate. }
      destruct (starts_with (lit "!:") (x :: l0)) eqn:S2; [|reflexivity].
      apply starts_with_spec in S2. destruct S2 as (t & S2). rewrite S2 in Hc2. rewrite <- app_assoc in Hc2.
      rewrite (proj2 (starts_with_spec (lit "!:") _)) in Hc2 by eauto. rewrite orb_true_r in Hc2. discriminate. }
  destruct Hcl as (Hc1 & Hi & Hc2).
  unfold media_entry. rewrite (this_line_place src (pre ++ m) r1 miss E1), Hcur. cbn [bind]. rewrite Hnext. cbn [bind].
  assert (Hgo : mi None (pre ++ m) r1 = mi None ((pre ++ m) ++ l ++ e) r -> exists m0 rest',
    media_loop f key src (place miss ((pre ++ m) ++ l ++ e)) acc = Done (place miss (pre ++ m0), acc ++ mi None (pre ++ m) r1) /\
    rest = m0 ++ rest' /\ (rest' = [] \/ at_next_section rest' = true) /\ heads (pre ++ m) r1 = heads (pre ++ m0) rest' /\
    (all_ws (tail_line pre) = true -> rest' <> [] -> all_ws (tail_line (pre ++ m0)) = true)).
  { intros Hs. destruct (IH _ r acc E' Hm' ltac:(lia)) as (m2 & r' & K1 & K2 & K3 & K4 & K5).
    exists (m ++ l ++ e ++ m2), r'. rewrite K1, Hs, (Hheads Hh), K4, <- !app_assoc. repeat split; try assumption.
    - rewrite H2, El, K2. reflexivity.
    - intros _ Hne'. rewrite <- !app_assoc in K5. apply K5; [|exact Hne'].
      replace (pre ++ m ++ l ++ e) with ((pre ++ m) ++ l ++ e) by (rewrite <- !app_assoc; reflexivity).
      rewrite Htl; [reflexivity|]. rewrite K2. destruct m2; [exact Hne'|discriminate]. }
  assert (Hstep : mi None (pre ++ m) r1 = match find_char is_colon l with
           | Some (k, _ :: v) =>
             if str_eqb (trim k) key then mi (Some (pre ++ m, trim v, [])) ((pre ++ m) ++ l ++ e) r
             else mi None ((pre ++ m) ++ l ++ e) r
           | _ => mi None ((pre ++ m) ++ l ++ e) r
           end).
  { rewrite Hmi. cbn [media_in]. rewrite Hh, Hc1, Hi, Hc2, app_nil_r. reflexivity. }
  destruct (find_char is_colon l) as [[k [|x v]]|]; cbn [bind]; [apply Hgo, Hstep| |apply Hgo, Hstep].
  destruct (str_eqb (trim k) key); cbn [bind]; [|apply Hgo, Hstep].
  destruct (data_spec (S (blen src)) ((pre ++ m) ++ l ++ e) r (pre ++ m) (trim v) [] E' Hm') as (m2 & r2 & ls & D1 & D2 & D3 & D4 & D5).
  { pose proof (blen_length r). rewrite E', blen_app. lia. }
  rewrite D1. cbn [bind].
  assert (Hsp : span_from (place miss (((pre ++ m) ++ l ++ e) ++ m2)) (place miss (pre ++ m)) =
     Span (blen (pre ++ m)) (blen (((pre ++ m) ++ l ++ e) ++ m2)) (true_line (pre ++ m) - miss) (true_col (pre ++ m))) by reflexivity.
  rewrite Hsp. fold (entry (pre ++ m) (trim v) ls (blen (((pre ++ m) ++ l ++ e) ++ m2))).
  destruct (IH (((pre ++ m) ++ l ++ e) ++ m2) r2 (acc ++ [entry (pre ++ m) (trim v) ls (blen (((pre ++ m) ++ l ++ e) ++ m2))]))
    as (m3 & r3 & K1 & K2 & K3 & K4 & K5).
  { rewrite E', D2, <- !app_assoc. reflexivity. } { apply nl_no_nl_miss, Hm'. }
  { rewrite D2, app_length in Hlen. lia. }
  rewrite Hstep, D4, (Hheads Hh), D3.
  exists (m ++ l ++ e ++ m2 ++ m3), r3. rewrite K1. repeat split; try assumption.
  - rewrite <- !app_assoc. reflexivity.
  - rewrite H2, El, D2, K2, <- !app_assoc. reflexivity.
  - rewrite K4, <- !app_assoc. reflexivity.
  - intros _ Hne'. rewrite <- !app_assoc in K5. apply K5; [|exact Hne']. rewrite <- !app_assoc in D5.
    assert (Hr2 : r2 <> []) by (rewrite K2; destruct m3; [exact Hne'|discriminate]). apply D5; [|exact Hr2].
    replace (pre ++ m ++ l ++ e) with ((pre ++ m) ++ l ++ e) by (rewrite <- !app_assoc; reflexivity).
    rewrite Htl; [reflexivity|]. rewrite D2. destruct m2; [exact Hr2|discriminate].
Qed.
End Media.
