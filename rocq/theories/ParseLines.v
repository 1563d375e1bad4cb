(* The section readers walk their body line by line. *)
From Verif Require Import Base BaseLemmas UuModel ParseModel ParseSpec ParseTracker.

Lemma first_line rest : no_newline rest \/ exists l r, rest = l ++ 10%N :: r /\ no_newline l.
Proof.
  destruct (find_char is_nl rest) as [[a b]|] eqn:E.
  - right. apply find_char_some in E. destruct E as (-> & Ha & (c & b' & -> & Hb)).
    exists a, b'. unfold is_nl in Hb. apply N.eqb_eq in Hb. subst c. split; [reflexivity|exact Ha].
  - left. apply find_char_none, E.
Qed.
Lemma current_line_nl l r : no_newline l -> current_line (l ++ 10%N :: r) = l.
Proof.
  intros H. unfold current_line. assert (E : find_char is_nl (l ++ 10%N :: r) = Some (l, 10%N :: r)).
  { apply find_char_some. split; [reflexivity|split; [exact H|eauto]]. }
  rewrite E. reflexivity.
Qed.
Lemma current_line_end l : no_newline l -> current_line l = l.
Proof. intros H. unfold current_line. apply find_char_none in H. rewrite H. reflexivity. Qed.

Lemma lines_at_nl pre l r : no_newline l -> lines_at pre (l ++ 10%N :: r) = (pre, l) :: lines_at (pre ++ l ++ [10%N]) r.
Proof. intros H. unfold lines_at. rewrite split_on_app by (exact H || reflexivity). reflexivity. Qed.
Lemma lines_at_end pre l : no_newline l -> lines_at pre l = [(pre, l)].
Proof. intros H. unfold lines_at. rewrite split_on_none by exact H. reflexivity. Qed.
Lemma no_newline_app a b : no_newline (a ++ b) <-> no_newline a /\ no_newline b.
Proof. unfold no_newline. rewrite forallb_app, andb_true_iff. reflexivity. Qed.
Lemma lines_at_shift pre b r : no_newline b -> exists l T, no_newline l /\
  lines_at pre (b ++ r) = (pre, b ++ l) :: T /\ lines_at (pre ++ b) r = (pre ++ b, l) :: T.
Proof.
  intros Hb. destruct (first_line r) as [H|(l & r' & -> & Hl)].
  - exists r, []. split; [exact H|]. rewrite !lines_at_end; auto. apply no_newline_app. auto.
  - exists l, (lines_at (pre ++ b ++ l ++ [10%N]) r'). split; [exact Hl|].
    rewrite app_assoc, lines_at_nl by (apply no_newline_app; auto). rewrite lines_at_nl by exact Hl.
    rewrite <- !app_assoc. auto.
Qed.

(* ---- blanks ---- *)
Lemma blank_ws c : blank c = true -> is_ws c = true.
Proof. unfold blank, is_ws. lia. Qed.
Lemma blank_no_nl b : forallb blank b = true -> no_newline b.
Proof.
  unfold no_newline. rewrite !forallb_forall. intros H c Hc. specialize (H c Hc). unfold blank in H. unfold is_nl. lia.
Qed.
Lemma indent_app b l : forallb blank b = true -> indent (b ++ l) = b ++ indent l.
Proof. apply take_while_app_all. Qed.
Lemma content_app b l : forallb blank b = true -> content (b ++ l) = content l.
Proof. apply drop_while_app_all. Qed.
Lemma remark_app b l : forallb blank b = true -> remark (b ++ l) = remark l.
Proof. intros H. unfold remark. rewrite content_app by exact H. reflexivity. Qed.
Lemma forallb_imp {A} (p q : A -> bool) s : (forall c, p c = true -> q c = true) -> forallb p s = true -> forallb q s = true.
Proof. intros H. rewrite !forallb_forall. auto. Qed.
Lemma trim_start_ws a s : forallb is_ws a = true -> trim_start (a ++ s) = trim_start s.
Proof. apply drop_while_app_all. Qed.
Lemma header_line_app b l : forallb blank b = true -> header_line (b ++ l) = header_line l.
Proof. intros H. unfold header_line. rewrite trim_start_ws; [reflexivity|]. revert H. apply forallb_imp, blank_ws. Qed.
Lemma header_name_app b l : forallb blank b = true -> header_name (b ++ l) = header_name l.
Proof. intros H. unfold header_name. rewrite trim_start_ws; [reflexivity|]. revert H. apply forallb_imp, blank_ws. Qed.
Lemma trim_content l : trim (content l) = trim l.
Proof.
  unfold trim. f_equal. unfold content. rewrite <- (take_drop_while blank l) at 2.
  rewrite trim_start_ws; [reflexivity|]. eapply forallb_imp; [apply blank_ws|apply take_while_forall].
Qed.
Lemma content_id c l : blank c = false -> content (c :: l) = c :: l.
Proof. intros H. unfold content. cbn. rewrite H. reflexivity. Qed.
Lemma indent_id c l : blank c = false -> indent (c :: l) = [].
Proof. intros H. unfold indent. cbn. rewrite H. reflexivity. Qed.

(* ---- what may be passed over ---- *)
Definition all_ws (l : str) : bool := forallb is_ws l.
Record passes {X : Type} (comment : str -> bool) (F : str -> str -> X) : Prop := {
  pass_blank : forall pre b r, forallb blank b = true -> F pre (b ++ r) = F (pre ++ b) r;
  pass_nl : forall pre r, F pre (10%N :: r) = F (pre ++ [10%N]) r;
  pass_comment : forall pre l r, no_newline l -> comment l = true -> F pre (l ++ 10%N :: r) = F (pre ++ l ++ [10%N]) r;
  pass_last : forall pre l, no_newline l -> comment l = true -> F pre l = F (pre ++ l) [] }.

Definition comment_in_line (comment : str -> bool) : Prop :=
  forall l r, no_newline l -> comment (l ++ 10%N :: r) = comment l.

Lemma starts_with_nl p l r : no_newline p -> starts_with p (l ++ 10%N :: r) = starts_with p l.
Proof.
  unfold starts_with. revert l. induction p as [|x p IH]; intros l Hp; [reflexivity|].
  unfold no_newline in *. cbn in Hp. apply andb_true_iff in Hp. destruct Hp as [Hx Hp].
  destruct l as [|y l]; cbn.
  - unfold is_nl in Hx. destruct (N.eqb_spec x 10); [discriminate|reflexivity].
  - destruct (x =? y)%N; [exact (IH l Hp)|reflexivity].
Qed.
Lemma text_comment_line : comment_in_line text_comment.
Proof. intros l r _. unfold text_comment. rewrite !starts_with_nl by reflexivity. reflexivity. Qed.
Lemma binary_comment_line : comment_in_line binary_comment.
Proof. intros l r _. unfold binary_comment. rewrite !starts_with_nl by reflexivity. reflexivity. Qed.

Definition settled (comment : str -> bool) (r : str) : Prop :=
  match r with [] => True | c :: _ => blank c = false /\ is_nl c = false /\ comment r = false end.

Lemma drop_while_head p s : match drop_while p s with [] => True | c :: _ => p c = false end.
Proof. induction s as [|c s IH]; cbn; [exact I|]. destruct (p c) eqn:E; [exact IH|exact E]. Qed.

Lemma skip_ws_spec {X} (comment : str -> bool) (F : str -> str -> X) src miss fuel :
  small src -> comment_in_line comment -> passes comment F ->
  forall pre rest, src = pre ++ rest -> (miss <= newlines pre)%N -> List.length rest < fuel ->
  exists m r1, skip_ws_loop fuel comment src (place miss pre) = Done (place miss (pre ++ m)) /\ rest = m ++ r1 /\
    F pre rest = F (pre ++ m) r1 /\ settled comment r1 /\
    (all_ws (tail_line pre) = true -> r1 <> [] -> all_ws (tail_line (pre ++ m)) = true).
Proof.
  intros Hs Hcl HF. induction fuel as [|f IH]; intros pre rest E Hm Hf; [lia|]. cbn [skip_ws_loop].
  rewrite (skip_blanks_place src pre rest miss Hs E). cbn [bind].
  set (b := take_while blank rest). set (r := drop_while blank rest).
  assert (Eb : rest = b ++ r) by (symmetry; apply take_drop_while).
  assert (Hb : forallb blank b = true) by apply take_while_forall.
  assert (E' : src = (pre ++ b) ++ r) by (rewrite <- app_assoc, <- Eb; exact E).
  assert (Hm' : (miss <= newlines (pre ++ b))%N) by (apply nl_no_nl_miss, Hm).
  rewrite (remaining_place src (pre ++ b) r miss E'). cbn [bind].
  pose proof (drop_while_head blank rest) as Hh. fold r in Hh. clearbody b r.
  destruct r as [|c r0].
  { exists b, []. split; [reflexivity|]. split; [exact Eb|]. split; [|split; [exact I|congruence]].
    rewrite Eb at 1. apply (pass_blank _ _ HF), Hb. }
  destruct (comment (c :: r0)) eqn:Ec.
  - destruct (first_line (c :: r0)) as [Hn|(l & r' & El & Hl)].
    + rewrite (next_line_end src (pre ++ b) (c :: r0) miss Hs E' Hn). cbn [bind].
      destruct (IH ((pre ++ b) ++ c :: r0) []) as (m & r1 & H1 & H2 & H3 & H4 & H5).
      { rewrite app_nil_r. exact E'. } { apply nl_no_nl_miss, Hm'. }
      { assert (L := f_equal (@List.length N) Eb). rewrite app_length in L. cbn in *. lia. }
      destruct m as [|? ?]; [|discriminate]. destruct r1 as [|? ?]; [|discriminate].
      exists (b ++ c :: r0), []. rewrite app_nil_r in H1. rewrite H1. rewrite <- app_assoc. rewrite app_nil_r.
      split; [reflexivity|]. split; [exact Eb|]. split; [|split; [exact I|congruence]].
      rewrite Eb, (pass_blank _ _ HF) by exact Hb. rewrite (pass_last _ _ HF) by (exact Hn || exact Ec).
      rewrite <- app_assoc. reflexivity.
    + rewrite El in E'. rewrite (next_line_mid src (pre ++ b) l r' miss Hs E' Hl Hm'). cbn [bind].
      destruct (IH ((pre ++ b) ++ l ++ [10%N]) r') as (m & r1 & H1 & H2 & H3 & H4 & H5).
      { rewrite E', <- !app_assoc. reflexivity. } { apply nl_no_nl_miss, Hm'. }
      { assert (L := f_equal (@List.length N) Eb). rewrite El, !app_length in L. cbn in L. lia. }
      exists (b ++ l ++ [10%N] ++ m), r1. repeat split.
      * rewrite H1. rewrite <- !app_assoc. reflexivity.
      * rewrite Eb, El, H2, <- !app_assoc. reflexivity.
      * rewrite Eb, (pass_blank _ _ HF) by exact Hb. rewrite El in Ec |- *. rewrite (Hcl l r' Hl) in Ec.
        rewrite (pass_comment _ _ HF) by (exact Hl || exact Ec). rewrite H3. rewrite <- !app_assoc. reflexivity.
      * exact H4.
      * intros _ Hn. rewrite <- !app_assoc in H5. apply H5; [|exact Hn]. rewrite !app_assoc, tail_line_nl. reflexivity.
  - destruct (is_nl c) eqn:En.
    + assert (c = 10%N) by (unfold is_nl in En; apply N.eqb_eq; exact En). subst c.
      rewrite (advance_nl src (pre ++ b) r0 miss Hs E' Hm'). cbn [bind].
      destruct (IH ((pre ++ b) ++ [10%N]) r0) as (m & r1 & H1 & H2 & H3 & H4 & H5).
      { rewrite E', <- !app_assoc. reflexivity. } { apply nl_no_nl_miss, Hm'. }
      { assert (L := f_equal (@List.length N) Eb). rewrite app_length in L. cbn in L. lia. }
      exists (b ++ [10%N] ++ m), r1. repeat split.
      * rewrite H1. rewrite <- !app_assoc. reflexivity.
      * rewrite Eb, H2, <- !app_assoc. reflexivity.
      * rewrite Eb, (pass_blank _ _ HF) by exact Hb. rewrite (pass_nl _ _ HF), H3. rewrite <- !app_assoc. reflexivity.
      * exact H4.
      * intros _ Hn. rewrite <- !app_assoc in H5. apply H5; [|exact Hn]. rewrite !app_assoc, tail_line_nl. reflexivity.
    + exists b, (c :: r0). repeat split; [exact Eb| |exact Hh|exact En|exact Ec|].
      { rewrite Eb at 1. apply (pass_blank _ _ HF), Hb. }
      intros Ht _. rewrite tail_line_app by apply blank_no_nl, Hb. unfold all_ws in *. rewrite forallb_app, Ht.
      revert Hb. apply forallb_imp, blank_ws.
Qed.

(* ---- headers ---- *)
Lemma trim_start_all l : all_ws l = true -> trim_start l = [].
Proof. intros H. unfold trim_start. rewrite <- (app_nil_r l), drop_while_app_all by exact H. reflexivity. Qed.
Lemma trim_all l : all_ws l = true -> trim l = [].
Proof. intros H. unfold trim. rewrite trim_start_all by exact H. reflexivity. Qed.
Lemma trim_start_nil l : trim_start l = [] -> all_ws l = true.
Proof. unfold trim_start, all_ws. induction l as [|c l IH]; [reflexivity|]. cbn. destruct (is_ws c); [exact IH|discriminate]. Qed.
Lemma drop_end_nil_all l : trim_end l = [] -> all_ws l = true.
Proof.
  unfold trim_end, all_ws. induction l as [|c l IH]; [reflexivity|]. cbn. destruct (drop_end is_ws l) as [|? ?].
  - destruct (is_ws c); [intros _; apply IH; reflexivity|discriminate].
  - discriminate.
Qed.
Lemma trim_nil l : trim l = [] -> all_ws l = true.
Proof.
  unfold trim. intros H. apply drop_end_nil_all in H. pose proof (drop_while_head is_ws l) as Hh. fold (trim_start l) in Hh.
  destruct (trim_start l) as [|c r] eqn:E; [apply trim_start_nil, E|]. unfold all_ws in H. cbn in H. rewrite Hh in H. discriminate.
Qed.
Lemma trim_start_app l r : trim_start (l ++ r) = if all_ws l then trim_start r else trim_start l ++ r.
Proof.
  unfold trim_start, all_ws. induction l as [|c l IH]; [reflexivity|]. cbn. destruct (is_ws c); [exact IH|reflexivity].
Qed.
Lemma starts1' (a : N) (c : N) (s : str) : starts_with [a] (c :: s) = (a =? c)%N.
Proof. unfold starts_with. cbn. destruct (a =? c)%N; reflexivity. Qed.
Lemma at_next_line l r : at_next_section (l ++ 10%N :: r) = if all_ws l then at_next_section r else header_line l.
Proof.
  unfold at_next_section, header_line. rewrite trim_start_app. destruct (all_ws l) eqn:E; [reflexivity|].
  destruct (trim_start l) as [|c s] eqn:Et; [apply trim_start_nil in Et; congruence|]. lits. cbn [app]. rewrite !starts1'. reflexivity.
Qed.
Lemma header_not_ws l : header_line l = true -> all_ws l = false.
Proof. unfold header_line. intros H. destruct (all_ws l) eqn:E; [|reflexivity]. rewrite trim_start_all in H by exact E. discriminate. Qed.
Lemma header_cases l r : header_line l = true -> at_next_section (l ++ r) = true.
Proof.
  intros H. unfold at_next_section. rewrite trim_start_app, (header_not_ws l H).
  unfold header_line in H. apply starts_with_spec in H. destruct H as (s & ->). cbn. apply starts_with_spec. eexists. reflexivity.
Qed.

(* The header lines: text before the line, the header without its
   indentation, and the lines after it. *)
Definition line_start (p : str) : str := rev (drop_while (fun c => negb (is_nl c)) (rev p)).
Lemma line_start_split p : line_start p ++ tail_line p = p.
Proof. unfold line_start, tail_line. rewrite <- rev_app_distr, take_drop_while. apply rev_involutive. Qed.
Lemma line_start_app p b : no_newline b -> line_start (p ++ b) = line_start p.
Proof. intros H. unfold line_start. rewrite rev_app_distr, drop_while_app_all; [reflexivity|]. rewrite forallb_rev. exact H. Qed.
Lemma line_start_nl p : line_start (p ++ [10%N]) = p ++ [10%N].
Proof. unfold line_start. rewrite rev_app_distr. cbn [rev app drop_while].
  change (negb (is_nl 10)) with false. cbn [rev]. rewrite rev_involutive. reflexivity. Qed.
Definition head : Type := str * str * list (str * str).
Fixpoint hlines (ls : list (str * str)) : list head :=
  match ls with
  | [] => []
  | (p, l) :: r => if header_line l then (line_start p, trim_start l, r) :: hlines r else hlines r
  end.

(* ---- the three text sections ---- *)
Section Text.
Context {S : Type} (process : S -> tracker -> str -> str -> S) (miss : N).

Definition line_effect (st : S) (pl : str * str) : S :=
  let (p, l) := pl in
  match trim l with
  | [] => st
  | t => if remark l then st else process st (place miss (p ++ indent l)) t (content l)
  end.
Definition walk (pre rest : str) (st : S) : S := fold_left line_effect (body (lines_at pre rest)) st.
Definition heads (pre rest : str) : list head := hlines (lines_at pre rest).

Lemma walk_shift pre b r st : forallb blank b = true -> walk pre (b ++ r) st = walk (pre ++ b) r st.
Proof.
  intros Hb. unfold walk. destruct (lines_at_shift pre b r (blank_no_nl b Hb)) as (l & T & Hl & -> & ->).
  cbn [body]. rewrite header_line_app by exact Hb. destruct (header_line l); [reflexivity|]. cbn [fold_left]. f_equal.
  unfold line_effect. rewrite remark_app, indent_app, content_app by exact Hb. rewrite <- (trim_content (b ++ l)), content_app, trim_content by exact Hb.
  rewrite <- app_assoc. reflexivity.
Qed.
Lemma heads_shift pre b r : forallb blank b = true -> heads pre (b ++ r) = heads (pre ++ b) r.
Proof.
  intros Hb. unfold heads. destruct (lines_at_shift pre b r (blank_no_nl b Hb)) as (l & T & Hl & -> & ->).
  cbn [hlines]. rewrite header_line_app by exact Hb. rewrite line_start_app by apply blank_no_nl, Hb.
  rewrite trim_start_ws; [reflexivity|]. revert Hb. apply forallb_imp, blank_ws.
Qed.
Lemma walk_line pre l r st : no_newline l -> header_line l = false ->
  walk pre (l ++ 10%N :: r) st = walk (pre ++ l ++ [10%N]) r (line_effect st (pre, l)).
Proof. intros Hl Hh. unfold walk. rewrite lines_at_nl by exact Hl. cbn [body]. rewrite Hh. reflexivity. Qed.
Lemma walk_last pre l st : no_newline l -> header_line l = false -> walk pre l st = line_effect st (pre, l).
Proof. intros Hl Hh. unfold walk. rewrite lines_at_end by exact Hl. cbn [body]. rewrite Hh. reflexivity. Qed.
Lemma walk_nil pre st : walk pre [] st = st.
Proof. reflexivity. Qed.
Lemma heads_line pre l r : no_newline l -> header_line l = false -> heads pre (l ++ 10%N :: r) = heads (pre ++ l ++ [10%N]) r.
Proof. intros Hl Hh. unfold heads. rewrite lines_at_nl by exact Hl. cbn [hlines]. rewrite Hh. reflexivity. Qed.
Lemma heads_last pre l : no_newline l -> header_line l = false -> heads pre l = [].
Proof. intros Hl Hh. unfold heads. rewrite lines_at_end by exact Hl. cbn [hlines]. rewrite Hh. reflexivity. Qed.

Lemma line_effect_blank st p l : all_ws l = true -> line_effect st (p, l) = st.
Proof. intros H. unfold line_effect. rewrite trim_all by exact H. reflexivity. Qed.
Lemma ws_not_header l : all_ws l = true -> header_line l = false.
Proof. intros H. unfold header_line. rewrite trim_start_all by exact H. reflexivity. Qed.

Lemma text_comment_head l : text_comment l = true -> exists c s, l = c :: s /\ (c =? 59)%N || (c =? 35)%N = true.
Proof.
  unfold text_comment. lits. destruct l as [|c s]; [discriminate|]. rewrite !starts1'. exists c, s. split; [reflexivity|].
  rewrite (N.eqb_sym c 59), (N.eqb_sym c 35). assumption.
Qed.
Lemma comment_effect st p l : text_comment l = true -> header_line l = false /\ line_effect st (p, l) = st.
Proof.
  intros H. destruct (text_comment_head l H) as (c & s & -> & Hc).
  assert (Hw : is_ws c = false /\ blank c = false /\ c <> 91%N) by (unfold is_ws, blank; lia).
  destruct Hw as (Hw & Hb & Hx). split.
  - unfold header_line, trim_start. cbn [drop_while]. rewrite Hw. lits. rewrite starts1'. apply N.eqb_neq. congruence.
  - unfold line_effect, remark. rewrite content_id by exact Hb. rewrite Hc. destruct (trim (c :: s)); reflexivity.
Qed.

Lemma walk_passes st : passes text_comment (fun pre rest => (heads pre rest, walk pre rest st)).
Proof.
  constructor.
  - intros pre b r Hb. rewrite heads_shift, walk_shift by exact Hb. reflexivity.
  - intros pre r. change (10%N :: r) with ([] ++ 10%N :: r). rewrite heads_line, walk_line by reflexivity.
    rewrite line_effect_blank by reflexivity. reflexivity.
  - intros pre l r Hl Hc. destruct (comment_effect st pre l Hc) as [Hh He]. rewrite heads_line, walk_line by assumption.
    rewrite He. reflexivity.
  - intros pre l Hl Hc. destruct (comment_effect st pre l Hc) as [Hh He]. rewrite heads_last, walk_last by assumption.
    rewrite He. reflexivity.
Qed.

Lemma at_next_walk pre rest st : at_next_section rest = true -> walk pre rest st = st.
Proof.
  remember (List.length rest) as n eqn:En. revert pre rest En. induction n as [n IH] using lt_wf_ind. intros pre rest En H.
  destruct (first_line rest) as [Hn|(l & r & -> & Hl)].
  - unfold walk. rewrite lines_at_end by exact Hn. cbn [body]. unfold header_line. unfold at_next_section in H. rewrite H. reflexivity.
  - rewrite at_next_line in H. destruct (all_ws l) eqn:Ew.
    + rewrite walk_line by (exact Hl || apply ws_not_header, Ew). rewrite line_effect_blank by exact Ew.
      eapply IH; [|reflexivity|exact H]. rewrite En, app_length. cbn. lia.
    + unfold walk. rewrite lines_at_nl by exact Hl. cbn [body]. rewrite H. reflexivity.
Qed.

Lemma lines_loop_spec src fuel : small src ->
  forall pre rest st, src = pre ++ rest -> (miss <= newlines pre)%N -> List.length rest < fuel ->
  exists m rest', lines_loop fuel process src (place miss pre) st = Done (place miss (pre ++ m), walk pre rest st) /\
    rest = m ++ rest' /\ (rest' = [] \/ at_next_section rest' = true) /\ heads pre rest = heads (pre ++ m) rest' /\
    (all_ws (tail_line pre) = true -> rest' <> [] -> all_ws (tail_line (pre ++ m)) = true).
Proof.
  intros Hs. induction fuel as [|f IH]; intros pre rest st E Hm Hf; [lia|]. cbn [lines_loop].
  rewrite (at_end_place src pre rest miss E). destruct rest as [|c0 rest0] eqn:Er.
  { exists [], []. rewrite app_nil_r. repeat split; auto. }
  rewrite <- Er in *. clear c0 rest0 Er.
  rewrite (next_section_place src pre rest miss E). cbn [bind].
  destruct (at_next_section rest) eqn:En.
  { exists [], rest. rewrite app_nil_r, at_next_walk by exact En. repeat split; auto. }
  destruct (skip_ws_spec text_comment _ src miss (Datatypes.S (blen src)) Hs text_comment_line (walk_passes st) pre rest E Hm)
    as (m & r1 & H1 & H2 & H3 & H4 & H5).
  { pose proof (blen_length rest). rewrite E, blen_app. lia. }
  unfold skip_ws. rewrite H1. cbn [bind]. injection H3 as H3a H3b.
  assert (E1 : src = (pre ++ m) ++ r1) by (rewrite <- app_assoc, <- H2; exact E).
  rewrite (at_end_place src (pre ++ m) r1 miss E1).
  destruct r1 as [|c r0] eqn:Er.
  { exists m, []. rewrite H3b, walk_nil. repeat split; auto. }
  rewrite (next_section_place src (pre ++ m) (c :: r0) miss E1). cbn [bind].
  destruct (at_next_section (c :: r0)) eqn:En1.
  { exists m, (c :: r0). rewrite H3b, at_next_walk by exact En1. repeat split; auto. }
  rewrite (this_line_place src (pre ++ m) (c :: r0) miss E1). cbn [bind].
  destruct H4 as (Hb & Hnl & Hc).
  assert (Hm1 : (miss <= newlines (pre ++ m))%N) by (apply nl_no_nl_miss, Hm).
  destruct (first_line (c :: r0)) as [Hn|(l & r' & El & Hl)].
  - rewrite current_line_end by exact Hn. cbv zeta.
    rewrite (next_line_end src (pre ++ m) (c :: r0) miss Hs E1 Hn). cbn [bind].
    assert (Hh : header_line (c :: r0) = false) by exact En1.
    assert (Heff : line_effect st (pre ++ m, c :: r0) =
      match trim (c :: r0) with [] => st | t => process st (place miss (pre ++ m)) t (c :: r0) end).
    { unfold line_effect. rewrite content_id, indent_id by exact Hb. rewrite app_nil_r.
      assert (Hrm : remark (c :: r0) = false).
      { unfold remark. rewrite content_id by exact Hb. unfold text_comment in Hc. lits. rewrite !starts1' in Hc.
        rewrite (N.eqb_sym c 59), (N.eqb_sym c 35). exact Hc. }
      rewrite Hrm. reflexivity. }
    destruct (IH ((pre ++ m) ++ c :: r0) [] (line_effect st (pre ++ m, c :: r0))) as (m2 & rr & K1 & K2 & K3 & K4 & K5).
    { rewrite app_nil_r. exact E1. } { apply nl_no_nl_miss, Hm1. }
    { assert (L := f_equal (@List.length N) H2). rewrite app_length in L. cbn in *. lia. }
    destruct m2 as [|? ?]; [|discriminate]. destruct rr as [|? ?]; [|discriminate].
    exists (m ++ c :: r0), []. rewrite app_nil_r in K1. rewrite H3b, walk_last by assumption. rewrite walk_nil in K1.
    split; [|split; [rewrite app_nil_r; exact H2|split; [left; reflexivity|split; [|congruence]]]].
    + rewrite Heff in *. rewrite <- app_assoc in K1. rewrite <- !app_assoc. destruct (trim (c :: r0)); exact K1.
    + rewrite H3a, heads_last by assumption. reflexivity.
  - rewrite El in E1, En1, Hc. rewrite El, current_line_nl by exact Hl. cbv zeta.
    rewrite (next_line_mid src (pre ++ m) l r' miss Hs E1 Hl Hm1). cbn [bind].
    assert (Hh : header_line l = false).
    { destruct (header_line l) eqn:Hh; [|reflexivity]. rewrite (header_cases l (10%N :: r') Hh) in En1. discriminate. }
    destruct l as [|c1 l1]; [cbn in El; injection El as -> ->; discriminate Hnl|]. assert (c1 = c) by (cbn in El; congruence). subst c1.
    assert (Heff : line_effect st (pre ++ m, c :: l1) =
      match trim (c :: l1) with [] => st | t => process st (place miss (pre ++ m)) t (c :: l1) end).
    { unfold line_effect. rewrite content_id, indent_id by exact Hb. rewrite app_nil_r.
      assert (Hrm : remark (c :: l1) = false).
      { unfold remark. rewrite content_id by exact Hb. rewrite (text_comment_line _ _ Hl) in Hc. unfold text_comment in Hc. lits. rewrite !starts1' in Hc.
        rewrite (N.eqb_sym c 59), (N.eqb_sym c 35). exact Hc. }
      rewrite Hrm. reflexivity. }
    destruct (IH ((pre ++ m) ++ (c :: l1) ++ [10%N]) r' (line_effect st (pre ++ m, c :: l1))) as (m2 & rr & K1 & K2 & K3 & K4 & K5).
    { rewrite E1, <- !app_assoc. reflexivity. } { apply nl_no_nl_miss, Hm1. }
    { assert (L := f_equal (@List.length N) H2). rewrite El, !app_length in L. cbn in L. lia. }
    exists (m ++ (c :: l1) ++ [10%N] ++ m2), rr. rewrite H3b, El, walk_line by assumption.
    split; [|split; [|split; [exact K3|split]]].
    + rewrite Heff in *. rewrite <- !app_assoc in K1. rewrite <- !app_assoc. destruct (trim (c :: l1)); exact K1.
    + rewrite H2, El, K2. rewrite <- !app_assoc. reflexivity.
    + rewrite H3a, El, heads_line by assumption. rewrite K4. rewrite <- !app_assoc. reflexivity.
    + intros _ Hne. rewrite <- !app_assoc in K5. apply K5; [|exact Hne].
      replace (pre ++ m ++ (c :: l1) ++ [10%N]) with ((pre ++ m ++ c :: l1) ++ [10%N]) by (rewrite <- !app_assoc; reflexivity).
      rewrite tail_line_nl. reflexivity.
Qed.
End Text.
