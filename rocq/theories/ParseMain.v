(* The main loop: it always ends, and its sections are the line-by-line
   reading of the source. *)
From Verif Require Import Base BaseLemmas UuModel ParseModel ParseSpec ParseTracker ParseLines ParseSections.

Definition goto (miss : N) (pre : str) (p : parser) : parser := with_pos p (blen pre) (true_line pre - miss).
Lemma goto_goto m pre m' pre' p : goto m pre (goto m' pre' p) = goto m pre p.
Proof. reflexivity. Qed.
Lemma goto_pos m pre p : p_pos (goto m pre p) = blen pre. Proof. reflexivity. Qed.
Lemma goto_line m pre p : p_line (goto m pre p) = (true_line pre - m)%N. Proof. reflexivity. Qed.

(* ---- lines ---- *)
Lemma cut_line pre rest : rest <> [] -> exists l e r, rest = l ++ e ++ r /\ no_newline l /\
  (e = [] /\ r = [] /\ find_char is_nl rest = None \/ e = [10%N] /\ find_char is_nl rest = Some (l, 10%N :: r)) /\
  List.length r < List.length rest /\ current_line rest = l /\ (r <> [] -> tail_line (pre ++ l ++ e) = []) /\
  (header_line l = false -> heads pre rest = heads (pre ++ l ++ e) r).
Proof.
  intros Hne. destruct (first_line rest) as [Hn|(l & r & -> & Hl)].
  - exists rest, [], []. rewrite !app_nil_r. repeat split; try exact Hn.
    + left. repeat split. apply find_char_none, Hn.
    + destruct rest; [congruence|cbn; lia].
    + apply current_line_end, Hn.
    + congruence.
    + intros Hh. rewrite heads_last by assumption. reflexivity.
  - exists l, [10%N], r. repeat split; try assumption.
    + right. split; [reflexivity|]. apply find_char_some. split; [reflexivity|split; [exact Hl|eauto]].
    + rewrite app_length. cbn. lia.
    + apply current_line_nl, Hl.
    + intros _. rewrite app_assoc. apply tail_line_nl.
    + intros Hh. apply heads_line; assumption.
Qed.
Lemma ends_tail (pre l e r : str) : (e = [] /\ r = [] \/ e = [10%N]) -> r <> [] -> tail_line (pre ++ l ++ e) = [].
Proof. intros [(-> & ->)| ->]; [congruence|]. intros _. rewrite app_assoc. apply tail_line_nl. Qed.

Section Main.
Context (src : str).
Hypothesis Hsmall : small src.

Lemma from_pre pre rest : src = pre ++ rest -> slice_from src (blen pre) = Some rest.
Proof. intros ->. apply slice_from_app. Qed.
Lemma skip_line_spec pre l e r miss p : src = pre ++ l ++ e ++ r -> no_newline l -> (miss <= newlines pre)%N ->
  (e = [] /\ r = [] \/ e = [10%N]) -> main_skip_line src (goto miss pre p) = Done (goto miss (pre ++ l ++ e) p).
Proof.
  intros E Hl Hm He. unfold main_skip_line. rewrite goto_pos, E, slice_from_app. cbn [need bind].
  destruct He as [(-> & ->)| ->].
  - rewrite !app_nil_r. rewrite (proj2 (find_char_none _ _) Hl). unfold goto, with_pos. cbn [p_line p_version p_sections p_issues p_styles_format p_events_format].
    unfold true_line. rewrite newlines_app, (newlines_none l Hl). do 2 f_equal. lia.
  - assert (Ef : find_char is_nl (l ++ [10%N] ++ r) = Some (l, 10%N :: r)).
    { apply find_char_some. split; [reflexivity|split; [exact Hl|eauto]]. }
    rewrite Ef. unfold goto, with_pos. cbn [p_pos p_line p_version p_sections p_issues p_styles_format p_events_format].
    unfold true_line. rewrite !newlines_app, (newlines_none l Hl), !blen_app, newlines_nl.
    do 2 f_equal; lia.
Qed.

Definition at_header (rest : str) : bool :=
  starts_with (lit "[") (trim_start rest) && existsb is_rbracket (current_line (trim_start rest)).
Lemma main_next_spec pre rest miss p : src = pre ++ rest -> main_next_section src (goto miss pre p) = Done (at_header rest).
Proof.
  intros E. unfold main_next_section, at_header. rewrite goto_pos, E, slice_from_app. cbn [need bind].
  destruct (starts_with (lit "[") (trim_start rest)); reflexivity.
Qed.
Lemma at_header_next rest : at_header rest = true -> at_next_section rest = true.
Proof. unfold at_header, at_next_section. rewrite andb_true_iff. tauto. Qed.
Lemma existsb_trim l : existsb is_rbracket (trim_start l) = existsb is_rbracket l.
Proof.
  unfold trim_start. induction l as [|c l IH]; [reflexivity|]. cbn. destruct (is_ws c) eqn:E; [|reflexivity].
  rewrite IH. replace (is_rbracket c) with false; [reflexivity|]. unfold is_rbracket. unfold is_ws in E. lia.
Qed.
Lemma trim_start_no_nl l : no_newline l -> no_newline (trim_start l).
Proof.
  unfold no_newline, trim_start. induction l as [|c l IH]; [auto|]. cbn. destruct (is_ws c); [|auto].
  rewrite andb_true_iff. intros [_ H]. auto.
Qed.
Lemma current_line_any l e r : no_newline l -> (e = [] /\ r = [] \/ e = [10%N]) -> current_line (l ++ e ++ r) = l.
Proof. intros Hl [(-> & ->)| ->]; [rewrite !app_nil_r; apply current_line_end, Hl|apply current_line_nl, Hl]. Qed.
Lemma at_header_line l e r : no_newline l -> (e = [] /\ r = [] \/ e = [10%N]) -> header_line l = true ->
  at_header (l ++ e ++ r) = existsb is_rbracket (trim_start l).
Proof.
  intros Hl He Hh. unfold at_header. rewrite trim_start_app, (header_not_ws l Hh).
  rewrite current_line_any by (auto; apply trim_start_no_nl, Hl).
  unfold header_line in Hh. apply starts_with_spec in Hh. destruct Hh as (s & Es). rewrite Es at 1.
  replace (starts_with (lit "[") ((lit "[" ++ s) ++ e ++ r)) with true; [reflexivity|].
  symmetry. apply starts_with_spec. rewrite <- app_assoc. eauto.
Qed.

Definition closed (h : list head) : bool := forallb (fun x : head => existsb is_rbracket (snd (fst x))) h.
Lemma heads_header pre l e r : no_newline l -> (e = [] /\ r = [] \/ e = [10%N]) -> header_line l = true ->
  heads pre (l ++ e ++ r) = (line_start pre, trim_start l, match e with [] => [] | _ => lines_at (pre ++ l ++ e) r end) ::
    heads (pre ++ l ++ e) r.
Proof.
  intros Hl He Hh. unfold heads. destruct He as [(-> & ->)| ->].
  - rewrite !app_nil_r, lines_at_end by exact Hl. cbn [hlines]. rewrite Hh. reflexivity.
  - cbn [app]. rewrite lines_at_nl by exact Hl. cbn [hlines]. rewrite Hh. reflexivity.
Qed.

Fixpoint lead_lines (ls : list (str * str)) : bool :=
  match ls with
  | [] => true
  | [_] => true
  | (_, l) :: r => if header_line l then true else negb (all_ws l) && lead_lines r
  end.
Definition lead (pre rest : str) : bool := lead_lines (lines_at pre rest).
Lemma lines_at_cons pre r : exists x T, lines_at pre r = x :: T.
Proof. unfold lines_at. pose proof (split_on_nonempty is_nl r). destruct (split_on is_nl r); [congruence|]. cbn. eauto. Qed.
Lemma lead_line pre l r : no_newline l -> lead pre (l ++ 10%N :: r) = if header_line l then true else negb (all_ws l) && lead (pre ++ l ++ [10%N]) r.
Proof.
  intros Hl. unfold lead. rewrite lines_at_nl by exact Hl. destruct (lines_at_cons (pre ++ l ++ [10%N]) r) as (x & T & E).
  rewrite E. reflexivity.
Qed.
Lemma lead_step pre l e r : no_newline l -> (e = [] /\ r = [] \/ e = [10%N]) -> header_line l = false ->
  lead pre (l ++ e ++ r) = true -> lead (pre ++ l ++ e) r = true.
Proof.
  intros Hl [(-> & ->)| ->] Hh; [reflexivity|]. cbn [app]. rewrite lead_line, Hh by exact Hl. rewrite andb_true_iff. tauto.
Qed.

(* skipping lines that are not (closed) headers *)
Definition keeps_tail (pre m rest' : str) : Prop :=
  all_ws (tail_line pre) = true -> rest' <> [] -> all_ws (tail_line (pre ++ m)) = true.
Definition skipped (pre rest m rest' : str) : Prop :=
  rest = m ++ rest' /\ (rest' = [] \/ at_header rest' = true) /\
  (closed (heads pre rest) = true -> heads pre rest = heads (pre ++ m) rest' /\
     (lead pre rest = true -> lead (pre ++ m) rest' = true)) /\ keeps_tail pre m rest'.

Lemma skipped_refl pre rest : rest = [] \/ at_header rest = true -> skipped pre rest [] rest.
Proof. intros H. unfold skipped, keeps_tail. rewrite app_nil_r. auto. Qed.
Lemma skipped_step pre l e r m rest' : no_newline l -> (e = [] /\ r = [] \/ e = [10%N]) ->
  at_header (l ++ e ++ r) = false -> skipped (pre ++ l ++ e) r m rest' -> skipped pre (l ++ e ++ r) (l ++ e ++ m) rest'.
Proof.
  intros Hl He Hn (H1 & H2 & H3 & H4). split; [rewrite H1, <- !app_assoc; reflexivity|]. split; [exact H2|].
  replace (pre ++ l ++ e ++ m) with ((pre ++ l ++ e) ++ m) by (rewrite <- !app_assoc; reflexivity). split.
  - intros Hc. destruct (header_line l) eqn:Hh.
    + rewrite heads_header in Hc by assumption. cbn in Hc. apply andb_true_iff in Hc. destruct Hc as [Hc _].
      rewrite at_header_line in Hn by assumption. congruence.
    + assert (Eh : heads pre (l ++ e ++ r) = heads (pre ++ l ++ e) r).
      { destruct He as [(-> & ->)| ->]; [rewrite !app_nil_r, heads_last by assumption; reflexivity|apply heads_line; assumption]. }
      rewrite Eh in *. destruct (H3 Hc) as [H3a H3b]. split; [exact H3a|]. intros Hld. apply H3b. eapply lead_step; eassumption.
  - unfold keeps_tail in *. rewrite <- !app_assoc in H4. intros _ Hne. apply H4; [|exact Hne].
    rewrite (ends_tail pre l e r He); [reflexivity|]. rewrite H1. destruct m; [exact Hne|discriminate].
Qed.

Lemma skip_to_spec fuel start : forall pre rest miss p sg, src = pre ++ rest -> (miss <= newlines pre)%N ->
  List.length rest < fuel -> start <= blen pre ->
  exists m rest' sg', skip_to_section fuel src start (goto miss pre p) sg = Done (goto miss (pre ++ m) p, sg') /\
    skipped pre rest m rest'.
Proof.
  induction fuel as [|f IH]; intros pre rest miss p sg E Hm Hf Hst; [lia|]. cbn [skip_to_section].
  rewrite goto_pos. destruct rest as [|c0 r0] eqn:Er.
  { rewrite app_nil_r in E. rewrite E, Nat.ltb_irrefl. exists [], [], sg. rewrite app_nil_r. split; [reflexivity|].
    apply skipped_refl. auto. }
  rewrite <- Er in *. assert (Hne : rest <> []) by (rewrite Er; discriminate).
  replace (blen pre <? blen src) with true.
  2:{ symmetry. apply Nat.ltb_lt. rewrite E, blen_app, Er. cbn [blen]. pose proof (len_utf8_pos c0). lia. }
  clear c0 r0 Er. rewrite (main_next_spec pre rest miss p E). cbn [bind].
  destruct (at_header rest) eqn:Eh.
  { exists [], rest, sg. rewrite app_nil_r. split; [reflexivity|]. apply skipped_refl. auto. }
  rewrite (from_pre pre rest E). cbn [need bind].
  destruct (cut_line pre rest Hne) as (l & e & r & El & Hl & He & Hlen & _ & _ & _).
  assert (He' : e = [] /\ r = [] \/ e = [10%N]) by tauto.
  assert (Ele : match find_char is_nl rest with Some (a, _) => blen pre + blen a | None => blen src end = blen pre + blen l).
  { destruct He as [(-> & -> & ->)|(-> & ->)]; [|reflexivity]. rewrite E, El, !app_nil_r, blen_app. reflexivity. }
  rewrite Ele.
  assert (Esl : slice src (blen pre) (blen pre + blen l) = Some l).
  { rewrite E, El. apply slice_app. }
  rewrite Esl. cbn [need bind]. cbv zeta.
  set (sg1 := if blen pre <? blen pre + blen l then _ else _).
  assert (Hsg : exists x, sg1 = Done x) by (subst sg1; destruct (blen pre <? blen pre + blen l); eauto).
  destruct Hsg as (x & Ex). clearbody sg1. subst sg1. cbn [bind].
  assert (E' : src = (pre ++ l ++ e) ++ r) by (rewrite E, El, <- !app_assoc; reflexivity).
  rewrite (skip_line_spec pre l e r miss p) by (auto; rewrite E, El; reflexivity). cbn [bind].
  rewrite goto_pos.
  replace (blen (pre ++ l ++ e) =? start) with false.
  2:{ symmetry. apply Nat.eqb_neq. rewrite !blen_app. destruct He as [(-> & -> & _)|(-> & _)].
      - destruct l as [|c l]; [rewrite El in Hne; cbn in Hne; congruence|]. cbn [blen]. pose proof (len_utf8_pos c). lia.
      - change (blen [10%N]) with 1. lia. }
  destruct (IH (pre ++ l ++ e) r miss p x E') as (m & rest' & sg' & K1 & K2).
  { apply nl_no_nl_miss, Hm. } { lia. } { rewrite blen_app. lia. }
  exists (l ++ e ++ m), rest', sg'. rewrite K1. split; [rewrite <- !app_assoc; reflexivity|].
  rewrite El in *. apply skipped_step; assumption.
Qed.

Lemma plugin_spec fuel : forall pre rest miss p acc, src = pre ++ rest -> (miss <= newlines pre)%N ->
  List.length rest < fuel ->
  exists m rest' acc', plugin_lines fuel src (goto miss pre p) acc = Done (goto miss (pre ++ m) p, acc') /\
    skipped pre rest m rest'.
Proof.
  induction fuel as [|f IH]; intros pre rest miss p acc E Hm Hf; [lia|]. cbn [plugin_lines].
  rewrite goto_pos. destruct rest as [|c0 r0] eqn:Er.
  { rewrite app_nil_r in E. rewrite E, Nat.ltb_irrefl. exists [], [], acc. rewrite app_nil_r. split; [reflexivity|].
    apply skipped_refl. auto. }
  rewrite <- Er in *. assert (Hne : rest <> []) by (rewrite Er; discriminate).
  replace (blen pre <? blen src) with true.
  2:{ symmetry. apply Nat.ltb_lt. rewrite E, blen_app, Er. cbn [blen]. pose proof (len_utf8_pos c0). lia. }
  clear c0 r0 Er. rewrite (main_next_spec pre rest miss p E). cbn [bind].
  destruct (at_header rest) eqn:Eh.
  { exists [], rest, acc. rewrite app_nil_r. split; [reflexivity|]. apply skipped_refl. auto. }
  rewrite (from_pre pre rest E). cbn [need bind].
  destruct (cut_line pre rest Hne) as (l & e & r & El & Hl & He & Hlen & _ & _ & _).
  assert (He' : e = [] /\ r = [] \/ e = [10%N]) by tauto.
  assert (Ele : match find_char is_nl rest with Some (a, _) => blen pre + blen a | None => blen src end = blen pre + blen l).
  { destruct He as [(-> & -> & ->)|(-> & ->)]; [|reflexivity]. rewrite E, El, !app_nil_r, blen_app. reflexivity. }
  rewrite Ele.
  assert (Esl : slice src (blen pre) (blen pre + blen l) = Some l).
  { rewrite E, El. apply slice_app. }
  rewrite Esl. cbn [need bind]. cbv zeta.
  set (sg1 := if blen pre <? blen pre + blen l then _ else _).
  assert (Hsg : exists x, sg1 = Done x) by (subst sg1; destruct (blen pre <? blen pre + blen l); eauto).
  destruct Hsg as (x & Ex). clearbody sg1. subst sg1. cbn [bind].
  assert (E' : src = (pre ++ l ++ e) ++ r) by (rewrite E, El, <- !app_assoc; reflexivity).
  rewrite (skip_line_spec pre l e r miss p) by (auto; rewrite E, El; reflexivity). cbn [bind].
  destruct (IH (pre ++ l ++ e) r miss p x E') as (m & rest' & sg' & K1 & K2).
  { apply nl_no_nl_miss, Hm. } { lia. }
  exists (l ++ e ++ m), rest', sg'. rewrite K1. split; [rewrite <- !app_assoc; reflexivity|].
  rewrite El in *. apply skipped_step; assumption.
Qed.

(* ---- leading white space ---- *)
Lemma heads_ws w : forall pre r, all_ws w = true -> heads pre (w ++ r) = heads (pre ++ w) r.
Proof.
  remember (List.length w) as n eqn:En. revert w En. induction n as [n IH] using lt_wf_ind. intros w En pre r H.
  destruct (first_line w) as [Hn|(a & w' & -> & Ha)].
  - unfold heads. destruct (lines_at_shift pre w r Hn) as (l & T & Hl & -> & ->). cbn [hlines].
    unfold header_line. rewrite trim_start_ws by exact H. rewrite line_start_app by exact Hn. reflexivity.
  - unfold all_ws in H. rewrite forallb_app in H. apply andb_true_iff in H. destruct H as [H1 H2].
    cbn [forallb] in H2. apply andb_true_iff in H2. destruct H2 as [_ H2].
    rewrite <- app_assoc. cbn [app]. rewrite heads_line by (exact Ha || apply ws_not_header, H1).
    rewrite (IH (List.length w')); [|rewrite En, app_length; cbn; lia|reflexivity|exact H2].
    rewrite <- !app_assoc. reflexivity.
Qed.

Lemma lead_no_gap pre w r : all_ws w = true -> lead pre (w ++ r) = true -> newlines w = 0%N.
Proof.
  intros Hw H. destruct (first_line w) as [Hn|(a & w' & -> & Ha)]; [apply newlines_none, Hn|].
  unfold all_ws in Hw. rewrite forallb_app in Hw. apply andb_true_iff in Hw. destruct Hw as [H1 _].
  rewrite <- app_assoc in H. cbn [app] in H. rewrite lead_line in H by exact Ha.
  rewrite (ws_not_header a H1) in H. unfold all_ws in H. rewrite H1 in H. discriminate.
Qed.

Lemma trim_start_split r : exists w, r = w ++ trim_start r /\ all_ws w = true.
Proof. destruct (drop_while_spec is_ws r) as (a & E & Ha & _). exists a. auto. Qed.

Lemma main_ws_spec fuel : forall pre rest miss p, src = pre ++ rest -> (miss <= newlines pre)%N -> List.length rest < fuel ->
  exists m0 w r1, main_skip_ws fuel src (goto miss pre p) = Done (goto (miss + newlines w) (pre ++ m0 ++ w) p) /\
    rest = m0 ++ w ++ r1 /\ all_ws w = true /\ heads pre rest = heads (pre ++ m0 ++ w) r1 /\
    match r1 with [] => True | c :: _ => is_ws c = false end /\
    (lead pre rest = true -> lead (pre ++ m0) (w ++ r1) = true) /\
    (at_next_section rest = true -> m0 = []).
Proof.
  induction fuel as [|f IH]; intros pre rest miss p E Hm Hf; [lia|]. cbn [main_skip_ws]. rewrite goto_pos.
  destruct rest as [|c0 r0] eqn:Er.
  { assert (Es : src = pre) by (rewrite E; apply app_nil_r). rewrite Es, Nat.ltb_irrefl. exists [], [], [].
    cbn [app]. rewrite app_nil_r. change (newlines []) with 0%N. rewrite N.add_0_r. repeat split; auto. }
  rewrite <- Er in *. assert (Hne : rest <> []) by (rewrite Er; discriminate).
  replace (blen pre <? blen src) with true.
  2:{ symmetry. apply Nat.ltb_lt. rewrite E, blen_app, Er. cbn [blen]. pose proof (len_utf8_pos c0). lia. }
  clear c0 r0 Er. rewrite (from_pre pre rest E). cbn [need bind]. cbv zeta.
  destruct (trim_start_split rest) as (w & Ew & Hw).
  destruct (starts_with (lit ";") (trim_start rest) || starts_with (lit "!:") (trim_start rest)) eqn:Ec.
  - destruct (cut_line pre rest Hne) as (l & e & r & El & Hl & He & Hlen & _ & _ & Hh).
    assert (He' : e = [] /\ r = [] \/ e = [10%N]) by tauto.
    assert (E' : src = (pre ++ l ++ e) ++ r) by (rewrite E, El, <- !app_assoc; reflexivity).
    rewrite (skip_line_spec pre l e r miss p) by (auto; rewrite E, El; reflexivity). cbn [bind].
    assert (Hnh : header_line l = false /\ at_next_section rest = false).
    { assert (Hx : exists c s, trim_start rest = c :: s /\ (c = 59 \/ c = 33)%N).
      { lits. destruct (trim_start rest) as [|c s]; [discriminate|]. exists c, s. split; [reflexivity|].
        unfold starts_with in Ec. cbn in Ec. destruct (N.eqb_spec 59 c); [left; congruence|].
        destruct (N.eqb_spec 33 c); [right; congruence|discriminate]. }
      destruct Hx as (c & s & Ets & Hc). assert (Hz : at_next_section rest = false).
      { unfold at_next_section. rewrite Ets. lits. rewrite starts1'. apply N.eqb_neq. lia. }
      split; [|exact Hz]. destruct (header_line l) eqn:K; [|reflexivity].
      rewrite El, (header_cases l (e ++ r) K) in Hz. discriminate. }
    destruct Hnh as [Hnh Hz].
    destruct (IH (pre ++ l ++ e) r miss p E' ltac:(apply nl_no_nl_miss, Hm) ltac:(lia)) as (m0 & w1 & r1 & K1 & K2 & K3 & K4 & K5 & K6 & K7).
    exists (l ++ e ++ m0), w1, r1. rewrite K1, (Hh Hnh), K4. rewrite <- !app_assoc. repeat split; auto.
    + rewrite El, K2. reflexivity.
    + intros Hld. rewrite <- !app_assoc in K6. apply K6. rewrite El in Hld. eapply lead_step; eassumption.
    + congruence.
  - destruct (str_eqb (trim_start rest) rest) eqn:Eq; cbn [negb].
    + apply str_eqb_eq in Eq. exists [], [], rest. cbn [app]. rewrite app_nil_r. change (newlines []) with 0%N. rewrite N.add_0_r.
      repeat split; auto. pose proof (drop_while_head is_ws rest) as K. fold (trim_start rest) in K. rewrite Eq in K. exact K.
    + apply str_eqb_neq in Eq.
      assert (Hwne : w <> []) by (intros ->; cbn in Ew; congruence).
      set (r := trim_start rest) in *.
      assert (Hr : match r with [] => True | c :: _ => is_ws c = false end) by apply (drop_while_head is_ws rest).
      assert (Eg : with_pos (goto miss pre p) (p_pos (goto miss pre p) + (blen rest - blen r)) (p_line (goto miss pre p)) =
                   goto (miss + newlines w) (pre ++ w) p).
      { unfold goto, with_pos. cbn [p_pos p_line p_version p_sections p_issues p_styles_format p_events_format].
        rewrite Ew at 1. rewrite !blen_app. unfold true_line. rewrite newlines_app. f_equal; lia. }
      rewrite goto_pos in Eg. rewrite Eg. clear Eg.
      assert (E' : src = (pre ++ w) ++ r) by (rewrite E, Ew at 1; apply app_assoc).
      assert (Lw : List.length r < List.length rest).
      { rewrite Ew, app_length. destruct w; [congruence|cbn; lia]. }
      exists [], w, r. cbn [app]. split; [|split; [exact Ew|split; [exact Hw|split; [rewrite Ew; apply heads_ws, Hw|split; [exact Hr|split; [|auto]]]]]].
      2:{ rewrite app_nil_r. rewrite <- Ew. auto. }
      destruct f as [|f]; [lia|]. cbn [main_skip_ws]. rewrite goto_pos.
      destruct r as [|c r0] eqn:Er2.
      { rewrite E', app_nil_r, Nat.ltb_irrefl. reflexivity. }
      replace (blen (pre ++ w) <? blen src) with true.
      2:{ symmetry. apply Nat.ltb_lt. rewrite E', (blen_app (pre ++ w)). cbn [blen]. pose proof (len_utf8_pos c). lia. }
      rewrite (from_pre (pre ++ w) _ E'). cbn [need bind].
      assert (Et : trim_start (c :: r0) = c :: r0) by (unfold trim_start; cbn; rewrite Hr; reflexivity).
      rewrite Et, Ec, str_eqb_refl. reflexivity.
Qed.

(* ---- section readers from the line after a header ---- *)
Lemma new_at_eq miss pre body : src = pre ++ body -> new_at (blen pre) (true_line pre - miss) = Tracker (blen pre) (true_line pre - miss) 1.
Proof.
  intros E. unfold new_at, to_u32. pose proof (place_line src pre body miss Hsmall E) as H.
  destruct (N.ltb_spec u32_max (true_line pre - miss)); [lia|reflexivity].
Qed.
Lemma new_at_place miss pre body : src = pre ++ body -> tail_line pre = [] -> new_at (blen pre) (true_line pre - miss) = place miss pre.
Proof. intros E H. rewrite (new_at_eq miss pre body E). unfold place, true_col. rewrite H. reflexivity. Qed.

Definition reader_end (miss : N) (pre body : str) (t : tracker) (m rest' : str) : Prop :=
  toff t = blen (pre ++ m) /\ tline t = (true_line (pre ++ m) - miss)%N /\ body = m ++ rest' /\
  (rest' = [] \/ at_next_section rest' = true) /\ heads pre body = heads (pre ++ m) rest' /\
  (rest' <> [] -> all_ws (tail_line (pre ++ m)) = true).

Lemma text_reader {S} (process : S -> tracker -> str -> str -> S) st0 miss pre body :
  src = pre ++ body -> (miss <= newlines pre)%N -> (body <> [] -> tail_line pre = []) ->
  exists t m rest', lines_loop (Datatypes.S (blen src)) process src (new_at (blen pre) (true_line pre - miss)) st0 =
      Done (t, walk process miss pre body st0) /\ reader_end miss pre body t m rest'.
Proof.
  intros E Hm Ht. destruct body as [|c b] eqn:Eb.
  - rewrite (new_at_eq miss pre [] E). exists (Tracker (blen pre) (true_line pre - miss) 1), [], []. split.
    + cbn [lines_loop]. unfold at_end. cbn [toff]. rewrite E, app_nil_r, Nat.leb_refl. reflexivity.
    + unfold reader_end. rewrite app_nil_r. repeat split; auto; congruence.
  - rewrite <- Eb in *. assert (Hne : body <> []) by (rewrite Eb; discriminate). clear c b Eb.
    rewrite (new_at_place miss pre body E (Ht Hne)).
    destruct (lines_loop_spec process miss src (Datatypes.S (blen src)) Hsmall pre body st0 E Hm) as (m & rest' & H1 & H2 & H3 & H4 & H5).
    { pose proof (blen_length body). rewrite E, blen_app. lia. }
    exists (place miss (pre ++ m)), m, rest'. split; [exact H1|]. unfold reader_end. repeat split; auto.
    apply H5. rewrite (Ht Hne). reflexivity.
Qed.
Lemma media_reader key miss pre body : first_is 35 key = false ->
  src = pre ++ body -> (miss <= newlines pre)%N -> (body <> [] -> tail_line pre = []) ->
  exists t m rest', media_loop (S (blen src)) key src (new_at (blen pre) (true_line pre - miss)) [] =
      Done (t, media_in miss key (blen src) None (lines_at pre body)) /\ reader_end miss pre body t m rest'.
Proof.
  intros Hk E Hm Ht. destruct body as [|c b] eqn:Eb.
  - rewrite (new_at_eq miss pre [] E). exists (Tracker (blen pre) (true_line pre - miss) 1), [], []. split.
    + cbn [media_loop]. unfold at_end. cbn [toff]. rewrite E, app_nil_r, Nat.leb_refl. reflexivity.
    + unfold reader_end. rewrite app_nil_r. repeat split; auto; congruence.
  - rewrite <- Eb in *. assert (Hne : body <> []) by (rewrite Eb; discriminate). clear c b Eb.
    rewrite (new_at_place miss pre body E (Ht Hne)).
    destruct (media_spec miss key src Hk Hsmall (S (blen src)) pre body [] E Hm) as (m & rest' & H1 & H2 & H3 & H4 & H5).
    { pose proof (blen_length body). rewrite E, blen_app. lia. }
    exists (place miss (pre ++ m)), m, rest'. split; [exact H1|]. unfold reader_end. repeat split; auto.
    apply H5. rewrite (Ht Hne). reflexivity.
Qed.

Lemma events_miss miss b : forall f, snd (events_in miss f b) = snd (events_in 0 f b).
Proof.
  induction b as [|[p l] b IH]; intros f; [reflexivity|]. cbn [events_in]. destruct (format_of (trim l)); [apply IH|].
  specialize (IH f). destruct (events_in miss f b), (events_in 0 f b). cbn [snd] in IH. subst.
  destruct (parse_event_line (trim l) f 0); reflexivity.
Qed.
Lemma styles_miss miss b : forall f, snd (styles_in miss f b) = snd (styles_in 0 f b) /\
  List.length (fst (styles_in miss f b)) = List.length (fst (styles_in 0 f b)).
Proof.
  induction b as [|[p l] b IH]; intros f; [split; reflexivity|]. cbn [styles_in]. destruct (format_of (trim l)); [apply IH|].
  specialize (IH f). destruct (styles_in miss f b), (styles_in 0 f b). cbn [snd fst] in IH. destruct IH as [-> IH].
  destruct (strip_prefix (lit "Style:") (trim l)); [|split; [reflexivity|exact IH]].
  destruct (parse_style_line (trim _) f 0); cbn; auto.
Qed.
Lemma fmt_some_list f : fmt_ok f -> fmt_some (fmt_list f) = f.
Proof. unfold fmt_ok. destruct f as [[|x y]|]; cbn; congruence. Qed.

(* what a section leaves behind *)
Definition settings_of (p : parser) : settings := (p_version p, p_styles_format p, p_events_format p).
Definition section_done (miss : N) (name : str) (ls : list (str * str)) (p p' : parser) (s : section) : Prop :=
  reads src miss name ls s /\ settings_of p' = after_section (settings_of p) (name, ls) /\ p_sections p' = p_sections p.

Lemma goto_intro p' t miss pre m : toff t = blen (pre ++ m) -> tline t = (true_line (pre ++ m) - miss)%N ->
  with_pos p' (toff t) (tline t) = goto miss (pre ++ m) p'.
Proof. intros -> ->. reflexivity. Qed.

Lemma next_lower_heads ls : next_lower src ls = match hlines ls with (_, _, r) :: _ => lower src r | [] => blen src end.
Proof. unfold next_lower. induction ls as [|[p l] r IH]; [reflexivity|]. cbn [sections_in hlines]. destruct (header_line l); [reflexivity|exact IH]. Qed.
Lemma heads_lower T q : q <= blen src -> forall p, q <= blen p -> q <= match hlines (located p T) with (_, _, r) :: _ => lower src r | [] => blen src end.
Proof.
  intros Hq. induction T as [|l T IH]; intros p H; cbn [located hlines]; [exact Hq|].
  assert (H' : q <= blen (p ++ l ++ [10%N])) by (rewrite blen_app; lia). destruct (header_line l); [|apply IH, H'].
  destruct T as [|l' T]; cbn [located lower]; assumption.
Qed.
Lemma info_section miss pre body p : src = pre ++ body -> (miss <= newlines pre)%N -> (body <> [] -> tail_line pre = []) ->
  exists t m rest' v iss s, parse_info src (blen pre) (true_line pre - miss) = Done (s, v, iss, toff t, tline t) /\
    reader_end miss pre body t m rest' /\ section_done miss (lit "Script Info") (lines_at pre body) p (add_issues (set_version p v) iss) s.
Proof.
  intros E Hm Ht. destruct (text_reader info_line (InfoState [] None []) miss pre body E Hm Ht) as (t & m & rest' & H1 & H2).
  unfold parse_info. rewrite H1. cbn [bind]. unfold walk.
  set (b := ParseSpec.body (lines_at pre body)).
  destruct (info_fold miss b (InfoState [] None [])) as [F1 F2]. cbn [is_fields is_version app] in F1, F2.
  set (st := fold_left _ _ _) in *. clearbody st.
  do 6 eexists. split; [reflexivity|]. split; [exact H2|]. unfold section_done. cbn [reads]. split; [|split].
  - split; [reflexivity|]. split; [exact F1|]. split; [|split].
    + destruct H2 as (T1 & T2 & T3 & _). exists pre, m, rest'.
    rewrite (new_at_eq miss pre body E). unfold span_from. cbn [sp_start sp_end sp_line toff tline tcol].
    repeat split; [rewrite E, T3; reflexivity|exact T1].
    + rewrite (new_at_eq miss pre body E). cbn [span_from sp_start toff]. unfold lower, lines_at. destruct (split_on is_nl body) as [|x T] eqn:Es; [|reflexivity].
    exfalso. destruct (lines_at_cons pre body) as (y & T & Ey). unfold lines_at in Ey. rewrite Es in Ey. discriminate.
    + destruct H2 as (T1 & _ & T3 & _ & T5 & _). rewrite (new_at_eq miss pre body E). cbn [span_from sp_end toff]. rewrite T1. rewrite next_lower_heads. unfold heads in T5. rewrite T5.
    apply heads_lower; [rewrite E, T3, !blen_app; lia|lia].
  - unfold settings_of, after_section. change (str_eqb (lit "Script Info") (lit "Script Info")) with true. cbv iota.
    fold b. change (info_version b) with (fold_left ver_step (info_fields b) None). rewrite <- F2. destruct (is_version st); reflexivity.
  - destruct (is_version st); reflexivity.
Qed.
Lemma styles_section name miss pre body p : styles_name name = true -> src = pre ++ body -> (miss <= newlines pre)%N -> (body <> [] -> tail_line pre = []) ->
  exists t m rest' f iss s, parse_styles src (blen pre) (true_line pre - miss) None = Done (s, f, iss, toff t, tline t) /\
    reader_end miss pre body t m rest' /\ section_done miss name (lines_at pre body) p (add_issues (set_styles_format p f) iss) s.
Proof.
  intros Hn E Hm Ht. destruct (text_reader style_line (StyleState [] None []) miss pre body E Hm Ht) as (t & m & rest' & H1 & H2).
  unfold parse_styles. rewrite H1. cbn [bind]. unfold walk.
  set (b := ParseSpec.body (lines_at pre body)).
  destruct (styles_fold miss b (StyleState [] None [])) as (F0 & F1 & F2); [discriminate|]. cbn [ss_styles ss_format app fmt_list] in F1, F2.
  set (st := fold_left _ _ _) in *. clearbody st.
  do 6 eexists. split; [reflexivity|]. split; [exact H2|]. unfold section_done. cbn [reads]. split; [|split; [|reflexivity]].
  - split; [exact Hn|exact F1].
  - unfold settings_of, after_section.
    replace (str_eqb name (lit "Script Info")) with false.
    2:{ symmetry. apply str_eqb_neq. intros ->. vm_compute in Hn. discriminate. }
    rewrite Hn. cbn [p_version p_styles_format p_events_format add_issues set_styles_format]. do 2 f_equal.
    unfold styles_format_of. fold b. destruct (styles_miss miss b []) as [M1 M2]. rewrite M1 in F2. rewrite <- F1 in M2.
    rewrite <- (fmt_some_list _ F0), F2. destruct (styles_in 0 [] b) as [sl f]. cbn [fst snd] in *.
    destruct (ss_styles st) as [|x y], sl as [|x' y'], f as [|g h]; cbn in *; congruence.
Qed.
Lemma events_section miss pre body p : src = pre ++ body -> (miss <= newlines pre)%N -> (body <> [] -> tail_line pre = []) ->
  exists t m rest' f iss s, parse_events src (blen pre) (true_line pre - miss) None = Done (s, f, iss, toff t, tline t) /\
    reader_end miss pre body t m rest' /\ section_done miss (lit "Events") (lines_at pre body) p (add_issues (set_events_format p f) iss) s.
Proof.
  intros E Hm Ht. destruct (text_reader event_line (EventState [] None []) miss pre body E Hm Ht) as (t & m & rest' & H1 & H2).
  unfold parse_events. rewrite H1. cbn [bind]. unfold walk.
  set (b := ParseSpec.body (lines_at pre body)).
  destruct (events_fold miss b (EventState [] None [])) as (F0 & F1 & F2); [discriminate|]. cbn [es_events es_format app fmt_list] in F1, F2.
  set (st := fold_left _ _ _) in *. clearbody st.
  do 6 eexists. split; [reflexivity|]. split; [exact H2|]. unfold section_done. cbn [reads]. split; [|split; [|reflexivity]].
  - split; [reflexivity|exact F1].
  - unfold settings_of, after_section.
    change (str_eqb (lit "Events") (lit "Script Info")) with false. change (styles_name (lit "Events")) with false.
    change (str_eqb (lit "Events") (lit "Events")) with true. cbv iota.
    cbn [p_version p_styles_format p_events_format add_issues set_events_format]. f_equal.
    unfold events_format_of. fold b. rewrite <- (events_miss miss b []), <- F2. symmetry. apply fmt_some_list, F0.
Qed.

(* ---- one section ---- *)
Definition hname (t : str) : str := match find_char is_rbracket t with Some (_ :: n, _) => trim n | _ => [] end.
Definition head_section (x : head) : str * list (str * str) := let '(_, t, ls) := x in (hname t, ls).

Lemma is_style_header_eq n : is_style_header n = styles_name n.
Proof. unfold is_style_header, styles_name. cbn [existsb map]. rewrite orb_false_r, orb_assoc. reflexivity. Qed.
Lemma known_cases n : known_name n = str_eqb n (lit "Script Info") || styles_name n || str_eqb n (lit "Events") ||
  str_eqb n (lit "Fonts") || str_eqb n (lit "Graphics").
Proof. unfold known_name, styles_name. cbn [existsb map]. rewrite !orb_false_r, <- !orb_assoc. reflexivity. Qed.

(* the lines after a header line, as sections_in lists them *)
Definition after_lines (pre' e b : str) : list (str * str) := match e with [] => [] | _ => lines_at pre' b end.
Lemma done_after miss name pre' e b p p' s : src = pre' ++ b -> e = [10%N] \/ e = [] /\ b = [] ->
  section_done miss name (lines_at pre' b) p p' s -> section_done miss name (after_lines pre' e b) p p' s.
Proof.
  intros E [->|[-> ->]]; [auto|]. unfold section_done, after_lines. intros (H1 & H2 & H3). split; [|split; [|exact H3]].
  - destruct s; try exact H1. destruct H1 as (A1 & A2 & A3 & A4 & A5). cbn in A4. split; [exact A1|]. split; [exact A2|]. split; [exact A3|]. split; [|exact A5].
    cbn. rewrite E, app_nil_r. exact A4.
  - rewrite H2. unfold after_section. destruct (settings_of p) as [[v sf] ef].
    destruct (str_eqb name (lit "Script Info")); [reflexivity|]. destruct (styles_name name); [reflexivity|].
    destruct (str_eqb name (lit "Events")); reflexivity.
Qed.

Lemma find_first pat r : existsb pat r = true -> exists a c b, r = a ++ c :: b /\ forallb (fun x => negb (pat x)) a = true /\ pat c = true /\
  find_char pat r = Some (a, c :: b).
Proof.
  intros H. destruct (find_char pat r) as [[a b]|] eqn:E.
  - pose proof E as E0. apply find_char_some in E. destruct E as (-> & Ha & (c & b' & -> & Hc)). exists a, c, b'. auto.
  - apply find_char_none in E. exfalso. apply existsb_exists in H. destruct H as (x & Hx & Hp). rewrite forallb_forall in E.
    specialize (E x Hx). rewrite Hp in E. discriminate.
Qed.

Definition unknown_end (miss : N) (pre r raw t e b m rest' : str) : Prop :=
  b = m ++ rest' /\ (rest' = [] \/ at_header rest' = true) /\
  (closed (heads (pre ++ [91%N] ++ raw ++ [93%N] ++ t ++ e) b) = true ->
   heads (pre ++ [91%N] ++ raw ++ [93%N] ++ t ++ e) b = heads ((pre ++ [91%N] ++ raw ++ [93%N] ++ t ++ e) ++ m) rest') /\
  (rest' <> [] -> all_ws (tail_line ((pre ++ [91%N] ++ raw ++ [93%N] ++ t ++ e) ++ m)) = true).

Lemma section_spec reg pre r miss p : src = pre ++ 91%N :: r -> (miss <= newlines pre)%N ->
  (existsb is_rbracket r = false /\ exists e, parse_section reg src (goto miss pre p) = Done (goto miss pre p, inr e)) \/
  exists raw t e b m rest' p2, r = raw ++ [93%N] ++ t ++ e ++ b /\
    forallb (fun c => negb (is_rbracket c)) raw = true /\ no_newline t /\ (e = [10%N] \/ e = [] /\ b = []) /\
    let pre' := pre ++ [91%N] ++ raw ++ [93%N] ++ t ++ e in let miss' := (miss + newlines raw)%N in
    (miss' <= newlines pre')%N /\ b = m ++ rest' /\ (rest' = [] \/ at_next_section rest' = true) /\
    (closed (heads pre' b) = true -> heads pre' b = heads (pre' ++ m) rest') /\
    (rest' <> [] -> all_ws (tail_line (pre' ++ m)) = true) /\
    ((known_name (trim raw) = true /\ exists s, parse_section reg src (goto miss pre p) = Done (goto miss' (pre' ++ m) p2, inl s) /\
        section_done miss' (trim raw) (after_lines pre' e b) p p2 s) \/
     (known_name (trim raw) = false /\ exists er, parse_section reg src (goto miss pre p) = Done (goto miss' (pre' ++ m) p2, inr er) /\
        settings_of p2 = settings_of p /\ p_sections p2 = p_sections p)).
Proof.
  intros E Hm. unfold parse_section. rewrite goto_pos, (from_pre pre _ E). cbn [need bind].
  change (lit "[") with [91%N]. rewrite starts1', N.eqb_refl. cbn [negb].
  destruct (existsb is_rbracket r) eqn:Er.
  2:{ left. split; [reflexivity|]. replace (find_char is_rbracket (91%N :: r)) with (@None (str * str)); [eauto|].
      symmetry. apply find_char_none. cbn [forallb]. change (negb (is_rbracket 91)) with true. cbn [andb].
      apply forallb_forall. intros x Hx. destruct (is_rbracket x) eqn:K; [|reflexivity].
      assert (existsb is_rbracket r = true) by (apply existsb_exists; eauto). congruence. }
  right. destruct (find_first _ _ Er) as (raw & c & r0 & Er0 & Hraw & Hc & Ef).
  assert (c = 93%N) by (unfold is_rbracket in Hc; apply N.eqb_eq; exact Hc). subst c. clear Hc.
  assert (Ef' : find_char is_rbracket (91%N :: r) = Some (91%N :: raw, 93%N :: r0)).
  { cbn [find_char]. change (is_rbracket 91) with false. cbv iota. rewrite Ef. reflexivity. }
  rewrite Ef'. clear Ef Ef'. cbn [blen]. change (len_utf8 91) with 1.
  assert (Esl : slice src (blen pre + 1) (1 + blen raw + blen pre) = Some raw).
  { replace (blen pre + 1) with (blen (pre ++ [91%N])) by (rewrite blen_app; reflexivity).
    replace (1 + blen raw + blen pre) with (blen (pre ++ [91%N]) + blen raw) by (rewrite blen_app; change (blen [91%N]) with 1; lia).
    rewrite E, Er0. replace (pre ++ 91%N :: raw ++ 93%N :: r0) with ((pre ++ [91%N]) ++ raw ++ 93%N :: r0) by (rewrite <- !app_assoc; reflexivity).
    apply slice_app. }
  rewrite Esl. cbn [need bind]. clear Esl.
  (* the rest of the header line *)
  assert (Hline : exists t e b, r0 = t ++ e ++ b /\ no_newline t /\ (e = [] /\ b = [] \/ e = [10%N])).
  { destruct (first_line r0) as [Hn|(t & b & -> & Ht)].
    - exists r0, [], []. rewrite !app_nil_r. auto.
    - exists t, [10%N], b. auto. }
  destruct Hline as (t & e & b & Et & Ht & He).
  set (pre' := pre ++ [91%N] ++ raw ++ [93%N] ++ t ++ e). set (miss' := (miss + newlines raw)%N).
  set (pre0 := pre ++ [91%N] ++ raw ++ [93%N]).
  assert (Hm0 : (miss' <= newlines pre0)%N) by (subst miss' pre0; rewrite !newlines_app; lia).
  assert (Hm' : (miss' <= newlines pre')%N) by (subst miss' pre'; rewrite !newlines_app; lia).
  assert (Ep' : pre' = pre0 ++ t ++ e) by (subst pre' pre0; rewrite <- !app_assoc; reflexivity).
  assert (E0 : src = pre0 ++ t ++ e ++ b).
  { subst pre0. rewrite E, Er0, Et, <- !app_assoc. reflexivity. }
  assert (E' : src = pre' ++ b) by (rewrite E0, Ep', <- !app_assoc; reflexivity).
  assert (Eg : with_pos (goto miss pre p) (1 + blen raw + blen pre + 1) (p_line (goto miss pre p)) = goto miss' pre0 p).
  { unfold goto, with_pos. cbn [p_pos p_line p_version p_sections p_issues p_styles_format p_events_format].
    subst pre0 miss'. unfold true_line. rewrite !newlines_app, !blen_app. change (blen [91%N]) with 1. change (blen [93%N]) with 1.
    change (newlines [91%N]) with 0%N. change (newlines [93%N]) with 0%N. f_equal; lia. }
  rewrite Eg. clear Eg. rewrite (skip_line_spec pre0 t e b miss' p E0 Ht Hm0 He), <- Ep'. cbn [bind].
  rewrite goto_pos, goto_line. cbv zeta.
  assert (He2 : e = [10%N] \/ e = [] /\ b = []) by tauto.
  assert (Htl : b <> [] -> tail_line pre' = []).
  { intros Hb. rewrite Ep'. apply (ends_tail pre0 t e b He Hb). }
  assert (Er' : r = raw ++ [93%N] ++ t ++ e ++ b) by (rewrite Er0, Et; reflexivity).
  assert (Hkn := known_cases (trim raw)). rewrite <- is_style_header_eq in Hkn.
  assert (Known : forall tr m rest' p2 s, reader_end miss' pre' b tr m rest' ->
     section_done miss' (trim raw) (lines_at pre' b) p p2 s -> known_name (trim raw) = true ->
     Done (with_pos p2 (toff tr) (tline tr), @inl section message s) = Done (with_pos p2 (toff tr) (tline tr), inl s) ->
     exists raw0 t0 e0 b0 m0 rest0 p20, r = raw0 ++ [93%N] ++ t0 ++ e0 ++ b0 /\
    forallb (fun c => negb (is_rbracket c)) raw0 = true /\ no_newline t0 /\ (e0 = [10%N] \/ e0 = [] /\ b0 = []) /\
    let pre'0 := pre ++ [91%N] ++ raw0 ++ [93%N] ++ t0 ++ e0 in let miss'0 := (miss + newlines raw0)%N in
    (miss'0 <= newlines pre'0)%N /\ b0 = m0 ++ rest0 /\ (rest0 = [] \/ at_next_section rest0 = true) /\
    (closed (heads pre'0 b0) = true -> heads pre'0 b0 = heads (pre'0 ++ m0) rest0) /\
    (rest0 <> [] -> all_ws (tail_line (pre'0 ++ m0)) = true) /\
    ((known_name (trim raw0) = true /\ exists s0, Done (with_pos p2 (toff tr) (tline tr), @inl section message s) = Done (goto miss'0 (pre'0 ++ m0) p20, inl s0) /\
        section_done miss'0 (trim raw0) (after_lines pre'0 e0 b0) p p20 s0) \/
     (known_name (trim raw0) = false /\ exists er, Done (with_pos p2 (toff tr) (tline tr), @inl section message s) = Done (goto miss'0 (pre'0 ++ m0) p20, inr er) /\
        settings_of p20 = settings_of p /\ p_sections p20 = p_sections p))).
  { intros tr m rest' p2 s (T1 & T2 & T3 & T4 & T5 & T6) Hd Hk _. exists raw, t, e, b, m, rest', p2. fold pre' miss'.
    split; [exact Er'|]. split; [exact Hraw|]. split; [exact Ht|]. split; [exact He2|]. cbv zeta.
    split; [exact Hm'|]. split; [exact T3|]. split; [exact T4|]. split; [auto|]. split; [exact T6|]. left. split; [exact Hk|].
    exists s. split; [rewrite T1, T2; reflexivity|]. apply done_after; assumption. }
  destruct (str_eqb (trim raw) (lit "Script Info")) eqn:N1.
  { apply str_eqb_eq in N1.
    destruct (info_section miss' pre' b (goto miss' pre' p) E' Hm' Htl) as (tr & m & rest' & v & iss & s & S1 & S2 & S3).
    rewrite S1. cbn [bind]. apply (Known tr m rest' _ s S2); [rewrite N1; exact S3|exact Hkn|reflexivity]. }
  destruct (is_style_header (trim raw)) eqn:N2.
  { destruct (styles_section (trim raw) miss' pre' b (goto miss' pre' p)) as (tr & m & rest' & v & iss & s & S1 & S2 & S3);
      [rewrite <- is_style_header_eq; exact N2|exact E'|exact Hm'|exact Htl|].
    rewrite S1. cbn [bind]. apply (Known tr m rest' _ s S2); [exact S3|exact Hkn|reflexivity]. }
  destruct (str_eqb (trim raw) (lit "Events")) eqn:N3.
  { apply str_eqb_eq in N3.
    destruct (events_section miss' pre' b (goto miss' pre' p) E' Hm' Htl) as (tr & m & rest' & v & iss & s & S1 & S2 & S3).
    rewrite S1. cbn [bind]. apply (Known tr m rest' _ s S2); [rewrite N3; exact S3|exact Hkn|reflexivity]. }
  destruct (str_eqb (trim raw) (lit "Fonts")) eqn:N4.
  { apply str_eqb_eq in N4.
    destruct (media_reader (lit "fontname") miss' pre' b eq_refl E' Hm' Htl) as (tr & m & rest' & S1 & S2).
    unfold parse_media. rewrite S1. cbn [bind].
    apply (Known tr m rest' _ _ S2); [|exact Hkn|reflexivity]. rewrite N4.
    split; [split; reflexivity|]. split; [|reflexivity]. unfold after_section. destruct (settings_of _) as [[? ?] ?]. reflexivity. }
  destruct (str_eqb (trim raw) (lit "Graphics")) eqn:N5.
  { apply str_eqb_eq in N5.
    destruct (media_reader (lit "filename") miss' pre' b eq_refl E' Hm' Htl) as (tr & m & rest' & S1 & S2).
    unfold parse_media. rewrite S1. cbn [bind].
    apply (Known tr m rest' _ _ S2); [|exact Hkn|reflexivity]. rewrite N5.
    split; [split; reflexivity|]. split; [|reflexivity]. unfold after_section. destruct (settings_of _) as [[? ?] ?]. reflexivity. }
  clear Known.
  assert (Hplug : exists m1 r1 iss, try_plugin reg src raw (true_line pre' - miss') (goto miss' pre' p) =
      Done (add_issues (goto miss' (pre' ++ m1) p) iss) /\ skipped pre' b m1 r1 \/ 
      try_plugin reg src raw (true_line pre' - miss') (goto miss' pre' p) = Done (goto miss' pre' p) /\ reg = None).
  { destruct reg as [g|]; [|exists [], [], []; right; auto]. cbn [try_plugin].
    destruct (plugin_spec (S (blen src)) pre' b miss' p [] E' Hm') as (m1 & r1 & acc & P1 & P2).
    { pose proof (blen_length b). rewrite E', blen_app. lia. }
    rewrite P1. cbn [bind].
    destruct (g raw acc) as [[]|]; [exists m1, r1, [Issue SevInfo (MPluginDone raw) (true_line pre' - miss')]|
      exists m1, r1, [Issue SevWarning (MPluginFailed raw) (true_line pre' - miss')]|exists m1, r1, []|exists m1, r1, []]; left; (split; [|exact P2]);
      try reflexivity; unfold add_issues, goto, with_pos; cbn; rewrite app_nil_r; reflexivity. }
  assert (Hend : forall m rest' p2, skipped pre' b m rest' -> settings_of p2 = settings_of p -> p_sections p2 = p_sections p ->
     forall er, exists raw0 t0 e0 b0 m0 rest0 p20, r = raw0 ++ [93%N] ++ t0 ++ e0 ++ b0 /\
    forallb (fun c => negb (is_rbracket c)) raw0 = true /\ no_newline t0 /\ (e0 = [10%N] \/ e0 = [] /\ b0 = []) /\
    let pre'0 := pre ++ [91%N] ++ raw0 ++ [93%N] ++ t0 ++ e0 in let miss'0 := (miss + newlines raw0)%N in
    (miss'0 <= newlines pre'0)%N /\ b0 = m0 ++ rest0 /\ (rest0 = [] \/ at_next_section rest0 = true) /\
    (closed (heads pre'0 b0) = true -> heads pre'0 b0 = heads (pre'0 ++ m0) rest0) /\
    (rest0 <> [] -> all_ws (tail_line (pre'0 ++ m0)) = true) /\
    ((known_name (trim raw0) = true /\ exists s0, Done (goto miss' (pre' ++ m) p2, @inr section message er) = Done (goto miss'0 (pre'0 ++ m0) p20, inl s0) /\
        section_done miss'0 (trim raw0) (after_lines pre'0 e0 b0) p p20 s0) \/
     (known_name (trim raw0) = false /\ exists er0, Done (goto miss' (pre' ++ m) p2, @inr section message er) = Done (goto miss'0 (pre'0 ++ m0) p20, inr er0) /\
        settings_of p20 = settings_of p /\ p_sections p20 = p_sections p))).
  { intros m rest' p2 (S1 & S2 & S3 & S4) Hs1 Hs2 er. exists raw, t, e, b, m, rest', p2. fold pre' miss'.
    split; [exact Er'|]. split; [exact Hraw|]. split; [exact Ht|]. split; [exact He2|]. cbv zeta.
    split; [exact Hm'|]. split; [exact S1|]. split; [destruct S2; [auto|right; apply at_header_next; assumption]|].
    split; [intros Hc; apply S3, Hc|]. split.
    { intros Hne. apply S4; [|exact Hne]. rewrite Htl; [reflexivity|]. rewrite S1. destruct m; [exact Hne|discriminate]. }
    right. split; [exact Hkn|]. eauto. }
  destruct Hplug as (m1 & r1 & iss & [(P1 & P2)|(P1 & ->)]).
  - rewrite P1. cbn [bind].
    assert (Eg : add_issues (goto miss' (pre' ++ m1) p) iss = goto miss' (pre' ++ m1) (add_issues p iss)) by reflexivity.
    rewrite Eg. pose proof P2 as (Q1 & _).
    destruct (skip_to_spec (S (blen src)) (blen (pre' ++ m1)) (pre' ++ m1) r1 miss' (add_issues p iss) None) as (m2 & r2 & sg & K1 & K2).
    { rewrite E', Q1. apply app_assoc. } { apply nl_no_nl_miss, Hm'. }
    { pose proof (blen_length r1). rewrite E', Q1, !blen_app. lia. } { lia. }
    rewrite goto_pos, K1. cbn [bind].
    assert (Hsk : skipped pre' b (m1 ++ m2) r2).
    { destruct P2 as (A1 & A2 & A3 & A4), K2 as (B1 & B2 & B3 & B4). unfold skipped, keeps_tail in *.
      replace (pre' ++ m1 ++ m2) with ((pre' ++ m1) ++ m2) by (symmetry; apply app_assoc).
      split; [rewrite A1, B1; apply app_assoc|]. split; [exact B2|]. split.
      - intros Hc. destruct (A3 Hc) as [A3a A3b]. rewrite A3a in Hc. destruct (B3 Hc) as [B3a B3b]. split; [congruence|auto].
      - intros Hw Hne. apply B4; [|exact Hne]. apply A4; [exact Hw|]. rewrite B1. destruct m2; [exact Hne|discriminate]. }
    replace ((pre' ++ m1) ++ m2) with (pre' ++ m1 ++ m2) by apply app_assoc.
    destruct sg as [tx|].
    + apply (Hend (m1 ++ m2) r2 (add_issues (add_issues p iss) [Issue SevInfo (MSuggest tx) (p_line (goto miss' (pre' ++ m1 ++ m2) (add_issues p iss)))])
        Hsk eq_refl eq_refl).
    + apply (Hend (m1 ++ m2) r2 (add_issues p iss) Hsk eq_refl eq_refl).
  - rewrite P1. cbn [bind].
    destruct (skip_to_spec (S (blen src)) (blen pre') pre' b miss' p None E' Hm') as (m2 & r2 & sg & K1 & K2).
    { pose proof (blen_length b). rewrite E', !blen_app. lia. } { lia. }
    rewrite goto_pos, K1. cbn [bind].
    destruct sg as [tx|].
    + apply (Hend m2 r2 (add_issues p [Issue SevInfo (MSuggest tx) (p_line (goto miss' (pre' ++ m2) p))]) K2 eq_refl eq_refl).
    + apply (Hend m2 r2 p K2 eq_refl eq_refl).
Qed.

(* ---- the loop ---- *)
Definition blank_before (q : str) : Prop := exists b, q = b ++ [10%N] /\ all_ws (tail_line b) = true.
Definition no_gaps (h : list head) : Prop := Forall (fun x : head => ~ blank_before (fst (fst x))) h.
Definition pair_of (m : mark) : str * list (str * str) := (mk_name m, mk_lines m).
Definition known_pair (x : str * list (str * str)) : bool := known_name (fst x).
Definition outcome (pre rest : str) (miss : N) (p p' : parser) : Prop :=
  exists marks secs, p_sections p' = p_sections p ++ secs /\
    Forall2 (fun m s => reads src (mk_miss m) (mk_name m) (mk_lines m) s) marks secs /\
    marks_from src (blen pre) marks /\ Forall (fun m => known_name (mk_name m) = true) marks /\
    settings_of p' = fold_left after_section (map pair_of marks) (settings_of p) /\
    (closed (heads pre rest) = true ->
       map pair_of marks = filter known_pair (map head_section (heads pre rest)) /\
       (lead pre rest = true -> no_gaps (heads pre rest) -> Forall (fun m => mk_miss m = miss) marks)).

Lemma marks_le k k' ms : k' <= k -> marks_from src k ms -> marks_from src k' ms.
Proof. intros H K. destruct K as [j|j h m a ms' H1 H2 H3]; [constructor|]. eapply marks_cons; [exact H1|lia|exact H3]. Qed.

Lemma all_ws_app a b : all_ws (a ++ b) = all_ws a && all_ws b.
Proof. apply forallb_app. Qed.
Lemma last_nl w : no_newline w \/ exists a b, w = a ++ 10%N :: b /\ no_newline b.
Proof.
  induction w as [|c w IH]; [left; reflexivity|]. destruct IH as [H|(a & b & -> & H)].
  - destruct (is_nl c) eqn:E.
    + right. exists [], w. unfold is_nl in E. apply N.eqb_eq in E. subst. auto.
    + left. unfold no_newline in *. cbn [forallb]. rewrite E, H. reflexivity.
  - right. exists (c :: a), b. auto.
Qed.
Lemma tail_line_ws pre w : all_ws (tail_line pre) = true -> all_ws w = true -> all_ws (tail_line (pre ++ w)) = true.
Proof.
  intros Hp Hw. destruct (last_nl w) as [H|(a & b & -> & H)].
  - rewrite tail_line_app by exact H. rewrite all_ws_app, Hp, Hw. reflexivity.
  - replace (pre ++ a ++ 10%N :: b) with (((pre ++ a) ++ [10%N]) ++ b) by (rewrite <- !app_assoc; reflexivity).
    rewrite tail_line_app, tail_line_nl by exact H. rewrite all_ws_app in Hw. apply andb_true_iff in Hw.
    destruct Hw as [_ Hw]. cbn in Hw. apply andb_true_iff in Hw. apply Hw.
Qed.
Lemma cut3 rest : exists l e r, rest = l ++ e ++ r /\ no_newline l /\ (e = [] /\ r = [] \/ e = [10%N]).
Proof.
  destruct (first_line rest) as [H|(l & r & -> & H)].
  - exists rest, [], []. rewrite !app_nil_r. auto.
  - exists l, [10%N], r. auto.
Qed.
Lemma lead_header pre l e r : no_newline l -> (e = [] /\ r = [] \/ e = [10%N]) -> header_line l = true -> lead pre (l ++ e ++ r) = true.
Proof.
  intros Hl [(-> & ->)| ->] Hh.
  - rewrite !app_nil_r. unfold lead. rewrite lines_at_end by exact Hl. reflexivity.
  - cbn [app]. rewrite lead_line, Hh by exact Hl. reflexivity.
Qed.
Lemma lead_again pre rest : at_next_section rest = true -> all_ws (tail_line pre) = true -> no_gaps (heads pre rest) -> lead pre rest = true.
Proof.
  intros Hn Ht Hg. destruct (trim_start_split rest) as (w & Ew & Hw).
  unfold at_next_section in Hn. apply starts_with_spec in Hn. destruct Hn as (s & Es). rewrite Es in Ew.
  destruct (cut3 (lit "[" ++ s)) as (l & e & r & El & Hl & He).
  assert (Hh : forall w2, all_ws w2 = true -> header_line (w2 ++ l) = true).
  { intros w2 H2. unfold header_line. rewrite trim_start_ws by exact H2.
    lits. destruct l as [|c l].
    - destruct He as [(-> & ->)| ->]; discriminate.
    - cbn in El. injection El as <- El. reflexivity. }
  rewrite El in Ew. destruct (last_nl w) as [Hn|(a & b & Ewab & Hb)].
  - rewrite Ew, app_assoc. apply lead_header; [apply no_newline_app; auto|exact He|apply Hh, Hw].
  - exfalso. rewrite Ewab in Hw, Ew. rewrite all_ws_app in Hw. apply andb_true_iff in Hw. destruct Hw as [Ha Hb'].
    cbn [all_ws forallb] in Hb'. apply andb_true_iff in Hb'. destruct Hb' as [_ Hb'].
    assert (Hwa : all_ws (a ++ [10%N]) = true) by (rewrite all_ws_app, Ha; reflexivity).
    replace rest with ((a ++ [10%N]) ++ (b ++ l) ++ e ++ r) in Hg by (rewrite Ew, <- !app_assoc; reflexivity).
    rewrite heads_ws in Hg by exact Hwa. rewrite heads_header in Hg; [|apply no_newline_app; auto|exact He|apply Hh, Hb'].
    inversion Hg as [|? ? Hx _]. subst. apply Hx. cbn [fst]. rewrite app_assoc, line_start_nl. exists (pre ++ a). split; [reflexivity|].
    apply tail_line_ws; assumption.
Qed.
Lemma lead_shift pre w r : all_ws w = true -> no_newline w -> lead pre (w ++ r) = true -> lead (pre ++ w) r = true.
Proof.
  intros Hw Hn. destruct (cut3 r) as (l & e & r0 & -> & Hl & He). destruct He as [(-> & ->)| ->].
  - rewrite !app_nil_r. unfold lead. rewrite (lines_at_end _ l) by exact Hl. reflexivity.
  - cbn [app]. rewrite app_assoc, lead_line by (apply no_newline_app; auto). rewrite lead_line by exact Hl.
    unfold header_line. rewrite trim_start_ws by exact Hw. rewrite all_ws_app, Hw. cbn [andb]. rewrite <- !app_assoc. auto.
Qed.
Lemma newlines_0 w : newlines w = 0%N -> no_newline w.
Proof.
  destruct (first_line w) as [H|(l & r & -> & H)]; [auto|]. rewrite newlines_app. change (10%N :: r) with ([10%N] ++ r).
  rewrite newlines_app, newlines_nl. lia.
Qed.

(* a closed header line is the text up to the end of the line *)
Lemma closed_header pre r raw t e b : r = raw ++ [93%N] ++ t ++ e ++ b -> forallb (fun c => negb (is_rbracket c)) raw = true ->
  no_newline t -> e = [10%N] \/ e = [] /\ b = [] -> closed (heads pre (91%N :: r)) = true ->
  newlines raw = 0%N /\
  heads pre (91%N :: r) = (line_start pre, 91%N :: raw ++ 93%N :: t, after_lines (pre ++ [91%N] ++ raw ++ [93%N] ++ t ++ e) e b) ::
    heads (pre ++ [91%N] ++ raw ++ [93%N] ++ t ++ e) b /\ hname (91%N :: raw ++ 93%N :: t) = trim raw.
Proof.
  intros Er Hraw Ht He Hc.
  assert (Hno : no_newline raw).
  { destruct (first_line raw) as [H|(l & r2 & El & Hl)]; [exact H|exfalso].
    rewrite Er, El in Hc.
    replace (91%N :: (l ++ 10%N :: r2) ++ [93%N] ++ t ++ e ++ b) with ((91%N :: l) ++ [10%N] ++ r2 ++ [93%N] ++ t ++ e ++ b) in Hc
      by (cbn [app]; rewrite <- !app_assoc; reflexivity).
    rewrite heads_header in Hc.
    - cbn [closed forallb fst snd] in Hc. apply andb_true_iff in Hc. destruct Hc as [Hc _].
      change (trim_start (91%N :: l)) with (91%N :: l) in Hc. cbn [existsb] in Hc. change (is_rbracket 91) with false in Hc. cbn [orb] in Hc.
      rewrite El, forallb_app in Hraw. apply andb_true_iff in Hraw. destruct Hraw as [Hraw _].
      apply existsb_exists in Hc. destruct Hc as (x & Hx & Hp). rewrite forallb_forall in Hraw. specialize (Hraw x Hx). rewrite Hp in Hraw. discriminate.
    - unfold no_newline. cbn [forallb]. exact Hl.
    - auto.
    - reflexivity. }
  split; [apply newlines_none, Hno|].
  assert (Hl : no_newline (91%N :: raw ++ 93%N :: t)).
  { change (no_newline ([91%N] ++ raw ++ [93%N] ++ t)). rewrite !no_newline_app. repeat split; auto; reflexivity. }
  replace (91%N :: r) with ((91%N :: raw ++ 93%N :: t) ++ e ++ b) by (rewrite Er; cbn [app]; rewrite <- !app_assoc; reflexivity).
  split.
  - rewrite heads_header; [|exact Hl|tauto|reflexivity].
    change (trim_start (91%N :: raw ++ 93%N :: t)) with (91%N :: raw ++ 93%N :: t).
    replace (pre ++ (91%N :: raw ++ 93%N :: t) ++ e) with (pre ++ [91%N] ++ raw ++ [93%N] ++ t ++ e) by (cbn [app]; rewrite <- !app_assoc; reflexivity).
    reflexivity.
  - unfold hname. cbn [find_char]. change (is_rbracket 91) with false. cbv iota.
    assert (Ef : find_char is_rbracket (raw ++ 93%N :: t) = Some (raw, 93%N :: t)).
    { apply find_char_some. split; [reflexivity|split; [exact Hraw|eauto]]. }
    rewrite Ef. reflexivity.
Qed.

Lemma parse_loop_spec reg fuel : forall pre rest miss p, src = pre ++ rest -> (miss <= newlines pre)%N -> List.length rest < fuel ->
  exists p', parse_loop fuel reg src (goto miss pre p) = Done p' /\ outcome pre rest miss p p'.
Proof.
  induction fuel as [|f IH]; intros pre rest miss p E Hm Hf; [lia|]. cbn [parse_loop]. rewrite goto_pos.
  assert (Hnone : heads pre rest = [] -> forall p', p_sections p' = p_sections p -> settings_of p' = settings_of p -> outcome pre rest miss p p').
  { intros Hh p' H1 H2. exists [], []. rewrite app_nil_r. split; [exact H1|]. split; [constructor|]. split; [constructor|]. split; [constructor|].
    split; [exact H2|]. rewrite Hh. intros _. split; [reflexivity|]. intros _ _. constructor. }
  destruct rest as [|c0 r0] eqn:Er.
  { rewrite E, app_nil_r, Nat.ltb_irrefl. eexists. split; [reflexivity|]. apply Hnone; reflexivity. }
  rewrite <- Er in *.
  replace (blen pre <? blen src) with true.
  2:{ symmetry. apply Nat.ltb_lt. rewrite E, blen_app, Er. cbn [blen]. pose proof (len_utf8_pos c0). lia. }
  clear c0 r0 Er.
  destruct (main_ws_spec (S (S (blen src))) pre rest miss p E Hm) as (m0 & w & r1 & W1 & W2 & W3 & W4 & W5 & W6 & W7).
  { pose proof (blen_length rest). rewrite E, blen_app. lia. }
  rewrite W1. cbn [bind]. rewrite goto_pos.
  set (pre1 := pre ++ m0 ++ w) in *. set (miss1 := (miss + newlines w)%N) in *.
  assert (E1 : src = pre1 ++ r1) by (subst pre1; rewrite E, W2, <- !app_assoc; reflexivity).
  assert (Hm1 : (miss1 <= newlines pre1)%N) by (subst pre1 miss1; rewrite !newlines_app; lia).
  assert (Hle : blen pre <= blen pre1) by (subst pre1; rewrite blen_app; lia).
  assert (Hlen : List.length r1 <= List.length rest) by (rewrite W2, !app_length; lia).
  destruct r1 as [|c r] eqn:Er1.
  { rewrite E1, app_nil_r, Nat.leb_refl. eexists. split; [reflexivity|]. apply Hnone; [rewrite W4|..]; reflexivity. }
  replace (blen src <=? blen pre1) with false.
  2:{ symmetry. apply Nat.leb_gt. rewrite E1, blen_app. cbn [blen]. pose proof (len_utf8_pos c). lia. }
  assert (Hlead : lead pre rest = true -> miss1 = miss /\ lead pre1 (c :: r) = true).
  { intros Hl. specialize (W6 Hl). pose proof (lead_no_gap _ _ _ W3 W6) as H0. split; [subst miss1; lia|].
    subst pre1. rewrite app_assoc. apply lead_shift; [exact W3|apply newlines_0, H0|exact W6]. }
  assert (Hts : trim_start (c :: r) = c :: r) by (unfold trim_start; cbn [drop_while]; rewrite W5; reflexivity).
  (* going on after lines without a header *)
  assert (Hskip : at_header (c :: r) = false -> forall p0 is, p_sections p0 = p_sections p -> settings_of p0 = settings_of p ->
    exists p', (ps <- skip_to_section (S (blen src)) src (p_pos (add_issues (goto miss1 pre1 p0) is)) (add_issues (goto miss1 pre1 p0) is) None ;;
                let (p4, _) := (ps : parser * option str) in parse_loop f reg src p4) = Done p' /\ outcome pre rest miss p p').
  { intros Hah p0 is Hs1 Hs2. change (add_issues (goto miss1 pre1 p0) is) with (goto miss1 pre1 (add_issues p0 is)). rewrite goto_pos.
    destruct (skip_to_spec (S (blen src)) (blen pre1) pre1 (c :: r) miss1 (add_issues p0 is) None E1 Hm1) as (m & rest' & sg & K1 & (S1 & S2 & S3 & S4)).
    { pose proof (blen_length (c :: r)). rewrite E1, blen_app. lia. } { lia. }
    rewrite K1. cbn [bind].
    assert (Hmne : m <> []).
    { intros ->. cbn [app] in S1. rewrite <- S1 in S2. destruct S2; congruence. }
    destruct (IH (pre1 ++ m) rest' miss1 (add_issues p0 is)) as (p' & L1 & L2).
    { rewrite E1, S1. apply app_assoc. } { apply nl_no_nl_miss, Hm1. }
    { rewrite S1, app_length in Hlen. destruct m; [congruence|]. cbn in Hlen. lia. }
    exists p'. split; [exact L1|]. destruct L2 as (marks & secs & O1 & O2 & O3 & O4 & O5 & O6). exists marks, secs.
    split; [rewrite O1; cbn [add_issues p_sections]; rewrite Hs1; reflexivity|]. split; [exact O2|].
    split; [eapply marks_le; [|exact O3]; rewrite blen_app; lia|]. split; [exact O4|].
    split; [rewrite O5; f_equal; exact Hs2|]. intros Hc. rewrite W4 in Hc. destruct (S3 Hc) as [S3a S3b].
    rewrite S3a in Hc. destruct (O6 Hc) as [O6a O6b]. rewrite W4, S3a. split; [exact O6a|].
    intros Hl Hg. destruct (Hlead Hl) as [Hms Hl1]. rewrite <- Hms. apply O6b; [apply S3b, Hl1|exact Hg]. }
  destruct (N.eqb_spec c 91) as [->|Hc91].
  2:{ (* not a header *)
    assert (Hps : parse_section reg src (goto miss1 pre1 p) = Done (goto miss1 pre1 p, inr (MExpectedHeader (p_line (goto miss1 pre1 p))))).
    { unfold parse_section. rewrite goto_pos, (from_pre pre1 _ E1). cbn [need bind]. lits. rewrite starts1'.
      destruct (N.eqb_spec 91 c); [congruence|]. reflexivity. }
    rewrite Hps. cbn [bind]. apply Hskip; try reflexivity. unfold at_header. rewrite Hts. lits. rewrite starts1'.
    destruct (N.eqb_spec 91 c); [congruence|reflexivity]. }
  destruct (section_spec reg pre1 r miss1 p E1 Hm1) as [(Hno & er & Hps)|(raw & t & e & b & m & rest' & p2 & Hr & Hraw & Ht & He & Hrest)].
  { rewrite Hps. cbn [bind]. apply Hskip; try reflexivity. unfold at_header. rewrite Hts. apply andb_false_iff. right.
    destruct (cut3 (91%N :: r)) as (l & e & r2 & El & Hl & He). rewrite El, current_line_any by assumption.
    destruct (existsb is_rbracket l) eqn:K; [|reflexivity]. exfalso.
    assert (K2 : existsb is_rbracket (91%N :: r) = true) by (rewrite El, existsb_app, K; reflexivity).
    cbn [existsb] in K2. change (is_rbracket 91) with false in K2. cbn [orb] in K2. congruence. }
  cbv zeta in Hrest. set (pre' := pre1 ++ [91%N] ++ raw ++ [93%N] ++ t ++ e) in *. set (miss' := (miss1 + newlines raw)%N) in *.
  destruct Hrest as (Hm' & Hb & Hend & Hheads & Htail & Hres).
  assert (E' : src = (pre' ++ m) ++ rest') by (rewrite E1, Hr, Hb; subst pre'; rewrite <- !app_assoc; reflexivity).
  assert (Hl2 : List.length rest' < f).
  { assert (L := f_equal (@List.length N) Hr). rewrite Hb, !app_length in L. cbn in L, Hlen. lia. }
  assert (Hprog : blen pre1 <= blen (pre' ++ m)) by (subst pre'; rewrite !blen_app; lia).
  assert (Hcl : closed (heads pre rest) = true -> newlines raw = 0%N /\
     heads pre rest = (line_start pre1, 91%N :: raw ++ 93%N :: t, after_lines pre' e b) :: heads (pre' ++ m) rest' /\
     hname (91%N :: raw ++ 93%N :: t) = trim raw /\ closed (heads (pre' ++ m) rest') = true).
  { intros Hc. rewrite W4 in Hc. destruct (closed_header pre1 r raw t e b Hr Hraw Ht He Hc) as (C1 & C2 & C3).
    fold pre' in C2. rewrite C2 in Hc. cbn [closed forallb] in Hc. apply andb_true_iff in Hc. destruct Hc as [_ Hc].
    fold (closed (heads pre' b)) in Hc. pose proof (Hheads Hc) as Hh2. rewrite Hh2 in Hc, C2. rewrite W4, C2. auto. }
  assert (Hlead2 : no_gaps (heads (pre' ++ m) rest') -> lead (pre' ++ m) rest' = true).
  { intros Hg. destruct Hend as [->|Hn]; [reflexivity|]. apply lead_again; [exact Hn| |exact Hg]. apply Htail. intros ->. discriminate. }
  destruct Hres as [(Hk & s & Hps & Hd1 & Hd2 & Hd3)|(Hk & er & Hps & Hd2 & Hd3)].
  - rewrite Hps. cbn [bind]. change (add_section (goto miss' (pre' ++ m) p2) s) with (goto miss' (pre' ++ m) (add_section p2 s)).
    destruct (IH (pre' ++ m) rest' miss' (add_section p2 s) E') as (p' & L1 & (marks & secs & O1 & O2 & O3 & O4 & O5 & O6)).
    { apply nl_no_nl_miss, Hm'. } { exact Hl2. }
    exists p'. split; [exact L1|]. exists (Mark miss' (trim raw) (after_lines pre' e b) :: marks), (s :: secs).
    split; [rewrite O1; cbn [add_section p_sections]; rewrite Hd3, <- app_assoc; reflexivity|].
    split; [constructor; assumption|]. split.
    { apply (marks_cons src (blen pre) pre1 (Mark miss' (trim raw) (after_lines pre' e b)) pre' marks).
      - exists raw, t, e, b. split; [rewrite E1, Hr; reflexivity|]. split; [exact Hraw|]. split; [exact Ht|]. split; [reflexivity|]. split; [reflexivity|].
        destruct He as [->|[-> ->]]; [left|right]; auto.
      - exact Hle.
      - eapply marks_le; [|exact O3]. rewrite blen_app. lia. }
    split; [constructor; [exact Hk|exact O4]|].
    split; [rewrite O5; cbn [map fold_left]; f_equal; exact Hd2|].
    intros Hc. destruct (Hcl Hc) as (C1 & C2 & C3 & C4). destruct (O6 C4) as [O6a O6b]. rewrite C2. split.
    + cbn [map filter head_section known_pair fst pair_of mk_name mk_lines]. rewrite C3. unfold known_pair at 1. cbn [fst]. rewrite Hk, O6a. reflexivity.
    + intros Hl Hg. destruct (Hlead Hl) as [Hms Hl1]. assert (Em : miss' = miss) by (subst miss'; lia).
      unfold no_gaps in Hg. apply Forall_inv_tail in Hg. constructor; [exact Em|]. rewrite <- Em. auto.
  - rewrite Hps. cbn [bind].
    set (is := [_]). change (add_issues (goto miss' (pre' ++ m) p2) is) with (goto miss' (pre' ++ m) (add_issues p2 is)). rewrite goto_pos.
    destruct (skip_to_spec (S (blen src)) (blen (pre' ++ m)) (pre' ++ m) rest' miss' (add_issues p2 is) None E') as (m2 & rest2 & sg & K1 & (S1 & S2 & S3 & S4)).
    { apply nl_no_nl_miss, Hm'. } { pose proof (blen_length rest'). rewrite E', blen_app. lia. } { lia. }
    rewrite K1. cbn [bind].
    destruct (IH ((pre' ++ m) ++ m2) rest2 miss' (add_issues p2 is)) as (p' & L1 & (marks & secs & O1 & O2 & O3 & O4 & O5 & O6)).
    { rewrite E', S1. apply app_assoc. } { rewrite !newlines_app. lia. } { rewrite S1, app_length in Hl2. lia. }
    exists p'. split; [exact L1|]. exists marks, secs.
    split; [rewrite O1; cbn [add_issues p_sections]; rewrite Hd3; reflexivity|]. split; [exact O2|].
    split; [eapply marks_le; [|exact O3]; rewrite (blen_app (pre' ++ m)); lia|]. split; [exact O4|].
    split; [rewrite O5; f_equal; exact Hd2|].
    intros Hc. destruct (Hcl Hc) as (C1 & C2 & C3 & C4). destruct (S3 C4) as [S3a S3b]. rewrite S3a in C4.
    destruct (O6 C4) as [O6a O6b]. rewrite C2. split.
    + cbn [map filter head_section fst]. unfold known_pair at 1. cbn [fst]. rewrite C3, Hk, S3a. exact O6a.
    + intros Hl Hg. destruct (Hlead Hl) as [Hms Hl1]. assert (Em : miss' = miss) by (subst miss'; lia).
      unfold no_gaps in Hg. apply Forall_inv_tail in Hg. rewrite <- Em. apply O6b; [|rewrite <- S3a; exact Hg]. apply S3b. auto.
Qed.
End Main.
