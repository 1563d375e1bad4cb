(* Reading an event line back, and the lines the commands write. *)
From Verif Require Import Base BaseLemmas TimeModel TimeSpec TimeProps DocModel DocSpec DocProofs ParseModel EventCmdModel EventCmdSpec EventCmdProofs.

(* ---- the last comma outside parentheses ---- *)
(* Scanning a closed piece backwards leaves the depth as it was. *)
Lemma scan_nested s : nested s -> forall r i z, (0 < z)%Z -> last_comma (rev s ++ r) (List.length s + i) z = last_comma r i z.
Proof.
  intros H. induction H as [|c s C1 C2 H IH|s t H1 IH1 H2 IH2]; intros r i z Hz.
  - reflexivity.
  - cbn [rev List.length]. rewrite <- app_assoc. cbn [app plus].
    replace (S (List.length s + i)) with (List.length s + S i) by lia. rewrite IH by exact Hz. cbn [last_comma].
    replace (S i - 1) with i by lia.
    destruct (N.eqb_spec c 41); [congruence|]. destruct (N.eqb_spec c 40); [congruence|].
    destruct (Z.eqb_spec z 0); [lia|]. now rewrite andb_false_r.
  - cbn [rev List.length]. rewrite rev_app_distr, app_length. cbn [rev List.length]. rewrite <- !app_assoc. cbn [app].
    replace (S (List.length s + S (List.length t)) + i) with (List.length t + (S (List.length s + S i))) by lia.
    rewrite IH2 by exact Hz. cbn [last_comma]. change (41 =? 41)%N with true.
    replace (S (List.length s + S i) - 1) with (List.length s + S i) by lia. rewrite IH1 by lia. cbn [last_comma].
    change (40 =? 41)%N with false. change (40 =? 40)%N with true. replace (S i - 1) with i by lia. f_equal. lia.
Qed.
Lemma scan_shielded s : shielded s -> forall r i, last_comma (rev s ++ r) (List.length s + i) 0 = last_comma r i 0.
Proof.
  intros H. induction H as [|c s C1 C2 C3 H IH|s t H1 H2 IH2]; intros r i.
  - reflexivity.
  - cbn [rev List.length]. rewrite <- app_assoc. cbn [app plus].
    replace (S (List.length s + i)) with (List.length s + S i) by lia. rewrite IH. cbn [last_comma].
    replace (S i - 1) with i by lia. unfold is_comma.
    destruct (N.eqb_spec c 41); [congruence|]. destruct (N.eqb_spec c 40); [congruence|].
    destruct (N.eqb_spec c 44); [congruence|]. reflexivity.
  - cbn [rev List.length]. rewrite rev_app_distr, app_length. cbn [rev List.length]. rewrite <- !app_assoc. cbn [app].
    replace (S (List.length s + S (List.length t)) + i) with (List.length t + (S (List.length s + S i))) by lia.
    rewrite IH2. cbn [last_comma]. change (41 =? 41)%N with true.
    replace (S (List.length s + S i) - 1) with (List.length s + S i) by lia. rewrite scan_nested by (exact H1 || lia). cbn [last_comma].
    change (40 =? 41)%N with false. change (40 =? 40)%N with true. replace (S i - 1) with i by lia. reflexivity.
Qed.
Lemma comma_found x t : shielded t -> last_comma (rev (x ++ 44%N :: t)) (List.length (x ++ 44%N :: t)) 0 = Some (List.length x).
Proof.
  intros H. rewrite rev_app_distr, app_length. cbn [rev List.length]. rewrite <- app_assoc. cbn [app].
  replace (List.length x + S (List.length t)) with (List.length t + S (List.length x)) by lia. rewrite scan_shielded by exact H.
  cbn [last_comma]. change (44 =? 41)%N with false. change (44 =? 40)%N with false. change (is_comma 44) with true.
  change ((0 =? 0)%Z) with true. cbn [andb]. f_equal. lia.
Qed.

(* ---- white space ---- *)
Lemma tight_trim s : tight s -> trim s = s.
Proof.
  intros [H1 H2]. unfold trim, trim_start, trim_end. rewrite drop_while_id.
  - apply drop_end_id. destruct s as [|c s]; [now left|right]. destruct (@exists_last _ (c :: s)) as (l & x & E); [discriminate|].
    exists l, x. split; [exact E|]. now apply (H2 x l).
  - destruct s as [|c s]; [exact I|]. now apply (H1 c s).
Qed.
Lemma tight_join a m b : tight a -> tight b -> tight (a ++ 44%N :: m ++ 44%N :: b).
Proof.
  intros [A1 A2] [B1 B2]. split; intros c r E.
  - destruct a as [|x a]; [injection E as <- _; reflexivity|]. injection E as <- _. eapply A1. reflexivity.
  - destruct b as [|x b].
    + rewrite app_comm_cons, app_assoc in E. apply app_inj_tail in E as [_ <-]. reflexivity.
    + destruct (@exists_last _ (x :: b)) as (l & y & F); [discriminate|]. rewrite F in *.
      replace (a ++ 44%N :: m ++ 44%N :: l ++ [y]) with ((a ++ 44%N :: m ++ 44%N :: l) ++ [y]) in E by (now rewrite <- !app_assoc; cbn [app]; rewrite <- !app_assoc).
      apply app_inj_tail in E as [_ <-]. eapply B2. reflexivity.
Qed.
Lemma tight_join1 a b : tight a -> tight b -> tight (a ++ 44%N :: b).
Proof.
  intros [A1 A2] [B1 B2]. split; intros c r E.
  - destruct a as [|x a]; [injection E as <- _; reflexivity|]. injection E as <- _. eapply A1. reflexivity.
  - destruct b as [|x b].
    + apply app_inj_tail in E as [_ <-]. reflexivity.
    + destruct (@exists_last _ (x :: b)) as (l & y & F); [discriminate|]. rewrite F in *.
      replace (a ++ 44%N :: l ++ [y]) with ((a ++ 44%N :: l) ++ [y]) in E by (now rewrite <- !app_assoc).
      apply app_inj_tail in E as [_ <-]. eapply B2. reflexivity.
Qed.

(* ---- commas ---- *)
Lemma splitn_step n a b : ~ In 44%N a -> splitn (S (S n)) is_comma (a ++ 44%N :: b) = a :: splitn (S n) is_comma b.
Proof.
  intros H. cbn [splitn].
  assert (F : find_char is_comma (a ++ 44%N :: b) = Some (a, 44%N :: b)).
  { apply find_char_some. split; [reflexivity|]. split; [|now exists 44%N, b].
    apply forallb_forall. intros c Hc. unfold is_comma. destruct (N.eqb_spec c 44); [subst; contradiction|reflexivity]. }
  now rewrite F.
Qed.
Lemma write_text e : write_event e = event_text e.
Proof. unfold write_event, event_text. destruct (le_comment e); reflexivity. Qed.

Definition fields_of (e : line_event) : str :=
  le_layer e ++ 44%N :: le_start e ++ 44%N :: le_end e ++ 44%N :: le_style e ++ 44%N :: le_name e ++ 44%N ::
  le_left e ++ 44%N :: le_right e ++ 44%N :: le_vertical e ++ 44%N :: le_effect e ++ 44%N :: le_text e.
Lemma event_fields e : event_text e = (if le_comment e then lit "Comment" else lit "Dialogue") ++ 58%N :: 32%N :: fields_of e.
Proof. unfold event_text, fields_of. destruct (le_comment e); reflexivity. Qed.
Lemma fields_tight e : clean e -> trim (32%N :: fields_of e) = fields_of e.
Proof.
  intros (L & _ & _ & _ & _ & _ & _ & _ & _ & _ & T & _).
  change (32%N :: fields_of e) with ([32%N] ++ fields_of e ++ []) || rewrite <- (app_nil_r (32%N :: fields_of e)).
  assert (G : trim (fields_of e) = fields_of e).
  { apply tight_trim. unfold fields_of. destruct L as [L _].
    match goal with |- tight (?a ++ 44%N :: ?m) => set (M := m) end.
    assert (X : exists m', M = m' ++ 44%N :: le_text e).
    { unfold M. exists (le_start e ++ 44%N :: le_end e ++ 44%N :: le_style e ++ 44%N :: le_name e ++ 44%N ::
        le_left e ++ 44%N :: le_right e ++ 44%N :: le_vertical e ++ 44%N :: le_effect e). repeat (rewrite <- ?app_assoc; cbn [app]). reflexivity. }
    destruct X as [m' ->]. now apply tight_join. }
  replace ((32%N :: fields_of e) ++ []) with ([32%N] ++ fields_of e ++ []) by reflexivity.
  apply trim_app_ws; [reflexivity|reflexivity|exact G].
Qed.
Lemma parse_clean e : clean e -> parse_event_line (event_text e) = Done (Some e).
Proof.
  intros HC. pose proof (fields_tight e HC) as FT. rewrite event_fields. unfold parse_event_line.
  match goal with |- context [find_char ?p _] => assert (F : find_char p ((if le_comment e then lit "Comment" else lit "Dialogue") ++ 58%N :: 32%N :: fields_of e)
              = Some (if le_comment e then lit "Comment" else lit "Dialogue", 58%N :: 32%N :: fields_of e)) end.
  { apply find_char_some. split; [reflexivity|]. split; [now destruct (le_comment e)|now exists 58%N, (32%N :: fields_of e)]. }
  rewrite F. cbn [tl]. rewrite FT.
  replace (str_eqb (if le_comment e then lit "Comment" else lit "Dialogue") (lit "Comment")) with (le_comment e) by (now destruct (le_comment e)).
  replace (negb (str_eqb (if le_comment e then lit "Comment" else lit "Dialogue") (lit "Dialogue") || le_comment e)) with false by (now destruct (le_comment e)).
  destruct HC as ((T0 & C0) & (T1 & C1) & (T2 & C2) & (T3 & C3) & (T4 & C4) & (T5 & C5) & (T6 & C6) & (T7 & C7) & (T8 & C8) & As & Tt & Sh).
  unfold fields_of.
  rewrite splitn_step by exact C0. rewrite splitn_step by exact C1. rewrite splitn_step by exact C2. rewrite splitn_step by exact C3.
  rewrite splitn_step by exact C4. rewrite splitn_step by exact C5. rewrite splitn_step by exact C6. rewrite splitn_step by exact C7.
  rewrite splitn_step by exact C8. cbn [splitn].
  match goal with |- context [slice_from ?s ?n] => assert (SF : slice_from s n = Some (le_effect e ++ 44%N :: le_text e)) end.
  { apply slice_from_spec.
    exists (le_layer e ++ 44%N :: le_start e ++ 44%N :: le_end e ++ 44%N :: le_style e ++ 44%N :: le_name e ++ 44%N ::
            le_left e ++ 44%N :: le_right e ++ 44%N :: le_vertical e ++ [44%N]).
    split; [repeat (rewrite <- ?app_assoc; cbn [app]); reflexivity|].
    cbn [map list_sum fold_right]. rewrite !blen_app, !blen_cons, !blen_app, !blen_cons, !blen_app, !blen_cons, !blen_app, !blen_cons, !blen_app, !blen_cons, !blen_app, !blen_cons, !blen_app, !blen_cons, !blen_app.
    change (len_utf8 44) with 1. change (blen [44%N]) with 1. unfold list_sum. cbn [fold_right]. lia. }
  rewrite SF. cbn [need bind]. unfold split_effect. rewrite comma_found by exact Sh.
  rewrite <- (blen_ascii (le_effect e)) by exact As. rewrite slice_to_app. cbn [need bind].
  assert (SF2 : slice_from (le_effect e ++ 44%N :: le_text e) (blen (le_effect e) + 1) = Some (le_text e)).
  { apply slice_from_spec. exists (le_effect e ++ [44%N]). split; [now rewrite <- app_assoc|]. rewrite blen_app. reflexivity. }
  rewrite SF2. cbn [need bind fst snd].
  rewrite !tight_trim by assumption. now destruct e.
Qed.
