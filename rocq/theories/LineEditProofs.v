From Verif Require Import Base BaseLemmas DocModel DocSpec DocProofs ParseModel ParseSpec EventCmdModel EventCmdSpec EventCmdProofs IncrModel IncrBounds StyleCmdSpec StyleCmdProofs InfoCmdSpec InfoCmdProofs InfoCmdProps EventCmdLine BuilderModel BuilderSpec QueryModel LineEditModel LineEditSpec.

Lemma find_char_free l : ~ In 10%N l -> find_char LineEditModel.is_nl l = None.
Proof.
  intros H. induction l as [|c l IH]; [reflexivity|]. cbn [find_char]. unfold LineEditModel.is_nl at 1. destruct (N.eqb_spec c 10) as [->|]; [destruct H; now left|]. rewrite IH; [reflexivity|]. intros Q. apply H. now right.
Qed.
Lemma find_char_line l r : ~ In 10%N l -> find_char LineEditModel.is_nl (l ++ 10%N :: r) = Some (l, 10%N :: r).
Proof.
  intros H. induction l as [|c l IH]; [reflexivity|]. cbn [app find_char]. unfold LineEditModel.is_nl at 1. destruct (N.eqb_spec c 10) as [->|]; [destruct H; now left|]. rewrite IH; [reflexivity|]. intros Q. apply H. now right.
Qed.
Lemma line_at_line l rest : ~ In 10%N l -> after_line rest -> line_at (l ++ rest) = l.
Proof.
  intros H [->|[r ->]]; unfold line_at; [rewrite app_nil_r, find_char_free by exact H; reflexivity|now rewrite find_char_line].
Qed.
Lemma locate_first p t A l rest : p <> [] -> first_place p t A l rest -> locate p t = Some (blen A, blen A + blen (p ++ l)).
Proof.
  intros N (-> & F & H & R). unfold locate. rewrite find_first by assumption. now rewrite app_assoc, line_at_line.
Qed.
Lemma locate_none p t : ~ has p t -> locate p t = None.
Proof. intros H. unfold locate. now rewrite find_missing. Qed.
Lemma located_replace sz d A m rest l : handled sz d -> text d = A ++ m ++ rest ->
  exists d', doc_replace sz d (range_new (blen A) (blen A + blen m)) l = OOk d' tt /\ text d' = A ++ l ++ rest /\ handled sz d'.
Proof.
  intros H T. unfold range_new. destruct (Nat.leb_spec (blen A) (blen A + blen m)); [|lia]. now apply handled_replace.
Qed.
Lemma put_line_ok sz d A m rest l : handled sz d -> text d = A ++ m ++ rest ->
  exists d', put_line sz d (blen A, blen A + blen m) l = Done (d', Some l) /\ text d' = A ++ l ++ rest /\ handled sz d'.
Proof.
  intros H T. destruct (located_replace sz d A m rest l H T) as (d' & E & R). exists d'. split; [|exact R]. unfold put_line. cbn [fst snd]. rewrite E. reflexivity.
Qed.
Lemma handled_insert sz d A B t : handled sz d -> text d = A ++ B -> exists d', doc_insert sz d (blen A) t = OOk d' tt /\ text d' = A ++ t ++ B /\ handled sz d'.
Proof.
  intros H E. destruct (edit_effect sz d (AInsert (blen A) t) (blen A) (blen A) t (A ++ t ++ B) (handled_inv _ _ H)) as (d' & D & T).
  - exists A, [], B. repeat split; [exact E|cbn; lia].
  - left. auto.
  - exists d'. split; [exact D|]. split; [exact T|]. eapply hd_act; [exact H|]. cbn [do_all]. now rewrite D.
Qed.

(* ---- modifications ---- *)
Lemma pattern_shown e : event_pattern e = shown e.
Proof. reflexivity. Qed.
Lemma shown_ne e : shown e <> [].
Proof. unfold shown. destruct (e_type e); discriminate. Qed.
Lemma set_field_known e k v : In k event_fields -> set_field e (k, v) = Some (with_fields e [(k, v)]).
Proof. destruct e. intros H. repeat (destruct H as [<-|H]; [reflexivity|]). destruct H. Qed.
Lemma set_field_unknown e k v : ~ In k event_fields -> set_field e (k, v) = None.
Proof.
  intros H. destruct e. unfold set_field. assert (G : forall x, In x event_fields -> str_eqb k x = false).
  { intros x Hx. destruct (str_eqb k x) eqn:E; [|reflexivity]. apply str_eqb_eq in E. subst. contradiction. }
  rewrite !G by (unfold event_fields; cbn [map In]; tauto). reflexivity.
Qed.
Lemma with_fields_cons e m ms : with_fields (with_fields e [m]) ms = with_fields e (m :: ms).
Proof. destruct e, m. reflexivity. Qed.
Lemma set_fields_known ms : forall e, Forall (fun m => In (fst m) event_fields) ms -> set_fields e ms = Some (with_fields e ms).
Proof.
  induction ms as [|[k v] ms IH]; intros e F; [destruct e; reflexivity|]. apply Forall_cons_iff in F as [F1 F2]. cbn [set_fields]. rewrite set_field_known by exact F1. rewrite IH by exact F2. now rewrite with_fields_cons.
Qed.
Lemma set_fields_unknown ms : forall e, ~ Forall (fun m => In (fst m) event_fields) ms -> set_fields e ms = None.
Proof.
  induction ms as [|[k v] ms IH]; intros e F; [destruct F; constructor|]. cbn [set_fields]. destruct (in_dec (list_eq_dec N.eq_dec) k event_fields) as [I|I].
  - rewrite set_field_known by exact I. apply IH. intros Q. apply F. now constructor.
  - now rewrite set_field_unknown.
Qed.

(* ---- the format ---- *)
Lemma first_at_cons_skip (h m p : str) : first_at p (h ++ m) -> first_at p m.
Proof. intros F x y E. apply (F (h ++ x) y). now rewrite <- !app_assoc, E. Qed.
Lemma events_format_first t a m f rest : format_after (lit "[Events]") t a m f rest -> events_format t = Some (map trim (split_on is_comma (trim f))).
Proof.
  intros (-> & F1 & F2 & Hf). unfold events_format. rewrite find_first by (try discriminate; exact F1). change (skipn 8 (lit "[Events]" ++ ?x)) with x.
  replace (skipn 8 (lit "[Events]" ++ m ++ lit "Format:" ++ f ++ 10%N :: rest)) with (m ++ lit "Format:" ++ f ++ 10%N :: rest) by reflexivity.
  rewrite find_first by (try discriminate; exact (first_at_cons_skip _ _ _ F2)). replace (skipn 7 (lit "Format:" ++ f ++ 10%N :: rest)) with (f ++ 10%N :: rest) by reflexivity. now rewrite find_char_line.
Qed.
Lemma after_format_first h t a m f rest : format_after h t a m f rest -> after_format (blen a) (h ++ m ++ lit "Format:" ++ f ++ 10%N :: rest) = blen (a ++ h ++ m ++ lit "Format:" ++ f ++ [10%N]).
Proof.
  intros (_ & F1 & F2 & Hf). unfold after_format. rewrite app_assoc, find_first by (try discriminate; exact F2). rewrite (app_assoc (lit "Format:")), find_char_line.
  - rewrite !blen_app. change (blen [10%N]) with 1. lia.
  - rewrite in_app_iff. intros [Q|Q]; [|exact (Hf Q)]. cbn in Q. repeat (destruct Q as [Q|Q]; [discriminate Q|]). destruct Q.
Qed.
Lemma number_plain s : plain_number s -> to_dec (number_or_0 s) = s.
Proof. intros (n & -> & L). unfold number_or_0, parse_u32. now rewrite parse_to_dec. Qed.
Lemma latest_app a b c d : latest (a ++ b) c d = latest b c (latest a c d).
Proof. revert d. induction a as [|[k v] a IH]; intros d; [reflexivity|]. apply IH. Qed.
Lemma told_kept e calls c : plain_numbers e -> In c event_names -> told (calls_of e ++ calls) c = latest (map writes calls) c (own e c).
Proof.
  intros (F & MT & MB) I. unfold told. rewrite map_app, latest_app. f_equal. apply Forall_cons_iff in F as [F1 F]. apply Forall_cons_iff in F as [F2 F]. apply Forall_cons_iff in F as [F3 F]. apply Forall_cons_iff in F as [F4 _].
  apply number_plain in F1, F2, F3, F4. destruct e as [ty la st en sy na ml mr mv mt mb ef te sp]. cbn [e_layer e_margin_l e_margin_r e_margin_v e_margin_t e_margin_b] in *. unfold calls_of. cbn [e_layer e_start e_end e_style e_name e_margin_l e_margin_r e_margin_v e_margin_t e_margin_b e_effect e_text].
  assert (T : forall m, mt = Some m -> to_dec (number_or_0 m) = m) by (intros m M; apply number_plain, MT, M).
  assert (B : forall m, mb = Some m -> to_dec (number_or_0 m) = m) by (intros m M; apply number_plain, MB, M).
  rewrite map_app, map_app. destruct mt as [mt|], mb as [mb|]; cbn [map writes app]; rewrite ?F1, ?F2, ?F3, ?F4, ?(T _ eq_refl), ?(B _ eq_refl);
    unfold event_names in I; repeat (destruct I as [<-|I]; [reflexivity|]); destruct I.
Qed.
Lemma dec_comma n : comma_free (to_dec n).
Proof.
  unfold comma_free. pose proof (to_dec_digits n) as H. rewrite forallb_forall in *. intros c I. apply H in I. unfold is_digit in I. unfold is_comma. destruct (N.eqb_spec c 44) as [->|]; [discriminate I|reflexivity].
Qed.
Lemma dec_trim n : trim_ok (to_dec n).
Proof. apply tight_trim, dec_value. Qed.
Lemma plain_ok e : plain_numbers e -> Forall comma_free [e_start e; e_end e; e_style e; e_name e; e_effect e] -> Forall trim_ok [e_start e; e_end e; e_style e; e_name e; e_effect e; e_text e] ->
  Forall call_ok (calls_of e).
Proof.
  intros P C T. assert (K : forall n c, snd (writes c) = to_dec n -> call_ok c).
  { intros n c E. unfold call_ok. rewrite E. split; [right; apply dec_comma|apply dec_trim]. }
  repeat (apply Forall_cons_iff in C as [? C]). repeat (apply Forall_cons_iff in T as [? T]).
  unfold calls_of. rewrite !Forall_app. split; [|split].
  - repeat match goal with |- Forall _ (_ :: _) => apply Forall_cons end; try apply Forall_nil; try (eapply K; reflexivity); (split; [first [left; reflexivity|right; assumption]|assumption]).
  - destruct (e_margin_t e); [|apply Forall_nil]. apply Forall_cons; [eapply K; reflexivity|apply Forall_nil].
  - destruct (e_margin_b e); [|apply Forall_nil]. apply Forall_cons; [eapply K; reflexivity|apply Forall_nil].
Qed.
