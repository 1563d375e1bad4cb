From Verif Require Import Base BaseLemmas TimeSpec DocModel DocSpec DocProofs ParseModel EventCmdModel EventCmdSpec.
From Verif Require IncrBounds.

(* ---- one line of the text ---- *)
Lemma blen_line A l : blen A + blen l + 1 = blen (A ++ l ++ [10%N]).
Proof. rewrite !blen_app. change (blen [10%N]) with 1. lia. Qed.
Lemma event_line_spec l : is_event_line l = true <-> is_event l.
Proof.
  unfold is_event_line, is_event. rewrite orb_true_iff, !starts_with_spec. reflexivity.
Qed.
Lemma event_line_false l : is_event_line l = false <-> ~ is_event l.
Proof. rewrite <- event_line_spec. destruct (is_event_line l); split; congruence. Qed.
Lemma header_false l : starts_with (lit "[") l = false <-> forall r, l <> lit "[" ++ r.
Proof.
  destruct (starts_with (lit "[") l) eqn:E.
  - apply starts_with_spec in E as [r E]. split; [discriminate|]. intros H. now destruct (H r).
  - split; [|reflexivity]. intros _ r ->. rewrite starts_with_app in E. discriminate.
Qed.
Lemma no_newline l : ~ In 10%N l -> forallb (fun c => negb (is_nl c)) l = true.
Proof.
  intros H. apply forallb_forall. intros c Hc. unfold is_nl. destruct (N.eqb_spec c 10); [subst; contradiction|reflexivity].
Qed.
Lemma newline_split l rest : ~ In 10%N l -> after_line rest ->
  find_char is_nl (l ++ rest) = match rest with [] => None | _ => Some (l, rest) end.
Proof.
  intros H [->|[r ->]].
  - rewrite app_nil_r. apply find_char_none. now apply no_newline.
  - apply find_char_some. split; [reflexivity|]. split; [now apply no_newline|]. now exists 10%N, r.
Qed.
Lemma line_end_at A l rest : ~ In 10%N l -> after_line rest -> line_end (A ++ l ++ rest) (l ++ rest) (blen A) = blen A + blen l.
Proof.
  intros H1 H2. unfold line_end. rewrite newline_split by assumption.
  destruct rest as [|c r]; [|reflexivity]. rewrite !blen_app. cbn. lia.
Qed.
Lemma blen_pos (l : str) : l <> [] -> 0 < blen l.
Proof. destruct l as [|c l]; [congruence|]. intros _. rewrite blen_cons. pose proof (len_utf8_pos c). lia. Qed.

(* Where the loop stands: after A, at the line l. *)
Lemma edit_step f sz named rw d i A l rest tot n :
  text d = A ++ l ++ rest -> in_section l -> after_line rest ->
  edit_events (S f) sz named rw d i (blen A) tot n =
    if is_event_line l then
      if selected named i then
        new <- rw l ;;
        match new with
        | Some l' =>
          and_then (of_out (doc_replace sz d (mkRange (blen A) (blen A + blen l)) l')) (fun d1 _ =>
            let change := range_new (blen A) (blen A + blen l') in
            edit_events f sz named rw d1 (i + 1) (blen A + blen l + 1)
              (Some (match tot with Some r => range_union r change | None => change end)) (n + 1))
        | None => edit_events f sz named rw d (i + 1) (blen A + blen l + 1) tot n
        end
      else edit_events f sz named rw d (i + 1) (blen A + blen l + 1) tot n
    else edit_events f sz named rw d i (blen A + blen l + 1) tot n.
Proof.
  intros E (Hne & Hnl & Hh) Hr. cbn [edit_events]. rewrite E.
  pose proof (blen_pos l Hne) as Hp.
  destruct (Nat.ltb_spec (blen A) (blen (A ++ l ++ rest))); [|rewrite !blen_app in *; lia].
  rewrite slice_from_app. cbn [need bind]. rewrite line_end_at by assumption.
  destruct (Nat.leb_spec (blen A + blen l) (blen A)); [lia|].
  rewrite slice_app. cbn [need bind]. rewrite range_new_le by lia.
  apply header_false in Hh. rewrite Hh. reflexivity.
Qed.

(* ---- nothing left to change ---- *)

Lemma line_of rest : exists l r, rest = l ++ r /\ ~ In 10%N l /\ after_line r.
Proof.
  induction rest as [|c s (l & r & -> & H1 & H2)].
  - exists [], []. split; [reflexivity|]. split; [easy|now left].
  - destruct (N.eq_dec c 10) as [->|N].
    + exists [], (10%N :: l ++ r). split; [reflexivity|]. split; [easy|right; eauto].
    + exists (c :: l), r. split; [reflexivity|]. split; [|exact H2]. intros [->|H]; [congruence|contradiction].
Qed.
Lemma edit_idle named rw sz d tot n : forall f i p,
  (forall j, i <= j -> selected named j = false) -> at_character (text d) p -> S (blen (text d) - p) <= f ->
  edit_events f sz named rw d i p tot n = Done (d, Some (tot, n)).
Proof.
  intros f. induction f as [|f IH]; intros i p Hs Hb Hf; [lia|].
  destruct (Nat.ltb_spec p (blen (text d))) as [L|L].
  - destruct Hb as [Hb|(A & rest & E & <-)]; [lia|].
    destruct (line_of rest) as (l & r & -> & Hnl & Hr).
    destruct l as [|c l'].
    { cbn [edit_events]. destruct (Nat.ltb_spec (blen A) (blen (text d))); [|lia]. rewrite E, slice_from_app. cbn [need bind app].
      destruct Hr as [->|[r' ->]].
      - unfold line_end. cbn [find_char]. rewrite app_nil_r. now rewrite Nat.leb_refl.
      - unfold line_end. cbn [find_char app]. rewrite ?N.eqb_refl. change (is_nl 10) with true. cbn [blen]. rewrite Nat.add_0_r, Nat.leb_refl. reflexivity. }
    set (l := c :: l') in *.
    assert (Hp : 0 < blen l) by (apply blen_pos; discriminate). clearbody l.
    assert (N : at_character (text d) (blen A + blen l + 1)).
    { rewrite E. destruct Hr as [->|[r' ->]].
      - left. rewrite !blen_app. cbn. lia.
      - right. exists (A ++ l ++ [10%N]), r'. split; [now rewrite <- !app_assoc|]. symmetry. apply blen_line. }
    assert (B : S (blen (text d) - (blen A + blen l + 1)) <= f) by lia.
    cbn [edit_events]. destruct (Nat.ltb_spec (blen A) (blen (text d))); [|lia].
    replace (slice_from (text d) (blen A)) with (Some (l ++ r)) by (rewrite E; symmetry; apply slice_from_app). cbn [need bind].
    replace (line_end (text d) (l ++ r) (blen A)) with (blen A + blen l) by (rewrite E; symmetry; now apply line_end_at).
    destruct (Nat.leb_spec (blen A + blen l) (blen A)); [lia|].
    replace (slice (text d) (blen A) (blen A + blen l)) with (Some l) by (rewrite E; symmetry; apply slice_app). cbn [need bind]. rewrite Hs by lia.
    rewrite !IH; try assumption; try lia; [|intros; apply Hs; lia].
    destruct (is_event_line l), (starts_with (lit "[") l); reflexivity.
  - cbn [edit_events]. destruct (Nat.ltb_spec p (blen (text d))); [lia|reflexivity].
Qed.

(* ---- replacing in a document ---- *)
Lemma do_all_snoc sz l a d d1 : do_all sz d l = Some d1 -> do_all sz d (l ++ [a]) = match do_act sz d1 a with OOk d2 _ | OErr d2 => Some d2 | OPanic => None end.
Proof.
  revert d. induction l as [|x l IH]; intros d H; cbn [app do_all] in *.
  - injection H as ->. destruct (do_act sz d1 a); reflexivity.
  - destruct (do_act sz d x); [now apply IH|now apply IH|discriminate].
Qed.
Lemma reached_act sz d a d' : reached sz d -> do_act sz d a = OOk d' tt -> reached sz d'.
Proof.
  intros (me & mm & t0 & l & E) D. exists me, mm, t0, (l ++ [a]). rewrite (do_all_snoc _ _ _ _ _ E), D. reflexivity.
Qed.
Lemma reached_inv sz d : reached sz d -> hinv (history d).
Proof. intros (me & mm & t0 & l & E). eapply do_all_inv; [apply fresh_inv|exact E]. Qed.
Lemma replace_ok sz d A m B t : reached sz d -> text d = A ++ m ++ B ->
  exists d', doc_replace sz d (mkRange (blen A) (blen A + blen m)) t = OOk d' tt /\ text d' = A ++ t ++ B /\ reached sz d'.
Proof.
  intros H E.
  destruct (edit_effect sz d (AReplace (mkRange (blen A) (blen A + blen m)) t) (blen A) (blen A + blen m) t (A ++ t ++ B) (reached_inv _ _ H)) as (d' & D & T).
  - exists A, m, B. now repeat split.
  - now right; right.
  - exists d'. split; [exact D|]. split; [exact T|]. exact (reached_act _ _ _ _ H D).
Qed.
Lemma delete_ok sz d A m B : reached sz d -> text d = A ++ m ++ B ->
  exists d', doc_delete sz d (mkRange (blen A) (blen A + blen m)) = OOk d' tt /\ text d' = A ++ B /\ reached sz d'.
Proof.
  intros H E.
  destruct (edit_effect sz d (ADelete (mkRange (blen A) (blen A + blen m))) (blen A) (blen A + blen m) [] (A ++ B) (reached_inv _ _ H)) as (d' & D & T).
  - exists A, m, B. now repeat split.
  - now right; left.
  - exists d'. split; [exact D|]. split; [exact T|]. exact (reached_act _ _ _ _ H D).
Qed.

(* ---- the selection ---- *)
Lemma selected_spec named i : selected named i = true <-> named = [] \/ In i named.
Proof.
  unfold selected. rewrite orb_true_iff, existsb_exists. split.
  - intros [H|(x & Hx & E)]; [left; now destruct named|right]. apply Nat.eqb_eq in E. now subst.
  - intros [->|H]; [now left|right]. exists i. split; [exact H|apply Nat.eqb_refl].
Qed.
Lemma selected_false named i : selected named i = false <-> named <> [] /\ ~ In i named.
Proof.
  destruct (selected named i) eqn:E.
  - apply selected_spec in E. split; [discriminate|]. intros [H1 H2]. tauto.
  - split; [|reflexivity]. intros _. split; intros H; (enough (selected named i = true) by congruence); apply selected_spec; tauto.
Qed.
Lemma selected_one k j : selected [k] j = true <-> j = k.
Proof. rewrite selected_spec. cbn [In]. split; [intros [?|[?|[]]]; congruence|right; left; congruence]. Qed.

(* ---- lines before the one that is changed ---- *)
Lemma ended_cons l ls : ended (l :: ls) = l ++ 10%N :: ended ls.
Proof. unfold ended. cbn [map concat]. now rewrite <- app_assoc. Qed.
Lemma edit_skip sz rw tot n k : forall before f d i A rest c,
  text d = A ++ ended before ++ rest -> Forall in_section before -> event_count before c -> i + c <= k ->
  edit_events (List.length before + f) sz [k] rw d i (blen A) tot n =
  edit_events f sz [k] rw d (i + c) (blen (A ++ ended before)) tot n.
Proof.
  intros before. induction before as [|l ls IH]; intros f d i A rest c E HF HC Hk.
  - inversion HC; subst. cbn. now rewrite app_nil_r, Nat.add_0_r.
  - rewrite ended_cons in *. inversion HF as [|? ? Hl Hls]; subst. cbn [List.length plus].
    rewrite (edit_step _ sz [k] rw d i A l (10%N :: ended ls ++ rest)); [|rewrite E; now rewrite <- !app_assoc|exact Hl|right; eauto].
    assert (A1 : blen A + blen l + 1 = blen (A ++ l ++ [10%N])) by (symmetry; symmetry; apply blen_line).
    assert (T : text d = (A ++ l ++ [10%N]) ++ ended ls ++ rest) by (rewrite E; now rewrite <- !app_assoc).
    assert (Q : A ++ l ++ 10%N :: ended ls = (A ++ l ++ [10%N]) ++ ended ls) by (now rewrite <- !app_assoc).
    rewrite Q, A1. inversion HC as [|? ? m Hev HC'|? ? m Hev HC']; subst.
    + rewrite (proj2 (event_line_spec l) Hev). assert (S : selected [k] i = false).
      { destruct (selected [k] i) eqn:S; [|reflexivity]. apply selected_one in S. lia. }
      rewrite S, (IH f d (i + 1) _ rest m T Hls HC') by lia. f_equal; lia.
    + rewrite (proj2 (event_line_false l) Hev). apply (IH f d i _ rest c T Hls HC'). lia.
Qed.

(* ---- one change ---- *)
Definition one_change (A l l' rest : str) := range_new (blen A) (blen A + blen l').
Lemma edit_one sz rw k d i A before l l' rest f c :
  reached sz d -> text d = A ++ ended before ++ l ++ rest ->
  Forall in_section before -> event_count before c -> i + c = k -> in_section l -> is_event l -> after_line rest ->
  rw l = Done (Some l') ->
  at_character (A ++ ended before ++ l' ++ rest) (blen (A ++ ended before ++ l) + 1) ->
  List.length before + blen (A ++ ended before ++ l' ++ rest) + 2 <= f ->
  exists d', edit_events f sz [k] rw d i (blen A) None 0 =
      Done (d', Some (Some (mkRange (blen (A ++ ended before)) (blen (A ++ ended before ++ l'))), 1)) /\
    text d' = A ++ ended before ++ l' ++ rest /\ reached sz d'.
Proof.
  intros H E HF HC Hk Hl Hev Hr Hw Hb Hf.
  replace f with (List.length before + (f - List.length before)) by lia.
  rewrite (edit_skip sz rw None 0 k before _ d i A (l ++ rest) c E HF HC) by lia.
  set (P := A ++ ended before) in *.
  replace (f - List.length before) with (S (f - List.length before - 1)) by lia.
  assert (E' : text d = P ++ l ++ rest) by (unfold P; rewrite E; now rewrite <- !app_assoc).
  rewrite (edit_step _ sz [k] rw d (i + c) P l rest); [|exact E'|exact Hl|exact Hr].
  rewrite (proj2 (event_line_spec l) Hev). rewrite (proj2 (selected_one k (i + c)) Hk). rewrite Hw. cbn [bind].
  destruct (replace_ok sz d P l rest l' H E') as (d' & D & T & I). rewrite D. cbn [of_out and_then bind fst snd].
  assert (T' : text d' = A ++ ended before ++ l' ++ rest) by (rewrite T; unfold P; now rewrite <- !app_assoc).
  exists d'. split; [|split; [exact T'|exact I]].
  rewrite edit_idle.
  - rewrite range_new_le by lia. unfold P. repeat f_equal. rewrite !blen_app. lia.
  - intros j Hj. destruct (selected [k] j) eqn:S; [|reflexivity]. apply selected_one in S. lia.
  - rewrite T'. replace (blen P + blen l + 1) with (blen (A ++ ended before ++ l) + 1); [exact Hb|]. unfold P. rewrite !blen_app. lia.
  - rewrite T'. lia.
Qed.
(* The loop panics when the byte where it goes on is inside a character. *)
Lemma edit_one_panics sz rw k d i A before l l' rest f c :
  reached sz d -> text d = A ++ ended before ++ l ++ rest ->
  Forall in_section before -> event_count before c -> i + c = k -> in_section l -> is_event l -> after_line rest ->
  rw l = Done (Some l') ->
  ~ at_character (A ++ ended before ++ l' ++ rest) (blen (A ++ ended before ++ l) + 1) ->
  List.length before + 2 <= f ->
  edit_events f sz [k] rw d i (blen A) None 0 = Crash.
Proof.
  intros H E HF HC Hk Hl Hev Hr Hw Hb Hf.
  replace f with (List.length before + (f - List.length before)) by lia.
  rewrite (edit_skip sz rw None 0 k before _ d i A (l ++ rest) c E HF HC) by lia.
  set (P := A ++ ended before) in *.
  replace (f - List.length before) with (S (S (f - List.length before - 2))) by lia.
  assert (E' : text d = P ++ l ++ rest) by (unfold P; rewrite E; now rewrite <- !app_assoc).
  rewrite (edit_step _ sz [k] rw d (i + c) P l rest); [|exact E'|exact Hl|exact Hr].
  rewrite (proj2 (event_line_spec l) Hev). rewrite (proj2 (selected_one k (i + c)) Hk). rewrite Hw. cbn [bind].
  destruct (replace_ok sz d P l rest l' H E') as (d' & D & T & I). rewrite D. cbn [of_out and_then bind fst snd].
  assert (T' : text d' = A ++ ended before ++ l' ++ rest) by (rewrite T; unfold P; now rewrite <- !app_assoc).
  replace (blen P + blen l + 1) with (blen (A ++ ended before ++ l) + 1) by (unfold P; rewrite !blen_app; lia).
  cbn [edit_events]. rewrite T'.
  set (p := blen (A ++ ended before ++ l) + 1) in *. set (s := A ++ ended before ++ l' ++ rest) in *.
  destruct (Nat.ltb_spec p (blen s)); [|exfalso; apply Hb; left; lia].
  destruct (slice_from s p) as [b|] eqn:Sl; [|reflexivity].
  exfalso. apply Hb. right. apply slice_from_spec in Sl as (a & E1 & E2). eauto.
Qed.

(* ---- changes that keep the length of the line ---- *)
(* The lines end: at the end of the text, at an empty line or at a header. *)
Definition stops (rest : str) : Prop := rest = [] \/ (exists r, rest = 10%N :: r) \/ (exists r, rest = lit "[" ++ r).
Lemma edit_stops f sz named rw d i A rest tot n : text d = A ++ rest -> stops rest ->
  edit_events (S f) sz named rw d i (blen A) tot n = Done (d, Some (tot, n)).
Proof.
  intros E [->|[[r ->]|[r ->]]]; cbn [edit_events]; rewrite E.
  - rewrite app_nil_r, Nat.ltb_irrefl. reflexivity.
  - destruct (Nat.ltb_spec (blen A) (blen (A ++ 10%N :: r))); [|reflexivity].
    rewrite slice_from_app. cbn [need bind]. unfold line_end. cbn [find_char]. change (is_nl 10) with true. cbn [blen].
    now rewrite Nat.add_0_r, Nat.leb_refl.
  - destruct (Nat.ltb_spec (blen A) (blen (A ++ lit "[" ++ r))); [|reflexivity].
    rewrite slice_from_app. cbn [need bind].
    destruct (line_of r) as (l & r' & -> & Hnl & Hr).
    change (lit "[" ++ l ++ r') with ((lit "[" ++ l) ++ r').
    assert (Hnl' : ~ In 10%N (lit "[" ++ l)) by (intros [Q|Q]; [discriminate|contradiction]).
    rewrite line_end_at by assumption. destruct (Nat.leb_spec (blen A + blen (lit "[" ++ l)) (blen A)); [reflexivity|].
    rewrite slice_app. cbn [need bind]. reflexivity.
Qed.

Lemma section_end_after rest : section_end rest -> after_line rest.
Proof. unfold section_end, after_line. intros [->|[->|[[r ->]|[r ->]]]]; eauto. Qed.
Lemma edit_ends f sz named rw d i A l rest tot n : text d = A ++ l ++ rest -> section_end rest ->
  edit_events (S f) sz named rw d i (blen A + blen l + 1) tot n = Done (d, Some (tot, n)).
Proof.
  intros E [->|H].
  - cbn [edit_events]. rewrite E. destruct (Nat.ltb_spec (blen A + blen l + 1) (blen (A ++ l ++ []))); [|reflexivity].
    exfalso. rewrite !blen_app in *. cbn [blen] in *. lia.
  - rewrite blen_line. destruct H as [->|[[r ->]|[r ->]]].
    + apply (edit_stops f sz named rw d i _ []); [rewrite E; now rewrite <- !app_assoc|now left].
    + apply (edit_stops f sz named rw d i _ (10%N :: r)); [rewrite E; now rewrite <- !app_assoc|right; left; eauto].
    + apply (edit_stops f sz named rw d i _ (lit "[" ++ r)); [rewrite E; now rewrite <- !app_assoc|right; right; eauto].
Qed.
Lemma changed_nonempty R named i ls ls' k : changed_by R named i ls ls' k -> ls <> [] -> ls' <> [].
Proof. intros H. destruct H; congruence. Qed.
Lemma edit_all sz named rw (R : str -> str -> Prop) : (forall l l', R l l' -> rw l = Done (Some l') /\ resumes l l') ->
  forall ls ls' i k f d A rest tot n, reached sz d -> text d = A ++ join [10%N] ls ++ rest -> section_end rest ->
  Forall in_section ls -> changed_by R named i ls ls' k -> 2 * List.length ls + 1 <= f ->
  exists d' tot', edit_events f sz named rw d i (blen A) tot n = Done (d', Some (tot', n + k)) /\
    text d' = A ++ join [10%N] ls' ++ rest /\ reached sz d'.
Proof.
  intros HR ls. induction ls as [|l ls IH]; intros ls' i k f d A rest tot n H E Hr HF HC Hf.
  - inversion HC; subst. exists d, tot. rewrite Nat.add_0_r. split; [|auto].
    destruct f as [|f]; [cbn in Hf; lia|]. apply (edit_stops f sz named rw d i A rest); [exact E|].
    unfold stops. destruct Hr as [->|[->|[[r ->]|[r ->]]]]; eauto.
  - inversion HF as [|? ? Hl Hls]; subst. cbn [List.length] in Hf. destruct f as [|f]; [lia|].
    (* what follows this line, before and after *)
    assert (J : forall x y, join [10%N] (x :: y) = x ++ match y with [] => [] | _ => 10%N :: join [10%N] y end).
    { intros x [|y1 y2]; cbn [join]; [now rewrite app_nil_r|reflexivity]. }
    set (tail := fun y : list str => match y with [] => [] | _ => 10%N :: join [10%N] y end ++ rest).
    assert (E0 : text d = A ++ l ++ tail ls) by (rewrite E, J; unfold tail; now rewrite <- !app_assoc).
    assert (AT : after_line (tail ls)).
    { unfold tail. destruct ls; [cbn [app]; now apply section_end_after|right; eexists; reflexivity]. }
    rewrite (edit_step _ sz named rw d i A l (tail ls)) by assumption.
    (* the rounds that follow *)
    assert (Next : forall f l' ls1 i1 k1 d1 tot1 n1, 2 * List.length ls + 1 <= f -> reached sz d1 -> text d1 = A ++ l' ++ tail ls ->
      changed_by R named i1 ls ls1 k1 ->
      exists d' tot', edit_events f sz named rw d1 i1 (blen A + blen l' + 1) tot1 n1 = Done (d', Some (tot', n1 + k1)) /\
        text d' = A ++ join [10%N] (l' :: ls1) ++ rest /\ reached sz d').
    { clear f Hf. intros f l' ls1 i1 k1 d1 tot1 n1 Hf H1 E1 C1. destruct ls as [|l2 ls2].
      - inversion C1; subst. exists d1, tot1. rewrite Nat.add_0_r. destruct f as [|f]; [cbn in Hf; lia|].
        rewrite (edit_ends f sz named rw d1 i1 A l' rest); [|exact E1|exact Hr]. split; [reflexivity|]. split; [exact E1|exact H1].
      - rewrite blen_line.
        destruct (IH ls1 i1 k1 f d1 (A ++ l' ++ [10%N]) rest tot1 n1 H1) as (d' & tot' & X1 & X2 & X3).
        + rewrite E1. unfold tail. rewrite <- !app_assoc. reflexivity.
        + exact Hr.
        + exact Hls.
        + exact C1.
        + lia.
        + exists d', tot'. split; [exact X1|]. split; [|exact X3]. rewrite X2. rewrite J.
          destruct ls1 as [|z zs]; [exfalso; eapply changed_nonempty; [exact C1|discriminate|reflexivity]|].
          rewrite <- !app_assoc. reflexivity. }
    inversion HC as [|? ? l' ? ls1 k' Hev Hn Hrw HC'|? ? ? ls1 k' Hev Hn1 Hn2 HC'|? ? ? ls1 k' Hev HC']; subst.
    + rewrite (proj2 (event_line_spec l) Hev), (proj2 (selected_spec named i) Hn). destruct (HR _ _ Hrw) as [Ew Eb]. rewrite Ew. cbn [bind].
      destruct (replace_ok sz d A l (tail ls) l' H E0) as (d1 & D & T1 & I1).
      rewrite D. cbn [of_out and_then bind fst snd].
      replace (i + 1) with (S i) by lia. replace (n + S k') with (n + 1 + k') by lia.
      destruct Eb as [Eb|(u & v & -> & Bu & Hv & Nv)].
      * rewrite <- Eb. apply (Next f l' ls1 (S i) k' d1 _ (n + 1)); try assumption. lia.
      * destruct f as [|f]; [lia|].
        replace (blen A + blen l + 1) with (blen (A ++ u)) by (rewrite blen_app; lia).
        rewrite (edit_step f sz named rw d1 (S i) (A ++ u) v (tail ls)); [|rewrite T1; now rewrite <- !app_assoc|exact Hv|exact AT].
        rewrite (proj2 (event_line_false v) Nv).
        replace (blen (A ++ u) + blen v + 1) with (blen A + blen (u ++ v) + 1) by (rewrite !blen_app; lia).
        apply (Next f (u ++ v) ls1 (S i) k' d1 _ (n + 1)); try assumption. lia.
    + rewrite (proj2 (event_line_spec l) Hev), (proj2 (selected_false named i) (conj Hn1 Hn2)).
      replace (i + 1) with (S i) by lia. apply (Next f l ls1 (S i) k d tot n); try assumption. lia.
    + rewrite (proj2 (event_line_false l) Hev). apply (Next f l ls1 i k d tot n); try assumption. lia.
Qed.

(* ---- the format line ---- *)
Lemma find_first p a y : p <> [] -> first_at p a -> find_str p (a ++ p ++ y) = Some (a, p ++ y).
Proof.
  intros Hp H. induction a as [|c a IH].
  - cbn [app]. destruct (p ++ y) as [|x s] eqn:E.
    + destruct p; [congruence|discriminate].
    + cbn [find_str]. rewrite <- E, starts_with_app. reflexivity.
  - cbn [app find_str]. destruct (starts_with p (c :: a ++ p ++ y)) eqn:S.
    + exfalso. apply starts_with_spec in S as [z Z].
      assert (P : exists w, (c :: a) ++ p = p ++ w).
      { change (c :: a ++ p ++ y) with ((c :: a) ++ p ++ y) in Z. rewrite app_assoc in Z.
        exists (skipn (List.length p) ((c :: a) ++ p)).
        apply (f_equal (firstn (List.length p))) in Z. rewrite firstn_app, (firstn_app (List.length p) p z), Nat.sub_diag, firstn_all, firstn_O, app_nil_r in Z.
        replace (List.length p - List.length ((c :: a) ++ p)) with 0 in Z by (rewrite app_length; lia). rewrite firstn_O, app_nil_r in Z.
        rewrite <- Z at 2. symmetry. apply firstn_skipn. }
      destruct P as [w W]. pose proof (H [] w W) as ->. apply (f_equal (@List.length N)) in W. rewrite !app_length in W. cbn in W. lia.
    + rewrite IH; [reflexivity|]. intros x z Z. apply (H (c :: x) z). cbn [app]. now rewrite Z.
Qed.
Lemma head_found head body : events_head head -> format_line_end (head ++ body) = Some (blen head).
Proof.
  intros (a & m & f & -> & H1 & H2 & H3). unfold format_line_end.
  rewrite <- !app_assoc. rewrite (find_first (lit "[Events]") a) by (assumption || discriminate).
  change (lit "[Events]" ++ m ++ lit "Format:" ++ f ++ [10%N] ++ body) with (lit "[Events]" ++ (m ++ lit "Format:" ++ f ++ [10%N] ++ body)).
  rewrite (app_assoc (lit "[Events]") m). rewrite (find_first (lit "Format:") (lit "[Events]" ++ m)) by (assumption || discriminate).
  change (lit "Format:" ++ f ++ [10%N] ++ body) with (lit "Format:" ++ (f ++ [10%N] ++ body)). rewrite (app_assoc (lit "Format:") f).
  rewrite newline_split; [|intros Q; apply in_app_iff in Q as [Q|Q]; [cbn in Q; intuition discriminate|contradiction]|right; exists body; reflexivity].
  cbn [app]. f_equal. rewrite !blen_app. change (blen [10%N]) with 1. lia.
Qed.
