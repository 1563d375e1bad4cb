From Verif Require Import Base BaseLemmas DocModel DocSpec DocProofs ParseModel IncrModel EventCmdModel EventCmdSpec EventCmdProofs StyleCmdModel StyleCmdSpec.
From Verif Require Import IncrBounds.
From Verif Require Utf8Model.

Lemma style_text_ne name : style_text name <> [].
Proof. discriminate. Qed.
Lemma find_missing p s : ~ has p s -> find_str p s = None.
Proof. intros H. apply find_str_none. intros x [z Z]. apply H. now exists x, z. Qed.
Lemma find_present p s a b : find_str p s = Some (a, b) -> exists c, b = p ++ c /\ s = a ++ p ++ c.
Proof.
  intros H. apply find_str_first in H as (E & (z & Z) & _). exists z. rewrite E in Z. apply app_inv_head in Z. split; [exact Z|]. now rewrite <- Z.
Qed.
Lemma has_find p s : has p s -> exists r, find_str p s = Some r.
Proof.
  intros (a & b & E). destruct (find_str p s) as [r|] eqn:F; [eauto|]. exfalso. apply find_str_none with (x := a) in F. apply F. now exists b.
Qed.

(* ---- lines ---- *)
Lemma rfind_newline A x : at_line A -> ~ In 10%N x -> match rfind_str [10%N] (A ++ x) with Some (a, _) => blen a + 1 | None => 0 end = blen A.
Proof.
  intros HA Hx. destruct (rfind_str [10%N] (A ++ x)) as [[a b]|] eqn:E.
  - apply rfind_str_last in E as (E1 & (z & Z) & L). destruct HA as [->|[A' ->]].
    + exfalso. apply Hx. cbn [app] in Z. rewrite Z. apply in_or_app. right. now left.
    + assert (LA : List.length A' <= List.length a). { apply L. exists x. now rewrite <- app_assoc. }
      assert (P : exists w, a = A' ++ w).
      { rewrite <- app_assoc in Z. destruct (app_eq_app _ _ _ _ Z) as [w [[-> _]|[-> _]]]; [|eauto].
        rewrite app_length in LA. destruct w as [|c w]; [|cbn in LA; lia]. exists []. now rewrite app_nil_r, app_nil_r. }
      destruct P as [w ->]. rewrite <- !app_assoc in Z. apply app_inv_head in Z. destruct w as [|c w].
      * rewrite app_nil_r, blen_app. reflexivity.
      * exfalso. cbn [app] in Z. injection Z as Z1 Z2. apply Hx. rewrite Z2. apply in_elt.
  - destruct HA as [->|[A' ->]]; [reflexivity|]. exfalso. apply (rfind_str_none _ _ E A'). exists x. now rewrite <- app_assoc.
Qed.
Lemma line_start_at A x r : at_line A -> ~ In 10%N x -> line_start (A ++ x ++ r) (blen (A ++ x)) = Done (blen A).
Proof.
  intros HA Hx. unfold line_start. rewrite app_assoc. unfold slice_to. rewrite cut_app. cbn [option_map fst need bind]. now rewrite rfind_newline.
Qed.
Lemma at_line_of A : exists a x, A = a ++ x /\ at_line a /\ ~ In 10%N x.
Proof.
  induction A as [|c A (a & x & -> & [->|[a' ->]] & H2)].
  - exists [], []. split; [reflexivity|]. split; [now left|easy].
  - destruct (N.eq_dec c 10) as [->|N].
    + exists [10%N], x. split; [reflexivity|]. split; [right; now exists []|exact H2].
    + exists [], (c :: x). split; [reflexivity|]. split; [now left|]. intros [Q|Q]; [congruence|contradiction].
  - exists (c :: a' ++ [10%N]), x. split; [reflexivity|]. split; [right; now exists (c :: a')|exact H2].
Qed.
Lemma find_in_line p A l rest : p <> [] -> first_in_line p A l rest ->
  exists x y, l = x ++ p ++ y /\ find_str p (A ++ l ++ rest) = Some (A ++ x, (p ++ y) ++ rest) /\ ~ In 10%N x /\ ~ In 10%N (p ++ y).
Proof.
  intros Hp (HA & Hl & Hr & x & y & -> & HF). exists x, y. split; [reflexivity|]. split.
  - replace (A ++ (x ++ p ++ y) ++ rest) with ((A ++ x) ++ p ++ (y ++ rest)) by now rewrite <- !app_assoc.
    rewrite find_first by assumption. now rewrite <- app_assoc.
  - split; intros Q; apply Hl; apply in_or_app; auto.
Qed.
(* every text that has p has a first line with it *)
Lemma has_line p s : p <> [] -> ~ In 10%N p -> has p s -> exists A l rest, s = A ++ l ++ rest /\ first_in_line p A l rest.
Proof.
  intros Hp Hn H. destruct (has_find p s H) as [[a b] F]. destruct (find_present _ _ _ _ F) as (c & -> & E).
  apply find_str_first in F as (_ & _ & Hfirst).
  destruct (at_line_of a) as (A & x & -> & HA & Hx). destruct (line_of c) as (y & rest & -> & Hy & Hr).
  exists A, (x ++ p ++ y), rest. split; [rewrite E; now rewrite <- !app_assoc|]. split; [exact HA|]. split.
  - intros Q. apply in_app_iff in Q as [Q|Q]; [contradiction|]. apply in_app_iff in Q as [Q|Q]; contradiction.
  - split; [exact Hr|]. exists x, y. split; [reflexivity|]. intros u v Q.
    assert (L : List.length (A ++ x) <= List.length u).
    { apply Hfirst. exists (v ++ y ++ rest). rewrite E. rewrite !app_assoc. rewrite !app_assoc in Q. rewrite Q. now rewrite <- !app_assoc. }
    apply (f_equal (@List.length N)) in Q. rewrite !app_length in Q. rewrite app_length in L. destruct v; [reflexivity|]. cbn in Q. lia.
Qed.
Lemma line_end_mid A x m rest : ~ In 10%N m -> after_line rest -> line_end (A ++ (x ++ m) ++ rest) (m ++ rest) (blen (A ++ x)) = blen A + blen (x ++ m).
Proof.
  intros H1 H2. replace (A ++ (x ++ m) ++ rest) with ((A ++ x) ++ m ++ rest) by now rewrite <- !app_assoc.
  rewrite line_end_at by assumption. rewrite !blen_app. lia.
Qed.

(* ---- delete ---- *)
Lemma delete_exact sz name d A l rest rest' : reached sz d -> text d = A ++ l ++ rest ->
  first_in_line (style_text name) A l rest -> after_newline rest rest' ->
  exists d', delete_style sz name d = Done (d', Some (success_with_change (mkRange (blen A) (blen A)) (blen A))) /\
    text d' = A ++ rest' /\ reached sz d'.
Proof.
  intros HR E HF HN. destruct (find_in_line _ _ _ _ (style_text_ne name) HF) as (x & y & El & F & Hx & Hy).
  destruct HF as (HA & Hl & Hr & _). unfold delete_style. change (style_pattern name) with (style_text name). rewrite E, F.
  replace (A ++ l ++ rest) with (A ++ x ++ (style_text name ++ y) ++ rest) by (rewrite El; now rewrite <- !app_assoc).
  rewrite line_start_at by assumption. cbn [bind]. rewrite newline_split by assumption.
  assert (G : exists w, rest = w ++ rest' /\ (match rest with [] => None | _ :: _ => Some (style_text name ++ y, rest) end = None /\ w = [] \/
             (match rest with [] => None | _ :: _ => Some (style_text name ++ y, rest) end = Some (style_text name ++ y, rest) /\ w = [10%N]))).
  { destruct HN as [[-> ->]| ->]; [exists []; auto|exists [10%N]; auto]. }
  destruct G as (w & Ew & G).
  assert (EE : text d = A ++ (l ++ w) ++ rest') by (rewrite E, Ew; now rewrite <- !app_assoc).
  destruct (delete_ok sz d A (l ++ w) rest' HR EE) as (d' & D & T & R').
  exists d'. split; [|auto]. destruct G as [[-> ->]|[-> ->]].
  - replace (range_new (blen A) (blen (A ++ x ++ (style_text name ++ y) ++ rest))) with (mkRange (blen A) (blen A + blen (l ++ []))).
    + rewrite D. cbn [of_out and_then bind fst snd]. now rewrite range_new_le by lia.
    + rewrite range_new_le by (rewrite blen_app; lia). f_equal. rewrite app_nil_r, El, Ew.
      destruct HN as [[_ ->]|Q]; [|now rewrite Ew in Q; destruct rest'; [discriminate|]; exfalso; clear - Q; cbn [app] in Q; apply (f_equal (@List.length N)) in Q; cbn in Q; lia].
      cbn [app]. rewrite !blen_app. cbn [blen]. lia.
  - replace (range_new (blen A) (blen (A ++ x) + blen (style_text name ++ y) + 1)) with (mkRange (blen A) (blen A + blen (l ++ [10%N]))).
    + rewrite D. cbn [of_out and_then bind fst snd]. now rewrite range_new_le by lia.
    + rewrite range_new_le by (rewrite blen_app; lia). f_equal. rewrite El, !blen_app. change (blen [10%N]) with 1. lia.
Qed.

(* ---- create ---- *)
Lemma insert_ok sz d A B t : reached sz d -> text d = A ++ B ->
  exists d', insert_at sz d (blen A) t = Done (d', Some (success_with_change (mkRange (blen A) (blen A + blen t)) (blen A + blen t))) /\
    text d' = A ++ t ++ B /\ reached sz d'.
Proof.
  intros H E. destruct (insert_effect sz d (blen A) t A B (reached_inv _ _ H) E eq_refl) as (d' & D & T).
  exists d'. unfold insert_at. rewrite D. cbn [of_out and_then bind fst snd]. rewrite range_new_le by lia. split; [reflexivity|]. split; [exact T|].
  eapply reached_act; [exact H|]. change (doc_insert sz d (blen A) t) with (do_act sz d (AInsert (blen A) t)) in D. exact D.
Qed.
Lemma header_find A h r : main_header A h r -> find_styles_header (A ++ h ++ r) = Some (A, h ++ r).
Proof.
  intros (HF & [->|[[-> H1]|(-> & H1 & H2)]]); unfold find_styles_header.
  - now rewrite find_first by (assumption || discriminate).
  - rewrite (find_missing _ _ H1). now rewrite find_first by (assumption || discriminate).
  - rewrite (find_missing _ _ H1), (find_missing _ _ H2). now rewrite find_first by (assumption || discriminate).
Qed.
Lemma header_find_none s : no_styles s -> find_styles_header s = None.
Proof. intros (H1 & H2 & H3). unfold find_styles_header. now rewrite (find_missing _ _ H1), (find_missing _ _ H2), (find_missing _ _ H3). Qed.
Lemma header_no_newline A h r : main_header A h r -> ~ In 10%N h.
Proof. intros (_ & [->|[[-> _]|(-> & _)]]); cbn; intuition discriminate. Qed.
Lemma new_section_spec line : new_styles_section line = styles_section line.
Proof. reflexivity. Qed.
Lemma newline_of l r : ~ In 10%N l -> find_char is_nl (l ++ 10%N :: r) = Some (l, 10%N :: r).
Proof. intros H. rewrite newline_split; [reflexivity|exact H|right; eauto]. Qed.
Lemma newline_none l : ~ In 10%N l -> find_char is_nl l = None.
Proof. intros H. rewrite <- (app_nil_r l) at 1. rewrite newline_split; [reflexivity|exact H|now left]. Qed.

Lemma create_under sz line d A h m f rest : reached sz d -> text d = A ++ h ++ m ++ [10%N] ++ f ++ [10%N] ++ rest ->
  main_header A h (m ++ [10%N] ++ f ++ [10%N] ++ rest) -> ~ In 10%N m -> ~ In 10%N f ->
  exists d', let p := blen (A ++ h ++ m ++ [10%N] ++ f ++ [10%N]) in
    create_line sz line d = Done (d', Some (success_with_change (mkRange p (p + blen (line ++ [10%N]))) (p + blen (line ++ [10%N])))) /\
    text d' = A ++ h ++ m ++ [10%N] ++ f ++ [10%N] ++ line ++ [10%N] ++ rest /\ reached sz d'.
Proof.
  intros HR E HM Hm Hf. cbv zeta. unfold create_line. rewrite E, header_find by exact HM.
  pose proof (header_no_newline _ _ _ HM) as Hh.
  assert (Hhm : ~ In 10%N (h ++ m)) by (intros Q; apply in_app_iff in Q as [Q|Q]; contradiction).
  rewrite (app_assoc h m). cbn [app]. rewrite newline_of by exact Hhm.
  replace (A ++ (h ++ m) ++ 10%N :: f ++ 10%N :: rest) with ((A ++ (h ++ m) ++ [10%N]) ++ f ++ 10%N :: rest) by now rewrite <- !app_assoc.
  rewrite blen_line, slice_from_app. cbn [need bind]. rewrite newline_of by exact Hf.
  rewrite blen_line.
  set (P := (A ++ (h ++ m) ++ [10%N]) ++ f ++ [10%N]).
  destruct (insert_ok sz d P rest (line ++ [10%N]) HR) as (d' & D & T & R).
  { rewrite E. unfold P. now rewrite <- !app_assoc. }
  exists d'. replace (A ++ h ++ m ++ 10%N :: f ++ [10%N]) with P by (unfold P; now rewrite <- !app_assoc).
  split; [exact D|]. split; [|exact R]. rewrite T. unfold P. now rewrite <- !app_assoc.
Qed.
(* a format line that ends the text: the style comes before it *)
Lemma create_before sz line d A h m f : reached sz d -> text d = A ++ h ++ m ++ [10%N] ++ f ->
  main_header A h (m ++ [10%N] ++ f) -> ~ In 10%N m -> ~ In 10%N f ->
  exists d' r, create_line sz line d = Done (d', Some r) /\ text d' = A ++ h ++ m ++ [10%N] ++ line ++ [10%N] ++ f /\ reached sz d'.
Proof.
  intros HR E HM Hm Hf. unfold create_line. rewrite E, header_find by exact HM.
  pose proof (header_no_newline _ _ _ HM) as Hh.
  assert (Hhm : ~ In 10%N (h ++ m)) by (intros Q; apply in_app_iff in Q as [Q|Q]; contradiction).
  rewrite (app_assoc h m). cbn [app]. rewrite newline_of by exact Hhm.
  replace (A ++ (h ++ m) ++ 10%N :: f) with ((A ++ (h ++ m) ++ [10%N]) ++ f) by now rewrite <- !app_assoc.
  rewrite blen_line, slice_from_app. cbn [need bind]. rewrite newline_none by exact Hf.
  destruct (insert_ok sz d (A ++ (h ++ m) ++ [10%N]) f (line ++ [10%N]) HR) as (d' & D & T & R).
  { rewrite E. now rewrite <- !app_assoc. }
  exists d'. eexists. split; [exact D|]. split; [|exact R]. rewrite T. now rewrite <- !app_assoc.
Qed.
Lemma create_apart sz line d A B : reached sz d -> text d = A ++ B -> 
  no_styles (text d) \/ (exists a h r, text d = a ++ h ++ r /\ main_header a h r /\ ~ In 10%N r) ->
  (first_at (lit "[Events]") A /\ exists r, B = lit "[Events]" ++ r) \/ (~ has (lit "[Events]") (text d) /\ B = []) ->
  exists d', create_line sz line d = Done (d', Some (success_with_change (mkRange (blen A) (blen A + blen (styles_section line))) (blen A + blen (styles_section line)))) /\
    text d' = A ++ styles_section line ++ B /\ reached sz d'.
Proof.
  intros HR E HN HB. rewrite <- new_section_spec.
  assert (P : match find_str (lit "[Events]") (text d) with Some (a, _) => blen a | None => blen (text d) end = blen A).
  { destruct HB as [[HF [r ->]]|[HF ->]].
    - rewrite E, find_first by (exact HF || discriminate). reflexivity.
    - rewrite find_missing by exact HF. now rewrite E, app_nil_r. }
  destruct (insert_ok sz d A B (new_styles_section line) HR E) as (d' & D & T & R). exists d'. split; [|auto].
  unfold create_line. destruct HN as [HN|(a & h & r & E2 & HM & Hr)].
  - rewrite header_find_none by exact HN. rewrite P. exact D.
  - assert (Q : find_styles_header (text d) = Some (a, h ++ r)) by (rewrite E2; now apply header_find).
    rewrite Q. rewrite newline_none; [rewrite P; exact D|]. pose proof (header_no_newline _ _ _ HM). intros X. apply in_app_iff in X as [X|X]; contradiction.
Qed.

(* ---- clone ---- *)
Lemma replace_drop pat rep w s : Utf8Model.replace_go pat rep (w ++ s) (List.length w) = Utf8Model.replace_go pat rep s 0.
Proof. induction w as [|c w IH]; [reflexivity|]. cbn [app List.length Utf8Model.replace_go]. exact IH. Qed.
Lemma replace_none pat rep s : ~ has pat s -> Utf8Model.replace pat rep s = s.
Proof.
  unfold Utf8Model.replace. induction s as [|c s IH]; intros H; [reflexivity|]. cbn [Utf8Model.replace_go].
  destruct (starts_with pat (c :: s)) eqn:E.
  - exfalso. apply starts_with_spec in E as [r E]. apply H. exists [], r. exact E.
  - rewrite IH; [reflexivity|]. intros (a & b & Q). apply H. exists (c :: a), b. now rewrite Q.
Qed.
Lemma replace_at pat rep s : pat <> [] -> Utf8Model.replace pat rep (pat ++ s) = rep ++ Utf8Model.replace pat rep s.
Proof.
  intros H. unfold Utf8Model.replace. destruct pat as [|c p]; [congruence|]. cbn [app Utf8Model.replace_go].
  change (c :: p ++ s) with ((c :: p) ++ s). rewrite starts_with_app. cbn [List.length]. rewrite Nat.sub_0_r || idtac. f_equal.
  replace (S (List.length p) - 1) with (List.length p) by lia. apply replace_drop.
Qed.
Lemma replace_first pat rep a s : pat <> [] -> first_at pat a -> Utf8Model.replace pat rep (a ++ pat ++ s) = a ++ rep ++ Utf8Model.replace pat rep s.
Proof.
  intros Hp. induction a as [|c a IH]; intros H; [exact (replace_at pat rep s Hp)|].
  pose proof (find_first pat (c :: a) s Hp H) as F. cbn [app find_str] in F.
  unfold Utf8Model.replace in *. cbn [app Utf8Model.replace_go].
  destruct (starts_with pat (c :: a ++ pat ++ s)); [discriminate F|]. f_equal. apply IH.
  intros x z Z. apply (H (c :: x) z). cbn [app]. now rewrite Z.
Qed.
Lemma clone_exact sz src tgt d A l rest : reached sz d -> text d = A ++ l ++ rest -> first_in_line (style_text src) A l rest ->
  ~ has (style_text tgt) (text d) ->
  exists d', let t := [10%N] ++ Utf8Model.replace (style_text src) (style_text tgt) l in let p := blen (A ++ l) in
    clone_style sz src tgt d = Done (d', Some (success_with_change (mkRange p (p + blen t)) (p + blen t))) /\
    text d' = A ++ l ++ t ++ rest /\ reached sz d'.
Proof.
  intros HR E HF HT. cbv zeta. destruct (find_in_line _ _ _ _ (style_text_ne src) HF) as (x & y & El & F & Hx & Hy).
  destruct HF as (HA & Hl & Hr & _). unfold clone_style. change style_pattern with style_text.
  rewrite (find_missing _ _ HT), E, F.
  replace (line_start (A ++ l ++ rest)) with (line_start (A ++ x ++ (style_text src ++ y) ++ rest)) by (rewrite El; now rewrite <- !app_assoc).
  rewrite line_start_at by assumption. cbn [bind].
  replace (A ++ l ++ rest) with (A ++ (x ++ (style_text src ++ y)) ++ rest) by (now rewrite El).
  rewrite line_end_mid by assumption. rewrite <- El.
  rewrite slice_app. cbn [need bind]. rewrite <- blen_app.
  destruct (insert_ok sz d (A ++ l) rest ([10%N] ++ Utf8Model.replace (style_text src) (style_text tgt) l) HR) as (d' & D & T & R).
  { rewrite E. now rewrite <- app_assoc. }
  exists d'. split; [exact D|]. split; [|exact R]. rewrite T. now rewrite <- app_assoc.
Qed.

(* ---- edit ---- *)
Lemma sep_first name : no_comma name -> first_at (lit ", ") name.
Proof.
  intros H x y E. destruct (app_eq_app _ _ _ _ E) as [w [[E1 E2]|[E1 E2]]].
  - destruct w as [|c w].
    + apply (f_equal (@List.length N)) in E2. destruct y; [reflexivity|]. cbn in E2. lia.
    + exfalso. cbn [app] in E2. injection E2 as <- _. apply H. rewrite E1. apply in_elt.
  - apply (f_equal (@List.length N)) in E2. rewrite !app_length in E2. destruct y; [reflexivity|]. cbn in E2. lia.
Qed.
Lemma no_comma_missing name : no_comma name -> ~ has (lit ", ") name.
Proof. intros H (a & b & ->). apply H. apply in_or_app. right. now left. Qed.
Lemma split_join cols : Forall no_comma cols -> cols <> [] -> forall f, List.length cols <= f -> split_str f (lit ", ") (join (lit ", ") cols) = cols.
Proof.
  intros HF. induction HF as [|c cs Hc HF IH]; [congruence|]. intros _ f Hf. cbn [List.length] in Hf. destruct f as [|f]; [lia|].
  cbn [split_str]. destruct cs as [|c2 cs].
  - cbn [join]. now rewrite find_missing by now apply no_comma_missing.
  - rewrite join_cons by discriminate. rewrite find_first; [|discriminate|now apply sep_first].
    change (List.length (lit ", ")) with 2. cbn [lit skipn app]. cbn. rewrite IH; [reflexivity|discriminate|cbn in *; lia].
Qed.
Lemma join_length sep l : List.length l <= S (List.length (join sep l)) \/ sep = [].
Proof.
  destruct sep as [|s sep]; [now right|]. left. induction l as [|x l IH]; [cbn; lia|]. destruct l as [|y l]; [cbn; lia|].
  rewrite join_cons by discriminate. rewrite !app_length. cbn [List.length] in *. lia.
Qed.
Lemma format_columns_of cols : Forall no_comma cols -> cols <> [] -> format_columns (lit "Format: " ++ join (lit ", ") cols) = cols.
Proof.
  intros H1 H2. unfold format_columns. rewrite (proj2 (strip_prefix_some _ _ _) eq_refl). apply split_join; [assumption|assumption|].
  destruct (join_length (lit ", ") cols) as [L|L]; [exact L|discriminate L].
Qed.
Lemma set_columns_other k v r cols : ~ In k cols -> forall fields, set_columns ((k, v) :: r) cols fields = set_columns r cols fields.
Proof.
  induction cols as [|c cs IH]; intros H fields; [reflexivity|]. destruct fields as [|f fs]; [reflexivity|]. cbn [set_columns value_in].
  destruct (str_eqb k c) eqn:E; [apply str_eqb_eq in E; subst; exfalso; apply H; now left|]. rewrite IH; [reflexivity|]. intros Q. apply H. now right.
Qed.
Lemma value_in_none r k d : ~ In k (map fst r) -> value_in r k d = d.
Proof.
  induction r as [|[k' v] r IH]; intros H; [reflexivity|]. cbn [value_in map fst In] in *. destruct (str_eqb k' k) eqn:E; [apply str_eqb_eq in E; tauto|]. apply IH. tauto.
Qed.
Lemma update_then k v r cols : NoDup cols -> ~ In k (map fst r) -> forall fields,
  set_columns r cols (update_field cols fields (k, v)) = set_columns ((k, v) :: r) cols fields.
Proof.
  intros HN Hk. induction HN as [|c cs Hc HN IH]; intros fields; [reflexivity|].
  unfold update_field in *. cbn [fst snd position_of]. destruct (str_eqb c k) eqn:E.
  - apply str_eqb_eq in E. subst k. destruct fields as [|f fs]; [reflexivity|]. cbn [List.length Nat.ltb Nat.leb set_nth set_columns value_in].
    rewrite value_in_none by exact Hk. rewrite str_eqb_refl. f_equal. symmetry. now apply set_columns_other.
  - assert (Ek : str_eqb k c = false). { destruct (str_eqb k c) eqn:E2; [|reflexivity]. apply str_eqb_eq in E2. subst. rewrite str_eqb_refl in E. discriminate. }
    specialize (IH). cbn [fst snd] in IH.
    destruct fields as [|f fs]; [destruct (position_of k cs); reflexivity|].
    cbn [set_columns value_in]. rewrite Ek. rewrite <- (IH fs).
    destruct (position_of k cs) as [i|]; cbn [option_map]; [|reflexivity].
    cbn [List.length]. change (S i <? S (List.length fs)) with (i <? List.length fs). destruct (i <? List.length fs); reflexivity.
Qed.
Lemma updates_all cols ups : NoDup cols -> NoDup (map fst ups) -> forall fields,
  fold_left (update_field cols) ups fields = set_columns ups cols fields.
Proof.
  intros HN HU. induction ups as [|[k v] r IH]; intros fields.
  - cbn [fold_left]. clear. revert fields. induction cols as [|c cs IH]; intros [|f fs]; try reflexivity. cbn. now rewrite <- IH.
  - cbn [map fst] in HU. inversion HU as [|? ? H1 H2]; subst. cbn [fold_left]. rewrite IH by exact H2. now apply update_then.
Qed.
Lemma rfind_here p B C : (forall x y, p ++ C = x ++ p ++ y -> x = []) -> p <> [] -> rfind_str p (B ++ p ++ C) = Some (B, p ++ C).
Proof.
  intros H Hp. destruct (rfind_str p (B ++ p ++ C)) as [[a b]|] eqn:E.
  - apply rfind_str_last in E as (E1 & (z & Z) & L). assert (LB : List.length B <= List.length a) by (apply L; now exists C).
    destruct (app_eq_app _ _ _ _ Z) as [w [[E3 E4]|[E3 E4]]].
    + rewrite E3, app_length in LB. destruct w as [|c w]; [|cbn in LB; lia]. rewrite app_nil_r in E3. subst a. apply app_inv_head in E1. now subst b.
    + apply H in E4. subst w. rewrite app_nil_r in E3. subst a. apply app_inv_head in E1. now subst b.
  - exfalso. apply (rfind_str_none _ _ E B). now exists C.
Qed.
Lemma rfind_missing p s : ~ has p s -> rfind_str p s = None.
Proof.
  intros H. destruct (rfind_str p s) as [[a b]|] eqn:E; [|reflexivity]. exfalso. apply rfind_str_last in E as (_ & (z & Z) & _). apply H. now exists a, z.
Qed.
Lemma header_before A h B C : styles_header A h B C -> styles_header_before A = Some (blen B).
Proof.
  intros (-> & [[-> H]|[(-> & H & H1)|(-> & H & H1 & H2)]]); unfold styles_header_before.
  - now rewrite rfind_here by (exact H || discriminate).
  - rewrite (rfind_missing _ _ H1). now rewrite rfind_here by (exact H || discriminate).
  - rewrite (rfind_missing _ _ H1), (rfind_missing _ _ H2). now rewrite rfind_here by (exact H || discriminate).
Qed.
Lemma edit_exact sz name ups d A l rest h B m cols C fields : reached sz d -> text d = A ++ l ++ rest ->
  first_in_line (style_text name) A l rest ->
  styles_header A h B (m ++ lit "Format: " ++ join (lit ", ") cols ++ [10%N] ++ C) -> first_at (lit "Format:") (h ++ m) ->
  Forall no_comma cols -> cols <> [] -> NoDup cols -> Forall (fun c => ~ In 10%N c) cols ->
  l = join (lit ",") fields -> Forall no_comma fields -> 2 <= List.length fields -> NoDup (map fst ups) ->
  exists d', let l' := join (lit ",") (set_columns ups cols fields) in
    edit_style sz name ups d = Done (d', Some (success_with_change (mkRange (blen A) (blen A + blen l')) (blen A + blen l'))) /\
    text d' = A ++ l' ++ rest /\ reached sz d'.
Proof.
  intros HR E HF HH Hm Hc Hne Hd Hcn El Hfc Hfl Hu. cbv zeta.
  destruct (find_in_line _ _ _ _ (style_text_ne name) HF) as (x & y & Ex & F & Hx & Hy).
  destruct HF as (HA & Hl & Hr & _). unfold edit_style. change style_pattern with style_text. rewrite E, F.
  replace (line_start (A ++ l ++ rest)) with (line_start (A ++ x ++ (style_text name ++ y) ++ rest)) by (rewrite Ex; now rewrite <- !app_assoc).
  rewrite line_start_at by assumption. cbn [bind].
  replace (A ++ l ++ rest) with (A ++ (x ++ (style_text name ++ y)) ++ rest) by (now rewrite Ex).
  rewrite line_end_mid by assumption. rewrite <- Ex. rewrite slice_app. cbn [need bind].
  assert (SF : split_on ParseModel.is_comma l = fields).
  { rewrite El. apply split_on_join; [reflexivity|destruct fields; [cbn in Hfl; lia|discriminate]|].
    apply Forall_forall. intros f Hf. rewrite Forall_forall in Hfc. specialize (Hfc f Hf). apply forallb_forall. intros c Hin.
    unfold ParseModel.is_comma. destruct (N.eqb_spec c 44); [subst; contradiction|reflexivity]. }
  rewrite SF. destruct (Nat.ltb_spec (List.length fields) 2); [lia|].
  rewrite slice_to_app. cbn [need bind]. rewrite (header_before _ _ _ _ HH).
  destruct HH as (EA & _). set (q := join (lit ", ") cols) in *.
  assert (ET : A ++ l ++ rest = B ++ (h ++ m) ++ lit "Format:" ++ ((lit " " ++ q) ++ ([10%N] ++ C) ++ l ++ rest)).
  { rewrite EA at 1. change (lit "Format: ") with (lit "Format:" ++ lit " "). now rewrite <- !app_assoc. }
  assert (SL : slice_from (A ++ l ++ rest) (blen B) = Some ((h ++ m) ++ lit "Format:" ++ (lit " " ++ q) ++ ([10%N] ++ C) ++ l ++ rest)).
  { rewrite ET. apply slice_from_app. }
  rewrite SL. cbn [need bind]. rewrite find_first by (assumption || discriminate).
  assert (Hq : ~ In 10%N (lit "Format:" ++ lit " " ++ q)).
  { intros Q. apply in_app_iff in Q as [Q|Q]; [cbn in Q; intuition discriminate|]. apply in_app_iff in Q as [Q|Q]; [cbn in Q; intuition discriminate|].
    revert Q. unfold q. clear - Hcn. induction Hcn as [|c cs H1 H2 IH]; [easy|]. destruct cs as [|c2 cs]; [exact H1|].
    rewrite join_cons by discriminate. intros Q. apply in_app_iff in Q as [Q|Q]; [contradiction|]. apply in_app_iff in Q as [Q|Q]; [cbn in Q; intuition discriminate|now apply IH]. }
  rewrite <- blen_app.
  assert (ET2 : A ++ l ++ rest = (B ++ h ++ m) ++ (lit "Format:" ++ lit " " ++ q) ++ ([10%N] ++ C ++ l ++ rest)).
  { rewrite ET. now rewrite <- !app_assoc. }
  assert (LE : line_end (A ++ l ++ rest) (lit "Format:" ++ (lit " " ++ q) ++ ([10%N] ++ C) ++ l ++ rest) (blen (B ++ h ++ m)) = blen (B ++ h ++ m) + blen (lit "Format:" ++ lit " " ++ q)).
  { rewrite ET2. replace (lit "Format:" ++ (lit " " ++ q) ++ ([10%N] ++ C) ++ l ++ rest) with ((lit "Format:" ++ lit " " ++ q) ++ ([10%N] ++ C ++ l ++ rest)) by now rewrite <- !app_assoc.
    apply line_end_at; [exact Hq|right; eexists; reflexivity]. }
  rewrite LE.
  assert (SL2 : slice (A ++ l ++ rest) (blen (B ++ h ++ m)) (blen (B ++ h ++ m) + blen (lit "Format:" ++ lit " " ++ q)) = Some (lit "Format:" ++ lit " " ++ q)).
  { rewrite ET2. apply slice_app. }
  rewrite SL2. cbn [need bind].
  change (lit "Format:" ++ lit " " ++ q) with (lit "Format: " ++ q). unfold q. rewrite format_columns_of by assumption.
  rewrite updates_all by assumption. rewrite range_new_le by lia.
  change [44%N] with (lit ","). set (l' := join (lit ",") (set_columns ups cols fields)).
  destruct (replace_ok sz d A l rest l' HR E) as (d' & D & T & R). exists d'. rewrite D. cbn [of_out and_then bind fst snd].
  rewrite range_new_le by lia. split; [reflexivity|]. split; [exact T|exact R].
Qed.
