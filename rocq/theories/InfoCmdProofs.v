From Verif Require Import Base BaseLemmas DocModel DocSpec DocProofs ParseModel EventCmdModel EventCmdSpec EventCmdProofs
  IncrModel IncrBounds StyleCmdModel StyleCmdSpec StyleCmdProofs InfoCmdModel InfoCmdSpec.

(* ---- documents ---- *)
Lemma handled_inv sz d : handled sz d -> hinv (history d).
Proof.
  induction 1 as [me mm t|d a d' H IH D|d t H IH]; [apply fresh_inv| |exact IH].
  exact (proj1 (do_all_inv sz [a] d d' IH D)).
Qed.
Lemma reached_handled sz d : reached sz d -> handled sz d.
Proof.
  intros (me & mm & t0 & l & E).
  assert (G : forall l d0 d, handled sz d0 -> do_all sz d0 l = Some d -> handled sz d).
  { clear. induction l as [|a l IH]; intros d0 d H E; cbn [do_all] in E; [now injection E as <-|].
    destruct (do_act sz d0 a) as [d1 []|d1|] eqn:D; [| |discriminate]; (eapply IH; [|exact E]; eapply hd_act; [exact H|cbn [do_all]; now rewrite D]). }
  exact (G l _ d (hd_open sz me mm t0) E).
Qed.
Lemma handled_replace sz d A m B t : handled sz d -> text d = A ++ m ++ B ->
  exists d', doc_replace sz d (mkRange (blen A) (blen A + blen m)) t = OOk d' tt /\ text d' = A ++ t ++ B /\ handled sz d'.
Proof.
  intros H E.
  destruct (edit_effect sz d (AReplace (mkRange (blen A) (blen A + blen m)) t) (blen A) (blen A + blen m) t (A ++ t ++ B) (handled_inv _ _ H)) as (d' & D & T).
  - exists A, m, B. now repeat split.
  - now right; right.
  - exists d'. split; [exact D|]. split; [exact T|]. eapply hd_act; [exact H|]. cbn [do_all]. now rewrite D.
Qed.
Lemma handled_delete sz d A m B : handled sz d -> text d = A ++ m ++ B ->
  exists d', doc_delete sz d (mkRange (blen A) (blen A + blen m)) = OOk d' tt /\ text d' = A ++ B /\ handled sz d'.
Proof.
  intros H E.
  destruct (edit_effect sz d (ADelete (mkRange (blen A) (blen A + blen m))) (blen A) (blen A + blen m) [] (A ++ B) (handled_inv _ _ H)) as (d' & D & T).
  - exists A, m, B. now repeat split.
  - now right; left.
  - exists d'. split; [exact D|]. split; [exact T|]. eapply hd_act; [exact H|]. cbn [do_all]. now rewrite D.
Qed.

(* ---- sections ---- *)
Lemma put_app a b : put (a ++ b) = put a ++ put b.
Proof. apply flat_map_app. Qed.
Lemma put_cons l ls : put (l :: ls) = 10%N :: l ++ put ls.
Proof. reflexivity. Qed.
Lemma put_after ls rest : after_line rest -> after_line (put ls ++ rest).
Proof. destruct ls as [|l ls]; [easy|]. intros _. right. rewrite put_cons. cbn [app]. eauto. Qed.
Lemma next_after rest : next_section rest -> after_line rest.
Proof. intros [->|[r ->]]; [now left|right; eauto]. Qed.
Ltac flat := rewrite ?put_app, ?put_cons, ?put_app; repeat (rewrite <- ?app_assoc; cbn [app]); reflexivity.
(* where a newline and a bracket may stand *)
Lemma bracket_free m s : ~ In 10%N m -> ~ has [10%N; 91%N] s -> ~ has [10%N; 91%N] (m ++ s).
Proof.
  intros Hm Hs (a & b & E). destruct (app_eq_app _ _ _ _ E) as [w [[-> E2]|[-> E2]]].
  - destruct w as [|c w]; [cbn [app] in E2; apply Hs; exists [], b; now rewrite <- E2|].
    cbn [app] in E2. injection E2 as <- _. apply Hm. apply in_elt.
  - apply Hs. exists w, b. exact E2.
Qed.
Lemma put_free ls : Forall inner ls -> ~ has [10%N; 91%N] (put ls).
Proof.
  induction 1 as [|l ls [H1 H2] _ IH]; [intros (a & b & E); destruct a; discriminate E|].
  rewrite put_cons. intros ([|c a] & b & E).
  - cbn [app] in E. injection E as E. destruct l as [|x l].
    + cbn [app] in E. destruct ls as [|l2 ls]; [discriminate E|]. rewrite put_cons in E. injection E as E. discriminate E.
    + cbn [app] in E. injection E as -> E. exact (H2 l eq_refl).
  - cbn [app] in E. injection E as _ E. apply (bracket_free l (put ls) H1 IH). exists a, b. exact E.
Qed.
Lemma free_first s : ~ has [10%N; 91%N] s -> first_at [10%N; 91%N] s.
Proof.
  intros H x y E. destruct (app_eq_app _ _ _ _ E) as [w [[-> E2]|[-> E2]]].
  - destruct w as [|c [|c2 w]].
    + cbn [app] in E2. injection E2 as <-. reflexivity.
    + cbn [app] in E2. injection E2 as <- E2 _. discriminate E2.
    + cbn [app] in E2. injection E2 as <- <- E2. exfalso. apply H. exists x, w. reflexivity.
  - apply (f_equal (@List.length N)) in E2. rewrite !app_length in E2. cbn [List.length] in E2. destruct y; [reflexivity|cbn [List.length] in E2; lia].
Qed.
Lemma span_of h t A m ls rest : h <> [] -> ~ In 10%N h -> sectioned h t A m ls rest ->
  section_span h t = Some (blen A, blen A + blen (h ++ m ++ put ls)) /\
  slice t (blen A) (blen A + blen (h ++ m ++ put ls)) = Some (h ++ m ++ put ls) /\
  slice_from t (blen A) = Some (h ++ m ++ put ls ++ rest).
Proof.
  intros Hh Hn (-> & HA & Hm & Hl & Hr). split.
  - unfold section_span. rewrite find_first by assumption. f_equal. f_equal.
    assert (F : ~ has [10%N; 91%N] (h ++ m ++ put ls)).
    { rewrite app_assoc. apply bracket_free; [|now apply put_free]. intros Q. apply in_app_iff in Q as [Q|Q]; contradiction. }
    destruct Hr as [->|[r ->]].
    + rewrite app_nil_r. rewrite find_missing by exact F. now rewrite blen_app.
    + change (10%N :: lit "[" ++ r) with ([10%N; 91%N] ++ r).
      replace (h ++ m ++ put ls ++ [10%N; 91%N] ++ r) with ((h ++ m ++ put ls) ++ [10%N; 91%N] ++ r) by now rewrite <- !app_assoc.
      rewrite find_first; [reflexivity|discriminate|now apply free_first].
  - replace (A ++ h ++ m ++ put ls ++ rest) with (A ++ (h ++ m ++ put ls) ++ rest) by now rewrite <- !app_assoc.
    split; [apply slice_app|]. rewrite slice_from_app. now rewrite <- !app_assoc.
Qed.
(* every text with the header has such a section *)
Lemma section_of h t : h <> [] -> has h t -> exists A m ls rest, sectioned h t A m ls rest.
Proof.
  intros Hh H. destruct (has_find h t H) as [[A b] F]. pose proof F as F0. apply find_present in F as (c & -> & E).
  assert (G : forall n s, List.length s <= n -> after_line s -> exists ls rest, s = put ls ++ rest /\ Forall inner ls /\ next_section rest).
  { induction n as [|n IH]; intros s L As.
    - destruct s; [|cbn in L; lia]. exists [], []. split; [reflexivity|]. split; [constructor|now left].
    - destruct As as [->|[r ->]]; [exists [], []; split; [reflexivity|]; split; [constructor|now left]|].
      destruct r as [|x r]; [|destruct (N.eq_dec x 91) as [->|Hx]].
      + exists [[]], []. split; [reflexivity|]. split; [|now left]. constructor; [|constructor]. split; [easy|]. intros r Q. discriminate Q.
      + exists [], (10%N :: 91%N :: r). split; [reflexivity|]. split; [constructor|]. right. now exists r.
      + destruct (line_of (x :: r)) as (l & r2 & E2 & Hl & Hr2). destruct (IH r2) as (ls & rest & -> & H1 & H2); [|exact Hr2|].
        * apply (f_equal (@List.length N)) in E2. rewrite app_length in E2. cbn [List.length] in L, E2. lia.
        * exists (l :: ls), rest. split; [rewrite put_cons; cbn [app]; rewrite E2; now rewrite <- app_assoc|]. split; [|exact H2].
          constructor; [|exact H1]. split; [exact Hl|]. intros q ->. cbn in E2. injection E2 as E2 _. contradiction. }
  destruct (line_of c) as (m & r & -> & Hm & Hr). destruct (G (List.length r) r (le_n _) Hr) as (ls & rest & -> & H1 & H2).
  exists A, m, ls, rest. split; [exact E|]. split; [|now repeat split].
  intros x y Q. apply find_str_first in F0 as (_ & _ & Hfirst).
  assert (L : List.length A <= List.length x).
  { apply Hfirst. exists (y ++ m ++ put ls ++ rest). rewrite E. rewrite !app_assoc. rewrite !app_assoc in Q. rewrite Q. now rewrite <- !app_assoc. }
  apply (f_equal (@List.length N)) in Q. rewrite !app_length in Q. destruct y; [reflexivity|cbn [List.length] in Q; lia].
Qed.

(* ---- names in lines ---- *)
Lemma pattern_ne p : p ++ lit ": " <> [].
Proof. destruct p; discriminate. Qed.
Lemma pattern_line p : ~ In 10%N p -> ~ In 10%N (p ++ lit ": ").
Proof. intros H Q. apply in_app_iff in Q as [Q|Q]; [contradiction|]. cbn in Q. intuition discriminate. Qed.
(* a pattern that has no newline is in one of the lines *)
Lemma has_split q a s : ~ In 10%N q -> q <> [] -> has q (a ++ 10%N :: s) -> has q a \/ has q s.
Proof.
  intros Hn Hq (x & y & E). destruct (app_eq_app _ _ _ _ E) as [w [[-> E2]|[-> E2]]].
  - destruct (app_eq_app _ _ _ _ E2) as [u [[-> E3]|[-> E3]]].
    + destruct u as [|c u].
      * left. exists x, []. now rewrite !app_nil_r.
      * cbn [app] in E3. injection E3 as <- _. exfalso. apply Hn. apply in_elt.
    + left. exists x, u. reflexivity.
  - destruct w as [|c w].
    + cbn [app] in E2. destruct q as [|k q]; [congruence|]. cbn [app] in E2. injection E2 as <- _. exfalso. apply Hn. now left.
    + cbn [app] in E2. injection E2 as <- E2. right. exists w, y. exact E2.
Qed.
Lemma silent_put p m ls : ~ In 10%N p -> silent p m -> Forall (silent p) ls -> silent p (m ++ put ls).
Proof.
  intros Hp Hm H. revert m Hm. induction H as [|l ls H _ IH]; intros m Hm; [now rewrite app_nil_r|].
  rewrite put_cons. intros Q. apply has_split in Q as [Q|Q]; [exact (Hm Q)|exact (IH l H Q)|now apply pattern_line|apply pattern_ne].
Qed.
Lemma silent_first p s : ~ In 10%N p -> silent p s -> first_at (p ++ lit ": ") (s ++ [10%N]).
Proof.
  intros Hp Hs x y E. pose proof (pattern_line p Hp) as Hn. set (q := p ++ lit ": ") in *. rewrite <- app_assoc in E.
  destruct (app_eq_app _ _ _ _ E) as [w [[-> E2]|[-> E2]]].
  - destruct (app_eq_app _ _ _ _ E2) as [u [[E4 E3]|[-> E3]]].
    + destruct u as [|c u].
      * exfalso. apply Hs. fold q. rewrite app_nil_r in E4. rewrite <- E4. exists x, []. now rewrite app_nil_r.
      * cbn [app] in E3. injection E3 as <- _. exfalso. apply Hn. rewrite E4. apply in_elt.
    + exfalso. apply Hs. exists x, u. reflexivity.
  - destruct w as [|c w].
    + cbn [app] in E2. unfold q in E2 at 2. destruct p as [|k p]; cbn [app] in E2.
      * injection E2 as E2 _. discriminate E2.
      * injection E2 as E2 _. exfalso. apply Hp. left. congruence.
    + cbn [app] in E2. injection E2 as <- E2. apply (f_equal (@List.length N)) in E2. rewrite !app_length in E2. destruct y; [reflexivity|cbn [List.length] in E2; lia].
Qed.

(* ---- the commands ---- *)
Lemma info_ne : info_header <> [] /\ ~ In 10%N info_header.
Proof. split; [discriminate|]. vm_compute. intuition discriminate. Qed.
Lemma no_section t : ~ has info t -> section_span info_header t = None.
Proof. intros H. unfold section_span. now rewrite find_missing. Qed.
Lemma find_some_line p m X v Y : ~ In 10%N p -> silent p (info ++ m) -> Forall (silent p) X ->
  find_str (property_pattern p) (info ++ m ++ put (X ++ info_line p v :: Y)) =
  Some ((info ++ m ++ put X) ++ [10%N], property_pattern p ++ v ++ put Y).
Proof.
  intros Hp Hm HX. unfold property_pattern.
  replace (info ++ m ++ put (X ++ info_line p v :: Y)) with (((info ++ m ++ put X) ++ [10%N]) ++ (p ++ lit ": ") ++ (v ++ put Y)).
  - rewrite find_first; [reflexivity|apply pattern_ne|]. apply silent_first; [exact Hp|]. rewrite app_assoc. now apply silent_put.
  - rewrite put_app, put_cons. unfold info_line. rewrite <- !app_assoc. reflexivity.
Qed.
Lemma find_no_line p m ls : ~ In 10%N p -> silent p (info ++ m) -> Forall (silent p) ls ->
  find_str (property_pattern p) (info ++ m ++ put ls) = None.
Proof. intros Hp Hm H. apply find_missing. rewrite app_assoc. now apply silent_put. Qed.

Lemma get_some p d A m X v Y rest : sectioned info (text d) A m (X ++ info_line p v :: Y) rest ->
  ~ In 10%N p -> silent p (info ++ m) -> Forall (silent p) X -> get_info p d = Done (Some (Some (trim v))).
Proof.
  intros S Hp Hm HX. unfold get_info. destruct (span_of _ _ _ _ _ _ (proj1 info_ne) (proj2 info_ne) S) as (-> & -> & _). cbn [need bind].
  rewrite find_some_line by assumption. cbv iota. cbn zeta.
  assert (Hv : ~ In 10%N v). { destruct S as (_ & _ & _ & F & _). apply Forall_app in F as [_ F]. inversion F as [|? ? [Q _]]. subst. intros K. apply Q. apply in_or_app. right. apply in_or_app. now right. }
  set (a := (info ++ m ++ put X) ++ [10%N]).
  change info_header with info. replace (info ++ m ++ put (X ++ info_line p v :: Y)) with ((a ++ property_pattern p) ++ v ++ put Y).
  2:{ unfold a, property_pattern. rewrite put_app, put_cons. unfold info_line. rewrite <- !app_assoc. reflexivity. }
  rewrite <- blen_app. rewrite slice_from_app. cbn [need bind]. rewrite newline_split; [|exact Hv|].
  - destruct Y as [|y Y].
    + cbn [put flat_map]. rewrite app_nil_r. rewrite (blen_app _ v). replace (slice _ _ _) with (Some v); [reflexivity|].
      symmetry. rewrite <- (app_nil_r v) at 1. apply slice_app.
    + rewrite put_cons. cbn [app]. rewrite slice_app. reflexivity.
  - destruct Y as [|y Y]; [now left|]. right. rewrite put_cons. eauto.
Qed.
Lemma get_none p d A m ls rest : sectioned info (text d) A m ls rest ->
  ~ In 10%N p -> silent p (info ++ m) -> Forall (silent p) ls -> get_info p d = Done (Some None).
Proof.
  intros S Hp Hm H. unfold get_info. destruct (span_of _ _ _ _ _ _ (proj1 info_ne) (proj2 info_ne) S) as (-> & -> & _). cbn [need bind].
  now rewrite find_no_line.
Qed.
Lemma get_looked p d A m ls rest o : sectioned info (text d) A m ls rest ->
  ~ In 10%N p -> silent p (info ++ m) -> looked p ls o -> get_info p d = Done (Some (option_map trim o)).
Proof.
  intros S Hp Hm [H|X v Y -> H]; [eapply get_none; eauto|]. cbn [option_map]. eapply get_some; eauto.
Qed.
Lemma section_text h t A m ls rest ls' t' : sectioned h t A m ls rest -> Forall inner ls' -> t' = A ++ h ++ m ++ put ls' ++ rest ->
  sectioned h t' A m ls' rest.
Proof. intros (_ & H1 & H2 & _ & H3) H -> . now repeat split. Qed.

Lemma set_some sz p w d A m X v Y rest : handled sz d -> sectioned info (text d) A m (X ++ info_line p v :: Y) rest ->
  ~ In 10%N p -> silent p (info ++ m) -> Forall (silent p) X ->
  let at_ := A ++ info ++ m ++ put X ++ [10%N] in
  exists d', set_info sz p w d = Done (d', Some (success_with_change (mkRange (blen at_) (blen (at_ ++ info_line p w))) (blen (at_ ++ info_line p w)))) /\
    text d' = A ++ info ++ m ++ put (X ++ info_line p w :: Y) ++ rest /\ handled sz d'.
Proof.
  intros HR S Hp Hm HX at_. unfold set_info. destruct (span_of _ _ _ _ _ _ (proj1 info_ne) (proj2 info_ne) S) as (-> & -> & _). cbn [need bind].
  rewrite find_some_line by assumption. cbn zeta.
  assert (Hl : ~ In 10%N (info_line p v)). { destruct S as (_ & _ & _ & F & _). apply Forall_app in F as [_ F]. now inversion F as [|? ? [Q _]]. }
  rewrite <- blen_app.
  assert (E : text d = at_ ++ info_line p v ++ (put Y ++ rest)).
  { destruct S as (-> & _). unfold at_. flat. }
  replace (A ++ (info ++ m ++ put X) ++ [10%N]) with at_ by (unfold at_; now rewrite <- !app_assoc).
  rewrite E. rewrite slice_from_app. cbn [need bind]. rewrite line_end_at; [|exact Hl|apply put_after, next_after; apply S].
  rewrite range_new_le by lia. change (p ++ lit ": " ++ w) with (info_line p w).
  destruct (handled_replace sz d at_ (info_line p v) (put Y ++ rest) (info_line p w) HR E) as (d' & D & T & H).
  rewrite D. cbn [of_out and_then bind fst snd]. exists d'. split; [|split; [|exact H]].
  - rewrite range_new_le by lia. now rewrite <- !blen_app.
  - rewrite T. unfold at_. flat.
Qed.
Lemma set_new sz p w d A m ls rest : handled sz d -> sectioned info (text d) A m ls rest ->
  ~ In 10%N p -> silent p (info ++ m) -> Forall (silent p) ls -> below ls rest ->
  let at_ := A ++ info ++ m ++ [10%N] in
  exists d', set_info sz p w d = Done (d', Some (success_with_change (mkRange (blen at_) (blen (at_ ++ info_line p w ++ [10%N]))) (blen (at_ ++ info_line p w ++ [10%N])))) /\
    text d' = A ++ info ++ m ++ put (info_line p w :: ls) ++ rest /\ handled sz d' /\ history d' = history d.
Proof.
  intros HR S Hp Hm H B at_. unfold set_info. destruct (span_of _ _ _ _ _ _ (proj1 info_ne) (proj2 info_ne) S) as (-> & -> & ->). cbn [need bind].
  rewrite find_no_line by assumption. cbn zeta.
  assert (Q : exists r, put ls ++ rest = 10%N :: r).
  { destruct ls as [|l ls]; [|rewrite put_cons; cbn [app]; eauto]. destruct B as [B|B]; [congruence|].
    destruct S as (_ & _ & _ & _ & [->|[r ->]]); [congruence|]. cbn [put flat_map app]. eauto. }
  destruct Q as [r Q]. replace (info_header ++ m ++ put ls ++ rest) with ((info ++ m) ++ 10%N :: r) by (change info_header with info; rewrite Q; now rewrite <- app_assoc).
  rewrite newline_of.
  2:{ intros K. apply in_app_iff in K as [K|K]; [exact (proj2 info_ne K)|]. destruct S as (_ & _ & K2 & _). contradiction. }
  assert (E : text d = at_ ++ r).
  { destruct S as (-> & _). rewrite Q. unfold at_. flat. }
  replace (blen A + blen (info ++ m) + 1) with (blen at_) by (unfold at_; rewrite !blen_app; change (blen [10%N]) with 1; lia).
  rewrite (insert_raw_app d at_ r) by exact E. cbn [of_out and_then bind fst snd].
  eexists. split; [rewrite range_new_le by lia|].
  - change (p ++ lit ": " ++ w ++ [10%N]) with (p ++ lit ": " ++ (w ++ [10%N])). unfold info_line. rewrite <- !blen_app.
    replace ((p ++ lit ": " ++ w) ++ [10%N]) with (p ++ lit ": " ++ w ++ [10%N]) by now rewrite <- !app_assoc. reflexivity.
  - cbn [text set_text history]. split; [|split; [now apply hd_raw|reflexivity]]. rewrite put_cons. unfold at_, info_line. rewrite <- !app_assoc. cbn [app].
    do 3 f_equal. f_equal. rewrite <- !app_assoc. rewrite Q. reflexivity.
Qed.
Lemma set_bare sz p w d A m : handled sz d -> sectioned info (text d) A m [] [] ->
  ~ In 10%N p -> silent p (info ++ m) ->
  exists d' r, set_info sz p w d = Done (d', Some r) /\ text d' = A ++ info ++ info_line p w ++ [10%N] ++ m.
Proof.
  intros HR S Hp Hm. unfold set_info. destruct (span_of _ _ _ _ _ _ (proj1 info_ne) (proj2 info_ne) S) as (-> & -> & ->). cbn [need bind].
  rewrite find_no_line by (assumption || constructor). cbn zeta.
  change (put [] ++ []) with (@nil N). rewrite app_nil_r.
  rewrite newline_none.
  2:{ intros K. apply in_app_iff in K as [K|K]; [exact (proj2 info_ne K)|]. destruct S as (_ & _ & K2 & _). contradiction. }
  assert (E : text d = (A ++ info) ++ m). { destruct S as (-> & _). change (put [] ++ []) with (@nil N). rewrite app_nil_r. flat. }
  replace (blen A + 13) with (blen (A ++ info)) by (rewrite blen_app; reflexivity).
  rewrite (insert_raw_app d _ _ _ E). cbn [of_out and_then bind fst snd]. eexists. eexists. split; [reflexivity|]. cbn [text set_text]. unfold info_line. flat.
Qed.
Lemma delete_some sz p d A m X v Y rest : handled sz d -> sectioned info (text d) A m (X ++ info_line p v :: Y) rest ->
  ~ In 10%N p -> silent p (info ++ m) -> Forall (silent p) X ->
  let at_ := A ++ info ++ m ++ put X ++ [10%N] in
  exists d', delete_info sz p d = Done (d', Some (success_with_change (mkRange (blen at_) (blen at_)) (blen at_))) /\
    text d' = A ++ info ++ m ++ put (X ++ (match Y ++ [rest] with [[]] => [[]] | _ => Y end)) ++ rest /\ handled sz d'.
Proof.
  intros HR S Hp Hm HX at_. unfold delete_info. destruct (span_of _ _ _ _ _ _ (proj1 info_ne) (proj2 info_ne) S) as (-> & -> & _). cbn [need bind].
  rewrite find_some_line by assumption. cbn zeta.
  assert (Hl : ~ In 10%N (info_line p v)). { destruct S as (_ & _ & _ & F & _). apply Forall_app in F as [_ F]. now inversion F as [|? ? [Q _]]. }
  rewrite <- blen_app.
  assert (E : text d = at_ ++ info_line p v ++ (put Y ++ rest)).
  { destruct S as (-> & _). unfold at_. flat. }
  replace (A ++ (info ++ m ++ put X) ++ [10%N]) with at_ by (unfold at_; now rewrite <- !app_assoc).
  rewrite E. rewrite slice_from_app. cbn [need bind]. assert (HY : after_line (put Y ++ rest)) by (apply put_after, next_after; apply S).
  rewrite newline_split; [|exact Hl|exact HY]. destruct HY as [HY|[R HY]].
  - rewrite HY in *. apply app_eq_nil in HY as [HY1 HY2]. assert (Y = []) by (destruct Y as [|y Y]; [reflexivity|discriminate HY1]). subst Y rest.
    rewrite app_nil_r, blen_app, range_new_le by lia.
    destruct (handled_delete sz d at_ (info_line p v) [] HR E) as (d' & D & T & H).
    rewrite D. cbn [of_out and_then bind fst snd]. exists d'. split; [|split; [|exact H]]; [now rewrite range_new_le by lia|].
    rewrite T. unfold at_. cbn [app]. rewrite !app_nil_r. flat.
  - rewrite HY. replace (blen at_ + blen (info_line p v) + 1) with (blen at_ + blen (info_line p v ++ [10%N])) by (rewrite blen_app; change (blen [10%N]) with 1; lia).
    rewrite range_new_le by lia.
    assert (E2 : text d = at_ ++ (info_line p v ++ [10%N]) ++ R) by (rewrite E, HY; flat).
    destruct (handled_delete sz d at_ (info_line p v ++ [10%N]) R HR E2) as (d' & D & T & H).
    rewrite D. cbn [of_out and_then bind fst snd]. exists d'. split; [|split; [|exact H]]; [now rewrite range_new_le by lia|].
    rewrite T. unfold at_. replace (match Y ++ [rest] with [[]] => [[]] | _ => Y end) with Y.
    + rewrite put_app, <- !app_assoc, HY. reflexivity.
    + destruct Y as [|y Y]; [cbn [app]; destruct rest; [discriminate HY|reflexivity]|]. cbn [app]. destruct y; [destruct Y|]; reflexivity.
Qed.
Lemma delete_none sz p d A m ls rest : sectioned info (text d) A m ls rest ->
  ~ In 10%N p -> silent p (info ++ m) -> Forall (silent p) ls -> delete_info sz p d = Done (d, Some success_result).
Proof.
  intros S Hp Hm H. unfold delete_info. destruct (span_of _ _ _ _ _ _ (proj1 info_ne) (proj2 info_ne) S) as (-> & -> & _). cbn [need bind].
  now rewrite find_no_line.
Qed.

(* ---- set, then get ---- *)
Lemma told_inner p w ls ls' : told p w ls ls' -> Forall inner ls -> info_name p -> ~ In 10%N w -> Forall inner ls'.
Proof.
  intros T H (N1 & N2) Hw. assert (L : inner (info_line p w)).
  { split.
    - unfold info_line. intros Q. apply in_app_iff in Q as [Q|Q]; [contradiction|]. apply in_app_iff in Q as [Q|Q]; [|contradiction]. cbn in Q. intuition discriminate.
    - intros r Q. unfold info_line in Q. destruct p as [|c p]; [discriminate Q|]. cbn in Q. injection Q as -> _. exact (N2 p eq_refl). }
  destruct T as [_|X v Y -> _]; [now constructor|]. apply Forall_app in H as [H1 H2]. apply Forall_app. split; [exact H1|]. inversion H2. now constructor.
Qed.
Lemma told_looked p w ls ls' : told p w ls ls' -> looked p ls' (Some w).
Proof. intros [H|X v Y -> H]; [now apply lk_some with (X := []) (Y := ls)|now apply lk_some with (X := X) (Y := Y)]. Qed.
Lemma told_other p w ls ls' q o : told p w ls ls' -> (forall v v', info_line p v <> info_line q v') -> silent q (info_line p w) -> looked q ls o -> looked q ls' o.
Proof.
  intros T D S L. destruct T as [_|X v Y -> HX].
  - destruct L as [L|X v Y -> L]; [apply lk_none; now constructor|]. apply lk_some with (X := info_line p w :: X) (Y := Y); [reflexivity|now constructor].
  - destruct L as [L|X2 v2 Y2 E L].
    + apply lk_none. apply Forall_app in L as [L1 L2]. inversion L2. apply Forall_app. split; [exact L1|]. now constructor.
    + destruct (app_eq_app _ _ _ _ E) as [u [[-> E2]|[-> E2]]].
      * destruct u as [|c u].
        -- cbn [app] in E2. injection E2 as E2 _. exfalso. exact (D v v2 (eq_sym E2)).
        -- cbn [app] in E2. injection E2 as <- E2. apply lk_some with (X := X2) (Y := u ++ info_line p w :: Y); [now rewrite <- app_assoc|exact L].
      * destruct u as [|c u].
        -- cbn [app] in E2. injection E2 as E2 _. exfalso. exact (D v v2 E2).
        -- cbn [app] in E2. injection E2 as <- E2. subst Y. apply lk_some with (X := X ++ info_line p w :: u) (Y := Y2); [now rewrite <- app_assoc|].
           apply Forall_app in L as [L1 L2]. inversion L2. apply Forall_app. split; [exact L1|]. now constructor.
Qed.
Lemma set_told sz p w d A m ls rest ls' : handled sz d -> sectioned info (text d) A m ls rest -> info_name p -> ~ In 10%N w ->
  silent p (info ++ m) -> told p w ls ls' -> below ls rest ->
  exists d' r, set_info sz p w d = Done (d', Some r) /\ sectioned info (text d') A m ls' rest /\ handled sz d'.
Proof.
  intros HR S Hp Hw Hm T B. pose proof (told_inner p w ls ls' T (proj1 (proj2 (proj2 (proj2 S)))) Hp Hw) as HI.
  destruct T as [H|X v Y -> H].
  - destruct (set_new sz p w d A m ls rest HR S (proj1 Hp) Hm H B) as (d' & D & T & R & _). exists d'. eexists. split; [exact D|]. split; [|exact R].
    exact (section_text _ _ _ _ _ _ _ _ S HI T).
  - destruct (set_some sz p w d A m X v Y rest HR S (proj1 Hp) Hm H) as (d' & D & T & R). exists d'. eexists. split; [exact D|]. split; [|exact R].
    exact (section_text _ _ _ _ _ _ _ _ S HI T).
Qed.
Lemma looked_told p ls o w : looked p ls o -> exists ls', told p w ls ls' /\ ls' <> [].
Proof. intros [H|X v Y -> H]; eexists; (split; [now constructor|]) || (split; [eapply td_old; [reflexivity|exact H]|]); [discriminate|]. now destruct X. Qed.

(* ---- all ---- *)
Definition pair_of (l : str) : list (str * str) :=
  if starts_with [91%N] l || is_nil (trim l) then []
  else match find_char (N.eqb 58) l with Some (a, b) => [(trim a, trim (tl b))] | None => [] end.
Lemma info_entry_pair l : info_entry l = Done (pair_of l).
Proof.
  unfold info_entry, pair_of. destruct (starts_with _ _ || _); [reflexivity|]. destruct (find_char (N.eqb 58) l) as [[a b]|] eqn:E; [|reflexivity].
  apply find_char_some in E as (-> & _ & c & b' & -> & Hc). apply N.eqb_eq in Hc as <-. rewrite slice_to_app. cbn [need bind].
  replace (blen a + 1) with (blen (a ++ [58%N])) by (rewrite blen_app; reflexivity).
  replace (a ++ 58%N :: b') with ((a ++ [58%N]) ++ b') by flat. rewrite slice_from_app. reflexivity.
Qed.
Lemma info_entries_pairs ls : info_entries ls = Done (flat_map pair_of ls).
Proof. induction ls as [|l ls IH]; [reflexivity|]. cbn [info_entries flat_map]. now rewrite info_entry_pair, IH. Qed.
Lemma strip_cr_cases l : strip_cr l = l \/ l = strip_cr l ++ [13%N].
Proof.
  unfold strip_cr. destruct (rev l) as [|c r] eqn:E; [now left|]. destruct (N.eqb_spec c 13) as [->|]; [|now left]. right.
  rewrite <- (rev_involutive l), E. reflexivity.
Qed.
Lemma flat_lines {B} (f : str -> list B) : f [] = [] -> (forall l, f (strip_cr l) = f l) -> forall ls l0, ~ In 10%N l0 -> Forall (fun l => ~ In 10%N l) ls ->
  flat_map f (lines (l0 ++ put ls)) = f l0 ++ flat_map f ls.
Proof.
  intros F0 Fs. assert (R : forall l r, ~ In 10%N l -> lines_raw (l ++ 10%N :: r) = (l, true) :: lines_raw r).
  { induction l as [|c l IH]; intros r H; [reflexivity|]. cbn [app lines_raw]. unfold is_nl. destruct (N.eqb_spec c 10); [exfalso; apply H; now left|].
    rewrite IH; [reflexivity|]. intros Q. apply H. now right. }
  assert (L : forall l, ~ In 10%N l -> l <> [] -> lines_raw l = [(l, false)]).
  { induction l as [|c l IH]; intros H Q; [congruence|]. cbn [lines_raw]. unfold is_nl. destruct (N.eqb_spec c 10); [exfalso; apply H; now left|].
    destruct l as [|c2 l]; [reflexivity|]. rewrite IH; [reflexivity|intros K; apply H; now right|discriminate]. }
  induction ls as [|l ls IH]; intros l0 H0 H.
  - rewrite !app_nil_r. destruct l0 as [|c l0]; [now rewrite F0|]. unfold lines. rewrite L by (assumption || discriminate). cbn [map flat_map]. now rewrite app_nil_r.
  - inversion H as [|? ? H1 H2]. subst. rewrite put_cons. unfold lines. rewrite R by exact H0. cbn [map flat_map]. rewrite Fs. f_equal. apply IH; assumption.
Qed.
Lemma trim_cr s : trim (s ++ [13%N]) = trim s.
Proof.
  destruct (trim_spec s) as (a & b & E2 & Ha & Hb). rewrite E2 at 1. rewrite <- !app_assoc. apply trim_app_ws; [exact Ha| |].
  - rewrite forallb_app, Hb. reflexivity.
  - apply trim_idem.
Qed.
Lemma trim_strip_cr l : trim (strip_cr l) = trim l.
Proof.
  destruct (strip_cr_cases l) as [E|E]; [now rewrite E|]. rewrite E at 2. now rewrite trim_cr.
Qed.
Lemma find_colon k v : ~ In 58%N k -> find_char (N.eqb 58) (k ++ 58%N :: v) = Some (k, 58%N :: v).
Proof.
  intros H. apply find_char_some. split; [reflexivity|]. split; [|now exists 58%N, v]. apply forallb_forall. intros x Q. apply negb_true_iff, N.eqb_neq. congruence.
Qed.
Lemma find_no_colon x : ~ In 58%N x -> find_char (N.eqb 58) x = None.
Proof. intros H. apply find_char_none. apply forallb_forall. intros c Q. apply negb_true_iff, N.eqb_neq. congruence. Qed.
Lemma mid_not_blank k c v : is_ws c = false -> is_nil (trim (k ++ c :: v)) = false.
Proof.
  intros H. destruct (trim_spec (k ++ c :: v)) as (a & b & E & Ha & Hb). destruct (trim (k ++ c :: v)) as [|x r]; [|reflexivity]. exfalso.
  assert (Q : In c (a ++ b)) by (cbn [app] in E; rewrite <- E; apply in_elt). rewrite forallb_forall in Ha, Hb.
  apply in_app_iff in Q as [Q|Q]; [specialize (Ha _ Q)|specialize (Hb _ Q)]; congruence.
Qed.
Lemma not_bracket l : inner l -> starts_with [91%N] l = false.
Proof. intros [_ H]. destruct (starts_with [91%N] l) eqn:E; [|reflexivity]. apply starts_with_spec in E as [r ->]. exfalso. exact (H r eq_refl). Qed.
Lemma pairs_of ls l : Forall inner ls -> pairs ls l -> flat_map pair_of ls = l.
Proof.
  intros H P. induction P as [|k v ls l Hk P IH|x ls l Hx P IH]; [reflexivity| |]; inversion H as [|? ? H1 H2]; subst; cbn [flat_map]; unfold pair_of at 1;
    rewrite (not_bracket _ H1).
  - rewrite (mid_not_blank k 58 v eq_refl). cbn [orb]. rewrite find_colon by exact Hk. cbn [tl app]. f_equal. exact (IH H2).
  - rewrite find_no_colon by exact Hx. destruct (is_nil _); exact (IH H2).
Qed.
Lemma starts_strip_cr l : starts_with [91%N] (strip_cr l) = starts_with [91%N] l.
Proof.
  destruct (strip_cr_cases l) as [E|E]; [now rewrite E|]. rewrite E at 2. destruct (strip_cr l) as [|c r]; [reflexivity|]. unfold starts_with. cbn [app strip_prefix]. destruct (91 =? c)%N; reflexivity.
Qed.
Lemma pair_strip_cr l : pair_of (strip_cr l) = pair_of l.
Proof.
  unfold pair_of. rewrite trim_strip_cr, starts_strip_cr. destruct (_ || _); [reflexivity|].
  destruct (strip_cr_cases l) as [E|E]; [now rewrite E|]. set (s := strip_cr l) in *. clearbody s. subst l.
  destruct (find_char (N.eqb 58) s) as [[a b]|] eqn:F.
  - apply find_char_some in F as (-> & Ha & c & b' & -> & Hc). apply N.eqb_eq in Hc as <-. rewrite <- app_assoc. cbn [app]. rewrite find_colon.
    + cbn [tl]. now rewrite trim_cr.
    + intros Q. rewrite forallb_forall in Ha. specialize (Ha _ Q). discriminate Ha.
  - rewrite find_no_colon; [reflexivity|]. apply find_char_none in F. rewrite forallb_forall in F. intros Q. apply in_app_iff in Q as [Q|[Q|[]]]; [specialize (F _ Q); discriminate F|discriminate Q].
Qed.
Lemma get_all_pairs d A m ls rest l : sectioned info (text d) A m ls rest -> pairs ls l -> get_all_info d = Done (Some l).
Proof.
  intros S P. unfold get_all_info. destruct (span_of _ _ _ _ _ _ (proj1 info_ne) (proj2 info_ne) S) as (-> & -> & _). cbn [need bind].
  rewrite info_entries_pairs. cbn [bind]. do 2 f_equal. destruct S as (_ & _ & Hm & HI & _). rewrite app_assoc. rewrite flat_lines.
  - change (pair_of (info_header ++ m)) with (@nil (str * str)). cbn [app]. now apply pairs_of.
  - reflexivity.
  - exact pair_strip_cr.
  - intros Q. apply in_app_iff in Q as [Q|Q]; [exact (proj2 info_ne Q)|contradiction].
  - eapply Forall_impl; [|exact HI]. intros a [Q _]. exact Q.
Qed.
