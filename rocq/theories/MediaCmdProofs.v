From Verif Require Import Base BaseLemmas DocModel DocSpec DocProofs ParseModel IncrModel IncrBounds EventCmdModel EventCmdSpec EventCmdProofs
  UuModel UuSpec UuProofs StyleCmdModel StyleCmdSpec StyleCmdProofs InfoCmdModel InfoCmdSpec InfoCmdProofs MediaCmdModel MediaCmdSpec.

Definition known (k : media) : Prop := k = fonts \/ k = graphics.
Lemma known_facts k : known k -> md_header k <> [] /\ ~ In 10%N (md_header k) /\ (exists r, md_header k = 91%N :: r) /\
  md_key k <> [] /\ ~ In 10%N (md_key k) /\ (forall r, md_key k <> lit "[" ++ r) /\ ~ In 91%N (md_key k).
Proof.
  intros [->| ->]; (split; [discriminate|]; split; [vm_compute; intuition discriminate|]; split; [eexists; reflexivity|]; split; [discriminate|];
    split; [vm_compute; intuition discriminate|]; split; [intros r Q; discriminate Q|vm_compute; intuition discriminate]).
Qed.

(* ---- patterns and lines ---- *)
Lemma missing_put q m ls : ~ In 10%N q -> q <> [] -> ~ has q m -> Forall (fun l => ~ has q l) ls -> ~ has q (m ++ put ls).
Proof.
  intros Hq Hn Hm H. revert m Hm. induction H as [|l ls H _ IH]; intros m Hm; [now rewrite app_nil_r|].
  rewrite put_cons. intros Q. apply has_split in Q as [Q|Q]; [exact (Hm Q)|exact (IH l H Q)|exact Hq|exact Hn].
Qed.
Lemma missing_first q s : ~ In 10%N q -> q <> [] -> ~ has q s -> first_at q (s ++ [10%N]).
Proof.
  intros Hq Hn Hs x y E. rewrite <- app_assoc in E. destruct (app_eq_app _ _ _ _ E) as [w [[-> E2]|[-> E2]]].
  - destruct (app_eq_app _ _ _ _ E2) as [u [[E4 E3]|[-> E3]]].
    + destruct u as [|c u].
      * exfalso. apply Hs. rewrite app_nil_r in E4. rewrite <- E4. exists x, []. now rewrite app_nil_r.
      * cbn [app] in E3. injection E3 as <- _. exfalso. apply Hq. rewrite E4. apply in_elt.
    + exfalso. apply Hs. exists x, u. reflexivity.
  - destruct w as [|c w].
    + cbn [app] in E2. destruct q as [|k q]; [congruence|]. cbn [app] in E2. injection E2 as <- _. exfalso. apply Hq. now left.
    + cbn [app] in E2. injection E2 as <- E2. apply (f_equal (@List.length N)) in E2. rewrite !app_length in E2. destruct y; [reflexivity|cbn [List.length] in E2; lia].
Qed.
Lemma starts_line key d z y : ~ In 10%N key -> after_line z -> d ++ z = key ++ y -> starts key d.
Proof.
  intros Hk Hz E. destruct (app_eq_app _ _ _ _ E) as [w [[-> E2]|[-> E2]]]; [now exists w|].
  destruct w as [|c w]; [exists []; now rewrite !app_nil_r|]. exfalso. destruct Hz as [->|[r ->]]; [discriminate E2|].
  cbn [app] in E2. injection E2 as <- _. apply Hk. apply in_elt.
Qed.
Lemma key_place key x z u y : ~ In 10%N x -> x ++ z = u ++ (10%N :: key) ++ y -> exists u', u = x ++ u' /\ z = u' ++ (10%N :: key) ++ y.
Proof.
  intros Hx E. destruct (app_eq_app _ _ _ _ E) as [w [[-> E2]|[-> E2]]]; [|now exists w].
  destruct w as [|c w]; [exists []; split; [now rewrite !app_nil_r|cbn [app] in E2 |- *; congruence]|]. exfalso. cbn [app] in E2. injection E2 as <- _. apply Hx. apply in_elt.
Qed.
Lemma key_first key : ~ In 10%N key -> forall data x, ~ In 10%N x -> Forall (data_line key) data -> first_at (10%N :: key) (x ++ put data).
Proof.
  intros Hk. induction data as [|d ds IH]; intros x Hx H u y E; rewrite <- app_assoc in E; apply key_place in E as (u' & -> & E); try exact Hx.
  - apply (f_equal (@List.length N)) in E. cbn [put flat_map app] in E. rewrite app_length in E. cbn [List.length] in E. rewrite app_length in E. destruct y; [reflexivity|cbn [List.length] in E; lia].
  - inversion H as [|? ? [[H1 _] H2] H3]. subst. rewrite put_cons in E. cbn [app] in E. destruct u' as [|c u'].
    + cbn [app] in E. injection E as E. exfalso. apply H2. rewrite <- app_assoc in E. eapply starts_line; [exact Hk| |exact E].
      destruct ds as [|d2 ds]; [right; eexists; reflexivity|]. right. rewrite put_cons. eexists. reflexivity.
    + cbn [app] in E. injection E as _ E. eapply (IH d H1 H3 u' y). rewrite <- app_assoc. rewrite <- app_assoc in E. exact E.
Qed.
Lemma key_missing key rest : ~ In 10%N key -> after_line rest -> ~ has (10%N :: key) rest -> forall data x, ~ In 10%N x -> Forall (data_line key) data ->
  ~ has (10%N :: key) (x ++ put data ++ rest).
Proof.
  intros Hk Hr Hm. induction data as [|d ds IH]; intros x Hx H (u & y & E); apply key_place in E as (u' & -> & E); try exact Hx.
  - apply Hm. exists u', y. exact E.
  - inversion H as [|? ? [[H1 _] H2] H3]. subst. rewrite put_cons in E. cbn [app] in E. destruct u' as [|c u'].
    + cbn [app] in E. injection E as E. apply H2. rewrite <- app_assoc in E. eapply starts_line; [exact Hk| |exact E]. now apply put_after.
    + cbn [app] in E. injection E as _ E. apply (IH d H1 H3). exists u', y. rewrite <- app_assoc in E. exact E.
Qed.

(* ---- list ---- *)
Definition name_of (key l : str) : list str := match strip_prefix (key ++ [32%N]) l with Some f => [trim f] | None => [] end.
Lemma name_title key f : name_of key (title key f) = [trim f].
Proof.
  unfold name_of, title. replace (key ++ lit " " ++ f) with ((key ++ [32%N]) ++ f) by (rewrite <- app_assoc; reflexivity).
  destruct (strip_prefix (key ++ [32%N]) ((key ++ [32%N]) ++ f)) as [r|] eqn:E.
  - apply strip_prefix_some in E. apply app_inv_head in E. now subst.
  - pose proof (starts_with_app (key ++ [32%N]) f) as H. unfold starts_with in H. rewrite E in H. discriminate H.
Qed.
Lemma name_other key x : ~ starts (key ++ lit " ") x -> name_of key x = [].
Proof.
  intros H. unfold name_of. destruct (strip_prefix (key ++ [32%N]) x) as [r|] eqn:E; [|reflexivity]. exfalso. apply H. exists r. now apply strip_prefix_some in E.
Qed.
Lemma listed_names key ls l : listed key ls l -> flat_map (name_of key) ls = l.
Proof. induction 1 as [|f ls l H IH|x ls l Hx H IH]; cbn [flat_map]; [reflexivity|now rewrite name_title, IH|now rewrite name_other, IH]. Qed.
Lemma listed_total key ls : exists l, listed key ls l.
Proof.
  induction ls as [|x ls [l IH]]; [exists []; constructor|]. destruct (strip_prefix (key ++ [32%N]) x) as [f|] eqn:E.
  - apply strip_prefix_some in E as ->. exists (trim f :: l). replace ((key ++ [32%N]) ++ f) with (title key f) by (unfold title; now rewrite <- app_assoc). now constructor.
  - exists l. constructor; [|exact IH]. intros [r ->]. pose proof (starts_with_app (key ++ [32%N]) r) as H. unfold starts_with in H.
    change (lit " ") with [32%N] in E. rewrite E in H. discriminate H.
Qed.
Lemma name_strip_cr key l : name_of key (strip_cr l) = name_of key l.
Proof.
  destruct (strip_cr_cases l) as [E|E]; [now rewrite E|]. set (s := strip_cr l) in *. clearbody s. subst l.
  unfold name_of at 1. destruct (strip_prefix (key ++ [32%N]) s) as [f|] eqn:E.
  - apply strip_prefix_some in E as ->. replace (((key ++ [32%N]) ++ f) ++ [13%N]) with (title key (f ++ [13%N])) by (unfold title; now rewrite <- !app_assoc).
    rewrite name_title. now rewrite trim_cr.
  - symmetry. apply name_other. intros [r Q]. change (lit " ") with [32%N] in Q. destruct (exists_last (l := r)) as (r' & c & ->).
    + intros ->. rewrite app_nil_r in Q. apply app_inj_tail in Q as [_ Q]. discriminate Q.
    + rewrite app_assoc in Q. apply app_inj_tail in Q as [-> _]. pose proof (starts_with_app (key ++ [32%N]) r') as H. unfold starts_with in H. rewrite E in H. discriminate H.
Qed.
Lemma list_exact k d A m ls rest l : known k -> sectioned (md_header k) (text d) A m ls rest -> listed (md_key k) ls l -> list_media k d = Done l.
Proof.
  intros K S L. destruct (known_facts k K) as (F1 & F2 & [hr F3] & F4 & F5 & F6 & F7). unfold list_media.
  destruct (span_of _ _ _ _ _ _ F1 F2 S) as (-> & -> & _). cbn [need bind]. f_equal. destruct S as (_ & _ & Hm & HI & _). rewrite app_assoc.
  change (fun l0 : str => match strip_prefix (md_key k ++ [32%N]) l0 with Some f => [trim f] | None => [] end) with (name_of (md_key k)).
  rewrite flat_lines.
  - rewrite name_other; [now apply listed_names|]. intros [r Q]. rewrite F3 in Q. cbn [app] in Q. destruct (md_key k) as [|c key]; [congruence|].
    cbn [app] in Q. injection Q as Q _. apply F7. left. congruence.
  - apply name_other. intros [r Q]. destruct (md_key k); discriminate Q.
  - intros x. apply name_strip_cr.
  - intros Q. apply in_app_iff in Q as [Q|Q]; contradiction.
  - eapply Forall_impl; [|exact HI]. intros a [Q _]. exact Q.
Qed.

(* ---- add ---- *)
Definition file_text (key f : str) (data : list str) : str := title key f ++ [10%N] ++ flat_map (fun l => l ++ [10%N]) data.
Lemma add_within k f data d A m ls rest sz : known k -> handled sz d -> sectioned (md_header k) (text d) A m ls rest ->
  let at_ := A ++ md_header k ++ m ++ put ls in
  exists d', add_media k f data d = Done (d', Some (success_with_change (mkRange (blen at_) (blen (at_ ++ file_text (md_key k) f data))) (blen (at_ ++ file_text (md_key k) f data)))) /\
    text d' = at_ ++ file_text (md_key k) f data ++ rest /\ handled sz d' /\ history d' = history d.
Proof.
  intros K HR S at_. destruct (known_facts k K) as (F1 & F2 & _). unfold add_media.
  destruct (span_of _ _ _ _ _ _ F1 F2 S) as (-> & _ & _). cbn [and_then bind fst snd]. rewrite <- blen_app. fold at_.
  assert (E : text d = at_ ++ rest). { destruct S as (-> & _). unfold at_. flat. }
  rewrite (insert_raw_app d at_ rest) by exact E. cbn [of_out and_then bind fst snd]. eexists. split; [rewrite range_new_le by lia|].
  - replace (md_key k ++ [32%N] ++ f ++ [10%N] ++ flat_map (fun l => l ++ [10%N]) data) with (file_text (md_key k) f data).
    + now rewrite <- blen_app.
    + unfold file_text, title. change (lit " ") with [32%N]. now rewrite <- !app_assoc.
  - cbn [text set_text history]. split; [|split; [now apply hd_raw|reflexivity]]. unfold file_text, title. change (lit " ") with [32%N]. now rewrite <- !app_assoc.
Qed.
Lemma put_ended ls X : put (X ++ [[]]) ++ flat_map (fun l => l ++ [10%N]) ls = put (X ++ ls ++ [[]]).
Proof.
  revert X. induction ls as [|l ls IH]; intros X; [cbn [flat_map app]; now rewrite app_nil_r|].
  replace (X ++ (l :: ls) ++ [[]]) with ((X ++ [l]) ++ ls ++ [[]]) by (rewrite <- app_assoc; reflexivity). rewrite <- IH. cbn [flat_map].
  rewrite !put_app. cbn [put flat_map]. rewrite !app_nil_r. repeat (rewrite <- ?app_assoc; cbn [app]). reflexivity.
Qed.
Lemma file_lines key f data X : put (X ++ [[]]) ++ file_text key f data = put (X ++ (title key f :: data) ++ [[]]).
Proof. rewrite <- put_ended. unfold file_text. cbn [flat_map]. now rewrite <- !app_assoc. Qed.
Lemma add_apart k f data d sz : known k -> handled sz d -> ~ has (md_header k) (text d) ->
  let A := text d ++ (if ends_with [10%N] (text d) then [] else [10%N]) in
  exists d' r, add_media k f data d = Done (d', Some r) /\ text d' = A ++ md_header k ++ [10%N] ++ file_text (md_key k) f data /\ handled sz d' /\
    first_at (md_header k) A.
Proof.
  intros K HR HN A. destruct (known_facts k K) as (F1 & F2 & _).
  assert (FA : first_at (md_header k) A).
  { unfold A. destruct (ends_with [10%N] (text d)) eqn:E; [|now apply missing_first].
    apply ends_with_spec in E as [x E]. rewrite E in HN. rewrite app_nil_r, E. apply missing_first; [exact F2|exact F1|]. intros (a & b & Q).
    apply HN. exists a, (b ++ [10%N]). rewrite Q. now rewrite <- !app_assoc. }
  unfold add_media. unfold section_span. rewrite find_missing by exact HN.
  assert (G : forall d1, text d1 = A -> handled sz d1 -> exists d' r,
    and_then (and_then (of_out (insert_raw d1 (blen A) (md_header k ++ [10%N]))) (fun d2 _ => Done (d2, Some (blen A + blen (md_header k ++ [10%N])))))
     (fun d1 pos => let entry := md_key k ++ [32%N] ++ f ++ [10%N] ++ flat_map (fun l => l ++ [10%N]) data in
       and_then (of_out (insert_raw d1 pos entry)) (fun d2 _ => Done (d2, Some (success_with_change (range_new pos (pos + blen entry)) (pos + blen entry))))) = Done (d', Some r) /\
     text d' = A ++ md_header k ++ [10%N] ++ file_text (md_key k) f data /\ handled sz d').
  { intros d1 E1 H1. rewrite <- (app_nil_r A) in E1. rewrite (insert_raw_app d1 A []) by exact E1. cbn [of_out and_then bind fst snd].
    rewrite <- blen_app. erewrite insert_raw_app.
    2:{ cbn [text set_text]. rewrite app_nil_r. rewrite <- (app_nil_r (A ++ md_header k ++ [10%N])) at 1. reflexivity. }
    cbn [of_out and_then bind fst snd]. eexists. eexists. split; [reflexivity|]. cbn [text set_text]. split; [|now repeat apply hd_raw].
    rewrite app_nil_r. unfold file_text, title. change (lit " ") with [32%N]. now rewrite <- !app_assoc. }
  unfold A in *. destruct (ends_with [10%N] (text d)).
  - rewrite app_nil_r in *. cbn [and_then bind fst snd]. destruct (G d eq_refl HR) as (d' & r & D & T & H). exists d', r. split; [exact D|]. now repeat split.
  - assert (E : text d = text d ++ []) by now rewrite app_nil_r.
    cbn [and_then bind fst snd]. rewrite (insert_raw_app d (text d) []) by exact E. cbn [of_out and_then bind fst snd].
    set (d1 := set_text d (text d ++ [10%N] ++ [])).
    assert (E1 : text d1 = text d ++ [10%N]) by (unfold d1; cbn [text set_text]; now rewrite app_nil_r).
    destruct (G d1 E1 (hd_raw _ _ _ HR)) as (d' & r & D & T & H). rewrite blen_app in D. change (blen [10%N]) with 1 in D. exists d', r. split; [exact D|]. now repeat split.
Qed.

(* ---- clear ---- *)
Lemma clear_some k sz d A m l ls rest : known k -> handled sz d -> sectioned (md_header k) (text d) A m (l :: ls) rest ->
  exists d' r, clear_media sz k d = Done (d', Some r) /\ text d' = A ++ md_header k ++ m ++ put [[]] ++ rest /\ handled sz d'.
Proof.
  intros K HR S. destruct (known_facts k K) as (F1 & F2 & _). unfold clear_media.
  destruct (span_of _ _ _ _ _ _ F1 F2 S) as (-> & _ & ->). cbn [need bind].
  replace (md_header k ++ m ++ put (l :: ls) ++ rest) with ((md_header k ++ m) ++ 10%N :: (l ++ put ls) ++ rest) by flat.
  rewrite newline_of.
  2:{ intros Q. apply in_app_iff in Q as [Q|Q]; [contradiction|]. destruct S as (_ & _ & Q2 & _). contradiction. }
  set (at_ := A ++ md_header k ++ m ++ [10%N]).
  replace (blen A + blen (md_header k ++ m) + 1) with (blen at_) by (unfold at_; rewrite !blen_app; change (blen [10%N]) with 1; lia).
  replace (blen A + blen (md_header k ++ m ++ put (l :: ls))) with (blen at_ + blen (l ++ put ls)).
  2:{ unfold at_. rewrite put_cons, !blen_app. rewrite (blen_cons 10 (l ++ put ls)), blen_app. change (blen [10%N]) with 1. change (len_utf8 10) with 1. lia. }
  assert (E : text d = at_ ++ (l ++ put ls) ++ rest). { destruct S as (-> & _). unfold at_. flat. }
  destruct (Nat.ltb_spec (blen at_) (blen at_ + blen (l ++ put ls))) as [L|L].
  - rewrite range_new_le by lia. destruct (handled_delete sz d at_ (l ++ put ls) rest HR E) as (d' & D & T & H). rewrite D. cbn [of_out and_then bind fst snd].
    exists d'. eexists. split; [reflexivity|]. split; [|exact H]. rewrite T. unfold at_. cbn [put flat_map]. flat.
  - exists d. eexists. split; [reflexivity|]. split; [|exact HR]. rewrite E.
    assert (Q : l ++ put ls = []). { destruct (l ++ put ls) as [|c r]; [reflexivity|]. rewrite blen_cons in L. pose proof (len_utf8_pos c). lia. }
    rewrite Q. unfold at_. cbn [put flat_map]. flat.
Qed.

(* ---- remove ---- *)
Lemma remove_some k sz f s data Y d A m X rest : known k -> handled sz d ->
  sectioned (md_header k) (text d) A m (X ++ (title (md_key k) f ++ s) :: data ++ Y) rest ->
  ~ has (title (md_key k) f) (md_header k ++ m) -> Forall (fun l => ~ has (title (md_key k) f) l) X -> Forall (data_line (md_key k)) data ->
  file_end (md_key k) Y rest ->
  let at_ := A ++ md_header k ++ m ++ put X ++ [10%N] in
  exists d', remove_media sz k f d = Done (d', Some (success_with_change (mkRange (blen at_) (blen at_)) (blen at_))) /\
    text d' = A ++ md_header k ++ m ++ put (X ++ [] :: Y) ++ rest /\ handled sz d'.
Proof.
  intros K HR S Hm HX Hd HE at_. destruct (known_facts k K) as (F1 & F2 & _ & F4 & F5 & _). unfold remove_media.
  destruct (span_of _ _ _ _ _ _ F1 F2 S) as (-> & -> & _). cbn [need bind].
  set (q := title (md_key k) f) in *. change (md_key k ++ [32%N] ++ f) with q.
  pose proof S as (E & _ & Hm2 & HI & HN). apply Forall_app in HI as [_ HI]. inversion HI as [|? ? [I1 _] I2]; subst. clear HI.
  assert (Hq : ~ In 10%N q) by (intros Q; apply I1; apply in_or_app; now left).
  assert (Hq2 : q <> []) by (unfold q, title; destruct (md_key k); discriminate).
  replace (md_header k ++ m ++ put (X ++ (q ++ s) :: data ++ Y)) with ((((md_header k ++ m) ++ put X) ++ [10%N]) ++ q ++ (s ++ put (data ++ Y))) by flat.
  rewrite find_first; [|exact Hq2|apply missing_first; [exact Hq|exact Hq2|now apply missing_put]].
  rewrite <- blen_app. replace (A ++ ((md_header k ++ m) ++ put X) ++ [10%N]) with at_ by (unfold at_; now rewrite <- !app_assoc).
  assert (E2 : text d = at_ ++ (q ++ s) ++ put data ++ put Y ++ rest). { rewrite E. unfold at_. flat. }
  cbn zeta. rewrite E2. rewrite slice_from_app. cbn [need bind].
  assert (C : match find_str (10%N :: md_key k) ((q ++ s) ++ put data ++ put Y ++ rest) with
       | Some (b, _) => blen at_ + blen b
       | None => blen A + blen ((((md_header k ++ m) ++ put X) ++ [10%N]) ++ q ++ s ++ put (data ++ Y))
       end = blen at_ + blen ((q ++ s) ++ put data)).
  { destruct HE as [[-> HE]|(l & r & -> & [z ->])].
    - rewrite find_missing.
      + rewrite app_nil_r. unfold at_. rewrite !blen_app. lia.
      + cbn [put flat_map app]. apply key_missing; [exact F5|now apply next_after|exact HE|exact I1|exact Hd].
    - replace ((q ++ s) ++ put data ++ put ((md_key k ++ z) :: r) ++ rest) with (((q ++ s) ++ put data) ++ (10%N :: md_key k) ++ (z ++ put r ++ rest)) by flat.
      rewrite find_first; [reflexivity|discriminate|]. now apply key_first. }
  cbn zeta. rewrite C. rewrite range_new_le by lia.
  assert (E3 : text d = at_ ++ ((q ++ s) ++ put data) ++ (put Y ++ rest)) by (rewrite E2; now rewrite <- !app_assoc).
  destruct (handled_delete sz d at_ _ _ HR E3) as (d' & D & T & H). rewrite D. cbn [of_out and_then bind fst snd]. exists d'.
  split; [now rewrite range_new_le by lia|]. split; [|exact H]. rewrite T. unfold at_. flat.
Qed.

(* ---- the names after a command ---- *)
Lemma empty_inner : inner [].
Proof. split; [easy|]. intros r Q. discriminate Q. Qed.
Lemma data_unnamed key l : data_line key l -> name_of key l = [].
Proof. intros [_ H]. apply name_other. intros [r ->]. apply H. exists (lit " " ++ r). now rewrite <- app_assoc. Qed.
Lemma data_names key data : Forall (data_line key) data -> flat_map (name_of key) data = [].
Proof. induction 1 as [|l ls H _ IH]; [reflexivity|]. cbn [flat_map]. now rewrite data_unnamed, IH. Qed.
Lemma empty_name key : name_of key [] = [].
Proof. apply name_other. intros [r Q]. destruct key; discriminate Q. Qed.
Lemma list_of k d A m ls rest : known k -> sectioned (md_header k) (text d) A m ls rest -> list_media k d = Done (flat_map (name_of (md_key k)) ls).
Proof. intros K S. destruct (listed_total (md_key k) ls) as [l L]. rewrite (listed_names _ _ _ L). eapply list_exact; eassumption. Qed.
Lemma title_inner k f : known k -> ~ In 10%N f -> inner (title (md_key k) f).
Proof.
  intros K Hf. destruct (known_facts k K) as (_ & _ & _ & F4 & F5 & F6 & F7). split.
  - unfold title. intros Q. apply in_app_iff in Q as [Q|Q]; [contradiction|]. cbn in Q. destruct Q as [Q|Q]; [discriminate Q|contradiction].
  - intros r Q. unfold title in Q. destruct (md_key k) as [|c key]; [congruence|]. cbn in Q. injection Q as -> _. apply F7. now left.
Qed.
Lemma data_inner key data : Forall (data_line key) data -> Forall inner data.
Proof. intros H. eapply Forall_impl; [|exact H]. intros l [Q _]. exact Q. Qed.
(* encoded data *)
Lemma uu_data_lines k f data : known k -> ~ In 10%N f -> bytes data -> Forall (data_line (md_key k)) (uuencode_data f data).
Proof.
  intros K Hf Hb. assert (D : forall c l, c <> 91%N -> c <> hd 0%N (md_key k) -> ~ In 10%N (c :: l) -> data_line (md_key k) (c :: l)).
  { intros c l N1 N2 N3. split; [split; [exact N3|intros r Q; injection Q as Q1 _; exact (N1 Q1)]|]. intros [r Q]. destruct K as [->| ->]; injection Q as Q1 _; exact (N2 Q1). }
  unfold uuencode_data. constructor.
  - apply D; [discriminate|destruct K as [->| ->]; discriminate|]. intros Q. apply (in_app_iff (lit "begin 644 ") f) in Q as [Q|Q]; [vm_compute in Q; intuition discriminate|contradiction].
  - apply Forall_app. split.
    + apply Forall_map. pose proof (chunks_bounds 45 data ltac:(lia)) as B.
      assert (Hc : Forall bytes (chunks 45 data)).
      { apply Forall_forall. intros c Hc. unfold bytes. apply Forall_forall. intros x Hx. unfold bytes in Hb. rewrite Forall_forall in Hb. apply Hb.
        rewrite <- (chunks_concat 45 data) by lia. apply in_concat. now exists c. }
      rewrite Forall_forall in B, Hc. apply Forall_forall. intros c Q. specialize (B c Q). specialize (Hc c Q). pose proof (line_chars c B Hc) as L.
      unfold uu_line in *. apply D.
      * lia.
      * destruct K as [->| ->]; cbn [md_key fonts graphics]; change (hd 0%N (lit "fontname:")) with 102%N; change (hd 0%N (lit "filename:")) with 102%N; lia.
      * intros K2. rewrite Forall_forall in L. specialize (L _ K2). unfold uu_char in L. lia.
    + repeat constructor; try (vm_compute; intuition discriminate); try (intros r Q; discriminate Q); intros [r Q]; destruct K as [->| ->]; discriminate Q.
Qed.
