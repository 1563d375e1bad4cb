From Coq Require Import Sorting.Sorted Sorting.Permutation.
From Verif Require Import Base BaseLemmas SortLib DocModel DocSpec DocProofs ParseModel EventCmdModel EventCmdSpec EventCmdProofs EventCmdScan.

Notation no_nl := (fun l : str => ~ In 10%N l).
Fixpoint places (p : nat) (ls : list str) : list (nat * nat) :=
  match ls with
  | [] => []
  | l :: r => if is_event_line l then (p, p + blen l + 1) :: places (p + blen l + 1) r else places (p + blen l + 1) r
  end.
Lemma one_less A l (rest : str) : slice (A ++ l ++ 10%N :: rest) (blen A) (blen A + blen l + 1 - 1) = Some l.
Proof. replace (blen A + blen l + 1 - 1) with (blen A + blen l) by lia. apply slice_app. Qed.
Lemma all_step f A l rest : ~ In 10%N l ->
  scan_all (S f) (A ++ l ++ 10%N :: rest) (blen A) =
    x <- scan_all f (A ++ l ++ 10%N :: rest) (blen A + blen l + 1) ;; Done (if is_event_line l then (blen A, blen A + blen l + 1) :: x else x).
Proof.
  intros Hnl. cbn [scan_all].
  destruct (Nat.ltb_spec (blen A) (blen (A ++ l ++ 10%N :: rest))) as [L|L].
  2: { exfalso. change (10%N :: rest) with ([10%N] ++ rest) in L. rewrite !blen_app in L. change (blen [10%N]) with 1 in L. lia. }
  rewrite slice_from_app. cbn [need bind]. rewrite newline_split by (exact Hnl || (right; eauto)).
  destruct (Nat.leb_spec (blen A + blen l + 1) (blen A)); [lia|]. rewrite one_less. reflexivity.
Qed.
Lemma until_step f A l rest i : ~ In 10%N l ->
  scan_until (S f) (A ++ l ++ 10%N :: rest) (blen A) i =
    if is_event_line l then match i with 0 => Done (Some (blen A, blen A + blen l + 1)) | S i => scan_until f (A ++ l ++ 10%N :: rest) (blen A + blen l + 1) i end
    else scan_until f (A ++ l ++ 10%N :: rest) (blen A + blen l + 1) i.
Proof.
  intros Hnl. cbn [scan_until].
  destruct (Nat.ltb_spec (blen A) (blen (A ++ l ++ 10%N :: rest))) as [L|L].
  2: { exfalso. change (10%N :: rest) with ([10%N] ++ rest) in L. rewrite !blen_app in L. change (blen [10%N]) with 1 in L. lia. }
  rewrite slice_from_app. cbn [need bind]. rewrite newline_split by (exact Hnl || (right; eauto)).
  destruct (Nat.leb_spec (blen A + blen l + 1) (blen A)); [lia|]. rewrite one_less. reflexivity.
Qed.
Lemma ended_length ls : List.length ls <= blen (ended ls).
Proof.
  induction ls as [|l ls IH]; [cbn; lia|]. rewrite ended_cons. change (l ++ 10%N :: ended ls) with (l ++ [10%N] ++ ended ls).
  rewrite !blen_app. change (blen [10%N]) with 1. cbn [List.length]. lia.
Qed.
Lemma line_assoc (A l : str) (X : str) : A ++ l ++ 10%N :: X = (A ++ l ++ [10%N]) ++ X.
Proof. repeat (rewrite <- ?app_assoc; cbn [app]). reflexivity. Qed.
Lemma ended_first A l ls rest : A ++ ended (l :: ls) ++ rest = A ++ l ++ 10%N :: (ended ls ++ rest).
Proof. rewrite ended_cons. repeat (rewrite <- ?app_assoc; cbn [app]). reflexivity. Qed.
Lemma all_places : forall ls f A, Forall no_nl ls -> S (List.length ls) <= f ->
  scan_all f (A ++ ended ls) (blen A) = Done (places (blen A) ls).
Proof.
  intros ls. induction ls as [|l ls IH]; intros f A HF Hf; destruct f as [|f]; cbn [List.length] in Hf; try lia.
  - cbn [scan_all places]. change (ended []) with (@nil N). rewrite app_nil_r. destruct (Nat.ltb_spec (blen A) (blen A)); [lia|reflexivity].
  - inversion HF; subst. rewrite <- (app_nil_r (ended (l :: ls))), ended_first. rewrite all_step by assumption.
    rewrite line_assoc, blen_line, app_nil_r, IH by (assumption || lia). cbn [bind places]. rewrite <- ?blen_line. now destruct (is_event_line l).
Qed.
Lemma until_place : forall before f A k l rest, Forall no_nl before -> event_count before k -> is_event l -> ~ In 10%N l ->
  S (List.length before) <= f ->
  scan_until f (A ++ ended before ++ l ++ 10%N :: rest) (blen A) k = Done (Some (blen (A ++ ended before), blen (A ++ ended before) + blen l + 1)).
Proof.
  intros before. induction before as [|b bs IH]; intros f A k l rest HF HC Hev Hl Hf; destruct f as [|f]; cbn [List.length] in Hf; try lia.
  - inversion HC; subst. change (ended []) with (@nil N). rewrite app_nil_r. cbn [app]. rewrite until_step by assumption.
    now rewrite (proj2 (event_line_spec l) Hev).
  - inversion HF; subst. rewrite ended_first, until_step by assumption. rewrite line_assoc, blen_line.
    replace (A ++ ended (b :: bs)) with ((A ++ b ++ [10%N]) ++ ended bs) by (rewrite ended_cons; repeat (rewrite <- ?app_assoc; cbn [app]); reflexivity).
    inversion HC as [|? ? m E C|? ? m E C]; subst.
    + rewrite (proj2 (event_line_spec b) E). apply IH; assumption || lia.
    + rewrite (proj2 (event_line_false b) E). apply IH; assumption || lia.
Qed.
Lemma until_none : forall ls f A k c, Forall no_nl ls -> event_count ls c -> c <= k -> S (List.length ls) <= f ->
  scan_until f (A ++ ended ls) (blen A) k = Done None.
Proof.
  intros ls. induction ls as [|l ls IH]; intros f A k c HF HC Hk Hf; destruct f as [|f]; cbn [List.length] in Hf; try lia.
  - cbn [scan_until]. change (ended []) with (@nil N). rewrite app_nil_r. destruct (Nat.ltb_spec (blen A) (blen A)); [lia|reflexivity].
  - inversion HF; subst. rewrite <- (app_nil_r (ended (l :: ls))), ended_first, until_step by assumption. rewrite line_assoc, blen_line, app_nil_r.
    inversion HC as [|? ? m E C|? ? m E C]; subst.
    + rewrite (proj2 (event_line_spec l) E). destruct k; [lia|]. apply (IH f _ k m); assumption || lia.
    + rewrite (proj2 (event_line_false l) E). apply (IH f _ k c); assumption || lia.
Qed.

(* ---- deletion ---- *)
Lemma delete_one_ok sz d head before l rest k fuel :
  reached sz d -> events_head head -> text d = head ++ ended before ++ l ++ 10%N :: rest ->
  Forall no_nl before -> event_count before k -> is_event l -> ~ In 10%N l -> blen (text d) < fuel ->
  exists d', delete_event fuel sz k d = Done (d', Some (mkRes true (Some (mkRange (blen (head ++ ended before)) (blen (head ++ ended before)))) (Some (blen (head ++ ended before))) true)) /\
    text d' = head ++ ended before ++ rest /\ reached sz d'.
Proof.
  intros H Hh E HF HC Hev Hl Hf. unfold delete_event.
  replace (format_line_end (text d)) with (Some (blen head)) by (rewrite E; symmetry; now apply head_found).
  pose proof (ended_length before) as LB.
  replace (scan_until fuel (text d) (blen head) k) with (@Done (option (nat * nat)) (Some (blen (head ++ ended before), blen (head ++ ended before) + blen l + 1))).
  2: { rewrite E. symmetry. apply until_place; try assumption. rewrite E, !blen_app in Hf. lia. }
  cbn [bind]. rewrite range_new_le by lia.
  destruct (delete_ok sz d (head ++ ended before) (l ++ [10%N]) rest H) as (d' & D & T & R).
  { rewrite E. repeat (rewrite <- ?app_assoc; cbn [app]). reflexivity. }
  rewrite (blen_app l) in D. change (blen [10%N]) with 1 in D. rewrite <- Nat.add_assoc, D. cbn [of_out and_then bind fst snd].
  exists d'. split; [unfold success_with_change; now rewrite range_new_le by lia|]. split; [rewrite T; now rewrite <- app_assoc|exact R].
Qed.
Lemma delete_none sz d head ls k c fuel :
  events_head head -> text d = head ++ ended ls -> Forall no_nl ls -> event_count ls c -> c <= k -> blen (text d) < fuel ->
  delete_event fuel sz k d = Done (d, None).
Proof.
  intros Hh E HF HC Hk Hf. unfold delete_event.
  replace (format_line_end (text d)) with (Some (blen head)) by (rewrite E; symmetry; now apply head_found).
  pose proof (ended_length ls) as LB.
  replace (scan_until fuel (text d) (blen head) k) with (@Done (option (nat * nat)) None); [reflexivity|].
  rewrite E. symmetry. apply (until_none ls _ _ k c); try assumption. rewrite E, !blen_app in Hf. lia.
Qed.

(* ---- many deletions ---- *)
Lemma ge_total (x y : nat) : (y <=? x) = true \/ (x <=? y) = true.
Proof. destruct (Nat.leb_spec y x), (Nat.leb_spec x y); auto; lia. Qed.
Lemma ge_trans (x y z : nat) : (y <=? x) = true -> (z <=? y) = true -> (z <=? x) = true.
Proof. rewrite !Nat.leb_le. lia. Qed.
Lemma dedup_in l x : In x (dedup l) <-> In x l.
Proof.
  induction l as [|a [|b l] IH]; [reflexivity|reflexivity|].
  change (dedup (a :: b :: l)) with (if a =? b then dedup (b :: l) else a :: dedup (b :: l)).
  destruct (Nat.eqb_spec a b) as [->|N].
  - rewrite IH. cbn [In]. tauto.
  - cbn [In] in *. rewrite IH. tauto.
Qed.
Lemma dedup_sorted l : StronglySorted (fun a b => (b <=? a) = true) l -> StronglySorted (fun a b => b < a) (dedup l).
Proof.
  intros H. induction H as [|a l H IH F]; [constructor|]. destruct l as [|b l]; [repeat constructor|].
  change (dedup (a :: b :: l)) with (if a =? b then dedup (b :: l) else a :: dedup (b :: l)).
  destruct (Nat.eqb_spec a b) as [->|N]; [exact IH|]. constructor; [exact IH|].
  apply Forall_forall. intros x Q. apply (proj1 (dedup_in _ _)) in Q. inversion F as [|? ? Hab _]; subst. apply Nat.leb_le in Hab.
  destruct Q as [<-|Q]; [lia|]. inversion H as [|? ? _ F2]; subst. rewrite Forall_forall in F2. specialize (F2 x Q). apply Nat.leb_le in F2. lia.
Qed.
Lemma down_in l x : In x (down l) <-> In x l.
Proof. unfold down. rewrite dedup_in. split; apply Permutation_in; [symmetry|]; apply sort_perm. Qed.
Lemma down_sorted l : StronglySorted (fun a b => b < a) (down l).
Proof. apply dedup_sorted, sort_sorted; [exact ge_total|exact ge_trans]. Qed.

Lemma places_app : forall a b p, places p (a ++ b) = places p a ++ places (p + blen (ended a)) b.
Proof.
  intros a. induction a as [|l a IH]; intros b p.
  - cbn [app places]. change (ended []) with (@nil N). change (blen []) with 0. now rewrite Nat.add_0_r.
  - cbn [app places]. rewrite ended_cons. change (l ++ 10%N :: ended a) with (l ++ [10%N] ++ ended a). rewrite !blen_app. change (blen [10%N]) with 1.
    rewrite IH. replace (p + (blen l + (1 + blen (ended a)))) with (p + blen l + 1 + blen (ended a)) by lia.
    destruct (is_event_line l); reflexivity.
Qed.
Lemma places_length : forall ls p c, event_count ls c -> List.length (places p ls) = c.
Proof.
  intros ls p c H. revert p. induction H as [|l ls n E H IH|l ls n E H IH]; intros p; cbn [places]; [reflexivity| |].
  - rewrite (proj2 (event_line_spec l) E). cbn [List.length]. now rewrite IH.
  - rewrite (proj2 (event_line_false l) E). apply IH.
Qed.
Lemma count_exists ls : exists c, event_count ls c.
Proof.
  induction ls as [|l ls [c H]]; [exists 0; constructor|]. destruct (is_event_line l) eqn:E.
  - exists (S c). apply ec_event; [now apply event_line_spec|exact H].
  - exists c. apply ec_other; [now apply event_line_false|exact H].
Qed.
Lemma count_split : forall ls c i, event_count ls c -> i < c -> exists a l b, ls = a ++ l :: b /\ event_count a i /\ is_event l.
Proof.
  intros ls c i H. revert i. induction H as [|l ls n E H IH|l ls n E H IH]; intros i Hi; [lia| |].
  - destruct i as [|i].
    + exists [], l, ls. split; [reflexivity|]. split; [constructor|exact E].
    + destruct (IH i) as (a & x & b & -> & C & Q); [lia|]. exists (l :: a), x, b. split; [reflexivity|]. split; [now apply ec_event|exact Q].
  - destruct (IH i Hi) as (a & x & b & -> & C & Q). exists (l :: a), x, b. split; [reflexivity|]. split; [now apply ec_other|exact Q].
Qed.
(* Named events all before, or all after. *)
Lemma without_more : forall ls ls' named named' i k c, event_count ls c ->
  (forall x, i <= x -> x < i + c -> (In x named <-> In x named')) -> without_events named i ls ls' k -> without_events named' i ls ls' k.
Proof.
  intros ls ls' named named' i k c HC. revert ls' i k. induction HC as [|l ls n E H IH|l ls n E H IH]; intros ls' i k Q W; inversion W; subst; try contradiction.
  - constructor.
  - apply we_drop; [assumption|apply Q; [lia|lia|assumption]|]. apply IH; [|assumption]. intros x ? ?. apply Q; lia.
  - apply we_keep; [assumption|rewrite <- Q by lia; assumption|]. apply IH; [|assumption]. intros x ? ?. apply Q; lia.
  - apply we_other; [assumption|]. apply IH; assumption.
Qed.
Lemma without_none : forall ls named i c, event_count ls c -> (forall x, In x named -> x < i) -> without_events named i ls ls 0.
Proof.
  intros ls named i c H. revert i. induction H as [|l ls n E H IH|l ls n E H IH]; intros i Q.
  - constructor.
  - apply we_keep; [exact E|intros X; apply Q in X; lia|]. apply IH. intros x X. apply Q in X. lia.
  - apply we_other; [exact E|]. now apply IH.
Qed.
Lemma without_app : forall a a' b b' named i c k m, event_count a c -> without_events named i a a' k -> without_events named (i + c) b b' m ->
  without_events named i (a ++ b) (a' ++ b') (k + m).
Proof.
  intros a a' b b' named i c k m HC. revert a' i k. induction HC as [|l ls n E H IH|l ls n E H IH]; intros a' i k W1 W2; inversion W1; subst; try contradiction; cbn [app plus].
  - now rewrite Nat.add_0_r in W2.
  - apply we_drop; [assumption|assumption|]. apply IH; [assumption|]. now rewrite <- Nat.add_succ_comm in W2.
  - apply we_keep; [assumption|assumption|]. apply IH; [assumption|]. now rewrite <- Nat.add_succ_comm in W2.
  - apply we_other; [assumption|]. apply IH; assumption.
Qed.
Lemma without_unique : forall ls named i a k b m, without_events named i ls a k -> without_events named i ls b m -> a = b /\ k = m.
Proof.
  intros ls named i a k b m H. revert b m. induction H; intros b m W; inversion W; subst; try contradiction.
  - auto.
  - destruct (IHwithout_events _ _ ltac:(eassumption)) as [-> ->]. auto.
  - destruct (IHwithout_events _ _ ltac:(eassumption)) as [-> ->]. auto.
  - destruct (IHwithout_events _ _ ltac:(eassumption)) as [-> ->]. auto.
Qed.
Lemma without_zero named i ls ls' : without_events named i ls ls' 0 -> ls' = ls.
Proof. intros H. remember 0 as k eqn:K in H. induction H; try discriminate; [reflexivity|f_equal; auto|f_equal; auto]. Qed.
Lemma each_deletes sz head Q : forall idx pre c d X n first,
  StronglySorted (fun a b => b < a) idx -> Forall (fun i => i < c) idx -> event_count pre c -> reached sz d ->
  text d = head ++ ended pre ++ X -> blen head + blen (ended pre) <= first ->
  exists d' pre' k first', delete_each sz (places (blen head) pre ++ Q) idx d n first = Done (d', Some (n + k, first')) /\
    without_events idx 0 pre pre' k /\ text d' = head ++ ended pre' ++ X /\ reached sz d' /\
    (k = 0 /\ first' = first \/ 0 < k /\ exists a, before_dropped idx pre a /\ first' = blen head + blen (ended a)).
Proof.
  intros idx. revert Q. induction idx as [|i idx IH]; intros Q pre c d X n first HS HF HC HR E BF.
  - exists d, pre, 0, first. cbn [delete_each]. rewrite Nat.add_0_r. split; [reflexivity|]. split; [apply (without_none _ _ _ c HC); intros x []|]. auto 6.
  - apply StronglySorted_inv in HS as [HS Hlt]. inversion HF; subst. destruct (count_split pre c i HC) as (a & l & b & -> & Ca & Hl); [assumption|].
    cbn [delete_each]. rewrite places_app.
    assert (L : nth_error ((places (blen head) a ++ places (blen head + blen (ended a)) (l :: b)) ++ Q) i
                = Some (blen head + blen (ended a), blen head + blen (ended a) + blen l + 1)).
    { rewrite <- app_assoc. rewrite nth_error_app2; rewrite (places_length a (blen head) i Ca); [|lia].
      rewrite Nat.sub_diag. cbn [places]. rewrite (proj2 (event_line_spec l) Hl). reflexivity. }
    rewrite L. rewrite range_new_le by lia.
    destruct (delete_ok sz d (head ++ ended a) (l ++ [10%N]) (ended b ++ X) HR) as (d1 & D & T & R).
    { rewrite E, ended_app, ended_cons. repeat (rewrite <- ?app_assoc; cbn [app]). reflexivity. }
    rewrite (blen_app head), (blen_app l) in D. change (blen [10%N]) with 1 in D. rewrite <- (Nat.add_assoc (blen head + blen (ended a)) (blen l) 1), D. cbn [of_out and_then bind fst snd].
    rewrite <- app_assoc.
    assert (FI : (if blen head + blen (ended a) <? first then blen head + blen (ended a) else first) = blen head + blen (ended a)).
    { rewrite ended_app, blen_app in BF. destruct (Nat.ltb_spec (blen head + blen (ended a)) first); lia. }
    rewrite FI.
    destruct (IH (places (blen head + blen (ended a)) (l :: b) ++ Q) a i d1 (ended b ++ X) (n + 1)
                (blen head + blen (ended a)) HS Hlt Ca R) as (d' & a' & k & f' & D' & W & T' & R' & FD).
    { rewrite T. now rewrite <- app_assoc. }
    { apply Nat.le_refl. }
    exists d', (a' ++ b), (k + 1), f'. split; [rewrite D'; do 4 f_equal; lia|].
    split; [|split; [rewrite T', ended_app; now rewrite <- app_assoc|split; [exact R'|]]].
    2: { right. split; [lia|]. rewrite Forall_forall in Hlt. destruct FD as [[-> ->]|[KP (a2 & (l2 & b2 & j & -> & L2 & C2 & J2 & W2) & ->)]].
      - exists a. split; [|reflexivity]. exists l, b, i. split; [reflexivity|]. split; [exact Hl|]. split; [exact Ca|]. split; [now left|].
        rewrite (without_zero _ _ _ _ W) in W. apply (without_more a a idx (i :: idx) 0 0 i Ca); [|exact W]. intros x _ Hx. cbn [In]. split; [auto|]. intros [<-|]; [lia|assumption].
      - exists a2. split; [|reflexivity]. exists l2, (b2 ++ l :: b), j. split; [now rewrite <- app_assoc|]. split; [exact L2|]. split; [exact C2|]. split; [now right|].
        specialize (Hlt j J2). cbn in Hlt. apply (without_more a2 a2 idx (i :: idx) 0 0 j C2); [|exact W2]. intros x _ Hx. cbn [In]. split; [auto|]. intros [<-|]; [lia|assumption]. }
    apply (without_app a a' (l :: b) b (i :: idx) 0 i k 1 Ca).
    + apply (without_more a a' idx (i :: idx) 0 k i Ca); [|exact W]. intros x _ Hx. cbn [In]. split; [auto|]. intros [<-|]; [lia|assumption].
    + destruct (count_exists b) as [cb Cb]. apply we_drop; [exact Hl|now left|]. apply (without_none _ _ _ cb Cb).
      rewrite Forall_forall in Hlt. intros x [<-|Hx]; [lia|]. specialize (Hlt x Hx). cbn in Hlt. lia.
Qed.
Lemma each_skips sz positions : forall idx d n first, StronglySorted (fun a b => b < a) idx ->
  exists low, delete_each sz positions idx d n first = delete_each sz positions low d n first /\
    StronglySorted (fun a b => b < a) low /\ Forall (fun i => i < List.length positions) low /\
    (forall x, x < List.length positions -> (In x low <-> In x idx)).
Proof.
  intros idx. induction idx as [|i idx IH]; intros d n first HS.
  - exists []. repeat split; auto.
  - destruct (Nat.ltb_spec i (List.length positions)) as [L|L].
    + exists (i :: idx). split; [reflexivity|]. split; [exact HS|]. apply StronglySorted_inv in HS as [_ HF].
      split; [constructor; [exact L|]|reflexivity]. eapply Forall_impl; [|exact HF]. cbn. intros; lia.
    + apply StronglySorted_inv in HS as [HS HF]. destruct (IH d n first HS) as (low & E & S1 & F1 & Q). exists low.
      cbn [delete_each]. rewrite (proj2 (nth_error_None positions i) L). split; [exact E|]. split; [exact S1|]. split; [exact F1|].
      intros x Hx. rewrite (Q x Hx). cbn [In]. split; [auto|]. intros [<-|]; [lia|assumption].
Qed.
Lemma batch_ok sz d head ls ls' k indices fuel :
  reached sz d -> events_head head -> text d = head ++ ended ls -> Forall no_nl ls ->
  without_events indices 0 ls ls' k -> blen (text d) < fuel ->
  exists d' r, delete_events fuel sz indices d = Done (d', Some (r, k)) /\ text d' = head ++ ended ls' /\ reached sz d' /\
    (k = 0 /\ r = mkRes true None None false \/ 0 < k /\ exists a, before_dropped indices ls a /\ let p := blen (head ++ ended a) in r = mkRes true (Some (mkRange p p)) (Some p) true).
Proof.
  intros HR Hh E HF W Hf. destruct (count_exists ls) as [c HC].
  unfold delete_events. destruct indices as [|i0 indices].
  { cbn [is_nil]. destruct (without_unique _ _ _ _ _ _ _ W (without_none ls [] 0 c HC (fun x (H : In x []) => match H with end))) as [-> ->].
    exists d. eexists. split; [reflexivity|]. split; [exact E|]. split; [exact HR|]. left. split; reflexivity. }
  cbn [is_nil]. set (named := i0 :: indices) in *. clearbody named.
  replace (format_line_end (text d)) with (Some (blen head)) by (rewrite E; symmetry; now apply head_found).
  replace (scan_all fuel (text d) (blen head)) with (Done (places (blen head) ls)).
  2: { rewrite E. symmetry. apply all_places; [exact HF|]. pose proof (ended_length ls). rewrite E, blen_app in Hf. lia. }
  cbn [bind]. pose proof (places_length ls (blen head) c HC) as LP.
  destruct (each_skips sz (places (blen head) ls) (down named) d 0 (blen (text d)) (down_sorted named)) as (low & L1 & L2 & L3 & L4).
  rewrite L1. rewrite LP in L3, L4.
  destruct (each_deletes sz head [] low ls c d [] 0 (blen (text d)) L2 L3 HC HR) as (d' & pre' & k' & f' & D & W' & T & R & FD); [now rewrite app_nil_r|rewrite E, blen_app; lia|].
  rewrite app_nil_r in D, T. rewrite D. cbn [and_then bind fst snd].
  assert (W2 : without_events named 0 ls pre' k').
  { apply (without_more ls pre' low named 0 k' c HC); [|exact W']. intros x _ Hx. rewrite (L4 x Hx). apply down_in. }
  destruct (without_unique _ _ _ _ _ _ _ W W2) as [<- <-]. exists d'. eexists. split; [reflexivity|]. split; [exact T|]. split; [exact R|]. cbn [Nat.add].
  destruct FD as [[-> ->]|[KP (a & (l & b & j & -> & LE & CA & J & WA) & ->)]]; [left; split; reflexivity|]. right. split; [exact KP|]. exists a. split.
  - exists l, b, j. split; [reflexivity|]. split; [exact LE|]. split; [exact CA|]. rewrite Forall_forall in L3. pose proof (L3 j J) as J'. split; [apply down_in; now apply L4|].
    apply (without_more a a low named 0 0 j CA); [|exact WA]. intros x _ Hx. rewrite (L4 x) by lia. apply down_in.
  - cbn zeta. destruct (Nat.ltb_spec 0 k); [|lia]. unfold success_with_change. rewrite range_new_le by lia. now rewrite blen_app.
Qed.
