(* C212: the reports of problems lose nothing *)
From Verif Require Import Base BaseLemmas IssueModel.

(* ---- reading a report back ---- *)
Lemma split_unique (f : char -> bool) a b x y r s : forallb f a = true -> forallb f b = true -> f x = false -> f y = false -> a ++ x :: r = b ++ y :: s -> a = b /\ x = y /\ r = s.
Proof.
  revert b. induction a as [|c a IH]; intros [|d b] A B X Y E; cbn [app forallb] in *.
  - injection E as -> ->. auto.
  - injection E as -> _. apply andb_true_iff in B. destruct B. congruence.
  - injection E as -> _. apply andb_true_iff in A. destruct A. congruence.
  - injection E as -> E. apply andb_true_iff in A, B. destruct A, B. destruct (IH b) as (-> & -> & ->); auto.
Qed.
Lemma dec_inj m n : to_dec m = to_dec n -> m = n.
Proof. intros E. pose proof (to_dec_val (N.max m n) m ltac:(lia)) as A. pose proof (to_dec_val (N.max m n) n ltac:(lia)) as B. rewrite E in A. congruence. Qed.
Definition is_small (c : char) : bool := ((97 <=? c) && (c <=? 122))%N.
Lemma category_small c : forallb is_small (category_text c) = true. Proof. destruct c; reflexivity. Qed.
Lemma severity_small s : forallb is_small (severity_text s) = true. Proof. destruct s; reflexivity. Qed.
Lemma level_small s : forallb is_small (level_text s) = true. Proof. destruct s; reflexivity. Qed.
Lemma category_inj a b : category_text a = category_text b -> a = b. Proof. destruct a, b; intros E; try reflexivity; discriminate E. Qed.
Lemma severity_inj a b : severity_text a = severity_text b -> a = b. Proof. destruct a, b; intros E; try reflexivity; discriminate E. Qed.
Lemma level_inj a b : level_text a = level_text b -> a = b. Proof. destruct a, b; intros E; try reflexivity; discriminate E. Qed.
Lemma category_first c : exists x r, category_text c = x :: r /\ is_digit x = false.
Proof. destruct c; eexists; eexists; (split; [reflexivity|reflexivity]). Qed.
Lemma dec_first n : exists x r, to_dec n = x :: r /\ is_digit x = true.
Proof. pose proof (to_dec_nonempty n) as N. pose proof (to_dec_digits n) as D. destruct (to_dec n) as [|x r]; [contradiction|]. apply andb_true_iff in D. exists x, r. split; [reflexivity|apply D]. Qed.

Definition tail_of (i : issue) : str := i_message i ++ match i_suggestion i with Some t => [10%N] ++ lit "  Suggestion: " ++ t | None => [] end.
Lemma shown_tail a b : format_for_display a = format_for_display b -> i_line a = i_line b /\ i_column a = i_column b /\ i_category a = i_category b /\ i_severity a = i_severity b /\ tail_of a = tail_of b.
Proof.
  unfold format_for_display. set (ta := i_message a ++ _). set (tb := i_message b ++ _). change ta with (tail_of a). change tb with (tail_of b). clear ta tb. intros E.
  assert (SH : forall i, lit "[" ++ match i_column i with None => to_dec (i_line i) | Some c => to_dec (i_line i) ++ lit ":" ++ to_dec c end ++ lit ":" ++ category_text (i_category i) ++ lit "] " ++ severity_text (i_severity i) ++ lit ": " ++ tail_of i =
    91%N :: to_dec (i_line i) ++ 58%N :: match i_column i with None => [] | Some c => to_dec c ++ [58%N] end ++ category_text (i_category i) ++ 93%N :: 32%N :: severity_text (i_severity i) ++ 58%N :: 32%N :: tail_of i).
  { intros i. destruct (i_column i); repeat (rewrite <- ?app_assoc; cbn [lit app]); reflexivity. }
  cbn zeta in E. rewrite !SH in E. clear SH. injection E as E. apply (split_unique is_digit) in E; [|apply to_dec_digits|apply to_dec_digits|reflexivity|reflexivity]. destruct E as (L & _ & E). apply dec_inj in L. split; [exact L|].
  assert (R : forall x y, category_text (i_category a) ++ 93%N :: x = category_text (i_category b) ++ 93%N :: y -> i_category a = i_category b /\ x = y).
  { intros x y Q. apply (split_unique is_small) in Q; [|apply category_small|apply category_small|reflexivity|reflexivity]. destruct Q as (C & _ & Q). split; [apply category_inj; exact C|exact Q]. }
  assert (S : forall x y, 32%N :: severity_text (i_severity a) ++ 58%N :: 32%N :: x = 32%N :: severity_text (i_severity b) ++ 58%N :: 32%N :: y -> i_severity a = i_severity b /\ x = y).
  { intros x y Q. injection Q as Q. apply (split_unique is_small) in Q; [|apply severity_small|apply severity_small|reflexivity|reflexivity]. destruct Q as (C & _ & Q). split; [apply severity_inj; exact C|]. injection Q as Q. exact Q. }
  destruct (i_column a) as [ca|], (i_column b) as [cb|]; rewrite <- ?app_assoc in E; cbn [app] in E.
  - apply (split_unique is_digit) in E; [|apply to_dec_digits|apply to_dec_digits|reflexivity|reflexivity]. destruct E as (C & _ & E). apply dec_inj in C. subst cb. split; [reflexivity|]. apply R in E. destruct E as [-> E]. apply S in E. destruct E as [-> E]. auto.
  - exfalso. destruct (dec_first ca) as (x & r & X & D), (category_first (i_category b)) as (y & q & Y & F). rewrite X, Y in E. injection E as -> _. congruence.
  - exfalso. destruct (dec_first cb) as (x & r & X & D), (category_first (i_category a)) as (y & q & Y & F). rewrite X, Y in E. injection E as -> _. congruence.
  - split; [reflexivity|]. apply R in E. destruct E as [-> E]. apply S in E. destruct E as [-> E]. auto.
Qed.
(* the place, the category and the severity can be read back from a report, and
   so can the message and the suggestion when the messages are single lines *)
Theorem report_exact : forall a b, format_for_display a = format_for_display b ->
  i_line a = i_line b /\ i_column a = i_column b /\ i_category a = i_category b /\ i_severity a = i_severity b /\
  (~ In 10%N (i_message a) -> ~ In 10%N (i_message b) -> i_message a = i_message b /\ i_suggestion a = i_suggestion b).
Proof.
  intros a b E. apply shown_tail in E. destruct E as (A & B & C & D & T). split; [exact A|]. split; [exact B|]. split; [exact C|]. split; [exact D|]. intros NA NB.
  assert (F : forall l, ~ In 10%N l -> forallb (fun c => negb (c =? 10)%N) l = true) by (intros l Q; apply forallb_forall; intros x X; destruct (N.eqb_spec x 10); [subst; contradiction|reflexivity]).
  unfold tail_of in T. destruct (i_suggestion a) as [sa|], (i_suggestion b) as [sb|]; rewrite ?app_nil_r in T; cbn [app] in T.
  - apply (split_unique (fun c => negb (c =? 10)%N)) in T; [|apply F; assumption|apply F; assumption|reflexivity|reflexivity]. destruct T as (M & _ & T). apply app_inv_head in T. split; [exact M|rewrite T; reflexivity].
  - exfalso. apply NB. rewrite <- T. apply in_app_iff. right. left. reflexivity.
  - exfalso. apply NA. rewrite T. apply in_app_iff. right. left. reflexivity.
  - split; [exact T|reflexivity].
Qed.
Print Assumptions report_exact.
(* a message of two lines can look like a suggestion *)
Theorem report_suggestion_refuted : exists a b, format_for_display a = format_for_display b /\ i_message a <> i_message b.
Proof. exists (with_suggestion (lit "y") (new Error Style (lit "x") 1)), (new Error Style (lit "x" ++ [10%N] ++ lit "  Suggestion: y") 1). split; [reflexivity|discriminate]. Qed.
Print Assumptions report_suggestion_refuted.

(* a tokenizer's report determines everything but the span, whatever its message *)
Theorem token_report_exact : forall a b, format_issue a = format_issue b -> t_level a = t_level b /\ t_message a = t_message b /\ t_line a = t_line b /\ t_column a = t_column b.
Proof.
  intros a b E. unfold format_issue in E. change (lit ": ") with [58%N; 32%N] in E. cbn [app] in E.
  apply (split_unique is_small) in E; [|apply level_small|apply level_small|reflexivity|reflexivity]. destruct E as (L & _ & E). apply level_inj in L. split; [exact L|]. injection E as E.
  apply (f_equal (@rev char)) in E. change (lit " at ") with [32; 97; 116; 32]%N in E. change (lit ":") with [58%N] in E. repeat (rewrite ?rev_app_distr, <- ?app_assoc in E; cbn [rev app] in E).
  assert (DR : forall n, forallb is_digit (rev (to_dec n)) = true).
  { intros n. apply forallb_forall. intros x X. apply in_rev in X. exact (proj1 (forallb_forall _ _) (to_dec_digits n) x X). }
  apply (split_unique is_digit) in E; [|apply DR|apply DR|reflexivity|reflexivity]. destruct E as (C & _ & E). apply (f_equal (@rev char)) in C. rewrite !rev_involutive in C. apply dec_inj in C.
  apply (split_unique is_digit) in E; [|apply DR|apply DR|reflexivity|reflexivity]. destruct E as (N & _ & E). apply (f_equal (@rev char)) in N. rewrite !rev_involutive in N. apply dec_inj in N.
  injection E as E. apply (f_equal (@rev char)) in E. rewrite !rev_involutive in E. auto.
Qed.
Print Assumptions token_report_exact.

(* ---- the containers ---- *)
Definition add_all {T E} (p : parsed T E) (l : list issue) : parsed T E := fold_left add_issue l p.
Theorem issues_gathered : forall T E (r : T + E) l, let p := add_all (Parsed r []) l in
  p_result p = r /\ p_issues p = l /\ (has_blocking_issues p = true <-> exists i, In i l /\ i_severity i = Critical) /\
  length (critical_issues p) = count_by_severity Critical p /\ (has_blocking_issues p = true <-> 0 < count_by_severity Critical p) /\
  count_by_severity Info p + count_by_severity Warning p + count_by_severity Error p + count_by_severity Critical p = length l.
Proof.
  intros T E r l p. assert (G : p = Parsed r l). { unfold p, add_all. change l with ([] ++ l) at 2. generalize (@nil issue). induction l as [|i l IH]; intros acc; [cbn; rewrite app_nil_r; reflexivity|]. cbn [fold_left]. unfold add_issue at 2. cbn [p_result p_issues]. rewrite (IH (acc ++ [i])). rewrite <- app_assoc. reflexivity. }
  rewrite G. clear p G. cbn [p_result p_issues]. split; [reflexivity|]. split; [reflexivity|].
  assert (B : has_blocking_issues (Parsed r l) = true <-> exists i, In i l /\ i_severity i = Critical).
  { unfold has_blocking_issues. cbn [p_issues]. rewrite existsb_exists. split; intros (i & I & S); exists i; (split; [exact I|]); unfold is_blocking in *; [destruct (i_severity i); congruence|rewrite S; reflexivity]. }
  split; [exact B|]. unfold critical_issues, count_by_severity. cbn [p_issues]. split; [f_equal; apply filter_ext; intros i; destruct (i_severity i); reflexivity|]. split.
  - rewrite B. split.
    + intros (i & I & S). destruct (filter _ l) as [|x q] eqn:F; [|cbn; lia]. exfalso. assert (K : In i (filter (fun i => severity_eqb (i_severity i) Critical) l)) by (apply filter_In; split; [exact I|rewrite S; reflexivity]). rewrite F in K. contradiction.
    + intros P. destruct (filter _ l) as [|x q] eqn:F; [cbn in P; lia|]. assert (K : In x (filter (fun i => severity_eqb (i_severity i) Critical) l)) by (rewrite F; left; reflexivity). apply filter_In in K. exists x. split; [apply K|]. destruct K as [_ K]. destruct (i_severity x); try discriminate K. reflexivity.
  - clear B. induction l as [|i l IH]; [reflexivity|]. cbn [filter length]. destruct (i_severity i); cbn [severity_eqb length]; lia.
Qed.
Print Assumptions issues_gathered.

Theorem issues_critical : forall T E (p : parsed T E) i, In i (critical_issues p) <-> In i (p_issues p) /\ i_severity i = Critical.
Proof.
  intros T E p i. unfold critical_issues. rewrite filter_In. split; intros [A B]; (split; [exact A|]); [destruct (i_severity i); try discriminate B; reflexivity|rewrite B; reflexivity].
Qed.
Print Assumptions issues_critical.

Definition added (k : call) : list token_issue := match k with AddIssue i => [i] | _ => [] end.
(* without clearing, every issue added is in exactly one batch taken or still there, in order; clearing and taking leave nothing *)
Theorem issues_collected : forall l, (forall k, In k l -> k <> Clear) -> concat (all_taken [] l) ++ collected l = flat_map added l.
Proof.
  assert (G : forall l c, (forall k, In k l -> k <> Clear) -> concat (all_taken c l) ++ fold_left collect l c = c ++ flat_map added l).
  { induction l as [|k l IH]; intros c H; [cbn; rewrite app_nil_r; reflexivity|]. assert (Q : forall x, In x l -> x <> Clear) by (intros; apply H; right; assumption). cbn [all_taken fold_left flat_map]. destruct k as [i| |].
    - cbn [app collect added]. rewrite (IH _ Q), <- app_assoc. reflexivity.
    - exfalso. apply (H Clear); [left|]; reflexivity.
    - cbn [app collect added taken concat]. rewrite <- app_assoc, (IH _ Q). reflexivity. }
  intros l H. apply (G l [] H).
Qed.
Print Assumptions issues_collected.
Theorem issues_emptied : forall l k m, k = Clear \/ k = Take -> collected (l ++ k :: m) = collected m.
Proof. intros l k m [->| ->]; unfold collected; rewrite fold_left_app; reflexivity. Qed.
Print Assumptions issues_emptied.
Theorem issues_errors : forall c, has_errors c = true <-> exists i, In i c /\ t_level i <> LWarning.
Proof.
  intros c. unfold has_errors. rewrite existsb_exists. split; intros (i & I & S); exists i; (split; [exact I|]); destruct (t_level i); try discriminate; try reflexivity; congruence.
Qed.
Print Assumptions issues_errors.

Example report_ex : format_for_display (with_suggestion (lit "use 1") (with_location Warning Timing (lit "bad") 12 3 (4, 5)%N)) = lit "[12:3:timing] warning: bad" ++ [10%N] ++ lit "  Suggestion: use 1".
Proof. reflexivity. Qed.
Example token_report_ex : format_issue (TokenIssue LError (lit "x at 1:2") [] 30 4) = lit "error: x at 1:2 at 30:4".
Proof. reflexivity. Qed.
Example collected_ex : let i := TokenIssue LError (lit "a") [] 1 1 in let l := [AddIssue i; Take; AddIssue i] in (forall k, In k l -> k <> Clear) /\ all_taken [] l = [[i]] /\ collected l = [i].
Proof. repeat split. intros k [<-|[<-|[<-|[]]]]; discriminate. Qed.
Example issues_ex : let p : parsed N N := add_all (Parsed (inl 1%N) []) [new Error Style (lit "x") 1; new Critical Event (lit "y") 2] in
  map i_message (critical_issues p) = [lit "y"] /\ has_blocking_issues p = true /\ count_by_severity Error p = 1 /\ count_by_severity Info p = 0.
Proof. repeat split. Qed.
