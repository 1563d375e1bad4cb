From Verif Require Import LintSpec LintProofs BaseLemmas TextProofs StyleProofs StyleResolveProofs EventsProofs TagSpec.
Import ListNotations.

Lemma has_id_iff id l : has_id id l = true <-> In id l.
Proof.
  unfold has_id. rewrite existsb_exists. split; [intros (x & I & E); apply String.eqb_eq in E; congruence|]. intros I. exists id. split; [exact I|apply String.eqb_refl].
Qed.
Lemma enabled_iff c id : is_rule_enabled c id = true <-> rule_on c id.
Proof.
  unfold is_rule_enabled, rule_on. destruct (has_id id (lc_disabled c)) eqn:D.
  - apply has_id_iff in D. split; [discriminate|]. intros [N _]. contradiction.
  - assert (N : ~ In id (lc_disabled c)) by (rewrite <- has_id_iff; congruence). destruct (lc_enabled c) as [|x l] eqn:E; [split; auto|]. rewrite has_id_iff. split; [auto|]. intros [_ [X|X]]; [discriminate|exact X].
Qed.
Lemma severity_iff c i : should_report_severity c (li_severity i) = true <-> severe_enough c i.
Proof. unfold should_report_severity, severe_enough. destruct (lc_min c), (li_severity i); cbn; split; try discriminate; try tauto; auto. Qed.
Definition severe (c : lint_config) (l : list lint_issue) : list lint_issue := filter (fun i => should_report_severity c (li_severity i)) l.
Lemma severe_iff c f p : kept (severe_enough c) f p <-> p = severe c f.
Proof. apply kept_iff. intros i. apply severity_iff. Qed.
Lemma reports_nil c l : all_reports c [] l <-> l = [].
Proof.
  unfold all_reports. split; [intros (on & K & T)|intros ->; exists []; split; constructor]. inversion K; subst. inversion T. reflexivity.
Qed.
Lemma reports_cons c id r rules l : all_reports c ((id, r) :: rules) l <->
  (rule_on c id /\ exists f l', r = Done f /\ l = severe c f ++ l' /\ all_reports c rules l') \/ (~ rule_on c id /\ all_reports c rules l).
Proof.
  unfold all_reports. split.
  - intros (on & K & T). inversion K as [|x l0 r0 P K'|x l0 r0 P K']; subst.
    + left. split; [exact P|]. inversion T as [|x a l1 r1 Q T']; subst. destruct Q as (f & E & S). cbn in E. apply severe_iff in S. exists f, r1. rewrite S. split; [exact E|]. split; [reflexivity|]. eauto.
    + right. split; [exact P|]. eauto.
  - intros [(P & f & l' & -> & -> & on & K & T)|(P & on & K & T)].
    + exists ((id, Done f) :: on). split; [now constructor 2|]. constructor; [|exact T]. exists f. split; [reflexivity|now apply severe_iff].
    + exists on. split; [now constructor 3|exact T].
Qed.
Lemma limited_short c l : lc_max c = 0 \/ List.length l < lc_max c -> limited c l = l.
Proof. unfold limited. destruct (lc_max c); [reflexivity|]. intros [D|H]; [discriminate|]. apply firstn_all2. lia. Qed.
Lemma limited_long c l : 0 < lc_max c -> limited c l = firstn (lc_max c) l.
Proof. unfold limited. destruct (lc_max c); [lia|reflexivity]. Qed.
Lemma rule_on_dec c id : rule_on c id \/ ~ rule_on c id.
Proof. rewrite <- enabled_iff. destruct (is_rule_enabled c id); auto. Qed.
Lemma firstn_more {A} n (a b : list A) : n <= List.length a -> firstn n (a ++ b) = firstn n a.
Proof. intros H. rewrite firstn_app. replace (n - List.length a) with 0 by lia. cbn. apply app_nil_r. Qed.
Lemma run_iff c rules : forall acc l, lc_max c = 0 \/ List.length acc < lc_max c ->
  run_rules c rules acc = Done l <-> exists pre post found, rules = pre ++ post /\ all_reports c pre found /\ (post = [] \/ 0 < lc_max c <= List.length (acc ++ found)) /\ l = limited c (acc ++ found).
Proof.
  induction rules as [|[id r] rules IH]; intros acc l M; cbn [run_rules].
  - split.
    + intros [= <-]. exists [], [], []. split; [reflexivity|]. split; [now apply reports_nil|]. split; [now left|]. rewrite app_nil_r. symmetry. now apply limited_short.
    + intros (pre & post & f & E & A & _ & ->). symmetry in E. apply app_eq_nil in E as [-> ->]. apply reports_nil in A. subst. rewrite app_nil_r. now rewrite limited_short.
  - destruct (is_rule_enabled c id) eqn:EN.
    + apply enabled_iff in EN. assert (STEP : forall f0, r = Done f0 ->
        (if Nat.ltb 0 (lc_max c) && Nat.leb (lc_max c) (List.length (acc ++ severe c f0)) then Done (firstn (lc_max c) (acc ++ severe c f0)) else run_rules c rules (acc ++ severe c f0)) = Done l <->
        exists pre post found, (id, r) :: rules = pre ++ post /\ all_reports c pre found /\ (post = [] \/ 0 < lc_max c <= List.length (acc ++ found)) /\ l = limited c (acc ++ found)).
      { intros f0 R. destruct (Nat.ltb 0 (lc_max c) && Nat.leb (lc_max c) (List.length (acc ++ severe c f0))) eqn:B.
        - apply andb_true_iff in B as [B1 B2]. apply Nat.ltb_lt in B1. apply Nat.leb_le in B2. split.
          + intros [= <-]. exists [(id, r)], rules, (severe c f0). split; [reflexivity|]. split; [apply reports_cons; left; split; [exact EN|]; exists f0, []; rewrite app_nil_r; split; [exact R|]; split; [reflexivity|now apply reports_nil]|]. split; [right; lia|]. symmetry. now apply limited_long.
          + intros (pre & post & f & E & A & L & ->). rewrite limited_long by exact B1. f_equal. destruct pre as [|x pre].
            * apply reports_nil in A. subst f. destruct L as [->|L]; [discriminate|]. rewrite app_nil_r in L. destruct M; lia.
            * injection E as <- E. apply reports_cons in A as [(_ & f' & l' & R' & -> & _)|[N _]]; [|contradiction]. rewrite R in R'. injection R' as <-. rewrite app_assoc. symmetry. now apply firstn_more.
        - assert (M' : lc_max c = 0 \/ List.length (acc ++ severe c f0) < lc_max c). { apply andb_false_iff in B as [B|B]; [apply Nat.ltb_ge in B; lia|apply Nat.leb_gt in B; lia]. }
          rewrite (IH (acc ++ severe c f0) l M'). split.
          + intros (pre & post & f & -> & A & L & ->). exists ((id, r) :: pre), post, (severe c f0 ++ f). split; [reflexivity|]. split; [apply reports_cons; left; split; [exact EN|]; exists f0, f; auto|]. rewrite app_assoc. auto.
          + intros (pre & post & f & E & A & L & ->). destruct pre as [|x pre].
            * apply reports_nil in A. subst f. destruct L as [->|L]; [discriminate|]. rewrite app_nil_r in L. destruct M; lia.
            * injection E as <- ->. apply reports_cons in A as [(_ & f' & l' & R' & -> & A)|[N _]]; [|contradiction]. rewrite R in R'. injection R' as <-. exists pre, post, l'. rewrite <- app_assoc. auto. }
      destruct r as [f0| |]; cbn [bind]; [apply STEP; reflexivity| |]; (split; [discriminate|]); intros (pre & post & f & E & A & L & ->); (destruct pre as [|x pre]; [apply reports_nil in A; subst f; destruct L as [->|L]; [discriminate|]; rewrite app_nil_r in L; destruct M; lia|]); injection E as <- ->; apply reports_cons in A as [(_ & f' & l' & R' & _)|[N _]]; try discriminate; contradiction.
    + assert (NE : ~ rule_on c id) by (rewrite <- enabled_iff; congruence). rewrite (IH acc l M). split.
      * intros (pre & post & f & -> & A & L & ->). exists ((id, r) :: pre), post, f. split; [reflexivity|]. split; [apply reports_cons; auto|auto].
      * intros (pre & post & f & E & A & L & ->). destruct pre as [|x pre].
        -- apply reports_nil in A. subst f. destruct L as [->|L]; [discriminate|]. rewrite app_nil_r in L. destruct M; lia.
        -- injection E as <- ->. apply reports_cons in A as [(N & _)|[_ A]]; [contradiction|]. exists pre, post, f. auto.
Qed.
Lemma lints_iff c rules l : run_rules c rules [] = Done l <-> lints c rules l.
Proof. apply run_iff. destruct (lc_max c); [now left|right; cbn; lia]. Qed.

(* nothing gets stuck *)
Lemma text_not_stuck text : analyze_text text <> Stuck.
Proof. destruct (analyze_text_runs text) as [E|[o E]]; rewrite E; discriminate. Qed.
Lemma both_not_stuck e : both_times e <> Stuck.
Proof. unfold both_times. destruct (parse_ass_time (e_start e)), (parse_ass_time (e_end e)); discriminate. Qed.
Lemma bind_not_stuck {A B} (r : run A) (f : A -> run B) : r <> Stuck -> (forall a, f a <> Stuck) -> bind r f <> Stuck.
Proof. intros H K. destruct r; cbn [bind]; [apply K|discriminate|congruence]. Qed.
Lemma style_color_runs f v : check_style_color f v <> Stuck.
Proof. unfold check_style_color. destruct (parse_bgr_color v); discriminate. Qed.
Lemma part_runs p : check_tag_part p <> Stuck.
Proof.
  unfold check_tag_part. destruct p as [|c r]; [discriminate|]. apply bind_not_stuck.
  - destruct (wide_dec (c :: r)) as [W|W]; [rewrite wide_crash by exact W; discriminate|]. destruct (color_tag_run _ W) as (o & -> & _). discriminate.
  - intros [[n v]|]; [|discriminate]. destruct (parse_bgr_color _); discriminate.
Qed.
Lemma rules_run a id r : In (id, r) (builtin_rules a) -> r <> Stuck.
Proof.
  unfold builtin_rules. intros [[= _ <-]|[[= _ <-]|[[= _ <-]|[[= _ <-]|[[= _ <-]|[[= _ <-]|[[= _ <-]|[[= _ <-]|[]]]]]]]]].
  - unfold check_overlap. destruct (find_overlapping_events _); try discriminate. apply each_not_stuck. intros p. apply bind_not_stuck; [destruct (nth_error _ _); discriminate|]. intros x. apply bind_not_stuck; [destruct (nth_error _ _); discriminate|]. discriminate.
  - apply each_not_stuck. intros e. apply bind_not_stuck; [apply both_not_stuck|discriminate].
  - apply bind_not_stuck; [|intros x; apply bind_not_stuck; [|discriminate]]; apply each_not_stuck.
    + intros s. repeat (apply bind_not_stuck; [apply style_color_runs|intros ?]). discriminate.
    + intros e. apply bind_not_stuck; [apply text_not_stuck|]. intros [ta|]; [|discriminate]. apply each_not_stuck. intros t. apply each_not_stuck. intros p. apply part_runs.
  - apply each_not_stuck. discriminate.
  - apply each_not_stuck. intros e. apply bind_not_stuck; [apply text_not_stuck|discriminate].
  - discriminate.
  - discriminate.
  - apply each_not_stuck. intros e. apply bind_not_stuck; [apply bind_not_stuck; [apply both_not_stuck|discriminate]|]. intros x. apply bind_not_stuck.
    + apply bind_not_stuck; [apply both_not_stuck|]. intros [[s t]|]; [|discriminate]. destruct (s <=? t)%N; [|discriminate]. apply bind_not_stuck; [apply text_not_stuck|discriminate].
    + intros y. apply bind_not_stuck; [|discriminate]. apply bind_not_stuck; [apply text_not_stuck|discriminate].
Qed.
Lemma run_rules_runs c rules : (forall id r, In (id, r) rules -> r <> Stuck) -> forall acc, run_rules c rules acc <> Stuck.
Proof.
  induction rules as [|[id r] rules IH]; intros H acc; cbn [run_rules]; [discriminate|]. assert (K : forall acc, run_rules c rules acc <> Stuck) by (apply IH; intros i x I; apply (H i); now right).
  destruct (is_rule_enabled c id); [|apply K]. apply bind_not_stuck; [apply (H id); now left|]. intros f. destruct (_ && _); [discriminate|apply K].
Qed.
Lemma analyze_runs e : analyze e <> Stuck.
Proof.
  unfold analyze, analyze_with, lift. destruct (parse_ass_time (e_start e)) as [s| |]; try discriminate. destruct (parse_ass_time (e_end e)) as [t| |]; try discriminate. destruct (t <=? s)%N; [discriminate|].
  apply bind_not_stuck; [apply (text_not_stuck (e_text e))|]. intros [ta|]; [|discriminate]. apply bind_not_stuck; [|discriminate]. unfold animation_score. destruct (sum_u8 0 _); discriminate.
Qed.
Lemma infos_iff sections l : analyze_events sections = Done l <-> in_turn info_report (events_of sections) l.
Proof.
  apply each_iff. intros e a _. unfold info_report. destruct (analyze e) as [[d|]| |]; cbn [bind].
  - split; [intros [= <-]; left; eauto|]. intros [(d' & [= <-] & ->)|[D _]]; [reflexivity|discriminate].
  - split; [intros [= <-]; right; auto|]. intros [(d' & D & _)|[_ ->]]; [discriminate|reflexivity].
  - split; [discriminate|]. intros [(d' & D & _)|[D _]]; discriminate.
  - split; [discriminate|]. intros [(d' & D & _)|[D _]]; discriminate.
Qed.
Lemma prepare_iff sections a : prepare sections = Done a <-> sa_sections a = sections /\ (exists s, analyze_styles default_config sections = Done s /\ sa_styles a = map snd (an_resolved s)) /\ in_turn info_report (events_of sections) (sa_infos a).
Proof.
  unfold prepare. destruct (analysis_spec default_config sections) as (s & E & _). rewrite E. cbn [bind]. pose proof (infos_iff sections) as I. split.
  - destruct (analyze_events sections) as [i| |]; try discriminate. intros [= <-]. cbn. split; [reflexivity|]. split; [eauto|]. now apply I.
  - intros (A & (s' & [= <-] & B) & C). apply I in C. rewrite C. cbn [bind]. destruct a as [x y z]; cbn in *. subst. reflexivity.
Qed.
Lemma lint_runs sections c : lint_script sections c <> Stuck.
Proof.
  unfold lint_script. apply bind_not_stuck.
  - unfold prepare. destruct (analysis_spec default_config sections) as (s & E & _). rewrite E. cbn [bind]. apply bind_not_stuck; [|discriminate]. apply each_not_stuck. intros e. apply bind_not_stuck; [apply analyze_runs|discriminate].
  - intros a. apply run_rules_runs. apply rules_run.
Qed.

(* every issue carries the identifier of its rule, and none is critical *)
Lemma turn_forall {A B} (R : A -> list B -> Prop) (P : B -> Prop) l r : in_turn R l r -> (forall x a, R x a -> Forall P a) -> Forall P r.
Proof. intros T H. induction T as [|x a l r Rx T IH]; [constructor|]. apply Forall_app. split; [now apply (H x)|exact IH]. Qed.
Lemma when_forall {A} (P : Prop) (Q : A -> Prop) x l : when P x l -> Q x -> Forall Q l.
Proof. intros [[_ ->]|[_ ->]] H; repeat constructor. exact H. Qed.
Definition tells (id : string) (i : lint_issue) : Prop := li_rule i = id /\ li_severity i <> LCritical.
Lemma told id s c f : s <> LCritical -> tells id (Lint s c id f).
Proof. intros H. split; [reflexivity|exact H]. Qed.
Lemma rule_told a id f : In (id, Done f) (builtin_rules a) -> Forall (tells id) f.
Proof.
  unfold builtin_rules. intros [E|[E|[E|[E|[E|[E|[E|[E|[]]]]]]]]]; injection E as <- H.
  - apply overlap_iff in H as [(o & _ & T)|[_ ->]]; [|repeat constructor; discriminate]. apply (turn_forall _ _ _ _ T). intros x r (p & q & _ & _ & ->). constructor; [now apply told|constructor].
  - apply duration_iff in H. apply (turn_forall _ _ _ _ H). intros x r [_ W]. apply (when_forall _ _ _ _ W). now apply told.
  - apply colours_iff in H as (p & q & A & B & ->). apply Forall_app. split.
    + apply (turn_forall _ _ _ _ A). intros x r T. apply (turn_forall _ _ _ _ T). intros y s W. apply (when_forall _ _ _ _ W). now apply told.
    + apply (turn_forall _ _ _ _ B). intros x r [(ta & _ & T)|[_ ->]]; [|constructor]. apply (turn_forall _ _ _ _ T). intros t s (parts & _ & _ & U). apply (turn_forall _ _ _ _ U). intros y z [(n & v & _ & _ & ->)|[_ ->]]; [|constructor]. constructor; [now apply told|constructor].
  - apply missing_iff in H. apply (turn_forall _ _ _ _ H). intros x r W. apply (when_forall _ _ _ _ W). now apply told.
  - apply diagnostics_iff in H. apply (turn_forall _ _ _ _ H). intros x r [(ta & _ & ->)|[_ ->]]; [|constructor]. apply Forall_forall. intros i I. apply in_map_iff in I as (d & <- & _). now apply told.
  - symmetry in H. apply performance_iff in H as (p & q & A & B & ->). apply Forall_app. split; [apply (when_forall _ _ _ _ A); now apply told|]. apply (turn_forall _ _ _ _ B). intros x r (y & z & Y & Z & ->). apply Forall_app. split; [apply (when_forall _ _ _ _ Y)|apply (when_forall _ _ _ _ Z)]; now apply told.
  - symmetry in H. apply encoding_iff in H as (p & q & A & B & ->). apply Forall_app. split.
    + apply (turn_forall _ _ _ _ A). intros x r (u & v & w & U & V & W & ->). apply Forall_app. split; [apply (when_forall _ _ _ _ U); now apply told|]. apply Forall_app. split; [apply (when_forall _ _ _ _ V)|apply (when_forall _ _ _ _ W)]; now apply told.
    + apply (turn_forall _ _ _ _ B). intros x r W. apply (when_forall _ _ _ _ W). now apply told.
  - apply accessibility_iff in H. apply (turn_forall _ _ _ _ H). intros x r (_ & _ & u & v & w & U & V & W & ->). apply Forall_app. split; [|apply Forall_app; split].
    + destruct U as [(s & t & _ & _ & ->)|[_ ->]]; [|constructor]. constructor; [now apply told|constructor].
    + destruct V as [(s & t & ta & _ & _ & _ & ->)|[_ ->]]; [|constructor]. constructor; [now apply told|constructor].
    + destruct W as [(ta & _ & _ & ->)|[_ ->]]; [|constructor]. constructor; [now apply told|constructor].
Qed.
Lemma rule_tells a id f i : In (id, Done f) (builtin_rules a) -> In i f -> li_rule i = id.
Proof. intros H I. pose proof (rule_told _ _ _ H) as F. rewrite Forall_forall in F. apply (F i I). Qed.
Lemma reports_told a c pre found : (forall id r, In (id, r) pre -> In (id, r) (builtin_rules a)) -> all_reports c pre found ->
  forall i, In i found -> exists id f, In (id, Done f) pre /\ rule_on c id /\ In i f /\ severe_enough c i.
Proof.
  revert found. induction pre as [|[id r] pre IH]; intros found R A i J; [apply reports_nil in A; subst; destruct J|].
  assert (R' : forall id r, In (id, r) pre -> In (id, r) (builtin_rules a)) by (intros id' r' I'; apply R; now right).
  apply reports_cons in A as [(P1 & f & l' & -> & -> & A)|(_ & A)].
  - apply in_app_or in J as [J|J].
    + unfold severe in J. apply filter_In in J as [J S]. exists id, f. split; [now left|]. split; [exact P1|]. split; [exact J|now apply severity_iff].
    + destruct (IH l' R' A i J) as (id' & f' & I' & K). exists id', f'. split; [now right|exact K].
  - destruct (IH found R' A i J) as (id' & f' & I' & K). exists id', f'. split; [now right|exact K].
Qed.
(* the styles taken as defined *)
Lemma adjusted_name sc a b : adjusted sc a b -> rs_name b = rs_name a.
Proof. destruct sc as [[x y]|]; cbn; [intros H; apply (sc_same _ _ _ _ H)|now intros ->]. Qed.
Lemma readable_dec s : (exists r, resolves s r) \/ forall r, ~ resolves s r.
Proof.
  destruct (from_style s) as [r| |] eqn:E; [left; exists r; now apply from_style_iff|right; intros r R; apply from_style_iff in R; congruence..].
Qed.
Lemma last_exists l n : (exists s r, In s l /\ s_name s = n /\ resolves s r) -> exists r, last_readable l n r.
Proof.
  induction l as [|s l IH]; intros (t & r & I & N & R); [destruct I|].
  assert (D : (exists t r, In t l /\ s_name t = n /\ resolves t r) \/ forall t, In t l -> s_name t = n -> forall r, ~ resolves t r).
  { clear. induction l as [|u l [(t & r & I & H)|H]]; [right; intros t []|left; exists t, r; split; [now right|exact H]|]. destruct (str_eqb (s_name u) n) eqn:E.
    - apply str_eqb_eq in E. destruct (readable_dec u) as [[r R]|R]; [left; exists u, r; split; [now left|auto]|right]. intros t [<-|I]; [intros _; exact R|now apply H].
    - right. intros t [<-|I]; [|now apply H]. intros N. apply str_eqb_eq in N. congruence. }
  destruct D as [D|D].
  - destruct (IH D) as (r' & l1 & u & l2 & -> & H). exists r', (s :: l1), u, l2. auto.
  - destruct I as [<-|I]; [|exfalso; exact (D t I N r R)]. exists r, [], s, l. auto.
Qed.
Lemma known_styles sections a styles n : prepare sections = Done a -> script_styles sections styles ->
  In n (map rs_name (sa_styles a)) <-> exists s r, In s styles /\ s_name s = n /\ from_style s = Ok r.
Proof.
  intros P S. apply prepare_iff in P as (_ & (st & E & ->) & _). destruct (analysis_spec default_config sections) as (st' & E' & _ & _ & So & H). assert (st' = st) as -> by congruence. destruct (H styles S) as (G & _).
  assert (Nm : forall k r, In (k, r) (an_resolved st) -> rs_name r = k). { intros k r I. apply (entry_get _ _ _ So) in I. apply G in I as (r0 & (l1 & s & l2 & _ & N & R & _) & A). rewrite (adjusted_name _ _ _ A), (rv_name _ _ R). exact N. }
  rewrite map_map, in_map_iff. split.
  - intros ([k r] & N & I). cbn [snd] in N. pose proof (Nm k r I) as K. apply (entry_get _ _ _ So) in I. apply G in I as (r0 & (l1 & s & l2 & -> & Ns & R & _) & A). exists s, r0. split; [apply in_or_app; right; now left|]. split; [congruence|now apply from_style_iff].
  - intros (s & r & I & N & R). apply from_style_iff in R. destruct (last_exists styles n) as (r0 & L); [exists s, r; auto|].
    assert (A : exists r1, adjusted (an_scaling st) r0 r1). { destruct (an_scaling st) as [[x y]|]; [|exists r0; reflexivity]. destruct (scaling_ok x y r0) as [b B]. exists b. now apply scaling_iff. }
    destruct A as [r1 A]. exists (n, r1). assert (M : sm_get n (an_resolved st) = Some r1) by (apply G; eauto). apply get_entry in M. split; [|exact M]. exact (Nm n r1 M).
Qed.

(* ---- the performance summary ---- *)
Lemma infos_analyzed sections l : in_turn info_report sections l -> Forall analyzed l.
Proof.
  intros T. apply (turn_forall _ _ _ _ T). intros e a [(d & A & ->)|[_ ->]]; [|constructor]. constructor; [|constructor]. exists no_registry. unfold analyze in A. replace (di_event d) with e; [exact A|].
  unfold analyze_with, lift in A. destruct (parse_ass_time (e_start e)) as [s| |]; try discriminate. destruct (parse_ass_time (e_end e)) as [t| |]; try discriminate. destruct (t <=? s)%N; [discriminate|].
  destruct (analyze_text_with no_registry (e_text e)) as [[ta|]| |]; try discriminate. cbn [bind] in A. destruct (animation_score _); try discriminate. cbn [bind] in A. now injection A as <-.
Qed.
Lemma score_exact e o n f : (performance_score e o n f + points_above event_penalty (N.of_nat e) + points_above overlap_penalty (N.of_nat o) + points_above animation_penalty (N.of_nat n) + points_above font_penalty (N.of_nat f) = 100)%N.
Proof.
  unfold performance_score, points_above, event_penalty, overlap_penalty, animation_penalty, font_penalty. cbn [filter fst].
  assert (K : forall k x, Nat.ltb k x = (N.of_nat k <? N.of_nat x)%N). { intros k x. destruct (Nat.ltb_spec k x), (N.ltb_spec (N.of_nat k) (N.of_nat x)); lia. }
  rewrite !K. change (N.of_nat 1000) with 1000%N. change (N.of_nat 500) with 500%N. change (N.of_nat 50) with 50%N. change (N.of_nat 20) with 20%N. change (N.of_nat 100) with 100%N. change (N.of_nat 10) with 10%N. clear K.
  destruct (N.ltb_spec 1000 (N.of_nat e)), (N.ltb_spec 500 (N.of_nat e)); try (exfalso; lia); destruct (N.ltb_spec 50 (N.of_nat o)), (N.ltb_spec 20 (N.of_nat o)); try (exfalso; lia);
  destruct (N.ltb_spec 100 (N.of_nat n)), (N.ltb_spec 50 (N.of_nat n)); try (exfalso; lia); destruct (N.ltb_spec 10 (N.of_nat f)); reflexivity.
Qed.
Lemma pairs_of l : Forall analyzed l -> exists o, find_overlapping_dialogue_events l = Ok o /\ shown_together l o.
Proof.
  intros F. destruct (Nat.ltb_spec (List.length l) 2) as [L|L].
  - exists []. split.
    + unfold find_overlapping_dialogue_events, find_overlapping_events. rewrite map_length. destruct (Nat.ltb_spec (List.length l) 2); [reflexivity|lia].
    + split; [constructor|]. split; [intros i j []|]. intros i j. split; [intros [[]|[]]|]. intros [N (a & b & t & A & B & _)]. assert (i < List.length (map range_of l)) by (apply nth_error_Some; congruence). assert (j < List.length (map range_of l)) by (apply nth_error_Some; congruence). rewrite map_length in *. lia.
  - unfold find_overlapping_dialogue_events, find_overlapping_events. rewrite map_length. destruct (Nat.ltb_spec (List.length l) 2); [lia|].
    assert (T : all_times event_times (map di_event l) = Ok (map range_of l)).
    { apply all_times_ok. clear L H. induction F as [|d l D F IH]; [constructor|]. cbn [map]. constructor; [|exact IH]. destruct (analyzed_times d D) as (A & B & _). unfold event_times. rewrite A. cbn. rewrite B. reflexivity. }
    rewrite T. cbn. eexists. split; [reflexivity|]. assert (V : Forall (fun t => (fst t < snd t)%N) (map range_of l)). { apply Forall_forall. intros x I. apply in_map_iff in I as (d & <- & I). rewrite Forall_forall in F. apply (analyzed_times d (F d I)). }
    destruct (overlaps_valid (map range_of l) V) as (N & O1 & O). split; [exact N|]. split; [|exact O].
    intros i j A B. apply O1 in A as (si & ei & sj & ej & A1 & A2 & A3). apply O1 in B as (sj' & ej' & si' & ei' & B1 & B2 & B3). rewrite A1 in B2. rewrite A2 in B1. injection B1 as <- <-. injection B2 as <- <-. lia.
Qed.
Lemma summary_exact sections a : prepare sections = Done a -> exists p, summarize a = Done p /\ summary_of (sa_styles a) (sa_infos a) p.
Proof.
  intros P. apply prepare_iff in P as (_ & _ & T). apply infos_analyzed in T. destruct (pairs_of _ T) as (o & E & S). unfold summarize, count_overlaps. rewrite E. cbn [bind]. eexists. split; [reflexivity|]. split; cbn.
  - reflexivity.
  - exists o. auto.
  - exists (filter (fun d => 3 <? di_animation d)%N (sa_infos a)). split; [|reflexivity]. apply (kept_iff _ (fun d => 3 <? di_animation d)%N); [intros d; apply N.ltb_lt|reflexivity].
  - exists (filter (fun r => f_lt (f32_of 72) (rs_size r)) (sa_styles a)). split; [|reflexivity]. apply (kept_iff _ (fun r => f_lt (f32_of 72) (rs_size r))); [|reflexivity]. intros r. assert (X : f32_of 72 = Fin (inject_Z 72)) by (vm_compute; reflexivity). rewrite X, lt_above. reflexivity.
  - apply score_exact.
Qed.
