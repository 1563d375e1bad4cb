From Verif Require Import LintSpec LintProofs LintRunProofs StyleProps EventsProps StyleResolveProofs EventsProofs.
Import ListNotations.

(* ---- C29: the runner ---- *)
(* Issues come rule by rule, from the rules that are on, as severe as asked for,
   and cut at the limit; rules after the limit are not run. *)
Theorem lint_runner_exact : forall a c l, lint_script_with_analysis a c = Done l <-> lints c (builtin_rules a) l.
Proof. intros a c l. apply lints_iff. Qed.
Print Assumptions lint_runner_exact.
Theorem lint_runner_exact_any : forall rules c l, run_rules c rules [] = Done l <-> lints c rules l.
Proof. intros rules c l. apply lints_iff. Qed.
Print Assumptions lint_runner_exact_any.
Theorem lint_respects_config : forall sections c l i, lint_script sections c = Done l -> In i l ->
  severe_enough c i /\ rule_on c (li_rule i) /\ (lc_max c = 0 \/ List.length l <= lc_max c).
Proof.
  intros sections c l i H I. unfold lint_script in H. destruct (prepare sections) as [a| |] eqn:P; try discriminate. cbn [bind] in H. apply lint_runner_exact in H as (pre & post & found & E & A & _ & ->).
  assert (R : forall id r, In (id, r) pre -> In (id, r) (builtin_rules a)) by (intros id r Ir; rewrite E; apply in_or_app; now left).
  assert (J : In i found). { unfold limited in I. destruct (lc_max c); [exact I|]. rewrite <- (firstn_skipn (S n) found). apply in_or_app. now left. }
  destruct (reports_told a c pre found R A i J) as (id & f & If & On & Ii & S). split; [exact S|]. split; [now rewrite (rule_tells a id f i (R id _ If) Ii)|].
  unfold limited. destruct (lc_max c) as [|n]; [now left|right]. apply firstn_le_length.
Qed.
Print Assumptions lint_respects_config.
(* Linting runs on every script, to the end or into a panic. *)
Theorem lint_ends : forall sections c, lint_script sections c = Crash \/ exists l, lint_script sections c = Done l.
Proof. intros sections c. pose proof (lint_runs sections c) as H. destruct (lint_script sections c) as [l| |]; [right; eauto|now left|congruence]. Qed.
Print Assumptions lint_ends.
(* No rule calls anything critical. *)
Theorem never_critical : forall sections c l i, lint_script sections c = Done l -> In i l -> li_severity i <> LCritical.
Proof.
  intros sections c l i H I. unfold lint_script in H. destruct (prepare sections) as [a| |] eqn:P; try discriminate. cbn [bind] in H. apply lint_runner_exact in H as (pre & post & found & E & A & _ & ->).
  assert (R : forall id r, In (id, r) pre -> In (id, r) (builtin_rules a)) by (intros id r Ir; rewrite E; apply in_or_app; now left).
  assert (J : In i found). { unfold limited in I. destruct (lc_max c); [exact I|]. rewrite <- (firstn_skipn (S n) found). apply in_or_app. now left. }
  destruct (reports_told a c pre found R A i J) as (id & f & If & _ & Ii & _). pose proof (rule_told a id f (R id _ If)) as F. rewrite Forall_forall in F. apply (F i Ii).
Qed.
Print Assumptions never_critical.
(* Analysing a script lints it with the default configuration. *)
Theorem analysis_lints : forall sections strict l, (exists a, analyze_script sections strict = Done (a, l)) <-> lint_script sections default_lint = Done l.
Proof.
  intros sections strict l. unfold analyze_script, lint_script. destruct (prepare sections) as [a| |]; cbn [bind]; [|split; [intros [? ?]; discriminate|discriminate]..].
  assert (E : forall rules acc, run_rules (LintConfig (lc_min default_lint) (lc_max default_lint) strict (lc_enabled default_lint) (lc_disabled default_lint)) rules acc = run_rules default_lint rules acc).
  { induction rules as [|[id r] rules IH]; intros acc; cbn [run_rules]; [reflexivity|]. change (is_rule_enabled (LintConfig (lc_min default_lint) (lc_max default_lint) strict (lc_enabled default_lint) (lc_disabled default_lint)) id) with (is_rule_enabled default_lint id). destruct (is_rule_enabled default_lint id); [|apply IH]. destruct r; cbn [bind]; [|reflexivity..]. cbn [lc_max default_lint]. change (Nat.ltb 0 0) with false. cbn [andb]. apply IH. }
  rewrite E. unfold lint_script_with_analysis. destruct (run_rules default_lint (builtin_rules a) []) as [r| |]; cbn [bind]; [|split; [intros [? ?]; discriminate|discriminate]..].
  split; [intros [a' [= _ <-]]; reflexivity|]. intros [= <-]. eauto.
Qed.
Print Assumptions analysis_lints.
Theorem no_critical_issues : forall sections strict a l, analyze_script sections strict = Done (a, l) -> has_critical_issues l = false.
Proof.
  intros sections strict a l H. assert (L : lint_script sections default_lint = Done l) by (apply (analysis_lints sections strict); eauto). apply not_true_iff_false. intros C. unfold has_critical_issues in C. apply existsb_exists in C as (i & I & S). pose proof (never_critical _ _ _ _ L I). destruct (li_severity i); congruence.
Qed.
Print Assumptions no_critical_issues.

(* ---- C70: the rules ---- *)
Theorem prepared : forall sections a, prepare sections = Done a -> sa_sections a = sections /\
  (exists s, analyze_styles default_config sections = Done s /\ sa_styles a = map snd (an_resolved s)) /\
  forall events, script_events sections events -> in_turn info_report events (sa_infos a).
Proof. intros sections a H. apply prepare_iff in H as (A & B & C). split; [exact A|]. split; [exact B|]. intros events E. apply events_of_spec in E. now subst. Qed.
Print Assumptions prepared.
Theorem overlap_rule_exact : forall a events r l, script_events (sa_sections a) events -> In ("timing-overlap"%string, r) (builtin_rules a) -> r = Done l <-> overlap_reports events l.
Proof. intros a events r l E. apply events_of_spec in E as ->. intros [[= <-]|[D|[D|[D|[D|[D|[D|[D|[]]]]]]]]]; try discriminate. apply overlap_iff. Qed.
Print Assumptions overlap_rule_exact.
Theorem duration_rule_exact : forall a events r l, script_events (sa_sections a) events -> In ("negative-duration"%string, r) (builtin_rules a) -> r = Done l <-> in_turn duration_report events l.
Proof. intros a events r l E. apply events_of_spec in E as ->. intros [D|[[= <-]|[D|[D|[D|[D|[D|[D|[]]]]]]]]]; try discriminate. apply duration_iff. Qed.
Print Assumptions duration_rule_exact.
Theorem colour_rule_exact : forall a styles events r l, script_styles (sa_sections a) styles -> script_events (sa_sections a) events -> In ("invalid-color"%string, r) (builtin_rules a) -> r = Done l <-> colour_reports styles events l.
Proof. intros a styles events r l S E. apply events_of_spec in E as ->. apply styles_of_spec in S as ->. intros [D|[D|[[= <-]|[D|[D|[D|[D|[D|[]]]]]]]]]; try discriminate. apply colours_iff. Qed.
Print Assumptions colour_rule_exact.
Theorem missing_style_rule_exact : forall a events r l, script_events (sa_sections a) events -> In ("missing-style"%string, r) (builtin_rules a) -> r = Done l <-> in_turn (style_report (map rs_name (sa_styles a))) events l.
Proof. intros a events r l E. apply events_of_spec in E as ->. intros [D|[D|[D|[[= <-]|[D|[D|[D|[D|[]]]]]]]]]; try discriminate. apply missing_iff. Qed.
Print Assumptions missing_style_rule_exact.
Theorem tag_rule_exact : forall a events r l, script_events (sa_sections a) events -> In ("invalid-tag"%string, r) (builtin_rules a) -> r = Done l <-> in_turn (text_report diagnostic_report) events l.
Proof. intros a events r l E. apply events_of_spec in E as ->. intros [D|[D|[D|[D|[[= <-]|[D|[D|[D|[]]]]]]]]]; try discriminate. apply diagnostics_iff. Qed.
Print Assumptions tag_rule_exact.
Theorem performance_rule_exact : forall a r l, In ("performance"%string, r) (builtin_rules a) -> r = Done l <-> performance_reports (sa_infos a) l.
Proof. intros a r l. intros [D|[D|[D|[D|[D|[[= <-]|[D|[D|[]]]]]]]]]; try discriminate. rewrite <- performance_iff. split; [now intros [= <-]|now intros ->]. Qed.
Print Assumptions performance_rule_exact.
Theorem encoding_rule_exact : forall a events info r l, script_events (sa_sections a) events -> script_info (sa_sections a) info -> In ("encoding"%string, r) (builtin_rules a) -> r = Done l <-> encoding_reports events info l.
Proof. intros a events info r l E S. apply events_of_spec in E as ->. apply info_of_spec in S as ->. intros [D|[D|[D|[D|[D|[D|[[= <-]|[D|[]]]]]]]]]; try discriminate. rewrite <- encoding_iff. split; [now intros [= <-]|now intros ->]. Qed.
Print Assumptions encoding_rule_exact.
Theorem accessibility_rule_exact : forall a events r l, script_events (sa_sections a) events -> In ("accessibility"%string, r) (builtin_rules a) -> r = Done l <-> in_turn accessibility_report events l.
Proof. intros a events r l E. apply events_of_spec in E as ->. intros [D|[D|[D|[D|[D|[D|[D|[[= <-]|[]]]]]]]]]; try discriminate. apply accessibility_iff. Qed.
Print Assumptions accessibility_rule_exact.
(* the rules there are, each in its place, and what they may use *)
Theorem rule_list : forall a, map fst (builtin_rules a) = ["timing-overlap"; "negative-duration"; "invalid-color"; "missing-style"; "invalid-tag"; "performance"; "encoding"; "accessibility"]%string.
Proof. reflexivity. Qed.
Print Assumptions rule_list.
(* A style is taken as defined when one of that name can be read. *)
Theorem missing_style_meaning : forall sections a styles n, prepare sections = Done a -> script_styles sections styles ->
  In n (map rs_name (sa_styles a)) <-> exists s r, In s styles /\ s_name s = n /\ from_style s = Ok r.
Proof. exact known_styles. Qed.
Print Assumptions missing_style_meaning.
Definition line (s e st t : string) : event := Event Dialogue [] (lit s) (lit e) (lit st) [] [] [] [] None None [] (lit t) (Span 0 0 0 0).
Definition issue_list (sections : list section) (c : lint_config) : list (lint_severity * string * finding) :=
  match lint_script sections c with Done l => map (fun i => (li_severity i, li_rule i, li_finding i)) l | _ => [] end.
Definition bad_script : list section :=
  [SInfo [(lit "Title", [7]%N)] (Span 0 0 0 0); SStyles [plain "A" None "50" "&H102030"; plain "B" None "50" "blue"];
   SEvents [line "0:00:05.00" "0:00:02.00" "C" "{\c&H12&}x"; line "0:00:05.00" "0:00:08.99" "A" "{}y"]].
Example lint_instance : issue_list bad_script default_lint =
  [(LWarning, "timing-overlap"%string, Overlapping (lit "0:00:05.00") (lit "0:00:02.00") (lit "0:00:05.00") (lit "0:00:08.99"));
   (LError, "negative-duration"%string, BadDuration (lit "0:00:05.00") (lit "0:00:02.00"));
   (LError, "invalid-color"%string, BadStyleColour "back" []);
   (LError, "invalid-color"%string, BadStyleColour "primary" (lit "blue"));
   (LError, "invalid-color"%string, BadStyleColour "back" []);
   (LError, "invalid-color"%string, BadTagColour (lit "c") (lit "12"));
   (LError, "missing-style"%string, UndefinedStyle (lit "C"));
   (LWarning, "invalid-tag"%string, EmptyTag);
   (LWarning, "encoding"%string, InfoControl (lit "Title"));
   (LHint, "accessibility"%string, ShortEvent 399)].
Proof. vm_compute. reflexivity. Qed.
Example lint_config_instance : issue_list bad_script (LintConfig LWarning 2 false [] ["invalid-color"; "timing-overlap"]%string) =
  [(LError, "negative-duration"%string, BadDuration (lit "0:00:05.00") (lit "0:00:02.00"));
   (LError, "missing-style"%string, UndefinedStyle (lit "C"))].
Proof. vm_compute. reflexivity. Qed.
(* A tag whose text can be analysed makes the colour rule panic, and with it
   lint_script and the analysis of the script. *)
Theorem lint_panics_refuted : exists sections c, Forall (fun e => times_safe e /\ text_safe e) (events_of sections) /\
  (exists a, prepare sections = Done a) /\ lint_script sections c = Crash /\ analyze_script sections false = Crash.
Proof.
  exists [SEvents [Event Dialogue [] (lit "0:00:05.00") (lit "0:00:12.00") (lit "A") [] [] [] [] None None [] (lit "{\t(\" ++ [233]%N ++ lit ")}") (Span 0 0 0 0)]], default_lint.
  split; [constructor; [|constructor]; split; [split; vm_compute; discriminate|vm_compute; eauto]|]. split; [vm_compute; eauto|]. split; vm_compute; reflexivity.
Qed.
Print Assumptions lint_panics_refuted.
(* Centiseconds are compared with the 500 ms of a short event: 4.99 s is "short". *)
Theorem short_event_refuted : exists e s t, times_are e s t /\ (t - s = 499)%N /\ forall l, check_accessibility [SEvents [e]] = Done l -> In (Lint LHint Accessibility "accessibility" (ShortEvent (t - s))) l.
Proof.
  exists (line "0:00:01.00" "0:00:05.99" "A" "x"), 100%N, 599%N. split; [split; vm_compute; reflexivity|]. split; [reflexivity|]. intros l H. vm_compute in H. injection H as <-. left. reflexivity.
Qed.
Print Assumptions short_event_refuted.
(* A style that is defined is reported as undefined when a field cannot be read. *)
Theorem defined_style_refuted : exists sections a l, prepare sections = Done a /\ defined (styles_of sections) (lit "B") /\ check_styles (map rs_name (sa_styles a)) sections = Done l /\ In (Lint LError Styling "missing-style" (UndefinedStyle (lit "B"))) l.
Proof.
  exists [SStyles [plain "B" None "50" "blue"]; SEvents [line "0:00:01.00" "0:00:05.99" "B" "x"]]. eexists. eexists. split; [vm_compute; reflexivity|]. split; [eexists; split; [left; reflexivity|reflexivity]|]. split; [vm_compute; reflexivity|]. now left.
Qed.
Print Assumptions defined_style_refuted.
(* Only the first events section is looked at. *)
Theorem later_sections_unlinted : forall sections c events more, lint_script (sections ++ [SEvents events]) c = lint_script (sections ++ [SEvents events; SEvents more]) c.
Proof.
  intros sections c events more. assert (E : forall m, events_of (sections ++ SEvents events :: m) = events_of (sections ++ [SEvents events])).
  { clear. intros m. unfold events_of. induction sections as [|s l IH]; [reflexivity|]. destruct s; cbn [app find]; auto. }
  assert (S : styles_of (sections ++ [SEvents events; SEvents more]) = styles_of (sections ++ [SEvents events])).
  { clear. unfold styles_of. induction sections as [|s l IH]; [reflexivity|]. destruct s; cbn [app find]; auto. }
  assert (F : forall m, find (fun s => match s with SInfo _ _ => true | _ => false end) (sections ++ m) = match find (fun s => match s with SInfo _ _ => true | _ => false end) sections with Some x => Some x | None => find (fun s => match s with SInfo _ _ => true | _ => false end) m end).
  { clear. intros m. induction sections as [|s l IH]; [reflexivity|]. destruct s; cbn [app find]; auto. }
  assert (G : forall m, extract_styles (sections ++ m) = match extract_styles sections with Some x => Some x | None => extract_styles m end).
  { clear. intros m. unfold extract_styles. induction sections as [|s l IH]; [reflexivity|]. destruct s; cbn [app find]; auto. }
  assert (A : analyze_styles default_config (sections ++ [SEvents events; SEvents more]) = analyze_styles default_config (sections ++ [SEvents events])).
  { unfold analyze_styles, resolution_scaling. rewrite !F, !G. reflexivity. }
  assert (I : info_of (sections ++ [SEvents events; SEvents more]) = info_of (sections ++ [SEvents events])) by (unfold info_of; rewrite !F; reflexivity).
  assert (B : forall st i, builtin_rules (ScriptAnalysis (sections ++ [SEvents events]) st i) = builtin_rules (ScriptAnalysis (sections ++ [SEvents events; SEvents more]) st i)).
  { intros st i. unfold builtin_rules, check_overlap, check_duration, check_colors, check_styles, check_diagnostics, check_encoding, check_accessibility. cbn [sa_sections sa_styles sa_infos]. rewrite (E [SEvents more]), S, I. reflexivity. }
  unfold lint_script, prepare, analyze_events. rewrite <- A, (E [SEvents more]). destruct (each _ _) as [i| |]; cbn [bind]; try reflexivity. destruct (analyze_styles _ _) as [s| |]; cbn [bind]; try reflexivity.
  unfold lint_script_with_analysis. rewrite B. reflexivity.
Qed.
Print Assumptions later_sections_unlinted.

(* ---- C71: the performance summary ---- *)
Theorem performance_summary_exact : forall sections a, prepare sections = Done a -> exists p, summarize a = Done p /\ summary_of (sa_styles a) (sa_infos a) p.
Proof. exact summary_exact. Qed.
Print Assumptions performance_summary_exact.
Theorem performance_score_bounded : forall styles infos p, summary_of styles infos p -> (50 <= pf_score p <= 100)%N.
Proof.
  intros styles infos p H. pose proof (sm_score _ _ _ H) as S. assert (B : forall t n, (points_above t n <= fold_right N.add 0 (map snd t))%N).
  { intros t n. unfold points_above. induction t as [|[k x] t IH]; cbn [filter map fst snd fold_right]; [lia|]. destruct (k <? n)%N; cbn [map snd fold_right]; lia. }
  pose proof (B event_penalty (N.of_nat (pf_events p))) as B1. pose proof (B overlap_penalty (N.of_nat (pf_overlaps p))) as B2. pose proof (B animation_penalty (N.of_nat (pf_animations p))) as B3. pose proof (B font_penalty (N.of_nat (pf_fonts p))) as B4.
  change (fold_right N.add 0%N (map snd event_penalty)) with 20%N in B1. change (fold_right N.add 0%N (map snd overlap_penalty)) with 15%N in B2. change (fold_right N.add 0%N (map snd animation_penalty)) with 10%N in B3. change (fold_right N.add 0%N (map snd font_penalty)) with 5%N in B4. lia.
Qed.
Print Assumptions performance_score_bounded.
Theorem advice_exact : forall p o, recommendation p = o <-> advises p o.
Proof.
  intros p o. unfold recommendation, advises. destruct (Nat.ltb_spec 10 (pf_overlaps p)), (Nat.ltb_spec 20 (pf_animations p)), (Nat.ltb_spec 5 (pf_fonts p)), (Nat.ltb_spec 1000 (pf_events p));
  (destruct o as [[]|]; split; intros H'; try discriminate; try reflexivity; try lia; exfalso; lia).
Qed.
Print Assumptions advice_exact.
Theorem performance_issues_exact : forall p, has_performance_issues p = true <-> (pf_score p < 80)%N.
Proof. intros p. apply N.ltb_lt. Qed.
Print Assumptions performance_issues_exact.
Definition busy : list section := [SEvents (map (fun _ => line "0:00:01.00" "0:00:05.99" "B" "x") (seq 0 8))].
Example performance_instance : exists a p, prepare busy = Done a /\ summarize a = Done p /\ pf_events p = 8 /\ pf_overlaps p = 28 /\ pf_score p = 92%N /\ recommendation p = Some FewerOverlaps /\ has_performance_issues p = false.
Proof.
  set (a0 := match prepare busy with Done a => a | _ => ScriptAnalysis [] [] [] end). vm_compute in a0. set (p0 := match summarize a0 with Done p => p | _ => Summary 0 0 0 0 0 end). vm_compute in p0. exists a0, p0. vm_compute. repeat split.
Qed.
