(* What the linter should report.  Times, colours and visible text are those of
   parse_ass_time, the colour grammar and analyze_text. *)
From Verif Require Export LintModel StyleSpec EventsSpec TagSpec.

(* x or nothing *)
Definition when {A} (P : Prop) (x : A) (l : list A) : Prop := (P /\ l = [x]) \/ (~ P /\ l = []).
(* one after the other *)
Inductive in_turn {A B} (R : A -> list B -> Prop) : list A -> list B -> Prop :=
| turn_nil : in_turn R [] []
| turn_cons x a l r : R x a -> in_turn R l r -> in_turn R (x :: l) (a ++ r).
(* the members with a property, in order *)
Inductive kept {A} (P : A -> Prop) : list A -> list A -> Prop :=
| kept_nil : kept P [] []
| kept_in x l r : P x -> kept P l r -> kept P (x :: l) (x :: r)
| kept_out x l r : ~ P x -> kept P l r -> kept P (x :: l) r.

(* ---- the configuration ---- *)
Definition rule_on (c : lint_config) (id : string) : Prop := ~ In id (lc_disabled c) /\ (lc_enabled c = [] \/ In id (lc_enabled c)).
Definition severe_enough (c : lint_config) (i : lint_issue) : Prop :=
  match lc_min c, li_severity i with
  | LInfo, _ => True
  | LHint, LInfo => False
  | LHint, _ => True
  | LWarning, (LInfo | LHint) => False
  | LWarning, _ => True
  | LError, (LError | LCritical) => True
  | LError, _ => False
  | LCritical, LCritical => True
  | LCritical, _ => False
  end.
(* everything that the rules which are on report, rule by rule *)
Definition all_reports (c : lint_config) (rules : list (string * run (list lint_issue))) (l : list lint_issue) : Prop :=
  exists on, kept (fun r => rule_on c (fst r)) rules on /\
  in_turn (fun r part => exists found, snd r = Done found /\ kept (severe_enough c) found part) on l.

(* ---- the first section of a kind ---- *)
Definition script_events (sections : list section) (l : list event) : Prop :=
  (exists l1 l2, sections = l1 ++ SEvents l :: l2 /\ forall l', ~ In (SEvents l') l1) \/ (l = [] /\ forall l', ~ In (SEvents l') sections).
Definition script_info (sections : list section) (f : list (str * str)) : Prop :=
  (exists l1 c l2, sections = l1 ++ SInfo f c :: l2 /\ forall f' c', ~ In (SInfo f' c') l1) \/ (f = [] /\ forall f' c', ~ In (SInfo f' c') sections).

(* ---- the rules ---- *)
Definition times_are (e : event) (s t : N) : Prop := parse_ass_time (e_start e) = Ok s /\ parse_ass_time (e_end e) = Ok t.
Definition text_is (e : event) (ta : text_analysis) : Prop := analyze_text (e_text e) = Done (Some ta).
Definition overlap_report (events : list event) (p : nat * nat) (l : list lint_issue) : Prop :=
  exists a b, nth_error events (fst p) = Some a /\ nth_error events (snd p) = Some b /\
  l = [Lint LWarning Timing "timing-overlap" (Overlapping (e_start a) (e_end a) (e_start b) (e_end b))].
Definition overlap_reports (events : list event) (l : list lint_issue) : Prop :=
  (exists o, find_overlapping_events events = Ok o /\ in_turn (overlap_report events) o l) \/
  (find_overlapping_events events = Err /\ l = [Lint LWarning Timing "timing-overlap" OverlapsUnread]).
Definition times_safe (e : event) : Prop := parse_ass_time (e_start e) <> Panic /\ parse_ass_time (e_end e) <> Panic.
Definition text_safe (e : event) : Prop := exists o, analyze_text (e_text e) = Done o.
Definition duration_report (e : event) (l : list lint_issue) : Prop :=
  times_safe e /\ when (exists s t, times_are e s t /\ (t <= s)%N) (Lint LError Timing "negative-duration" (BadDuration (e_start e) (e_end e))) l.
(* a colour is spelled *)
Definition a_colour (s : str) : Prop :=
  exists d v, dressed (trim s) d /\ hex_numeral_plus d v /\ (List.length d = 6 \/ List.length d = 8).
Definition style_colour_report (s : style) (l : list lint_issue) : Prop :=
  in_turn (fun f : string * str => when (~ a_colour (snd f)) (Lint LError Styling "invalid-color" (BadStyleColour (fst f) (snd f))))
    [("primary"%string, s_primary s); ("secondary"%string, s_secondary s); ("outline"%string, s_outlinec s); ("back"%string, s_back s)] l.
(* the text between the backslashes of a tag *)
Definition between_backslashes (s : str) (parts : list str) : Prop := parts <> [] /\ Forall (fun p => ~ In 92%N p) parts /\ s = join [92%N] parts.
(* n is a colour tag with the hexadecimal value v in a part *)
Definition colour_tag (part n v : str) : Prop :=
  ~ In 38%N v /\ exists rest,
  (n = lit "c" /\ (part = lit "c&H" ++ v ++ lit "&" ++ rest \/ part = lit "c&h" ++ v ++ lit "&" ++ rest)) \/
  (exists d, In d [lit "1"; lit "2"; lit "3"; lit "4"] /\ n = d ++ lit "c" /\ part = n ++ lit "&H" ++ v ++ lit "&" ++ rest).
Definition part_report (part : str) (l : list lint_issue) : Prop :=
  (exists n v, colour_tag part n v /\ ~ a_colour (lit "&H" ++ v ++ lit "&") /\ l = [Lint LError Styling "invalid-color" (BadTagColour n v)]) \/
  ((forall n v, colour_tag part n v -> a_colour (lit "&H" ++ v ++ lit "&")) /\ l = []).
(* a part of several bytes that starts with a character of several bytes *)
Definition wide_part (part : str) : Prop := exists c r, part = c :: r /\ (128 <= c)%N /\ 3 <= blen part.
Definition tag_colour_report (t : tag) (l : list lint_issue) : Prop :=
  exists parts, between_backslashes (tg_name t ++ tg_args t) parts /\ Forall (fun p => ~ wide_part p) parts /\ in_turn part_report parts l.
Definition text_report (R : text_analysis -> list lint_issue -> Prop) (e : event) (l : list lint_issue) : Prop :=
  (exists ta, text_is e ta /\ R ta l) \/ (analyze_text (e_text e) = Done None /\ l = []).
Definition colour_reports (styles : list style) (events : list event) (l : list lint_issue) : Prop :=
  exists a b, in_turn style_colour_report styles a /\ in_turn (text_report (fun ta => in_turn tag_colour_report (ta_tags ta))) events b /\ l = a ++ b.
Definition style_report (names : list str) (e : event) : list lint_issue -> Prop :=
  when (~ In (e_style e) names) (Lint LError Styling "missing-style" (UndefinedStyle (e_style e))).
Definition diagnostic_report (ta : text_analysis) (l : list lint_issue) : Prop :=
  l = map (fun d => Lint LWarning Content "invalid-tag" (match dg_kind d with EmptyOverride => EmptyTag | MalformedTag => MalformedSyntax end)) (ta_diags ta).
Definition performance_reports (infos : list dialogue_info) (l : list lint_issue) : Prop :=
  exists a b, when (1000 < List.length infos) (Lint LHint Performance "performance" (ManyEvents (List.length infos))) a /\
  in_turn (fun d l => exists a b,
    when (500 < ta_chars (di_text d)) (Lint LHint Performance "performance" (VeryLongText (ta_chars (di_text d)))) a /\
    when (20 < List.length (ta_tags (di_text d))) (Lint LHint Performance "performance" (ManyTags (List.length (ta_tags (di_text d))))) b /\ l = a ++ b) infos b /\ l = a ++ b.
Definition control_char (c : char) : Prop := (c <= 31 \/ 127 <= c <= 159)%N.
Definition event_encoding_report (e : event) (l : list lint_issue) : Prop :=
  exists a b c, when (exists x, In x (e_text e) /\ control_char x /\ x <> 9 /\ x <> 10 /\ x <> 13)%N (Lint LWarning Encoding "encoding" ControlCharacters) a /\
  when (In 65533%N (e_text e)) (Lint LWarning Encoding "encoding" ReplacementCharacter) b /\
  when (3 * List.length (e_text e) < blen (e_text e)) (Lint LHint Encoding "encoding" ManyBytes) c /\ l = a ++ b ++ c.
Definition info_encoding_report (kv : str * str) : list lint_issue -> Prop :=
  when (exists x, In x (snd kv) /\ control_char x /\ x <> 10 /\ x <> 13)%N (Lint LWarning Encoding "encoding" (InfoControl (fst kv))).
Definition encoding_reports (events : list event) (info : list (str * str)) (l : list lint_issue) : Prop :=
  exists a b, in_turn event_encoding_report events a /\ in_turn info_encoding_report info b /\ l = a ++ b.
(* more than twenty visible characters a second; texts count as 10000 characters at most *)
Definition too_fast (chars : nat) (d : N) : Prop := (0 < d /\ d < 5 * N.min (N.of_nat chars) 10000)%N.
Definition speed (chars : nat) (d : N) : float := f_div f64 (f_of_N f64 (N.min (N.of_nat chars) 10000)) (f_div f64 (f_of_N f64 d) (f_of_N f64 100)).
Definition accessibility_report (e : event) (l : list lint_issue) : Prop :=
  times_safe e /\ text_safe e /\ exists a b c,
  ((exists s t, times_are e s t /\ (s <= t < s + 500)%N /\ a = [Lint LHint Accessibility "accessibility" (ShortEvent (t - s))]) \/
   ((forall s t, times_are e s t -> ~ (s <= t < s + 500)%N) /\ a = [])) /\
  ((exists s t ta, times_are e s t /\ text_is e ta /\ too_fast (ta_chars ta) (t - s) /\ b = [Lint LHint Accessibility "accessibility" (FastReading (speed (ta_chars ta) (t - s)))]) \/
   ((forall s t ta, times_are e s t -> text_is e ta -> ~ too_fast (ta_chars ta) (t - s)) /\ b = [])) /\
  ((exists ta, text_is e ta /\ 200 < ta_chars ta /\ c = [Lint LHint Accessibility "accessibility" (LongText (ta_chars ta))]) \/
   ((forall ta, text_is e ta -> ta_chars ta <= 200) /\ c = [])) /\ l = a ++ b ++ c.

(* at most so many; 0 is no limit *)
Definition limited (c : lint_config) (l : list lint_issue) : list lint_issue := match lc_max c with 0 => l | n => firstn n l end.
(* a list of rules gives l: everything is reported, or the limit is reached
   before the rest *)
Definition lints (c : lint_config) (rules : list (string * run (list lint_issue))) (l : list lint_issue) : Prop :=
  exists pre post found, rules = pre ++ post /\ all_reports c pre found /\ (post = [] \/ 0 < lc_max c <= List.length found) /\ l = limited c found.
(* the dialogue information of an event *)
Definition info_report (e : event) (l : list dialogue_info) : Prop :=
  (exists d, analyze e = Done (Some d) /\ l = [d]) \/ (analyze e = Done None /\ l = []).
(* ---- the performance summary ---- *)
Definition event_penalty : list (N * N) := [(500, 10); (1000, 10)]%N.
Definition overlap_penalty : list (N * N) := [(20, 8); (50, 7)]%N.
Definition animation_penalty : list (N * N) := [(50, 5); (100, 5)]%N.
Definition font_penalty : list (N * N) := [(10, 5)]%N.
(* each pair of events shown together, once *)
Definition shown_together (infos : list dialogue_info) (pairs : list (nat * nat)) : Prop :=
  NoDup pairs /\ (forall i j, In (i, j) pairs -> ~ In (j, i) pairs) /\ forall i j, In (i, j) pairs \/ In (j, i) pairs <-> i <> j /\ common_instant (map range_of infos) i j.
Record summary_of (styles : list resolved) (infos : list dialogue_info) (p : performance_summary) : Prop := {
  sm_events : pf_events p = List.length infos;
  sm_overlaps : exists pairs, shown_together infos pairs /\ pf_overlaps p = List.length pairs;
  sm_animations : exists hard, kept (fun d => 3 < di_animation d)%N infos hard /\ pf_animations p = List.length hard;
  sm_fonts : exists big, kept (fun r => above (rs_size r) 72 = true) styles big /\ pf_fonts p = List.length big;
  sm_score : (pf_score p + points_above event_penalty (N.of_nat (pf_events p)) + points_above overlap_penalty (N.of_nat (pf_overlaps p)) +
    points_above animation_penalty (N.of_nat (pf_animations p)) + points_above font_penalty (N.of_nat (pf_fonts p)) = 100)%N }.
(* what is advised: the first that applies *)
Definition advises (p : performance_summary) (o : option advice) : Prop :=
  match o with
  | Some FewerOverlaps => 10 < pf_overlaps p
  | Some FewerAnimations => pf_overlaps p <= 10 /\ 20 < pf_animations p
  | Some SmallerFonts => pf_overlaps p <= 10 /\ pf_animations p <= 20 /\ 5 < pf_fonts p
  | Some SplitScript => pf_overlaps p <= 10 /\ pf_animations p <= 20 /\ pf_fonts p <= 5 /\ 1000 < pf_events p
  | None => pf_overlaps p <= 10 /\ pf_animations p <= 20 /\ pf_fonts p <= 5 /\ pf_events p <= 1000
  end.
