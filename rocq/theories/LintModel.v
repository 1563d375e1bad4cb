(* The linter: ass-core analysis/linting/, analysis/construction.rs and
   analysis/queries.rs.  Descriptions and suggested fixes of issues are constant
   texts and are left out; messages are kept as what they report. No rule gives
   an issue a location. *)
From Verif Require Export Base ParseModel TagModel EventsModel FloatModel StyleModel Utf8Model ColorModel TimeModel.

(* severity.rs:9-21, category.rs:9-25 *)
Inductive lint_severity := LInfo | LHint | LWarning | LError | LCritical.
Inductive lint_category := Timing | Styling | Content | Performance | Compliance | Accessibility | Encoding.
Definition severity_rank (s : lint_severity) : nat := match s with LInfo => 0 | LHint => 1 | LWarning => 2 | LError => 3 | LCritical => 4 end.
Inductive finding :=
| Overlapping (start1 end1 start2 end2 : str) | OverlapsUnread
| BadDuration (start stop : str)
| BadStyleColour (field : string) (value : str) | BadTagColour (tag value : str)
| UndefinedStyle (name : str)
| EmptyTag | MalformedSyntax
| ManyEvents (n : nat) | VeryLongText (n : nat) | ManyTags (n : nat)
| ControlCharacters | ReplacementCharacter | ManyBytes | InfoControl (key : str)
| ShortEvent (duration : N) | FastReading (speed : float) | LongText (n : nat).
(* issue.rs:26-42 *)
Record lint_issue := Lint { li_severity : lint_severity; li_category : lint_category; li_rule : string; li_finding : finding }.

Definition events_of (sections : list section) : list event :=
  match find (fun s => match s with SEvents _ => true | _ => false end) sections with Some (SEvents l) => l | _ => [] end.
Definition styles_of (sections : list section) : list style :=
  match find (fun s => match s with SStyles _ => true | _ => false end) sections with Some (SStyles l) => l | _ => [] end.
Definition info_of (sections : list section) : list (str * str) :=
  match find (fun s => match s with SInfo _ _ => true | _ => false end) sections with Some (SInfo f _) => f | _ => [] end.
Fixpoint each {A B} (f : A -> run (list B)) (l : list A) : run (list B) :=
  match l with
  | [] => Done []
  | x :: r => a <- f x ;; b <- each f r ;; Done (a ++ b)
  end.

(* rules/timing_overlap.rs:71-112 *)
Definition overlap_issue (f : finding) : lint_issue := Lint LWarning Timing "timing-overlap" f.
Definition check_overlap (sections : list section) : run (list lint_issue) :=
  let events := events_of sections in
  match find_overlapping_events events with
  | Ok o => each (fun p : nat * nat =>
      a <- or_crash (nth_error events (fst p)) ;;
      b <- or_crash (nth_error events (snd p)) ;;
      Done [overlap_issue (Overlapping (e_start a) (e_end a) (e_start b) (e_end b))]) o
  | Err => Done [overlap_issue OverlapsUnread]
  | Panic => Crash
  end.
(* a pair of times; None when either fails.  Both are parsed before the match. *)
Definition both_times (e : event) : run (option (N * N)) :=
  match parse_ass_time (e_start e), parse_ass_time (e_end e) with
  | Panic, _ | _, Panic => Crash
  | Ok s, Ok t => Done (Some (s, t))
  | _, _ => Done None
  end.
(* rules/negative_duration.rs:70-104 *)
Definition check_duration (sections : list section) : run (list lint_issue) :=
  each (fun e =>
    t <- both_times e ;;
    Done (match t with
    | Some (s, t) => if (t <=? s)%N then [Lint LError Timing "negative-duration" (BadDuration (e_start e) (e_end e))] else []
    | None => []
    end)) (events_of sections).
(* rules/invalid_color/rule.rs:115-125 *)
Definition colour_issue (f : finding) : lint_issue := Lint LError Styling "invalid-color" f.
Definition check_style_color (field : string) (v : str) : run (list lint_issue) :=
  match parse_bgr_color v with
  | Ok _ => Done []
  | Err => Done [colour_issue (BadStyleColour field v)]
  | Panic => Crash
  end.
Fixpoint up_to_amp (s : str) : option str :=
  match s with
  | [] => None
  | c :: r => if (c =? 38)%N then Some [] else match up_to_amp r with Some x => Some (c :: x) | None => None end
  end.
(* rules/invalid_color/rule.rs:149-170 *)
Definition parse_color_tag (part : str) : run (option (str * str)) :=
  if starts_with (lit "c&H") part || starts_with (lit "c&h") part then
    Done (match strip_prefix (lit "c&H") part with
    | Some x => option_map (pair (lit "c")) (up_to_amp x)
    | None => match strip_prefix (lit "c&h") part with Some x => option_map (pair (lit "c")) (up_to_amp x) | None => None end
    end)
  else if Nat.leb 3 (blen part) then
    p <- or_crash (cut part 1) ;;
    let (first, rest) := (p : str * str) in
    if one_of ["1"; "2"; "3"; "4"]%string first && starts_with (lit "c&H") rest then
      Done (match strip_prefix (lit "c&H") rest with Some x => option_map (pair (first ++ lit "c")) (up_to_amp x) | None => None end)
    else Done None
  else Done None.
(* 128-146 *)
Definition check_tag_part (part : str) : run (list lint_issue) :=
  match part with
  | [] => Done []
  | _ =>
    t <- parse_color_tag part ;;
    match t with
    | None => Done []
    | Some (name, v) =>
      match parse_bgr_color (lit "&H" ++ v ++ lit "&") with
      | Ok _ => Done []
      | Err => Done [colour_issue (BadTagColour name v)]
      | Panic => Crash
      end
    end
  end.
Definition check_tags (span : str) : run (list lint_issue) := each check_tag_part (tl (split_on is_bs span)).
(* 75-110 *)
Definition check_colors (sections : list section) : run (list lint_issue) :=
  a <- each (fun s =>
    p <- check_style_color "primary" (s_primary s) ;;
    q <- check_style_color "secondary" (s_secondary s) ;;
    r <- check_style_color "outline" (s_outlinec s) ;;
    t <- check_style_color "back" (s_back s) ;;
    Done (p ++ q ++ r ++ t)) (styles_of sections) ;;
  b <- each (fun e =>
    o <- analyze_text (e_text e) ;;
    match o with
    | None => Done []
    | Some ta => each (fun t => check_tags (bslash :: tg_name t ++ tg_args t)) (ta_tags ta)
    end) (events_of sections) ;;
  Done (a ++ b).
(* rules/missing_style/rule.rs:73-107 *)
Definition check_styles (names : list str) (sections : list section) : run (list lint_issue) :=
  each (fun e => Done (if memb (e_style e) names then [] else [Lint LError Styling "missing-style" (UndefinedStyle (e_style e))])) (events_of sections).
(* rules/invalid_tag/rule.rs:75-111; no plugin, so no unknown tags *)
Definition diag_finding (d : tag_diag) : finding := match dg_kind d with EmptyOverride => EmptyTag | MalformedTag => MalformedSyntax end.
Definition check_diagnostics (sections : list section) : run (list lint_issue) :=
  each (fun e =>
    o <- analyze_text (e_text e) ;;
    Done (match o with
    | None => []
    | Some ta => map (fun d => Lint LWarning Content "invalid-tag" (diag_finding d)) (ta_diags ta)
    end)) (events_of sections).
(* rules/performance/rule.rs:71-146 *)
Definition performance_issue (f : finding) : lint_issue := Lint LHint Performance "performance" f.
Definition check_performance (infos : list dialogue_info) : list lint_issue :=
  (if Nat.ltb 1000 (List.length infos) then [performance_issue (ManyEvents (List.length infos))] else []) ++
  flat_map (fun d =>
    (if Nat.ltb 500 (ta_chars (di_text d)) then [performance_issue (VeryLongText (ta_chars (di_text d)))] else []) ++
    (if Nat.ltb 20 (List.length (ta_tags (di_text d))) then [performance_issue (ManyTags (List.length (ta_tags (di_text d))))] else [])) infos.
(* rules/encoding/rule.rs:72-173 *)
Definition encoding_issue (s : lint_severity) (f : finding) : lint_issue := Lint s Encoding "encoding" f.
Definition check_encoding (sections : list section) : list lint_issue :=
  flat_map (fun e =>
    (if existsb (fun c => is_control c && negb (c =? 10)%N && negb (c =? 13)%N && negb (c =? 9)%N) (e_text e) then [encoding_issue LWarning ControlCharacters] else []) ++
    (if existsb (N.eqb 65533) (e_text e) then [encoding_issue LWarning ReplacementCharacter] else []) ++
    (if Nat.ltb 0 (List.length (e_text e)) && Nat.ltb (List.length (e_text e) * 3) (blen (e_text e)) then [encoding_issue LHint ManyBytes] else [])) (events_of sections) ++
  flat_map (fun kv : str * str => if existsb (fun c => is_control c && negb (c =? 10)%N && negb (c =? 13)%N) (snd kv) then [encoding_issue LWarning (InfoControl (fst kv))] else []) (info_of sections).
(* rules/accessibility/rule.rs:98-118 *)
Definition access_issue (f : finding) : lint_issue := Lint LHint Accessibility "accessibility" f.
Definition check_event_duration (e : event) : run (list lint_issue) :=
  t <- both_times e ;;
  Done (match t with
  | Some (s, t) => if (s <=? t)%N && (t - s <? 500)%N then [access_issue (ShortEvent (t - s))] else []
  | None => []
  end).
(* 121-159 *)
Definition reading_speed (chars : nat) (d : N) : float :=
  f_div f64 (f_of_N f64 (N.min (if (N.of_nat chars <=? u32_max)%N then N.of_nat chars else 10000) 10000)) (f_div f64 (f_of_N f64 d) (f_of_N f64 100)).
Definition check_reading_speed (e : event) : run (list lint_issue) :=
  t <- both_times e ;;
  match t with
  | Some (s, t) =>
    if (s <=? t)%N then
      o <- analyze_text (e_text e) ;;
      Done (match o with
      | Some ta =>
        if Nat.ltb 0 (ta_chars ta) && (0 <? t - s)%N && f_lt (f_of_N f64 20) (reading_speed (ta_chars ta) (t - s))
        then [access_issue (FastReading (reading_speed (ta_chars ta) (t - s)))] else []
      | None => []
      end)
    else Done []
  | None => Done []
  end.
(* 162-179 *)
Definition check_text_length (e : event) : run (list lint_issue) :=
  o <- analyze_text (e_text e) ;;
  Done (match o with
  | Some ta => if Nat.ltb 200 (ta_chars ta) then [access_issue (LongText (ta_chars ta))] else []
  | None => []
  end).
(* 76-93 *)
Definition check_accessibility (sections : list section) : run (list lint_issue) :=
  each (fun e =>
    a <- check_event_duration e ;;
    b <- check_reading_speed e ;;
    c <- check_text_length e ;;
    Done (a ++ b ++ c)) (events_of sections).

(* ---- the runner ---- *)
(* analysis/mod.rs:96-115 *)
Record script_analysis := ScriptAnalysis { sa_sections : list section; sa_styles : list resolved; sa_infos : list dialogue_info }.
(* rules/builtin.rs:53-64, with the identifiers *)
Definition builtin_rules (a : script_analysis) : list (string * run (list lint_issue)) :=
  [("timing-overlap"%string, check_overlap (sa_sections a));
   ("negative-duration"%string, check_duration (sa_sections a));
   ("invalid-color"%string, check_colors (sa_sections a));
   ("missing-style"%string, check_styles (map rs_name (sa_styles a)) (sa_sections a));
   ("invalid-tag"%string, check_diagnostics (sa_sections a));
   ("performance"%string, Done (check_performance (sa_infos a)));
   ("encoding"%string, Done (check_encoding (sa_sections a)));
   ("accessibility"%string, check_accessibility (sa_sections a))].
(* config.rs:11-22 *)
Record lint_config := LintConfig { lc_min : lint_severity; lc_max : nat; lc_strict : bool; lc_enabled : list string; lc_disabled : list string }.
Definition default_lint : lint_config := LintConfig LInfo 0 false [] [].
(* config.rs:60-71 *)
Definition has_id (id : string) (l : list string) : bool := existsb (String.eqb id) l.
Definition is_rule_enabled (c : lint_config) (id : string) : bool :=
  if has_id id (lc_disabled c) then false else match lc_enabled c with [] => true | _ => has_id id (lc_enabled c) end.
Definition should_report_severity (c : lint_config) (s : lint_severity) : bool := Nat.leb (severity_rank (lc_min c)) (severity_rank s).
(* runner.rs:29-48; construction.rs:126-145 *)
Fixpoint run_rules (c : lint_config) (rules : list (string * run (list lint_issue))) (issues : list lint_issue) : run (list lint_issue) :=
  match rules with
  | [] => Done issues
  | (id, result) :: r =>
    if is_rule_enabled c id then
      found <- result ;;
      let issues := issues ++ filter (fun i => should_report_severity c (li_severity i)) found in
      if Nat.ltb 0 (lc_max c) && Nat.leb (lc_max c) (List.length issues) then Done (firstn (lc_max c) issues)
      else run_rules c r issues
    else run_rules c r issues
  end.
Definition lint_script_with_analysis (a : script_analysis) (c : lint_config) : run (list lint_issue) := run_rules c (builtin_rules a) [].
(* construction.rs:149-177: no registry *)
Definition analyze_events (sections : list section) : run (list dialogue_info) :=
  each (fun e => o <- analyze e ;; Done (match o with Some d => [d] | None => [] end)) (events_of sections).
Definition prepare (sections : list section) : run script_analysis :=
  s <- analyze_styles default_config sections ;;
  i <- analyze_events sections ;;
  Done (ScriptAnalysis sections (map snd (an_resolved s)) i).
(* runner.rs:60-78 *)
Definition lint_script (sections : list section) (c : lint_config) : run (list lint_issue) :=
  a <- prepare sections ;; lint_script_with_analysis a c.
(* construction.rs:79-98; strict only sets a flag no rule reads *)
Definition analyze_script (sections : list section) (strict : bool) : run (script_analysis * list lint_issue) :=
  a <- prepare sections ;;
  l <- run_rules (LintConfig (lc_min default_lint) (lc_max default_lint) strict (lc_enabled default_lint) (lc_disabled default_lint)) (builtin_rules a) [] ;;
  Done (a, l).

(* ---- queries.rs ---- *)
(* 39-41 *)
Definition style_named (a : script_analysis) (n : str) : option resolved := find (fun r => str_eqb (rs_name r) n) (sa_styles a).
(* 45-49 *)
Definition has_critical_issues (l : list lint_issue) : bool := existsb (fun i => match li_severity i with LCritical => true | _ => false end) l.
(* 64-82; count_overlapping_dialogue_events in events/utils/overlaps.rs *)
Definition count_overlaps (a : script_analysis) : run nat :=
  match find_overlapping_dialogue_events (sa_infos a) with Ok o => Done (List.length o) | Err => Done 0 | Panic => Crash end.
Definition count_complex_animations (a : script_analysis) : nat := List.length (filter (fun d => 3 <? di_animation d)%N (sa_infos a)).
Definition count_large_fonts (a : script_analysis) : nat := List.length (filter (fun r => f_lt (f32_of 72) (rs_size r)) (sa_styles a)).
(* 85-114 *)
Definition performance_score (events overlaps animations fonts : nat) : N :=
  let s := 100%N in
  let s := if Nat.ltb 1000 events then (s - 20)%N else if Nat.ltb 500 events then (s - 10)%N else s in
  let s := if Nat.ltb 50 overlaps then (s - 15)%N else if Nat.ltb 20 overlaps then (s - 8)%N else s in
  let s := if Nat.ltb 100 animations then (s - 10)%N else if Nat.ltb 50 animations then (s - 5)%N else s in
  if Nat.ltb 10 fonts then (s - 5)%N else s.
(* 53-61, mod.rs:140-178 *)
Record performance_summary := Summary { pf_events : nat; pf_overlaps : nat; pf_animations : nat; pf_fonts : nat; pf_score : N }.
Definition summarize (a : script_analysis) : run performance_summary :=
  o <- count_overlaps a ;;
  let n := List.length (sa_infos a) in
  Done (Summary n o (count_complex_animations a) (count_large_fonts a) (performance_score n o (count_complex_animations a) (count_large_fonts a))).
Definition has_performance_issues (p : performance_summary) : bool := (pf_score p <? 80)%N.
Inductive advice := FewerOverlaps | FewerAnimations | SmallerFonts | SplitScript.
Definition recommendation (p : performance_summary) : option advice :=
  if Nat.ltb 10 (pf_overlaps p) then Some FewerOverlaps
  else if Nat.ltb 20 (pf_animations p) then Some FewerAnimations
  else if Nat.ltb 5 (pf_fonts p) then Some SmallerFonts
  else if Nat.ltb 1000 (pf_events p) then Some SplitScript
  else None.
