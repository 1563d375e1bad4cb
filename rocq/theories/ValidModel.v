(* Model of the validator of the editor: crates/ass-editor/utils/validator/
   {api,config,core_validation,issue,lazy_validator,result}.rs and
   core/document/validation.rs:121-164, with the features std and analysis.
   What parsing and analysing a text finds is any function of the text and the
   analysis options; a clock reading is a number of nanoseconds.  The time a
   validation took and its time stamp are not part of a result here. *)
From Verif Require Import Base StreamModel.
Local Open Scope N_scope.

(* ass-core analysis/linting/issue.rs: IssueSeverity *)
Inductive lint_severity := LHint | LInfo | LWarning | LError | LCritical.
Record lint_issue := LintIssue { l_severity : lint_severity; l_location : option (nat * nat); l_message : str; l_rule : str; l_fix : option str }.
(* the four switches that choose the analysis options, lazy_validator.rs:49-64:
   unicode, performance, compliance, accessibility *)
Record switches := Switches { sw_unicode : bool; sw_performance : bool; sw_compliance : bool; sw_accessibility : bool }.
(* Script::parse fails; analyze_with_config fails; the issues found *)
Inductive analysis := ParseFails | AnalysisFails | Found (l : list lint_issue).

(* issue.rs:11-21, ordered as declared *)
Inductive severity := Info | Warning | Error | Critical.
Definition rank (s : severity) : N := match s with Info => 0 | Warning => 1 | Error => 2 | Critical => 3 end.
(* issue.rs:25-43 *)
Record issue := Issue { i_severity : severity; i_line : option nat; i_column : option nat; i_message : str; i_rule : str; i_suggestion : option str }.
(* issue.rs:65-74 *)
Definition issue_new (s : severity) (message rule : str) : issue := Issue s None None message rule None.
(* issue.rs:93-98 *)
Definition is_error (i : issue) : bool := match i_severity i with Error | Critical => true | _ => false end.
Definition is_warning (i : issue) : bool := match i_severity i with Warning => true | _ => false end.
(* result.rs:20-40 *)
Record result := Result { r_issues : list issue; r_valid : bool; r_warnings : nat; r_errors : nat }.
(* result.rs:44-62 *)
Definition result_new (l : list issue) : result :=
  let errors := List.length (filter is_error l) in
  Result l (errors =? 0)%nat (List.length (filter is_warning l)) errors.
(* result.rs:65-70 *)
Definition issues_with_severity (r : result) (m : severity) : list issue := filter (fun i => rank m <=? rank (i_severity i)) (r_issues r).
(* result.rs:73-86 *)
Definition summary (r : result) : str :=
  if r_valid r then if (0 <? r_warnings r)%nat then to_dec (N.of_nat (r_warnings r)) ++ lit " warnings" else lit "Valid"
  else to_dec (N.of_nat (r_errors r)) ++ lit " errors, " ++ to_dec (N.of_nat (r_warnings r)) ++ lit " warnings".

(* config.rs:10-45; auto_validate is never read *)
Record config := Config { c_interval : N; c_max_issues : nat; c_threshold : severity; c_switches : switches }.
Definition default_config : config := Config 500000000 100 Info (Switches true true true true).

(* core_validation.rs:33-58 *)
Definition translate (l : lint_issue) : issue :=
  Issue (match l_severity l with LHint => Info | LInfo => Info | LWarning => Warning | LError => Error | LCritical => Critical end)
    (option_map fst (l_location l)) (option_map snd (l_location l)) (l_message l) (l_rule l) (l_fix l).
Definition contains (p s : str) : bool := match find_str p s with Some _ => true | None => false end.
(* core_validation.rs:111-136 *)
Definition basic_checks (content : str) (issues : list issue) : list issue :=
  let issues := match content with [] => issues ++ [issue_new Warning (lit "Document is empty") (lit "basic")] | _ => issues end in
  let issues := if contains (lit "[Script Info]") content then issues else issues ++ [issue_new Warning (lit "Missing [Script Info] section") (lit "structure")] in
  if contains (lit "[Events]") content then issues else issues ++ [issue_new Warning (lit "Missing [Events] section") (lit "structure")].
(* core_validation.rs:20-83; None: an error is returned *)
Definition validate_with_core (analyse : switches -> str -> analysis) (c : config) (content : str) : option (list issue) :=
  match match analyse (c_switches c) content with
        | ParseFails => None
        | AnalysisFails => Some [issue_new Error (lit "Failed to analyze script") (lit "analyzer")]
        | Found l => Some (map translate l)
        end with
  | None => None
  | Some issues =>
    let issues := basic_checks content issues in
    let issues := filter (fun i => rank (c_threshold c) <=? rank (i_severity i)) issues in
    Some (if (0 <? c_max_issues c)%nat && (c_max_issues c <? List.length issues)%nat then firstn (c_max_issues c) issues else issues)
  end.

(* api.rs:100-108 *)
Definition fnv (content : str) : N :=
  fold_left (fun h b => (N.lxor h b * 1099511628211) mod 18446744073709551616) (encode content) 14695981039346656037.

(* lazy_validator.rs:19-36 *)
Record validator := Validator { v_config : config; v_result : option result; v_hash : N; v_last : option N }.
(* lazy_validator.rs:40-73 *)
Definition with_config (c : config) : validator := Validator c None 0 None.
(* api.rs:74-81 *)
Definition clear_cache (v : validator) : validator := Validator (v_config v) None 0 None.
(* lazy_validator.rs:76-102 *)
Definition set_config (c : config) (v : validator) : validator := Validator c None 0 None.
(* api.rs:84-97; now: the clock when it is asked *)
Definition should_use_cache (v : validator) (hash now : N) : bool :=
  match v_result v with
  | None => false
  | Some _ =>
    if negb (v_hash v =? hash) then false else
    match v_last v with Some t => now - t <? c_interval (v_config v) | None => true end
  end.
(* api.rs:14-55; done: the clock at the end *)
Definition validate (analyse : switches -> str -> analysis) (v : validator) (content : str) (now done : N) : validator * option result :=
  let hash := fnv content in
  if should_use_cache v hash now then (v, v_result v) else
  match validate_with_core analyse (v_config v) content with
  | None => (v, None)
  | Some issues => (Validator (v_config v) (Some (result_new issues)) hash (Some done), Some (result_new issues))
  end.
(* api.rs:58-61 *)
Definition force_validate (analyse : switches -> str -> analysis) (v : validator) (content : str) (now done : N) : validator * option result :=
  validate analyse (Validator (v_config v) None (v_hash v) (v_last v)) content now done.
(* core/document/validation.rs:125-147: through a copy of the document, which
   is parsed when it is made; api.rs:64-66 only reads the flag *)
Definition parses (analyse : switches -> str -> analysis) (v : validator) (content : str) : bool :=
  match analyse (c_switches (v_config v)) content with ParseFails => false | _ => true end.
Definition document_check (analyse : switches -> str -> analysis) (force : bool) (v : validator) (content : str) (now done : N) : validator * option result :=
  if parses analyse v content then (if force then force_validate else validate) analyse v content now done else (v, None).

(* a use of a validator: directly, through its document, or a change of it *)
Inductive use := Direct (force : bool) (content : str) (now done : N) | Document (force : bool) (content : str) (now done : N) | Clear | SetConfig (c : config).
Definition use_step (analyse : switches -> str -> analysis) (v : validator) (u : use) : validator * option result :=
  match u with
  | Direct force content now done => (if force then force_validate else validate) analyse v content now done
  | Document force content now done => document_check analyse force v content now done
  | Clear => (clear_cache v, None)
  | SetConfig c => (set_config c v, None)
  end.
Definition uses (analyse : switches -> str -> analysis) (l : list use) : validator := fold_left (fun v u => fst (use_step analyse v u)) l (with_config default_config).
