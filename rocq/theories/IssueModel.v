(* ass-core/parser/errors/parse_issue/{issue,severity,category}.rs,
   parser/errors/parse_result/result_with_issues.rs and
   tokenizer/state/{issue,level,collector}.rs: the records of problems and the
   containers that gather them. *)
From Verif Require Import Base.

(* severity.rs 13-25, 27-36 *)
Inductive severity := Info | Warning | Error | Critical.
Definition severity_text (s : severity) : str := match s with Info => lit "info" | Warning => lit "warning" | Error => lit "error" | Critical => lit "critical" end.
Definition severity_eqb (a b : severity) : bool := match a, b with Info, Info | Warning, Warning | Error, Error | Critical, Critical => true | _, _ => false end.
(* category.rs 13-46, 48-64 *)
Inductive category := Structure | Style | Event | Timing | Color | Font | Drawing | Performance | Compatibility | Security | Format.
Definition category_text (c : category) : str :=
  match c with
  | Structure => lit "structure" | Style => lit "style" | Event => lit "event" | Timing => lit "timing" | Color => lit "color" | Font => lit "font"
  | Drawing => lit "drawing" | Performance => lit "performance" | Compatibility => lit "compatibility" | Security => lit "security" | Format => lit "format"
  end.
(* issue.rs 16-37 *)
Record issue := Issue { i_severity : severity; i_category : category; i_message : str; i_line : N; i_column : option N; i_span : option (N * N); i_suggestion : option str }.
(* 42-57 *)
Definition new (s : severity) (c : category) (m : str) (l : N) : issue := Issue s c m l None None None.
(* 61-78 *)
Definition with_location (s : severity) (c : category) (m : str) (l col : N) (sp : N * N) : issue := Issue s c m l (Some col) (Some sp) None.
(* 82-85 *)
Definition with_suggestion (t : str) (i : issue) : issue := Issue (i_severity i) (i_category i) (i_message i) (i_line i) (i_column i) (i_span i) (Some t).
(* 113-130 *)
Definition format_for_display (i : issue) : str :=
  let location := match i_column i with None => to_dec (i_line i) | Some c => to_dec (i_line i) ++ lit ":" ++ to_dec c end in
  lit "[" ++ location ++ lit ":" ++ category_text (i_category i) ++ lit "] " ++ severity_text (i_severity i) ++ lit ": " ++ i_message i
  ++ match i_suggestion i with Some t => [10%N] ++ lit "  Suggestion: " ++ t | None => [] end.
(* 134-136 *)
Definition is_blocking (i : issue) : bool := match i_severity i with Critical => true | _ => false end.

(* result_with_issues.rs 21-27; ok and err of 39-61 have no issues *)
Record parsed (T E : Type) := Parsed { p_result : T + E; p_issues : list issue }.
Arguments Parsed {T E}. Arguments p_result {T E}. Arguments p_issues {T E}.
(* 87-90 *)
Definition add_issue {T E} (p : parsed T E) (i : issue) : parsed T E := Parsed (p_result p) (p_issues p ++ [i]).
(* 100-105 *)
Definition critical_issues {T E} (p : parsed T E) : list issue := filter (fun i => match i_severity i with Critical => true | _ => false end) (p_issues p).
(* 115-117 *)
Definition has_blocking_issues {T E} (p : parsed T E) : bool := existsb is_blocking (p_issues p).
(* 128-133 *)
Definition count_by_severity {T E} (s : severity) (p : parsed T E) : nat := length (filter (fun i => severity_eqb (i_severity i) s) (p_issues p)).

(* level.rs 11-29, 34-36, 46-52 *)
Inductive level := LWarning | LError | LCritical.
Definition level_text (l : level) : str := match l with LWarning => lit "warning" | LError => lit "error" | LCritical => lit "critical" end.
Definition level_is_error (l : level) : bool := match l with LError | LCritical => true | LWarning => false end.
(* tokenizer/state/issue.rs 15-30 *)
Record token_issue := TokenIssue { t_level : level; t_message : str; t_span : str; t_line : N; t_column : N }.
(* 91-99 *)
Definition format_issue (i : token_issue) : str := level_text (t_level i) ++ lit ": " ++ t_message i ++ lit " at " ++ to_dec (t_line i) ++ lit ":" ++ to_dec (t_column i).
(* collector.rs 27-44 (the three add_ helpers build an issue and call add_issue),
   70-72, 75-77: the calls, and what a call gives back *)
Inductive call := AddIssue (i : token_issue) | Clear | Take.
Definition collect (c : list token_issue) (k : call) : list token_issue := match k with AddIssue i => c ++ [i] | Clear | Take => [] end.
Definition taken (c : list token_issue) (k : call) : list token_issue := match k with Take => c | _ => [] end.
Definition collected (l : list call) : list token_issue := fold_left collect l [].
Fixpoint all_taken (c : list token_issue) (l : list call) : list (list token_issue) := match l with [] => [] | k :: r => (match k with Take => [taken c k] | _ => [] end) ++ all_taken (collect c k) r end.
(* 59-61 *)
Definition has_errors (c : list token_issue) : bool := existsb (fun i => level_is_error (t_level i)) c.
