(* What a validation reports, and what a validator remembers, told by its uses. *)
From Verif Require Import Base StreamModel ValidModel.

Definition occurs (p s : str) : Prop := exists a b, s = a ++ p ++ b.
(* the remarks on the text as such *)
Definition remarks (s : str) (l : list issue) : Prop := exists e i v, l = e ++ i ++ v /\
  (s = [] /\ e = [Issue Warning None None (lit "Document is empty") (lit "basic") None] \/ s <> [] /\ e = []) /\
  (occurs (lit "[Script Info]") s /\ i = [] \/ ~ occurs (lit "[Script Info]") s /\ i = [Issue Warning None None (lit "Missing [Script Info] section") (lit "structure") None]) /\
  (occurs (lit "[Events]") s /\ v = [] \/ ~ occurs (lit "[Events]") s /\ v = [Issue Warning None None (lit "Missing [Events] section") (lit "structure") None]).
(* how an issue of the analysis is shown *)
Definition shown (l : lint_issue) (i : issue) : Prop :=
  In (l_severity l, i_severity i) [(LHint, Info); (LInfo, Info); (LWarning, Warning); (LError, Error); (LCritical, Critical)] /\
  l_location l = match i_line i, i_column i with Some a, Some b => Some (a, b) | _, _ => None end /\ (i_line i = None <-> i_column i = None) /\
  i_message i = l_message l /\ i_rule i = l_rule l /\ i_suggestion i = l_fix l.
(* everything there is to say about a text *)
Inductive all_issues : analysis -> str -> list issue -> Prop :=
| all_failed s r : remarks s r -> all_issues AnalysisFails s (Issue Error None None (lit "Failed to analyze script") (lit "analyzer") None :: r)
| all_found l l' s r : Forall2 shown l l' -> remarks s r -> all_issues (Found l) s (l' ++ r).
Definition at_least (m s : severity) : Prop :=
  match m with Info => True | Warning => s <> Info | Error => s = Error \/ s = Critical | Critical => s = Critical end.
Definition grave (i : issue) : Prop := i_severity i = Error \/ i_severity i = Critical.
(* some elements of a list, those with P, in order *)
Inductive chosen {A} (P : A -> Prop) : list A -> list A -> Prop :=
| ch_nil : chosen P [] []
| ch_yes x l m : P x -> chosen P l m -> chosen P (x :: l) (x :: m)
| ch_no x l m : ~ P x -> chosen P l m -> chosen P (x :: l) m.
(* the issues of a result: of all those that are severe enough, the first ones *)
Definition reported (c : config) (a : analysis) (s : str) (l : list issue) : Prop :=
  exists every rest, all_issues a s every /\ chosen (fun i => at_least (c_threshold c) (i_severity i)) every (l ++ rest) /\
    (c_max_issues c = 0 /\ rest = [] \/ List.length l < c_max_issues c /\ rest = [] \/ List.length l = c_max_issues c /\ 0 < c_max_issues c).
(* its numbers and its flag *)
Definition counted (r : result) : Prop :=
  (r_valid r = true <-> forall i, In i (r_issues r) -> ~ grave i) /\
  (exists m, chosen grave (r_issues r) m /\ r_errors r = List.length m) /\ (exists m, chosen (fun i => i_severity i = Warning) (r_issues r) m /\ r_warnings r = List.length m).

(* ---- the uses so far, the newest first ---- *)
Fixpoint settings (past : list use) : config := match past with [] => default_config | SetConfig c :: _ => c | _ :: l => settings l end.
(* what a fresh validation of a text gives *)
Definition fresh (analyse : switches -> str -> analysis) (c : config) (s : str) : option result := snd (validate analyse (with_config c) s 0 0).
(* the text of the result that is kept, and when it was made *)
Definition answers (c : config) (kept : option (str * N)) (s : str) (now : N) : bool :=
  match kept with Some (s0, t) => (fnv s0 =? fnv s)%N && (now - t <? c_interval c)%N | None => false end.
Definition unparsed (analyse : switches -> str -> analysis) (c : config) (s : str) : bool := match analyse (c_switches c) s with ParseFails => true | _ => false end.
Fixpoint kept (analyse : switches -> str -> analysis) (past : list use) : option (str * N) :=
  match past with
  | [] | Clear :: _ | SetConfig _ :: _ => None
  | Direct force s now done :: l =>
    if negb force && answers (settings l) (kept analyse l) s now then kept analyse l
    else if unparsed analyse (settings l) s then (if force then None else kept analyse l) else Some (s, done)
  | Document force s now done :: l =>
    if unparsed analyse (settings l) s then kept analyse l
    else if negb force && answers (settings l) (kept analyse l) s now then kept analyse l else Some (s, done)
  end.
Definition checked (u : use) : list str := match u with Direct _ s _ _ | Document _ s _ _ => [s] | _ => [] end.
(* a request: answered from the kept result, if that is young and of a text with the same hash *)
Definition expected (analyse : switches -> str -> analysis) (past : list use) (force : bool) (s : str) (now : N) : option result :=
  match kept analyse past with
  | Some (s0, _) => if negb force && answers (settings past) (kept analyse past) s now then fresh analyse (settings past) s0 else fresh analyse (settings past) s
  | None => fresh analyse (settings past) s
  end.
