(* C166-C167: the validator. *)
From Verif Require Import Base BaseLemmas StreamModel ValidModel ValidSpec ValidProofs.

(* ---- C166: what a validation says ---- *)
Theorem validation_exact (analyse : switches -> str -> analysis) (c : config) (s : str) (r : result) :
  fresh analyse c s = Some r <-> reported c (analyse (c_switches c) s) s (r_issues r) /\ counted r.
Proof. exact (fresh_exact analyse c s r). Qed.
Theorem validation_fails (analyse : switches -> str -> analysis) (c : config) (s : str) :
  fresh analyse c s = None <-> analyse (c_switches c) s = ParseFails.
Proof. exact (fresh_fails analyse c s). Qed.
Theorem valid_complete (analyse : switches -> str -> analysis) (c : config) (s : str) (every : list issue) (r : result) :
  fresh analyse c s = Some r -> all_issues (analyse (c_switches c) s) s every -> c_threshold c <> Critical -> c_max_issues c = 0 \/ List.length every <= c_max_issues c ->
  (r_valid r = true <-> forall i, In i every -> ~ grave i).
Proof. exact (valid_all analyse c s every r). Qed.
(* an error after as many other issues as are kept is not seen *)
Theorem valid_no_error_refuted : ~ (forall analyse c s every r, fresh analyse c s = Some r -> all_issues (analyse (c_switches c) s) s every -> r_valid r = true -> forall i, In i every -> ~ grave i).
Proof.
  intros H. set (text := lit "[Script Info][Events]"). set (w := LintIssue LWarning None (lit "w") (lit "a") None). set (e := LintIssue LError None (lit "e") (lit "b") None).
  apply (H (fun _ _ => Found (repeat w 100 ++ [e])) default_config text (map translate (repeat w 100 ++ [e]) ++ []) (result_new (map translate (repeat w 100))) ltac:(vm_compute; reflexivity)
    ltac:(apply all_found; [now apply shown_all|now apply remarks_exact]) ltac:(vm_compute; reflexivity) (translate e)); [|left; reflexivity].
  rewrite app_nil_r, map_app. apply in_or_app. right. now left.
Qed.
Definition quiet (_ : switches) (_ : str) : analysis := Found [].
Example validation_instance :
  option_map (fun r => (map i_message (r_issues r), summary r)) (fresh quiet default_config []) = Some ([lit "Document is empty"; lit "Missing [Script Info] section"; lit "Missing [Events] section"], lit "3 warnings") /\
  option_map summary (fresh quiet default_config (lit "[Script Info][Events]")) = Some (lit "Valid").
Proof. split; vm_compute; reflexivity. Qed.
Example complete_instance :
  let e := LintIssue LError (Some (3, 1)) (lit "e") (lit "b") None in let text := lit "[Script Info][Events]" in
  all_issues (Found [e]) text [Issue Error (Some 3) (Some 1) (lit "e") (lit "b") None] /\
  option_map r_valid (fresh (fun _ _ => Found [e]) default_config text) = Some false /\ c_threshold default_config <> Critical /\ 1 <= c_max_issues default_config.
Proof.
  cbv zeta. split; [|split; [vm_compute; reflexivity|split; [discriminate|cbn; lia]]].
  apply (all_found [_] [_] _ []); [now apply shown_all|now apply remarks_exact].
Qed.

(* ---- C167: the cache ---- *)
Theorem validator_answers (analyse : switches -> str -> analysis) (past : list use) (u : use) :
  snd (use_step analyse (uses analyse (rev past)) u) =
  match u with
  | Direct force s now _ => expected analyse past force s now
  | Document force s now _ => if unparsed analyse (settings past) s then None else expected analyse past force s now
  | _ => None
  end.
Proof. exact (use_answer analyse past u). Qed.
(* whenever texts are checked, and however old the kept result is: as if there were no cache, unless two texts have the same hash *)
Theorem validator_transparent (analyse : switches -> str -> analysis) (past : list use) (force : bool) (s : str) (now done : N) :
  (forall s', In s' (flat_map checked past) -> fnv s' = fnv s -> s' = s) ->
  snd (use_step analyse (uses analyse (rev past)) (Direct force s now done)) = fresh analyse (settings past) s /\
  snd (use_step analyse (uses analyse (rev past)) (Document force s now done)) = fresh analyse (settings past) s.
Proof.
  intros H. rewrite !use_answer, (expected_fresh analyse past force s now H). split; [reflexivity|]. unfold unparsed.
  destruct (analyse (c_switches (settings past)) s) eqn:E; try reflexivity. symmetry. now apply fresh_fails.
Qed.
Theorem forced_fresh (analyse : switches -> str -> analysis) (past : list use) (s : str) (now done : N) :
  snd (use_step analyse (uses analyse (rev past)) (Direct true s now done)) = fresh analyse (settings past) s.
Proof. rewrite use_answer. unfold expected. now destruct (kept analyse past) as [[s0 t]|]. Qed.
(* two texts with one hash, the second checked soon after the first *)
Theorem validator_collision_refuted : ~ (forall analyse past s now done,
  snd (use_step analyse (uses analyse (rev past)) (Direct false s now done)) = fresh analyse (settings past) s).
Proof.
  intros H. set (analyse := fun (_ : switches) (s : str) => Found (match s with 55%N :: _ => [] | _ => [LintIssue LError None (lit "e") (lit "b") None] end)).
  specialize (H analyse [Direct false (lit "7mohtcOFVz") 0%N 1%N] (lit "c1E51sSEyx") 2%N 3%N). vm_compute in H. discriminate H.
Qed.
Example transparent_instance : forall s', In s' (flat_map checked [Direct false (lit "b") 0%N 1%N; Clear; Document true (lit "a") 0%N 1%N]) -> fnv s' = fnv (lit "a") -> s' = lit "a".
Proof. intros s' [<-|[<-|[]]] E; [vm_compute in E; discriminate E|reflexivity]. Qed.

Print Assumptions validation_exact.
Print Assumptions validation_fails.
Print Assumptions valid_complete.
Print Assumptions valid_no_error_refuted.
Print Assumptions validator_answers.
Print Assumptions validator_transparent.
Print Assumptions forced_fresh.
Print Assumptions validator_collision_refuted.
