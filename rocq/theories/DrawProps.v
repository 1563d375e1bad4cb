(* C148 the words of a drawing; C149 the commands they make; C150 the path drawn. *)
From Verif Require Import DrawSpec DrawProofs DrawPath.
Open Scope nat_scope.

(* ---- C148 ---- *)
Theorem drawing_words text l : words text l <-> tokenize_drawing_commands text = l.
Proof. exact (words_are text l). Qed.
Theorem every_text_has_words text : exists l, words text l.
Proof. exact (words_some _ text (Nat.le_refl _)). Qed.
Theorem same_words_same_drawing a b l : words a l -> words b l -> parse_draw_commands a = parse_draw_commands b /\ process_drawing_commands a = process_drawing_commands b.
Proof. intros A B. apply words_are in A, B. unfold process_drawing_commands, parse_draw_commands. rewrite A, B. now split. Qed.
Lemma go_stop r : forall a cur ts, tokenize_go (a ++ 92%N :: r) cur ts = tokenize_go a cur ts.
Proof. induction a as [|c a IH]; intros cur ts; cbn [app tokenize_go]; [reflexivity|]. destruct (c =? 92)%N; [reflexivity|]. destruct (is_ws c); [apply IH|]. destruct (is_letter c); apply IH. Qed.
Theorem backslash_ends_drawing a r : parse_draw_commands (a ++ 92%N :: r) = parse_draw_commands a /\ process_drawing_commands (a ++ 92%N :: r) = process_drawing_commands a.
Proof. unfold process_drawing_commands, parse_draw_commands, tokenize_drawing_commands. now rewrite go_stop. Qed.
(* writing a letter in the other case changes nothing *)
Theorem drawing_letter_case a c r : capital c ->
  parse_draw_commands (a ++ c :: r) = parse_draw_commands (a ++ (c + 32)%N :: r) /\ process_drawing_commands (a ++ c :: r) = process_drawing_commands (a ++ (c + 32)%N :: r).
Proof.
  intros C. assert (E : forall cur ts, tokenize_go (a ++ c :: r) cur ts = tokenize_go (a ++ (c + 32)%N :: r) cur ts).
  { assert (D : small (c + 32)%N) by (unfold small, capital in *; split; Lia.lia). destruct (letter_not c (or_introl C)) as [C1 C2]. destruct (letter_not _ (or_intror D)) as [D1 D2].
    induction a as [|x a IH]; intros cur ts; cbn [app tokenize_go].
    - rewrite (not_backslash c C1), C2, (proj2 (letter_is c) (or_introl C)), (capital_down c C), (not_backslash _ D1), D2, (proj2 (letter_is _) (or_intror D)), (small_down _ D). reflexivity.
    - destruct (x =? 92)%N; [reflexivity|]. destruct (is_ws x); [apply IH|]. destruct (is_letter x); apply IH. }
  unfold process_drawing_commands, parse_draw_commands, tokenize_drawing_commands. now rewrite E.
Qed.
(* spaces around a command letter change nothing *)
Theorem drawing_letter_spaces a c w r : capital c \/ small c -> is_ws w = true ->
  parse_draw_commands (a ++ w :: c :: r) = parse_draw_commands (a ++ c :: r) /\ parse_draw_commands (a ++ c :: w :: r) = parse_draw_commands (a ++ c :: r).
Proof.
  intros C W. destruct (letter_not c C) as [C1 C2]. assert (NW : w <> 92%N) by (intros ->; discriminate). pose proof (proj2 (letter_is c) C) as L.
  assert (E : (forall cur ts, tokenize_go (a ++ w :: c :: r) cur ts = tokenize_go (a ++ c :: r) cur ts) /\ (forall cur ts, tokenize_go (a ++ c :: w :: r) cur ts = tokenize_go (a ++ c :: r) cur ts)).
  { split; induction a as [|x a IH]; intros cur ts; cbn [app tokenize_go];
      try (destruct (x =? 92)%N; [reflexivity|]; destruct (is_ws x); [apply IH|]; destruct (is_letter x); apply IH);
      rewrite (not_backslash c C1), C2, L, (not_backslash w NW), W; reflexivity. }
  unfold parse_draw_commands, tokenize_drawing_commands. destruct E as [E1 E2]. now rewrite E1, E2.
Qed.
Example words_case : tokenize_drawing_commands (lit "M10-5 l.5  7\p0}") = map lit ["m"; "10-5"; "l"; ".5"; "7"]%string.
Proof. vm_compute. reflexivity. Qed.

(* ---- C149 ---- *)
Theorem drawing_exact text cs : parse_draw_commands text = Done (Yes cs) <-> drawing text cs.
Proof. exact (parse_is text cs). Qed.
Theorem drawing_refused text : parse_draw_commands text = Done No <-> forall cs, ~ drawing text cs.
Proof.
  destruct (parse_total text) as [[cs|] E]; rewrite E; split; intros H; try reflexivity; try discriminate.
  - exfalso. apply (H cs). now apply parse_is.
  - intros cs D. apply parse_is in D. congruence.
Qed.
Theorem drawing_total text : exists o, parse_draw_commands text = Done o.
Proof. exact (parse_total text). Qed.
Theorem drawing_unique text cs cs' : drawing text cs -> drawing text cs' -> cs = cs'.
Proof. exact (drawing_one text cs cs'). Qed.
Example drawing_case : parse_draw_commands (lit "1 2 M0 0 10 0 n 5 5 b 1 1 2 2 3 3 s 0 0 8 0 8 8 c 7 P 0 0 1 1 2 2 3\p0 m") =
  Done (Yes [MoveTo (Fin 0, Fin 0); LineTo (Fin 10, Fin 0); MoveToNoDraw (Fin 5, Fin 5); BezierTo (Fin 1, Fin 1) (Fin 2, Fin 2) (Fin 3, Fin 3);
    Spline [(Fin 0, Fin 0); (Fin 8, Fin 0); (Fin 8, Fin 8); (Fin 0, Fin 0)]; ClosePath; ExtendSpline [(Fin 0, Fin 0); (Fin 1, Fin 1); (Fin 2, Fin 2)]]).
Proof. vm_compute. reflexivity. Qed.
Example drawing_refused_cases : map parse_draw_commands (map lit ["m"; "m 1"; "l"; "m 0 0 c l"; "m 0 0 x y"; "s 0 0 1 1"; "m 0 0 l 1 2 3 c"; "m 0 0 l 1e3 2"]%string) = repeat (Done No) 8.
Proof. vm_compute. reflexivity. Qed.
(* numbers left over at the end of a command are not always refused, nor always passed over *)
Theorem leftover_always_refused_refuted : ~ (forall text l args bs cs, words text (written (Block l args :: bs)) -> Forall block_ok (Block l args :: bs) -> l = lit "l" \/ l = lit "b" ->
  drawing text cs -> exists gs, groups (if str_eqb l (lit "b") then 6 else 2) args 6 gs).
Proof.
  intros H. specialize (H (lit "l 1 2 3") (lit "l") (map lit ["1"; "2"; "3"]%string) [] [LineTo (Fin 1, Fin 2)]).
  destruct H as (gs & w & x & E & L & X & G & F).
  - apply words_are. vm_compute. reflexivity.
  - constructor; [|constructor]. split; [apply command_is; vm_compute; reflexivity|]. cbn [b_args map]. repeat (apply Forall_cons || apply Forall_nil); intros K; apply command_is in K; discriminate K.
  - now left.
  - apply parse_is. vm_compute. reflexivity.
  - change (if str_eqb (lit "l") (lit "b") then 6 else 2) with 2 in *. pose proof (f_equal (@List.length _) E) as K. rewrite app_length in K. cbn in K. destruct X as [->|X]; [|Lia.lia].
    assert (FL : forall (a : list str) b, Forall2 number_word a b -> List.length a = List.length b) by (induction 1; cbn; congruence). apply FL in F. clear - K F G. cbn in K.
    assert (C : exists k, List.length (List.concat gs) = 2 * k). { clear F K. induction G as [|g gs g2 _ [k IH]]; [now exists 0|]. exists (S k). cbn. rewrite app_length, g2, IH. Lia.lia. } destruct C as [k C]. Lia.lia.
Qed.
Theorem leftover_always_passed_refuted : ~ (forall a b cs, parse_draw_commands a = Done (Yes cs) -> (exists n, number_word b n) -> parse_draw_commands (lit "m 0 0 " ++ b ++ lit " " ++ a) <> Done No).
Proof.
  intros H. apply (H (lit "m 1 1") (lit "5") [MoveTo (Fin 1, Fin 1)]); [vm_compute; reflexivity| |vm_compute; reflexivity]. eexists. vm_compute. reflexivity.
Qed.
(* whether a leftover is refused depends on how much is written after it *)
Example leftover_depends : parse_draw_commands (lit "m 0 0 b 1 1 2 2 3 3 4 4 c") = Done (Yes [MoveTo (Fin 0, Fin 0); BezierTo (Fin 1, Fin 1) (Fin 2, Fin 2) (Fin 3, Fin 3); ClosePath]) /\
  parse_draw_commands (lit "m 0 0 b 1 1 2 2 3 3 4 4 l 5 5 6 6") = Done No.
Proof. split; vm_compute; reflexivity. Qed.

(* ---- C150 ---- *)
Theorem drawing_path text cs : drawing text cs -> cs <> [] -> exists calls, process_drawing_commands text = Done (Some (List.concat calls)) /\ Forall2 command_calls cs calls.
Proof. exact (process_path text cs). Qed.
Theorem drawing_no_path text : process_drawing_commands text = Done None <-> (forall cs, drawing text cs -> cs = []).
Proof. exact (process_none text). Qed.
Theorem drawing_total_path text : exists o, process_drawing_commands text = Done o.
Proof. unfold process_drawing_commands. destruct (parse_total text) as [[[|c cs]|] ->]; now eexists. Qed.
Theorem spline_curves ps extended : 3 <= List.length ps -> smoothed ps (map (fun c => let '(a, b, e) := c in PCubic a b e) (spline_to_bezier ps extended)).
Proof. exact (spline_smoothed extended ps). Qed.
Theorem whole_points_apart p q x y u v : whole_point p x y -> whole_point q u v -> apart p q <-> (x, y) <> (u, v).
Proof. exact (whole_apart p q x y u v). Qed.
Example path_case : process_drawing_commands (lit "m 0 0 l 0.5 1 c") = Done (Some [PMove (Fin 0, Fin 0); PLine (Fin (1 # 2), Fin 1); PClose]).
Proof. vm_compute. reflexivity. Qed.
Example spline_case : map (fun c => snd c) (spline_to_bezier [(Fin 0, Fin 0); (Fin 6, Fin 0); (Fin 6, Fin 6)] false) = [(Fin 6, Fin 0); (Fin 6, Fin 6)] /\ hd_error (map (fun c => fst (fst c)) (spline_to_bezier [(Fin 0, Fin 0); (Fin 6, Fin 0); (Fin 6, Fin 6)] true)) = Some (Fin 1, Fin 0).
Proof. split; vm_compute; reflexivity. Qed.
(* a spline that opens a drawing is not drawn from its first point: nothing moves there *)
Theorem spline_starts_at_first_point_refuted : ~ (forall text ps cs calls, drawing text (Spline ps :: cs) -> process_drawing_commands text = Done (Some calls) -> exists p, hd_error ps = Some p /\ In (PMove p) calls).
Proof.
  intros H. specialize (H (lit "s 10 0 20 0 20 20") [(Fin 10, Fin 0); (Fin 20, Fin 0); (Fin 20, Fin 20); (Fin 10, Fin 0)] []). eassert (K : _).
  { eapply H; [apply parse_is; vm_compute; reflexivity|vm_compute; reflexivity]. }
  destruct K as (p & E & I). injection E as <-. repeat (destruct I as [I|I]; [discriminate|]). destruct I.
Qed.

Print Assumptions drawing_exact.
Print Assumptions drawing_path.
Print Assumptions spline_curves.
