From Verif Require Import Base BaseLemmas SortLib TimeModel TimeSpec TimeProps DocModel DocSpec DocProofs ParseModel EventCmdModel EventCmdSpec EventCmdProofs EventCmdLine EventCmdEdit.

(* ---- split and merge: looking for events ---- *)
Lemma scan_step f A l rest : in_section l -> after_line rest ->
  scan_events (S f) (A ++ l ++ rest) (blen A) =
    if is_event_line l then x <- scan_events f (A ++ l ++ rest) (blen A + blen l + 1) ;; Done ((blen A, blen A + blen l, l) :: x)
    else scan_events f (A ++ l ++ rest) (blen A + blen l + 1).
Proof.
  intros (Hne & Hnl & Hh) Hr. cbn [scan_events]. pose proof (blen_pos l Hne) as Hp.
  destruct (Nat.ltb_spec (blen A) (blen (A ++ l ++ rest))); [|rewrite !blen_app in *; lia].
  rewrite slice_from_app. cbn [need bind]. rewrite line_end_at by assumption.
  destruct (Nat.leb_spec (blen A + blen l) (blen A)); [lia|].
  rewrite slice_app. cbn [need bind]. apply header_false in Hh. rewrite Hh. reflexivity.
Qed.
Lemma scan_total s : forall f p, at_character s p -> S (blen s - p) <= f -> exists x, scan_events f s p = Done x.
Proof.
  intros f. induction f as [|f IH]; intros p Hb Hf; [lia|]. cbn [scan_events].
  destruct (Nat.ltb_spec p (blen s)) as [L|L]; [|eauto].
  destruct Hb as [Hb|(A & rest & E & <-)]; [lia|].
  destruct (line_of rest) as (l & r & -> & Hnl & Hr).
  replace (slice_from s (blen A)) with (Some (l ++ r)) by (rewrite E; symmetry; apply slice_from_app). cbn [need bind].
  replace (line_end s (l ++ r) (blen A)) with (blen A + blen l) by (rewrite E; symmetry; now apply line_end_at).
  destruct (Nat.leb_spec (blen A + blen l) (blen A)); [eauto|].
  replace (slice s (blen A) (blen A + blen l)) with (Some l) by (rewrite E; symmetry; apply slice_app). cbn [need bind].
  destruct (IH (blen A + blen l + 1)) as [x X].
  - rewrite E. destruct Hr as [->|[r' ->]].
    + left. rewrite !blen_app. change (blen []) with 0. lia.
    + right. exists (A ++ l ++ [10%N]), r'. split; [now rewrite <- !app_assoc|]. symmetry. apply blen_line.
  - lia.
  - rewrite X. cbn [bind]. destruct (is_event_line l); [eauto|]. destruct (starts_with (lit "[") l); eauto.
Qed.
(* Lines before the wanted one. *)
Lemma scan_skip : forall before f A rest c, Forall in_section before -> event_count before c ->
  forall x, scan_events f (A ++ ended before ++ rest) (blen (A ++ ended before)) = Done x ->
  exists y, scan_events (List.length before + f) (A ++ ended before ++ rest) (blen A) = Done (y ++ x) /\ List.length y = c.
Proof.
  intros before. induction before as [|l ls IH]; intros f A rest c HF HC x X.
  - inversion HC; subst. exists []. change (ended []) with (@nil N) in *. rewrite app_nil_r in X. split; [exact X|reflexivity].
  - inversion HF as [|? ? Hl Hls]; subst. rewrite ended_cons in *.
    assert (Q : A ++ (l ++ 10%N :: ended ls) ++ rest = (A ++ l ++ [10%N]) ++ ended ls ++ rest) by (repeat (rewrite <- ?app_assoc; cbn [app]); reflexivity).
    assert (Q2 : A ++ l ++ 10%N :: ended ls = (A ++ l ++ [10%N]) ++ ended ls) by (repeat (rewrite <- ?app_assoc; cbn [app]); reflexivity).
    assert (Q3 : A ++ (l ++ 10%N :: ended ls) ++ rest = A ++ l ++ (10%N :: ended ls ++ rest)) by (repeat (rewrite <- ?app_assoc; cbn [app]); reflexivity).
    rewrite Q2 in X. rewrite Q in X.
    cbn [List.length plus]. rewrite Q3. rewrite scan_step by (exact Hl || (right; eauto)). rewrite <- Q3, Q, blen_line.
    inversion HC as [|? ? m Hev HC'|? ? m Hev HC']; subst.
    + destruct (IH f _ rest m Hls HC' x X) as (y & Y & Ly). rewrite (proj2 (event_line_spec l) Hev), Y. cbn [bind].
      eexists (_ :: y). split; [reflexivity|]. cbn. lia.
    + rewrite (proj2 (event_line_false l) Hev). apply (IH f _ rest c Hls HC' x X).
Qed.
Lemma scan_at s A before l rest k f : s = A ++ ended before ++ l ++ rest ->
  Forall in_section before -> event_count before k -> in_section l -> is_event l -> after_line rest ->
  2 * blen s + 2 <= f ->
  exists events, scan_events f s (blen A) = Done events /\
    nth_error events k = Some (blen (A ++ ended before), blen (A ++ ended before) + blen l, l).
Proof.
  intros E HF HC Hl Hev Hr Hf. pose proof (length_ended before) as LB.
  assert (LS : List.length before <= blen s) by (rewrite E, !blen_app; lia).
  replace f with (List.length before + S (f - List.length before - 1)) by lia.
  set (g := f - List.length before - 1). assert (Hg : S (blen s) <= g) by (unfold g; lia). clearbody g.
  destruct (scan_total s g (blen (A ++ ended before) + blen l + 1)) as [x X].
  - rewrite E. destruct Hr as [->|[r' ->]].
    + left. rewrite !blen_app. change (blen []) with 0. lia.
    + right. exists (A ++ ended before ++ l ++ [10%N]), r'. split; [now rewrite <- !app_assoc|]. rewrite !blen_app. change (blen [10%N]) with 1. lia.
  - lia.
  - assert (Y : scan_events (S g) (A ++ ended before ++ l ++ rest) (blen (A ++ ended before)) = Done ((blen (A ++ ended before), blen (A ++ ended before) + blen l, l) :: x)).
    { rewrite app_assoc. rewrite scan_step by assumption. rewrite (proj2 (event_line_spec l) Hev). rewrite <- app_assoc, <- E, X. reflexivity. }
    destruct (scan_skip before (S g) A (l ++ rest) k HF HC _ Y) as (y & Z & Ly).
    rewrite E. exists (y ++ (blen (A ++ ended before), blen (A ++ ended before) + blen l, l) :: x). split; [exact Z|].
    rewrite nth_error_app2 by lia. now rewrite Ly, Nat.sub_diag.
Qed.

(* ---- splitting ---- *)
Lemma split_ok sz d head before e rest k fuel t tv a b :
  reached sz d -> events_head head -> text d = head ++ ended before ++ event_text e ++ rest ->
  Forall in_section before -> event_count before k -> in_section (event_text e) -> after_line rest -> clean e ->
  shows a (le_start e) -> shows b (le_end e) -> shows tv t -> (a < tv < b)%N -> 2 * blen (text d) + 2 <= fuel ->
  exists d' r, split_event fuel sz k t d = Done (d', Some r) /\
    text d' = head ++ ended before ++ (event_text (with_times e (le_start e) t) ++ [10%N] ++ event_text (with_times e t (le_end e))) ++ rest /\
    reached sz d' /\ m_range r = Some (range_new (blen (head ++ ended before)) (blen (head ++ ended before ++ event_text (with_times e (le_start e) t) ++ [10%N] ++ event_text (with_times e t (le_end e))))).
Proof.
  intros H Hh E HF HC Hl Hr Hcl Sa Sb St Hab Hf. unfold split_event. rewrite (shows_parse _ _ St).
  replace (format_line_end (text d)) with (Some (blen head)) by (rewrite E; symmetry; now apply head_found).
  assert (Hev : is_event (event_text e)) by (unfold event_text, is_event; destruct (le_comment e); [right|left]; eexists; reflexivity).
  destruct (scan_at (text d) head before (event_text e) rest k fuel E HF HC Hl Hev Hr Hf) as (ev & X & N). rewrite X. cbn [bind]. rewrite N.
  rewrite (parse_clean e Hcl). cbn [bind]. unfold time_of. rewrite (shows_parse _ _ Sa). cbn [bind]. rewrite (shows_parse _ _ Sb). cbn [bind].
  destruct (N.leb_spec tv a); [lia|]. destruct (N.leb_spec b tv); [lia|]. cbn [orb].
  rewrite !write_text. set (new := event_text _ ++ [10%N] ++ event_text _).
  rewrite range_new_le by lia.
  destruct (replace_ok sz d (head ++ ended before) (event_text e) rest new H) as (d' & D & T & R); [rewrite E; now rewrite <- !app_assoc|].
  rewrite D. cbn [of_out and_then bind fst snd]. eexists d', _. split; [reflexivity|]. split; [rewrite T; now rewrite <- app_assoc|].
  split; [exact R|]. cbn [m_range success_with_change]. do 2 f_equal. unfold new. rewrite (app_assoc head), (blen_app (head ++ ended before)). reflexivity.
Qed.
(* Refusals leave the document alone. *)
Lemma split_refused sz d head before e rest k fuel t tv a b :
  events_head head -> text d = head ++ ended before ++ event_text e ++ rest ->
  Forall in_section before -> event_count before k -> in_section (event_text e) -> after_line rest -> clean e ->
  shows a (le_start e) -> shows b (le_end e) -> shows tv t -> ~ (a < tv < b)%N -> 2 * blen (text d) + 2 <= fuel ->
  split_event fuel sz k t d = Done (d, None).
Proof.
  intros Hh E HF HC Hl Hr Hcl Sa Sb St Hab Hf. unfold split_event. rewrite (shows_parse _ _ St).
  replace (format_line_end (text d)) with (Some (blen head)) by (rewrite E; symmetry; now apply head_found).
  assert (Hev : is_event (event_text e)) by (unfold event_text, is_event; destruct (le_comment e); [right|left]; eexists; reflexivity).
  destruct (scan_at (text d) head before (event_text e) rest k fuel E HF HC Hl Hev Hr Hf) as (ev & X & N). rewrite X. cbn [bind]. rewrite N.
  rewrite (parse_clean e Hcl). cbn [bind]. unfold time_of. rewrite (shows_parse _ _ Sa). cbn [bind]. rewrite (shows_parse _ _ Sb). cbn [bind].
  destruct (N.leb_spec tv a); [reflexivity|]. destruct (N.leb_spec b tv); [reflexivity|lia].
Qed.

(* ---- merging ---- *)
Lemma event_text_event e : is_event (event_text e).
Proof. unfold event_text, is_event. destruct (le_comment e); [right|left]; eexists; reflexivity. Qed.
Lemma count_app a b n m : event_count a n -> event_count b m -> event_count (a ++ b) (n + m).
Proof. intros H. induction H; intros; cbn [app plus]; [assumption|apply ec_event; auto|apply ec_other; auto]. Qed.
Lemma ended_app a b : ended (a ++ b) = ended a ++ ended b.
Proof. unfold ended. now rewrite map_app, concat_app. Qed.
Lemma merge_finds s head before e1 mid e2 rest i n fuel :
  s = head ++ ended before ++ event_text e1 ++ [10%N] ++ ended mid ++ event_text e2 ++ rest ->
  Forall in_section before -> event_count before i -> Forall in_section mid -> event_count mid n ->
  in_section (event_text e1) -> in_section (event_text e2) -> after_line rest -> 2 * blen s + 2 <= fuel ->
  exists ev, scan_events fuel s (blen head) = Done ev /\
    nth_error ev i = Some (blen (head ++ ended before), blen (head ++ ended before) + blen (event_text e1), event_text e1) /\
    nth_error ev (i + S n) = Some (blen (head ++ ended before ++ event_text e1 ++ [10%N] ++ ended mid),
      blen (head ++ ended before ++ event_text e1 ++ [10%N] ++ ended mid) + blen (event_text e2), event_text e2).
Proof.
  intros E F1 C1 F2 C2 I1 I2 Hr Hf.
  destruct (scan_at s head before (event_text e1) ([10%N] ++ ended mid ++ event_text e2 ++ rest) i fuel E F1 C1 I1 (event_text_event e1)) as (ev & X & N1);
    [right; eexists; reflexivity|exact Hf|].
  set (bef2 := before ++ event_text e1 :: mid).
  assert (B2 : ended bef2 = ended before ++ event_text e1 ++ [10%N] ++ ended mid).
  { unfold bef2. rewrite ended_app, ended_cons. reflexivity. }
  destruct (scan_at s head bef2 (event_text e2) rest (i + S n) fuel) as (ev2 & X2 & N2).
  - rewrite B2, E. now rewrite <- !app_assoc.
  - unfold bef2. apply Forall_app. split; [exact F1|]. constructor; assumption.
  - unfold bef2. apply count_app; [exact C1|]. apply ec_event; [apply event_text_event|exact C2].
  - exact I2.
  - apply event_text_event.
  - exact Hr.
  - exact Hf.
  - rewrite X in X2. injection X2 as <-. rewrite B2 in N2. exists ev. auto.
Qed.
Lemma merge_ok sz d head before e1 mid e2 rest i n fuel sep :
  reached sz d -> events_head head ->
  text d = head ++ ended before ++ event_text e1 ++ [10%N] ++ ended mid ++ event_text e2 ++ 10%N :: rest ->
  Forall in_section before -> event_count before i -> Forall in_section mid -> event_count mid n ->
  in_section (event_text e1) -> in_section (event_text e2) -> clean e1 -> clean e2 -> 2 * blen (text d) + 2 <= fuel ->
  exists d' r, merge_events fuel sz i (i + S n) sep d = Done (d', Some r) /\
    text d' = head ++ ended before ++ event_text (merged e1 e2 sep) ++ 10%N :: rest /\ reached sz d'.
Proof.
  intros H Hh E F1 C1 F2 C2 I1 I2 K1 K2 Hf. unfold merge_events.
  destruct (Nat.leb_spec (i + S n) i); [lia|].
  replace (format_line_end (text d)) with (Some (blen head)) by (rewrite E; symmetry; now apply head_found).
  destruct (merge_finds (text d) head before e1 mid e2 (10%N :: rest) i n fuel E F1 C1 F2 C2 I1 I2) as (ev & X & N1 & N2); [right; eauto|exact Hf|].
  rewrite X. cbn [bind]. rewrite N1, N2. rewrite (parse_clean e1 K1). cbn [bind]. rewrite (parse_clean e2 K2). cbn [bind].
  fold (merged e1 e2 sep). rewrite write_text.
  set (m := event_text e1 ++ [10%N] ++ ended mid ++ event_text e2 ++ [10%N]).
  assert (R : range_new (blen (head ++ ended before)) (blen (head ++ ended before ++ event_text e1 ++ [10%N] ++ ended mid) + blen (event_text e2) + 1)
              = mkRange (blen (head ++ ended before)) (blen (head ++ ended before) + blen m)).
  { rewrite range_new_le; unfold m; rewrite !blen_app; change (blen [10%N]) with 1; [f_equal; lia|lia]. }
  rewrite R.
  destruct (replace_ok sz d (head ++ ended before) m rest (event_text (merged e1 e2 sep) ++ [10%N]) H) as (d' & D & T & Q).
  { rewrite E. unfold m. repeat (rewrite <- ?app_assoc; cbn [app]). reflexivity. }
  rewrite D. cbn [of_out and_then bind fst snd]. eexists d', _. split; [reflexivity|]. split; [|exact Q].
  rewrite T. repeat (rewrite <- ?app_assoc; cbn [app]). reflexivity.
Qed.
(* The second event must be followed by a newline. *)
Lemma merge_last sz d head before e1 mid e2 i n fuel sep :
  events_head head ->
  text d = head ++ ended before ++ event_text e1 ++ [10%N] ++ ended mid ++ event_text e2 ->
  Forall in_section before -> event_count before i -> Forall in_section mid -> event_count mid n ->
  in_section (event_text e1) -> in_section (event_text e2) -> clean e1 -> clean e2 -> 2 * blen (text d) + 2 <= fuel ->
  merge_events fuel sz i (i + S n) sep d = Done (d, None).
Proof.
  intros Hh E F1 C1 F2 C2 I1 I2 K1 K2 Hf. unfold merge_events.
  destruct (Nat.leb_spec (i + S n) i); [lia|].
  replace (format_line_end (text d)) with (Some (blen head)) by (rewrite E; symmetry; now apply head_found).
  destruct (merge_finds (text d) head before e1 mid e2 [] i n fuel) as (ev & X & N1 & N2); try assumption; [now rewrite app_nil_r|now left|].
  rewrite X. cbn [bind]. rewrite N1, N2. rewrite (parse_clean e1 K1). cbn [bind]. rewrite (parse_clean e2 K2). cbn [bind].
  unfold doc_replace, text_range. rewrite range_new_le by (rewrite !blen_app; lia). cbn [r_start r_end].
  match goal with |- context [if blen (text d) <? ?x then _ else _] => destruct (Nat.ltb_spec (blen (text d)) x) end; [reflexivity|].
  exfalso. rewrite E in *. rewrite !blen_app in *. lia.
Qed.
