(* Properties of overlap detection, event order and durations:
   C22, C23, C62, C63. *)
From Coq Require Import Permutation Sorted.
From Verif Require Import Base BaseLemmas EventsModel EventsSpec EventsProofs TagSpec TagProps.

(* ---- C22: overlaps ---- *)
(* For ranges that are not empty: exactly the pairs with a common instant, once
   each, the one that starts first (or is listed first) in front. *)
Theorem overlaps_found_exactly : forall l o ts, 2 <= List.length l -> Forall2 (fun e t => event_times e = Ok t) l ts ->
  Forall (fun t => (fst t < snd t)%N) ts -> find_overlapping_events l = Ok o ->
  NoDup o /\ (forall i j, In (i, j) o -> starts_first ts i j) /\
  (forall i j, In (i, j) o \/ In (j, i) o <-> i <> j /\ common_instant ts i j).
Proof.
  intros l o ts L F V H. unfold find_overlapping_events in H. destruct (Nat.ltb_spec (List.length l) 2); [lia|].
  apply all_times_ok in F. rewrite F in H. cbn in H. injection H as <-. now apply overlaps_valid.
Qed.
Print Assumptions overlaps_found_exactly.
(* For any ranges: an event whose end is not after its start never ends. *)
Theorem overlaps_found : forall l o ts, 2 <= List.length l -> Forall2 (fun e t => event_times e = Ok t) l ts -> find_overlapping_events l = Ok o ->
  NoDup o /\ forall i j, In (i, j) o <-> starts_first ts i j /\ still_running ts i j.
Proof.
  intros l o ts L F H. unfold find_overlapping_events in H. destruct (Nat.ltb_spec (List.length l) 2); [lia|].
  apply all_times_ok in F. rewrite F in H. cbn in H. injection H as <-. apply overlaps_exact.
Qed.
Print Assumptions overlaps_found.
(* It succeeds iff there are fewer than two events or all their times are
   valid; otherwise the first event that is not decides. *)
Theorem overlaps_outcome : forall l,
  (List.length l < 2 /\ find_overlapping_events l = Ok []) \/
  (2 <= List.length l /\ (exists ts, Forall2 (fun e t => event_times e = Ok t) l ts) /\ exists o, find_overlapping_events l = Ok o) \/
  (2 <= List.length l /\ exists u x v, l = u ++ x :: v /\ (forall y, In y u -> exists t, event_times y = Ok t) /\
     (event_times x = Err /\ find_overlapping_events l = Err \/ event_times x = Panic /\ find_overlapping_events l = Panic)).
Proof.
  intros l. unfold find_overlapping_events. destruct (Nat.ltb_spec (List.length l) 2) as [L|L]; [now left|right].
  destruct (all_times_first event_times l) as [H|(u & x & v & E & U & H)].
  - left. split; [exact L|]. assert (K : exists ts, Forall2 (fun e t => event_times e = Ok t) l ts).
    { clear L. induction l as [|x l IH]; [now exists []|]. destruct (H x (or_introl eq_refl)) as [t T]. destruct IH as [ts F]; [intros y I; apply H; now right|]. exists (t :: ts). now constructor. }
    split; [exact K|]. destruct K as [ts F]. apply all_times_ok in F. rewrite F. now eexists.
  - right. split; [exact L|]. exists u, x, v. split; [exact E|]. split; [exact U|]. destruct H as [[A B]|[A B]]; rewrite B; [left|right]; split; auto.
Qed.
Print Assumptions overlaps_outcome.
Theorem overlaps_counted : forall l, count_overlapping_events l = match find_overlapping_events l with Ok o => Ok (List.length o) | Err => Err | Panic => Panic end.
Proof. intros l. unfold count_overlapping_events. destruct (find_overlapping_events l); reflexivity. Qed.
Print Assumptions overlaps_counted.
Definition ev (s e t : string) : event :=
  Event Dialogue [] (lit s) (lit e) [] [] [] [] [] None None [] (lit t) (Span 0 0 0 0).
Definition three : list event := [ev "0:00:05.00" "0:00:09.00" "c"; ev "0:00:00.00" "0:00:05.00" "a"; ev "0:00:04.00" "0:00:06.00" "b"].
Example overlaps_instance : find_overlapping_events three = Ok [(1, 2); (2, 0)] /\
  Forall2 (fun e t => event_times e = Ok t) three [(500, 900); (0, 500); (400, 600)]%N /\ Forall (fun t => (fst t < snd t)%N) [(500, 900); (0, 500); (400, 600)]%N.
Proof.
  split; [vm_compute; reflexivity|]. split; [repeat (constructor; [vm_compute; reflexivity|]); constructor|]. repeat (constructor; [vm_compute; reflexivity|]). constructor.
Qed.
(* An empty event is paired with everything after it, though it shares no instant. *)
Theorem overlaps_empty_event_refuted : exists l ts o, Forall2 (fun e t => event_times e = Ok t) l ts /\ find_overlapping_events l = Ok o /\ In (0, 1) o /\ ~ common_instant ts 0 1.
Proof.
  exists [ev "0:00:01.00" "0:00:01.00" ""; ev "0:00:50.00" "0:00:59.00" "x"], [(100, 100); (5000, 5900)]%N, [(0, 1)].
  split; [repeat (constructor; [vm_compute; reflexivity|]); constructor|]. split; [vm_compute; reflexivity|]. split; [now left|].
  intros (a & b & t & A & _ & I & _). injection A as <-. unfold instant in I. cbn in I. lia.
Qed.
Print Assumptions overlaps_empty_event_refuted.
(* One event is never checked, so its times may be invalid. *)
Theorem overlaps_single_unchecked : forall e, find_overlapping_events [e] = Ok [].
Proof. reflexivity. Qed.
Print Assumptions overlaps_single_unchecked.
(* Analysed events never fail. *)
Theorem dialogue_overlaps_exact : forall l, 2 <= List.length l -> Forall analyzed l -> exists o, find_overlapping_dialogue_events l = Ok o /\
  NoDup o /\ forall i j, In (i, j) o \/ In (j, i) o <-> i <> j /\ common_instant (map range_of l) i j.
Proof.
  intros l L F. unfold find_overlapping_dialogue_events, find_overlapping_events. rewrite map_length. destruct (Nat.ltb_spec (List.length l) 2); [lia|].
  assert (T : all_times event_times (map di_event l) = Ok (map range_of l)).
  { apply all_times_ok. clear L H. induction F as [|d l D F IH]; [constructor|]. cbn [map]. constructor; [|exact IH]. destruct (analyzed_times d D) as (A & B & _). unfold event_times. rewrite A. cbn. rewrite B. reflexivity. }
  rewrite T. cbn. eexists. split; [reflexivity|].
  destruct (overlaps_valid (map range_of l)) as (N & _ & O); [|split; [exact N|exact O]].
  apply Forall_map. eapply Forall_impl; [|exact F]. intros d D. destruct (analyzed_times d D) as (_ & _ & Q). exact Q.
Qed.
Print Assumptions dialogue_overlaps_exact.

(* ---- C23: sorting ---- *)
Theorem sort_events_permutation : forall l, Permutation l (sort_events_by_time l).
Proof. intros l. apply sort_perm. Qed.
Print Assumptions sort_events_permutation.
Theorem sort_events_ordered : forall l, StronglySorted (fun a b => (di_start a < di_start b)%N \/ di_start a = di_start b /\ (di_end a <= di_end b)%N) (sort_events_by_time l).
Proof.
  intros l. pose proof (sort_sorted time_le time_le_total time_le_trans l) as H. unfold sort_events_by_time. revert H. generalize (stable_sort time_le l). intros m H.
  induction H as [|x m S IH F]; constructor; [exact IH|]. eapply Forall_impl; [|exact F]. intros y. apply time_le_iff.
Qed.
Print Assumptions sort_events_ordered.
(* Events with the same times keep their order. *)
Theorem sort_events_stable : forall l s e, let p := fun d => ((di_start d =? s) && (di_end d =? e))%N in filter p (sort_events_by_time l) = filter p l.
Proof.
  intros l s e p. assert (H : forall m k, di_start k = s -> di_end k = e -> filter p m = filter (same time_le k) m).
  { intros m k A B. apply filter_ext. intros d. destruct (same time_le k d) eqn:E.
    - apply same_time in E as [E1 E2]. unfold p. rewrite <- E1, <- E2, A, B, !N.eqb_refl. reflexivity.
    - apply not_true_iff_false. intros Q. unfold p in Q. apply andb_true_iff in Q as [Q1 Q2]. apply N.eqb_eq in Q1, Q2.
      assert (same time_le k d = true) by (apply same_time; split; congruence). congruence. }
  set (k := Info (Event Dialogue [] [] [] [] [] [] [] [] None None [] [] (Span 0 0 0 0)) s e 0%N 0%N (TextAnalysis [] 0 0 false false [] [])).
  rewrite !(H _ k eq_refl eq_refl). apply sort_stable; [exact time_le_total|exact time_le_trans].
Qed.
Print Assumptions sort_events_stable.
Definition info (s e : string) (t : string) : dialogue_info :=
  match analyze (ev s e t) with Done (Some d) => d | _ => Info (ev s e t) 0%N 0%N 0%N 0%N (TextAnalysis [] 0 0 false false [] []) end.
Definition some_infos : list dialogue_info := [info "0:00:05.00" "0:00:09.00" "a"; info "0:00:01.00" "0:00:09.00" "b"; info "0:00:05.00" "0:00:09.00" "c"; info "0:00:05.00" "0:00:06.00" "d"].
Example sort_instance : map (fun d => e_text (di_event d)) (sort_events_by_time some_infos) = [lit "b"; lit "d"; lit "a"; lit "c"] /\ Forall analyzed some_infos.
Proof. split; [vm_compute; reflexivity|]. repeat (constructor; [exists no_registry; vm_compute; reflexivity|]). constructor. Qed.

(* ---- C62: relations of events in time ---- *)
Theorem analyzed_event_times : forall d, analyzed d -> parse_ass_time (e_start (di_event d)) = Ok (di_start d) /\ parse_ass_time (e_end (di_event d)) = Ok (di_end d) /\ (di_start d < di_end d)%N.
Proof. exact analyzed_times. Qed.
Print Assumptions analyzed_event_times.
(* The scores of an analyzed event come from its visible characters and its tags. *)
Theorem analyzed_event_scores : forall reg e d, analyze_with reg e = Done (Some d) ->
  di_event d = e /\ analyze_text_with reg (e_text e) = Done (Some (di_text d)) /\
  exists n, total_score (ta_tags (di_text d)) n /\ (n <= 255)%N /\ di_animation d = N.min n 10 /\
  di_complexity d = N.min 100 (5 * N.min n 10 + points_above length_points (N.of_nat (ta_chars (di_text d))) + points_above tag_points (N.of_nat (List.length (ta_tags (di_text d)))))%N.
Proof.
  intros reg e d H. unfold analyze_with in H. destruct (parse_ass_time (e_start e)) as [s| |]; try discriminate. cbn [lift] in H.
  destruct (parse_ass_time (e_end e)) as [t| |]; try discriminate. cbn [lift] in H. destruct (t <=? s)%N; [discriminate|].
  destruct (analyze_text_with reg (e_text e)) as [[ta|]| |]; try discriminate. cbn in H. destruct (total_score_exists (ta_tags ta)) as (n & T & _).
  pose proof (animation_score_exact _ _ T) as A. destruct (animation_score (ta_tags ta)) as [a| |]; try discriminate. cbn in H. injection H as <-. cbn.
  split; [reflexivity|]. split; [reflexivity|]. exists n. destruct (N.leb_spec n 255); [|discriminate]. injection A as ->.
  split; [exact T|]. split; [assumption|]. split; [reflexivity|apply complexity_score_exact].
Qed.
Print Assumptions analyzed_event_scores.
Example analyzed_event_scores_instance : exists d, analyze (ev "0:00:01.00" "0:00:02.00" "{\b1\t(1)}hello") = Done (Some d) /\ di_animation d = 6%N /\ di_complexity d = 35%N /\ ta_chars (di_text d) = 5.
Proof. eexists. split; [vm_compute; reflexivity|]. repeat split. Qed.
(* A time that cannot be read hides every overlap instead of failing. *)
Theorem dialogue_overlaps_unread : forall l, find_overlapping_events (map di_event l) = Err -> find_overlapping_dialogue_events l = Ok [].
Proof. intros l H. unfold find_overlapping_dialogue_events. now rewrite H. Qed.
Print Assumptions dialogue_overlaps_unread.
Theorem timing_relation_meaning : forall a b, analyzed a -> analyzed b ->
  match relation_of a b with
  | Identical => forall t, instant (range_of a) t <-> instant (range_of b) t
  | NoOverlap => forall t, ~ (instant (range_of a) t /\ instant (range_of b) t)
  | FullOverlap => ~ (forall t, instant (range_of a) t <-> instant (range_of b) t) /\
      ((forall t, instant (range_of a) t -> instant (range_of b) t) \/ forall t, instant (range_of b) t -> instant (range_of a) t)
  | PartialOverlap => (exists t, instant (range_of a) t /\ instant (range_of b) t) /\
      (exists t, instant (range_of a) t /\ ~ instant (range_of b) t) /\ exists t, instant (range_of b) t /\ ~ instant (range_of a) t
  end.
Proof. intros a b A B. apply relation_cases; [apply (analyzed_times a A)|apply (analyzed_times b B)]. Qed.
Print Assumptions timing_relation_meaning.
Theorem timing_relation_symmetric : forall a b, relation_of a b = relation_of b a.
Proof. exact relation_sym. Qed.
Print Assumptions timing_relation_symmetric.
Theorem events_in_range_exact : forall l s e, Forall analyzed l -> (s < e)%N ->
  StronglySorted lt (find_events_in_range l s e) /\
  forall i, In i (find_events_in_range l s e) <-> exists d t, nth_error l i = Some d /\ instant (range_of d) t /\ (s <= t < e)%N.
Proof.
  intros l s e F L. split; [apply indices_sorted|]. intros i. unfold find_events_in_range. rewrite indices_iff. rewrite Forall_forall in F. split.
  - intros (n & d & -> & N & P). apply range_overlap in P as (t & T1 & T2); [|apply (analyzed_times d), F, (nth_error_In _ _ N)|exact L]. exists d, t. auto.
  - intros (d & t & N & T1 & T2). exists i, d. repeat split; [exact N|]. apply range_overlap; [apply (analyzed_times d), F, (nth_error_In _ _ N)|exact L|now exists t].
Qed.
Print Assumptions events_in_range_exact.
Example relation_instance : relation_of (info "0:00:01.00" "0:00:03.00" "") (info "0:00:02.00" "0:00:04.00" "") = PartialOverlap /\
  relation_of (info "0:00:01.00" "0:00:03.00" "") (info "0:00:03.00" "0:00:04.00" "") = NoOverlap /\ find_events_in_range some_infos 100 500 = [1].
Proof. vm_compute. repeat split. Qed.
(* An empty range inside an event counts as overlapping it. *)
Theorem events_in_empty_range_refuted : exists d t, analyzed d /\ overlaps_time_range d t t = true.
Proof. exists (info "0:00:01.00" "0:00:03.00" ""), 200%N. split; [exists no_registry; vm_compute; reflexivity|reflexivity]. Qed.
Print Assumptions events_in_empty_range_refuted.

(* ---- C63: durations ---- *)
Theorem duration_of_event : forall d, analyzed d -> duration_cs d = Ok (di_end d - di_start d)%N /\
  duration_ms d = (if (u32_max <? (di_end d - di_start d) * 10)%N then Panic else Ok ((di_end d - di_start d) * 10)%N).
Proof.
  intros d D. destruct (analyzed_times d D) as (_ & _ & L). unfold duration_ms, duration_cs, u32_sub. destruct (N.ltb_spec (di_end d) (di_start d)); [lia|]. split; reflexivity.
Qed.
Print Assumptions duration_of_event.
Theorem total_duration_exact : forall l, l <> [] -> Forall analyzed l -> exists s e, calculate_total_duration l = Ok (Some (e - s)%N) /\ (s < e)%N /\
  (exists d, In d l /\ di_start d = s) /\ (exists d, In d l /\ di_end d = e) /\ forall d, In d l -> (s <= di_start d /\ di_end d <= e)%N.
Proof. exact total_duration. Qed.
Print Assumptions total_duration_exact.
Theorem average_duration_exact : forall l, l <> [] -> Forall analyzed l -> (N.of_nat (List.length l) <= u32_max)%N ->
  let n := total_of (map length_of l) in
  calculate_average_duration l = if (n <=? u32_max)%N then Ok (Some (n / N.of_nat (List.length l))%N) else Panic.
Proof.
  intros l NE F L n. unfold calculate_average_duration. destruct l as [|d l]; [congruence|]. rewrite sum_durations_ok.
  - rewrite N.add_0_l. fold n. destruct (n <=? u32_max)%N; [|reflexivity]. cbn [res_bind]. rewrite N.min_l by exact L. reflexivity.
  - eapply Forall_impl; [|exact F]. intros x X. apply (analyzed_times x X).
  - unfold u32_max. lia.
Qed.
Print Assumptions average_duration_exact.
Example duration_instance : calculate_total_duration some_infos = Ok (Some 800%N) /\ calculate_average_duration some_infos = Ok (Some 425%N).
Proof. vm_compute. split; reflexivity. Qed.
(* Long events make both overflow. *)
Theorem duration_overflow_refuted : exists d, analyzed d /\ duration_ms d = Panic /\ calculate_average_duration [d; d] = Panic.
Proof. exists (info "0:00:00.00" "11000:00:00.00" ""). split; [exists no_registry; vm_compute; reflexivity|]. split; vm_compute; reflexivity. Qed.
Print Assumptions duration_overflow_refuted.
