(* C43: the selector answers like a linear scan; C44: dirty regions. *)
From Verif Require Import BaseLemmas SelectSpec SelectProofs SelectRunProofs.

(* ---- C43 ---- *)
(* Whatever was asked before, in whatever order the unstable sort leaves equal
   starts: every answer holds exactly the lines on screen, in script order, the
   changes since the previous query, and whether anything has to be redrawn. *)
Theorem selector_matches_scan : forall shuffle ops s l, (forall l, Permutation l (shuffle l)) -> addresses_stable ops ->
  Forall (fun o => match o with Query _ _ t => (t < 2147483648)%N | _ => True end) ops -> selector_run shuffle new_selector ops = Done (s, l) -> answers blank ops l.
Proof. exact selector_answers. Qed.
Print Assumptions selector_matches_scan.
Theorem selector_never_panics : forall shuffle ops, (forall l, Permutation l (shuffle l)) -> addresses_stable ops -> Forall op_safe ops -> exists r, selector_run shuffle new_selector ops = Done r.
Proof. exact selector_runs. Qed.
Print Assumptions selector_never_panics.
(* the answer is determined by the history *)
Theorem answers_determined : forall m sections t a1 m1 a2 m2, answer_to m sections t a1 m1 -> answer_to m sections t a2 m2 ->
  ac_events a1 = ac_events a2 /\ same_members (ac_new a1) (ac_new a2) /\ same_members (ac_gone a1) (ac_gone a2) /\ ac_dirty a1 = ac_dirty a2 /\ m1 = m2.
Proof.
  intros m sections t a1 m1 a2 m2 [L1 N1 G1 D1 C1 T1] [L2 N2 G2 D2 C2 T2]. destruct L1 as (lines1 & f1 & S1 & Ch1 & E1 & M1), L2 as (lines2 & f2 & S2 & Ch2 & E2 & M2).
  assert (lines1 = lines2) by (apply first_lines in S1, S2; destruct (first_events sections); congruence). subst lines2. assert (f1 = f2) by (apply (chosen_unique _ _ _ _ Ch1 _ Ch2)). subst f2.
  assert (me_shown m1 = me_shown m2) by congruence. assert (m1 = m2) by (destruct m1, m2; cbn in *; congruence). subst m2. split; [congruence|].
  split; [intros i; rewrite (proj2 N1 i), (proj2 N2 i); tauto|]. split; [intros i; rewrite (proj2 G1 i), (proj2 G2 i); tauto|]. split; [|reflexivity].
  assert (Q : ac_dirty a1 = true <-> ac_dirty a2 = true) by (rewrite D1, D2, E1, E2; tauto). destruct (ac_dirty a1), (ac_dirty a2); try reflexivity; destruct Q as [Q1 Q2]; [now rewrite Q1|now rewrite Q2].
Qed.
Print Assumptions answers_determined.
Theorem one_query_exact : forall shuffle address sections t r, (forall l, Permutation l (shuffle l)) -> (t < 2147483648)%N -> select_active_events shuffle address sections t = Done r ->
  exists lines found, script_lines sections lines /\ chosen (on_screen false t) 0 lines found /\ r = map snd found.
Proof.
  intros shuffle address sections t r SH T. unfold select_active_events. destruct (select_active shuffle new_selector address sections t) as [[s a]| |] eqn:E; try discriminate. cbn [bind snd]. intros [= <-].
  assert (A : answers blank [Query address sections t] [a]).
  { apply (selector_answers shuffle _ s); [exact SH| |repeat constructor; exact T|cbn [selector_run selector_step]; rewrite E; reflexivity].
    intros a' s1 t1 s2 t2 l1 l2 Q1 Q2 _ _ S1 S2 _. destruct Q1 as [[= <- <- <-]|[]], Q2 as [[= <- <-]|[]]. apply first_lines in S1, S2. destruct (first_events sections); congruence. }
  inversion A as [|? ? ? ? ? m' ? ? Q _| | | |]; subst. destruct (an_lines _ _ _ _ _ Q) as (lines & found & S & C & E' & _). exists lines, found. repeat split; auto.
Qed.
Print Assumptions one_query_exact.
Definition talk (ty : event_type) (s e t : string) : event := Event ty [] (lit s) (lit e) [] [] [] [] [] None None [] (lit t) (Span 0 0 0 0).
Definition talks : list section :=
  [SStyles []; SEvents [talk Dialogue "0:00:05.00" "0:00:09.00" "late"; talk Dialogue "0:00:01.00" "0:00:06.00" "early"; talk Comment "0:00:01.00" "0:00:06.00" "note"; talk Dialogue "x" "0:00:01.00" "no start"]].
Definition all_of (ev : list section) : list event := match first_events ev with Some l => l | None => [] end.
Example selector_instance : exists s l, selector_run (fun l => l) new_selector
    [Query 1 talks 0; Query 1 talks 100; RenderComments true; Query 1 talks 100; Query 1 talks 599; Query 1 talks 600; Reset; Query 1 talks 601] = Done (s, l) /\
  map (fun a => (map e_text (ac_events a), ac_new a, ac_gone a, ac_dirty a)) l =
  [([lit "no start"], [3], [], true); ([lit "early"], [1], [3], true); ([lit "early"; lit "note"], [2], [], true);
   ([lit "late"; lit "early"; lit "note"], [0], [], true); ([lit "late"], [], [1; 2], true); ([lit "late"], [0], [], true)].
Proof. eexists. eexists. split; vm_compute; reflexivity. Qed.
Example selector_hypotheses : let ops := [Query 1 talks 0; Query 1 talks 100; AddRegion (Region 1 2 3 4)] in addresses_stable ops /\ Forall op_safe ops.
Proof.
  assert (L : forall l, script_lines talks l -> l = all_of talks) by (intros l H; now apply first_lines in H). split.
  - intros a s1 t1 s2 t2 l1 l2 Q1 Q2 _ _ S1 S2 _. assert (s1 = talks) by (destruct Q1 as [[= _ <- _]|[[= _ <- _]|[[=]|[]]]]; reflexivity). assert (s2 = talks) by (destruct Q2 as [[= _ <- _]|[[= _ <- _]|[[=]|[]]]]; reflexivity). subst.
    apply L in S1, S2. congruence.
  - assert (R : forall l, script_lines talks l -> Forall readable l) by (intros l H; apply L in H; subst; repeat constructor; vm_compute; discriminate). repeat constructor; auto; vm_compute; congruence.
Qed.
(* An index is reused when the address, the number of lines and the comment
   flag agree: after a script is edited in place, or freed and another of the
   same size takes its memory, the old times are used. *)
Definition moved : list section := [SEvents [talk Dialogue "0:00:01.00" "0:00:02.00" "a"]].
Definition moved_later : list section := [SEvents [talk Dialogue "0:01:01.00" "0:01:02.00" "a"]].
Theorem stale_index_refuted : exists s l, selector_run (fun l => l) new_selector [Query 1 moved 150; Query 1 moved_later 150] = Done (s, l) /\ ~ answers blank [Query 1 moved 150; Query 1 moved_later 150] l.
Proof.
  eexists. eexists. split; [vm_compute; reflexivity|]. intros A. inversion A as [|? ? ? ? ? m1 ? ? Q1 A2| | | |]; subst. inversion A2 as [|? ? ? ? ? m2 ? ? Q2 _| | | |]; subst.
  destruct (an_lines _ _ _ _ _ Q2) as (lines & found & S & C & E & _). apply first_lines in S. cbn in S. subst lines.
  inversion C as [|? ? ? r P C'|? ? ? ? NP C']; subst.
  - destruct P as [_ (s & u & [S|[S _]] & U & L)]; vm_compute in S; [injection S as <-; lia|discriminate].
  - inversion C'; subst. discriminate.
Qed.
Print Assumptions stale_index_refuted.
(* A jump to a time of 2^31 centiseconds or more panics, or goes unnoticed. *)
Definition nothing : list section := [].
Theorem time_jump_refuted : selector_run (fun l => l) new_selector [Query 1 nothing 0; Query 1 nothing 2147483648] = Crash /\
  exists s l, selector_run (fun l => l) new_selector [Query 1 nothing 0; Query 1 nothing 4294967295] = Done (s, l) /\ map ac_dirty l = [true; false].
Proof. split; [vm_compute; reflexivity|]. eexists. eexists. split; vm_compute; reflexivity. Qed.
Print Assumptions time_jump_refuted.

(* ---- C44 ---- *)
Theorem dirty_regions_grouped : forall shuffle ops s l, selector_run shuffle new_selector ops = Done (s, l) -> grouped (pending [] ops) (sl_regions s).
Proof. intros shuffle ops s l E. apply (run_grouped shuffle ops _ _ _ _ E). exists []. split; constructor. Qed.
Print Assumptions dirty_regions_grouped.
Theorem dirty_regions_cover : forall shuffle ops s l q x y, selector_run shuffle new_selector ops = Done (s, l) -> In q (pending [] ops) -> covers q x y -> exists r, In r (sl_regions s) /\ covers r x y.
Proof.
  intros shuffle ops s l q x y E Q C. destruct (dirty_regions_grouped _ _ _ _ E) as (groups & P & H). apply (Permutation_in _ (Permutation_sym P)) in Q. clear E P. induction H as [|g r gs rs H1 H2 IH]; cbn [concat] in Q; [destruct Q|].
  apply in_app_iff in Q. destruct Q as [Q|Q]; [exists r; split; [now left|now apply (hull_covers g r q)]|]. destruct (IH Q) as (z & Z & C'). exists z. split; [now right|exact C'].
Qed.
Print Assumptions dirty_regions_cover.
Theorem region_added_exactly : forall l q, Forall in_range l -> in_range q -> exists l', add_region l q = Done l' /\ added l q l' /\ Forall in_range l'.
Proof. intros l q F Q. destruct (add_runs l q F Q) as (l' & E & G). exists l'. split; [exact E|]. split; [now apply add_exact|exact G]. Qed.
Print Assumptions region_added_exactly.
Theorem merge_is_hull : forall r q m, merge r q = Done m <-> in_range r /\ in_range q /\ hull [r; q] m.
Proof. exact merge_exact. Qed.
Print Assumptions merge_is_hull.
Theorem merge_smallest : forall g r big, hull g r -> (forall q, In q g -> rg_x big <= rg_x q /\ right q <= right big /\ rg_y big <= rg_y q /\ bottom q <= bottom big)%N ->
  (rg_x big <= rg_x r /\ right r <= right big /\ rg_y big <= rg_y r /\ bottom r <= bottom big)%N.
Proof.
  intros g r big [_ (a & A & A') (b & B & B') (c & C & C') (d & D & D')] H. apply H in A, B, C, D. lia.
Qed.
Print Assumptions merge_smallest.
Theorem contains_point_exact : forall r x y, in_range r -> exists b, contains_point r x y = Done b /\ (b = true <-> covers r x y).
Proof.
  intros r x y [R1 R2]. unfold contains_point, covers. unfold right, bottom in *. rewrite !add32_ok by assumption. cbn [bind].
  destruct (N.leb_spec (rg_x r) x); [|eexists; split; [reflexivity|split; [discriminate|lia]]]. destruct (N.ltb_spec x (rg_x r + rg_w r)); cbn [andb]; [|eexists; split; [reflexivity|split; [discriminate|lia]]].
  destruct (N.leb_spec (rg_y r) y); [|eexists; split; [reflexivity|split; [discriminate|lia]]]. eexists. split; [reflexivity|]. rewrite N.ltb_lt. lia.
Qed.
Print Assumptions contains_point_exact.
(* closed rectangles have a point in common; the far edges stop at 2^32 - 1 *)
Theorem intersects_exact : forall r x1 y1 x2 y2, intersects r x1 y1 x2 y2 = true <->
  (rg_x r <= x2 /\ x1 <= N.min (right r) u32_max /\ rg_y r <= y2 /\ y1 <= N.min (bottom r) u32_max)%N.
Proof. intros r x1 y1 x2 y2. unfold intersects, sat_add, right, bottom. rewrite negb_true_iff, !orb_false_iff, !N.ltb_ge. lia. Qed.
Print Assumptions intersects_exact.
Theorem intersects_sound : forall r x1 y1 x2 y2 x y, covers r x y -> (x <= u32_max)%N -> (y <= u32_max)%N -> (x1 <= x <= x2 /\ y1 <= y <= y2)%N -> intersects r x1 y1 x2 y2 = true.
Proof. intros r x1 y1 x2 y2 x y C X Y B. apply intersects_exact. unfold covers, right, bottom in *. lia. Qed.
Print Assumptions intersects_sound.
(* touching is enough, so an unchanged neighbour counts as hit *)
Theorem intersects_tight_refuted : exists r, intersects r 10 0 20 10 = true /\ forall x y, covers r x y -> ~ (10 <= x <= 20)%N.
Proof. exists (Region 0 0 10 10). split; [reflexivity|]. unfold covers. cbn. lia. Qed.
Print Assumptions intersects_tight_refuted.
Theorem full_screen_covers : forall x y, (x < u32_max)%N -> (y < u32_max)%N -> covers full_screen x y.
Proof. intros x y X Y. unfold covers, full_screen. cbn [rg_x rg_y rg_w rg_h]. lia. Qed.
Print Assumptions full_screen_covers.
Example regions_instance : exists s, selector_run (fun l => l) new_selector [AddRegion (Region 0 0 10 10); AddRegion (Region 20 0 5 5); AddRegion (Region 5 5 10 10); AddRegion (Region 14 0 8 2)] = Done (s, []) /\
  sl_regions s = [Region 0 0 22 15; Region 20 0 5 5].
Proof. eexists. split; vm_compute; reflexivity. Qed.
(* the far edge is computed in 32 bits *)
Theorem region_overflow_refuted : selector_run (fun l => l) new_selector [AddRegion (Region 1 1 u32_max 1); AddRegion (Region 1 1 1 1)] = Crash.
Proof. vm_compute. reflexivity. Qed.
Print Assumptions region_overflow_refuted.
