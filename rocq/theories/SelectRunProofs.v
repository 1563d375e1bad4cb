(* The selector does not panic on safe histories; dirty regions. *)
From Verif Require Import BaseLemmas SelectSpec SelectProofs.
From Coq Require Import Permutation Sorted.

(* ---- rectangles ---- *)
Lemma add32_done a b c : add32 a b = Done c <-> c = (a + b)%N /\ (a + b <= u32_max)%N.
Proof. unfold add32. destruct (N.ltb_spec u32_max (a + b)); split; intros H'; try discriminate; [lia|injection H' as <-; split; [reflexivity|lia]|destruct H' as [-> _]; reflexivity]. Qed.
Lemma add32_ok a b : (a + b <= u32_max)%N -> add32 a b = Done (a + b)%N.
Proof. intros H. apply add32_done. now split. Qed.
Lemma merge_exact r q m : merge r q = Done m <-> in_range r /\ in_range q /\ hull [r; q] m.
Proof.
  unfold merge, in_range, right, bottom. split.
  - destruct (add32 (rg_x r) (rg_w r)) as [a| |] eqn:A; try discriminate. destruct (add32 (rg_x q) (rg_w q)) as [b| |] eqn:B; try discriminate.
    destruct (add32 (rg_y r) (rg_h r)) as [c| |] eqn:C; try discriminate. destruct (add32 (rg_y q) (rg_h q)) as [d| |] eqn:D; try discriminate. apply add32_done in A, B, C, D. cbn [bind]. intros [= <-].
    split; [lia|]. split; [lia|]. constructor; unfold right, bottom; cbn [rg_x rg_y rg_w rg_h].
    + intros z [<-|[<-|[]]]; lia.
    + destruct (N.le_ge_cases (rg_x r) (rg_x q)); [exists r|exists q]; (split; [cbn; auto|lia]).
    + destruct (N.le_ge_cases a b); [exists q|exists r]; (split; [cbn; auto|lia]).
    + destruct (N.le_ge_cases (rg_y r) (rg_y q)); [exists r|exists q]; (split; [cbn; auto|lia]).
    + destruct (N.le_ge_cases c d); [exists q|exists r]; (split; [cbn; auto|lia]).
  - intros ([Ra Rb] & [Qa Qb] & H). rewrite !add32_ok by assumption. cbn [bind]. f_equal. destruct H as [HI HL HR HT HB]. pose proof (HI r (or_introl eq_refl)) as I1. pose proof (HI q (or_intror (or_introl eq_refl))) as I2.
    unfold right, bottom in *. destruct m as [mx my mw mh]. cbn [rg_x rg_y rg_w rg_h] in *.
    assert (X : mx = N.min (rg_x r) (rg_x q)) by (destruct HL as (z & [<-|[<-|[]]] & E); lia).
    assert (Y : my = N.min (rg_y r) (rg_y q)) by (destruct HT as (z & [<-|[<-|[]]] & E); lia).
    assert (W : (mx + mw = N.max (rg_x r + rg_w r) (rg_x q + rg_w q))%N) by (destruct HR as (z & [<-|[<-|[]]] & E); lia).
    assert (H : (my + mh = N.max (rg_y r + rg_h r) (rg_y q + rg_h q))%N) by (destruct HB as (z & [<-|[<-|[]]] & E); lia).
    f_equal; lia.
Qed.
Lemma hull_in_range g r : hull g r -> Forall in_range g -> in_range r.
Proof. intros [_ _ (a & A & A') _ (b & B & B')] F. rewrite Forall_forall in F. apply F in A, B. unfold in_range in *. lia. Qed.
Lemma hull_one r : hull [r] r.
Proof. constructor; [intros q [<-|[]]; lia| | | |]; exists r; (split; [now left|reflexivity]). Qed.
Lemma hull_more g r q m : hull g r -> hull [r; q] m -> hull (g ++ [q]) m.
Proof.
  intros [I1 L1 R1 T1 B1] [I2 L2 R2 T2 B2]. constructor.
  - intros z Z. apply in_app_iff in Z. destruct Z as [Z|[<-|[]]]; [|apply I2; cbn; auto]. apply I1 in Z. pose proof (I2 r (or_introl eq_refl)). lia.
  - destruct L2 as (z & [<-|[<-|[]]] & E); [destruct L1 as (y & Y & E')|]; [exists y|exists q]; (split; [apply in_app_iff; cbn; auto|congruence]).
  - destruct R2 as (z & [<-|[<-|[]]] & E); [destruct R1 as (y & Y & E')|]; [exists y|exists q]; (split; [apply in_app_iff; cbn; auto|congruence]).
  - destruct T2 as (z & [<-|[<-|[]]] & E); [destruct T1 as (y & Y & E')|]; [exists y|exists q]; (split; [apply in_app_iff; cbn; auto|congruence]).
  - destruct B2 as (z & [<-|[<-|[]]] & E); [destruct B1 as (y & Y & E')|]; [exists y|exists q]; (split; [apply in_app_iff; cbn; auto|congruence]).
Qed.
Lemma hull_covers g r q x y : hull g r -> In q g -> covers q x y -> covers r x y.
Proof. intros [I _ _ _ _] Q C. apply I in Q. unfold covers, right, bottom in *. lia. Qed.
Lemma add_grouped l : forall q l' pend, add_region l q = Done l' -> grouped pend l -> grouped (pend ++ [q]) l'.
Proof.
  induction l as [|r l IH]; intros q l' pend A (groups & P & H); cbn [add_region] in A.
  - injection A as <-. inversion H; subst. cbn [concat] in P. apply Permutation_nil in P. subst. exists [[q]]. split; [apply Permutation_refl|]. constructor; [apply hull_one|constructor].
  - inversion H as [|g ? gs ? H1 H2]; subst. destruct (regions_overlap r _ _ _ _) as [o| |]; try discriminate. cbn [bind] in A. destruct o.
    + destruct (merge r q) as [m| |] eqn:M; try discriminate. injection A as <-. apply merge_exact in M. exists ((g ++ [q]) :: gs). split; [|constructor; [now apply (hull_more g r q)|exact H2]].
      cbn [concat] in *. rewrite <- app_assoc. eapply Permutation_trans; [apply Permutation_app_head, Permutation_app_comm|]. rewrite app_assoc. now apply Permutation_app_tail.
    + destruct (add_region l q) as [l1| |] eqn:A1; try discriminate. injection A as <-. destruct (IH q l1 (concat gs) A1) as (gs' & P' & H'); [exists gs; split; [apply Permutation_refl|exact H2]|].
      exists (g :: gs'). split; [|now constructor]. cbn [concat] in *. eapply Permutation_trans; [apply Permutation_app_head, P'|]. rewrite app_assoc. now apply Permutation_app_tail.
Qed.
Lemma run_grouped shuffle ops : forall s s' l pend, selector_run shuffle s ops = Done (s', l) -> grouped pend (sl_regions s) -> grouped (pending pend ops) (sl_regions s').
Proof.
  induction ops as [|o ops IH]; intros s s' l pend; cbn [selector_run pending]; [intros [= <- <-]; auto|].
  destruct (selector_step shuffle s o) as [[s1 l1]| |] eqn:E; try discriminate. cbn [bind fst snd]. destruct (selector_run shuffle s1 ops) as [[s2 l2]| |] eqn:E2; try discriminate. cbn [bind fst snd]. intros [= <- <-] G.
  destruct o as [address sections t|b|q| |]; cbn [selector_step] in E.
  - destruct (select_active shuffle s address sections t) as [[s3 a]| |] eqn:Q; try discriminate. injection E as <- <-. apply (IH _ _ _ _ E2). cbn [fst].
    unfold select_active in Q. destruct (match first_events sections with Some _ => _ | None => _ end) as [[[ix cur] evs]| |]; try discriminate. cbn [bind] in Q.
    match type of Q with (d <- ?D ;; _) = _ => destruct D as [d| |]; try discriminate end. injection Q as <- <-. exact G.
  - injection E as <- <-. apply (IH _ _ _ _ E2). exact G.
  - destruct (add_region (sl_regions s) q) as [r| |] eqn:A; try discriminate. injection E as <- <-. apply (IH _ _ _ _ E2). now apply (add_grouped (sl_regions s)).
  - injection E as <- <-. apply (IH _ _ _ _ E2). exists []. split; constructor.
  - injection E as <- <-. apply (IH _ _ _ _ E2). exists []. split; constructor.
Qed.
Lemma overlap_exact r q : in_range r -> in_range q -> exists b, regions_overlap r (rg_x q) (rg_y q) (rg_w q) (rg_h q) = Done b /\ (b = true <-> (rg_x q < right r /\ rg_x r < right q /\ rg_y q < bottom r /\ rg_y r < bottom q)%N).
Proof.
  intros [R1 R2] [Q1 Q2]. unfold regions_overlap, or_else. rewrite !add32_ok by assumption. cbn [bind]. unfold right, bottom in *.
  destruct (N.leb_spec (rg_x r + rg_w r) (rg_x q)); cbn [bind negb]; [eexists; split; [reflexivity|split; [discriminate|lia]]|].
  destruct (N.leb_spec (rg_x q + rg_w q) (rg_x r)); cbn [bind negb]; [eexists; split; [reflexivity|split; [discriminate|lia]]|].
  destruct (N.leb_spec (rg_y r + rg_h r) (rg_y q)); cbn [bind negb]; [eexists; split; [reflexivity|split; [discriminate|lia]]|].
  destruct (N.leb_spec (rg_y q + rg_h q) (rg_y r)); cbn [bind negb]; (eexists; split; [reflexivity|]); split; try discriminate; try lia; reflexivity.
Qed.
Lemma merge_runs r q : in_range r -> in_range q -> exists m, merge r q = Done m /\ in_range m.
Proof.
  intros R Q. assert (E : exists m, merge r q = Done m). { unfold merge. destruct R as [R1 R2], Q as [Q1 Q2]. unfold right, bottom in *. rewrite !add32_ok by assumption. cbn [bind]. eauto. }
  destruct E as (m & E). exists m. split; [exact E|]. apply merge_exact in E. destruct E as (_ & _ & H). apply (hull_in_range _ _ H). repeat constructor; apply R || apply Q.
Qed.
Lemma add_runs l : forall q, Forall in_range l -> in_range q -> exists l', add_region l q = Done l' /\ Forall in_range l'.
Proof.
  induction l as [|r l IH]; intros q F Q; cbn [add_region]; [eexists; split; [reflexivity|now constructor]|]. inversion F as [|? ? R F']; subst.
  destruct (overlap_exact r q R Q) as (b & -> & _). cbn [bind]. destruct b.
  - destruct (merge_runs r q R Q) as (m & -> & M). eexists. split; [reflexivity|now constructor].
  - destruct (IH q F' Q) as (l' & -> & G). eexists. split; [reflexivity|now constructor].
Qed.

(* ---- no panic ---- *)
Lemma time_runs s : parse_ass_time s <> Panic -> exists n, time_or_zero s = Done n.
Proof. unfold time_or_zero. destruct (parse_ass_time s); [eauto|eauto|congruence]. Qed.
Lemma entries_run c events : forall i, Forall readable events -> exists l, entries c i events = Done l.
Proof.
  induction events as [|e r IH]; intros i F; cbn [entries]; [eauto|]. inversion F as [|? ? [R1 R2] F']; subst. destruct (included c (e_type e)); [|now apply IH].
  destruct (time_runs _ R1) as (s & ->), (time_runs _ R2) as (t & ->), (IH (S i) F') as (l & ->). cbn [bind]. eauto.
Qed.
Lemma animated_runs t events : Forall readable events -> exists b, has_animated events t = Done b.
Proof.
  induction events as [|e r IH]; intros F; cbn [has_animated]; [eauto|]. inversion F as [|? ? [R1 R2] F']; subst. destruct (_ || _ || _ || _)%bool; [eauto|]. destruct (_ || _)%bool; [|now apply IH].
  destruct (parse_ass_time (e_start e)); [destruct (_ <? _)%N; eauto|auto|congruence].
Qed.
Section Runs.
  Variable shuffle : list entry -> list entry.
  Hypothesis shuffles : forall l, Permutation l (shuffle l).
  Variable all : list selector_op.
  Hypothesis stable : addresses_stable all.
  Hypothesis safe : Forall op_safe all.
  Lemma query_runs s m address sections t : remembers shuffle all s m -> In (Query address sections t) all -> exists r, select_active shuffle s address sections t = Done r.
  Proof.
    intros R Q. pose proof safe as SF. rewrite Forall_forall in SF. destruct (SF _ Q) as [T RD]. unfold select_active.
    assert (C : exists ix lines found, match first_events sections with
             | Some events => i <- ensure_index shuffle s address events ;; l <- active_indices i t ;; es <- pick events l ;; Done (Some i, l, es)
             | None => Done (sl_index s, [], []) end = Done (ix, map fst found, map snd found) /\ script_lines sections lines /\ chosen (on_screen (me_comments m) t) 0 lines found).
    { destruct (first_events sections) as [lines|] eqn:F.
      - assert (SL : script_lines sections lines) by (apply first_lines; now rewrite F). destruct (entries_run (me_comments m) lines 0 (RD _ SL)) as (en & EN).
        assert (B : exists i, ensure_index shuffle s address lines = Done i). { unfold ensure_index, build_index. rewrite (re_comments _ _ _ _ R), EN. destruct (sl_index s); [destruct (_ && _ && _)%bool|]; cbn [bind]; eauto. }
        destruct B as (i & B). rewrite B. cbn [bind]. apply (ensured shuffle all stable s m address sections t lines i R Q F) in B.
        destruct (index_answers shuffle shuffles _ _ _ _ t B) as (found & Ch & A & P). rewrite A. cbn [bind]. rewrite P. cbn [bind]. exists (Some i), lines, found. now split.
      - exists (sl_index s), [], []. split; [reflexivity|]. split; [apply first_lines; now rewrite F|constructor]. }
    destruct C as (ix & lines & found & -> & SL & Ch). cbn [bind]. destruct (_ || _)%bool; cbn [bind]; [eauto|].
    destruct (animated_runs t (map snd found)) as (b & ->).
    { apply Forall_forall. intros e E. apply in_map_iff in E. destruct E as ([k e'] & <- & E). destruct (chosen_pick _ _ _ _ Ch _ _ E) as (j & _ & NE). apply nth_error_In in NE. pose proof (RD _ SL) as FR. rewrite Forall_forall in FR. now apply FR. }
    cbn [bind]. destruct b; cbn [bind]; [eauto|]. rewrite (re_last _ _ _ _ R). pose proof (re_small _ _ _ _ R) as SM. destruct (me_last m) as [last|]; cbn [bind]; [|eauto].
    destruct (far_runs t last T (SM _ eq_refl)) as (d & ->). cbn [bind]. eauto.
  Qed.
  Lemma ops_run ops : forall s m, remembers shuffle all s m -> Forall in_range (sl_regions s) -> incl ops all -> exists r, selector_run shuffle s ops = Done r.
  Proof.
    induction ops as [|o ops IH]; intros s m R G I; cbn [selector_run]; [eauto|].
    assert (Io : In o all) by (apply I; now left). assert (I' : incl ops all) by (intros x X; apply I; now right). pose proof safe as SF. rewrite Forall_forall in SF. specialize (SF _ Io).
    destruct o as [address sections t|b|q| |]; cbn [selector_step].
    - destruct (query_runs s m address sections t R Io) as ([s1 a] & E). rewrite E. cbn [bind fst snd]. destruct SF as [T _].
      destruct (query_ok shuffle shuffles all stable s m address sections t s1 a R Io T E) as (m1 & _ & R1).
      destruct (IH s1 m1 R1) as (r & ->); [|exact I'|cbn [bind]; eauto].
      unfold select_active in E. destruct (match first_events sections with Some _ => _ | None => _ end) as [[[ix cur] evs]| |]; try discriminate. cbn [bind] in E.
      match type of E with (d <- ?D ;; _) = _ => destruct D as [d| |]; try discriminate end. injection E as <- <-. exact G.
    - cbn [bind fst snd]. destruct (IH (set_comments b s) (Memory b (me_shown m) (me_last m))) as (r & ->); [|exact G|exact I'|cbn [bind]; eauto].
      constructor; cbn [set_comments sl_comments sl_previous sl_last sl_index me_shown me_comments me_last]; try reflexivity; apply R.
    - destruct (add_runs (sl_regions s) q G SF) as (l' & -> & G'). cbn [bind fst snd]. destruct (IH (with_regions s l') m) as (r & ->); [|exact G'|exact I'|cbn [bind]; eauto].
      constructor; cbn [with_regions sl_comments sl_previous sl_last sl_index]; apply R.
    - cbn [bind fst snd]. destruct (IH (with_regions s []) m) as (r & ->); [|constructor|exact I'|cbn [bind]; eauto].
      constructor; cbn [with_regions sl_comments sl_previous sl_last sl_index]; apply R.
    - cbn [bind fst snd]. destruct (IH (reset s) (Memory (me_comments m) [] None)) as (r & ->); [|constructor|exact I'|cbn [bind]; eauto].
      constructor; cbn [reset sl_comments sl_previous sl_last sl_index me_shown me_comments me_last]; try reflexivity; try apply R; [constructor|discriminate].
  Qed.
End Runs.
Lemma selector_runs shuffle ops : (forall l, Permutation l (shuffle l)) -> addresses_stable ops -> Forall op_safe ops -> exists r, selector_run shuffle new_selector ops = Done r.
Proof.
  intros SH ST F. apply (ops_run shuffle SH ops ST F ops new_selector blank); [|constructor|apply incl_refl]. constructor; cbn; try reflexivity; try discriminate. constructor.
Qed.
Lemma add_exact l : forall q l', Forall in_range l -> in_range q -> add_region l q = Done l' -> added l q l'.
Proof.
  induction l as [|r l IH]; intros q l' F Q; cbn [add_region]; [intros [= <-]; left; split; [constructor|reflexivity]|]. inversion F as [|? ? R F']; subst.
  destruct (overlap_exact r q R Q) as (b & -> & B). cbn [bind]. fold (meets r q) in B. destruct b.
  - destruct (merge r q) as [m| |] eqn:M; try discriminate. intros [= <-]. right. exists [], r, l, m. split; [reflexivity|]. split; [constructor|]. split; [now apply B|]. split; [now apply merge_exact in M|reflexivity].
  - assert (NM : ~ meets r q) by (intros H; apply B in H; discriminate). destruct (add_region l q) as [l1| |] eqn:A; try discriminate. intros [= <-]. destruct (IH q l1 F' Q A) as [[N ->]|(a & z & c & m & -> & N & Z & H & ->)].
    + left. split; [now constructor|reflexivity].
    + right. exists (r :: a), z, c, m. split; [reflexivity|]. split; [now constructor|]. split; [exact Z|]. split; [exact H|reflexivity].
Qed.
Lemma regions_in_range pend stored : Forall in_range pend -> grouped pend stored -> Forall in_range stored.
Proof.
  intros F (groups & P & H). assert (G : Forall in_range (concat groups)) by (rewrite Forall_forall in *; intros x X; apply F; now apply (Permutation_in _ P)). clear F P. induction H as [|g r gs rs H1 H2 IH]; [constructor|].
  cbn [concat] in G. apply Forall_app in G. destruct G as [G1 G2]. constructor; [now apply (hull_in_range g)|now apply IH].
Qed.
