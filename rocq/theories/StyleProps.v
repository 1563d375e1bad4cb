(* C27: styles and their parents. C69: the values of a resolved style. *)
From Verif Require Import StyleModel StyleSpec MapLib StyleGraphProofs StyleLinkProofs StyleProofs StyleResolveProofs.

Definition plain (name : string) (parent : option string) (size colour : string) : style :=
  Style (lit name) (option_map lit parent) (lit "Arial") (lit size) (lit colour) (lit "&H0000FF&") (lit "&H000000&") [] (lit "1") (lit "0") (lit "0") (lit "0")
    (lit "100") (lit "100") (lit "0") (lit "0.5") (lit "1") (lit "2.5") (lit "0") (lit "2") (lit "10") (lit "20") (lit "30") None None (lit "1") None (Span 0 0 0 0).

(* ---- C69 ---- *)
Theorem style_read_exact : forall s r, from_style s = Ok r <-> resolves s r.
Proof. exact from_style_iff. Qed.
Print Assumptions style_read_exact.
Theorem style_read_never_panics : forall s, from_style s <> Panic.
Proof. exact from_style_panic. Qed.
Print Assumptions style_read_never_panics.
Theorem style_inherited_exact : forall s p r, from_style_with_parent s p = Ok r <-> resolves_under s p r.
Proof. exact with_parent_iff. Qed.
Print Assumptions style_inherited_exact.
Theorem style_scaled_exact : forall sx sy a b, apply_resolution_scaling sx sy a = Ok b <-> scales sx sy a b.
Proof. exact scaling_iff. Qed.
Print Assumptions style_scaled_exact.
Theorem style_scaled_always : forall sx sy a, exists b, apply_resolution_scaling sx sy a = Ok b.
Proof. exact scaling_ok. Qed.
Print Assumptions style_scaled_always.
Theorem style_complexity_bounded : forall s r, from_style s = Ok r -> (rs_complexity r <= 79)%N.
Proof. intros s r H. apply from_style_iff in H. rewrite (rv_complexity _ _ H). apply difficulty_max. Qed.
Print Assumptions style_complexity_bounded.
Example style_read_instance : exists r, from_style (plain "A" None "50" "&H102030") = Ok r /\ rs_size r = Fin 50 /\ rs_primary r = (48, 32, 16, 0)%N /\ rs_back r = (255, 255, 255, 255)%N /\
  rs_outline r = Fin (5 # 2) /\ rs_complexity r = 35%N /\
  from_style (plain "A" None "0" "&H102030") = Err /\ from_style (plain "A" None "" "&H102030") = Err /\ from_style (plain "A" None "50" "red") = Err.
Proof. eexists. vm_compute. repeat split. Qed.
Definition read_style : resolved := Eval vm_compute in match from_style (plain "A" None "50" "&H102030") with Ok r => r | _ => Resolved [] [] NaN (0, 0, 0, 0)%N (0, 0, 0, 0)%N (0, 0, 0, 0)%N (0, 0, 0, 0)%N true true true true NaN NaN NaN NaN 0 NaN NaN 0 0 0 0 0 0 0 end.
Example style_scaled_instance : exists a b, from_style (plain "A" None "50" "&H102030") = Ok a /\ apply_resolution_scaling (Fin 2) (Fin (1 # 2)) a = Ok b /\
  rs_size b = Fin (125 # 2) /\ rs_margin_l b = 20%N /\ rs_margin_t b = 15%N.
Proof. exists read_style. eexists. vm_compute. repeat split. Qed.
(* The size "NaN" is let through, although sizes have to be positive. *)
Theorem size_positive_refuted : exists s r, from_style s = Ok r /\ rs_size r = NaN.
Proof. exists (plain "A" None "nan" ""). eexists. vm_compute. repeat split. Qed.
(* A child cannot set back to 0 or 100 what its parent changed. *)
Theorem child_override_refuted : exists s p r, from_style_with_parent s p = Ok r /\ s_scale_x s = lit "100" /\ rs_scale_x r = Fin 50 /\ s_margin_v s = lit "0" /\ rs_margin_t r = 30%N.
Proof.
  pose (s := Style (lit "B") (Some (lit "A")) [] (lit "20") [] [] [] [] (lit "0") [] [] [] (lit "100") (lit "100") (lit "0") (lit "0") [] (lit "0") (lit "0") [] [] [] (lit "0") None None [] None (Span 0 0 0 0)).
  pose (p := let r := read_style in Resolved (rs_name r) (rs_font r) (rs_size r) (rs_primary r) (rs_secondary r) (rs_outlinec r) (rs_back r) true true true true (Fin 50) (Fin 50) (rs_spacing r) (rs_angle r) (rs_border_style r) (rs_outline r) (rs_shadow r) (rs_alignment r) (rs_margin_l r) (rs_margin_r r) (rs_margin_t r) (rs_margin_b r) (rs_encoding r) 0).
  exists s, p. eexists. vm_compute. repeat split.
Qed.
Print Assumptions child_override_refuted.

(* ---- C27 ---- *)
Theorem styles_analyzed : forall cfg sections, exists a, analyze_styles cfg sections = Done a /\ an_config a = cfg /\ script_scale sections (an_scaling a).
Proof. intros cfg sections. destruct (analysis_spec cfg sections) as (a & E & C & S & _). exists a. auto. Qed.
Print Assumptions styles_analyzed.
(* A name resolves to the last style of that name whose fields can be read,
   scaled as the script asks. *)
Theorem styles_resolved_exact : forall cfg sections a l, analyze_styles cfg sections = Done a -> script_styles sections l ->
  forall n r, resolve_style a n = Some r <-> exists r0, last_readable l n r0 /\ adjusted (an_scaling a) r0 r.
Proof.
  intros cfg sections a l E S. destruct (analysis_spec cfg sections) as (a' & E' & _ & _ & _ & H). assert (a' = a) as -> by congruence. exact (proj1 (H l S)).
Qed.
Print Assumptions styles_resolved_exact.
(* The styles are listed once each, by name. *)
Theorem styles_listed_in_order : forall cfg sections a, analyze_styles cfg sections = Done a -> StronglySorted str_lt (map fst (an_resolved a)).
Proof.
  intros cfg sections a E. destruct (analysis_spec cfg sections) as (a' & E' & _ & _ & S & _). assert (a' = a) as -> by congruence. exact S.
Qed.
Print Assumptions styles_listed_in_order.
Theorem cycle_reported_iff : forall cfg sections a l, analyze_styles cfg sections = Done a -> script_styles sections l ->
  (exists names, In (CircularInheritance names) (an_conflicts a)) <-> cyclic l.
Proof.
  intros cfg sections a l E S. destruct (analysis_spec cfg sections) as (a' & E' & _ & _ & _ & H). assert (a' = a) as -> by congruence. destruct (H l S) as (_ & _ & miss & circ & dup & -> & U & C & D). split.
  - intros (names & I). apply in_app_or in I. destruct I as [I|I]; [apply in_map_iff in I; destruct I as (e & X & _); discriminate|]. apply in_app_or in I. destruct I as [I|I].
    + destruct C as [[C _]|[_ ->]]; [exact C|destruct I].
    + destruct (op_conflicts _); [|subst; destruct I]. destruct D as (ns & _ & _ & ->). apply in_map_iff in I. destruct I as (e & X & _). discriminate.
  - intros Cy. destruct C as [(_ & names & -> & _)|[N _]]; [|contradiction]. exists names. apply in_or_app. right. now left.
Qed.
Print Assumptions cycle_reported_iff.
(* All of the conflicts: the undefined parents style by style, the cycle, and the
   names of several styles. *)
Theorem conflicts_exact : forall cfg sections a l, analyze_styles cfg sections = Done a -> script_styles sections l ->
  exists miss circ dup, an_conflicts a = map (fun e : str * str => MissingParent (fst e) (snd e)) miss ++ circ ++ dup /\
    undefined_parents l l miss /\
    ((cyclic l /\ exists names, circ = [CircularInheritance names] /\ StronglySorted str_lt names /\ forall n, In n names <-> defined l n) \/ (~ cyclic l /\ circ = [])) /\
    (if op_conflicts (cf_options cfg) then duplicates l dup else dup = []).
Proof.
  intros cfg sections a l E S. destruct (analysis_spec cfg sections) as (a' & E' & _ & _ & _ & H). assert (a' = a) as -> by congruence. exact (proj2 (proj2 (H l S))).
Qed.
Print Assumptions conflicts_exact.
Theorem inheritance_info_exact : forall cfg sections a l, analyze_styles cfg sections = Done a -> script_styles sections l ->
  forall n i, sm_get n (an_info a) = Some i <-> op_inheritance (cf_options cfg) = true /\ last_lineage l n i.
Proof.
  intros cfg sections a l E S. destruct (analysis_spec cfg sections) as (a' & E' & _ & _ & _ & H). assert (a' = a) as -> by congruence. exact (proj1 (proj2 (H l S))).
Qed.
Print Assumptions inheritance_info_exact.
(* Leaving out every parent never changes a resolved style. *)
Theorem parents_have_no_effect : forall cfg l1 l l2 a a', (forall x, ~ In (SStyles x) l1) ->
  analyze_styles cfg (l1 ++ SStyles l :: l2) = Done a -> analyze_styles cfg (l1 ++ SStyles (map orphan l) :: l2) = Done a' -> an_resolved a = an_resolved a'.
Proof.
  intros cfg l1 l l2 a a' N E E'.
  destruct (analysis_spec cfg (l1 ++ SStyles l :: l2)) as (b & Eb & _ & Sb & Ob & Hb). destruct (analysis_spec cfg (l1 ++ SStyles (map orphan l) :: l2)) as (b' & Eb' & _ & Sb' & Ob' & Hb'). assert (b = a) as -> by congruence. assert (b' = a') as -> by congruence.
  assert (Sc : an_scaling a = an_scaling a').
  { unfold script_scale in *. assert (Q : forall sx sy, scale_of (l1 ++ SStyles l :: l2) sx sy <-> scale_of (l1 ++ SStyles (map orphan l) :: l2) sx sy).
    { intros sx sy. rewrite <- !scale_iff. unfold resolution_scaling. assert (F : forall x y, find (fun s => match s with SInfo _ _ => true | _ => false end) (l1 ++ SStyles x :: l2) = find (fun s => match s with SInfo _ _ => true | _ => false end) (l1 ++ SStyles y :: l2)). { intros x y. clear. induction l1 as [|e l1 IH]; cbn [app find]; [reflexivity|]. destruct e; cbn [find]; auto. } now rewrite (F l (map orphan l)). }
    assert (U : forall X sx sy sx' sy', scale_of X sx sy -> scale_of X sx' sy' -> (sx, sy) = (sx', sy')) by (intros X sx sy sx' sy' A B; apply scale_iff in A, B; congruence).
    destruct (an_scaling a) as [[sx sy]|], (an_scaling a') as [[sx' sy']|]; [f_equal; eapply U; [exact Sb|]; now apply Q|destruct (Sb' sx sy); now apply Q|destruct (Sb sx' sy'); now apply Q|reflexivity]. }
  destruct (Hb l) as [Rb _]; [left; exists l1, l2; auto|]. destruct (Hb' (map orphan l)) as [Rb' _]; [left; exists l1, l2; auto|].
  assert (Rs : forall s r, resolves (orphan s) r <-> resolves s r) by (intros s r; split; intros []; now constructor).
  assert (La : forall n r, last_readable (map orphan l) n r <-> last_readable l n r).
  { intros n r. unfold last_readable. split.
    - intros (m1 & t & m2 & Em & Nt & Rt & F). destruct (map_eq_app _ _ _ _ Em) as (k1 & k2 & -> & <- & E2). destruct k2 as [|s k2]; [discriminate|]. cbn [map] in E2. injection E2 as <- <-. exists k1, s, k2. split; [reflexivity|]. split; [exact Nt|]. split; [now apply Rs|]. intros u Hu Nu r' Ru. apply (F (orphan u) (in_map _ _ _ Hu) Nu r'). now apply Rs.
    - intros (m1 & t & m2 & -> & Nt & Rt & F). exists (map orphan m1), (orphan t), (map orphan m2). split; [now rewrite map_app|]. split; [exact Nt|]. split; [now apply Rs|]. intros u Hu Nu r' Ru. apply in_map_iff in Hu. destruct Hu as (v & <- & Hv). apply (F v Hv Nu r'). now apply Rs. }
  apply sorted_ext; [exact Ob|exact Ob'|]. intros n.
  assert (Q : forall r, sm_get n (an_resolved a) = Some r <-> sm_get n (an_resolved a') = Some r). { intros r. rewrite Rb, Rb', Sc. now setoid_rewrite La. }
  destruct (sm_get n (an_resolved a)) as [r|]; [symmetry; now apply Q|]. destruct (sm_get n (an_resolved a')) as [r|]; [|reflexivity]. now apply Q.
Qed.
Print Assumptions parents_have_no_effect.
(* An acyclic pair: the child leaves its colour open, and gets white rather than
   the colour of its parent. *)
Theorem inheritance_refuted : exists l a r p, ~ cyclic l /\ inherits_from l (lit "B") (lit "A") /\ analyze_styles default_config [SStyles l] = Done a /\
  resolve_style a (lit "B") = Some r /\ resolve_style a (lit "A") = Some p /\ (exists s, In s l /\ s_name s = lit "B" /\ s_primary s = []) /\ rs_primary p = (48, 32, 16, 0)%N /\ rs_primary r = (255, 255, 255, 255)%N.
Proof.
  set (l := [plain "A" None "50" "&H102030"; plain "B" (Some "A"%string) "50" ""]). exists l. eexists. eexists. eexists. split.
  { destruct (analysis_spec default_config [SStyles l]) as (a & E & _ & _ & _ & H). intros C. apply (proj2 (cycle_reported_iff default_config [SStyles l] a l E ltac:(left; exists [], []; split; [reflexivity|intros ? []]))) in C. destruct C as (names & I). revert I. vm_compute in E. injection E as <-. cbn. intros []. }
  split. { exists (plain "B" (Some "A"%string) "50" ""). split; [right; now left|]. split; [reflexivity|]. split; [reflexivity|]. exists (plain "A" None "50" "&H102030"). split; [now left|reflexivity]. }
  split; [vm_compute; reflexivity|]. split; [vm_compute; reflexivity|]. split; [vm_compute; reflexivity|]. split; [exists (plain "B" (Some "A"%string) "50" ""); split; [right; now left|]; split; reflexivity|]. split; reflexivity.
Qed.
Print Assumptions inheritance_refuted.
Example cycle_instance : exists a, analyze_styles default_config [SStyles [plain "A" (Some "B"%string) "20" ""; plain "B" (Some "A"%string) "30" ""; plain "C" (Some "Z"%string) "x" ""; plain "A" None "40" ""]] = Done a /\
  an_conflicts a = [MissingParent (lit "C") (lit "Z"); CircularInheritance [lit "A"; lit "B"; lit "C"]; DuplicateName [lit "A"; lit "A"]] /\
  map (fun e => (fst e, rs_size (snd e))) (an_resolved a) = [(lit "A", Fin 40); (lit "B", Fin 30)] /\
  map fst (an_info a) = [lit "A"; lit "B"].
Proof. eexists. vm_compute. repeat split. Qed.
Example scaling_instance : exists a r, analyze_styles default_config
    [SInfo [(lit "PlayResX", lit "1920"); (lit "PlayResY", lit "1080"); (lit "LayoutResX", lit "640"); (lit "LayoutResY", lit "360")] (Span 0 0 0 0); SStyles [plain "A" None "20" ""]] = Done a /\
  an_scaling a = Some (Fin 3, Fin 3) /\ resolve_style a (lit "A") = Some r /\ rs_size r = Fin 60 /\ rs_margin_l r = 30%N.
Proof. do 2 eexists. vm_compute. repeat split. Qed.
(* What is said about the resolved styles. *)
Theorem style_issues_exact : forall cfg sections a i, analyze_styles cfg sections = Done a ->
  In i (validate_styles a) <-> exists n r, resolve_style a n = Some r /\ worth_saying cfg r i.
Proof.
  intros cfg sections a i E. destruct (analysis_spec cfg sections) as (a' & E' & C & _ & S & _). assert (a' = a) as -> by congruence. unfold validate_styles. rewrite in_flat_map.
  assert (K : forall r, In i (style_issues (an_config a) r) <-> worth_saying cfg r i).
  { intros r. rewrite C. unfold style_issues, worth_saying. assert (E0 : f32_of 0 = Fin 0) by (vm_compute; reflexivity). assert (E2 : f32_of 200 = Fin (inject_Z 200)) by (vm_compute; reflexivity). rewrite E0, E2, lt_above.
    assert (Z : f_le (rs_size r) (Fin 0) = true <-> (rs_size r = Inf true \/ exists q, rs_size r = Fin q /\ (q <= 0)%Q)).
    { destruct (rs_size r) as [|[|]|q]; cbn [f_le]; [split; [discriminate|intros [D|(q & D & _)]; discriminate]|split; auto|split; [discriminate|intros [D|(q & D & _)]; discriminate]|]. rewrite Qle_bool_iff. split; [intros H; right; eauto|intros [D|(q' & [= <-] & H)]; [discriminate|exact H]]. }
    assert (W : (70 <? rs_complexity r)%N = true <-> (70 < rs_complexity r)%N) by apply N.ltb_lt. revert Z W. generalize (f_le (rs_size r) (Fin 0)) (op_strict (cf_options cfg)) (above (rs_size r) 200) (f_lt (cf_large_font cfg) (rs_size r)) (70 <? rs_complexity r)%N. intros b1 b2 b3 b4 b5 Z W.
    rewrite in_app_iff. destruct i; [rewrite <- Z| | |rewrite <- W]; clear Z W; destruct (op_validation _), (op_performance _); rewrite ?in_app_iff; destruct b1, b2, b3, b4, b5; cbn; intuition congruence. }
  split.
  - intros ([n r] & I & H). exists n, r. split; [now apply entry_get|]. now apply K.
  - intros (n & r & G & W). exists (n, r). split; [now apply get_entry|]. now apply K.
Qed.
Print Assumptions style_issues_exact.
Example style_issues_instance : exists a, analyze_styles default_config [SStyles [plain "A" None "60" ""; plain "B" None "20" ""]] = Done a /\ validate_styles a = [SizeLarge].
Proof. eexists. vm_compute. repeat split. Qed.
