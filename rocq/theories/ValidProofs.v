From Verif Require Import Base BaseLemmas StreamModel ValidModel ValidSpec.

Lemma contains_occurs p s : contains p s = true <-> occurs p s.
Proof.
  unfold contains. destruct (find_str p s) as [[a b]|] eqn:E.
  - split; [intros _|reflexivity]. revert a b E. induction s as [|c s IH]; intros a b E; cbn [find_str] in E.
    + destruct (starts_with p []) eqn:S; [|discriminate E]. apply starts_with_spec in S. destruct S as [r S]. now exists [], r.
    + destruct (starts_with p (c :: s)) eqn:S.
      * apply starts_with_spec in S. destruct S as [r S]. now exists [], r.
      * destruct (find_str p s) as [[a' b']|]; [|discriminate E]. destruct (IH a' b' eq_refl) as (x & y & ->). now exists (c :: x), y.
  - split; [discriminate|]. intros (x & y & ->). exfalso. induction x as [|c x IH]; cbn [app] in E.
    + destruct p; cbn [app find_str] in E.
      * destruct y; cbn [find_str starts_with] in E; discriminate E.
      * rewrite (proj2 (starts_with_spec (n :: p) (n :: p ++ y))) in E; [discriminate E|now exists y].
    + cbn [find_str] in E. destruct (starts_with p (c :: x ++ p ++ y)); [discriminate E|]. destruct (find_str p (x ++ p ++ y)) as [[? ?]|]; [discriminate E|]. now apply IH.
Qed.
Lemma contains_not p s : contains p s = false <-> ~ occurs p s.
Proof. rewrite <- contains_occurs. destruct (contains p s); split; congruence. Qed.

Definition part_empty (s : str) : list issue := match s with [] => [issue_new Warning (lit "Document is empty") (lit "basic")] | _ => [] end.
Definition part_info (s : str) : list issue := if contains (lit "[Script Info]") s then [] else [issue_new Warning (lit "Missing [Script Info] section") (lit "structure")].
Definition part_events (s : str) : list issue := if contains (lit "[Events]") s then [] else [issue_new Warning (lit "Missing [Events] section") (lit "structure")].
Lemma basic_app s acc : basic_checks s acc = acc ++ part_empty s ++ part_info s ++ part_events s.
Proof.
  unfold basic_checks, part_empty, part_info, part_events.
  destruct (contains (lit "[Script Info]") s), (contains (lit "[Events]") s); destruct s; rewrite ?app_nil_l, ?app_nil_r, <- ?app_assoc; reflexivity.
Qed.
Lemma remarks_exact s l : remarks s l <-> l = part_empty s ++ part_info s ++ part_events s.
Proof.
  unfold remarks, part_empty, part_info, part_events. pose proof (contains_occurs (lit "[Script Info]") s) as A. pose proof (contains_not (lit "[Script Info]") s) as A'.
  pose proof (contains_occurs (lit "[Events]") s) as B. pose proof (contains_not (lit "[Events]") s) as B'. split.
  - intros (e & i & v & -> & He & Hi & Hv). f_equal; [|f_equal].
    + destruct He as [[-> ->]|[He ->]]; [reflexivity|]. destruct s; [contradiction|reflexivity].
    + destruct Hi as [[Hi ->]|[Hi ->]]; [apply A in Hi|apply A' in Hi]; now rewrite Hi.
    + destruct Hv as [[Hv ->]|[Hv ->]]; [apply B in Hv|apply B' in Hv]; now rewrite Hv.
  - intros ->. do 3 eexists. split; [reflexivity|]. split; [|split].
    + destruct s; [left; split; reflexivity|right; split; [discriminate|reflexivity]].
    + destruct (contains (lit "[Script Info]") s); [left|right]; split; try reflexivity; [now apply A|now apply A'].
    + destruct (contains (lit "[Events]") s); [left|right]; split; try reflexivity; [now apply B|now apply B'].
Qed.
Lemma shown_exact l i : shown l i <-> i = translate l.
Proof.
  unfold shown, translate. destruct l as [sv loc m r f]; destruct i as [s ln co m' r' f']; cbn [l_severity l_location l_message l_rule l_fix i_severity i_line i_column i_message i_rule i_suggestion]. split.
  - intros (H1 & H2 & H3 & -> & -> & ->). assert (Q : s = match sv with LHint => Info | LInfo => Info | LWarning => Warning | LError => Error | LCritical => Critical end).
    { cbn in H1. repeat (destruct H1 as [H1|H1]; [injection H1 as <- <-; reflexivity|]). contradiction. }
    rewrite Q. subst loc. destruct ln as [a|], co as [b|]; cbn; try reflexivity; exfalso; destruct H3 as [H3 H4]; [discriminate (H4 eq_refl)|discriminate (H3 eq_refl)].
  - intros E. injection E as -> -> -> -> -> ->. split; [destruct sv; cbn; tauto|]. split; [destruct loc as [[a b]|]; reflexivity|]. split; [destruct loc as [[a b]|]; cbn; split; congruence|repeat split].
Qed.
Lemma shown_all l l' : Forall2 shown l l' <-> l' = map translate l.
Proof.
  split.
  - induction 1 as [|x y l l' H F IH]; [reflexivity|]. cbn [map]. apply shown_exact in H. now subst.
  - intros ->. induction l as [|x l IH]; cbn [map]; constructor; [now apply shown_exact|exact IH].
Qed.
Lemma at_least_rank m s : at_least m s <-> (rank m <=? rank s)%N = true.
Proof. destruct m, s; cbn; split; try reflexivity; try discriminate; try tauto; try (intros H; now destruct H); intros _; discriminate. Qed.
Lemma chosen_filter {A} (P : A -> Prop) (f : A -> bool) : (forall x, P x <-> f x = true) -> forall l m, chosen P l m <-> m = filter f l.
Proof.
  intros H l m. split.
  - induction 1 as [|x l m Hx C IH|x l m Hx C IH]; [reflexivity| |]; cbn [filter].
    + apply H in Hx. now rewrite Hx, IH.
    + destruct (f x) eqn:E; [exfalso; now apply Hx, H|exact IH].
  - intros ->. induction l as [|x l IH]; cbn [filter]; [constructor|]. destruct (f x) eqn:E; [apply ch_yes; [now apply H|exact IH]|apply ch_no; [rewrite H; congruence|exact IH]].
Qed.
Lemma grave_error i : grave i <-> is_error i = true.
Proof. unfold grave, is_error. destruct (i_severity i); split; try discriminate; try tauto; intros [H|H]; discriminate H. Qed.
Lemma warning_is i : i_severity i = Warning <-> is_warning i = true.
Proof. unfold is_warning. destruct (i_severity i); split; try discriminate; reflexivity. Qed.

Section Valid.
  Variable analyse : switches -> str -> analysis.
  Definition every (a : analysis) (s : str) : list issue :=
    match a with Found l => map translate l | _ => [issue_new Error (lit "Failed to analyze script") (lit "analyzer")] end ++ part_empty s ++ part_info s ++ part_events s.
  Lemma all_exact a s l : all_issues a s l <-> a <> ParseFails /\ l = every a s.
  Proof.
    unfold every. split.
    - intros [s' r H|x x' s' r F H]; (split; [discriminate|]); apply remarks_exact in H; subst r; [reflexivity|]. apply shown_all in F. now subst.
    - intros [N ->]. destruct a as [| |x]; [contradiction| |].
      + apply all_failed. now apply remarks_exact.
      + apply all_found; [now apply shown_all|now apply remarks_exact].
  Qed.
  Lemma core_exact c s l : validate_with_core analyse c s = Some l <-> reported c (analyse (c_switches c) s) s l.
  Proof.
    unfold reported. set (a := analyse (c_switches c) s). set (f := fun i => (rank (c_threshold c) <=? rank (i_severity i))%N).
    assert (M : forall l m, chosen (fun i => at_least (c_threshold c) (i_severity i)) l m <-> m = filter f l) by (apply chosen_filter; intros x; apply at_least_rank).
    assert (V : validate_with_core analyse c s = match a with ParseFails => None | _ => Some (let k := filter f (every a s) in if (0 <? c_max_issues c) && (c_max_issues c <? List.length k) then firstn (c_max_issues c) k else k) end).
    { unfold validate_with_core. fold a. destruct a as [| |x]; [reflexivity| |]; now rewrite basic_app. }
    rewrite V. clear V. split.
    - intros H. assert (N : a <> ParseFails) by (destruct a; [discriminate H|discriminate|discriminate]).
      assert (E : l = let k := filter f (every a s) in if (0 <? c_max_issues c) && (c_max_issues c <? List.length k) then firstn (c_max_issues c) k else k) by (destruct a; [discriminate H| |]; now injection H as <-).
      cbv zeta in E. clear H. set (k := filter f (every a s)) in *. exists (every a s). destruct ((0 <? c_max_issues c) && (c_max_issues c <? List.length k)) eqn:Q.
      + apply andb_true_iff in Q. destruct Q as [Q1 Q2]. apply Nat.ltb_lt in Q1, Q2. exists (skipn (c_max_issues c) k). split; [now apply all_exact|]. split; [apply M; subst l; apply firstn_skipn|]. right; right. subst l. rewrite firstn_length_le by lia. lia.
      + exists []. rewrite app_nil_r. split; [now apply all_exact|]. split; [apply M; exact E|]. subst l. apply andb_false_iff in Q. destruct Q as [Q|Q].
        * apply Nat.ltb_ge in Q. left. split; [lia|reflexivity].
        * apply Nat.ltb_ge in Q. destruct (Nat.eq_dec (c_max_issues c) 0) as [Z|Z]; [now left|]. destruct (Nat.eq_dec (List.length k) (c_max_issues c)) as [W|W]; [right; right; lia|right; left; split; [lia|reflexivity]].
    - intros (ev & rest & H1 & H2 & H3). apply all_exact in H1. destruct H1 as [N ->]. apply M in H2.
      assert (G : l = let k := filter f (every a s) in if (0 <? c_max_issues c) && (c_max_issues c <? List.length k) then firstn (c_max_issues c) k else k).
      { cbv zeta. rewrite <- H2. rewrite app_length. destruct H3 as [[Z ->]|[[Z ->]|[Z P]]].
        - rewrite Z. cbn. now rewrite app_nil_r.
        - destruct (c_max_issues c <? List.length l + @List.length issue []) eqn:Q; [apply Nat.ltb_lt in Q; cbn in Q; lia|]. rewrite andb_false_r. now rewrite app_nil_r.
        - destruct (c_max_issues c <? List.length l + List.length rest) eqn:Q.
          + rewrite (proj2 (Nat.ltb_lt 0 (c_max_issues c))) by lia. cbn [andb]. rewrite <- Z. rewrite firstn_app, firstn_all, Nat.sub_diag. cbn. now rewrite app_nil_r.
          + apply Nat.ltb_ge in Q. rewrite andb_false_r. destruct rest; [now rewrite app_nil_r|cbn in Q; lia]. }
      rewrite G. destruct a; [contradiction| |]; reflexivity.
  Qed.
  Lemma fresh_core c s : fresh analyse c s = option_map result_new (validate_with_core analyse c s).
  Proof. unfold fresh, validate. cbn [with_config v_config should_use_cache v_result]. now destruct (validate_with_core analyse c s). Qed.
  Lemma counted_exact r : counted r <-> r = result_new (r_issues r).
  Proof.
    unfold counted, result_new. destruct r as [l v w e]. cbn [r_issues r_valid r_errors r_warnings].
    assert (G : List.length (filter is_error l) = 0 <-> forall i, In i l -> ~ grave i).
    { rewrite length_zero_iff_nil. split.
      - intros H i I Hg. apply grave_error in Hg. assert (In i (filter is_error l)) by (now apply filter_In). rewrite H in *. contradiction.
      - intros H. destruct (filter is_error l) as [|x m] eqn:E; [reflexivity|]. exfalso. assert (I : In x (filter is_error l)) by (rewrite E; now left). apply filter_In in I. destruct I as [I1 I2]. apply (H x I1). now apply grave_error. }
    split.
    - intros (H1 & (m & H2 & ->) & (m' & H3 & ->)). apply (chosen_filter _ is_error grave_error) in H2. apply (chosen_filter _ is_warning warning_is) in H3. subst. f_equal.
      destruct (List.length (filter is_error l) =? 0) eqn:Q.
      + apply Nat.eqb_eq in Q. apply H1. now apply G.
      + apply Nat.eqb_neq in Q. destruct v; [|reflexivity]. exfalso. apply Q. apply G. now apply H1.
    - intros E. injection E as Ev Ew Ee. subst. split; [rewrite Nat.eqb_eq; exact G|]. split; eexists; (split; [|reflexivity]); [now apply (chosen_filter _ is_error grave_error)|now apply (chosen_filter _ is_warning warning_is)].
  Qed.
  Lemma fresh_exact c s r : fresh analyse c s = Some r <-> reported c (analyse (c_switches c) s) s (r_issues r) /\ counted r.
  Proof.
    rewrite fresh_core, <- core_exact, counted_exact. split.
    - destruct (validate_with_core analyse c s) as [l|]; [|discriminate]. cbn. intros E. injection E as <-. split; reflexivity.
    - intros [-> E]. cbn. now rewrite <- E.
  Qed.
  Lemma fresh_fails c s : fresh analyse c s = None <-> analyse (c_switches c) s = ParseFails.
  Proof. rewrite fresh_core. unfold validate_with_core. destruct (analyse (c_switches c) s); cbn; split; try discriminate; reflexivity. Qed.

  (* ---- uses ---- *)
  Definition holds (past : list use) (v : validator) : Prop :=
    v_config v = settings past /\
    match kept analyse past with
    | Some (s, t) => v_result v = fresh analyse (settings past) s /\ v_hash v = fnv s /\ v_last v = Some t /\ v_result v <> None
    | None => v_result v = None
    end.
  Lemma cache_answers past v s now : holds past v -> should_use_cache v (fnv s) now = answers (settings past) (kept analyse past) s now.
  Proof.
    intros [H1 H2]. unfold should_use_cache, answers. destruct (kept analyse past) as [[s0 t]|].
    - destruct H2 as (H2 & -> & -> & H3). destruct (v_result v); [|contradiction]. rewrite H1. now destruct (fnv s0 =? fnv s)%N.
    - now rewrite H2.
  Qed.
  Lemma check_step past v (force : bool) s now done : holds past v ->
    snd ((if force then force_validate else validate) analyse v s now done) = expected analyse past force s now /\ holds (Direct force s now done :: past) (fst ((if force then force_validate else validate) analyse v s now done)).
  Proof.
    intros H. pose proof (cache_answers past v s now H) as C. destruct H as [H1 H2]. unfold expected, holds. cbn [settings kept].
    pose proof (fresh_core (settings past) s) as F. pose proof (fresh_fails (settings past) s) as F'.
    assert (U : unparsed analyse (settings past) s = match validate_with_core analyse (settings past) s with None => true | Some _ => false end).
    { unfold unparsed, validate_with_core. now destruct (analyse (c_switches (settings past)) s). }
    destruct force; cbn [negb andb].
    - unfold force_validate, validate. cbn [should_use_cache v_result v_config]. rewrite H1, U. destruct (validate_with_core analyse (settings past) s) as [l|] eqn:E; cbn [fst snd v_config v_result v_hash v_last].
      + rewrite F. cbn [option_map]. split; [now destruct (kept analyse past) as [[s0 t]|]|]. repeat split. discriminate.
      + rewrite F. cbn [option_map]. split; [now destruct (kept analyse past) as [[s0 t]|]|]. split; [reflexivity|reflexivity].
    - unfold validate. rewrite C, H1, U. destruct (answers (settings past) (kept analyse past) s now) eqn:A; cbn [fst snd].
      + destruct (kept analyse past) as [[s0 t]|]; [|discriminate A]. split; [tauto|]. split; assumption.
      + destruct (validate_with_core analyse (settings past) s) as [l|] eqn:E; cbn [fst snd v_config v_result v_hash v_last]; rewrite F; cbn [option_map].
        * split; [now destruct (kept analyse past) as [[s0 t]|]|]. repeat split. discriminate.
        * split; [now destruct (kept analyse past) as [[s0 t]|]|]. split; [exact H1|exact H2].
  Qed.
  Lemma uses_hold past : holds past (uses analyse (rev past)).
  Proof.
    induction past as [|u past IH]; [split; reflexivity|]. cbn [rev]. unfold uses in *. rewrite fold_left_app. cbn [fold_left]. set (v := fold_left _ _ _) in *.
    destruct u as [force s now done|force s now done| |c]; cbn [use_step].
    - apply (check_step past v force s now done IH).
    - unfold document_check, parses. destruct IH as [H1 H2]. pose proof (check_step past v force s now done (conj H1 H2)) as [_ D]. unfold holds in *. cbn [settings kept] in *. rewrite H1. unfold unparsed in *.
      destruct (analyse (c_switches (settings past)) s) eqn:E; cbn [fst]; [split; [exact H1|exact H2]| |]; (destruct (negb force && answers (settings past) (kept analyse past) s now); exact D).
    - split; [exact (proj1 IH)|reflexivity].
    - split; reflexivity.
  Qed.
  Lemma use_answer past u : snd (use_step analyse (uses analyse (rev past)) u) =
    match u with
    | Direct force s now _ => expected analyse past force s now
    | Document force s now _ => if unparsed analyse (settings past) s then None else expected analyse past force s now
    | _ => None
    end.
  Proof.
    pose proof (uses_hold past) as H. destruct u as [force s now done|force s now done| |c]; cbn [use_step]; try reflexivity.
    - apply (check_step past _ force s now done H).
    - unfold document_check, parses, unparsed. pose proof (proj1 H) as H1. rewrite H1. destruct (analyse (c_switches (settings past)) s); [reflexivity| |]; apply (check_step past _ force s now done H).
  Qed.
  Lemma kept_checked past s t : kept analyse past = Some (s, t) -> In s (flat_map checked past).
  Proof.
    induction past as [|u past IH]; [discriminate|]. destruct u as [force s' now done|force s' now done| |c]; cbn [kept checked flat_map app]; try discriminate.
    - destruct (negb force && _); [intros H; right; now apply IH|]. destruct (unparsed _ _ _); [destruct force; [discriminate|intros H; right; now apply IH]|]. intros E. injection E as -> ->. now left.
    - destruct (unparsed _ _ _); [intros H; right; now apply IH|]. destruct (negb force && _); [intros H; right; now apply IH|]. intros E. injection E as -> ->. now left.
  Qed.
  Lemma expected_fresh past force s now : (forall s', In s' (flat_map checked past) -> fnv s' = fnv s -> s' = s) -> expected analyse past force s now = fresh analyse (settings past) s.
  Proof.
    intros H. unfold expected. destruct (kept analyse past) as [[s0 t]|] eqn:K; [|reflexivity]. unfold answers. destruct (negb force && _) eqn:E; [|reflexivity].
    apply andb_true_iff in E. destruct E as [_ E]. apply andb_true_iff in E. destruct E as [E _]. apply N.eqb_eq in E. rewrite (H s0); [reflexivity| |exact E]. eapply kept_checked; eauto.
  Qed.
End Valid.
Lemma valid_all analyse c s ev r : fresh analyse c s = Some r -> all_issues (analyse (c_switches c) s) s ev -> c_threshold c <> Critical -> c_max_issues c = 0 \/ List.length ev <= c_max_issues c ->
  (r_valid r = true <-> forall i, In i ev -> ~ grave i).
Proof.
  intros F A T M. apply fresh_exact in F. destruct F as [(ev' & rest & A' & C & L) (V & _)]. apply all_exact in A, A'. destruct A as [_ A], A' as [_ A']. assert (Q0 : ev' = ev) by congruence. rewrite Q0 in C. clear A A' Q0 ev'.
  apply (chosen_filter _ (fun i => (rank (c_threshold c) <=? rank (i_severity i))%N)) in C; [|intros x; apply at_least_rank].
  assert (R : rest = []).
  { pose proof (f_equal (@List.length _) C) as Q. rewrite app_length in Q. assert (B : List.length (filter (fun i => (rank (c_threshold c) <=? rank (i_severity i))%N) ev) <= List.length ev) by (clear; induction ev as [|x l IH]; cbn [filter List.length]; [lia|]; destruct (_ <=? _)%N; cbn [List.length]; lia).
    destruct L as [[_ ->]|[[_ ->]|[L P]]]; [reflexivity|reflexivity|]. destruct rest; [reflexivity|]. cbn [List.length] in Q. lia. }
  subst rest. rewrite app_nil_r in C. rewrite V, C. split; intros H i I.
  - intros G. apply (H i); [|exact G]. apply filter_In. split; [exact I|]. apply at_least_rank. destruct G as [G|G]; rewrite G; destruct (c_threshold c); cbn; try tauto; discriminate.
  - apply filter_In in I. now apply H.
Qed.
