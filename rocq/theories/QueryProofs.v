From Verif Require Import Base BaseLemmas ParseModel MapLib SortLib StyleCmdSpec QueryModel QuerySpec SearchMore.

(* ---- times ---- *)
Lemma pieces_free (p : char -> bool) (c : char) s : p c = true -> Forall (fun w => ~ In c w) (split_on p s).
Proof.
  intros Hc. induction s as [|x s IH]; cbn [split_on]; [repeat constructor; intros []|]. destruct (p x) eqn:E; [constructor; [intros []|exact IH]|].
  destruct (split_on p s) as [|w ws]; [repeat constructor; intros [->|[]]; congruence|]. apply Forall_cons_iff in IH as [H1 H2]. constructor; [|exact H2]. intros [->|H]; [congruence|exact (H1 H)].
Qed.
Lemma free_not (p : char -> bool) (c : char) s : (forall x, p x = true <-> x = c) -> ~ In c s -> forallb (fun x => negb (p x)) s = true.
Proof. intros P H. apply forallb_forall. intros x Hx. destruct (p x) eqn:E; [|reflexivity]. apply P in E. subst. contradiction. Qed.
Lemma colon_is x : is_colon x = true <-> x = 58%N.
Proof. apply N.eqb_eq. Qed.
Lemma dot_is x : N.eqb 46 x = true <-> x = 46%N.
Proof. rewrite N.eqb_eq. split; congruence. Qed.
Lemma split_three s h m r : split_on is_colon s = [h; m; r] <-> s = h ++ [58%N] ++ m ++ [58%N] ++ r /\ ~ In 58%N (h ++ m ++ r).
Proof.
  split.
  - intros E. pose proof (join_split_on is_colon 58 s colon_is) as J. pose proof (pieces_free is_colon 58 s eq_refl) as F. rewrite E in J, F. cbn [join] in J. split; [now rewrite <- J|].
    repeat apply Forall_cons_iff in F as [? F]. rewrite !in_app_iff. tauto.
  - intros [-> F]. rewrite !in_app_iff in F. cbn [app]. rewrite !split_on_app; try reflexivity; try (apply (free_not is_colon 58 _ colon_is); tauto). now rewrite split_on_none by (apply (free_not is_colon 58 _ colon_is); tauto).
Qed.
Lemma split_two s x c : split_on (N.eqb 46) s = [x; c] <-> s = x ++ [46%N] ++ c /\ ~ In 46%N (x ++ c).
Proof.
  split.
  - intros E. pose proof (join_split_on (N.eqb 46) 46 s dot_is) as J. pose proof (pieces_free (N.eqb 46) 46 s eq_refl) as F. rewrite E in J, F. cbn [join] in J. split; [now rewrite <- J|].
    repeat apply Forall_cons_iff in F as [? F]. rewrite !in_app_iff. tauto.
  - intros [-> F]. rewrite !in_app_iff in F. cbn [app]. rewrite split_on_app; try reflexivity; try (apply (free_not (N.eqb 46) 46 _ dot_is); tauto). now rewrite split_on_none by (apply (free_not (N.eqb 46) 46 _ dot_is); tauto).
Qed.
Lemma time_fields s n : reads_cs s n <-> exists h m r x c H M X C, split_on is_colon s = [h; m; r] /\ split_on (N.eqb 46) r = [x; c] /\
  parse_u32 h = Some H /\ parse_u32 m = Some M /\ parse_u32 x = Some X /\ parse_u32 c = Some C /\ n = (H * 360000 + M * 6000 + X * 100 + C)%N.
Proof.
  split.
  - intros (h & m & x & c & H & M & X & C & E & F1 & F2 & P). exists h, m, (x ++ [46%N] ++ c), x, c, H, M, X, C. split; [apply split_three|]; [|split; [now apply split_two|exact P]].
    split; [exact E|]. rewrite !in_app_iff in *. cbn [In]. intuition discriminate.
  - intros (h & m & r & x & c & H & M & X & C & E & E2 & P). apply split_three in E as [-> F1]. apply split_two in E2 as [-> F2]. exists h, m, x, c, H, M, X, C. split; [reflexivity|]. split; [|split; [exact F2|exact P]].
    rewrite !in_app_iff in *. tauto.
Qed.
Lemma reads_unique s a b : reads_cs s a -> reads_cs s b -> a = b.
Proof.
  rewrite !time_fields. intros (h & m & r & x & c & H & M & X & C & E & E2 & P1 & P2 & P3 & P4 & ->) (h' & m' & r' & x' & c' & H' & M' & X' & C' & E' & E2' & P1' & P2' & P3' & P4' & ->).
  rewrite E in E'. injection E' as <- <- <-. rewrite E2 in E2'. injection E2' as <- <-. congruence.
Qed.
Lemma time_cs_spec s : match time_cs s with
  | Done (Some n) => reads_cs s n /\ (n <= u32_max)%N
  | Done None => forall n, ~ reads_cs s n
  | Crash => exists n, reads_cs s n /\ (u32_max < n)%N
  | Stuck => False end.
Proof.
  assert (G : forall l, split_on is_colon s = l -> (forall h m r x c, l = [h; m; r] -> split_on (N.eqb 46) r = [x; c] -> parse_u32 h <> None -> parse_u32 m <> None -> parse_u32 x <> None -> parse_u32 c <> None -> False) -> forall n, ~ reads_cs s n).
  { intros l E K n R. apply time_fields in R as (h & m & r & x & c & H & M & X & C & E1 & E2 & P1 & P2 & P3 & P4 & _). apply (K h m r x c); congruence. }
  unfold time_cs. change TimeModel.is_colon with is_colon. destruct (split_on is_colon s) as [|h [|m [|r [|z l]]]] eqn:E; cbv beta iota; try (apply (G _ eq_refl); intros; discriminate).
  assert (G' : (forall x c, split_on (N.eqb 46) r = [x; c] -> parse_u32 h <> None -> parse_u32 m <> None -> parse_u32 x <> None -> parse_u32 c <> None -> False) -> forall n, ~ reads_cs s n).
  { intros K. apply (G _ eq_refl). intros h' m' r' x c Q. injection Q as <- <- <-. apply K. }
  destruct (parse_u32 h) as [H|] eqn:P1; cbv beta iota; [|apply G'; intros; congruence]. destruct (parse_u32 m) as [M|] eqn:P2; cbv beta iota; [|apply G'; intros; congruence].
  destruct (split_on (N.eqb 46) r) as [|x [|c [|z l]]] eqn:E2; cbv beta iota; try (apply G'; intros; discriminate).
  destruct (parse_u32 x) as [X|] eqn:P3; cbv beta iota; [|apply G'; intros; congruence]. destruct (parse_u32 c) as [C|] eqn:P4; cbv beta iota; [|apply G'; intros; congruence].
  assert (R : reads_cs s (H * 360000 + M * 6000 + X * 100 + C)) by (apply time_fields; exists h, m, r, x, c, H, M, X, C; auto 10).
  assert (CR : forall f a b, u32_op f a b = if (u32_max <? f a b)%N then Crash else Done (f a b)) by reflexivity. rewrite !CR.
  destruct (N.ltb_spec u32_max (H * 360000)) as [L|L]; cbn [bind]; [exists (H * 360000 + M * 6000 + X * 100 + C)%N; split; [exact R|lia]|].
  destruct (N.ltb_spec u32_max (M * 6000)) as [L2|L2]; cbn [bind]; [exists (H * 360000 + M * 6000 + X * 100 + C)%N; split; [exact R|lia]|].
  rewrite CR. destruct (N.ltb_spec u32_max (H * 360000 + M * 6000)) as [L3|L3]; cbn [bind]; [exists (H * 360000 + M * 6000 + X * 100 + C)%N; split; [exact R|lia]|].
  destruct (N.ltb_spec u32_max (X * 100)) as [L4|L4]; cbn [bind]; [exists (H * 360000 + M * 6000 + X * 100 + C)%N; split; [exact R|lia]|].
  rewrite CR. destruct (N.ltb_spec u32_max (H * 360000 + M * 6000 + X * 100)) as [L5|L5]; cbn [bind]; [exists (H * 360000 + M * 6000 + X * 100 + C)%N; split; [exact R|lia]|].
  rewrite CR. destruct (N.ltb_spec u32_max (H * 360000 + M * 6000 + X * 100 + C)) as [L6|L6]; cbn [bind]; [eauto|]. auto.
Qed.
Lemma time_fit s : (forall n, reads_cs s n -> (n <= u32_max)%N) -> exists o, time_cs s = Done o /\ (match o with Some n => reads_cs s n | None => forall n, ~ reads_cs s n end).
Proof.
  intros F. pose proof (time_cs_spec s) as T. destruct (time_cs s) as [[n|]| |]; [exists (Some n); tauto|exists None; auto| |destruct T]. destruct T as (n & R & L). apply F in R. lia.
Qed.
Lemma time_or s o : match o with Some n => reads_cs s n | None => forall n, ~ reads_cs s n end -> time_or_0 s (or_0 o).
Proof. destruct o; [now left|right; split; [reflexivity|assumption]]. Qed.

(* ---- filters ---- *)
Lemma contains_has p t : contains p t = true <-> has p t.
Proof.
  unfold contains, has. destruct (find_str p t) as [[a b]|] eqn:E.
  - apply find_str_some in E as [-> [r ->]]. split; [intros _; now exists a, r|reflexivity].
  - split; [discriminate|]. intros (a & b & ->). destruct (find_str_none _ _ E a b eq_refl).
Qed.
Lemma type_eqb_eq a b : type_eqb a b = true <-> a = b.
Proof. destruct a, b; cbn; split; congruence. Qed.
Section Lower.
Context (lower : str -> str).
Lemma pattern_ok_iff cs o t : pattern_ok lower cs o t = true <-> asks o (shows_pattern lower cs t).
Proof. destruct o as [p|]; cbn [pattern_ok asks]; [|tauto]. unfold pattern_in, shows_pattern. destruct cs; apply contains_has. Qed.
Definition fields_ok (f : filter_) (e : event) : bool :=
  match f_type f with Some t => type_eqb (e_type e) t | None => true end && pattern_ok lower (f_case f) (f_style f) (e_style e) && pattern_ok lower (f_case f) (f_text f) (e_text e) &&
  pattern_ok lower (f_case f) (f_speaker f) (e_name e) && pattern_ok lower (f_case f) (f_effect f) (e_effect e) &&
  match f_layer f with Some n => match parse_u32 (e_layer e) with Some v => (v =? n)%N | None => false end | None => true end.
Lemma fields_ok_iff f e : fields_ok f e = true <-> matches_fields lower f e.
Proof.
  unfold fields_ok, matches_fields. rewrite !andb_true_iff, !pattern_ok_iff. assert (T : match f_type f with Some t => type_eqb (e_type e) t | None => true end = true <-> asks (f_type f) (fun t => e_type e = t)) by (destruct (f_type f); cbn [asks]; [apply type_eqb_eq|tauto]).
  assert (L : match f_layer f with Some n => match parse_u32 (e_layer e) with Some v => (v =? n)%N | None => false end | None => true end = true <-> asks (f_layer f) (fun n => parse_u32 (e_layer e) = Some n)).
  { destruct (f_layer f); cbn [asks]; [|tauto]. destruct (parse_u32 (e_layer e)) as [v|]; [|split; discriminate]. rewrite N.eqb_eq. split; congruence. }
  rewrite T, L. tauto.
Qed.
Lemma matches_split f e : matches_filter lower f e = if fields_ok f e then match f_time f with
         | None => Done true
         | Some (lo, hi) =>
           a <- time_cs (e_start e) ;; b <- time_cs (e_end e) ;;
           Done (match a, b with Some a, Some b => negb ((a <? lo)%N || (hi <? b)%N) | _, _ => false end)
         end else Done false.
Proof.
  unfold matches_filter, fields_ok. destruct (f_type f) as [t|]; [destruct (type_eqb (e_type e) t); cbn [negb andb]; [|reflexivity]|cbn [andb]].
  all: destruct (pattern_ok lower (f_case f) (f_style f) (e_style e)); cbn [negb andb]; [|reflexivity].
  all: destruct (pattern_ok lower (f_case f) (f_text f) (e_text e)); cbn [negb andb]; [|reflexivity].
  all: destruct (pattern_ok lower (f_case f) (f_speaker f) (e_name e)); cbn [negb andb]; [|reflexivity].
  all: destruct (pattern_ok lower (f_case f) (f_effect f) (e_effect e)); cbn [negb andb]; [|reflexivity].
  all: destruct (f_layer f) as [n|]; [|reflexivity]; destruct (parse_u32 (e_layer e)) as [v|]; [|reflexivity]; destruct (v =? n)%N; reflexivity.
Qed.
Lemma matches_ok f e : fits e -> exists b, matches_filter lower f e = Done b /\ (b = true <-> matches lower f e).
Proof.
  intros F. rewrite matches_split. pose proof (fields_ok_iff f e) as K. destruct (fields_ok f e); [|exists false; split; [reflexivity|]; split; [discriminate|intros [Q _]; now apply K in Q]].
  assert (K1 : matches_fields lower f e) by now apply K. destruct (f_time f) as [[lo hi]|] eqn:E; [|exists true; split; [reflexivity|]; unfold matches; rewrite E; cbn [asks]; tauto].
  destruct (time_fit (e_start e)) as (a & -> & A); [intros n R; apply F; now left|]. destruct (time_fit (e_end e)) as (b & -> & B); [intros n R; apply F; now right|]. cbn [bind]. eexists. split; [reflexivity|].
  unfold matches. rewrite E. cbn [asks fst snd]. destruct a as [a|], b as [b|].
  - rewrite negb_true_iff, orb_false_iff, !N.ltb_ge. split; [intros [L1 L2]; split; [exact K1|now exists a, b]|]. intros (_ & a' & b' & R1 & R2 & L1 & L2). rewrite (reads_unique _ _ _ A R1), (reads_unique _ _ _ B R2). auto.
  - split; [discriminate|]. intros (_ & a' & b' & _ & R2 & _). destruct (B _ R2).
  - split; [discriminate|]. intros (_ & a' & b' & R1 & _). destruct (A _ R1).
  - split; [discriminate|]. intros (_ & a' & b' & R1 & _). destruct (A _ R1).
Qed.
Lemma filters_ok f l : Forall (fun i => fits (n_event i)) l -> exists l', apply_filters lower f l = Done l' /\ (forall i, In i l' <-> In i l /\ matches lower f (n_event i)) /\ forall R : info -> info -> Prop, StronglySorted R l -> StronglySorted R l'.
Proof.
  induction l as [|i l IH]; intros F; [exists []; split; [reflexivity|split; [intros i; cbn; tauto|auto]]|]. apply Forall_cons_iff in F as [F1 F2]. destruct (IH F2) as (l' & E & M & S). destruct (matches_ok f (n_event i) F1) as (b & Eb & B). cbn [apply_filters]. rewrite Eb, E. cbn [bind].
  eexists. split; [reflexivity|]. split.
  - intros j. destruct b; cbn [In]; rewrite M; split.
    + intros [<-|[H1 H2]]; [split; [now left|now apply B]|auto].
    + intros [[<-|H1] H2]; [now left|auto].
    + intros [H1 H2]. auto.
    + intros [[<-|H1] H2]; [apply B in H2; discriminate H2|auto].
  - intros R SR. apply StronglySorted_inv in SR as [SR FR]. destruct b; [|now apply S]. constructor; [now apply S|]. apply Forall_forall. intros j Hj. apply M in Hj as [Hj _]. rewrite Forall_forall in FR. now apply FR.
Qed.
Lemma filters_crash f e a b : f_time f <> None -> matches_fields lower f (n_event e) -> ~ fits (n_event e) -> Forall (fun i => fits (n_event i)) a -> apply_filters lower f (a ++ e :: b) = Crash.
Proof.
  intros T M NF. induction a as [|i a IH]; intros F.
  - cbn [app apply_filters]. rewrite matches_split. apply fields_ok_iff in M. rewrite M. destruct (f_time f) as [[lo hi]|]; [|congruence].
    pose proof (time_cs_spec (e_start (n_event e))) as A. pose proof (time_cs_spec (e_end (n_event e))) as B. destruct (time_cs (e_start (n_event e))) as [x| |]; [|reflexivity|destruct A]. cbn [bind]. destruct (time_cs (e_end (n_event e))) as [y| |]; [|reflexivity|destruct B].
    exfalso. apply NF. intros n [R|R].
    + destruct x as [x|]; [destruct A as [A1 A2]; now rewrite (reads_unique _ _ _ R A1)|destruct (A _ R)].
    + destruct y as [y|]; [destruct B as [B1 B2]; now rewrite (reads_unique _ _ _ R B1)|destruct (B _ R)].
  - apply Forall_cons_iff in F as [F1 F2]. cbn [app apply_filters]. destruct (matches_ok f (n_event i) F1) as (x & -> & _). cbn [bind]. now rewrite IH.
Qed.
End Lower.

(* ---- numbering ---- *)
Lemma numbered_in l : forall k i, In i (numbered k l) <-> exists j e, nth_error l j = Some e /\ i = info_of (k + j) e.
Proof.
  induction l as [|e l IH]; intros k i; cbn [numbered In]; [split; [intros []|intros (j & e & H & _); destruct j; discriminate H]|]. rewrite IH. split.
  - intros [<-|(j & e' & H & ->)]; [exists 0, e; split; [reflexivity|f_equal; lia]|exists (S j), e'; split; [exact H|f_equal; lia]].
  - intros ([|j] & e' & H & ->); [left; cbn in H; injection H as <-; f_equal; lia|right; exists j, e'; split; [exact H|f_equal; lia]].
Qed.
Lemma numbered_sorted l : forall k, StronglySorted (fun a b => n_index a < n_index b) (numbered k l).
Proof.
  induction l as [|e l IH]; intros k; cbn [numbered]; constructor; [apply IH|]. apply Forall_forall. intros i H. apply numbered_in in H as (j & e' & _ & ->). cbn. lia.
Qed.
Lemma numbered_info l i : In i (numbered 0 l) <-> event_info l i.
Proof.
  rewrite numbered_in. unfold event_info. split.
  - intros (j & e & H & ->). cbn. auto.
  - intros (H & L & R). exists (n_index i), (n_event i). split; [exact H|]. destruct i as [x e y r]. cbn in *. subst. reflexivity.
Qed.

(* ---- keys ---- *)
Lemma key_cmp_refl a b : key_cmp a b = Eq <-> a = b.
Proof.
  destruct a as [x|x], b as [y|y]; cbn [key_cmp]; try (split; discriminate).
  - rewrite N.compare_eq_iff. split; congruence.
  - rewrite str_cmp_eq. split; congruence.
Qed.
Lemma key_cmp_opp a b : key_cmp b a = CompOpp (key_cmp a b).
Proof. destruct a as [x|x], b as [y|y]; cbn [key_cmp CompOpp]; try reflexivity; [apply N.compare_antisym|apply str_cmp_opp]. Qed.
Lemma key_lt_trans a b c : key_cmp a b = Lt -> key_cmp b c = Lt -> key_cmp a c = Lt.
Proof.
  destruct a as [x|x], b as [y|y], c as [z|z]; cbn [key_cmp]; try discriminate; try reflexivity.
  - rewrite !N.compare_lt_iff. apply N.lt_trans.
  - apply str_lt_trans.
Qed.
Lemma fits_key i c : fits (n_event i) -> exists k, key_of c i = Done k /\ sort_value i c k.
Proof.
  intros F. destruct c; cbn [key_of]; try (eexists; split; [reflexivity|constructor]; fail).
  - destruct (time_fit (e_start (n_event i))) as (a & -> & A); [intros n R; apply F; now left|]. eexists. split; [reflexivity|]. constructor. now apply time_or.
  - destruct (time_fit (e_end (n_event i))) as (a & -> & A); [intros n R; apply F; now right|]. eexists. split; [reflexivity|]. constructor. now apply time_or.
  - destruct (time_fit (e_start (n_event i))) as (a & -> & A); [intros n R; apply F; now left|]. destruct (time_fit (e_end (n_event i))) as (b & -> & B); [intros n R; apply F; now right|]. eexists. split; [reflexivity|]. constructor; now apply time_or.
  - eexists. split; [reflexivity|]. destruct (parse_u32 (e_layer (n_event i))) as [n|] eqn:E; [now apply sv_layer|now apply sv_no_layer].
Qed.
Lemma map_run_ok {A B} (f : A -> run B) (P : A -> B -> Prop) l : Forall (fun a => exists b, f a = Done b /\ P a b) l -> exists l', map_run f l = Done l' /\ Forall2 P l l'.
Proof.
  induction l as [|a l IH]; intros F; [exists []; split; [reflexivity|constructor]|]. apply Forall_cons_iff in F as [(b & E & H) F]. destruct (IH F) as (l' & E' & H'). cbn [map_run]. rewrite E, E'. cbn [bind]. eexists. split; [reflexivity|]. now constructor.
Qed.
(* the order of entries *)
Definition low {A} (up : bool) (a b : A) : A := if up then a else b.
Lemma key_dec a b : key_cmp a b = Lt \/ a = b \/ key_cmp b a = Lt.
Proof. rewrite (key_cmp_opp a b). destruct (key_cmp a b) eqn:E; [apply key_cmp_refl in E|..]; auto. Qed.
Lemma key_irrefl a : key_cmp a a <> Lt.
Proof. rewrite (proj2 (key_cmp_refl a a) eq_refl). discriminate. Qed.
(* strictly before, read in either direction *)
Definition klt (up : bool) (a b : key) : Prop := key_cmp (low up a b) (low up b a) = Lt.
Lemma klt_trans up a b c : klt up a b -> klt up b c -> klt up a c.
Proof. unfold klt, low. destruct up; intros H1 H2; eapply key_lt_trans; eassumption. Qed.
Lemma klt_irrefl up a : ~ klt up a a.
Proof. unfold klt, low. destruct up; apply key_irrefl. Qed.
Lemma klt_dec up a b : klt up a b \/ a = b \/ klt up b a.
Proof. unfold klt, low. destruct (key_dec a b) as [H|[H|H]], up; auto. Qed.
Lemma klt_turn (up : bool) a b : (if up then key_cmp a b else CompOpp (key_cmp a b)) = Lt <-> klt up a b.
Proof. unfold klt, low. destruct up; [tauto|]. now rewrite (key_cmp_opp a b). Qed.
Lemma klt_gt (up : bool) a b : (if up then key_cmp a b else CompOpp (key_cmp a b)) = Gt <-> klt up b a.
Proof. unfold klt, low. destruct up; rewrite ?(key_cmp_opp a b); destruct (key_cmp a b); cbn; split; congruence. Qed.
Lemma entry_le_iff s a b : entry_le s a b = true <->
  klt (ascending s) (snd (fst a)) (snd (fst b)) \/ (snd (fst a) = snd (fst b) /\ (klt (ascending s) (snd a) (snd b) \/ snd a = snd b)).
Proof.
  destruct a as [[i k] l], b as [[j k'] l']. cbn [fst snd]. unfold entry_le, entry_cmp. cbn [fst snd]. destruct (key_cmp k k') eqn:E.
  - apply key_cmp_refl in E. subst k'. destruct (klt_dec (ascending s) l l') as [H|[H|H]].
    + rewrite (proj2 (klt_turn _ _ _) H). split; auto.
    + subst l'. rewrite (proj2 (key_cmp_refl l l) eq_refl). destruct (ascending s); cbn; split; auto.
    + rewrite (proj2 (klt_gt _ _ _) H). split; [discriminate|]. intros [K|[_ [K|K]]]; [now apply klt_irrefl in K| |subst; now apply klt_irrefl in H]. destruct (klt_irrefl (ascending s) l). now apply (klt_trans _ _ l').
  - destruct (ascending s) eqn:A; cbn.
    + split; [intros _; left; exact E|reflexivity].
    + split; [discriminate|]. intros [K|[-> _]]; [|now apply key_irrefl in E]. destruct (key_irrefl k). now apply (key_lt_trans _ k').
  - assert (E' : key_cmp k' k = Lt) by (rewrite (key_cmp_opp k k'), E; reflexivity). destruct (ascending s) eqn:A; cbn.
    + split; [discriminate|]. intros [K|[-> _]]; [|now apply key_irrefl in E']. destruct (key_irrefl k). now apply (key_lt_trans _ k').
    + split; [intros _; left; exact E'|reflexivity].
Qed.
Lemma entry_total s a b : entry_le s a b = true \/ entry_le s b a = true.
Proof.
  rewrite !entry_le_iff. destruct (klt_dec (ascending s) (snd (fst a)) (snd (fst b))) as [H|[H|H]]; auto. destruct (klt_dec (ascending s) (snd a) (snd b)) as [K|[K|K]]; auto.
Qed.
Lemma entry_trans s a b c : entry_le s a b = true -> entry_le s b c = true -> entry_le s a c = true.
Proof.
  rewrite !entry_le_iff. destruct a as [[i k] l], b as [[i' k'] l'], c as [[i2 k2] l2]. cbn [fst snd]. intros [H|[H1 H2]] [K|[K1 K2]]; subst; [left; eapply klt_trans; eassumption|now left|now left|].
  right. split; [reflexivity|]. destruct H2 as [H2|H2], K2 as [K2|K2]; subst; auto. left. eapply klt_trans; eassumption.
Qed.
Lemma klt_less up i j c a b : sort_value i c a -> sort_value j c b -> klt up a b -> goes_before up a b.
Proof.
  intros A B. assert (G : forall i j a b, sort_value i c a -> sort_value j c b -> key_cmp a b = Lt -> less a b).
  { clear. intros i j a b A B. destruct A; inversion B; subst; cbn [key_cmp less]; try apply N.compare_lt_iff; auto. }
  unfold klt, low, goes_before. destruct up; [apply (G i j); assumption|apply (G j i); assumption].
Qed.
Lemma map_run_map {A B} (f : A -> run B) (g : A -> B) l : Forall (fun a => f a = Done (g a)) l -> map_run f l = Done (map g l).
Proof. induction l as [|a l IH]; intros F; [reflexivity|]. apply Forall_cons_iff in F as [E F]. cbn [map_run map]. rewrite E, (IH F). reflexivity. Qed.
Lemma combine_map {A B} (f : A -> B) l : combine l (map f l) = map (fun a => (a, f a)) l.
Proof. induction l as [|a l IH]; cbn; [reflexivity|now rewrite IH]. Qed.
Lemma sorted_distinct {A} (R : A -> A -> Prop) l : StronglySorted R l -> NoDup l -> StronglySorted (fun a b => R a b /\ a <> b /\ In a l /\ In b l) l.
Proof.
  intros S D. assert (G : forall l', incl l' l -> StronglySorted R l' -> NoDup l' -> StronglySorted (fun a b => R a b /\ a <> b /\ In a l /\ In b l) l'); [|apply G; auto; apply incl_refl].
  clear S D. induction l' as [|a l' IH]; intros I S D; constructor; apply StronglySorted_inv in S as [S F]; apply NoDup_cons_iff in D as [D1 D2]; apply incl_cons_inv in I as [I1 I2]; auto.
  rewrite Forall_forall in *. intros b Hb. split; [auto|]. split; [intros ->; auto|auto].
Qed.
Lemma sorted_map {A B} (f : A -> B) (R : B -> B -> Prop) l : StronglySorted R (map f l) <-> StronglySorted (fun a b => R (f a) (f b)) l.
Proof.
  induction l as [|a l IH]; cbn [map]; [split; constructor|]. split; intros S; apply StronglySorted_inv in S as [S F]; constructor; try (now apply IH); rewrite Forall_forall in *; intros b Hb.
  - apply F. now apply in_map.
  - apply in_map_iff in Hb as (x & <- & Hx). now apply F.
Qed.
Lemma sorted_impl {A} (P : A -> Prop) (R Q : A -> A -> Prop) l : (forall a b, In a l -> In b l -> R a b -> Q a b) -> StronglySorted R l -> StronglySorted Q l.
Proof.
  intros H S. induction S as [|a l S IH F]; constructor.
  - apply IH. intros x y Hx Hy. apply H; now right.
  - rewrite Forall_forall in *. intros y Hy. apply H; [now left|now right|auto].
Qed.

(* ---- sorting ---- *)
Definition timed_by (c : criterion) : Prop := c = ByStart \/ c = ByEnd \/ c = ByDuration.
Lemma key_ok i c : (timed_by c -> fits (n_event i)) -> exists k, key_of c i = Done k /\ sort_value i c k.
Proof.
  intros F. destruct c; try (apply fits_key, F; unfold timed_by; tauto); cbn [key_of]; try (eexists; split; [reflexivity|constructor]; fail).
  eexists. split; [reflexivity|]. destruct (parse_u32 (e_layer (n_event i))) as [n|] eqn:E; [now apply sv_layer|now apply sv_no_layer].
Qed.
Definition key_val (c : criterion) (i : info) : key := match key_of c i with Done k => k | _ => Num 0 end.
Lemma key_val_ok i c : (timed_by c -> fits (n_event i)) -> key_of c i = Done (key_val c i) /\ sort_value i c (key_val c i).
Proof. intros F. unfold key_val. destruct (key_ok i c F) as (k & -> & H). auto. Qed.
Definition second_val (s : sorting) (l : list info) (i : info) : key :=
  match then_by s with
  | None => Num 0
  | Some c => if 1 <? List.length (filter (fun k' => match key_cmp (key_val (by_ s) i) k' with Eq => true | _ => false end) (map (key_val (by_ s)) l)) then key_val c i else Num 0
  end.
Lemma filter_two {A} (p : A -> bool) (a b : A) l : a <> b -> In a l -> In b l -> p a = true -> p b = true -> 1 < List.length (filter p l).
Proof.
  intros N Ia Ib Pa Pb. assert (H : List.length [a; b] <= List.length (filter p l)); [|cbn in H; lia]. apply NoDup_incl_length.
  - constructor; [intros [->|[]]; auto|repeat constructor; intros []].
  - intros x [<-|[<-|[]]]; apply filter_In; auto.
Qed.
Lemma length_filter_map {A B} (f : A -> B) (p : B -> bool) l : List.length (filter p (map f l)) = List.length (filter (fun a => p (f a)) l).
Proof. induction l as [|a l IH]; cbn; [reflexivity|]. destruct (p (f a)); cbn; now rewrite IH. Qed.
Lemma second_val_real s c l a b : then_by s = Some c -> a <> b -> In a l -> In b l -> key_val (by_ s) a = key_val (by_ s) b -> second_val s l a = key_val c a /\ second_val s l b = key_val c b.
Proof.
  intros T N Ia Ib E. unfold second_val. rewrite T, <- E, length_filter_map.
  assert (K : 1 <? List.length (filter (fun i => match key_cmp (key_val (by_ s) a) (key_val (by_ s) i) with Eq => true | _ => false end) l) = true); [|now rewrite K].
  apply Nat.ltb_lt, (filter_two _ a b); auto; [|rewrite <- E]; now rewrite (proj2 (key_cmp_refl _ _) eq_refl).
Qed.
Definition timed_sort (s : sorting) : Prop := timed_by (by_ s) \/ exists c, then_by s = Some c /\ timed_by c.
Lemma sort_ok s l : (timed_sort s -> Forall (fun i => fits (n_event i)) l) -> NoDup l -> StronglySorted (fun a b => n_index a < n_index b) l ->
  exists l', apply_sort s l = Done l' /\ Permutation l l' /\ StronglySorted (ordered (Some s)) l'.
Proof.
  intros F D S. assert (F1 : forall i, In i l -> timed_by (by_ s) -> fits (n_event i)) by (intros i Hi T; pose proof (F (or_introl T)) as Q; rewrite Forall_forall in Q; auto).
  assert (F2 : forall i c, In i l -> then_by s = Some c -> timed_by c -> fits (n_event i)) by (intros i c Hi E T; pose proof (F (or_intror (ex_intro _ c (conj E T)))) as Q; rewrite Forall_forall in Q; auto).
  set (ent := fun i => (i, key_val (by_ s) i, second_val s l i)).
  assert (E : forall x y r, l = x :: y :: r -> apply_sort s l = Done (map (fun e => fst (fst e)) (stable_sort (entry_le s) (map ent l)))).
  { intros x y r El. unfold apply_sort. rewrite El. rewrite <- El. rewrite (map_run_map _ (key_val (by_ s))) by (apply Forall_forall; intros i Hi; apply key_val_ok; auto). cbn [bind]. rewrite combine_map.
    rewrite (map_run_map _ (fun p => (fst p, snd p, second_val s l (fst p)))).
    - cbn [bind]. now rewrite map_map.
    - apply Forall_forall. intros p Hp. apply in_map_iff in Hp as (i & <- & Hi). cbn [fst snd]. unfold second_key, second_val. destruct (then_by s) as [c|] eqn:T; [|reflexivity]. destruct (1 <? _); [|reflexivity].
      now rewrite (proj1 (key_val_ok i c (F2 i c Hi eq_refl))). }
  destruct l as [|x [|y r]]; [exists []; repeat split; constructor|exists [x]; repeat split; repeat constructor|]. specialize (E x y r eq_refl). remember (x :: y :: r) as l eqn:El. clear El x y r.
  eexists. split; [exact E|]. assert (EP := sort_perm (entry_le s) (map ent l)). assert (P : Permutation l (map (fun e => fst (fst e)) (stable_sort (entry_le s) (map ent l)))).
  { apply (Permutation_map (fun e => fst (fst e))) in EP. rewrite map_map in EP. cbn [ent fst] in EP. now rewrite map_id in EP. }
  split; [exact P|]. apply sorted_map.
  assert (S2 : StronglySorted (lex (entry_le s) (fun a b => n_index (fst (fst a)) < n_index (fst (fst b)))) (stable_sort (entry_le s) (map ent l))).
  { apply sort_lex; [intros; apply entry_total|intros ? ? ?; apply entry_trans|]. apply sorted_map. exact S. }
  assert (D2 : NoDup (stable_sort (entry_le s) (map ent l))).
  { apply (Permutation_NoDup EP). apply FinFun.Injective_map_NoDup; [|exact D]. intros a b Q. now injection Q. }
  apply (sorted_distinct _ _ S2) in D2. apply (sorted_impl (fun _ => True) _ _ _) with (2 := D2). intros a b _ _ ([L1 L2] & N & Ia & Ib).
  apply (Permutation_in _ (Permutation_sym EP)) in Ia. apply (Permutation_in _ (Permutation_sym EP)) in Ib. apply in_map_iff in Ia as (i & <- & Ii). apply in_map_iff in Ib as (j & <- & Ij).
  rewrite entry_le_iff in L1, L2. cbn [ent fst snd] in L1, L2 |- *. exists (key_val (by_ s) i), (key_val (by_ s) j).
  assert (V1 : sort_value i (by_ s) (key_val (by_ s) i)) by (apply key_val_ok; auto). assert (V2 : sort_value j (by_ s) (key_val (by_ s) j)) by (apply key_val_ok; auto). split; [exact V1|]. split; [exact V2|].
  destruct L1 as [L1|[E1 L1]]; [left; now apply (klt_less _ i j (by_ s))|right]. split; [exact E1|]. assert (NE : i <> j) by (intros ->; auto).
  destruct (then_by s) as [c|] eqn:T.
  - destruct (second_val_real s c l i j T NE Ii Ij E1) as [R1 R2]. rewrite R1, R2 in *. exists (key_val c i), (key_val c j).
    assert (W1 : sort_value i c (key_val c i)) by (apply key_val_ok; eauto). assert (W2 : sort_value j c (key_val c j)) by (apply key_val_ok; eauto). split; [exact W1|]. split; [exact W2|].
    destruct L1 as [L1|L1]; [left; now apply (klt_less _ i j c)|right]. split; [exact L1|]. apply L2. right. split; [now symmetry|]. right. now symmetry.
  - apply L2. right. split; [now symmetry|]. right. unfold second_val. now rewrite T.
Qed.

(* ---- whole queries ---- *)
Definition timed (q : query) : Prop := f_time (q_filter q) <> None \/ exists s, q_sort q = Some s /\ timed_sort s.
Lemma untimed_filters lower f l : f_time f = None -> exists l', apply_filters lower f l = Done l' /\ (forall i, In i l' <-> In i l /\ matches lower f (n_event i)) /\ forall R : info -> info -> Prop, StronglySorted R l -> StronglySorted R l'.
Proof.
  intros N. induction l as [|i l IH]; [exists []; split; [reflexivity|split; [intros i; cbn; tauto|auto]]|]. destruct IH as (l' & E & M & S).
  assert (Eb : exists b, matches_filter lower f (n_event i) = Done b /\ (b = true <-> matches lower f (n_event i))).
  { rewrite matches_split. pose proof (fields_ok_iff lower f (n_event i)) as K. unfold matches. rewrite N. cbn [asks]. destruct (fields_ok lower f (n_event i)); [exists true|exists false]; split; try reflexivity; tauto. }
  destruct Eb as (b & Eb & B). cbn [apply_filters]. rewrite Eb, E. cbn [bind].
  eexists. split; [reflexivity|]. split.
  - intros j. destruct b; cbn [In]; rewrite M; split.
    + intros [<-|[H1 H2]]; [split; [now left|now apply B]|auto].
    + intros [[<-|H1] H2]; [now left|auto].
    + intros [H1 H2]. auto.
    + intros [[<-|H1] H2]; [apply B in H2; discriminate H2|auto].
  - intros R SR. apply StronglySorted_inv in SR as [SR FR]. destruct b; [|now apply S]. constructor; [now apply S|]. apply Forall_forall. intros j Hj. apply M in Hj as [Hj _]. rewrite Forall_forall in FR. now apply FR.
Qed.
Lemma index_nodup l : StronglySorted (fun a b => n_index a < n_index b) l -> NoDup (map n_index l).
Proof.
  intros S. induction S as [|a l S IH F]; cbn [map]; constructor; [|exact IH]. intros H. apply in_map_iff in H as (b & E & H). rewrite Forall_forall in F. apply F in H. lia.
Qed.
Lemma numbered_fits evs : Forall fits evs -> Forall (fun i => fits (n_event i)) (numbered 0 evs).
Proof. rewrite !Forall_forall. intros F i H. apply numbered_in in H as (j & e & H & ->). cbn. apply F. eapply nth_error_In, H. Qed.
Lemma query_full lower q d sc : parse (text d) = Done sc -> (timed q -> Forall fits (events_of sc)) ->
  exists full, execute lower q d = Done (match q_limit q with Some n => firstn n full | None => full end) /\
    first lower q d = Done (hd_error full) /\ NoDup (map n_index full) /\ (forall i, In i full <-> event_info (events_of sc) i /\ matches lower (q_filter q) (n_event i)) /\ StronglySorted (ordered (q_sort q)) full.
Proof.
  intros E F. assert (G : exists l', apply_filters lower (q_filter q) (numbered 0 (events_of sc)) = Done l' /\ (forall i, In i l' <-> In i (numbered 0 (events_of sc)) /\ matches lower (q_filter q) (n_event i)) /\ forall R : info -> info -> Prop, StronglySorted R (numbered 0 (events_of sc)) -> StronglySorted R l').
  { destruct (f_time (q_filter q)) as [r|] eqn:T; [|now apply untimed_filters]. apply filters_ok, numbered_fits, F. left. rewrite T. discriminate. }
  destruct G as (l' & E1 & M & S). specialize (S _ (numbered_sorted (events_of sc) 0)).
  assert (D : NoDup (map n_index l')) by now apply index_nodup. assert (D' : NoDup l') by (eapply NoDup_map_inv, D).
  assert (G : exists full, match q_sort q with Some s => apply_sort s l' | None => Done l' end = Done full /\ Permutation l' full /\ StronglySorted (ordered (q_sort q)) full).
  { destruct (q_sort q) as [s|] eqn:Es; [|exists l'; repeat split; [reflexivity|exact S]]. apply sort_ok; auto. intros T. assert (K : Forall (fun i => fits (n_event i)) (numbered 0 (events_of sc))) by (apply numbered_fits, F; right; eauto).
    rewrite Forall_forall in *. intros i Hi. apply M in Hi as [Hi _]. auto. }
  destruct G as (full & E2 & P & SF). exists full. unfold execute, first, execute. rewrite E. cbn [bind]. unfold run_query. cbn [q_filter q_sort q_limit]. rewrite E1. cbn [bind]. rewrite E2. cbn [bind]. split; [reflexivity|]. split; [destruct full as [|a [|b r]]; reflexivity|]. split; [|split; [|exact SF]].
  - apply (Permutation_NoDup (Permutation_map n_index P) D).
  - intros i. rewrite <- numbered_info, <- M. split; apply Permutation_in; [now symmetry|exact P].
Qed.
Lemma matches_not_stuck lower f e : matches_filter lower f e <> Stuck.
Proof.
  rewrite matches_split. destruct (fields_ok lower f e); [|discriminate]. destruct (f_time f) as [[lo hi]|]; [|discriminate].
  pose proof (time_cs_spec (e_start e)) as A. pose proof (time_cs_spec (e_end e)) as B. destruct (time_cs (e_start e)) as [a| |]; cbn [bind]; [|discriminate|destruct A]. destruct (time_cs (e_end e)); cbn [bind]; [discriminate|discriminate|destruct B].
Qed.
Lemma filters_not_stuck lower f l : apply_filters lower f l <> Stuck.
Proof.
  induction l as [|i l IH]; cbn [apply_filters]; [discriminate|]. pose proof (matches_not_stuck lower f (n_event i)). destruct (matches_filter lower f (n_event i)); cbn [bind]; [|discriminate|congruence]. destruct (apply_filters lower f l); cbn [bind]; [discriminate|discriminate|congruence].
Qed.
Lemma filters_crash_any lower f l i : f_time f <> None -> In i l -> matches_fields lower f (n_event i) -> ~ fits (n_event i) -> apply_filters lower f l = Crash.
Proof.
  intros T H M NF. induction l as [|j l IH]; [destruct H|]. destruct H as [->|H].
  - apply (filters_crash lower f i [] l); auto.
  - cbn [apply_filters]. pose proof (matches_not_stuck lower f (n_event j)). destruct (matches_filter lower f (n_event j)); cbn [bind]; [|reflexivity|congruence]. now rewrite (IH H).
Qed.
