(* C205: the memory pool of a session, for every history of its use *)
From Verif Require Import Base FloatModel MemModel.
Local Open Scope N_scope.

(* ---- specification ---- *)
Definition held (p : pool) : N := p_primary p + p_temp p.
(* the greatest value seen on the way *)
Definition highest (f : pool -> N) (left : N -> N) (l : list op) (p : pool) : N := fold_right N.max 0 (map (fun k => f (run left (firstn k l) p)) (seq 0 (S (length l)))).
Definition is_primary_mut (o : op) : bool := match o with PrimaryMut _ => true | _ => false end.
Definition is_set_config (o : op) : bool := match o with SetConfig _ => true | _ => false end.
Definition uses (l : list op) : N := N.of_nat (length (filter is_primary_mut l)).

(* ---- proofs ---- *)
Definition good (p : pool) : Prop := total (p_stats p) = in_use (p_stats p) /\ in_use (p_stats p) <= peak (p_stats p) /\ in_use (p_stats p) <= held p.
Section Proofs.
  Variable left : N -> N.
  Hypothesis shrink : forall n, left n <= n.
  Lemma update_good p : good (update p) /\ peak (p_stats p) <= peak (p_stats (update p)) /\ peak (p_stats (update p)) <= N.max (peak (p_stats p)) (held p) /\ held (update p) = held p /\ in_use (p_stats (update p)) = held p.
  Proof. unfold good, update, held; cbn. destruct (N.ltb_spec (peak (p_stats p)) (p_primary p + p_temp p)); repeat split; lia. Qed.
  Definition goes (p q : pool) : Prop := good q /\ peak (p_stats p) <= peak (p_stats q) /\ peak (p_stats q) <= N.max (peak (p_stats p)) (held p).
  Lemma primary_goes p : goes p (reset_primary left p) /\ held (reset_primary left p) <= held p /\ in_use (p_stats (reset_primary left p)) = held (reset_primary left p).
  Proof.
    unfold reset_primary. set (q := Po _ _ _ _ _ _ _). destruct (update_good q) as (G & A & B & H & I). rewrite I, H. assert (E : held q <= held p) by (unfold held, q; cbn; pose proof (shrink (p_primary p)); lia). change (peak (p_stats q)) with (peak (p_stats p)) in A, B. unfold goes. repeat split; try apply G; lia.
  Qed.
  Lemma temp_goes p : goes p (reset_temp left p) /\ held (reset_temp left p) <= held p /\ in_use (p_stats (reset_temp left p)) = held (reset_temp left p).
  Proof.
    unfold reset_temp. set (q := Po _ _ _ _ _ _ _). destruct (update_good q) as (G & A & B & H & I). rewrite I, H. assert (E : held q <= held p) by (unfold held, q; cbn; pose proof (shrink (p_temp p)); lia). change (peak (p_stats q)) with (peak (p_stats p)) in A, B. unfold goes. repeat split; try apply G; lia.
  Qed.
  Lemma goes_trans p q r : goes p q -> held q <= held p -> goes q r -> goes p r.
  Proof. intros (_ & A & B) H (G & C & D). unfold goes. split; [exact G|]. split; lia. Qed.
  Lemma all_goes p : goes p (reset_all left p) /\ held (reset_all left p) <= held p /\ in_use (p_stats (reset_all left p)) = held (reset_all left p).
  Proof. unfold reset_all. destruct (primary_goes p) as (A & B & _), (temp_goes (reset_primary left p)) as (C & D & E). split; [eapply goes_trans; eassumption|]. split; [lia|exact E]. Qed.
  Lemma step_goes p o : good p -> goes p (step left p o).
  Proof.
    intros G. destruct o; cbn [step].
    - destruct G as (A & B & C). unfold goes, good, held in *; cbn. repeat split; lia.
    - destruct G as (A & B & C). unfold goes, good, held in *; cbn. repeat split; lia.
    - unfold primary_mut, check_reset. set (q := Po _ _ _ _ _ _ _). assert (GQ : goes p q) by (destruct G as (A & B & C); unfold goes, good, held, q in *; cbn; repeat split; lia). destruct (_ || _ || _); [|exact GQ]. eapply goes_trans; [exact GQ|unfold held, q; cbn; lia|apply primary_goes].
    - apply primary_goes.
    - apply temp_goes.
    - apply all_goes.
    - unfold collect; cbn [snd]. destruct (temp_goes p) as (A & B & I). set (q := reset_temp left p) in *.
      assert (K : goes p (if under_pressure q then reset_primary left q else q)). { destruct (under_pressure q); [|exact A]. eapply goes_trans; [exact A|exact B|apply primary_goes]. }
      destruct (if under_pressure q then reset_primary left q else q) as [c a t s o la ga]. destruct K as ((K1 & K2 & K3) & K4 & K5). unfold goes, good, held in *; cbn in *. repeat split; lia.
    - unfold force_cleanup. set (q := Po _ _ _ _ _ _ _). destruct (all_goes p) as (A & B & I). destruct (update_good q) as (C & D & E & _). assert (P : peak (p_stats q) = peak (p_stats (reset_all left p))) by reflexivity. assert (H : held q = held (reset_all left p)) by reflexivity. destruct A as (_ & A1 & A2). unfold goes. split; [exact C|]. split; lia.
    - destruct G as (A & B & C). unfold goes, good, held, set_config in *; cbn. repeat split; lia.
  Qed.
  Lemma run_good l p : good p -> good (run left l p).
  Proof. revert p. induction l as [|o l IH]; intros p G; [exact G|]. cbn. apply IH. apply step_goes, G. Qed.
  Lemma highest_cons f o l p : highest f left (o :: l) p = N.max (f p) (highest f left l (step left p o)).
  Proof.
    unfold highest. cbn [length]. set (n := length l). change (seq 0 (S (S n))) with (0%nat :: seq 1 (S n)). rewrite <- seq_shift, map_cons, map_map. cbn [fold_right]. f_equal.
  Qed.
  Lemma peak_bounds l : forall p, good p -> highest (fun p => in_use (p_stats p)) left l p <= peak (p_stats (run left l p)) /\ peak (p_stats (run left l p)) <= N.max (peak (p_stats p)) (highest held left l p) /\ peak (p_stats p) <= peak (p_stats (run left l p)).
  Proof.
    induction l as [|o l IH]; intros p G.
    - unfold highest, run. cbn. destruct G as (_ & A & _). lia.
    - rewrite !highest_cons. change (run left (o :: l) p) with (run left l (step left p o)). destruct (step_goes p o G) as (G' & A & B). destruct (IH _ G') as (C & D & E). destruct G as (_ & P & _). lia.
  Qed.

  (* ---- how often the primary arena is reset ---- *)
  Lemma ops_update p : p_ops (update p) = p_ops p /\ resets (p_stats (update p)) = resets (p_stats p) /\ p_cfg (update p) = p_cfg p.
  Proof. repeat split. Qed.
  Lemma step_resets p o : is_set_config o = false -> p_cfg (step left p o) = p_cfg p /\
    (resets (p_stats p) < resets (p_stats (step left p o)) \/ resets (p_stats p) = resets (p_stats (step left p o)) /\ p_ops (step left p o) = p_ops p + (if is_primary_mut o then 1 else 0) /\ (is_primary_mut o = true -> p_ops (step left p o) < reset_at (p_cfg p))).
  Proof.
    clear shrink. intros S. destruct o; cbn [step is_primary_mut is_set_config] in *; try discriminate.
    - split; [reflexivity|]. right. cbn. repeat split; [lia|discriminate].
    - split; [reflexivity|]. right. cbn. repeat split; [lia|discriminate].
    - unfold primary_mut, check_reset. set (q := Po _ _ _ _ _ _ _). destruct (reset_at (p_cfg q) <=? p_ops q) eqn:E; cbn [orb].
      + split; [reflexivity|]. left. cbn. lia.
      + apply N.leb_gt in E. destruct (under_pressure q || should_gc now q).
        * split; [reflexivity|]. left. cbn. lia.
        * split; [reflexivity|]. right. repeat split. intros _. exact E.
    - split; [reflexivity|]. left. cbn. lia.
    - split; [reflexivity|]. right. cbn. repeat split; [lia|discriminate].
    - split; [reflexivity|]. left. cbn. lia.
    - unfold collect; cbn [snd]. destruct (under_pressure (reset_temp left p)).
      + split; [reflexivity|]. left. cbn. lia.
      + split; [reflexivity|]. right. cbn. repeat split; [lia|discriminate].
    - split; [reflexivity|]. left. cbn. lia.
  Qed.
  Lemma run_resets l : forall p, forallb (fun o => negb (is_set_config o)) l = true -> p_cfg (run left l p) = p_cfg p /\
    (resets (p_stats p) < resets (p_stats (run left l p)) \/ resets (p_stats p) = resets (p_stats (run left l p)) /\ p_ops (run left l p) = p_ops p + uses l /\ (0 < uses l -> p_ops p + uses l < reset_at (p_cfg p))).
  Proof.
    clear shrink. induction l as [|o l IH]; intros p S.
    - split; [reflexivity|]. right. unfold uses. cbn. repeat split; lia.
    - cbn [forallb] in S. apply andb_prop in S as [S1 S2]. apply negb_true_iff in S1. destruct (step_resets p o S1) as (C & D). destruct (IH (step left p o) S2) as (C' & D'). change (run left (o :: l) p) with (run left l (step left p o)). split; [congruence|]. rewrite C in D'.
      assert (U : uses (o :: l) = (if is_primary_mut o then 1 else 0) + uses l) by (unfold uses; cbn [filter]; destruct (is_primary_mut o); cbn [length]; lia). rewrite U.
      destruct D as [D|(D1 & D2 & D3)], D' as [D'|(E1 & E2 & E3)]; try (left; lia). right. repeat split; [congruence|lia|]. destruct (is_primary_mut o); [|intros; rewrite D2 in E3; lia].
      intros _. specialize (D3 eq_refl). destruct (N.eq_dec (uses l) 0); lia.
  Qed.
End Proofs.

(* ---- theorems ---- *)
Theorem pool_statistics : forall left c l, (forall n, left n <= n) -> let p := run left l (with_config c) in
  total (p_stats p) = in_use (p_stats p) /\ in_use (p_stats p) <= held p /\
  highest (fun p => in_use (p_stats p)) left l (with_config c) <= peak (p_stats p) <= highest held left l (with_config c).
Proof.
  intros left c l H. cbv zeta. assert (G : good (with_config c)) by (unfold good, held; cbn; lia). destruct (run_good left H l _ G) as (A & _ & C). destruct (peak_bounds left H l _ G) as (D & E & _). cbn [with_config p_stats peak] in E. rewrite N.max_0_l in E. repeat split; assumption.
Qed.
Print Assumptions pool_statistics.

(* asking for the arena as often as the threshold resets it at least once *)
Theorem pool_resets : forall left l p, forallb (fun o => negb (is_set_config o)) l = true -> 1 <= uses l -> reset_at (p_cfg p) <= uses l -> resets (p_stats p) < resets (p_stats (run left l p)).
Proof. intros left l p S U R. destruct (run_resets left l p S) as (_ & [D|(_ & _ & D)]); [exact D|]. specialize (D ltac:(lia)). lia. Qed.
Print Assumptions pool_resets.

Theorem pool_resets_counted : forall left l p, resets (p_stats p) <= resets (p_stats (run left l p)).
Proof.
  intros left l. induction l as [|o l IH]; intros p; [cbn; lia|]. change (run left (o :: l) p) with (run left l (step left p o)). etransitivity; [|apply IH]. destruct (is_set_config o) eqn:E; [destruct o; try discriminate; cbn; lia|]. destruct (step_resets left p o E) as (_ & [D|(D & _)]); lia.
Qed.
Print Assumptions pool_resets_counted.

Theorem pool_collects : forall left now p, (forall n, left n <= n) -> let '(freed, q) := collect left now p in
  in_use (p_stats q) = held q /\ p_temp q = left (p_temp p) /\ (p_primary q = p_primary p \/ p_primary q = left (p_primary p)) /\ cycles (p_stats q) = cycles (p_stats p) + 1 /\ p_last q = Some now /\ p_at_gc q = held q /\
  (in_use (p_stats p) = held p -> held p = held q + freed).
Proof.
  intros left now p H. unfold collect. destruct (under_pressure (reset_temp left p)); cbn; unfold held; cbn; pose proof (H (p_temp p)); pose proof (H (p_primary p)); repeat split; try lia; auto.
Qed.
Print Assumptions pool_collects.

Theorem pool_cleaned : forall left now p, let q := force_cleanup left now p in
  p_primary q = left (p_primary p) /\ p_temp q = left (p_temp p) /\ in_use (p_stats q) = held q /\ p_ops q = 0 /\ p_last q = Some now /\ p_cfg q = p_cfg p /\ resets (p_stats q) = resets (p_stats p) + 1 /\ cycles (p_stats q) = cycles (p_stats p).
Proof. intros. repeat split. Qed.
Print Assumptions pool_cleaned.

(* what each strategy guarantees once it has been evaluated *)
Theorem strategy_keeps : forall left now m, let '(b, m') := evaluate left now m in
  g_strategy m' = g_strategy m /\ (b = false -> m' = m) /\
  match g_strategy m with
  | OperationCount n => if b then n <= p_ops (g_pool m) /\ g_pool m' = force_cleanup left now (g_pool m) else p_ops (g_pool m) < n
  | MemoryThreshold n => if b then n <= in_use (p_stats (g_pool m)) /\ g_pool m' = force_cleanup left now (g_pool m) else in_use (p_stats (g_pool m)) < n
  | TimeInterval d => if b then g_last m + d <= N.max now (g_last m) /\ g_last m' = now /\ g_pool m' = force_cleanup left now (g_pool m) else now < g_last m + d
  | PressureRatio _ => b = true -> g_pool m' = force_cleanup left now (g_pool m)
  | Hybrid => if b then g_pool m' = snd (collect left now (g_pool m)) else p_ops (g_pool m) < 1000
  | Manual => b = false
  end.
Proof.
  intros left now [p s t]. unfold evaluate. cbn [g_pool g_strategy g_last]. destruct s as [n|n|d|r| |].
  - destruct (N.leb_spec n (p_ops p)); cbn [g_pool g_strategy]; repeat split; try discriminate; auto.
  - destruct (N.leb_spec n (in_use (p_stats p))); cbn [g_pool g_strategy]; repeat split; try discriminate; auto.
  - destruct (N.leb_spec d (now - t)); cbn [g_pool g_strategy g_last]; repeat split; try discriminate; auto; lia.
  - destruct (_ && _); cbn [g_pool g_strategy]; repeat split; try discriminate; auto.
  - destruct (N.leb_spec 1000 (p_ops p)); cbn [orb]; [|destruct (_ || _)]; cbn [g_pool g_strategy]; repeat split; try discriminate; auto.
  - repeat split; auto.
Qed.
Print Assumptions strategy_keeps.

Example pool_ex : let p := run (fun n => n / 2) [AllocPrimary 100; AllocTemp 30; ResetTemp; PrimaryMut 5; AllocPrimary 7; Force 9] (with_config default_config) in
  (held p, in_use (p_stats p), peak (p_stats p), resets (p_stats p)) = (60, 60, 115, 1).
Proof. vm_compute. reflexivity. Qed.
Example pool_resets_ex : let c := Cf 1000 3 (Fin 1) false 0 (Fin 2) in let l := [PrimaryMut 1; AllocPrimary 5; PrimaryMut 2; PrimaryMut 3] in
  forallb (fun o => negb (is_set_config o)) l = true /\ uses l = reset_at c /\ resets (p_stats (run (fun _ => 0) l (with_config c))) = 1.
Proof. vm_compute. repeat split. Qed.

(* the use is only measured at resets, so an arena over its limit counts as acceptable *)
Theorem acceptable_refuted : exists l, let p := run (fun _ => 0) l (with_config default_config) in max_size (p_cfg p) < held p /\ acceptable p = true /\ under_pressure p = false.
Proof. exists [AllocPrimary 100000000]. vm_compute. repeat split. Qed.
Print Assumptions acceptable_refuted.

(* collecting does not start the count of the hybrid strategy again, so it fires at every evaluation *)
Theorem hybrid_restarts_refuted : exists p, p_ops p = 1000 /\ held p = 0 /\ forall times, fst (fold_left (fun bm now => let '(b, m) := evaluate (fun _ => 0) now (snd bm) in ((fst bm && b)%bool, m)) times (true, Mg p Hybrid 0)) = true.
Proof.
  exists (Po default_config 0 0 (St 0 0 0 0 0) 1000 None 0). split; [reflexivity|]. split; [reflexivity|]. intros times.
  assert (G : forall times s la ga m, in_use s = 0 -> fst (fold_left (fun bm now => let '(b, m) := evaluate (fun _ => 0) now (snd bm) in ((fst bm && b)%bool, m)) times (true, Mg (Po default_config 0 0 s 1000 la ga) Hybrid m)) = true); [|apply G; reflexivity].
  clear times. induction times as [|now r IH]; intros s la ga m Z; [reflexivity|]. cbn [fold_left snd fst]. unfold evaluate. cbn [g_strategy g_pool p_ops g_last]. change (1000 <=? 1000) with true. cbn [orb].
  unfold collect. cbn [snd]. set (q := reset_temp (fun _ => 0) (Po default_config 0 0 s 1000 la ga)). assert (U : under_pressure q = false) by (unfold under_pressure, q; cbn [reset_temp update p_cfg p_stats in_use p_primary p_temp]; vm_compute; reflexivity). rewrite U. unfold q. cbn [reset_temp update p_cfg p_primary p_temp p_stats p_ops total in_use resets cycles peak andb]. apply IH. reflexivity.
Qed.
Print Assumptions hybrid_restarts_refuted.

(* a reset of the primary arena: what it empties, counts and restarts, and what it leaves alone *)
Theorem pool_reset_exact : forall left p, let q := reset_primary left p in
  p_primary q = left (p_primary p) /\ p_temp q = p_temp p /\ p_ops q = 0 /\ in_use (p_stats q) = held q /\ resets (p_stats q) = resets (p_stats p) + 1 /\ cycles (p_stats q) = cycles (p_stats p) /\ p_cfg q = p_cfg p /\ p_last q = p_last p.
Proof. intros. repeat split. Qed.
Print Assumptions pool_reset_exact.

(* asking for the primary arena either counts the request, while below the threshold, or resets and starts the count again, and only for a reason *)
Theorem pool_asked : forall left now p, let q := primary_mut left now p in
  (resets (p_stats q) = resets (p_stats p) /\ p_ops q = p_ops p + 1 /\ p_ops q < reset_at (p_cfg p) /\ p_primary q = p_primary p /\ p_temp q = p_temp p) \/
  (resets (p_stats q) = resets (p_stats p) + 1 /\ p_ops q = 0 /\ p_primary q = left (p_primary p) /\ p_temp q = p_temp p /\ (reset_at (p_cfg p) <= p_ops p + 1 \/ under_pressure p = true \/ should_gc now p = true)).
Proof.
  intros left now p. unfold primary_mut, check_reset. set (q := Po _ _ _ _ _ _ _).
  change (p_cfg q) with (p_cfg p). change (p_ops q) with (p_ops p + 1). change (under_pressure q) with (under_pressure p). change (should_gc now q) with (should_gc now p).
  destruct (N.leb_spec (reset_at (p_cfg p)) (p_ops p + 1)) as [L|L]; cbn [orb].
  - right. repeat split; auto.
  - destruct (under_pressure p); cbn [orb]; [right; repeat split; auto|]. destruct (should_gc now p); [right; repeat split; auto|left; repeat split; auto].
Qed.
Print Assumptions pool_asked.
Example pool_asked_ex : let p := run (fun _ => 0) [AllocPrimary 5; PrimaryMut 2] (with_config (Cf 1000 2 (Fin 1) false 0 (Fin 2))) in
  p_ops p = 1 /\ p_ops (primary_mut (fun _ => 0) 3 p) = 0 /\ resets (p_stats (primary_mut (fun _ => 0) 3 p)) = 1.
Proof. vm_compute. repeat split. Qed.

(* ---- when the pool is under pressure and when it collects by itself ---- *)
From Verif Require Import FloatSpec FloatProofs FloatProps.
Local Open Scope Q_scope.
Definition QN (n : N) : Q := inject_Z (Z.of_N n).
(* a count that a double holds exactly *)
Definition countable (n : N) : Prop := (n < 2 ^ 53)%N.
Lemma f64_ok : valid_format f64. Proof. apply formats_valid. Qed.
Lemma count_exact n : countable n -> exists v, f_of_N f64 n = Fin v /\ v == QN n.
Proof. intros C. apply integers_exact; [exact f64_ok|vm_compute; discriminate| |vm_compute; discriminate]. unfold countable in C. change (2 ^ fm_prec f64)%Z with (Z.of_N (2 ^ 53)%N). lia. Qed.
Lemma ratio_rounds a b : countable a -> countable b -> (0 < b)%N -> ratio a b = round_to f64 (QN a / QN b).
Proof.
  intros A B P. destruct (count_exact a A) as (va & EA & VA), (count_exact b B) as (vb & EB & VB). unfold ratio. rewrite EA, EB. cbn [f_div]. unfold qzero.
  destruct (Z.eqb_spec (Qnum vb) 0) as [Z|Z].
  - exfalso. assert (X : vb == 0) by (unfold Qeq; cbn; lia). rewrite VB in X. unfold QN, inject_Z, Qeq in X. cbn in X. lia.
  - apply rounding_respects_value; [exact f64_ok|]. rewrite VA, VB. reflexivity.
Qed.
Lemma ratio_above a b t : countable a -> countable b -> (0 < b)%N -> representable f64 t ->
  (f_lt (Fin t) (ratio a b) = true -> t * QN b < QN a) /\ (forall w, representable f64 w -> t < w -> w * QN b <= QN a -> f_lt (Fin t) (ratio a b) = true).
Proof.
  intros A B P R. rewrite (ratio_rounds a b A B P). assert (PB : 0 < QN b) by (unfold QN, inject_Z, Qlt; cbn; lia). set (q := QN a / QN b). assert (E : QN a == q * QN b) by (unfold q; field; lra). split.
  - intros L. apply Qnot_le_lt. intros K. assert (QT : q <= t) by (apply (Qmult_le_r _ _ (QN b) PB); lra). pose proof (rounding_monotone f64 q t f64_ok QT) as M. destruct (rounding_exact f64 t f64_ok R) as (v & EV & VV). rewrite EV in M.
    unfold f_lt in L. apply andb_true_iff in L. destruct L as [_ L]. destruct (round_to f64 q) as [|[]|r]; cbn [f_le negb] in *; try discriminate. apply Qle_bool_iff in M. assert (X : Qle_bool r t = true) by (apply Qle_bool_iff; lra). rewrite X in L. discriminate.
  - intros w RW TW W. assert (WQ : w <= q) by (apply (Qmult_le_r _ _ (QN b) PB); lra). pose proof (rounding_monotone f64 w q f64_ok WQ) as M. destruct (rounding_exact f64 w f64_ok RW) as (v & EV & VV). rewrite EV in M.
    unfold f_lt. destruct (round_to f64 q) as [|[]|r]; cbn [f_le negb] in *; try discriminate; [reflexivity|]. apply Qle_bool_iff in M. assert (X : Qle_bool t r = true) by (apply Qle_bool_iff; lra). rewrite X. destruct (Qle_bool r t) eqn:Y; [|reflexivity]. apply Qle_bool_iff in Y. lra.
Qed.
(* pressure: the use is more than the configured share of the limit; conversely, once the share reaches a greater double *)
Theorem pool_pressure : forall p t, pressure_at (p_cfg p) = Fin t -> representable f64 t -> countable (in_use (p_stats p)) -> countable (max_size (p_cfg p)) ->
  (under_pressure p = true -> (0 < max_size (p_cfg p))%N /\ t * QN (max_size (p_cfg p)) < QN (in_use (p_stats p))) /\
  ((0 < max_size (p_cfg p))%N -> forall w, representable f64 w -> t < w -> w * QN (max_size (p_cfg p)) <= QN (in_use (p_stats p)) -> under_pressure p = true).
Proof.
  intros p t T R U M. unfold under_pressure. rewrite T. destruct (N.eqb_spec (max_size (p_cfg p)) 0) as [Z|Z]; [split; [discriminate|intros; lia]|].
  destruct (ratio_above (in_use (p_stats p)) (max_size (p_cfg p)) t U M ltac:(lia) R) as [A B]. split; [intros L; split; [lia|exact (A L)]|intros _; exact B].
Qed.
Print Assumptions pool_pressure.
(* collecting by itself: only when configured and not sooner than the interval after the last collection; then when the use has grown by more than the factor since it, or, before any use was recorded, when it is over half the limit *)
Theorem pool_collects_itself : forall now p g, growth_at (p_cfg p) = Fin g -> representable f64 g -> countable (in_use (p_stats p)) -> countable (p_at_gc p) ->
  (should_gc now p = true -> auto_gc (p_cfg p) = true /\ (forall t, p_last p = Some t -> (gc_every (p_cfg p) <= now - t)%N) /\
    (p_at_gc p = 0%N -> (max_size (p_cfg p) / 2 < in_use (p_stats p))%N) /\ ((0 < p_at_gc p)%N -> g * QN (p_at_gc p) < QN (in_use (p_stats p)))) /\
  (auto_gc (p_cfg p) = true -> (forall t, p_last p = Some t -> (gc_every (p_cfg p) <= now - t)%N) ->
    (p_at_gc p = 0%N /\ (max_size (p_cfg p) / 2 < in_use (p_stats p))%N) \/ ((0 < p_at_gc p)%N /\ exists w, representable f64 w /\ g < w /\ w * QN (p_at_gc p) <= QN (in_use (p_stats p))) -> should_gc now p = true).
Proof.
  intros now p g G R U A. unfold should_gc. rewrite G. destruct (auto_gc (p_cfg p)); cbn [andb]; [|split; discriminate].
  assert (T : negb match p_last p with Some t => (now - t <? gc_every (p_cfg p))%N | None => false end = true <-> forall t, p_last p = Some t -> (gc_every (p_cfg p) <= now - t)%N).
  { destruct (p_last p) as [t|]; [|split; [discriminate|reflexivity]]. rewrite negb_true_iff, N.ltb_ge. split; [intros L t' E; injection E as <-; exact L|intros L; apply L; reflexivity]. }
  destruct (N.ltb_spec 0 (p_at_gc p)) as [P|P].
  - destruct (ratio_above (in_use (p_stats p)) (p_at_gc p) g U A P R) as [X Y]. split.
    + intros L. apply andb_true_iff in L. destruct L as [L1 L2]. split; [reflexivity|]. split; [apply T; exact L1|]. split; [lia|]. intros _. exact (X L2).
    + intros _ L [[Z _]|[_ (w & RW & GW & W)]]; [lia|]. apply andb_true_iff. split; [apply T; exact L|exact (Y w RW GW W)].
  - split.
    + intros L. apply andb_true_iff in L. destruct L as [L1 L2]. split; [reflexivity|]. split; [apply T; exact L1|]. split; [intros _; apply N.ltb_lt; exact L2|lia].
    + intros _ L [[_ Z]|[Z _]]; [|lia]. apply andb_true_iff. split; [apply T; exact L|apply N.ltb_lt; exact Z].
Qed.
Print Assumptions pool_collects_itself.
Example pool_pressure_ex : let p := Po (Cf 1000 3 (Fin (1 # 2)) true 5 (Fin 2)) 900 0 (St 900 900 0 0 900) 0 (Some 1%N) 400 in
  under_pressure p = true /\ should_gc 9 p = true /\ should_gc 3 p = false.
Proof. vm_compute. repeat split. Qed.
(* a reset of the temporary arena touches nothing else and brings the use up to date *)
Theorem pool_temp_exact : forall left p, let q := reset_temp left p in
  p_primary q = p_primary p /\ p_temp q = left (p_temp p) /\ p_ops q = p_ops p /\ in_use (p_stats q) = held q /\ resets (p_stats q) = resets (p_stats p) /\ cycles (p_stats q) = cycles (p_stats p) /\ p_cfg q = p_cfg p /\ p_last q = p_last p.
Proof. intros. repeat split. Qed.
Print Assumptions pool_temp_exact.
