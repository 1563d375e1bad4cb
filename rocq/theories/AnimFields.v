(* Blending numbers, and the fields of an event under its animations. *)
From Verif Require Import Base FloatModel FloatSpec FloatProofs CollideModel CollideProofs SegmentModel AnimModel AnimSpec AnimProofs.
Open Scope Q_scope.

Lemma fin_of_bounds q lo hi : representable f32 lo -> representable f32 hi -> lo <= q <= hi -> exists v, round_to f32 q = Fin v /\ lo <= v <= hi.
Proof.
  intros L H B. destruct (round_to f32 q) as [|s|v] eqn:E.
  - now apply round_total in E.
  - exfalso. destruct s.
    + pose proof (round_mono f32 f32_valid lo q (proj1 B)) as M. destruct (round_exact f32 f32_valid lo L) as (w & W & _). rewrite E, W in M. discriminate.
    + pose proof (round_mono f32 f32_valid q hi (proj2 B)) as M. destruct (round_exact f32 f32_valid hi H) as (w & W & _). rewrite E, W in M. discriminate.
  - exists v. split; [reflexivity|]. split; [exact (round_ge _ _ _ L (proj1 B) E)|exact (round_le _ _ _ H (proj2 B) E)].
Qed.
Lemma opp_fits q : representable f32 q -> representable f32 (- q).
Proof. intros [B (m & e & E1 & E2 & E3)]. split; [now rewrite Qabs_opp|]. exists (- m)%Z, e. split; [exact E1|]. split; [now rewrite Z.abs_opp|]. rewrite E3, inject_Z_opp. ring. Qed.
Lemma blend_num_parts a b p : representable f32 a -> representable f32 b -> representable f32 (b - a) -> 0 <= p <= 1 ->
  exists u w, round_to f32 ((b - a) * p) = Fin u /\ round_to f32 (a + u) = Fin w /\ blend_num (Fin a) (Fin b) (Fin p) = Fin w /\ (a <= b -> a <= w <= b) /\ (b <= a -> b <= w <= a).
Proof.
  intros A B D P. destruct (round_exact f32 f32_valid (b - a) D) as (d & ED & DD).
  assert (X : exists u, round_to f32 ((b - a) * p) = Fin u /\ (a <= b -> 0 <= u <= b - a) /\ (b <= a -> b - a <= u <= 0)).
  { destruct (Qlt_le_dec b a) as [G|G].
    - destruct (fin_of_bounds ((b - a) * p) (b - a) 0 D zero_fits32) as (u & U & L); [split; nra|]. exists u. split; [exact U|]. split; intros; lra.
    - destruct (fin_of_bounds ((b - a) * p) 0 (b - a) zero_fits32 D) as (u & U & L); [split; nra|]. exists u. split; [exact U|]. split; intros; lra. }
  destruct X as (u & U & U1 & U2).
  assert (Y : exists w, round_to f32 (a + u) = Fin w /\ (a <= b -> a <= w <= b) /\ (b <= a -> b <= w <= a)).
  { destruct (Qlt_le_dec b a) as [G|G].
    - specialize (U2 ltac:(lra)). destruct (fin_of_bounds (a + u) b a B A) as (w & W & L); [lra|]. exists w. split; [exact W|]. split; intros; lra.
    - specialize (U1 G). destruct (fin_of_bounds (a + u) a b A B) as (w & W & L); [lra|]. exists w. split; [exact W|]. split; intros; lra. }
  destruct Y as (w & W & L). exists u, w. split; [exact U|]. split; [exact W|]. split; [|exact L].
  unfold blend_num, add32, mul32, sub32, f_sub. cbn [f_opp f_add]. change (b + - a) with (b - a). rewrite ED. cbn [f_mul]. rewrite (round_wd f32 f32_valid (d * p) ((b - a) * p)) by (rewrite DD; reflexivity). rewrite U. exact W.
Qed.
Lemma blend_num_ends a b : representable f32 a -> representable f32 b -> representable f32 (b - a) ->
  num_is (blend_num (Fin a) (Fin b) (Fin 0)) a /\ num_is (blend_num (Fin a) (Fin b) (Fin 1)) b.
Proof.
  intros A B D. split.
  - destruct (blend_num_parts a b 0 A B D ltac:(lra)) as (u & w & U & W & E & _). exists w. split; [exact E|]. destruct (round_exact f32 f32_valid 0 zero_fits32) as (v & V & VE). rewrite (round_wd f32 f32_valid _ 0) in U by ring. rewrite V in U. injection U as <-.
    destruct (round_exact f32 f32_valid a A) as (x & X & XE). rewrite (round_wd f32 f32_valid _ a) in W by (rewrite VE; ring). rewrite X in W. injection W as <-. exact XE.
  - destruct (blend_num_parts a b 1 A B D ltac:(lra)) as (u & w & U & W & E & _). exists w. split; [exact E|]. destruct (round_exact f32 f32_valid (b - a) D) as (v & V & VE). rewrite (round_wd f32 f32_valid _ (b - a)) in U by ring. rewrite V in U. injection U as <-.
    destruct (round_exact f32 f32_valid b B) as (x & X & XE). rewrite (round_wd f32 f32_valid _ b) in W by (rewrite VE; ring). rewrite X in W. injection W as <-. exact XE.
Qed.
Lemma blend_num_mono a b p q : representable f32 a -> representable f32 b -> representable f32 (b - a) -> 0 <= p <= q -> q <= 1 ->
  (a <= b -> num_le (blend_num (Fin a) (Fin b) (Fin p)) (blend_num (Fin a) (Fin b) (Fin q))) /\ (b <= a -> num_le (blend_num (Fin a) (Fin b) (Fin q)) (blend_num (Fin a) (Fin b) (Fin p))).
Proof.
  intros A B D P Q1. destruct (blend_num_parts a b p A B D ltac:(lra)) as (u & w & U & W & E & _), (blend_num_parts a b q A B D ltac:(lra)) as (u' & w' & U' & W' & E' & _). rewrite E, E'. cbn [num_le]. split; intros G.
  - assert (u <= u') by (eapply mono_fin; [|exact U|exact U']; nra). eapply mono_fin; [|exact W|exact W']; lra.
  - assert (u' <= u) by (eapply mono_fin; [|exact U'|exact U]; nra). eapply mono_fin; [|exact W'|exact W]; lra.
Qed.

(* ---- fields ---- *)
Lemma set_target_field l : forall t f, tg_field (fold_left set_target l t) f = match rev (targets_of f l) with v :: _ => Some v | [] => tg_field t f end /\ tg_transforms (fold_left set_target l t) = tg_transforms t.
Proof.
  induction l as [|[g v] l IH]; intros t f; [now split|]. cbn [fold_left]. destruct (IH (set_target t (g, v)) f) as [-> ->]. split; [|reflexivity]. unfold targets_of. cbn [filter fst]. unfold set_target, set_field. cbn [fst snd tg_field].
  destruct (field_eq g f) as [->|G]; cbn [map snd rev]; [|reflexivity]. destruct (rev (map snd (filter _ l))); reflexivity.
Qed.
Lemma complete_pos p : complete p -> positive_num p.
Proof. unfold complete, positive_num, f_lt. destruct p as [|[]|q]; cbn [f_le]; try discriminate; [reflexivity|]. intros H. apply Qle_bool_iff in H. apply andb_true_iff. split; [apply Qle_bool_iff; lra|]. destruct (Qle_bool q 0) eqn:E; [|reflexivity]. apply Qle_bool_iff in E. lra. Qed.
Lemma le_zero_pos p : f_le p (fl 0) = true -> ~ positive_num p.
Proof. unfold positive_num, f_lt. change (fl 0) with (Fin 0). intros ->. rewrite andb_false_r. discriminate. Qed.
Lemma start_unset d f : unset d f (start_value d f).
Proof. destruct f; try constructor; cbv; intuition discriminate. Qed.
Lemma unset_fun d f a b : unset d f a -> unset d f b -> a = b.
Proof. destruct f; intros H K; inversion H; inversion K; subst; try reflexivity; exfalso; match goal with N : ~ In _ _ |- _ => apply N; cbn; tauto end. Qed.
Lemma blends_field d p l : positive_num p -> ~ complete p -> forall t f, field_step d f p (targets_of f l) (tg_field t f) (tg_field (fold_left (blend_target d p) l t) f) /\ tg_transforms (fold_left (blend_target d p) l t) = tg_transforms t.
Proof.
  intros P C. induction l as [|[g v] l IH]; intros t f; [split; [apply fs_none|reflexivity]|]. cbn [fold_left]. destruct (IH (blend_target d p t (g, v)) f) as [S0 ->]. split; [|reflexivity]. unfold targets_of. cbn [filter fst]. unfold blend_target in S0 at 1. unfold set_field in S0 at 1. cbn [fst snd tg_field] in S0.
  destruct (field_eq g f) as [->|G]; [|exact S0]. cbn [map snd]. destruct (tg_field t f) as [u|]; [now apply fs_next|now apply (fs_first d f p _ _ (start_value d f)); [| |apply start_unset|]].
Qed.
Lemma apply_field d p l t f : field_step d f p (targets_of f l) (tg_field t f) (tg_field (apply_progress d p l t) f) /\ tg_transforms (apply_progress d p l t) = tg_transforms t.
Proof.
  unfold apply_progress. destruct (f_le (fl 1) p) eqn:C.
  - rewrite orb_true_r. destruct (set_target_field l t f) as [-> ->]. split; [|reflexivity]. destruct (rev (targets_of f l)) as [|v r] eqn:R.
    + apply (f_equal (@rev value)) in R. rewrite rev_involutive in R. rewrite R. apply fs_none.
    + apply (f_equal (@rev value)) in R. rewrite rev_involutive in R. rewrite R. cbn [rev]. apply fs_done. exact C.
  - rewrite orb_false_r. destruct (f_le p (fl 0)) eqn:Z0; [split; [apply fs_waits; now apply le_zero_pos|reflexivity]|]. destruct (f_lt (fl 0) p) eqn:P; [|split; [apply fs_waits; unfold positive_num; change (Fin 0) with (fl 0); now rewrite P|reflexivity]].
    apply blends_field; [exact P|]. unfold complete. change (Fin 1) with (fl 1). now rewrite C.
Qed.
Lemma step_fun d f p vs cur out : field_step d f p vs cur out -> forall out', field_step d f p vs cur out' -> out = out'.
Proof.
  induction 1 as [cur|vs cur P|vs v cur C|v vs a out P C U S0 IH|v vs u out P C S0 IH]; intros out' K.
  - inversion K; subst; try reflexivity. destruct vs; discriminate.
  - inversion K; subst; try reflexivity; try contradiction. apply complete_pos in H. contradiction.
  - inversion K; subst; try contradiction; try (destruct vs; discriminate).
    + apply complete_pos in C. contradiction.
    + match goal with H : _ ++ [_] = _ ++ [_] |- _ => apply app_inj_tail in H as [_ ->] end. reflexivity.
  - inversion K; subst; try contradiction. match goal with U2 : unset d f ?x |- _ => match x with a => fail 1 | _ => rewrite <- (unset_fun d f a x U U2) in * end end. now apply IH.
  - inversion K; subst; try contradiction. now apply IH.
Qed.
Lemma run_fun d f g l cur out : field_run d f g l cur out -> forall out', field_run d f g l cur out' -> out = out'.
Proof.
  induction 1 as [cur|tr l cur mid out S0 R IH]; intros out' K; inversion K; subst; [reflexivity|]. match goal with S1 : field_step _ _ _ _ cur ?x |- _ => pose proof (step_fun _ _ _ _ _ _ S0 _ S1); subst x end. now apply IH.
Qed.
Definition now_ms (current start : N) : N := if (start <=? current)%N then ((current - start) * 10)%N else 0%N.
Lemma relative_is current start : relative_ms current start = if (429496729 <? current - start)%N then None else Some (now_ms current start).
Proof.
  unfold relative_ms, now_ms. cbv zeta. destruct (N.leb_spec start current); [|destruct (N.ltb_spec 429496729 (current - start)); [lia|reflexivity]]. change u32_max with 4294967295%N.
  destruct (N.ltb_spec 4294967295 ((current - start) * 10)), (N.ltb_spec 429496729 (current - start)); try reflexivity; lia.
Qed.
Lemma run_is m d start fin current l : forall t, run_transforms m d start fin current l t =
  match l with [] => Done t | _ => if (429496729 <? current - start)%N then Crash else Done (fold_left (fun t tr => apply_progress d (calculate_progress m tr (now_ms current start) (length_ms start fin)) (tr_targets tr) t) l t) end.
Proof.
  induction l as [|tr l IH]; intros t; [reflexivity|]. cbn [run_transforms]. rewrite relative_is. destruct (429496729 <? current - start)%N; [reflexivity|]. rewrite IH. destruct l; reflexivity.
Qed.
Lemma fold_field d (g : transform -> float) l : forall t f, field_run d f g l (tg_field t f) (tg_field (fold_left (fun t tr => apply_progress d (g tr) (tr_targets tr) t) l t) f) /\ tg_transforms (fold_left (fun t tr => apply_progress d (g tr) (tr_targets tr) t) l t) = tg_transforms t.
Proof.
  induction l as [|tr l IH]; intros t f; cbn [fold_left]; [split; [apply fr_nil|reflexivity]|]. destruct (apply_field d (g tr) (tr_targets tr) t f) as [S0 T0]. destruct (IH (apply_progress d (g tr) (tr_targets tr) t) f) as [R ->]. split; [|exact T0]. eapply fr_cons; eassumption.
Qed.
Lemma not_touched f l : (forall v, ~ In (f, v) l) -> targets_of f l = [].
Proof. intros H. unfold targets_of. induction l as [|[g v] l IH]; [reflexivity|]. cbn [filter fst]. destruct (field_eq g f) as [->|G]; [exfalso; apply (H v); now left|]. apply IH. intros w I. apply (H w). now right. Qed.
Lemma run_keeps d f g l cur out : field_run d f g l cur out -> (forall tr, In tr l -> ~ positive_num (g tr) \/ ~ touches tr f) -> out = cur.
Proof.
  intros R. induction R as [cur|tr l cur mid out S0 R IH]; intros H; [reflexivity|]. rewrite (IH (fun x I => H x (or_intror I))). destruct (H tr (or_introl eq_refl)) as [P|T].
  - symmetry. eapply step_fun; [apply fs_waits; exact P|exact S0].
  - rewrite not_touched in S0 by (intros v I; apply T; now exists v). symmetry. eapply step_fun; [apply fs_none|exact S0].
Qed.
Lemma run_app d f g l1 : forall l2 cur out, field_run d f g (l1 ++ l2) cur out -> exists mid, field_run d f g l1 cur mid /\ field_run d f g l2 mid out.
Proof. induction l1 as [|tr l1 IH]; intros l2 cur out R; [exists cur; split; [apply fr_nil|exact R]|]. cbn [app] in R. inversion R as [|? ? ? mid ? S0 R0]; subst. destruct (IH _ _ _ R0) as (x & A & B). exists x. split; [eapply fr_cons; eassumption|exact B]. Qed.
Lemma run_finished d f g l1 tr l2 vs v cur out : field_run d f g (l1 ++ tr :: l2) cur out -> complete (g tr) -> targets_of f (tr_targets tr) = vs ++ [v] -> (forall x, In x l2 -> ~ positive_num (g x) \/ ~ touches x f) -> out = Some v.
Proof.
  intros R C T K. destruct (run_app _ _ _ _ _ _ _ R) as (mid & _ & R2). inversion R2 as [|? ? ? mid2 ? S0 R0]; subst. rewrite (run_keeps _ _ _ _ _ _ R0 K). rewrite T in S0. symmetry. eapply step_fun; [apply fs_done; exact C|exact S0].
Qed.
Close Scope Q_scope.
