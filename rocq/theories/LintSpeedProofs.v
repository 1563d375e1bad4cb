(* Reading speeds in f64: comparing with twenty characters a second is exact. *)
From Verif Require Import LintSpec FloatSpec FloatProofs BaseLemmas.
From Coq Require Import Lqa Lia.
Local Open Scope Q_scope.

Lemma valid64 : valid_format f64.
Proof. repeat split; cbn; lia. Qed.
Definition not_faster (n : Z) : bool :=
  match round_to f64 (inject_Z (5 * n) / inject_Z 100) with Fin y => negb (Qle_bool y 0) && f_le (round_to f64 (inject_Z n / y)) (Fin 20) | _ => false end.
Definition faster (n : Z) : bool :=
  match round_to f64 (inject_Z (5 * n - 1) / inject_Z 100) with Fin y => negb (Qle_bool y 0) && f_lt (Fin 20) (round_to f64 (inject_Z n / y)) | _ => false end.
Definition upto (k : N) : list Z := map Z.of_nat (seq 1 (N.to_nat k)).
Lemma all_exact : forallb (fun n => not_faster n && faster n) (upto 10000) = true.
Proof. vm_cast_no_check (eq_refl true). Qed.
Lemma each_exact n : (1 <= n <= 10000)%Z -> not_faster n = true /\ faster n = true.
Proof.
  intros H. pose proof all_exact as A. rewrite forallb_forall in A. specialize (A n). apply andb_true_iff. apply A. unfold upto. apply in_map_iff. exists (Z.to_nat n). split; [lia|]. apply in_seq.
  pose proof (N2Nat.id 10000). lia.
Qed.
Lemma int_fits z : (0 <= z < 2 ^ 53)%Z -> exists v, f_of_Z f64 z = Fin v /\ v == inject_Z z.
Proof.
  intros H. unfold f_of_Z. apply (round_exact _ valid64). split.
  - apply Qle_lt_trans with (inject_Z z); [rewrite Qabs_pos; [lra|]; change 0 with (inject_Z 0); rewrite <- Zle_Qle; lia|]. apply Qlt_le_trans with (inject_Z (2 ^ 53)); [rewrite <- Zlt_Qlt; lia|]. vm_compute. discriminate.
  - exists z, 0%Z. cbn [f64 fm_emin fm_prec]. split; [lia|]. split; [lia|]. change (2 ^ 0) with 1. lra.
Qed.
Lemma f_le_fin a b : f_le (Fin a) (Fin b) = true <-> a <= b.
Proof. cbn [f_le]. apply Qle_bool_iff. Qed.
Lemma not_le_zero y : negb (Qle_bool y 0) = true -> 0 < y.
Proof. intros H. apply negb_true_iff in H. apply Qnot_le_lt. intros L. apply Qle_bool_iff in L. congruence. Qed.
Lemma div_mono_num a b c : 0 < c -> a <= b -> a / c <= b / c.
Proof. intros C H. unfold Qdiv. apply Qmult_le_compat_r; [exact H|]. apply Qinv_le_0_compat. lra. Qed.
Lemma div_anti n a b : 0 <= n -> 0 < a -> a <= b -> n / b <= n / a.
Proof.
  intros N A H. apply Qle_shift_div_r; [lra|]. assert (E : n / a * b == n * (b / a)) by (field; lra). rewrite E.
  assert (1 <= b / a) by (apply Qle_shift_div_l; lra). nra.
Qed.
Lemma f_le_trans a b c : f_le a b = true -> f_le b c = true -> f_le a c = true.
Proof.
  destruct a as [|[]|a], b as [|[]|b], c as [|[]|c]; cbn [f_le]; try reflexivity; try discriminate; intros H1 H2. apply Qle_bool_iff in H1, H2. apply Qle_bool_iff. lra.
Qed.
Lemma speed_exact chars d : (0 < d <= u32_max)%N -> (0 < chars)%nat ->
  f_lt (f_of_N f64 20) (reading_speed chars d) = true <-> too_fast chars d.
Proof.
  intros D C. unfold reading_speed. set (m := N.min (if (N.of_nat chars <=? u32_max)%N then N.of_nat chars else 10000) 10000).
  assert (M : m = N.min (N.of_nat chars) 10000). { unfold m. destruct (N.leb_spec (N.of_nat chars) u32_max); [reflexivity|]. unfold u32_max in *. lia. }
  unfold too_fast. rewrite <- M. assert (B : (1 <= m <= 10000)%N) by (rewrite M; lia). clearbody m. clear M C chars.
  assert (E20 : f_of_N f64 20 = Fin 20) by (vm_compute; reflexivity). assert (E100 : f_of_N f64 100 = Fin 100) by (vm_compute; reflexivity). rewrite E20, E100.
  unfold f_of_N. destruct (int_fits (Z.of_N m) ltac:(lia)) as (n & -> & En). unfold u32_max in D. destruct (int_fits (Z.of_N d) ltac:(lia)) as (q & -> & Eq).
  set (zn := Z.of_N m) in *. set (zd := Z.of_N d) in *. change (f_div f64 (Fin q) (Fin 100)) with (round_to f64 (q / 100)).
  destruct (each_exact zn ltac:(lia)) as [NF FA].
  assert (Pn : 0 < n). { rewrite En. change 0 with (inject_Z 0). rewrite <- Zlt_Qlt. lia. }
  destruct (round_to f64 (q / 100)) as [|s|y] eqn:Y; [now apply round_total in Y| |].
  { exfalso. assert (X : exists s, round_to f64 (q / 100) = Inf s) by eauto. apply (round_inf _ valid64) in X. assert (L : Qabs (q / 100) <= inject_Z (2 ^ 32)).
    { rewrite Qabs_pos; [|apply Qle_shift_div_l; [lra|]; rewrite Eq; setoid_replace (0 * 100) with (inject_Z 0) by reflexivity; rewrite <- Zle_Qle; lia].
      apply Qle_shift_div_r; [lra|]. rewrite Eq. setoid_replace 100 with (inject_Z 100) by reflexivity. rewrite <- inject_Z_mult, <- Zle_Qle. lia. }
    assert (F : inject_Z (2 ^ 32) < overflow_at f64) by (vm_compute; reflexivity). lra. }
  assert (Py : 0 < y).
  { assert (X : f_le (round_to f64 (1 / 100)) (round_to f64 (q / 100)) = true). { apply (round_mono _ valid64), div_mono_num; [lra|]. rewrite Eq. change 1 with (inject_Z 1). rewrite <- Zle_Qle. lia. }
    rewrite Y in X. destruct (round_to f64 (1 / 100)) as [|s|w] eqn:W; [vm_compute in W; discriminate..|]. apply f_le_fin in X. assert (0 < w). { vm_compute in W. injection W as <-. reflexivity. } lra. }
  assert (Z0 : qzero y = false). { unfold qzero. apply Z.eqb_neq. intros E. unfold Qlt in Py. cbn in Py. lia. }
  assert (Q100 : 100 == inject_Z 100) by reflexivity.
  cbn [f_div]. rewrite Z0. split.
  - intros H. split; [lia|]. apply N.nle_gt. intros G. unfold not_faster in NF. destruct (round_to f64 (inject_Z (5 * zn) / inject_Z 100)) as [|s|y0] eqn:Y0; try discriminate. apply andb_true_iff in NF as [P0 K]. apply not_le_zero in P0.
    assert (X : f_le (Fin y0) (Fin y) = true). { rewrite <- Y0, <- Y. apply (round_mono _ valid64). rewrite <- Q100. apply div_mono_num; [lra|]. rewrite Eq, <- Zle_Qle. lia. }
    apply f_le_fin in X. unfold f_lt in H. apply andb_true_iff in H as [_ H]. apply negb_true_iff in H.
    assert (f_le (round_to f64 (n / y)) (Fin 20) = true); [|congruence]. eapply f_le_trans; [|exact K]. apply (round_mono _ valid64). rewrite <- En. apply div_anti; lra.
  - intros [_ G]. unfold faster in FA. destruct (round_to f64 (inject_Z (5 * zn - 1) / inject_Z 100)) as [|s|y1] eqn:Y1; try discriminate. apply andb_true_iff in FA as [P1 K].
    assert (X : f_le (Fin y) (Fin y1) = true). { rewrite <- Y1, <- Y. apply (round_mono _ valid64). rewrite <- Q100. apply div_mono_num; [lra|]. rewrite Eq, <- Zle_Qle. lia. }
    apply f_le_fin in X. unfold f_lt in K |- *. apply andb_true_iff in K as [K1 K2]. apply negb_true_iff in K2.
    assert (L : f_le (round_to f64 (inject_Z zn / y1)) (round_to f64 (n / y)) = true). { apply (round_mono _ valid64). rewrite <- En. apply div_anti; lra. }
    apply andb_true_iff. split; [eapply f_le_trans; eassumption|]. apply negb_true_iff. destruct (f_le (round_to f64 (n / y)) (Fin 20)) eqn:Bad; [|reflexivity]. assert (f_le (round_to f64 (inject_Z zn / y1)) (Fin 20) = true) by (eapply f_le_trans; eassumption). congruence.
Qed.
