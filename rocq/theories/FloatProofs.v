From Coq Require Import Qpower Lia.
From Verif Require Import FloatModel FloatSpec.
Open Scope Q_scope.

Lemma pow2_pos e : 0 < 2 ^ e.
Proof. apply Qpower_0_lt. reflexivity. Qed.
Lemma pow2_nz e : ~ 2 ^ e == 0.
Proof. pose proof (pow2_pos e). lra. Qed.
Lemma pow2_is e : pow2 e == 2 ^ e.
Proof.
  destruct e as [|p|p]; cbn [pow2]; [reflexivity| |].
  - rewrite Zpower_Qpower by lia. reflexivity.
  - change (Zneg p) with (- Zpos p)%Z. rewrite Qpower_opp. assert (H : inject_Z (2 ^ Zpos p) == 2 ^ Zpos p) by (rewrite Zpower_Qpower by lia; reflexivity).
    rewrite <- H. unfold Qinv, inject_Z. cbn [Qnum Qden]. rewrite <- Pos2Z.inj_pow. reflexivity.
Qed.
Lemma pow2_plus a b : 2 ^ (a + b) == 2 ^ a * 2 ^ b.
Proof. apply Qpower_plus. discriminate. Qed.
Lemma pow2_Z a : (0 <= a)%Z -> 2 ^ a == inject_Z (2 ^ a).
Proof. intros H. rewrite Zpower_Qpower by lia. reflexivity. Qed.
Lemma pow2_mono a b : (a <= b)%Z -> 2 ^ a <= 2 ^ b.
Proof.
  intros H. replace b with (a + (b - a))%Z by lia. rewrite pow2_plus, (pow2_Z (b - a)) by lia. pose proof (pow2_pos a).
  assert (1 <= inject_Z (2 ^ (b - a))). { change 1 with (inject_Z 1). rewrite <- Zle_Qle. assert (0 < 2 ^ (b - a))%Z by (apply Z.pow_pos_nonneg; lia). lia. }
  nra.
Qed.
Lemma pow2_mono_lt a b : (a < b)%Z -> 2 ^ a < 2 ^ b.
Proof.
  intros H. pose proof (pow2_mono (a + 1) b ltac:(lia)) as L. rewrite pow2_plus in L. change (2 ^ 1) with 2 in L. pose proof (pow2_pos a). lra.
Qed.
Lemma Qlt_cross (q r : Q) : (Qnum q * QDen r < Qnum r * QDen q)%Z <-> q < r.
Proof. reflexivity. Qed.

Lemma ilog2_spec q : (Qnum q <> 0)%Z -> 2 ^ ilog2 q <= Qabs q /\ Qabs q < 2 ^ (ilog2 q + 1).
Proof.
  intros N. destruct q as [n d]. cbn [Qnum] in N. unfold Qabs, ilog2. cbn [Qnum Qden]. set (a := Z.abs n). assert (P : (0 < a)%Z) by lia. clearbody a.
  destruct (Z.leb_spec (Zpos d) a) as [H|H].
  - assert (1 <= a / Zpos d)%Z. { apply Z.div_le_lower_bound; lia. }
    destruct (Z.log2_spec (a / Zpos d)) as [L U]; [lia|]. assert (G := Z.log2_nonneg (a / Zpos d)). set (k := Z.log2 (a / Zpos d)) in *.
    replace (Z.succ k) with (k + 1)%Z in U by lia.
    rewrite !pow2_Z by lia. unfold Qle, Qlt. cbn [Qnum Qden inject_Z]. pose proof (Z.div_mod a (Zpos d) ltac:(lia)). pose proof (Z.mod_pos_bound a (Zpos d) ltac:(lia)). split; nia.
  - set (c := ((Zpos d + a - 1) / a)%Z). assert (C : (c = (Zpos d - 1) / a + 1)%Z). { unfold c. replace (Zpos d + a - 1)%Z with (Zpos d - 1 + 1 * a)%Z by lia. rewrite Z.div_add by lia. reflexivity. }
    assert (1 <= (Zpos d - 1) / a)%Z by (apply Z.div_le_lower_bound; lia).
    destruct (Z.log2_up_spec c) as [L U]; [lia|]. assert (G : (0 < Z.log2_up c)%Z) by (apply Z.log2_up_pos; lia). set (k := Z.log2_up c) in *.
    pose proof (Z.div_mod (Zpos d - 1) a ltac:(lia)). pose proof (Z.mod_pos_bound (Zpos d - 1) a ltac:(lia)).
    assert (E1 : 2 ^ (- k) * inject_Z (2 ^ k) == 1). { rewrite <- pow2_Z by lia. rewrite <- pow2_plus. replace (- k + k)%Z with 0%Z by lia. reflexivity. }
    assert (E2 : 2 ^ (- k + 1) * inject_Z (2 ^ Z.pred k) == 1). { rewrite <- pow2_Z by lia. rewrite <- pow2_plus. replace (- k + 1 + Z.pred k)%Z with 0%Z by lia. reflexivity. }
    assert (F1 : 1 <= (a # d) * inject_Z (2 ^ k)). { unfold Qle. cbn [Qnum Qden inject_Z Qmult]. nia. }
    assert (F2 : (a # d) * inject_Z (2 ^ Z.pred k) < 1). { unfold Qlt. cbn [Qnum Qden inject_Z Qmult]. nia. }
    assert (0 < inject_Z (2 ^ k)). { rewrite <- pow2_Z by lia. apply pow2_pos. } assert (0 < inject_Z (2 ^ Z.pred k)). { rewrite <- pow2_Z by lia. apply pow2_pos. }
    split.
    + rewrite <- (Qmult_le_r _ _ (inject_Z (2 ^ k))) by assumption. lra.
    + rewrite <- (Qmult_lt_r _ _ (inject_Z (2 ^ Z.pred k))) by assumption. lra.
Qed.

Lemma nearest_even_spec q : Qabs (q - inject_Z (nearest_even q)) <= 1 # 2 /\
  (Qabs (q - inject_Z (nearest_even q)) == 1 # 2 -> Z.even (nearest_even q) = true).
Proof.
  destruct q as [n d]. unfold nearest_even. cbn [Qnum Qden]. pose proof (Z.div_mod n (Zpos d) ltac:(lia)) as E. pose proof (Z.mod_pos_bound n (Zpos d) ltac:(lia)) as B.
  set (f := (n / Zpos d)%Z) in *. set (r := (n mod Zpos d)%Z) in *.
  assert (V0 : (n # d) - inject_Z f == r # d). { unfold Qminus, Qplus, Qopp, Qeq, inject_Z. cbn [Qnum Qden]. nia. }
  assert (V1 : (n # d) - inject_Z (f + 1) == r - Zpos d # d). { unfold Qminus, Qplus, Qopp, Qeq, inject_Z. cbn [Qnum Qden]. nia. }
  destruct (Z.compare_spec (2 * r) (Zpos d)) as [C|C|C]; [destruct (Z.even f) eqn:Ev| |].
  - rewrite V0. rewrite Qabs_pos by (unfold Qle; cbn; lia). split; [unfold Qle; cbn [Qnum Qden]; lia|intros _; exact Ev].
  - rewrite V1. rewrite Qabs_neg by (unfold Qle; cbn; lia). split; [unfold Qle, Qopp; cbn [Qnum Qden]; lia|]. intros _. rewrite Z.even_add, Ev. reflexivity.
  - rewrite V0. rewrite Qabs_pos by (unfold Qle; cbn; lia). split; [unfold Qle; cbn [Qnum Qden]; lia|]. unfold Qeq. cbn [Qnum Qden]. lia.
  - rewrite V1. rewrite Qabs_neg by (unfold Qle; cbn; lia). split; [unfold Qle, Qopp; cbn [Qnum Qden]; lia|]. unfold Qeq, Qopp. cbn [Qnum Qden]. lia.
Qed.
(* the distance of two different integers *)
Lemma int_apart a b : (a <> b)%Z -> 1 <= Qabs (inject_Z a - inject_Z b).
Proof. intros H. unfold Qabs, Qminus, Qplus, Qopp, inject_Z, Qle. cbn [Qnum Qden]. lia. Qed.
Lemma Qabs_cases x : (0 <= x /\ Qabs x == x) \/ (x <= 0 /\ Qabs x == - x).
Proof. destruct (Qlt_le_dec 0 x); [left|right]; split; try lra; [apply Qabs_pos|apply Qabs_neg]; lra. Qed.
Lemma nearest_int q z : Qabs (q - inject_Z (nearest_even q)) <= Qabs (q - inject_Z z).
Proof.
  destruct (nearest_even_spec q) as [H _]. destruct (Z.eq_dec z (nearest_even q)) as [->|N]; [lra|]. pose proof (int_apart z (nearest_even q) N) as D.
  destruct (Qabs_cases (q - inject_Z (nearest_even q))) as [[? E1]|[? E1]], (Qabs_cases (q - inject_Z z)) as [[? E2]|[? E2]], (Qabs_cases (inject_Z z - inject_Z (nearest_even q))) as [[? E3]|[? E3]]; rewrite E1 in *; rewrite E2 in *; rewrite E3 in *; lra.
Qed.
Lemma tie_int q z : z <> nearest_even q -> Qabs (q - inject_Z (nearest_even q)) == Qabs (q - inject_Z z) ->
  Z.even (nearest_even q) = true /\ (z = nearest_even q + 1 \/ z = nearest_even q - 1)%Z.
Proof.
  intros N E. destruct (nearest_even_spec q) as [H Ev]. pose proof (int_apart z (nearest_even q) N) as D. set (m := nearest_even q) in *.
  assert (Z1 : Qabs (q - inject_Z m) == 1 # 2 /\ Qabs (inject_Z z - inject_Z m) <= 1).
  { destruct (Qabs_cases (q - inject_Z m)) as [[? E1]|[? E1]], (Qabs_cases (q - inject_Z z)) as [[? E2]|[? E2]], (Qabs_cases (inject_Z z - inject_Z m)) as [[? E3]|[? E3]]; rewrite E1 in *; rewrite E2 in *; rewrite E3 in *; lra. }
  destruct Z1 as [Z1 Z2]. split; [exact (Ev Z1)|]. unfold Qabs, Qminus, Qplus, Qopp, inject_Z, Qle in Z2. cbn [Qnum Qden] in Z2. lia.
Qed.

Section Round.
Context (fm : format) (V : valid_format fm).
Let p := fm_prec fm.
Definition expo (q : Q) : Z := Z.max (ilog2 q - (fm_prec fm - 1)) (fm_emin fm).
Definition scaled (q : Q) : Q := q * pow2 (- expo q).
Definition rounded (q : Q) : Q := inject_Z (nearest_even (scaled q)) * 2 ^ expo q.
Lemma scaled_back q : q == scaled q * 2 ^ expo q.
Proof. unfold scaled. rewrite pow2_is, <- Qmult_assoc, <- pow2_plus. replace (- expo q + expo q)%Z with 0%Z by lia. change (2 ^ 0) with 1. lra. Qed.
Lemma abs_scale a e : Qabs (a * 2 ^ e) == Qabs a * 2 ^ e.
Proof. rewrite Qabs_Qmult, (Qabs_pos (2 ^ e)); [reflexivity|]. pose proof (pow2_pos e). lra. Qed.
Lemma scaled_small q : (Qnum q <> 0)%Z -> Qabs (scaled q) < 2 ^ p.
Proof.
  intros N. destruct (ilog2_spec q N) as [_ U]. apply (Qmult_lt_r _ _ (2 ^ expo q)); [apply pow2_pos|]. rewrite <- abs_scale, <- scaled_back, <- pow2_plus.
  eapply Qlt_le_trans; [exact U|]. apply pow2_mono. unfold expo, p. lia.
Qed.
Lemma scaled_big q : (Qnum q <> 0)%Z -> (fm_emin fm < expo q)%Z -> 2 ^ (p - 1) <= Qabs (scaled q).
Proof.
  intros N G. destruct (ilog2_spec q N) as [L _]. apply (Qmult_le_r _ _ (2 ^ expo q)); [apply pow2_pos|]. rewrite <- abs_scale, <- scaled_back, <- pow2_plus.
  eapply Qle_trans; [|exact L]. apply pow2_mono. unfold expo, p in *. lia.
Qed.
Lemma round_is q : (Qnum q <> 0)%Z -> exists v, v == rounded q /\ Qred v = v /\ round_to fm q = if Qle_bool (2 ^ fm_emax fm) (Qabs (rounded q)) then Inf (qneg q) else Fin v.
Proof.
  intros N. unfold round_to. rewrite (proj2 (Z.eqb_neq _ _) N). fold (expo q). fold (scaled q). eexists. split; [|split; [|]].
  3: { match goal with |- (if ?a then _ else Fin ?v) = (if ?b then _ else Fin _) => replace a with b; [reflexivity|] end.
       apply eq_true_iff_eq. rewrite !Qle_bool_iff. rewrite Qred_correct, !pow2_is. reflexivity. }
  - rewrite Qred_correct, pow2_is. reflexivity.
  - apply Qred_complete, Qred_correct.
Qed.
Lemma inj_abs a : Qabs (inject_Z a) == inject_Z (Z.abs a).
Proof. reflexivity. Qed.
Lemma nearest_le q k : (0 <= k)%Z -> Qabs q <= inject_Z k -> (Z.abs (nearest_even q) <= k)%Z.
Proof.
  intros K H. destruct (nearest_even_spec q) as [A _]. apply Z.nlt_ge. intros L. assert (L' : inject_Z (k + 1) <= inject_Z (Z.abs (nearest_even q))) by (rewrite <- Zle_Qle; lia).
  rewrite inject_Z_plus in L'. change (inject_Z 1) with 1 in L'. rewrite <- inj_abs in L'.
  destruct (Qabs_cases q) as [[? E1]|[? E1]], (Qabs_cases (q - inject_Z (nearest_even q))) as [[? E2]|[? E2]], (Qabs_cases (inject_Z (nearest_even q))) as [[? E3]|[? E3]]; rewrite E1 in *; rewrite E2 in *; rewrite E3 in *; lra.
Qed.
Lemma nearest_ge q k : (0 <= k)%Z -> inject_Z k <= Qabs q -> (k <= Z.abs (nearest_even q))%Z.
Proof.
  intros K H. destruct (nearest_even_spec q) as [A _]. apply Z.nlt_ge. intros L. assert (L' : inject_Z (Z.abs (nearest_even q)) + 1 <= inject_Z k). { change 1 with (inject_Z 1). rewrite <- inject_Z_plus, <- Zle_Qle; lia. }
  rewrite <- inj_abs in L'.
  destruct (Qabs_cases q) as [[? E1]|[? E1]], (Qabs_cases (q - inject_Z (nearest_even q))) as [[? E2]|[? E2]], (Qabs_cases (inject_Z (nearest_even q))) as [[? E3]|[? E3]]; rewrite E1 in *; rewrite E2 in *; rewrite E3 in *; lra.
Qed.
Lemma p_pos : (0 <= p)%Z.
Proof. destruct V. unfold p. lia. Qed.
Lemma signif q : (Qnum q <> 0)%Z -> (Z.abs (nearest_even (scaled q)) <= 2 ^ p)%Z.
Proof. intros N. apply nearest_le; [apply Z.pow_nonneg; lia|]. rewrite <- pow2_Z by apply p_pos. pose proof (scaled_small q N). lra. Qed.
Lemma rounded_shape q : (Qnum q <> 0)%Z -> exists m e, (fm_emin fm <= e)%Z /\ (Z.abs m < 2 ^ p)%Z /\ rounded q == inject_Z m * 2 ^ e.
Proof.
  intros N. pose proof (signif q N) as S. unfold rounded. set (m := nearest_even (scaled q)) in *. assert (E : (fm_emin fm <= expo q)%Z) by (unfold expo; lia).
  destruct (Z.eq_dec (Z.abs m) (2 ^ p)) as [K|K]; [|exists m, (expo q); split; [exact E|]; split; [lia|reflexivity]].
  assert (P2 : (2 ^ p = 2 * 2 ^ (p - 1))%Z). { destruct V. replace p with (Z.succ (p - 1)) at 1 by lia. apply Z.pow_succ_r. unfold p. lia. }
  assert (0 < 2 ^ (p - 1))%Z. { destruct V. apply Z.pow_pos_nonneg; unfold p; lia. }
  exists (Z.sgn m * 2 ^ (p - 1))%Z, (expo q + 1)%Z. split; [lia|]. split; [lia|]. rewrite pow2_plus. change (2 ^ 1) with (inject_Z 2).
  assert (M : m = (Z.sgn m * 2 ^ (p - 1) * 2)%Z) by lia. rewrite M at 1. rewrite inject_Z_mult. ring.
Qed.
Lemma scale_dist q a : Qabs (q - a * 2 ^ expo q) == Qabs (scaled q - a) * 2 ^ expo q.
Proof. rewrite <- abs_scale. apply Qabs_wd. rewrite (scaled_back q) at 1. ring. Qed.
Lemma rounded_near q w : (Qnum q <> 0)%Z -> (exists m e, (fm_emin fm <= e)%Z /\ (Z.abs m < 2 ^ p)%Z /\ w == inject_Z m * 2 ^ e) ->
  Qabs (q - rounded q) < Qabs (q - w) \/ exists z, w == inject_Z z * 2 ^ expo q /\ Qabs (q - rounded q) <= Qabs (q - w).
Proof.
  intros N (m & e & Le & Lm & W). destruct (Z.le_gt_cases (expo q) e) as [H|H].
  - right. exists (m * 2 ^ (e - expo q))%Z. assert (E : w == inject_Z (m * 2 ^ (e - expo q)) * 2 ^ expo q).
    { rewrite W, inject_Z_mult, <- pow2_Z, <- Qmult_assoc, <- pow2_plus by lia. replace (e - expo q + expo q)%Z with e by lia. reflexivity. }
    split; [exact E|]. rewrite E. unfold rounded. rewrite !scale_dist. pose proof (nearest_int (scaled q) (m * 2 ^ (e - expo q))). pose proof (pow2_pos (expo q)). nra.
  - left. pose proof (scaled_big q N ltac:(lia)) as B. rewrite pow2_Z in B by (destruct V; unfold p; lia).
    set (y := inject_Z m * 2 ^ (e - expo q)). assert (E : w == y * 2 ^ expo q). { unfold y. rewrite W, <- Qmult_assoc, <- pow2_plus. replace (e - expo q + expo q)%Z with e by lia. reflexivity. }
    assert (Y : Qabs y < inject_Z (2 ^ (p - 1))).
    { unfold y. rewrite abs_scale, inj_abs. rewrite <- pow2_Z by (destruct V; unfold p; lia). apply Qlt_le_trans with (2 ^ p * 2 ^ (e - expo q)).
      - apply Qmult_lt_r; [apply pow2_pos|]. rewrite pow2_Z by apply p_pos. now rewrite <- Zlt_Qlt.
      - rewrite <- pow2_plus. apply pow2_mono. lia. }
    rewrite E. unfold rounded. rewrite !scale_dist. apply Qmult_lt_r; [apply pow2_pos|].
    pose proof (nearest_int (scaled q) (2 ^ (p - 1))) as I1. pose proof (nearest_int (scaled q) (- 2 ^ (p - 1))) as I2. rewrite inject_Z_opp in I2. set (x := scaled q) in *. set (b := inject_Z (2 ^ (p - 1))) in *.
    destruct (Qabs_cases x) as [[? E1]|[? E1]]; rewrite E1 in *.
    + eapply Qle_lt_trans; [exact I1|]. destruct (Qabs_cases (x - b)) as [[? E2]|[? E2]], (Qabs_cases (x - y)) as [[? E3]|[? E3]], (Qabs_cases y) as [[? E4]|[? E4]]; rewrite E2, E3; rewrite E4 in *; lra.
    + eapply Qle_lt_trans; [exact I2|]. destruct (Qabs_cases (x - - b)) as [[? E2]|[? E2]], (Qabs_cases (x - y)) as [[? E3]|[? E3]], (Qabs_cases y) as [[? E4]|[? E4]]; rewrite E2, E3; rewrite E4 in *; lra.
Qed.
Lemma qnum_zero q : (Qnum q = 0)%Z -> q == 0.
Proof. intros H. unfold Qeq. cbn. lia. Qed.
Lemma zero_fits : representable fm 0.
Proof. split; [apply pow2_pos|]. exists 0%Z, (fm_emin fm). split; [lia|]. split; [apply Z.pow_pos_nonneg; [lia|apply p_pos]|]. change (inject_Z 0) with 0. lra. Qed.
Lemma round_fin q v : round_to fm q = Fin v -> nearest fm q v /\ Qred v = v /\ (forall w, nearest fm q w -> ~ w == v -> evener v w).
Proof.
  intros H. destruct (Z.eq_dec (Qnum q) 0) as [Z0|N].
  - unfold round_to in H. rewrite Z0 in H. injection H as <-. pose proof (qnum_zero q Z0) as Q0. split; [split; [exact zero_fits|]|split; [reflexivity|]].
    + intros w _. rewrite Q0. change (Qabs (0 - 0)) with 0. apply Qabs_nonneg.
    + intros w [_ Hw] D. exfalso. specialize (Hw 0 zero_fits). rewrite Q0 in Hw. change (Qabs (0 - 0)) with 0 in Hw. apply D. destruct (Qabs_cases (0 - w)) as [[? E]|[? E]]; rewrite E in Hw; lra.
  - destruct (round_is q N) as (v' & E & R & Rd). rewrite Rd in H. destruct (Qle_bool _ _) eqn:L; [discriminate|]. injection H as ->. clear Rd.
    assert (B : Qabs v < 2 ^ fm_emax fm). { apply Qnot_le_lt. intros K. rewrite E in K. apply Qle_bool_iff in K. congruence. }
    assert (F : representable fm v). { split; [exact B|]. destruct (rounded_shape q N) as (m & e & A1 & A2 & A3). exists m, e. split; [exact A1|]. split; [exact A2|]. now rewrite E. }
    split; [split; [exact F|]|split; [exact R|]].
    + intros w [_ Hw]. rewrite E. destruct (rounded_near q w N Hw) as [K|(z & _ & K)]; lra.
    + intros w [Fw Hw] D. specialize (Hw v F). rewrite E in Hw. destruct (rounded_near q w N (proj2 Fw)) as [K|(z & W & K)]; [lra|].
      assert (T : Qabs (scaled q - inject_Z (nearest_even (scaled q))) == Qabs (scaled q - inject_Z z)).
      { assert (T : Qabs (q - rounded q) == Qabs (q - w)) by lra. unfold rounded in T. rewrite W in T. rewrite !scale_dist in T. apply Qmult_inj_r in T; [exact T|apply pow2_nz]. }
      assert (Dz : z <> nearest_even (scaled q)). { intros ->. apply D. rewrite W, E. reflexivity. }
      destruct (tie_int _ _ Dz T) as [Ev Ad]. apply Z.even_spec in Ev. destruct Ev as [h Eh]. exists h, (expo q). unfold rounded in E. rewrite Eh in E, Ad. split; [exact E|].
      destruct Ad as [Ad|Ad]; rewrite Ad in W; [left|right]; exact W.
Qed.
Lemma even_pow : Z.even (2 ^ p) = true.
Proof. destruct V. replace p with (Z.succ (p - 1)) by lia. rewrite Z.pow_succ_r by (unfold p; lia). rewrite Z.even_mul. reflexivity. Qed.
Lemma round_inf q : (exists s, round_to fm q = Inf s) <-> overflow_at fm <= Qabs q.
Proof.
  assert (O : overflow_at fm == (inject_Z (2 ^ p) - (1 # 2)) * 2 ^ (fm_emax fm - p)).
  { unfold overflow_at. rewrite <- pow2_Z by apply p_pos. assert (E1 : 2 ^ fm_emax fm == 2 ^ p * 2 ^ (fm_emax fm - p)). { rewrite <- pow2_plus. replace (p + (fm_emax fm - p))%Z with (fm_emax fm) by lia. reflexivity. }
    assert (E2 : 2 ^ (fm_emax fm - fm_prec fm - 1) == 2 ^ (fm_emax fm - p) * (1 # 2)). { change (1 # 2) with (2 ^ (-1)). rewrite <- pow2_plus. unfold p. reflexivity. } rewrite E1, E2. ring. }
  assert (P1 : (2 <= 2 ^ p)%Z). { destruct V. change 2%Z with (2 ^ 1)%Z at 1. apply Z.pow_le_mono_r; unfold p; lia. }
  assert (P1' : 2 <= inject_Z (2 ^ p)). { change 2 with (inject_Z 2). rewrite <- Zle_Qle. exact P1. }
  pose proof (pow2_pos (fm_emax fm - p)) as P2.
  destruct (Z.eq_dec (Qnum q) 0) as [Z0|N].
  - unfold round_to. rewrite Z0. change (0 =? 0)%Z with true. cbv iota. rewrite (qnum_zero q Z0), O. change (Qabs 0) with 0. split; [intros [s D]; discriminate|]. intros K. nra.
  - destruct (round_is q N) as (v & E & R & ->). destruct (Qle_bool (2 ^ fm_emax fm) (Qabs (rounded q))) eqn:L.
    + split; [intros _|intros _; eexists; reflexivity]. apply Qle_bool_iff in L. unfold rounded in L. rewrite abs_scale, inj_abs in L. pose proof (signif q N) as S. set (m := nearest_even (scaled q)) in *.
      destruct (Z.lt_trichotomy (expo q) (fm_emax fm - p)) as [K|[K|K]].
      * exfalso. assert (X : inject_Z (Z.abs m) * 2 ^ expo q < 2 ^ fm_emax fm).
        { apply Qle_lt_trans with (inject_Z (2 ^ p) * 2 ^ expo q); [apply Qmult_le_r; [apply pow2_pos|]; now rewrite <- Zle_Qle|]. rewrite <- pow2_Z by apply p_pos. rewrite <- pow2_plus. apply pow2_mono_lt. lia. }
        lra.
      * assert (M : (2 ^ p <= Z.abs m)%Z). { rewrite Zle_Qle. apply (Qmult_le_r _ _ (2 ^ expo q)); [apply pow2_pos|]. rewrite <- pow2_Z by apply p_pos. rewrite <- pow2_plus. replace (p + expo q)%Z with (fm_emax fm) by lia. exact L. }
        assert (M' : inject_Z (2 ^ p) <= Qabs (inject_Z m)). { rewrite inj_abs. now rewrite <- Zle_Qle. }
        rewrite (scaled_back q), abs_scale, O, K. apply Qmult_le_r; [exact P2|]. destruct (nearest_even_spec (scaled q)) as [A _]. fold m in A.
        destruct (Qabs_cases (scaled q)) as [[? E1]|[? E1]], (Qabs_cases (scaled q - inject_Z m)) as [[? E2]|[? E2]], (Qabs_cases (inject_Z m)) as [[? E3]|[? E3]]; rewrite E1; rewrite E2 in A; rewrite E3 in M'; lra.
      * assert (X : (fm_emin fm < expo q)%Z) by (destruct V; unfold p in *; lia). pose proof (scaled_big q N X) as B. rewrite (scaled_back q), abs_scale, O.
        assert (B' : 2 ^ (p - 1) * 2 ^ expo q <= Qabs (scaled q) * 2 ^ expo q) by (apply Qmult_le_r; [apply pow2_pos|exact B]). rewrite <- pow2_plus in B'. pose proof (pow2_mono (fm_emax fm) (p - 1 + expo q) ltac:(lia)) as Mo.
        assert (E1 : 2 ^ fm_emax fm == inject_Z (2 ^ p) * 2 ^ (fm_emax fm - p)). { rewrite <- pow2_Z by apply p_pos. rewrite <- pow2_plus. replace (p + (fm_emax fm - p))%Z with (fm_emax fm) by lia. reflexivity. }
        rewrite E1 in Mo. nra.
    + split; [intros [s D]; discriminate|]. intros K. exfalso. assert (B : Qabs (rounded q) < 2 ^ fm_emax fm). { apply Qnot_le_lt. intros K'. apply Qle_bool_iff in K'. congruence. } clear L.
      assert (E1 : 2 ^ fm_emax fm == inject_Z (2 ^ p) * 2 ^ (fm_emax fm - p)). { rewrite <- pow2_Z by apply p_pos. rewrite <- pow2_plus. replace (p + (fm_emax fm - p))%Z with (fm_emax fm) by lia. reflexivity. }
      destruct (ilog2_spec q N) as [_ U]. assert (G : (fm_emax fm - p <= expo q)%Z).
      { apply Z.nlt_ge. intros G. assert (X : Qabs q < 2 ^ (fm_emax fm - 1)). { eapply Qlt_le_trans; [exact U|]. apply pow2_mono. unfold expo in G. unfold p in *. lia. }
        assert (E2 : 2 ^ (fm_emax fm - 1) == 2 ^ fm_emax fm * (1 # 2)). { change (1 # 2) with (2 ^ (-1)). rewrite <- pow2_plus. reflexivity. } rewrite E2, E1 in X. rewrite O in K. nra. }
      unfold rounded in B. rewrite abs_scale, inj_abs in B. set (m := nearest_even (scaled q)) in *. destruct (Z.eq_dec (expo q) (fm_emax fm - p)) as [Eq|Ne].
      * rewrite Eq in B. rewrite E1 in B. apply Qmult_lt_r in B; [|exact P2]. rewrite <- Zlt_Qlt in B. rewrite (scaled_back q), abs_scale, O, Eq in K. apply Qmult_le_r in K; [|exact P2].
        destruct (nearest_even_spec (scaled q)) as [A T]. fold m in A, T. assert (M' : Qabs (inject_Z m) <= inject_Z (2 ^ p) - 1). { rewrite inj_abs. change 1 with (inject_Z 1). unfold Qminus. rewrite <- inject_Z_opp, <- inject_Z_plus, <- Zle_Qle. lia. }
        assert (Tie : Qabs (scaled q - inject_Z m) == 1 # 2 /\ Qabs (inject_Z m) == inject_Z (2 ^ p) - 1).
        { destruct (Qabs_cases (scaled q)) as [[? E4]|[? E4]], (Qabs_cases (scaled q - inject_Z m)) as [[? E2]|[? E2]], (Qabs_cases (inject_Z m)) as [[? E3]|[? E3]]; rewrite E4 in K; rewrite E2 in *; rewrite E3 in *; split; lra. }
        destruct Tie as [Tie Am]. specialize (T Tie). rewrite inj_abs in Am. change 1 with (inject_Z 1) in Am. unfold Qminus in Am. rewrite <- inject_Z_opp, <- inject_Z_plus, inject_Z_injective in Am. pose proof even_pow as EP. apply Z.even_spec in T, EP. destruct T, EP. lia.
      * pose proof (scaled_big q N ltac:(destruct V; unfold p in *; lia)) as Bg. rewrite pow2_Z in Bg by (destruct V; unfold p; lia). apply nearest_ge in Bg; [|apply Z.pow_nonneg; lia]. fold m in Bg.
        assert (X : 2 ^ (p - 1) * 2 ^ expo q <= inject_Z (Z.abs m) * 2 ^ expo q). { apply Qmult_le_r; [apply pow2_pos|]. rewrite pow2_Z by (destruct V; unfold p; lia). now rewrite <- Zle_Qle. }
        rewrite <- pow2_plus in X. pose proof (pow2_mono (fm_emax fm) (p - 1 + expo q) ltac:(lia)). lra.
Qed.
Lemma round_sign q s : round_to fm q = Inf s -> s = qneg q.
Proof. unfold round_to. destruct (Qnum q =? 0)%Z; [discriminate|]. destruct (Qle_bool _ _); [|discriminate]. now intros [= <-]. Qed.
Lemma round_total q : round_to fm q <> NaN.
Proof. unfold round_to. destruct (Qnum q =? 0)%Z; [discriminate|]. destruct (Qle_bool _ _); discriminate. Qed.
Lemma evener_asym v w : evener v w -> evener w v -> False.
Proof.
  assert (G : forall v w m e n f, v == inject_Z (2 * m) * 2 ^ e -> v == inject_Z (2 * n + 1) * 2 ^ f \/ v == inject_Z (2 * n - 1) * 2 ^ f -> w == inject_Z (2 * n) * 2 ^ f ->
    w == inject_Z (2 * m + 1) * 2 ^ e \/ w == inject_Z (2 * m - 1) * 2 ^ e -> (e <= f)%Z -> False).
  { clear. intros v w m e n f Hv _ Hw1 Hw2 L.
    assert (E : inject_Z (2 * n) * 2 ^ f == inject_Z (2 * n * 2 ^ (f - e)) * 2 ^ e). { rewrite (inject_Z_mult (2 * n)), <- pow2_Z by lia. rewrite <- Qmult_assoc, <- pow2_plus. replace (f - e + e)%Z with f by lia. reflexivity. }
    rewrite Hw1, E in Hw2. destruct Hw2 as [H|H]; apply Qmult_inj_r in H; try apply pow2_nz; rewrite inject_Z_injective in H; rewrite <- Z.mul_assoc in H; lia. }
  intros (m & e & Hv & Hw) (n & f & Hw' & Hv'). destruct (Z.le_ge_cases e f); [exact (G v w m e n f Hv Hv' Hw' Hw H)|exact (G w v n f m e Hw' Hw Hv Hv' H)].
Qed.
Lemma nearest_wd q q' v : q == q' -> nearest fm q v -> nearest fm q' v.
Proof. intros E [F N]. split; [exact F|]. intros w Fw. rewrite <- !E. now apply N. Qed.
Lemma round_wd q q' : q == q' -> round_to fm q = round_to fm q'.
Proof.
  intros E. destruct (round_to fm q) as [|s|v] eqn:A; [now apply round_total in A| |].
  - assert (X : exists t, round_to fm q' = Inf t). { apply round_inf. rewrite <- E. apply round_inf. now exists s. } destruct X as [t B]. rewrite B. f_equal. apply round_sign in A, B. rewrite A, B.
    unfold qneg. apply eq_true_iff_eq. rewrite !Z.ltb_lt. unfold Qeq in E. split; nia.
  - destruct (round_to fm q') as [|t|v'] eqn:B; [now apply round_total in B| |].
    + assert (X : exists t, round_to fm q = Inf t). { apply round_inf. rewrite E. apply round_inf. now exists t. } destruct X as [u C]. congruence.
    + f_equal. destruct (round_fin q v A) as (N1 & R1 & T1), (round_fin q' v' B) as (N2 & R2 & T2). destruct (Qeq_dec v v') as [D|D]; [rewrite <- R1, <- R2; now apply Qred_complete|].
      exfalso. apply (evener_asym v v'); [apply T1; [exact (nearest_wd q' q v' (Qeq_sym _ _ E) N2)|intros K; apply D; now symmetry]|]. apply T2; [exact (nearest_wd q q' v E N1)|exact D].
Qed.
Lemma round_exact q : representable fm q -> exists v, round_to fm q = Fin v /\ v == q.
Proof.
  intros F. destruct (Z.eq_dec (Qnum q) 0) as [Z0|N]; [exists 0; unfold round_to; rewrite Z0; split; [reflexivity|symmetry; now apply qnum_zero]|].
  destruct (round_is q N) as (v & E & R & ->). exists v. assert (X : rounded q == q).
  { destruct (rounded_near q q N (proj2 F)) as [K|(z & _ & K)]; setoid_replace (q - q) with 0 in K by ring; change (Qabs 0) with 0 in K; pose proof (Qabs_nonneg (q - rounded q)); [lra|].
    destruct (Qabs_cases (q - rounded q)) as [[? G]|[? G]]; rewrite G in *; lra. }
  split; [|now rewrite E]. destruct (Qle_bool _ _) eqn:L; [|reflexivity]. apply Qle_bool_iff in L. rewrite X in L. destruct F as [B _]. lra.
Qed.
Lemma round_mono a b : a <= b -> f_le (round_to fm a) (round_to fm b) = true.
Proof.
  intros H. destruct (round_to fm a) as [|s|v] eqn:A; [now apply round_total in A| |]; (destruct (round_to fm b) as [|t|w] eqn:B; [now apply round_total in B| |]); cbn [f_le].
  - destruct s, t; try reflexivity. exfalso. apply round_sign in A, B. unfold qneg in *. symmetry in A, B. apply Z.ltb_ge in A. apply Z.ltb_lt in B. unfold Qle in H. nia.
  - destruct s; [reflexivity|]. exfalso. assert (X : overflow_at fm <= Qabs a) by (apply round_inf; now exists false). apply round_sign in A. symmetry in A. unfold qneg in A. apply Z.ltb_ge in A.
    assert (Y : 0 <= a) by (unfold Qle; cbn; lia). rewrite Qabs_pos in X by exact Y. assert (Z : exists t, round_to fm b = Inf t) by (apply round_inf; rewrite Qabs_pos; lra). destruct Z. congruence.
  - destruct t; [|reflexivity]. exfalso. assert (X : overflow_at fm <= Qabs b) by (apply round_inf; now exists true). apply round_sign in B. symmetry in B. unfold qneg in B. apply Z.ltb_lt in B.
    assert (Y : b <= 0) by (unfold Qle; cbn; lia). rewrite Qabs_neg in X by exact Y. assert (Z : exists t, round_to fm a = Inf t) by (apply round_inf; rewrite Qabs_neg; lra). destruct Z. congruence.
  - apply Qle_bool_iff. apply Qnot_lt_le. intros L. destruct (round_fin a v A) as ([F1 N1] & _ & T1), (round_fin b w B) as ([F2 N2] & _ & T2). pose proof (N1 w F2) as K1. pose proof (N2 v F1) as K2.
    assert (E : a == b). { destruct (Qabs_cases (a - v)) as [[? E1]|[? E1]], (Qabs_cases (a - w)) as [[? E2]|[? E2]], (Qabs_cases (b - v)) as [[? E3]|[? E3]], (Qabs_cases (b - w)) as [[? E4]|[? E4]]; rewrite E1, E2 in K1; rewrite E3, E4 in K2; lra. }
    rewrite (round_wd a b E), B in A. injection A as ->. lra.
Qed.
End Round.
Close Scope Q_scope.
