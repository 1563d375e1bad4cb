(* Properties of the floating-point numbers that styles and tags are read
   into: C68. *)
From Coq Require Import Lia.
From Verif Require Import FloatModel FloatSpec FloatProofs FloatTextProofs.
Open Scope Q_scope.

Theorem formats_valid : valid_format f32 /\ valid_format f64.
Proof. split; split; cbn; lia. Qed.
Print Assumptions formats_valid.

(* Rounding gives a value of the format that no other value beats, and the even
   one of two equally near ones. *)
Theorem rounding_nearest : forall fm q v, valid_format fm -> round_to fm q = Fin v -> nearest fm q v.
Proof. intros fm q v V H. exact (proj1 (round_fin fm V q v H)). Qed.
Print Assumptions rounding_nearest.
Theorem rounding_ties_to_even : forall fm q v w, valid_format fm -> round_to fm q = Fin v -> nearest fm q w -> ~ w == v -> evener v w /\ ~ evener w v.
Proof.
  intros fm q v w V H N D. pose proof (proj2 (proj2 (round_fin fm V q v H)) w N D) as E. split; [exact E|]. intros E'. exact (evener_asym v w E E').
Qed.
Print Assumptions rounding_ties_to_even.
Theorem rounding_overflow : forall fm q, valid_format fm ->
  (overflow_at fm <= q <-> round_to fm q = Inf false) /\ (q <= - overflow_at fm <-> round_to fm q = Inf true).
Proof.
  intros fm q V. pose proof (round_inf fm V q) as R. assert (O : 0 < overflow_at fm).
  { unfold overflow_at. assert (2 ^ (fm_emax fm - fm_prec fm - 1) < 2 ^ fm_emax fm) by (apply pow2_mono_lt; destruct V; lia). lra. }
  split; split; intros H.
  - assert (X : overflow_at fm <= Qabs q) by (rewrite Qabs_pos; lra). apply R in X. destruct X as [s X]. rewrite X. f_equal. apply round_sign in X. rewrite X. unfold qneg. apply Z.ltb_ge. assert (P : 0 <= q) by lra. unfold Qle in P. cbn in P. lia.
  - assert (X : overflow_at fm <= Qabs q) by (apply R; now exists false). apply round_sign in H. symmetry in H. unfold qneg in H. apply Z.ltb_ge in H. rewrite Qabs_pos in X; [exact X|]. unfold Qle. cbn. lia.
  - assert (X : overflow_at fm <= Qabs q) by (rewrite Qabs_neg; lra). apply R in X. destruct X as [s X]. rewrite X. f_equal. apply round_sign in X. rewrite X. unfold qneg. apply Z.ltb_lt. assert (P : q < 0) by lra. unfold Qlt in P. cbn in P. lia.
  - assert (X : overflow_at fm <= Qabs q) by (apply R; now exists true). apply round_sign in H. symmetry in H. unfold qneg in H. apply Z.ltb_lt in H. rewrite Qabs_neg in X; [lra|]. unfold Qle. cbn. lia.
Qed.
Print Assumptions rounding_overflow.
Theorem rounding_exact : forall fm q, valid_format fm -> representable fm q -> exists v, round_to fm q = Fin v /\ v == q.
Proof. intros fm q V. exact (round_exact fm V q). Qed.
Print Assumptions rounding_exact.
Theorem rounding_monotone : forall fm a b, valid_format fm -> a <= b -> f_le (round_to fm a) (round_to fm b) = true.
Proof. intros fm a b V. exact (round_mono fm V a b). Qed.
Print Assumptions rounding_monotone.
Theorem rounding_respects_value : forall fm a b, valid_format fm -> a == b -> round_to fm a = round_to fm b.
Proof. intros fm a b V. exact (round_wd fm V a b). Qed.
Print Assumptions rounding_respects_value.
(* Integers up to 2^24 (2^53) are exact. *)
Theorem integers_exact : forall fm z, valid_format fm -> (fm_emin fm <= 0)%Z -> (Z.abs z < 2 ^ fm_prec fm)%Z -> (fm_prec fm <= fm_emax fm)%Z -> exists v, f_of_Z fm z = Fin v /\ v == inject_Z z.
Proof.
  intros fm z V E B M. apply (round_exact fm V). split.
  - apply Qlt_le_trans with (2 ^ fm_prec fm); [|now apply pow2_mono]. rewrite pow2_Z by (destruct V; lia). change (Qabs (inject_Z z)) with (inject_Z (Z.abs z)). now rewrite <- Zlt_Qlt.
  - exists z, 0%Z. split; [exact E|]. split; [exact B|]. change (2 ^ 0) with 1. ring.
Qed.
Print Assumptions integers_exact.
(* The numerals that are accepted, and what they denote. *)
Theorem number_read_exactly : forall fm s x, valid_format fm -> parse_float fm s = Some x <-> number_text fm s x.
Proof. intros fm s x V. exact (parse_iff fm s x V). Qed.
Print Assumptions number_read_exactly.
Theorem number_read_unique : forall fm s x y, valid_format fm -> number_text fm s x -> number_text fm s y -> x = y.
Proof. intros fm s x y V A B. apply parse_iff in A, B; try exact V. congruence. Qed.
Print Assumptions number_read_unique.
Example number_instance : parse_float f32 (lit "0.1") = Some (Fin (13421773 # 134217728)) /\ parse_float f32 (lit "-1.5e1") = Some (Fin (- 15)) /\
  parse_float f32 (lit "1e39") = Some (Inf false) /\ parse_float f32 (lit "NAN") = Some NaN /\ parse_float f32 (lit "1e") = None /\ parse_float f32 (lit " 1") = None /\
  f_of_Z f32 16777217 = Fin 16777216.
Proof. vm_compute. repeat split. Qed.
(* Casts to integers clamp and cut off towards zero. *)
Theorem cast_bounded : forall lo hi a, (lo <= 0 <= hi)%Z -> (lo <= f_to_Z lo hi a <= hi)%Z.
Proof. intros lo hi a H. destruct a as [|[|]|q]; cbn; lia. Qed.
Print Assumptions cast_bounded.
Theorem cast_truncates : forall lo hi q, (lo <= 0 <= hi)%Z -> inject_Z lo <= q -> q <= inject_Z hi ->
  Qabs (q - inject_Z (f_to_Z lo hi (Fin q))) < 1 /\ Qabs (inject_Z (f_to_Z lo hi (Fin q))) <= Qabs q.
Proof.
  intros lo hi [n d] H A B. cbn [f_to_Z Qnum Qden]. unfold Qle in A, B. cbn [Qnum Qden inject_Z] in A, B.
  assert (E := Z.quot_rem' n (Zpos d)). assert (R : (Z.abs (Z.rem n (Zpos d)) < Zpos d)%Z) by (pose proof (Z.rem_bound_abs n (Zpos d) ltac:(lia)); lia).
  set (t := Z.quot n (Zpos d)) in *. set (r := Z.rem n (Zpos d)) in *.
  assert (S : (0 <= n -> 0 <= r)%Z /\ (n <= 0 -> r <= 0)%Z). { split; intros Hn; unfold r. - apply Z.rem_nonneg; lia. - apply Z.rem_nonpos; lia. }
  assert (K : Z.max lo (Z.min hi t) = t) by nia. rewrite K. unfold Qabs, Qminus, Qplus, Qopp, Qlt, Qle, inject_Z. cbn [Qnum Qden].
  assert (T : (0 <= n -> 0 <= t)%Z /\ (n <= 0 -> t <= 0)%Z) by nia. split; [rewrite !Pos.mul_1_r; replace (n * 1 + - t * Zpos d)%Z with r by lia; lia|]. rewrite Z.mul_1_r. destruct (Z.le_ge_cases 0 n) as [G|G]; [rewrite !Z.abs_eq by tauto; lia|rewrite !Z.abs_neq by tauto; lia].
Qed.
Print Assumptions cast_truncates.
Example cast_instance : f_to_Z 0 65535 (Fin (-1 # 2)) = 0%Z /\ f_to_Z 0 65535 (Fin (7 # 2)) = 3%Z /\ f_to_Z 0 65535 (Inf false) = 65535%Z /\ f_to_Z (-128) 127 (Fin (- 300)) = (-128)%Z.
Proof. vm_compute. repeat split. Qed.
(* The operations: the exact result rounded, and the table of special values. *)
Theorem operations_nearest : forall fm p q v, valid_format fm ->
  (f_add fm (Fin p) (Fin q) = Fin v -> nearest fm (p + q) v) /\ (f_sub fm (Fin p) (Fin q) = Fin v -> nearest fm (p - q) v) /\
  (f_mul fm (Fin p) (Fin q) = Fin v -> nearest fm (p * q) v) /\ (~ q == 0 -> f_div fm (Fin p) (Fin q) = Fin v -> nearest fm (p / q) v).
Proof.
  intros fm p q v V. split; [exact (rounding_nearest fm (p + q) v V)|]. split; [exact (rounding_nearest fm (p - q) v V)|]. split; [exact (rounding_nearest fm (p * q) v V)|].
  intros Hq H. apply (rounding_nearest fm (p / q) v V). cbn [f_div] in H. unfold qzero in H. destruct (Qnum q =? 0)%Z eqn:E; [|exact H].
  exfalso. apply Hq. apply Z.eqb_eq in E. unfold Qeq. cbn. lia.
Qed.
Print Assumptions operations_nearest.
Theorem division_by_zero : forall fm p q, q == 0 ->
  (p == 0 -> f_div fm (Fin p) (Fin q) = NaN) /\ (0 < p -> f_div fm (Fin p) (Fin q) = Inf false) /\ (p < 0 -> f_div fm (Fin p) (Fin q) = Inf true).
Proof.
  intros fm [n d] [m e] Z. unfold Qeq in Z. cbn in Z. cbn [f_div]. unfold qzero, qneg. cbn [Qnum]. assert (M : m = 0%Z) by lia. subst m. cbn [Z.eqb].
  unfold Qeq, Qlt. cbn [Qnum Qden]. repeat split; intros H; (destruct (Z.eqb_spec n 0); [try reflexivity; lia|try lia; f_equal; lia]).
Qed.
Print Assumptions division_by_zero.
Theorem special_values : forall fm a p,
  (f_add fm NaN a = NaN /\ f_add fm a NaN = NaN /\ f_sub fm NaN a = NaN /\ f_sub fm a NaN = NaN /\ f_mul fm NaN a = NaN /\ f_mul fm a NaN = NaN /\ f_div fm NaN a = NaN /\ f_div fm a NaN = NaN) /\
  (forall s, f_add fm (Inf s) (Fin p) = Inf s /\ f_add fm (Inf s) (Inf s) = Inf s /\ f_sub fm (Inf s) (Inf s) = NaN /\ f_div fm (Fin p) (Inf s) = Fin 0) /\
  (forall s t, f_mul fm (Inf s) (Inf t) = Inf (xorb s t) /\ f_div fm (Inf s) (Inf t) = NaN) /\
  (forall s, (p == 0 -> f_mul fm (Inf s) (Fin p) = NaN) /\ (0 < p -> f_mul fm (Inf s) (Fin p) = Inf s) /\ (p < 0 -> f_mul fm (Inf s) (Fin p) = Inf (negb s))).
Proof.
  intros fm a [n d]. split; [destruct a as [|[]|q]; repeat split; reflexivity|]. split; [intros []; repeat split; reflexivity|]. split; [intros [] []; repeat split; reflexivity|].
  intros s. cbn [f_mul]. unfold qzero, qneg, Qeq, Qlt. cbn [Qnum Qden].
  repeat split; intros H; (destruct (Z.eqb_spec n 0); [try reflexivity; lia|try lia]); destruct (Z.ltb_spec n 0); try lia; destruct s; reflexivity.
Qed.
Print Assumptions special_values.
Example operations_instance : f_div f32 (Fin 1) (Fin 3) = Fin (11184811 # 33554432) /\ f_div f32 (Fin 0) (Fin 0) = NaN /\ f_div f32 (Fin (-1 # 1)) (Fin 0) = Inf true /\ f_add f32 (Fin 16777216) (Fin 1) = Fin 16777216.
Proof. vm_compute. repeat split. Qed.
Close Scope Q_scope.
