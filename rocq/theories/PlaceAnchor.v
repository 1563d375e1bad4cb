(* Proofs about anchors, boxes and lines. *)
From Verif Require Import Base BaseLemmas FloatModel FloatSpec FloatProofs FloatTextProofs CollideModel CollideProofs SegmentModel AnimModel AnimSpec AnimProofs AnimFields ShowModel ShowSpec ShowProofs WrapModel WrapSpec WrapProofs PlaceModel PlaceSpec PlaceProofs.
From Coq Require Import Lqa.
Open Scope Q_scope.

(* ---- margins ---- *)
Lemma parse_none s : parse_float f32 s = None <-> forall y, ~ number_text f32 s y.
Proof.
  split.
  - intros E y H. apply (parse_iff f32 s y f32_valid) in H. congruence.
  - intros H. destruct (parse_float f32 s) eqn:E; [|reflexivity]. apply (parse_iff f32 s _ f32_valid) in E. now apply H in E.
Qed.
Lemma parse_same s x y : number_text f32 s x -> number_text f32 s y -> x = y.
Proof. intros X Y. apply (parse_iff f32 s _ f32_valid) in X. apply (parse_iff f32 s _ f32_valid) in Y. congruence. Qed.
Lemma zero_is s : zero_margin s = true <-> s = [] \/ s = lit "0".
Proof.
  unfold zero_margin. destruct s; [split; auto|]. split.
  - intros H. right. now apply str_eqb_eq in H.
  - intros [H|H]; [discriminate|]. rewrite H. reflexivity.
Qed.
Lemma margin_ok s st : margin_text s st (margin_or_style s st).
Proof.
  unfold margin_or_style. 
  assert (SD : forall (P : s = [] \/ s = lit "0" \/ forall y, ~ number_text f32 s y), margin_text s st (match st with Some m => num_or (parse_float f32 m) (fl 0) | None => fl 0 end)).
  { intros P. destruct st as [m|]; [|apply mg_none; [exact P|now left]]. destruct (parse_float f32 m) eqn:E; cbn [num_or].
    - apply mg_style; [exact P|]. now apply (parse_iff f32 m _ f32_valid).
    - apply mg_none; [exact P|]. right. exists m. split; [reflexivity|]. now apply parse_none. }
  destruct (zero_margin s) eqn:Z0.
  - apply SD. apply zero_is in Z0. tauto.
  - destruct (parse_float f32 s) eqn:E; cbn [num_or].
    + apply mg_event; [intros ->; discriminate|intros ->; discriminate|]. now apply (parse_iff f32 s _ f32_valid).
    + apply SD. right. right. now apply parse_none.
Qed.
Lemma margin_fun s st x y : margin_text s st x -> margin_text s st y -> x = y.
Proof.
  intros X Y. inversion X; subst; inversion Y; subst; try (eapply parse_same; eassumption); try reflexivity; exfalso;
    repeat match goal with H : _ \/ _ |- _ => destruct H as [H|H] end; try contradiction; try discriminate;
    repeat match goal with H : exists _, _ |- _ => destruct H as (? & ? & H) | H : Some _ = Some _ |- _ => injection H as <- end;
    match goal with H : forall y, ~ number_text f32 ?s y, K : number_text f32 ?s _ |- _ => exact (H _ K) end.
Qed.

(* ---- anchors ---- *)
Lemma keypad_cases a : keypad a -> (a = 1 \/ a = 2 \/ a = 3 \/ a = 4 \/ a = 5 \/ a = 6 \/ a = 7 \/ a = 8 \/ a = 9 \/ a = 10 \/ a = 11 \/ a = 12)%N.
Proof. unfold keypad. lia. Qed.
Ltac keys H := apply keypad_cases in H; repeat (destruct H as [->|H]; [|]); [..|subst].
Lemma anchor_split g w a : keypad a -> position_from_alignment g w a =
  (if ((a - 1) mod 3 =? 0)%N then mul32 (margin_left w) (scale_x g) else if ((a - 1) mod 3 =? 2)%N then sub32 (f_of_N f32 (st_width g)) (mul32 (margin_right w) (scale_x g)) else f_div f32 (f_of_N f32 (st_width g)) (fl 2),
   mul32 (if (a <=? 3)%N then sub32 (st_play_y g) (margin_vert w) else if ((7 <=? a) && (a <=? 9))%N then margin_vert w else f_div f32 (st_play_y g) (fl 2)) (scale_y g)).
Proof. intros K. keys K; reflexivity. Qed.
Lemma offset_split ax ay w h a : keypad a -> alignment_offset ax ay w h a =
  (if ((a - 1) mod 3 =? 0)%N then ax else if ((a - 1) mod 3 =? 2)%N then sub32 ax w else sub32 ax (f_div f32 w (fl 2)),
   if (a <=? 3)%N then sub32 ay h else if ((7 <=? a) && (a <=? 9))%N then ay else sub32 ay (f_div f32 h (fl 2))).
Proof. intros K. keys K; reflexivity. Qed.

Lemma sub_fin a b : sub32 (Fin a) (Fin b) = round_to f32 (a - b). Proof. reflexivity. Qed.
Lemma add_fin a b : add32 (Fin a) (Fin b) = round_to f32 (a + b). Proof. reflexivity. Qed.
Lemma half_fin a : f_div f32 (Fin a) (fl 2) = round_to f32 (a / 2). Proof. reflexivity. Qed.
Lemma err_le e e' a q : e <= e' -> within_err e a q -> within_err e' a q.
Proof. intros H (v & E & V). exists v. split; [exact E|]. lra. Qed.
Lemma share_err_abs e a q b : within_share e a q -> 0 <= e -> Qabs q <= b -> within_err (e * b) a q.
Proof. intros (v & E & V) H B. exists v. split; [exact E|]. eapply Qle_trans; [exact V|]. rewrite (Qmult_comm e (Qabs q)), (Qmult_comm e b). now apply Qmult_le_compat_r. Qed.
Lemma nat_sensible n : (n <= 16384)%N -> sensible (Qn n).
Proof.
  intros H. destruct (N.eq_dec n 0) as [->|H0]; [left; reflexivity|right]. pose proof (Qn_1 n ltac:(lia)). assert (Qn n <= Qn 16384) by (apply Qn_le; lia). change (Qn 16384) with 16384 in H2. rewrite Qabs_pos by lra. split.
  - apply Qle_trans with 1; [vm_compute; discriminate|exact H1].
  - apply Qle_lt_trans with 16384; [exact H2|reflexivity].
Qed.
Lemma half_fits k : (Z.abs k <= 16777215)%Z -> representable f32 (inject_Z k / 2).
Proof.
  intros H. split.
  - assert (Qabs (inject_Z k / 2) <= 16777215). { apply abs_bound. assert (- inject_Z 16777215 <= inject_Z k <= inject_Z 16777215) by (rewrite <- inject_Z_opp, <- !Zle_Qle; lia). unfold inject_Z in *. change (Qdiv (k # 1) 2) with ((k # 1) * (1 # 2)). lra. }
    eapply Qle_lt_trans; [exact H0|]. reflexivity.
  - exists k, (-1)%Z. split; [vm_compute; discriminate|]. split; [change (2 ^ fm_prec f32)%Z with 16777216%Z; lia|]. reflexivity.
Qed.
(* a margin on the frame *)
Lemma margin_near w p m s : (w <= 16384)%N -> (1 <= w)%N -> (1 <= p <= 16384)%N -> (m <= p)%N -> Qabs (s - Qn w / Qn p) <= (1 # 16777216) * (Qn w / Qn p) -> within_err (3 # 1024) (mul32 (Fin (Qn m)) (Fin s)) (Qn m * (Qn w / Qn p)).
Proof.
  intros W W1 P M S. destruct (ratio_wide w p ltac:(lia) ltac:(lia)) as (R1 & R2).
  assert (K : within_share (3 # 16777216) (mul32 (Fin (Qn m)) (Fin s)) (Qn m * (Qn w / Qn p))).
  { eapply share_le; [|apply mul_share with (e1 := 1 # 16777216); try assumption; [apply nat_sensible; lia|vm_compute; discriminate|vm_compute; discriminate]]. vm_compute. discriminate. }
  apply share_err_abs with (b := 16384) in K.
  - eapply err_le; [|exact K]. vm_compute. discriminate.
  - vm_compute. discriminate.
  - pose proof (Qn_1 p ltac:(lia)) as P1. assert (MP : Qn m <= Qn p) by now apply Qn_le. assert (W2 : Qn w <= Qn 16384) by now apply Qn_le. change (Qn 16384) with 16384 in W2. pose proof (Qn_0 m). pose proof (Qn_0 w).
    assert (E : Qn m * (Qn w / Qn p) == (Qn m * Qn w) / Qn p) by (field; lra). rewrite E. rewrite Qabs_pos by (apply div_pos; nra). apply Qle_shift_div_r; [lra|]. nra.
Qed.
Lemma mul_wd a b s : num_is a b -> mul32 a (Fin s) = mul32 (Fin b) (Fin s).
Proof. intros (x & -> & X). now apply mul_same. Qed.
Lemma sub_err a b e q q' B : num_is a q -> within_err e b q' -> 0 <= e -> e <= 1 -> Qabs (q - q') <= B -> B <= 16384 -> within_err (e + (1 # 1024)) (sub32 a b) (q - q').
Proof.
  intros (x & -> & X) (y & -> & Y) E0 E1 D BB. rewrite sub_fin. apply abs_bound in D. apply abs_bound in Y.
  destruct (round_err (x - y) 15) as (v & V & VE).
  - apply Qle_lt_trans with 16386; [|reflexivity]. apply abs_bound. rewrite X. lra.
  - lia.
  - exists v. split; [exact V|]. change (2 ^ (15 - 25)) with (1 # 1024) in VE. apply abs_bound in VE. apply abs_bound. lra.
Qed.
Lemma half_of a k : num_is a (inject_Z k) -> (Z.abs k <= 16777215)%Z -> num_is (f_div f32 a (fl 2)) (inject_Z k / 2).
Proof.
  intros (x & -> & X) H. rewrite half_fin. destruct (round_exact f32 f32_valid _ (half_fits k H)) as (v & E & V). exists v. split; [|exact V]. rewrite <- E. apply round_wd; [exact f32_valid|]. now rewrite X.
Qed.
Lemma is_err e a q : 0 <= e -> num_is a q -> within_err e a q.
Proof. intros H (x & E & X). exists x. split; [exact E|]. assert (D : x - q == 0) by (rewrite X; ring). rewrite D. exact H. Qed.
Lemma err_wd e a q q' : q == q' -> within_err e a q -> within_err e a q'.
Proof. intros H (v & E & V). exists v. split; [exact E|]. now rewrite <- H. Qed.
Definition modest_frame (w h p r : N) : Prop := (w <= 16384 /\ h <= 16384 /\ p <= 16384 /\ r <= 16384)%N.
Lemma share_of m w p : (1 <= p)%N -> (m <= p)%N -> 0 <= Qn m * (Qn w / Qn p) <= Qn w.
Proof.
  intros P M. pose proof (Qn_1 p P). assert (Qn m <= Qn p) by now apply Qn_le. pose proof (Qn_0 m). pose proof (Qn_0 w). assert (E : Qn m * (Qn w / Qn p) == (Qn m * Qn w) / Qn p) by (field; lra). rewrite E. split; [apply div_pos; nra|]. apply Qle_shift_div_r; [lra|]. nra.
Qed.
Lemma sub_nat a b n m : num_is a (Qn n) -> num_is b (Qn m) -> (m <= n <= 16777216)%N -> num_is (sub32 a b) (Qn (n - m)).
Proof.
  intros (x & -> & X) (y & -> & Y) H. rewrite sub_fin. destruct (round_exact f32 f32_valid (Qn (n - m))) as (v & E & V); [apply int_fits; lia|]. exists v. split; [|exact V]. rewrite <- E. apply round_wd; [exact f32_valid|]. rewrite X, Y. unfold Qn. rewrite N2Z.inj_sub by lia. unfold Z.sub, Qminus. rewrite inject_Z_plus, inject_Z_opp. reflexivity.
Qed.
Lemma scaled_half r h s : (1 <= r <= 16384)%N -> (1 <= h <= 16384)%N -> Qabs (s - Qn h / Qn r) <= (1 # 16777216) * (Qn h / Qn r) -> within_err (3 # 1024) (mul32 (Fin (Qn r / 2)) (Fin s)) (Qn h / 2).
Proof.
  intros R H S. destruct (ratio_wide h r ltac:(lia) ltac:(lia)) as (R1 & R2). pose proof (Qn_1 r ltac:(lia)). pose proof (Qn_1 h ltac:(lia)). assert (HH : Qn h <= Qn 16384) by (apply Qn_le; lia). assert (RR : Qn r <= Qn 16384) by (apply Qn_le; lia). change (Qn 16384) with 16384 in *.
  assert (E : Qn r / 2 * (Qn h / Qn r) == Qn h / 2) by (field; lra).
  assert (D2 : forall q, q / 2 == q * (1 # 2)) by (intros; field).
  assert (K : within_share (3 # 16777216) (mul32 (Fin (Qn r / 2)) (Fin s)) (Qn h / 2)).
  { eapply share_wd; [exact E|]. eapply share_le; [|apply mul_share with (e1 := 1 # 16777216); try assumption; [|vm_compute; discriminate|vm_compute; discriminate]]; [vm_compute; discriminate|]. right. rewrite D2. rewrite Qabs_pos by lra. split.
    - apply Qle_trans with (1 # 2); [vm_compute; discriminate|]. lra.
    - apply Qle_lt_trans with 16384; [lra|reflexivity]. }
  apply share_err_abs with (b := 16384) in K; [|vm_compute; discriminate|rewrite D2, Qabs_pos by lra; lra]. eapply err_le; [|exact K]. vm_compute. discriminate.
Qed.
Lemma anchor_ok g sw a w h p r ml mr mv : frame_is g w h p r -> modest_frame w h p r -> keypad a ->
  num_is (margin_left sw) (Qn ml) -> num_is (margin_right sw) (Qn mr) -> num_is (margin_vert sw) (Qn mv) -> (ml <= p)%N -> (mr <= p)%N -> (mv <= r)%N ->
  exists x y, position_from_alignment g sw a = (x, y) /\
    within_err (1 # 256) x (anchor_x a (Qn w) (Qn ml * (Qn w / Qn p)) (Qn mr * (Qn w / Qn p))) /\ within_err (1 # 256) y (anchor_y a (Qn h) (Qn mv * (Qn h / Qn r))).
Proof.
  intros F (MW & MH & MP & MR) K ML MRI MV BL BR BV. destruct (scales g w h p r F) as (s & u & S & U & S0 & U0 & SE & UE). destruct F as (W & H & P & R & BW & BH & BP & BRR).
  rewrite (anchor_split g sw a K), S, U, W. eexists _, _. split; [reflexivity|]. unfold anchor_x, anchor_y.
  assert (C : 3 # 1024 <= 1 # 256) by (vm_compute; discriminate). split.
  - destruct (N.eqb ((a - 1) mod 3) 0).
    + rewrite (mul_wd _ _ s ML). eapply err_le; [exact C|]. apply margin_near; assumption || lia.
    + destruct (N.eqb ((a - 1) mod 3) 2).
      * eapply err_le; [|eapply sub_err with (e := 3 # 1024) (B := 16384)]; [vm_compute; discriminate|apply nat_is; lia|rewrite (mul_wd _ _ s MRI); apply margin_near; assumption || lia|vm_compute; discriminate|vm_compute; discriminate| |apply Qle_refl].
        pose proof (share_of mr w p ltac:(lia) BR). assert (Qn w <= Qn 16384) by (apply Qn_le; lia). change (Qn 16384) with 16384 in *. rewrite Qabs_pos; lra.
      * apply is_err; [vm_compute; discriminate|]. apply (half_of _ (Z.of_N w)); [apply nat_is; lia|lia].
  - destruct (N.leb a 3).
    + rewrite (mul_wd _ (Qn (r - mv)) u) by (apply sub_nat; [exact R|exact MV|lia]). eapply err_le; [exact C|]. eapply err_wd; [|apply (margin_near h r (r - mv) u); try assumption; lia].
      pose proof (Qn_1 r ltac:(lia)). unfold Qn at 1. rewrite N2Z.inj_sub by lia. unfold Z.sub. rewrite inject_Z_plus, inject_Z_opp. fold (Qn r) (Qn mv). field. lra.
    + destruct (((7 <=? a) && (a <=? 9))%N).
      * rewrite (mul_wd _ _ u MV). eapply err_le; [exact C|]. apply margin_near; assumption || lia.
      * rewrite (mul_wd _ (Qn r / 2) u) by (apply (half_of _ (Z.of_N r)); [exact R|lia]). eapply err_le; [exact C|]. apply scaled_half; lia || assumption.
Qed.

(* ---- boxes ---- *)
Lemma sub_round a b k : Qabs a < 2 ^ k -> Qabs b < 2 ^ k -> (0 <= k <= 20)%Z -> exists v, sub32 (Fin a) (Fin b) = Fin v /\ Qabs (v - (a - b)) <= 2 ^ (k - 24).
Proof.
  intros A B K. rewrite sub_fin. destruct (round_err (a - b) (k + 1)) as (v & E & V).
  - rewrite pow2_succ. apply Qabs_Qlt_condition in A. apply Qabs_Qlt_condition in B. apply Qabs_Qlt_condition. lra.
  - lia.
  - exists v. split; [exact E|]. replace (k - 24)%Z with (k + 1 - 25)%Z by lia. exact V.
Qed.
Lemma sub_half_round a b k : Qabs a < 2 ^ k -> Qabs b < 2 ^ k -> (0 <= k <= 20)%Z -> exists v, sub32 (Fin a) (f_div f32 (Fin b) (fl 2)) = Fin v /\ Qabs (v - (a - b / 2)) <= 2 ^ (k - 23).
Proof.
  intros A B K. rewrite half_fin. assert (D2 : b / 2 == b * (1 # 2)) by field. pose proof (pow2_pos (k - 26)) as PP.
  assert (K1 : 2 ^ k == 2 * 2 ^ (k - 1)) by (rewrite <- pow2_succ; replace (k - 1 + 1)%Z with k by lia; reflexivity).
  destruct (round_err (b / 2) (k - 1)) as (v & E & V); [|lia|].
  { rewrite D2. apply Qabs_Qlt_condition in B. apply Qabs_Qlt_condition. lra. }
  rewrite E, sub_fin. replace (k - 1 - 25)%Z with (k - 26)%Z in V by lia. apply abs_bound in V.
  assert (T26 : 2 ^ (k - 26) <= 2 ^ k * (1 # 67108864)). { replace (k - 26)%Z with (k + (-26))%Z by lia. rewrite pow2_plus. apply Qle_refl. }
  assert (P23 : 2 ^ (k - 23) == 2 ^ k * (1 # 8388608)). { replace (k - 23)%Z with (k + (-23))%Z by lia. rewrite pow2_plus. reflexivity. }
  assert (P24 : 2 ^ (k - 24) == 2 ^ k * (1 # 16777216)). { replace (k - 24)%Z with (k + (-24))%Z by lia. rewrite pow2_plus. reflexivity. }
  pose proof (pow2_pos k) as P0. apply Qabs_Qlt_condition in A. apply Qabs_Qlt_condition in B.
  destruct (round_err (a - v) (k + 1)) as (z & F & Z0).
  - rewrite pow2_succ. apply Qabs_Qlt_condition. rewrite D2 in V. lra.
  - lia.
  - exists z. split; [exact F|]. replace (k + 1 - 25)%Z with (k - 24)%Z in Z0 by lia. apply abs_bound in Z0. apply abs_bound. lra.
Qed.
Lemma left_half a : keypad a -> (((a - 1) mod 3 =? 0)%N = true /\ from_left a == 0) \/ (((a - 1) mod 3 =? 0)%N = false /\ ((a - 1) mod 3 =? 2)%N = true /\ from_left a == 1) \/ (((a - 1) mod 3 =? 0)%N = false /\ ((a - 1) mod 3 =? 2)%N = false /\ from_left a == 1 / 2).
Proof. intros K. keys K; vm_compute; auto. Qed.
Lemma box_ok ax ay w h a k : keypad a -> (0 <= k <= 20)%Z -> Qabs ax < 2 ^ k -> Qabs ay < 2 ^ k -> Qabs w < 2 ^ k -> Qabs h < 2 ^ k ->
  exists x y, alignment_offset (Fin ax) (Fin ay) (Fin w) (Fin h) a = (x, y) /\ within_err (2 ^ (k - 23)) x (ax - from_left a * w) /\ within_err (2 ^ (k - 23)) y (ay - from_top a * h).
Proof.
  intros K KK AX AY W H. rewrite (offset_split _ _ _ _ _ K). eexists _, _. split; [reflexivity|]. pose proof (pow2_pos (k - 23)) as P0.
  assert (PM : 2 ^ (k - 24) <= 2 ^ (k - 23)) by (apply pow2_le; lia).
  split.
  - destruct (left_half a K) as [(-> & E)|[(-> & -> & E)|(-> & -> & E)]].
    + apply is_err; [lra|]. exists ax. split; [reflexivity|]. rewrite E. ring.
    + destruct (sub_round ax w k AX W KK) as (v & V & B). exists v. split; [exact V|]. assert (D : v - (ax - from_left a * w) == v - (ax - w)) by (rewrite E; ring). rewrite D. lra.
    + destruct (sub_half_round ax w k AX W KK) as (v & V & B). exists v. split; [exact V|]. assert (D : v - (ax - from_left a * w) == v - (ax - w / 2)) by (rewrite E; field). rewrite D. exact B.
  - unfold from_top. destruct (N.leb a 3); [|destruct (((7 <=? a) && (a <=? 9))%N)].
    + destruct (sub_round ay h k AY H KK) as (v & V & B). exists v. split; [exact V|]. assert (D : v - (ay - 1 * h) == v - (ay - h)) by ring. rewrite D. lra.
    + apply is_err; [lra|]. exists ay. split; [reflexivity|]. ring.
    + destruct (sub_half_round ay h k AY H KK) as (v & V & B). exists v. split; [exact V|]. assert (D : v - (ay - 1 / 2 * h) == v - (ay - h / 2)) by field. rewrite D. exact B.
Qed.
