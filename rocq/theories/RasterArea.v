(* The enclosed area as a number: it exists, it is unique, and it is nothing
   beyond the box around the points. *)
From Coq Require Import Qround Qminmax.
From Verif Require Import Base FloatModel RasterModel RasterSpec RasterShare RasterDeposit RasterLine RasterEdge RasterPath.
Open Scope Q_scope.

Definition pos (p q : pt) (t : Q) : Q := fst p + (t - snd p) * ((fst q - fst p) / (snd q - snd p)).
Definition drop (X Y : Z) (p q : pt) : Q :=
  let ya := Qmax (of_Z Y) (snd p) in let yb := Qmin (of_Z Y + 1) (snd q) in
  if Qle_bool yb ya then 0 else (yb - ya) * hat (pos p q ya) (pos p q yb) (of_Z X + 1).
Definition amount (X Y : Z) (p q : pt) : Q := if qlt (snd p) (snd q) then drop X Y p q else if qlt (snd q) (snd p) then - drop X Y q p else 0.
Lemma qlt_true a b : qlt a b = true <-> a < b.
Proof. unfold qlt. rewrite negb_true_iff. apply qle_false. Qed.
Lemma qlt_false a b : qlt a b = false <-> b <= a.
Proof. unfold qlt. rewrite negb_false_iff. apply Qle_bool_iff. Qed.
Lemma pos_wd p q s t : s == t -> pos p q s == pos p q t.
Proof. intros H. unfold pos. now rewrite H. Qed.
Lemma pos_at p q t x : snd p < snd q -> at_height p q t x -> x == pos p q t.
Proof.
  intros L H. unfold at_height in H. unfold pos. assert (K : x == fst p + ((x - fst p) * (snd q - snd p)) / (snd q - snd p)) by (field; lra). rewrite K, H. field. lra.
Qed.
Lemma at_pos p q t : snd p < snd q -> at_height p q t (pos p q t).
Proof. intros L. unfold at_height, pos. field. lra. Qed.
Lemma share_hat j a b m : right_share j a b m \/ right_share j b a m -> m == hat a b (of_Z j + 1).
Proof.
  intros [R|R]; apply right_share_unique in R; destruct R as [L R]; rewrite R; apply hat_pair; try exact L; [left|right]; split; reflexivity.
Qed.
Lemma swept_down X Y p q : snd p < snd q -> swept X Y p q (drop X Y p q).
Proof.
  intros L. unfold drop. set (ya := Qmax (of_Z Y) (snd p)). set (yb := Qmin (of_Z Y + 1) (snd q)). destruct (Qle_bool yb ya) eqn:B.
  - apply Qle_bool_iff in B. apply sw_out; [|reflexivity]. right. unfold ya, yb in B. destruct (max_cases (of_Z Y) (snd p)) as [[? M]|[? M]], (min_cases (of_Z Y + 1) (snd q)) as [[? N]|[? N]]; rewrite M, N in B; (left; lra) || (right; lra).
  - apply qle_false in B. apply (sw_down _ _ p q ya yb (pos p q ya) (pos p q yb) (hat (pos p q ya) (pos p q yb) (of_Z X + 1))).
    + exact L.
    + exact B.
    + unfold ya. destruct (max_cases (of_Z Y) (snd p)) as [[? M]|[? M]]; rewrite M; (split; [lra|split; [lra|]]); [right|left]; reflexivity.
    + unfold yb. destruct (min_cases (of_Z Y + 1) (snd q)) as [[? M]|[? M]]; rewrite M; (split; [lra|split; [lra|]]); [right|left]; reflexivity.
    + now apply at_pos.
    + now apply at_pos.
    + apply hat_share.
    + reflexivity.
Qed.
Lemma swept_exists X Y p q : swept X Y p q (amount X Y p q).
Proof.
  unfold amount. destruct (qlt (snd p) (snd q)) eqn:B; [apply qlt_true in B; now apply swept_down|]. apply qlt_false in B. destruct (qlt (snd q) (snd p)) eqn:C.
  - apply qlt_true in C. apply (sw_up _ _ _ _ (drop X Y q p)); [exact C|now apply swept_down|reflexivity].
  - apply qlt_false in C. apply sw_out; [left; lra|reflexivity].
Qed.
Lemma amount_down X Y p q : snd p < snd q -> amount X Y p q = drop X Y p q.
Proof. intros L. unfold amount. now rewrite (proj2 (qlt_true _ _) L). Qed.
Lemma amount_up X Y p q : snd q < snd p -> amount X Y p q = - drop X Y q p.
Proof. intros L. unfold amount. now rewrite (proj2 (qlt_false (snd p) (snd q)) (Qlt_le_weak _ _ L)), (proj2 (qlt_true _ _) L). Qed.
Lemma drop_out X Y p q : (snd p <= of_Z Y /\ snd q <= of_Z Y) \/ (of_Z Y + 1 <= snd p /\ of_Z Y + 1 <= snd q) -> drop X Y p q = 0.
Proof.
  intros H. unfold drop. rewrite (proj2 (Qle_bool_iff _ _)); [reflexivity|]. destruct (max_cases (of_Z Y) (snd p)) as [[? M]|[? M]], (min_cases (of_Z Y + 1) (snd q)) as [[? N]|[? N]]; rewrite M, N; destruct H as [[? ?]|[? ?]]; lra.
Qed.
Lemma swept_unique X Y p q v : swept X Y p q v -> v == amount X Y p q.
Proof.
  induction 1 as [p q v H E|p q ya yb xa xb m v L1 L2 A B Ha Hb R E|p q u v L H IH E].
  - rewrite E. unfold amount. destruct (qlt (snd p) (snd q)) eqn:B; [apply qlt_true in B|apply qlt_false in B; destruct (qlt (snd q) (snd p)) eqn:C; [apply qlt_true in C|reflexivity]].
    + rewrite drop_out; [reflexivity|]. destruct H as [H|[H|H]]; [lra|left; exact H|right; exact H].
    + rewrite drop_out; [reflexivity|]. destruct H as [H|[H|H]]; [lra|left; split; apply H|right; split; apply H].
  - rewrite (amount_down X Y p q L1), E. unfold drop. assert (Ea : ya == Qmax (of_Z Y) (snd p)) by (destruct (max_cases (of_Z Y) (snd p)) as [[? M]|[? M]]; rewrite M; destruct A as (? & ? & [?|?]); lra).
    assert (Eb : yb == Qmin (of_Z Y + 1) (snd q)) by (destruct (min_cases (of_Z Y + 1) (snd q)) as [[? M]|[? M]]; rewrite M; destruct B as (? & ? & [?|?]); lra).
    destruct (Qle_bool (Qmin (of_Z Y + 1) (snd q)) (Qmax (of_Z Y) (snd p))) eqn:T; [apply Qle_bool_iff in T; lra|].
    rewrite (share_hat _ _ _ _ R). apply Qmult_comp; [unfold Qminus; apply Qplus_comp; [exact Eb|now apply Qopp_comp]|]. apply hat_wd; [| |reflexivity].
    + rewrite (pos_at p q ya xa L1 Ha). now apply pos_wd.
    + rewrite (pos_at p q yb xb L1 Hb). now apply pos_wd.
  - rewrite (amount_up X Y p q L), E, IH. now rewrite (amount_down X Y q p L).
Qed.
Fixpoint total (X Y : Z) (es : list (pt * pt)) : Q := match es with [] => 0 | (p, q) :: r => amount X Y p q + total X Y r end.
Lemma enclosed_exists X Y es : enclosed X Y es (total X Y es).
Proof. induction es as [|[p q] es IH]; cbn [total]; [now apply en_nil|]. apply (en_cons _ _ p q es (amount X Y p q) (total X Y es)); [apply swept_exists|exact IH|reflexivity]. Qed.
Lemma enclosed_unique X Y es v : enclosed X Y es v -> v == total X Y es.
Proof. induction 1 as [v H|p q l u w v S H IH E]; cbn [total]; [exact H|]. rewrite E, IH, (swept_unique _ _ _ _ _ S). reflexivity. Qed.

(* ---- beyond the box ---- *)
Definition zlevel (Y : Z) (t : Q) : Q := unit_clamp (t - of_Z Y).
Lemma zlevel_wd Y s t : s == t -> zlevel Y s == zlevel Y t.
Proof. intros H. unfold zlevel. destruct (unit_cases (s - of_Z Y)) as [[? U]|[[? [? U]]|[? U]]], (unit_cases (t - of_Z Y)) as [[? V]|[[? [? V]]|[? V]]]; rewrite U, V; lra. Qed.
Fixpoint climb (g : Q -> Q) (es : list (pt * pt)) : Q := match es with [] => 0 | (p, q) :: r => g (snd q) - g (snd p) + climb g r end.
Lemma climb_app g l1 l2 : climb g (l1 ++ l2) == climb g l1 + climb g l2.
Proof. induction l1 as [|[p q] l1 IH]; cbn [app climb]; [ring|]. rewrite IH. ring. Qed.
Lemma climb_chain g (f : nat -> pt) n : forall a, climb g (chain f a n) == g (snd (f (a + n)%nat)) - g (snd (f a)).
Proof.
  induction n as [|n IH]; intros a; [rewrite Nat.add_0_r; cbn; ring|]. change (chain f a (S n)) with ((f a, f (S a)) :: chain f (S a) n). cbn [climb]. rewrite IH. replace (S a + n)%nat with (a + S n)%nat by lia. ring.
Qed.
Lemma climb_steps g n (f : Q -> pt) (p q : pt) : (forall s t, s == t -> g s == g t) -> (1 <= n)%nat -> (forall t, t == 0 -> snd (f t) == snd p) -> (forall t, t == 1 -> snd (f t) == snd q) -> climb g (steps n f) == g (snd q) - g (snd p).
Proof.
  intros W Hn H0 H1. rewrite steps_chain, climb_chain. cbn [Nat.add]. assert (P : 1 <= qn n) by (apply qn_le in Hn; exact Hn). rewrite (W _ (snd p) (H0 (qn 0 / qn n) (zero_over n Hn))). rewrite (W _ (snd q) (H1 (qn n / qn n) ltac:(field; lra))). reflexivity.
Qed.
Lemma climb_edges g st path es : (forall s t, s == t -> g s == g t) -> edges_of st path es -> climb g es == match st with Some (s, c) => g (snd s) - g (snd c) | None => 0 end.
Proof.
  intros W. induction 1 as [|s c|p r es H IH|s c p r es H IH|s c p r es H IH|s c b p r n es Hn H IH|s c b b' p r n es Hn H IH|s c r es H IH]; cbn [climb].
  - reflexivity.
  - ring.
  - rewrite IH. ring.
  - rewrite IH. ring.
  - rewrite IH. ring.
  - rewrite climb_app, IH, (climb_steps g n _ c p W (proj1 Hn)); [ring| |]; intros t T; cbn [blend2 snd]; rewrite T; ring.
  - rewrite climb_app, IH, (climb_steps g n _ c p W (proj1 Hn)); [ring| |]; intros t T; cbn [blend3 snd]; rewrite T; ring.
  - rewrite IH. ring.
Qed.
Lemma pos_between p q t lo hi : snd p < snd q -> snd p <= t -> t <= snd q -> lo <= fst p -> lo <= fst q -> fst p <= hi -> fst q <= hi -> lo <= pos p q t /\ pos p q t <= hi.
Proof.
  intros L T1 T2 A1 A2 B1 B2. set (s := (t - snd p) / (snd q - snd p)). assert (Es : pos p q t == fst p + s * (fst q - fst p)) by (unfold pos, s; field; lra).
  assert (S0 : 0 <= s) by (apply Qle_shift_div_l; lra). assert (S1 : s <= 1) by (apply Qle_shift_div_r; lra). rewrite Es.
  assert (K1 : 0 <= (fst p - lo) * (1 - s)) by (apply Qmult_le_0_compat; lra). assert (K2 : 0 <= (fst q - lo) * s) by (apply Qmult_le_0_compat; lra).
  assert (K3 : 0 <= (hi - fst p) * (1 - s)) by (apply Qmult_le_0_compat; lra). assert (K4 : 0 <= (hi - fst q) * s) by (apply Qmult_le_0_compat; lra).
  assert (R1 : fst p + s * (fst q - fst p) - lo == (fst p - lo) * (1 - s) + (fst q - lo) * s) by ring. assert (R2 : hi - (fst p + s * (fst q - fst p)) == (hi - fst p) * (1 - s) + (hi - fst q) * s) by ring. split; lra.
Qed.
Lemma drop_left X Y p q : snd p < snd q -> of_Z X + 1 <= fst p -> of_Z X + 1 <= fst q -> drop X Y p q == 0.
Proof.
  intros L P Q. unfold drop. set (ya := Qmax (of_Z Y) (snd p)). set (yb := Qmin (of_Z Y + 1) (snd q)). destruct (Qle_bool yb ya) eqn:B; [reflexivity|]. apply qle_false in B.
  assert (R1 : snd p <= ya) by apply Q.le_max_r. assert (R2 : yb <= snd q) by apply Q.le_min_r. assert (C : fst p <= Qmax (fst p) (fst q) /\ fst q <= Qmax (fst p) (fst q)) by (split; [apply Q.le_max_l|apply Q.le_max_r]).
  rewrite hat_zero; [ring| |]; apply (pos_between p q _ (of_Z X + 1) (Qmax (fst p) (fst q)) L); lra || apply C.
Qed.
Lemma drop_right X Y p q : snd p < snd q -> fst p <= of_Z X -> fst q <= of_Z X -> drop X Y p q == zlevel Y (snd q) - zlevel Y (snd p).
Proof.
  intros L P Q. unfold drop, zlevel. set (ya := Qmax (of_Z Y) (snd p)). set (yb := Qmin (of_Z Y + 1) (snd q)).
  assert (Lv : (yb <= ya /\ unit_clamp (snd q - of_Z Y) - unit_clamp (snd p - of_Z Y) == 0) \/ (ya < yb /\ unit_clamp (snd q - of_Z Y) - unit_clamp (snd p - of_Z Y) == yb - ya)).
  { unfold ya, yb. destruct (max_cases (of_Z Y) (snd p)) as [[? M]|[? M]], (min_cases (of_Z Y + 1) (snd q)) as [[? N]|[? N]], (unit_cases (snd q - of_Z Y)) as [[? U]|[[? [? U]]|[? U]]], (unit_cases (snd p - of_Z Y)) as [[? V]|[[? [? V]]|[? V]]]; rewrite M, N, U, V; (left; split; lra) || (right; split; lra) || lra. }
  destruct (Qle_bool yb ya) eqn:B.
  - apply Qle_bool_iff in B. destruct Lv as [[_ Ev]|[K _]]; [now rewrite Ev|lra].
  - apply qle_false in B. destruct Lv as [[K _]|[_ Ev]]; [lra|]. rewrite Ev.
    assert (R1 : snd p <= ya) by apply Q.le_max_r. assert (R2 : yb <= snd q) by apply Q.le_min_r. assert (C : Qmin (fst p) (fst q) <= fst p /\ Qmin (fst p) (fst q) <= fst q) by (split; [apply Q.le_min_l|apply Q.le_min_r]).
    assert (Qa := pos_between p q ya (Qmin (fst p) (fst q)) (of_Z X) L R1 ltac:(lra) (proj1 C) (proj2 C) P Q). assert (Qb := pos_between p q yb (Qmin (fst p) (fst q)) (of_Z X) L ltac:(lra) R2 (proj1 C) (proj2 C) P Q).
    rewrite hat_one; [ring| |]; lra.
Qed.
Lemma total_left X Y es : (forall p q, In (p, q) es -> of_Z X + 1 <= fst p /\ of_Z X + 1 <= fst q) -> total X Y es == 0.
Proof.
  induction es as [|[p q] es IH]; intros H; cbn [total]; [reflexivity|]. rewrite IH by (intros; apply H; now right). destruct (H p q (or_introl eq_refl)) as [P Q]. unfold amount.
  destruct (qlt (snd p) (snd q)) eqn:B; [apply qlt_true in B; rewrite drop_left by assumption; ring|]. destruct (qlt (snd q) (snd p)) eqn:C; [apply qlt_true in C; rewrite drop_left by assumption; ring|ring].
Qed.
Lemma total_right X Y es : (forall p q, In (p, q) es -> fst p <= of_Z X /\ fst q <= of_Z X) -> total X Y es == climb (zlevel Y) es.
Proof.
  induction es as [|[p q] es IH]; intros H; cbn [total climb]; [reflexivity|]. rewrite IH by (intros; apply H; now right). destruct (H p q (or_introl eq_refl)) as [P Q]. unfold amount.
  destruct (qlt (snd p) (snd q)) eqn:B; [apply qlt_true in B; rewrite drop_right by assumption; ring|]. apply qlt_false in B. destruct (qlt (snd q) (snd p)) eqn:C; [apply qlt_true in C; rewrite drop_right by assumption; ring|].
  apply qlt_false in C. rewrite (zlevel_wd Y (snd p) (snd q)) by lra. ring.
Qed.
Lemma total_out X Y es : (forall p q, In (p, q) es -> (snd p <= of_Z Y /\ snd q <= of_Z Y) \/ (of_Z Y + 1 <= snd p /\ of_Z Y + 1 <= snd q)) -> total X Y es == 0.
Proof.
  induction es as [|[p q] es IH]; intros H; cbn [total]; [reflexivity|]. rewrite IH by (intros; apply H; now right). assert (K := H p q (or_introl eq_refl)). assert (S : swept X Y p q 0) by (apply sw_out; [right; exact K|reflexivity]).
  rewrite <- (swept_unique _ _ _ _ _ S). ring.
Qed.

(* ---- the edges stay within the box of the points ---- *)
Lemma blend2_within l t r b u p c q : 0 <= u -> u <= 1 -> within l t r b p -> within l t r b c -> within l t r b q -> within l t r b (blend2 u p c q).
Proof.
  intros U0 U1 (P1 & P2 & P3 & P4) (C1 & C2 & C3 & C4) (Q1 & Q2 & Q3 & Q4). unfold within, blend2. cbn [fst snd].
  assert (A := mix2 u (fst p - l) (fst c - l) (fst q - l) (r - l) U0 U1 ltac:(lra) ltac:(lra) ltac:(lra) ltac:(lra) ltac:(lra) ltac:(lra)).
  assert (B := mix2 u (snd p - t) (snd c - t) (snd q - t) (b - t) U0 U1 ltac:(lra) ltac:(lra) ltac:(lra) ltac:(lra) ltac:(lra) ltac:(lra)). cbn zeta in A, B.
  assert (EA : (1 - u) * (1 - u) * (fst p - l) + 2 * (1 - u) * u * (fst c - l) + u * u * (fst q - l) == (1 - u) * (1 - u) * fst p + 2 * (1 - u) * u * fst c + u * u * fst q - l) by ring.
  assert (EB : (1 - u) * (1 - u) * (snd p - t) + 2 * (1 - u) * u * (snd c - t) + u * u * (snd q - t) == (1 - u) * (1 - u) * snd p + 2 * (1 - u) * u * snd c + u * u * snd q - t) by ring.
  rewrite EA in A. rewrite EB in B. split; [lra|]. split; [lra|]. split; lra.
Qed.
Lemma blend3_within l t r b u p c d q : 0 <= u -> u <= 1 -> within l t r b p -> within l t r b c -> within l t r b d -> within l t r b q -> within l t r b (blend3 u p c d q).
Proof.
  intros U0 U1 (P1 & P2 & P3 & P4) (C1 & C2 & C3 & C4) (D1 & D2 & D3 & D4) (Q1 & Q2 & Q3 & Q4). unfold within, blend3. cbn [fst snd].
  assert (A := mix3 u (fst p - l) (fst c - l) (fst d - l) (fst q - l) (r - l) U0 U1 ltac:(lra) ltac:(lra) ltac:(lra) ltac:(lra) ltac:(lra) ltac:(lra) ltac:(lra) ltac:(lra)).
  assert (B := mix3 u (snd p - t) (snd c - t) (snd d - t) (snd q - t) (b - t) U0 U1 ltac:(lra) ltac:(lra) ltac:(lra) ltac:(lra) ltac:(lra) ltac:(lra) ltac:(lra) ltac:(lra)). cbn zeta in A, B.
  assert (EA : (1 - u) * (1 - u) * (1 - u) * (fst p - l) + 3 * (1 - u) * (1 - u) * u * (fst c - l) + 3 * (1 - u) * u * u * (fst d - l) + u * u * u * (fst q - l) == (1 - u) * (1 - u) * (1 - u) * fst p + 3 * (1 - u) * (1 - u) * u * fst c + 3 * (1 - u) * u * u * fst d + u * u * u * fst q - l) by ring.
  assert (EB : (1 - u) * (1 - u) * (1 - u) * (snd p - t) + 3 * (1 - u) * (1 - u) * u * (snd c - t) + 3 * (1 - u) * u * u * (snd d - t) + u * u * u * (snd q - t) == (1 - u) * (1 - u) * (1 - u) * snd p + 3 * (1 - u) * (1 - u) * u * snd c + 3 * (1 - u) * u * u * snd d + u * u * u * snd q - t) by ring.
  rewrite EA in A. rewrite EB in B. split; [lra|]. split; [lra|]. split; lra.
Qed.
Lemma steps_in n f p q : (1 <= n)%nat -> In (p, q) (steps n f) -> exists s t, 0 <= s /\ s <= 1 /\ 0 <= t /\ t <= 1 /\ p = f s /\ q = f t.
Proof.
  intros Hn H. unfold steps in H. apply in_map_iff in H. destruct H as (i & Ei & Hi). apply in_seq in Hi. injection Ei as <- <-. destruct (ratio i n Hn ltac:(lia)) as [A B], (ratio (i + 1) n Hn ltac:(lia)) as [C D].
  exists (qn i / qn n), (qn (i + 1) / qn n). auto 10.
Qed.
Lemma edges_within l t r b st path es : edges_of st path es -> match st with Some (s, c) => within l t r b s /\ within l t r b c | None => True end -> (forall g p, In g path -> In p (points g) -> within l t r b p) ->
  forall p q, In (p, q) es -> within l t r b p /\ within l t r b q.
Proof.
  induction 1 as [|s c|p r0 es H IH|s c p r0 es H IH|s c p r0 es H IH|s c d p r0 n es Hn H IH|s c d d' p r0 n es Hn H IH|s c r0 es H IH]; intros St Pt x y I;
    try (assert (Pr : forall g p, In g r0 -> In p (points g) -> within l t r b p) by (intros g' p' I1 I2; apply (Pt g' p'); [now right|exact I2]));
    try (match type of Pt with forall g p, In g (?g0 :: _) -> _ => assert (Ph : forall p, In p (points g0) -> within l t r b p) by (intros p' I1; apply (Pt g0 p'); [now left|exact I1]); cbn [points] in Ph end).
  - destruct I.
  - destruct I as [I|[]]. injection I as <- <-. split; apply St.
  - assert (Wp : within l t r b p) by (apply Ph; now left). apply (IH (conj Wp Wp) Pr _ _ I).
  - assert (Wp : within l t r b p) by (apply Ph; now left). destruct I as [I|I]; [injection I as <- <-; split; apply St|]. apply (IH (conj Wp Wp) Pr _ _ I).
  - assert (Wp : within l t r b p) by (apply Ph; now left). destruct I as [I|I]; [injection I as <- <-; split; [apply St|exact Wp]|]. apply (IH (conj (proj1 St) Wp) Pr _ _ I).
  - assert (Wd : within l t r b d) by (apply Ph; now left). assert (Wp : within l t r b p) by (apply Ph; right; now left). apply in_app_or in I. destruct I as [I|I]; [|apply (IH (conj (proj1 St) Wp) Pr _ _ I)].
    destruct (steps_in n _ x y (proj1 Hn) I) as (u & v & U0 & U1 & V0 & V1 & -> & ->). split; apply blend2_within; try assumption; apply St.
  - assert (Wd : within l t r b d) by (apply Ph; now left). assert (Wd' : within l t r b d') by (apply Ph; right; now left). assert (Wp : within l t r b p) by (apply Ph; right; right; now left). apply in_app_or in I. destruct I as [I|I]; [|apply (IH (conj (proj1 St) Wp) Pr _ _ I)].
    destruct (steps_in n _ x y (proj1 Hn) I) as (u & v & U0 & U1 & V0 & V1 & -> & ->). split; apply blend3_within; try assumption; apply St.
  - destruct I as [I|I]; [injection I as <- <-; split; apply St|]. apply (IH (conj (proj1 St) (proj1 St)) Pr _ _ I).
Qed.
Close Scope Q_scope.
