(* What one edge adds, in exact arithmetic. *)
From Coq Require Import Qround Qminmax.
From Verif Require Import Base FloatModel RasterModel RasterSpec RasterShare RasterDeposit.
Open Scope Q_scope.

Lemma qle_false a b : Qle_bool a b = false <-> b < a.
Proof.
  split.
  - intros H. destruct (Qlt_le_dec b a) as [L|L]; [exact L|]. apply Qle_bool_iff in L. congruence.
  - intros H. destruct (Qle_bool a b) eqn:E; [|reflexivity]. apply Qle_bool_iff in E. lra.
Qed.
Fixpoint psum (f : nat -> Q) (n : nat) : Q := match n with O => 0 | S m => psum f m + f m end.
Lemma psum_ext f g n : (forall k, (k < n)%nat -> f k == g k) -> psum f n == psum g n.
Proof. induction n as [|n IH]; intros H; cbn [psum]; [reflexivity|]. rewrite IH by (intros k L; apply H; lia). rewrite H by lia. reflexivity. Qed.
Lemma psum_add f g n : psum (fun k => f k + g k) n == psum f n + psum g n.
Proof. induction n as [|n IH]; cbn [psum]; [reflexivity|]. rewrite IH. ring. Qed.
Lemma psum_zero f n : (forall k, (k < n)%nat -> f k == 0) -> psum f n == 0.
Proof. induction n as [|n IH]; intros H; cbn [psum]; [reflexivity|]. rewrite IH by (intros k L; apply H; lia). rewrite H by lia. reflexivity. Qed.

(* the share for ends in any order *)
Definition hat (a b e : Q) : Q := share e (Qmin a b) (Qmax a b).
Lemma hat_pair a b xa xb e : (xa == a /\ xb == b \/ xa == b /\ xb == a) -> xa <= xb -> share e xa xb == hat a b e.
Proof.
  intros H L. unfold hat. destruct (Qlt_le_dec a b) as [K|K].
  - destruct H as [[E1 E2]|[E1 E2]]; [|lra]. rewrite (Q.min_l a b), (Q.max_r a b) by lra. now rewrite E1, E2.
  - destruct H as [[E1 E2]|[E1 E2]].
    + assert (E : a == b) by lra. rewrite (Q.min_l a b), (Q.max_l a b) by lra. now rewrite E1, E2, E.
    + rewrite (Q.min_r a b), (Q.max_l a b) by lra. now rewrite E1, E2.
Qed.
Lemma hat_wd a a' b b' e e' : a == a' -> b == b' -> e == e' -> hat a b e == hat a' b' e'.
Proof. intros E1 E2 E3. unfold hat. now rewrite E1, E2, E3. Qed.
Lemma hat_zero a b e : e <= a -> e <= b -> hat a b e == 0.
Proof. intros H K. unfold hat. apply share_none; [|now apply Q.min_glb]. apply (Qle_trans _ a); [apply Q.le_min_l|apply Q.le_max_l]. Qed.
Lemma hat_one a b e : a + 1 <= e -> b + 1 <= e -> hat a b e == 1.
Proof.
  intros H K. unfold hat. apply share_whole; [apply (Qle_trans _ a); [apply Q.le_min_l|apply Q.le_max_l]|]. assert (Qmax a b <= e - 1) by (apply Q.max_lub; lra). lra.
Qed.
Lemma hat_telescope a b d n : psum (fun c => d * (hat a b (qn c + 1) - hat a b (qn c))) n == d * (hat a b (qn n) - hat a b 0).
Proof.
  induction n as [|n IH]; cbn [psum]; [rewrite (hat_wd a a b b (qn 0) 0) by reflexivity; ring|]. rewrite IH. rewrite (hat_wd a a b b (qn (S n)) (qn n + 1)) by (try reflexivity; apply qn_S). ring.
Qed.
Lemma hat_share j a b : right_share j a b (hat a b (of_Z j + 1)) \/ right_share j b a (hat a b (of_Z j + 1)).
Proof.
  destruct (Qlt_le_dec a b) as [K|K].
  - left. assert (R := right_share_exists j a b (Qlt_le_weak _ _ K)).
    assert (W : forall v v' a b, right_share j a b v -> v' == v -> right_share j a b v').
    { clear. intros v v' a b H E. destruct H as [a b v H L E0|a b v H L E0|a b v L1 H L2 E0|a c b u w v L1 L2 H1 H2 E0]; [apply rs_whole|apply rs_none|apply rs_trapezoid|apply (rs_cut j a c b u w)]; auto; now rewrite E. }
    apply (W _ _ _ _ R). symmetry. apply hat_pair; [left; split; reflexivity|lra].
  - right. assert (R := right_share_exists j b a K).
    assert (W : forall v v' a b, right_share j a b v -> v' == v -> right_share j a b v').
    { clear. intros v v' a b H E. destruct H as [a b v H L E0|a b v H L E0|a b v L1 H L2 E0|a c b u w v L1 L2 H1 H2 E0]; [apply rs_whole|apply rs_none|apply rs_trapezoid|apply (rs_cut j a c b u w)]; auto; now rewrite E. }
    apply (W _ _ _ _ R). symmetry. apply hat_pair; [right; split; reflexivity|lra].
Qed.

Section Line.
  Variable sqf : Q -> Q.
  Notation E := (exact sqf).
  Notation ras := (raster E).
  Definition cells (r : ras) : list Q := acc E r.
  Definition wide (r : ras) : nat := width E r.
  Definition tall (r : ras) : nat := height E r.
  Definition wf (r : ras) : Prop :=
    List.length (cells r) = ((wide r + 2) * Nat.max (tall r) 1)%nat /\ List.length (row_min E r) = Nat.max (tall r) 1 /\ List.length (row_max E r) = Nat.max (tall r) 1.
  Definition cell (r : ras) (y c : nat) : Q := nth (y * (wide r + 2) + c) (cells r) 0.
  Definition same_size (r r' : ras) : Prop := wide r' = wide r /\ tall r' = tall r.
  Definition spanned (r : ras) : Prop := forall y c, (y < tall r)%nat -> (c < wide r + 2)%nat ->
    (c < nth y (row_min E r) 0 \/ nth y (row_max E r) 0 < c)%nat -> cell r y c == 0.

  Lemma clamp_in w x : 0 <= x -> x <= w -> clamp E 0 w x = x.
  Proof.
    intros H1 H2. unfold clamp. cbn [lt exact]. unfold qlt. rewrite (proj2 (Qle_bool_iff 0 x) H1), (proj2 (Qle_bool_iff x w) H2). reflexivity.
  Qed.
  Lemma one_row dir dxdy y_top y_bot (x : Q) (r : ras) y dy : wf r -> spanned r -> (y < tall r)%nat ->
    dy == Qmin (qn (y + 1)) y_bot - Qmax (qn y) y_top -> 0 < dy -> 0 <= x -> x <= qn (wide r) -> 0 <= x + dxdy * dy -> x + dxdy * dy <= qn (wide r) ->
    exists x' r', row_step E dir dxdy y_top y_bot (x, r) y = Some (x', r') /\ x' == x + dxdy * dy /\ wf r' /\ spanned r' /\ same_size r r' /\
      forall Y c, (c < wide r + 2)%nat -> cell r' Y c == cell r Y c + if (Y =? y)%nat then dy * dir * (hat x (x + dxdy * dy) (qn c + 1) - hat x (x + dxdy * dy) (qn c)) else 0.
  Proof.
    intros (W1 & W2 & W3) Sp Hy Edy Pdy X1 X2 X3 X4. unfold row_step. cbn [exact of_usize sub le cst].
    set (dy' := min_ E (inject_Z (Z.of_nat (y + 1))) y_bot - max_ E (inject_Z (Z.of_nat y)) y_top).
    assert (Ed : dy' == dy).
    { rewrite Edy. unfold dy'. cbn [exact min_ max_]. change (inject_Z (Z.of_nat (y + 1))) with (qn (y + 1)). change (inject_Z (Z.of_nat y)) with (qn y).
      assert (M1 : (if Qle_bool (qn (y + 1)) y_bot then qn (y + 1) else y_bot) == Qmin (qn (y + 1)) y_bot).
      { destruct (Qle_bool (qn (y + 1)) y_bot) eqn:B; [apply Qle_bool_iff in B; now rewrite Q.min_l|apply qle_false in B; rewrite Q.min_r by lra; reflexivity]. }
      assert (M2 : (if Qle_bool (qn y) y_top then y_top else qn y) == Qmax (qn y) y_top).
      { destruct (Qle_bool (qn y) y_top) eqn:B; [apply Qle_bool_iff in B; now rewrite Q.max_r|apply qle_false in B; rewrite Q.max_l by lra; reflexivity]. }
      rewrite M1, M2. reflexivity. }
    assert (Hf : Qle_bool dy' 0 = false) by (apply qle_false; lra). rewrite Hf. cbn [add mul exact].
    set (xn := x + dxdy * dy'). assert (En : xn == x + dxdy * dy) by (unfold xn; now rewrite Ed).
    change (inject_Z (Z.of_nat (width E r))) with (qn (wide r)). rewrite (clamp_in (qn (wide r)) x X1 X2), (clamp_in (qn (wide r)) xn) by lra.
    cbn [lt exact].
    assert (Hab : exists xa xb, (if qlt x xn then (x, xn) else (xn, x)) = (xa, xb) :> (num E * num E) /\ (xa == x /\ xb == xn \/ xa == xn /\ xb == x) /\ xa <= xb).
    { unfold qlt. destruct (Qle_bool xn x) eqn:B; cbn [negb].
      - apply Qle_bool_iff in B. exists xn, x. split; [reflexivity|]. split; [right; split; reflexivity|exact B].
      - apply qle_false in B. exists x, xn. split; [reflexivity|]. split; [left; split; reflexivity|lra]. }
    destruct Hab as (xa & xb & Eab & HE & Hle). match goal with |- context [if qlt x xn then ?P else ?R] => replace (if qlt x xn then P else R) with (xa, xb) by (symmetry; exact Eab) end.
    assert (Ra : 0 <= xa) by (destruct HE as [[? ?]|[? ?]]; lra). assert (Rb : xb <= qn (wide r)) by (destruct HE as [[? ?]|[? ?]]; lra).
    cbn [floor_ ceil_ to_usize exact]. destruct (floor_of xa Ra) as (f & Ef & F1 & F2). destruct (ceil_of xb) as (g & Eg & G1 & G2); [lra|].
    rewrite Ef, Eg, !Qfloor_Z, !Nat2Z.id.
    destruct (upd_some 0%nat (fun m => Nat.min m f) (row_min E r) y) as (mn & U1 & L1 & N1); [unfold tall in *; lia|]. rewrite U1. cbn [bind].
    destruct (upd_some 0%nat (fun m => Nat.max m (Nat.max g (f + 1))) (row_max E r) y) as (mx & U2 & L2 & N2); [unfold tall in *; lia|]. rewrite U2. cbn [bind].
    assert (Hlen : (y * stride E r + wide r + 1 < List.length (cells r))%nat).
    { rewrite W1. change (stride E r) with (wide r + 2)%nat. assert (y + 1 <= Nat.max (tall r) 1)%nat by lia. assert ((y + 1) * (wide r + 2) <= (wide r + 2) * Nat.max (tall r) 1)%nat by (rewrite (Nat.mul_comm (wide r + 2)); now apply Nat.mul_le_mono_r). lia. }
    destruct (deposit_adds sqf (wide r) (y * stride E r) (dy' * dir) x xn (cells r) X1 X2 ltac:(lra) ltac:(lra) Hlen) as (l' & a & b & D & HE' & Hle' & AL & AN).
    change (acc E r) with (cells r). rewrite D. cbn [bind].
    exists xn, (Raster E (width E r) (height E r) l' mn mx). split; [reflexivity|]. split; [exact En|].
    assert (Cells : forall Y c, (c < wide r + 2)%nat -> cell (Raster E (width E r) (height E r) l' mn mx) Y c == cell r Y c + (if (Y =? y)%nat then dy * dir * (hat x (x + dxdy * dy) (qn c + 1) - hat x (x + dxdy * dy) (qn c)) else 0)).
    { intros Y c Hc. unfold cell. change (wide (Raster E (width E r) (height E r) l' mn mx)) with (wide r). change (cells (Raster E (width E r) (height E r) l' mn mx)) with l'. rewrite AN. apply Qplus_inj_l. unfold gain. change (stride E r) with (wide r + 2)%nat.
      assert (Rb' : b <= qn (wide r)) by (destruct HE' as [[? ?]|[? ?]]; lra). assert (Ra' : 0 <= a) by (destruct HE' as [[? ?]|[? ?]]; lra).
      destruct (Nat.eqb_spec Y y) as [->|NY].
      - destruct (Nat.ltb_spec (y * (wide r + 2) + c) (y * (wide r + 2))); [lia|]. replace (y * (wide r + 2) + c - y * (wide r + 2))%nat with c by lia.
        rewrite !(hat_pair x xn a b) by assumption. rewrite (hat_wd x x xn (x + dxdy * dy) (qn c + 1) (qn c + 1)), (hat_wd x x xn (x + dxdy * dy) (qn c) (qn c)) by (try reflexivity; exact En). rewrite Ed. reflexivity.
      - destruct (Nat.ltb_spec (Y * (wide r + 2) + c) (y * (wide r + 2))) as [L|L]; [reflexivity|].
        assert (HY : (y + 1 <= Y)%nat).
        { destruct (Nat.le_gt_cases (y + 1) Y) as [K|K]; [exact K|exfalso]. assert (K2 : (Y + 1 <= y)%nat) by lia. apply (Nat.mul_le_mono_r _ _ (wide r + 2)) in K2. lia. }
        apply (Nat.mul_le_mono_r _ _ (wide r + 2)) in HY. assert (Q : (wide r + 2 <= Y * (wide r + 2) + c - y * (wide r + 2))%nat) by lia. apply qn_le in Q. rewrite qn_add in Q. change (qn 2) with 2 in Q. rewrite !share_whole by lra. ring. }
    split; [|split; [|split; [split; reflexivity|exact Cells]]].
    - unfold wf. cbn. unfold cells in *. rewrite L1, L2, AL. repeat split; assumption.
    - intros Y c HY Hc Hs. rewrite (Cells Y c Hc). change (row_min E (Raster E (width E r) (height E r) l' mn mx)) with mn in Hs. change (row_max E (Raster E (width E r) (height E r) l' mn mx)) with mx in Hs. rewrite N1, N2 in Hs.
      destruct (Nat.eqb_spec Y y) as [->|NY].
      + rewrite (Sp y c) by (assumption || lia). destruct Hs as [Hs|Hs].
        * assert (Q : (c < f)%nat) by lia. apply qn_lt in Q. assert (H0 : 0 <= qn c) by apply qn_pos. rewrite !hat_zero by (destruct HE as [[? ?]|[? ?]]; lra). ring.
        * assert (Q : (g < c)%nat) by lia. apply qn_lt in Q. rewrite !hat_one by (destruct HE as [[? ?]|[? ?]]; lra). ring.
      + rewrite (Sp Y c HY Hc Hs). ring.
  Qed.
End Line.
Close Scope Q_scope.
