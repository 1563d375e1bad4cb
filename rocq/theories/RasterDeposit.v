(* What one row of an edge adds to the accumulation buffer, in exact arithmetic. *)
From Coq Require Import Qround.
From Verif Require Import Base FloatModel RasterModel RasterSpec RasterShare.
Open Scope Q_scope.

Definition qn (n : nat) : Q := inject_Z (Z.of_nat n).
Lemma qn_add a b : qn (a + b) == qn a + qn b.
Proof. unfold qn. rewrite Nat2Z.inj_add, inject_Z_plus. reflexivity. Qed.
Lemma qn_S a : qn (S a) == qn a + 1.
Proof. unfold qn. rewrite Nat2Z.inj_succ. unfold Z.succ. rewrite inject_Z_plus. reflexivity. Qed.
Lemma qn_le a b : (a <= b)%nat -> qn a <= qn b.
Proof. intros H. unfold qn. rewrite <- Zle_Qle. lia. Qed.
Lemma qn_lt a b : (a < b)%nat -> qn a + 1 <= qn b.
Proof. intros H. rewrite <- qn_S. now apply qn_le. Qed.
Lemma qn_0 : qn 0 == 0. Proof. reflexivity. Qed.
Lemma qn_pos n : 0 <= qn n. Proof. rewrite <- qn_0. apply qn_le. lia. Qed.
Lemma qn_le_inv a b : qn a <= qn b -> (a <= b)%nat.
Proof. unfold qn. rewrite <- Zle_Qle. lia. Qed.
Lemma qn_lt_inv a b : qn a < qn b -> (a < b)%nat.
Proof. unfold qn. rewrite <- Zlt_Qlt. lia. Qed.
Opaque qn.

Lemma floor_of x : 0 <= x -> exists f, Qfloor x = Z.of_nat f /\ qn f <= x /\ x < qn f + 1.
Proof.
  intros H. assert (0 <= Qfloor x)%Z by (change 0%Z with (Qfloor 0); now apply Qfloor_resp_le). exists (Z.to_nat (Qfloor x)). rewrite Z2Nat.id by assumption. split; [reflexivity|].
  Transparent qn. unfold qn. rewrite Z2Nat.id by assumption. Opaque qn. split; [apply Qfloor_le|]. pose proof (Qlt_floor x) as L. rewrite inject_Z_plus in L. exact L.
Qed.
Lemma ceil_of x : 0 <= x -> exists g, Qceiling x = Z.of_nat g /\ x <= qn g /\ qn g - 1 < x.
Proof.
  intros H. assert (0 <= Qceiling x)%Z by (change 0%Z with (Qceiling 0); now apply Qceiling_resp_le). exists (Z.to_nat (Qceiling x)). rewrite Z2Nat.id by assumption. split; [reflexivity|].
  Transparent qn. unfold qn. rewrite Z2Nat.id by assumption. Opaque qn. split; [apply Qle_ceiling|]. pose proof (Qceiling_lt x) as L. unfold Zminus in L. rewrite inject_Z_plus in L. exact L.
Qed.

Lemma upd_some {X} (d : X) f : forall l i, (i < List.length l)%nat -> exists l', upd l i f = Some l' /\ List.length l' = List.length l /\ forall k, nth k l' d = if (k =? i)%nat then f (nth k l d) else nth k l d.
Proof.
  induction l as [|x l IH]; intros i H; [cbn in H; lia|]. destruct i as [|i].
  - exists (f x :: l). repeat split. intros [|k]; reflexivity.
  - destruct (IH i) as (l' & E & L & N); [cbn in H; lia|]. exists (x :: l'). cbn [upd]. rewrite E. split; [reflexivity|]. split; [cbn; now rewrite L|]. intros [|k]; [reflexivity|]. cbn [nth Nat.eqb]. apply N.
Qed.

Section Deposit.
  Variable sqf : Q -> Q.
  Notation E := (exact sqf).
  Definition adds (l l' : list Q) (g : nat -> Q) : Prop := List.length l' = List.length l /\ forall k, nth k l' 0 == nth k l 0 + g k.
  Lemma adds_trans l1 l2 l3 g h k : adds l1 l2 g -> adds l2 l3 h -> (forall n, k n == g n + h n) -> adds l1 l3 k.
  Proof. intros [L1 H1] [L2 H2] H. split; [congruence|]. intros n. rewrite H2, H1, H. ring. Qed.
  Lemma adds_ext l1 l2 g h : adds l1 l2 g -> (forall n, h n == g n) -> adds l1 l2 h.
  Proof. intros [L H] K. split; [exact L|]. intros n. now rewrite H, K. Qed.
  Definition only (i : nat) (v : Q) (k : nat) : Q := if (k =? i)%nat then v else 0.
  Lemma bump_adds i (v : Q) (l : list Q) : (i < List.length l)%nat -> exists l' : list Q, bump E i v l = Some l' /\ adds l l' (only i v).
  Proof.
    intros H. destruct (upd_some 0 (fun a => a + v) l i H) as (l' & U & L & N). exists l'. split; [exact U|]. split; [exact L|]. intros k. rewrite N. unfold only. destruct (k =? i)%nat; [reflexivity|ring].
  Qed.
  Definition run_of (a n : nat) (v : Q) (k : nat) : Q := if (a <=? k)%nat && (k <? a + n)%nat then v else 0.
  Lemma run_adds start (v : Q) n : forall a (l : list Q), (start + a + n <= List.length l)%nat -> exists l' : list Q, fold_opt (fun (l : list Q) xi => bump E (start + xi) v l) (seq a n) l = Some l' /\ adds l l' (run_of (start + a) n v).
  Proof.
    induction n as [|n IH]; intros a l H; cbn [seq fold_opt].
    - exists l. split; [reflexivity|]. split; [reflexivity|]. intros k. unfold run_of. destruct (Nat.leb_spec (start + a) k), (Nat.ltb_spec k (start + a + 0)); cbn [andb]; try lia; ring.
    - destruct (bump_adds (start + a) v l) as (l1 & B & A1); [lia|]. rewrite B. cbn [bind]. destruct (IH (S a) l1) as (l2 & F2 & A2); [destruct A1 as [L _]; lia|].
      exists l2. split; [exact F2|]. apply (adds_trans _ _ _ _ _ _ A1 A2). intros k. unfold run_of, only.
      destruct (Nat.eqb_spec k (start + a)); destruct (Nat.leb_spec (start + a) k), (Nat.ltb_spec k (start + a + S n)), (Nat.leb_spec (start + S a) k), (Nat.ltb_spec k (start + S a + n)); cbn [andb]; try lia; ring.
  Qed.

  (* how much the column k counts beyond the column before it *)
  Definition gain (d xa xb : Q) (start k : nat) : Q := if (k <? start)%nat then 0 else d * (share (qn (k - start) + 1) xa xb - share (qn (k - start)) xa xb).
  Lemma deposit_adds w start (d xc xnc : Q) (l : list Q) : 0 <= xc -> xc <= qn w -> 0 <= xnc -> xnc <= qn w -> (start + w + 1 < List.length l)%nat ->
    exists l' xa xb, deposit E start d xc xnc l = Some l' /\ (xa == xc /\ xb == xnc \/ xa == xnc /\ xb == xc) /\ xa <= xb /\ adds l l' (gain d xa xb start).
  Proof.
    intros H1 H2 H3 H4 HL. unfold deposit. cbn [num lt E].
    set (ab := if qlt xc xnc then (xc, xnc) else (xnc, xc)).
    assert (Hab : exists xa xb, ab = (xa, xb) /\ (xa == xc /\ xb == xnc \/ xa == xnc /\ xb == xc) /\ xa <= xb /\ xc + xnc == xa + xb /\ 0 <= xa /\ xb <= qn w).
    { unfold ab, qlt. destruct (Qle_bool xnc xc) eqn:Q.
      - apply Qle_bool_iff in Q. exists xnc, xc. cbn [negb]. split; [reflexivity|]. split; [right; split; reflexivity|]. split; [assumption|]; split; [ring|]; split; assumption.
      - assert (Q' : xc <= xnc) by (destruct (Qlt_le_dec xnc xc) as [K|K]; [apply Qlt_le_weak in K; apply Qle_bool_iff in K; congruence|exact K]). exists xc, xnc. cbn [negb]. split; [reflexivity|]. split; [left; split; reflexivity|]. split; [assumption|]; split; [reflexivity|]; split; assumption. }
    destruct Hab as (xa & xb & -> & HE & Hle & Hsum & Ha & Hb).
    destruct (floor_of xa Ha) as (f & Ef & F1 & F2). destruct (ceil_of xb) as (g & Eg & G1 & G2); [lra|].
    cbn [floor_ ceil_ to_usize E cst sub add mul div of_usize]. rewrite Ef, Eg, !Qfloor_Z, !Nat2Z.id.
    change (inject_Z (Z.of_nat f)) with (qn f). change (inject_Z (Z.of_nat g)) with (qn g).
    assert (Lf : (f <= w)%nat) by (apply qn_le_inv; lra). assert (Lg : (g <= w)%nat) by (destruct (Nat.le_gt_cases g w) as [K|K]; [exact K|]; apply qn_lt in K; lra).
    (* the columns of a position in the buffer *)
    assert (Low : forall c, (c < f)%nat -> share (qn c + 1) xa xb - share (qn c) xa xb == 0).
    { intros c K. apply qn_lt in K. rewrite !share_none by lra. ring. }
    assert (High : forall c, (g < c)%nat -> share (qn c + 1) xa xb - share (qn c) xa xb == 0).
    { intros c K. apply qn_lt in K. rewrite !share_whole by lra. ring. }
    destruct (Nat.leb_spec g (f + 1)) as [C|C].
    - (* one column *)
      assert (B : xb <= qn f + 1) by (apply qn_le in C; rewrite qn_add in C; change (qn 1) with 1 in C; lra).
      destruct (bump_adds (start + f) (d * (1 - ((1 # 2) * (xc + xnc) - qn f))) l) as (l1 & B1 & A1); [lia|]. cbn [num E] in *. rewrite B1. cbn [bind].
      destruct (bump_adds (start + f + 1) (d * ((1 # 2) * (xc + xnc) - qn f)) l1) as (l2 & B2 & A2); [destruct A1 as [L _]; lia|]. rewrite B2.
      exists l2, xa, xb. split; [reflexivity|]. split; [exact HE|]. split; [exact Hle|]. apply (adds_trans _ _ _ _ _ _ A1 A2). intros k. unfold gain, only.
      destruct (Nat.ltb_spec k start) as [K|K]; [destruct (Nat.eqb_spec k (start + f)), (Nat.eqb_spec k (start + f + 1)); try lia; ring|].
      destruct (Nat.eqb_spec k (start + f)) as [K1|K1].
      + subst k. replace (start + f - start)%nat with f by lia. destruct (Nat.eqb_spec (start + f) (start + f + 1)); [lia|]. rewrite Hsum. rewrite (share_in (qn f + 1)) by lra. rewrite (share_none (qn f)) by lra. field.
      + destruct (Nat.eqb_spec k (start + f + 1)) as [K2|K2].
        * subst k. replace (start + f + 1 - start)%nat with (f + 1)%nat by lia. rewrite !qn_add. change (qn 1) with 1. rewrite (share_whole (qn f + 1 + 1)) by lra. rewrite (share_in (qn f + 1)) by lra. rewrite Hsum. field.
        * destruct (Nat.lt_ge_cases (k - start) f) as [M|M]; [rewrite (Low _ M); ring|]. destruct (Nat.lt_ge_cases g (k - start)) as [M2|M2]; [rewrite (High _ M2); ring|lia].
    - (* several columns *)
      assert (S1 : qn f + 1 < xb) by (apply qn_lt in C; rewrite qn_add in C; change (qn 1) with 1 in C; lra).
      assert (Nz : ~ xb - xa == 0) by lra.
      set (s := 1 / (xb - xa)). set (x0f := xa - qn f). set (x1f := xb - qn g + 1).
      set (am := (1 # 2) * s * (1 - x0f) * (1 - x0f)). set (bm := (1 # 2) * s * x1f * x1f).
      assert (Sl : forall e, share e xa xb == s * (ramp (e - xa) - ramp (e - xb))) by (intros e; rewrite share_slope by lra; unfold s; field; exact Nz).
      (* the values of the share *)
      assert (V0 : share (qn f + 1) xa xb == am) by (rewrite Sl, ramp_mid, ramp_lo by lra; unfold am, x0f; ring).
      assert (V1 : forall e, qn f + 2 <= e -> e <= qn g - 1 -> share e xa xb == s * (e - xa - (1 # 2))) by (intros e K1 K2; rewrite Sl, ramp_hi, ramp_lo by lra; ring).
      assert (V2 : share (qn g) xa xb == 1 - bm).
      { assert (Q : qn f + 2 <= qn g) by (apply qn_le in C; rewrite !qn_S, !qn_add in C; change (qn 1) with 1 in C; lra). rewrite Sl, ramp_hi, ramp_mid by lra. unfold bm, x1f. unfold s. field. exact Nz. }
      assert (V3 : share (qn g + 1) xa xb == 1) by (apply share_whole; lra).
      assert (V4 : share (qn f) xa xb == 0) by (apply share_none; lra).
      destruct (bump_adds (start + f) (d * am) l) as (l1 & B1 & A1); [lia|]. cbn [num E] in *. rewrite B1. cbn [bind].
      assert (Mid : exists l2 h, (if (g =? f + 2)%nat then bump E (start + f + 1) (d * (1 - am - bm)) l1
          else bind (bump E (start + f + 1) (d * (s * ((3 # 2) - x0f) - am)) l1) (fun l0 =>
               bind (fold_opt (fun l0 xi => bump E (start + xi) (d * s) l0) (seq (f + 2) (g - 1 - (f + 2))) l0) (fun l0 =>
               bump E (start + g - 1) (d * (1 - (s * ((3 # 2) - x0f) + (qn (g - f) - 3) * s) - bm)) l0))) = Some l2 /\ adds l1 l2 h /\
          (forall k, h k == if ((start + f <? k) && (k <? start + g))%nat then d * (share (qn (k - start) + 1) xa xb - share (qn (k - start)) xa xb) else 0)).
      { destruct (Nat.eqb_spec g (f + 2)) as [D|D].
        - destruct (bump_adds (start + f + 1) (d * (1 - am - bm)) l1) as (l2 & B2 & A2); [destruct A1 as [L _]; lia|]. exists l2, (only (start + f + 1) (d * (1 - am - bm))). split; [exact B2|]. split; [exact A2|].
          intros k. unfold only. destruct (Nat.eqb_spec k (start + f + 1)) as [K|K].
          + subst k. destruct (Nat.ltb_spec (start + f) (start + f + 1)), (Nat.ltb_spec (start + f + 1) (start + g)); cbn [andb]; try lia. replace (start + f + 1 - start)%nat with (f + 1)%nat by lia.
            assert (Q : qn g == qn (f + 1) + 1) by (rewrite D, !qn_add; change (qn 1) with 1; change (qn 2) with 2; ring). rewrite <- Q, V2. rewrite qn_add. change (qn 1) with 1. rewrite V0. ring.
          + destruct (Nat.ltb_spec (start + f) k), (Nat.ltb_spec k (start + g)); cbn [andb]; try lia; reflexivity.
        - assert (D3 : (f + 3 <= g)%nat) by lia.
          destruct (bump_adds (start + f + 1) (d * (s * ((3 # 2) - x0f) - am)) l1) as (l2 & B2 & A2); [destruct A1 as [L _]; lia|]. rewrite B2. cbn [bind].
          destruct (run_adds start (d * s) (g - 1 - (f + 2)) (f + 2) l2) as (l3 & B3 & A3); [destruct A1 as [L _], A2 as [L' _]; lia|]. cbn [num E] in *. rewrite B3. cbn [bind].
          destruct (bump_adds (start + g - 1) (d * (1 - (s * ((3 # 2) - x0f) + (qn (g - f) - 3) * s) - bm)) l3) as (l4 & B4 & A4); [destruct A1 as [L _], A2 as [L' _], A3 as [L'' _]; lia|].
          exists l4. eexists. split; [exact B4|]. split; [apply (adds_trans _ _ _ _ _ _ (adds_trans _ _ _ _ _ _ A2 A3 (fun n => Qeq_refl _)) A4 (fun n => Qeq_refl _))|].
          intros k. cbv beta. unfold only, run_of.
          assert (G3 : qn f + 3 <= qn g) by (apply qn_le in D3; rewrite qn_add in D3; change (qn 3) with 3 in D3; exact D3).
          destruct (Nat.ltb_spec (start + f) k) as [K1|K1]; destruct (Nat.ltb_spec k (start + g)) as [K2|K2]; cbn [andb].
          2,3,4: destruct (Nat.eqb_spec k (start + f + 1)), (Nat.eqb_spec k (start + g - 1)), (Nat.leb_spec (start + (f + 2)) k), (Nat.ltb_spec k (start + (f + 2) + (g - 1 - (f + 2)))); cbn [andb]; try lia; ring.
          set (c := (k - start)%nat). assert (Hc : k = (start + c)%nat) by lia.
          destruct (Nat.eqb_spec k (start + f + 1)) as [M1|M1].
          + destruct (Nat.eqb_spec k (start + g - 1)), (Nat.leb_spec (start + (f + 2)) k), (Nat.ltb_spec k (start + (f + 2) + (g - 1 - (f + 2)))); cbn [andb]; try lia.
            all: assert (Q : qn c == qn f + 1) by (replace c with (f + 1)%nat by lia; rewrite qn_add; reflexivity); rewrite Q, V0, V1 by lra; unfold x0f; ring.
          + destruct (Nat.eqb_spec k (start + g - 1)) as [M2|M2].
            * destruct (Nat.leb_spec (start + (f + 2)) k), (Nat.ltb_spec k (start + (f + 2) + (g - 1 - (f + 2)))); cbn [andb]; try lia.
              assert (Q : qn g == qn c + 1) by (replace g with (c + 1)%nat at 1 by lia; rewrite qn_add; reflexivity). assert (Q2 : qn (g - f) == qn g - qn f) by (replace g with (f + (g - f))%nat at 2 by lia; rewrite qn_add; ring).
              rewrite <- Q, V2, V1 by lra. rewrite Q2. assert (Q3 : qn c == qn g - 1) by lra. rewrite Q3. unfold x0f. ring.
            * destruct (Nat.leb_spec (start + (f + 2)) k), (Nat.ltb_spec k (start + (f + 2) + (g - 1 - (f + 2)))); cbn [andb]; try lia.
              assert (Q1 : qn f + 2 <= qn c) by (assert (K : (f + 2 <= c)%nat) by lia; apply qn_le in K; rewrite qn_add in K; exact K).
              assert (Q2 : qn c + 1 <= qn g - 1) by (assert (K : (c + 2 <= g)%nat) by lia; apply qn_le in K; rewrite qn_add in K; change (qn 2) with 2 in K; lra).
              rewrite !V1 by lra. ring. }
      destruct Mid as (l2 & h & B2 & A2 & Hh). match goal with |- context [bind ?M (bump _ (start + g) _)] => replace M with (Some l2) by (symmetry; exact B2) end. cbn [bind].
      destruct (bump_adds (start + g) (d * bm) l2) as (l3 & B3 & A3); [destruct A1 as [L _], A2 as [L' _]; lia|]. rewrite B3. exists l3, xa, xb. split; [reflexivity|]. split; [exact HE|]. split; [exact Hle|].
      apply (adds_trans _ _ _ _ _ _ (adds_trans _ _ _ _ _ _ A1 A2 (fun n => Qeq_refl _)) A3). intros k. rewrite Hh. unfold gain, only.
      destruct (Nat.ltb_spec k start) as [K|K].
      { destruct (Nat.eqb_spec k (start + f)), (Nat.eqb_spec k (start + g)), (Nat.ltb_spec (start + f) k), (Nat.ltb_spec k (start + g)); cbn [andb]; try lia; ring. }
      set (c := (k - start)%nat). assert (Hc : k = (start + c)%nat) by lia.
      destruct (Nat.eqb_spec k (start + f)) as [M1|M1].
      { destruct (Nat.eqb_spec k (start + g)), (Nat.ltb_spec (start + f) k), (Nat.ltb_spec k (start + g)); cbn [andb]; try lia. replace c with f by lia. rewrite V0, V4. ring. }
      destruct (Nat.eqb_spec k (start + g)) as [M2|M2].
      { destruct (Nat.ltb_spec (start + f) k), (Nat.ltb_spec k (start + g)); cbn [andb]; try lia. replace c with g by lia. rewrite V3, V2. ring. }
      destruct (Nat.ltb_spec (start + f) k), (Nat.ltb_spec k (start + g)); cbn [andb]; try lia.
      + ring.
      + rewrite High by lia. ring.
      + rewrite Low by lia. ring.
  Qed.
End Deposit.
Close Scope Q_scope.
