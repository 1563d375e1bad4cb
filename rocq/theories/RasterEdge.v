(* One edge sweeps, in every pixel, the area right of it. *)
From Coq Require Import Qround Qminmax.
From Verif Require Import Base FloatModel RasterModel RasterSpec RasterShare RasterDeposit RasterLine.
Open Scope Q_scope.

Definition level (Y : nat) (t : Q) : Q := unit_clamp (t - qn Y).
Lemma max_cases a b : (b <= a /\ Qmax a b == a) \/ (a < b /\ Qmax a b == b).
Proof. destruct (Qlt_le_dec a b) as [L|L]; [right|left]; (split; [exact L|]); [apply Q.max_r|apply Q.max_l]; lra. Qed.
Lemma min_cases a b : (a <= b /\ Qmin a b == a) \/ (b < a /\ Qmin a b == b).
Proof. destruct (Qlt_le_dec b a) as [L|L]; [right|left]; (split; [exact L|]); [apply Q.min_r|apply Q.min_l]; lra. Qed.
Lemma unit_cases u : (u <= 0 /\ unit_clamp u == 0) \/ (0 <= u /\ u <= 1 /\ unit_clamp u == u) \/ (1 <= u /\ unit_clamp u == 1).
Proof.
  destruct (Qlt_le_dec u 0); [left; split; [lra|apply unit_lo; lra]|]. destruct (Qlt_le_dec u 1); [right; left; repeat split; [lra|lra|apply unit_mid; lra]|right; right; split; [lra|apply unit_hi; lra]].
Qed.

Section Edge.
  Variable sqf : Q -> Q.
  Notation E := (exact sqf).
  Notation ras := (raster E).
  Notation wide := (wide sqf). Notation tall := (tall sqf). Notation cell := (cell sqf). Notation wf := (wf sqf). Notation spanned := (spanned sqf). Notation same_size := (same_size sqf).

  Definition gain_at (X : Q -> Q) (ya yb : Q) (c : nat) : Q := (yb - ya) * (hat (X ya) (X yb) (qn c + 1) - hat (X ya) (X yb) (qn c)).
  Lemma gain_wd X ya ya' yb yb' c : (forall s t, s == t -> X s == X t) -> ya == ya' -> yb == yb' -> gain_at X ya yb c == gain_at X ya' yb' c.
  Proof.
    intros W E1 E2. unfold gain_at. rewrite (hat_wd (X ya) (X ya') (X yb) (X yb') (qn c + 1) (qn c + 1)), (hat_wd (X ya) (X ya') (X yb) (X yb') (qn c) (qn c)) by (try reflexivity; apply W; assumption). now rewrite E1, E2.
  Qed.
  Lemma rows_fold dir dxdy yt yb X n : (forall s t, s == t -> X s == X t) -> (forall s t, X t == X s + dxdy * (t - s)) -> yt < yb -> forall y (x : Q) (r : ras),
    wf r -> spanned r -> (y + n <= tall r)%nat -> (forall t, yt <= t -> t <= yb -> 0 <= X t /\ X t <= qn (wide r)) ->
    (forall k, (y <= k < y + n)%nat -> qn k < yb /\ yt < qn k + 1) -> ((0 < n)%nat -> x == X (Qmax (qn y) yt)) ->
    exists x' r', fold_opt (row_step E dir dxdy yt yb) (seq y n) (x, r) = Some (x', r') /\ wf r' /\ spanned r' /\ same_size r r' /\
      forall Y c, (c < wide r + 2)%nat -> cell r' Y c == cell r Y c + if (y <=? Y)%nat && (Y <? y + n)%nat then dir * gain_at X (Qmax (qn Y) yt) (Qmin (qn Y + 1) yb) c else 0.
  Proof.
    intros W Lin Hyy. induction n as [|n IH]; intros y x r Hwf Hsp Hy HX Hk Hx; cbn [seq fold_opt].
    - exists x, r. split; [reflexivity|]. split; [exact Hwf|]. split; [exact Hsp|]. split; [split; reflexivity|]. intros Y c Hc. destruct (Nat.leb_spec y Y), (Nat.ltb_spec Y (y + 0)); cbn [andb]; try lia; ring.
    - specialize (Hx ltac:(lia)). set (ya := Qmax (qn y) yt). set (ye := Qmin (qn y + 1) yb). destruct (Hk y ltac:(lia)) as [K1 K2].
      assert (Ha : ya < ye).
      { unfold ya, ye. destruct (max_cases (qn y) yt) as [[? ->]|[? ->]], (min_cases (qn y + 1) yb) as [[? ->]|[? ->]]; lra. }
      assert (Ra : yt <= ya /\ ya <= yb) by (unfold ya; destruct (max_cases (qn y) yt) as [[? ->]|[? ->]]; lra).
      assert (Re : yt <= ye /\ ye <= yb) by (unfold ye; destruct (min_cases (qn y + 1) yb) as [[? ->]|[? ->]]; lra).
      assert (E1 : x + dxdy * (ye - ya) == X ye) by (rewrite Hx; symmetry; apply Lin).
      destruct (HX ya (proj1 Ra) (proj2 Ra)) as [B1 B2]. destruct (HX ye (proj1 Re) (proj2 Re)) as [B3 B4].
      destruct (one_row sqf dir dxdy yt yb x r y (ye - ya) Hwf Hsp ltac:(lia)) as (x1 & r1 & S1 & Ex1 & Hwf1 & Hsp1 & [Sz1 Sz2] & C1).
      + unfold ye, ya. apply Qplus_comp; [|reflexivity]. apply Q.min_compat; [|reflexivity]. now rewrite qn_add.
      + lra.
      + fold ya in Hx. lra.
      + fold ya in Hx. lra.
      + lra.
      + lra.
      + rewrite S1. cbn [bind]. destruct (IH (S y) x1 r1) as (x2 & r2 & S2 & Hwf2 & Hsp2 & [Sz3 Sz4] & C2); try assumption.
        * rewrite Sz2. lia.
        * rewrite Sz1. exact HX.
        * intros k Hkk. apply Hk. lia.
        * intros Hn. rewrite Ex1, E1. apply W.
          destruct (Hk (S y) ltac:(lia)) as [K3 K4]. rewrite qn_S in *. unfold ye. rewrite Q.min_l by lra. rewrite Q.max_l by lra. reflexivity.
        * exists x2, r2. split; [exact S2|]. split; [exact Hwf2|]. split; [exact Hsp2|]. split; [split; congruence|]. intros Y c Hc. rewrite C2 by (rewrite Sz1; exact Hc). rewrite (C1 Y c Hc).
          destruct (Nat.eqb_spec Y y) as [->|NY].
          { destruct (Nat.leb_spec (S y) y), (Nat.leb_spec y y), (Nat.ltb_spec y (y + S n)); cbn [andb]; try lia. unfold gain_at. fold ya ye.
            rewrite (hat_wd x (X ya) (x + dxdy * (ye - ya)) (X ye) (qn c + 1) (qn c + 1)), (hat_wd x (X ya) (x + dxdy * (ye - ya)) (X ye) (qn c) (qn c)) by (try reflexivity; assumption). ring. }
          destruct (Nat.leb_spec (S y) Y), (Nat.leb_spec y Y), (Nat.ltb_spec Y (S y + n)), (Nat.ltb_spec Y (y + S n)); cbn [andb]; try lia; ring.
  Qed.

  (* the area the part of a falling line within row Y leaves to its right *)
  Definition fall (X : Q -> Q) (top bot : Q) (Y c : nat) : Q :=
    let ya := Qmax (qn Y) top in let yb := Qmin (qn Y + 1) bot in if Qle_bool yb ya then 0 else gain_at X ya yb c.
  Definition down (r : ras) (dir x top_y bot_x bot_y : Q) : option ras :=
    if Qle_bool (bot_y - top_y) 0 then Some r
    else
      let dxdy := (bot_x - x) / (bot_y - top_y) in
      let '(x, y_top) := if qlt top_y 0 then (x + - top_y * dxdy, 0) else (x, top_y) in
      let y_bot := if Qle_bool bot_y (qn (tall r)) then bot_y else qn (tall r) in
      if Qle_bool y_bot y_top then Some r
      else
        let first_row := Z.to_nat (Qfloor (inject_Z (Qfloor y_top))) in
        let last_row := Nat.min (Z.to_nat (Qfloor (inject_Z (Qceiling y_bot)))) (tall r) in
        option_map snd (fold_opt (row_step E dir dxdy y_top y_bot) (seq first_row (last_row - first_row)) (x, r)).
  Lemma line_down r x0 y0 x1 y1 : line E r x0 y0 x1 y1 = if Qle_bool y0 y1 then down r 1 x0 y0 x1 y1 else down r (-1) x1 y1 x0 y0.
  Proof. unfold line. cbn [exact le]. destruct (Qle_bool y0 y1); reflexivity. Qed.

  Lemma down_effect (r : ras) dir x top bx bot : wf r -> spanned r -> top < bot -> 0 <= x -> x <= qn (wide r) -> 0 <= bx -> bx <= qn (wide r) ->
    exists r', down r dir x top bx bot = Some r' /\ wf r' /\ spanned r' /\ same_size r r' /\
      forall Y c, (Y < tall r)%nat -> (c < wide r + 2)%nat -> cell r' Y c == cell r Y c + dir * fall (fun t => x + (t - top) * ((bx - x) / (bot - top))) top bot Y c.
  Proof.
    intros Hwf Hsp Hlt X1 X2 X3 X4. set (dxdy := (bx - x) / (bot - top)). set (X := fun t => x + (t - top) * dxdy).
    assert (XW : forall s t, s == t -> X s == X t) by (intros s t H; unfold X; now rewrite H).
    assert (XL : forall s t, X t == X s + dxdy * (t - s)) by (intros s t; unfold X; ring).
    assert (XB : forall t, top <= t -> t <= bot -> 0 <= X t /\ X t <= qn (wide r)).
    { intros t T1 T2. set (l := (t - top) / (bot - top)). assert (Ht : 0 < bot - top) by lra.
      assert (L1 : 0 <= l) by (apply Qle_shift_div_l; [exact Ht|lra]). assert (L2 : l <= 1) by (apply Qle_shift_div_r; [exact Ht|lra]).
      assert (EX : X t == (1 - l) * x + l * bx) by (unfold X, l, dxdy; field; lra). rewrite EX.
      assert (P1 : 0 <= (1 - l) * x) by (apply Qmult_le_0_compat; lra). assert (P2 : 0 <= l * bx) by (apply Qmult_le_0_compat; lra).
      assert (P3 : 0 <= (1 - l) * (qn (wide r) - x)) by (apply Qmult_le_0_compat; lra). assert (P4 : 0 <= l * (qn (wide r) - bx)) by (apply Qmult_le_0_compat; lra). split; [lra|].
      assert (EQ : qn (wide r) - ((1 - l) * x + l * bx) == (1 - l) * (qn (wide r) - x) + l * (qn (wide r) - bx)) by ring. lra. }
    unfold down. rewrite (proj2 (qle_false (bot - top) 0)) by lra. fold dxdy. cbv zeta.
    set (yt := Qmax top 0). set (yb := Qmin bot (qn (tall r))).
    assert (Clip : exists x' yt' yb', (if qlt top 0 then (x + - top * dxdy, 0) else (x, top)) = (x', yt') /\ (if Qle_bool bot (qn (tall r)) then bot else qn (tall r)) = yb' /\ x' == X yt' /\ yt' == yt /\ yb' == yb).
    { unfold qlt, yt, yb. destruct (Qle_bool 0 top) eqn:B; cbn [negb]; [apply Qle_bool_iff in B|apply qle_false in B].
      - exists x, top. eexists. split; [reflexivity|]. split; [reflexivity|]. split; [unfold X; ring|]. split; [rewrite Q.max_l by lra; reflexivity|]. destruct (Qle_bool bot (qn (tall r))) eqn:B2; [apply Qle_bool_iff in B2; rewrite Q.min_l by lra; reflexivity|apply qle_false in B2; rewrite Q.min_r by lra; reflexivity].
      - exists (x + - top * dxdy), 0. eexists. split; [reflexivity|]. split; [reflexivity|]. split; [unfold X; ring|]. split; [rewrite Q.max_r by lra; reflexivity|]. destruct (Qle_bool bot (qn (tall r))) eqn:B2; [apply Qle_bool_iff in B2; rewrite Q.min_l by lra; reflexivity|apply qle_false in B2; rewrite Q.min_r by lra; reflexivity]. }
    destruct Clip as (x' & yt' & yb' & Ec & Eb & Ex' & Et' & Eb'). rewrite Ec, Eb. clear Ec Eb.
    assert (Pt : 0 <= yt /\ top <= yt) by (unfold yt; split; [apply Q.le_max_r|apply Q.le_max_l]). assert (Pb : yb <= bot /\ yb <= qn (tall r)) by (unfold yb; split; [apply Q.le_min_l|apply Q.le_min_r]).
    (* rows that the line does not cross *)
    assert (Out : forall Y c, (Y < tall r)%nat -> (qn Y + 1 <= yt' \/ yb' <= qn Y \/ yb' <= yt') -> fall X top bot Y c == 0).
    { intros Y c HY H. apply qn_lt in HY. assert (H0 := qn_pos Y). unfold fall. rewrite (proj2 (Qle_bool_iff _ _)); [reflexivity|]. rewrite Et', Eb' in H. unfold yt, yb in H.
      destruct (max_cases (qn Y) top) as [[? ->]|[? ->]], (min_cases (qn Y + 1) bot) as [[? ->]|[? ->]]; destruct (max_cases top 0) as [[? M]|[? M]], (min_cases bot (qn (tall r))) as [[? N]|[? N]]; rewrite ?M, ?N in H; destruct H as [H|[H|H]]; lra. }
    destruct (Qle_bool yb' yt') eqn:B.
    - apply Qle_bool_iff in B. exists r. split; [reflexivity|]. split; [exact Hwf|]. split; [exact Hsp|]. split; [split; reflexivity|]. intros Y c HY Hc. rewrite Out by (auto). ring.
    - apply qle_false in B. assert (Z1 : 0 <= yt') by lra. destruct (floor_of yt' Z1) as (f & Ef & F1 & F2). destruct (ceil_of yb') as (g & Eg & G1 & G2); [lra|]. rewrite Ef, Eg, !Qfloor_Z, !Nat2Z.id.
      assert (Lg : (g <= tall r)%nat) by (destruct (Nat.le_gt_cases g (tall r)) as [K|K]; [exact K|]; apply qn_lt in K; lra). rewrite Nat.min_l by exact Lg.
      assert (Lf : (f < g)%nat) by (apply qn_lt_inv; lra).
      destruct (rows_fold dir dxdy yt' yb' X (g - f) XW XL B f x' r Hwf Hsp) as (x2 & r2 & S2 & W2 & P2 & Sz & C2).
      + lia.
      + intros t T1 T2. apply XB; lra.
      + intros k Hk. assert (K1 : (k + 1 <= g)%nat) by lia. assert (K2 : (f <= k)%nat) by lia. apply qn_le in K1, K2. rewrite qn_add in K1. change (qn 1) with 1 in K1. split; lra.
      + intros _. rewrite Ex'. apply XW. rewrite Q.max_r by lra. reflexivity.
      + cbn [num exact] in *. rewrite S2. exists r2. split; [reflexivity|]. split; [exact W2|]. split; [exact P2|]. split; [exact Sz|]. intros Y c HY Hc. rewrite (C2 Y c Hc). apply Qplus_inj_l.
        destruct (Nat.leb_spec f Y) as [K1|K1], (Nat.ltb_spec Y (f + (g - f))) as [K2|K2]; cbn [andb].
        * apply Qmult_comp; [reflexivity|]. assert (K3 : (Y + 1 <= g)%nat) by lia. apply qn_le in K1, K3. rewrite qn_add in K3. change (qn 1) with 1 in K3. assert (H0 := qn_pos Y). assert (HT : qn Y + 1 <= qn (tall r)) by (now apply qn_lt).
          assert (M1 : Qmax (qn Y) yt' == Qmax (qn Y) top).
          { rewrite Et'. unfold yt. destruct (max_cases top 0) as [[? M]|[? M]]; rewrite M; [reflexivity|]. rewrite !Q.max_l by lra. reflexivity. }
          assert (M2 : Qmin (qn Y + 1) yb' == Qmin (qn Y + 1) bot).
          { rewrite Eb'. unfold yb. destruct (min_cases bot (qn (tall r))) as [[? M]|[? M]]; rewrite M; [reflexivity|]. rewrite !Q.min_l by lra. reflexivity. }
          unfold fall. rewrite (proj2 (qle_false _ _)).
          -- apply gain_wd; [exact XW|exact M1|exact M2].
          -- rewrite <- M1, <- M2. destruct (max_cases (qn Y) yt') as [[? ->]|[? ->]], (min_cases (qn Y + 1) yb') as [[? ->]|[? ->]]; lra.
        * rewrite Out; [ring|exact HY|]. right. left. assert (K3 : (g <= Y)%nat) by lia. apply qn_le in K3. lra.
        * rewrite Out; [ring|exact HY|]. left. apply qn_lt in K1. lra.
        * lia.
  Qed.

  Lemma fall_sum X top bot Y n : (forall t, top <= t -> t <= bot -> 0 <= X t) -> top < bot ->
    psum (fall X top bot Y) n == if Qle_bool (Qmin (qn Y + 1) bot) (Qmax (qn Y) top) then 0 else (Qmin (qn Y + 1) bot - Qmax (qn Y) top) * hat (X (Qmax (qn Y) top)) (X (Qmin (qn Y + 1) bot)) (qn n).
  Proof.
    intros HX Hlt. unfold fall. cbv zeta. destruct (Qle_bool (Qmin (qn Y + 1) bot) (Qmax (qn Y) top)) eqn:B; [apply psum_zero; intros; reflexivity|]. apply qle_false in B.
    unfold gain_at. rewrite hat_telescope. rewrite (hat_zero _ _ 0); [ring| |].
    - apply HX; [apply Q.le_max_r|]. apply (Qle_trans _ (Qmin (qn Y + 1) bot)); [lra|apply Q.le_min_r].
    - apply HX; [|apply Q.le_min_r]. apply (Qle_trans _ (Qmax (qn Y) top)); [apply Q.le_max_r|lra].
  Qed.
  Lemma fall_swept x top bx bot Y j : top < bot -> let X := fun t => x + (t - top) * ((bx - x) / (bot - top)) in (forall t, top <= t -> t <= bot -> 0 <= X t) ->
    swept (Z.of_nat j) (Z.of_nat Y) (x, top) (bx, bot) (psum (fall X top bot Y) (S j)).
  Proof.
    intros Hlt X HX. change (of_Z (Z.of_nat Y)) with (qn Y). rewrite <- (Nat.add_1_r j).
    set (ya := Qmax (qn Y) top). set (yb := Qmin (qn Y + 1) bot).
    assert (S := fall_sum X top bot Y (j + 1) HX Hlt). fold ya yb in S. destruct (Qle_bool yb ya) eqn:B.
    - apply Qle_bool_iff in B. apply sw_out; [|exact S]. right. cbn [snd]. change (of_Z (Z.of_nat Y)) with (qn Y). unfold ya, yb in B. destruct (max_cases (qn Y) top) as [[? M]|[? M]], (min_cases (qn Y + 1) bot) as [[? N]|[? N]]; rewrite M, N in B; (left; lra) || (right; lra).
    - apply qle_false in B. apply (sw_down _ _ (x, top) (bx, bot) ya yb (X ya) (X yb) (hat (X ya) (X yb) (qn (j + 1)))); cbn [fst snd]; change (of_Z (Z.of_nat Y)) with (qn Y).
      + exact Hlt.
      + exact B.
      + unfold ya. destruct (max_cases (qn Y) top) as [[? M]|[? M]]; rewrite M; (split; [lra|split; [lra|]]); [right|left]; reflexivity.
      + unfold yb. destruct (min_cases (qn Y + 1) bot) as [[? M]|[? M]]; rewrite M; (split; [lra|split; [lra|]]); [right|left]; reflexivity.
      + unfold at_height, X. cbn [fst snd]. field. lra.
      + unfold at_height, X. cbn [fst snd]. field. lra.
      + assert (K := hat_share (Z.of_nat j) (X ya) (X yb)). assert (Q : qn (j + 1) == of_Z (Z.of_nat j) + 1) by (rewrite qn_add; reflexivity).
        assert (W : forall a b v v', right_share (Z.of_nat j) a b v -> v' == v -> right_share (Z.of_nat j) a b v').
        { clear. intros a b v v' H E. destruct H as [a b v H L E0|a b v H L E0|a b v L1 H L2 E0|a c b u w v L1 L2 H1 H2 E0]; [apply rs_whole|apply rs_none|apply rs_trapezoid|apply (rs_cut _ a c b u w)]; auto; now rewrite E. }
        destruct K as [K|K]; [left|right]; apply (W _ _ _ _ K); apply hat_wd; try reflexivity; exact Q.
      + exact S.
  Qed.
  Lemma fall_level x top bx bot Y w : top < bot -> let X := fun t => x + (t - top) * ((bx - x) / (bot - top)) in (forall t, top <= t -> t <= bot -> 0 <= X t /\ X t <= qn w) ->
    psum (fall X top bot Y) (w + 2) == level Y bot - level Y top.
  Proof.
    intros Hlt X HX. rewrite fall_sum by (try exact Hlt; intros t T1 T2; now apply HX). unfold level.
    set (ya := Qmax (qn Y) top). set (yb := Qmin (qn Y + 1) bot). destruct (Qle_bool yb ya) eqn:B.
    - apply Qle_bool_iff in B. unfold ya, yb in B. destruct (max_cases (qn Y) top) as [[? M]|[? M]], (min_cases (qn Y + 1) bot) as [[? N]|[? N]]; rewrite M, N in B; destruct (unit_cases (bot - qn Y)) as [[? U]|[[? [? U]]|[? U]]], (unit_cases (top - qn Y)) as [[? V]|[[? [? V]]|[? V]]]; rewrite U, V; lra.
    - apply qle_false in B. assert (Q : qn (w + 2) == qn w + 2) by (rewrite qn_add; reflexivity).
      assert (R1 : top <= ya /\ ya <= bot) by (split; [apply Q.le_max_r|apply (Qle_trans _ yb); [lra|apply Q.le_min_r]]). assert (R2 : top <= yb /\ yb <= bot) by (split; [apply (Qle_trans _ ya); [apply Q.le_max_r|lra]|apply Q.le_min_r]).
      rewrite (hat_one (X ya) (X yb)) by (destruct (HX ya (proj1 R1) (proj2 R1)), (HX yb (proj1 R2) (proj2 R2)); lra).
      unfold ya, yb in *. destruct (max_cases (qn Y) top) as [[? M]|[? M]], (min_cases (qn Y + 1) bot) as [[? N]|[? N]]; rewrite M, N in *; destruct (unit_cases (bot - qn Y)) as [[? U]|[[? [? U]]|[? U]]], (unit_cases (top - qn Y)) as [[? V]|[[? [? V]]|[? V]]]; rewrite U, V; lra.
  Qed.
  Lemma level_wd Y s t : s == t -> level Y s == level Y t.
  Proof. intros H. unfold level. destruct (unit_cases (s - qn Y)) as [[? U]|[[? [? U]]|[? U]]], (unit_cases (t - qn Y)) as [[? V]|[[? [? V]]|[? V]]]; rewrite U, V; lra. Qed.

  Definition inside_x (r : ras) (p : pt) : Prop := 0 <= fst p /\ fst p <= qn (wide r).
  Definition effect (r r' : ras) (p q : pt) : Prop := same_size r r' /\
    (forall Y j, (Y < tall r)%nat -> (j < wide r + 2)%nat -> exists v, swept (Z.of_nat j) (Z.of_nat Y) p q v /\ psum (cell r' Y) (S j) == psum (cell r Y) (S j) + v) /\
    (forall Y, (Y < tall r)%nat -> psum (cell r' Y) (wide r + 2) == psum (cell r Y) (wide r + 2) + (level Y (snd q) - level Y (snd p))).
  Lemma between x top bx bot w : top < bot -> 0 <= x -> x <= w -> 0 <= bx -> bx <= w -> forall t, top <= t -> t <= bot -> 0 <= x + (t - top) * ((bx - x) / (bot - top)) /\ x + (t - top) * ((bx - x) / (bot - top)) <= w.
  Proof.
    intros Hlt X1 X2 X3 X4 t T1 T2. set (l := (t - top) / (bot - top)). assert (Ht : 0 < bot - top) by lra.
    assert (L1 : 0 <= l) by (apply Qle_shift_div_l; [exact Ht|lra]). assert (L2 : l <= 1) by (apply Qle_shift_div_r; [exact Ht|lra]).
    assert (EX : x + (t - top) * ((bx - x) / (bot - top)) == (1 - l) * x + l * bx) by (unfold l; field; lra). rewrite EX.
    assert (P1 : 0 <= (1 - l) * x) by (apply Qmult_le_0_compat; lra). assert (P2 : 0 <= l * bx) by (apply Qmult_le_0_compat; lra).
    assert (P3 : 0 <= (1 - l) * (w - x)) by (apply Qmult_le_0_compat; lra). assert (P4 : 0 <= l * (w - bx)) by (apply Qmult_le_0_compat; lra). split; [lra|].
    assert (EQ : w - ((1 - l) * x + l * bx) == (1 - l) * (w - x) + l * (w - bx)) by ring. lra.
  Qed.
  Lemma psum_scale d f n : psum (fun c => d * f c) n == d * psum f n.
  Proof. induction n as [|n IH]; cbn [psum]; [ring|]. rewrite IH. ring. Qed.
  Lemma psum_effect (r r' : ras) Y dir X top bot n : (n <= wide r + 2)%nat -> (forall c, (c < wide r + 2)%nat -> cell r' Y c == cell r Y c + dir * fall X top bot Y c) ->
    psum (cell r' Y) n == psum (cell r Y) n + dir * psum (fall X top bot Y) n.
  Proof. intros Hn H. rewrite (psum_ext (cell r' Y) (fun c => cell r Y c + dir * fall X top bot Y c)) by (intros k K; apply H; lia). rewrite psum_add, psum_scale. reflexivity. Qed.
  Lemma line_effect (r : ras) (p q : pt) : wf r -> spanned r -> inside_x r p -> inside_x r q ->
    exists r', line E r (fst p) (snd p) (fst q) (snd q) = Some r' /\ wf r' /\ spanned r' /\ effect r r' p q.
  Proof.
    destruct p as [x0 y0], q as [x1 y1]. unfold inside_x. cbn [fst snd]. intros Hwf Hsp [A1 A2] [B1 B2]. rewrite line_down. destruct (Qle_bool y0 y1) eqn:B.
    - apply Qle_bool_iff in B. destruct (Qlt_le_dec y0 y1) as [L|L].
      + destruct (down_effect r 1 x0 y0 x1 y1 Hwf Hsp L A1 A2 B1 B2) as (r' & D & W' & S' & Sz & C). exists r'. split; [exact D|]. split; [exact W'|]. split; [exact S'|].
        assert (BT := between x0 y0 x1 y1 _ L A1 A2 B1 B2). split; [exact Sz|]. split.
        * intros Y j HY Hj. eexists. split; [apply (fall_swept x0 y0 x1 y1 Y j L); intros t T1 T2; now apply BT|]. rewrite (psum_effect r r' Y 1 (fun t => x0 + (t - y0) * ((x1 - x0) / (y1 - y0))) y0 y1) by (try lia; intros c Hc; now apply C). ring.
        * intros Y HY. cbn [snd]. rewrite (psum_effect r r' Y 1 (fun t => x0 + (t - y0) * ((x1 - x0) / (y1 - y0))) y0 y1) by (try lia; intros c Hc; now apply C). rewrite (fall_level x0 y0 x1 y1 Y (wide r) L BT). ring.
      + assert (Eq : y0 == y1) by lra. exists r. unfold down. rewrite (proj2 (Qle_bool_iff (y1 - y0) 0)) by lra. split; [reflexivity|]. split; [exact Hwf|]. split; [exact Hsp|]. split; [split; reflexivity|]. split.
        * intros Y j HY Hj. exists 0. split; [apply sw_out; [left; exact Eq|reflexivity]|ring].
        * intros Y HY. cbn [snd]. rewrite (level_wd Y y0 y1 Eq). ring.
    - apply qle_false in B. destruct (down_effect r (-1) x1 y1 x0 y0 Hwf Hsp B B1 B2 A1 A2) as (r' & D & W' & S' & Sz & C). exists r'. split; [exact D|]. split; [exact W'|]. split; [exact S'|].
      assert (BT := between x1 y1 x0 y0 _ B B1 B2 A1 A2). split; [exact Sz|]. split.
      + intros Y j HY Hj. exists (- psum (fall (fun t => x1 + (t - y1) * ((x0 - x1) / (y0 - y1))) y1 y0 Y) (S j)). split.
        * eapply sw_up; [exact B|apply (fall_swept x1 y1 x0 y0 Y j B); intros t T1 T2; now apply BT|reflexivity].
        * rewrite (psum_effect r r' Y (-1) (fun t => x1 + (t - y1) * ((x0 - x1) / (y0 - y1))) y1 y0) by (try lia; intros c Hc; now apply C). ring.
      + intros Y HY. cbn [snd]. rewrite (psum_effect r r' Y (-1) (fun t => x1 + (t - y1) * ((x0 - x1) / (y0 - y1))) y1 y0) by (try lia; intros c Hc; now apply C). rewrite (fall_level x1 y1 x0 y0 Y (wide r) B BT). ring.
  Qed.
End Edge.
Close Scope Q_scope.
