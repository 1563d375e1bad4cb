(* What holds of the floats: no call leaves the buffer, whatever it is given. *)
From Coq Require Import Qround.
From Verif Require Import Base FloatModel FloatSpec FloatProofs FloatProps RasterModel RasterSpec RasterShare RasterDeposit RasterLine.
Open Scope Q_scope.

Section Safe.
  Variable sq : float -> float.
  Notation S1 := (single sq).
  Notation ras := (raster S1).
  Definition sized (r : ras) : Prop :=
    (Z.of_nat (width S1 r) < 2 ^ 24)%Z /\ List.length (acc S1 r) = ((width S1 r + 2) * Nat.max (height S1 r) 1)%nat /\
    List.length (row_min S1 r) = Nat.max (height S1 r) 1 /\ List.length (row_max S1 r) = Nat.max (height S1 r) 1.
  Definition alike_size (r r' : ras) : Prop := width S1 r' = width S1 r /\ height S1 r' = height S1 r.
  Lemma upd_len {X} (f : X -> X) : forall l i, (i < List.length l)%nat -> exists l', upd l i f = Some l' /\ List.length l' = List.length l.
  Proof.
    induction l as [|x l IH]; intros i H; [cbn in H; lia|]. destruct i as [|i]; cbn [upd].
    - eexists. split; reflexivity.
    - destruct (IH i) as (l' & E & L); [cbn in H; lia|]. rewrite E. cbn [bind]. eexists. split; [reflexivity|]. cbn. now rewrite L.
  Qed.
  Lemma bump_len i v (l : list float) : (i < List.length l)%nat -> exists l', bump S1 i v l = Some l' /\ List.length l' = List.length l.
  Proof. apply upd_len. Qed.
  (* positions after clamping *)
  Definition in_range (w : nat) (c : float) : Prop := c = NaN \/ exists q, c = Fin q /\ 0 <= q /\ q <= inject_Z (Z.of_nat w).
  Lemma width_exact w : (Z.of_nat w < 2 ^ 24)%Z -> exists v, of_usize S1 w = Fin v /\ v == inject_Z (Z.of_nat w).
  Proof. intros H. cbn [single of_usize]. apply integers_exact; [apply formats_valid|cbn; lia|cbn [f32 fm_prec]; lia|cbn; lia]. Qed.
  Lemma clamp_range w x : (Z.of_nat w < 2 ^ 24)%Z -> in_range w (clamp S1 (cst S1 0) (of_usize S1 w) x).
  Proof.
    intros H. destruct (width_exact w H) as (v & Ev & Vv). unfold clamp. rewrite Ev. change (cst S1 0) with (Fin 0). assert (P : 0 <= inject_Z (Z.of_nat w)) by (change 0 with (inject_Z 0); rewrite <- Zle_Qle; lia).
    assert (R0 : in_range w (Fin 0)) by (right; exists 0; split; [reflexivity|split; [apply Qle_refl|exact P]]). assert (Rv : in_range w (Fin v)) by (right; exists v; split; [reflexivity|split; lra]).
    cbn [single lt]. unfold f_lt. destruct x as [|[|]|q]; cbn [f_le andb negb]; try assumption; [now left|].
    destruct (Qle_bool q 0 && negb (Qle_bool 0 q)) eqn:A; [exact R0|]. destruct (Qle_bool v q && negb (Qle_bool q v)) eqn:B; [exact Rv|].
    right. exists q. split; [reflexivity|]. split.
    - destruct (Qle_bool 0 q) eqn:C; [now apply Qle_bool_iff|]. apply qle_false in C. rewrite (proj2 (Qle_bool_iff q 0)) in A by lra. discriminate.
    - destruct (Qle_bool q v) eqn:C; [apply Qle_bool_iff in C; lra|]. apply qle_false in C. rewrite (proj2 (Qle_bool_iff v q)) in B by lra. discriminate.
  Qed.
  Lemma index_int z w : (0 <= z)%Z -> (z <= Z.of_nat w)%Z -> (to_usize S1 (Fin (inject_Z z)) <= w)%nat.
  Proof. intros A B. cbn [single to_usize f_to_Z inject_Z Qnum Qden]. rewrite Z.quot_1_r. lia. Qed.
  Lemma index_floor w c : in_range w c -> (to_usize S1 (floor_ S1 c) <= w)%nat.
  Proof.
    intros [->|(q & -> & A & B)]; [cbn; lia|]. cbn [single floor_ f_floor]. apply index_int; [apply (Qfloor_resp_le 0 q A)|]. apply Qfloor_resp_le in B. now rewrite Qfloor_Z in B.
  Qed.
  Lemma index_ceil w c : in_range w c -> (to_usize S1 (ceil_ S1 c) <= w)%nat.
  Proof.
    intros [->|(q & -> & A & B)]; [cbn; lia|]. cbn [single ceil_ f_ceil]. apply index_int; [apply (Qceiling_resp_le 0 q A)|]. apply Qceiling_resp_le in B. now rewrite Qceiling_Z in B.
  Qed.
  Lemma run_len (d : float) start (idx : list nat) : forall l : list float, (forall i, In i idx -> (start + i < List.length l)%nat) -> exists l', fold_opt (fun l xi => bump S1 (start + xi) d l) idx l = Some l' /\ List.length l' = List.length l.
  Proof.
    induction idx as [|i idx IH]; intros l H; cbn [fold_opt]; [now exists l|]. destruct (bump_len (start + i) d l) as (l1 & E1 & L1); [apply H; now left|]. rewrite E1. cbn [bind]. cbn [num single] in *.
    destruct (IH l1) as (l2 & E2 & L2); [intros k I; rewrite L1; apply H; now right|]. exists l2. split; [exact E2|congruence].
  Qed.
  Lemma deposit_len start (d xc xnc : num S1) w (l : list (num S1)) : (start + w + 1 < List.length l)%nat -> in_range w xc -> in_range w xnc -> exists l', deposit S1 start d xc xnc l = Some l' /\ List.length l' = List.length l.
  Proof.
    intros H Rc Rn. unfold deposit. set (ab := if lt S1 xc xnc then (xc, xnc) else (xnc, xc)).
    assert (Ra : in_range w (fst ab) /\ in_range w (snd ab)) by (unfold ab; destruct (lt S1 xc xnc); split; assumption). destruct ab as [xa xb]. cbn [fst snd] in Ra. destruct Ra as [Ra Rb]. cbv zeta.
    assert (I0 := index_floor w xa Ra). assert (I1 := index_ceil w xb Rb). set (x0 := to_usize S1 (floor_ S1 xa)) in *. set (x1 := to_usize S1 (ceil_ S1 xb)) in *. clearbody x0 x1.
    assert (B2 : forall i v (l : list (num S1)), (i < List.length l)%nat -> exists l', bump S1 i v l = Some l' /\ List.length l' = List.length l) by exact bump_len.
    destruct (Nat.leb_spec x1 (x0 + 1)) as [C|C].
    - match goal with |- context [bump S1 (start + x0) ?v l] => destruct (B2 (start + x0)%nat v l ltac:(lia)) as (l1 & E1 & L1) end. rewrite E1. cbn [bind]. rewrite <- L1 in H |- *. apply B2. lia.
    - match goal with |- context [bump S1 (start + x0) ?v l] => destruct (B2 (start + x0)%nat v l ltac:(lia)) as (l1 & E1 & L1) end. rewrite E1. cbn [bind].
      match goal with |- context [bind (if (x1 =? x0 + 2)%nat then ?A else ?B) _] => assert (M : exists l2, (if (x1 =? x0 + 2)%nat then A else B) = Some l2 /\ List.length l2 = List.length l) end.
      { destruct (Nat.eqb_spec x1 (x0 + 2)).
        - match goal with |- context [bump S1 ?i ?v l1] => destruct (B2 i v l1 ltac:(lia)) as (l2 & E2 & L2) end. rewrite E2. exists l2. split; [reflexivity|congruence].
        - match goal with |- context [bump S1 ?i ?v l1] => destruct (B2 i v l1 ltac:(lia)) as (l2 & E2 & L2) end. rewrite E2. cbn [bind].
          match goal with |- context [fold_opt (fun l0 xi => bump S1 (start + xi) ?v l0) ?ix l2] => destruct (run_len v start ix l2) as (l3 & E3 & L3) end.
          { intros i I. apply in_seq in I. change (@List.length float l2) with (@List.length (num S1) l2). lia. }
          cbn [num single] in *. rewrite E3. cbn [bind]. match goal with |- context [bump S1 ?i ?v l3] => destruct (B2 i v l3) as (l4 & E4 & L4) end; [cbn [num single] in *; lia|]. cbn [num single] in *. rewrite E4. exists l4. split; [reflexivity|congruence]. }
      destruct M as (l2 & E2 & L2). rewrite E2. cbn [bind]. rewrite <- L2 in H |- *. apply B2. lia.
  Qed.
  Lemma row_step_safe dir dxdy yt yb x (r : ras) y : sized r -> (y < height S1 r)%nat -> exists x' r', row_step S1 dir dxdy yt yb (x, r) y = Some (x', r') /\ sized r' /\ alike_size r r'.
  Proof.
    intros (Hw & La & Lm & Lx) Hy. unfold row_step. set (dy := sub S1 _ _). destruct (le S1 dy (cst S1 0)); [exists x, r; split; [reflexivity|]; split; [now split|split; reflexivity]|].
    cbv zeta. set (xn := add S1 x _). set (xc := clamp S1 (cst S1 0) (of_usize S1 (width S1 r)) x). set (xnc := clamp S1 (cst S1 0) (of_usize S1 (width S1 r)) xn).
    assert (Rc : in_range (width S1 r) xc) by now apply clamp_range. assert (Rn : in_range (width S1 r) xnc) by now apply clamp_range. destruct (if lt S1 xc xnc then (xc, xnc) else (xnc, xc)) as [xa xb].
    set (f := fun m => Nat.min m _). set (g := fun m => Nat.max m _).
    destruct (upd_len f (row_min S1 r) y ltac:(lia)) as (mn & E1 & L1). destruct (upd_len g (row_max S1 r) y ltac:(lia)) as (mx & E2 & L2). rewrite E1, E2. cbn [bind].
    assert (Q : (y * stride S1 r + width S1 r + 1 < List.length (acc S1 r))%nat).
    { rewrite La. unfold stride. assert (K : (y + 1 <= Nat.max (height S1 r) 1)%nat) by lia. apply (Nat.mul_le_mono_r _ _ (width S1 r + 2)) in K. rewrite (Nat.mul_comm (width S1 r + 2)). lia. }
    destruct (deposit_len (y * stride S1 r) (mul S1 dy dir) xc xnc (width S1 r) (acc S1 r) Q Rc Rn) as (l' & E3 & L3). rewrite E3. cbn [bind]. eexists. eexists. split; [reflexivity|]. split; [|split; reflexivity].
    unfold sized. cbn [width height acc row_min row_max]. cbn [num single] in *. rewrite L1, L2, L3. split; [exact Hw|]. split; [exact La|]. split; assumption.
  Qed.
  Lemma alike_trans r1 r2 r3 : alike_size r1 r2 -> alike_size r2 r3 -> alike_size r1 r3.
  Proof. intros [A B] [C D]. split; congruence. Qed.
  Lemma rows_safe dir dxdy yt yb ys : forall x (r : ras), sized r -> (forall y, In y ys -> (y < height S1 r)%nat) -> exists x' r', fold_opt (row_step S1 dir dxdy yt yb) ys (x, r) = Some (x', r') /\ sized r' /\ alike_size r r'.
  Proof.
    induction ys as [|y ys IH]; intros x r Z H; cbn [fold_opt].
    - exists x, r. split; [reflexivity|]. split; [exact Z|split; reflexivity].
    - destruct (row_step_safe dir dxdy yt yb x r y Z (H y (or_introl eq_refl))) as (x1 & r1 & E1 & Z1 & A1). cbn [num single] in *. rewrite E1. cbn [bind]. destruct (IH x1 r1 Z1) as (x2 & r2 & E2 & Z2 & A2); [intros k I; rewrite (proj2 A1); apply H; now right|].
      exists x2, r2. split; [exact E2|]. split; [exact Z2|]. exact (alike_trans _ _ _ A1 A2).
  Qed.
  (* any floats at all *)
  Lemma line_safe (r : ras) x0 y0 x1 y1 : sized r -> exists r', line S1 r x0 y0 x1 y1 = Some r' /\ sized r' /\ alike_size r r'.
  Proof.
    intros Z. unfold line. assert (Same : exists r', Some r = Some r' /\ sized r' /\ alike_size r r') by (exists r; split; [reflexivity|split; [exact Z|split; reflexivity]]).
    destruct (if le S1 y0 y1 then _ else _) as [[[[dir x] ty] bx] by_]. destruct (le S1 (sub S1 by_ ty) (cst S1 0)); [exact Same|]. cbv zeta.
    destruct (if lt S1 ty (cst S1 0) then _ else _) as [x' yt]. destruct (le S1 _ yt); [exact Same|].
    match goal with |- context [fold_opt ?f ?ys ?s] => destruct (rows_safe dir (div S1 (sub S1 bx x) (sub S1 by_ ty)) yt (min_ S1 by_ (of_usize S1 (height S1 r))) ys x' r Z) as (x2 & r2 & E2 & Z2 & A2) end.
    - intros y I. apply in_seq in I. match type of I with context [Nat.min ?a ?b] => assert (Q := Nat.le_min_r a b) end. lia.
    - cbn [num single] in *. rewrite E2. exists r2. split; [reflexivity|]. split; assumption.
  Qed.
  Lemma chords_safe f n p0 (r : ras) : sized r -> exists r', chords S1 f n p0 r = Some r' /\ sized r' /\ alike_size r r'.
  Proof.
    intros Z. unfold chords. revert p0 r Z. induction (seq 1 n) as [|i l IH]; intros p0 r Z; cbn [fold_opt].
    - exists r. split; [reflexivity|]. split; [exact Z|split; reflexivity].
    - destruct p0 as [px py]. destruct (f i) as [nx ny]. destruct (line_safe r px py nx ny Z) as (r1 & E1 & Z1 & A1). cbn [num single] in *. rewrite E1. cbn [option_map bind]. destruct (IH (nx, ny) r1 Z1) as (r2 & E2 & Z2 & A2). exists r2. split; [exact E2|]. split; [exact Z2|exact (alike_trans _ _ _ A1 A2)].
  Qed.
  Lemma new_sized w h : (Z.of_nat w < 2 ^ 24)%Z -> sized (new S1 w h).
  Proof. intros H. unfold sized, new. cbn [width height acc row_min row_max]. rewrite !repeat_length. auto. Qed.
  Lemma prefix_len (l : list float) : forall s, List.length (prefix_sums S1 s l) = List.length l.
  Proof. induction l as [|a l IH]; intros s; [reflexivity|]. cbn [prefix_sums List.length]. f_equal. apply IH. Qed.
  Lemma finish_row_safe (r : ras) y : sized r -> (0 < width S1 r)%nat -> (y < height S1 r)%nat -> exists row, finish_row S1 r y = Some row /\ List.length row = width S1 r.
  Proof.
    intros (Hw & La & Lm & Lx) H0 Hy. unfold finish_row.
    assert (N1 : nth_error (row_min S1 r) y = Some (nth y (row_min S1 r) 0%nat)) by (apply nth_error_nth'; lia). assert (N2 : nth_error (row_max S1 r) y = Some (nth y (row_max S1 r) 0%nat)) by (apply nth_error_nth'; lia). rewrite N1, N2.
    set (lo := nth y (row_min S1 r) 0%nat). set (hi := Nat.min (nth y (row_max S1 r) 0%nat) (width S1 r - 1)). assert (Hh : (hi <= width S1 r - 1)%nat) by (unfold hi; lia). clearbody lo hi.
    destruct (Nat.ltb_spec hi lo) as [C|C]; [eexists; split; [reflexivity|apply repeat_length]|]. cbv zeta.
    assert (Q : (y * stride S1 r + width S1 r + 1 < List.length (acc S1 r))%nat).
    { rewrite La. unfold stride. assert (K : (y + 1 <= Nat.max (height S1 r) 1)%nat) by lia. apply (Nat.mul_le_mono_r _ _ (width S1 r + 2)) in K. rewrite (Nat.mul_comm (width S1 r + 2)). lia. }
    unfold range_incl. rewrite (proj2 (Nat.ltb_lt (y * stride S1 r + hi) (List.length (acc S1 r)))) by lia. rewrite (proj2 (Nat.leb_le (y * stride S1 r + lo) (y * stride S1 r + hi + 1))) by lia. cbn [andb bind].
    eexists. split; [reflexivity|]. rewrite !app_length, !repeat_length, map_length. rewrite prefix_len. rewrite firstn_length, skipn_length. cbn [num single] in *. lia.
  Qed.
  Lemma finish_safe (r : ras) : sized r -> exists data, finish S1 r = Some data /\ List.length data = (width S1 r * height S1 r)%nat.
  Proof.
    intros Z. unfold finish. destruct (Nat.eqb_spec (width S1 r) 0) as [E|E]; [exists []; split; [reflexivity|rewrite E; reflexivity]|].
    assert (K : forall ys out, (forall y, In y ys -> (y < height S1 r)%nat) -> exists data, fold_opt (fun out0 y => option_map (fun row => out0 ++ row) (finish_row S1 r y)) ys out = Some data /\ List.length data = (List.length out + width S1 r * List.length ys)%nat).
    { induction ys as [|y ys IH]; intros out H; cbn [fold_opt]; [exists out; split; [reflexivity|cbn; lia]|]. destruct (finish_row_safe r y Z ltac:(lia) (H y (or_introl eq_refl))) as (row & Er & Lr). rewrite Er. cbn [option_map bind].
      destruct (IH (out ++ row)) as (data & Ed & Ld); [intros k I; apply H; now right|]. exists data. split; [exact Ed|]. rewrite Ld, app_length, Lr. cbn [List.length]. lia. }
    destruct (K (seq 0 (height S1 r)) []) as (data & Ed & Ld); [intros y I; apply in_seq in I; lia|]. exists data. split; [exact Ed|]. rewrite Ld, seq_length. cbn. lia.
  Qed.
End Safe.
Close Scope Q_scope.
