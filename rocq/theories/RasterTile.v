(* From a path to the tile it leaves, in exact arithmetic. *)
From Coq Require Import Qround Qminmax.
From Verif Require Import Base FloatModel RasterModel RasterSpec RasterShare RasterDeposit RasterLine RasterEdge RasterPath.
Open Scope Q_scope.

Section Tile.
  Variable sqf : Q -> Q.
  Notation E := (exact sqf).
  Notation ras := (raster E).
  Notation wide := (wide sqf). Notation tall := (tall sqf). Notation cell := (cell sqf). Notation wf := (wf sqf). Notation spanned := (spanned sqf). Notation same_size := (same_size sqf).
  Notation good := (good sqf). Notation sweeps := (sweeps sqf). Notation inside_x := (inside_x sqf).

  (* ---- the new rasterizer ---- *)
  Lemma nth_zero n k : nth k (repeat (0 : Q) n) 0 = 0.
  Proof. revert k. induction n as [|n IH]; intros [|k]; cbn; auto. Qed.
  Lemma new_cell w h Y c : cell (new E w h) Y c = 0.
  Proof. unfold RasterLine.cell, RasterLine.cells, new. cbn [acc]. apply nth_zero. Qed.
  Lemma new_good w h : good (new E w h).
  Proof.
    split.
    - unfold RasterLine.wf, RasterLine.cells, RasterLine.wide, RasterLine.tall, new. cbn [acc row_min row_max width height]. rewrite !repeat_length. auto.
    - intros y c _ _ _. now rewrite new_cell.
  Qed.

  (* ---- the outlines ---- *)
  Definition shift (ox oy : Q) (s : segment Q) : segment Q :=
    match s with
    | MoveTo p => MoveTo (rel E ox oy p) | LineTo p => LineTo (rel E ox oy p)
    | QuadTo c p => QuadTo (rel E ox oy c) (rel E ox oy p)
    | CubicTo c c' p => CubicTo (rel E ox oy c) (rel E ox oy c') (rel E ox oy p)
    | ClosePath => ClosePath
    end.
  Lemma walk_sweeps ox oy path : forall (s c : pt) (r : ras), good r -> inside_x r s -> inside_x r c -> (forall g p, In g path -> In p (points (shift ox oy g)) -> inside_x r p) ->
    exists s' c' r1 r' es, fold_opt (walk_step E ox oy) path (s, c, true, r) = Some (s', c', true, r1) /\ line E r1 (fst c') (snd c') (fst s') (snd s') = Some r' /\ good r' /\
      edges_of (Some (s, c)) (map (shift ox oy) path) es /\ sweeps r r' es.
  Proof.
    induction path as [|g path IH]; intros s c r G Is Ic H.
    - destruct (line_sweeps sqf r c s G Ic Is) as (r' & L & G' & S). exists s, c, r, r', [(c, s)]. split; [reflexivity|]. split; [exact L|]. split; [exact G'|]. split; [apply eo_end|exact S].
    - cbn [fold_opt map].
      assert (Hp : forall r', same_size r r' -> forall g' p, In g' path -> In p (points (shift ox oy g')) -> inside_x r' p) by (intros r' Sz g' p I Ip; apply (inside_same sqf r r' p Sz); apply (H g' p); [now right|exact Ip]).
      assert (Hh : forall p, In p (points (shift ox oy g)) -> inside_x r p) by (intros p I; apply (H g p); [now left|exact I]).
      destruct g as [p|p|b p|b b' p|]; cbn [walk_step shift points] in *.
      + destruct (line_sweeps sqf r c s G Ic Is) as (r1 & L & G1 & S1). cbn [num exact] in *. rewrite L. cbn [bind].
        assert (Ip : inside_x r1 (rel E ox oy p)) by (apply (inside_same sqf r); [apply S1|apply Hh; now left]).
        destruct (IH (rel E ox oy p) (rel E ox oy p) r1 G1 Ip Ip (Hp r1 (proj1 S1))) as (s' & c' & r2 & r' & es & F & L' & G' & Ee & Se).
        exists s', c', r2, r', ((c, s) :: es). split; [exact F|]. split; [exact L'|]. split; [exact G'|]. split; [now apply eo_move|]. apply (sweeps_app sqf r r1 r' [(c, s)] es S1 Se).
      + assert (Ip : inside_x r (rel E ox oy p)) by (apply Hh; now left). destruct (line_sweeps sqf r c (rel E ox oy p) G Ic Ip) as (r1 & L & G1 & S1). cbn [num exact] in *. rewrite L. cbn [bind option_map].
        destruct (IH s (rel E ox oy p) r1 G1 (inside_same sqf r r1 s (proj1 S1) Is) (inside_same sqf r r1 _ (proj1 S1) Ip) (Hp r1 (proj1 S1))) as (s' & c' & r2 & r' & es & F & L' & G' & Ee & Se).
        exists s', c', r2, r', ((c, rel E ox oy p) :: es). split; [exact F|]. split; [exact L'|]. split; [exact G'|]. split; [now apply eo_line|]. apply (sweeps_app sqf r r1 r' [(c, rel E ox oy p)] es S1 Se).
      + assert (Ib : inside_x r (rel E ox oy b)) by (apply Hh; now left). assert (Ip : inside_x r (rel E ox oy p)) by (apply Hh; right; now left).
        destruct (quad_sweeps sqf r c (rel E ox oy b) (rel E ox oy p) G Ic Ib Ip) as (r1 & n & L & G1 & Hn & S1). cbn [num exact] in *. rewrite L. cbn [bind option_map].
        destruct (IH s (rel E ox oy p) r1 G1 (inside_same sqf r r1 s (proj1 S1) Is) (inside_same sqf r r1 _ (proj1 S1) Ip) (Hp r1 (proj1 S1))) as (s' & c' & r2 & r' & es & F & L' & G' & Ee & Se).
        exists s', c', r2, r', (steps n (fun t => blend2 t c (rel E ox oy b) (rel E ox oy p)) ++ es). split; [exact F|]. split; [exact L'|]. split; [exact G'|]. split; [now apply eo_quad|]. apply (sweeps_app sqf r r1 r' _ es S1 Se).
      + assert (Ib : inside_x r (rel E ox oy b)) by (apply Hh; now left). assert (Ib' : inside_x r (rel E ox oy b')) by (apply Hh; right; now left). assert (Ip : inside_x r (rel E ox oy p)) by (apply Hh; right; right; now left).
        destruct (cubic_sweeps sqf r c (rel E ox oy b) (rel E ox oy b') (rel E ox oy p) G Ic Ib Ib' Ip) as (r1 & n & L & G1 & Hn & S1). cbn [num exact] in *. rewrite L. cbn [bind option_map].
        destruct (IH s (rel E ox oy p) r1 G1 (inside_same sqf r r1 s (proj1 S1) Is) (inside_same sqf r r1 _ (proj1 S1) Ip) (Hp r1 (proj1 S1))) as (s' & c' & r2 & r' & es & F & L' & G' & Ee & Se).
        exists s', c', r2, r', (steps n (fun t => blend3 t c (rel E ox oy b) (rel E ox oy b') (rel E ox oy p)) ++ es). split; [exact F|]. split; [exact L'|]. split; [exact G'|]. split; [now apply eo_cubic|]. apply (sweeps_app sqf r r1 r' _ es S1 Se).
      + destruct (line_sweeps sqf r c s G Ic Is) as (r1 & L & G1 & S1). cbn [num exact] in *. rewrite L. cbn [bind option_map].
        destruct (IH s s r1 G1 (inside_same sqf r r1 s (proj1 S1) Is) (inside_same sqf r r1 s (proj1 S1) Is) (Hp r1 (proj1 S1))) as (s' & c' & r2 & r' & es & F & L' & G' & Ee & Se).
        exists s', c', r2, r', ((c, s) :: es). split; [exact F|]. split; [exact L'|]. split; [exact G'|]. split; [now apply eo_close|]. apply (sweeps_app sqf r r1 r' [(c, s)] es S1 Se).
  Qed.

  (* ---- closed outlines rise as much as they fall ---- *)
  Lemma rise_chain Y (f : nat -> pt) n : forall a, rise Y (chain f a n) == level Y (snd (f (a + n)%nat)) - level Y (snd (f a)).
  Proof.
    induction n as [|n IH]; intros a; [rewrite Nat.add_0_r; cbn; ring|]. change (chain f a (S n)) with ((f a, f (S a)) :: chain f (S a) n). cbn [rise]. rewrite IH. replace (S a + n)%nat with (a + S n)%nat by lia. ring.
  Qed.
  Lemma rise_steps Y n (f : Q -> pt) (p q : pt) : (1 <= n)%nat -> (forall t, t == 0 -> snd (f t) == snd p) -> (forall t, t == 1 -> snd (f t) == snd q) -> rise Y (steps n f) == level Y (snd q) - level Y (snd p).
  Proof.
    intros Hn H0 H1. rewrite steps_chain, rise_chain. cbn [Nat.add]. assert (P : 1 <= qn n) by (apply qn_le in Hn; exact Hn). rewrite (level_wd Y _ (snd p) (H0 (qn 0 / qn n) (zero_over n Hn))). rewrite (level_wd Y _ (snd q) (H1 (qn n / qn n) ltac:(field; lra))). reflexivity.
  Qed.
  Lemma rise_edges Y st path es : edges_of st path es -> rise Y es == match st with Some (s, c) => level Y (snd s) - level Y (snd c) | None => 0 end.
  Proof.
    induction 1 as [|s c|p r es H IH|s c p r es H IH|s c p r es H IH|s c b p r n es Hn H IH|s c b b' p r n es Hn H IH|s c r es H IH]; cbn [rise].
    - reflexivity.
    - ring.
    - rewrite IH. ring.
    - rewrite IH. ring.
    - rewrite IH. ring.
    - rewrite rise_app, IH, (rise_steps Y n _ c p (proj1 Hn)); [ring| |]; intros t T; cbn [blend2 snd]; rewrite T; ring.
    - rewrite rise_app, IH, (rise_steps Y n _ c p (proj1 Hn)); [ring| |]; intros t T; cbn [blend3 snd]; rewrite T; ring.
    - rewrite IH. ring.
  Qed.

  (* ---- reading the buffer out ---- *)
  Lemma byte_zero : byte_of E 0 = 0%N. Proof. reflexivity. Qed.
  Lemma nth_repeat_error {A} (x : A) n k : (k < n)%nat -> nth_error (repeat x n) k = Some x.
  Proof. revert k. induction n as [|n IH]; intros [|k] H; cbn; try lia; [reflexivity|]. apply IH. lia. Qed.
  Lemma prefix_nth (l : list Q) : forall s i, (i < List.length l)%nat -> exists v, nth_error (prefix_sums E s l) i = Some v /\ v == s + psum (fun k => nth k l 0) (S i).
  Proof.
    induction l as [|a l IH]; intros s i H; [cbn in H; lia|]. cbn [prefix_sums exact add]. destruct i as [|i].
    - exists (s + a). split; [reflexivity|]. cbn. ring.
    - destruct (IH (s + a) i) as (v & N & Ev); [cbn in H; lia|]. exists v. split; [exact N|]. rewrite Ev.
      assert (K : forall n, psum (fun k => nth k (a :: l) 0) (S n) == a + psum (fun k => nth k l 0) n).
      { induction n as [|n IHn]; [cbn; ring|]. cbn [psum] in *. rewrite IHn. cbn [nth]. ring. }
      rewrite (K (S i)). ring.
  Qed.
  Lemma prefix_length (l : list Q) : forall s, List.length (prefix_sums E s l) = List.length l.
  Proof. induction l as [|a l IH]; intros s; [reflexivity|]. cbn [prefix_sums List.length]. now rewrite IH. Qed.
  Lemma psum_split f a b : psum f (a + b) == psum f a + psum (fun k => f (a + k)%nat) b.
  Proof. induction b as [|b IH]; [rewrite Nat.add_0_r; cbn; ring|]. rewrite Nat.add_succ_r. cbn [psum]. rewrite IH. ring. Qed.
  Lemma nth_first {A} (d : A) : forall n l k, (k < n)%nat -> nth k (firstn n l) d = nth k l d.
  Proof. induction n as [|n IH]; intros [|x l] [|k] H; cbn; try lia; try reflexivity. apply IH. lia. Qed.
  Lemma nth_skip {A} (d : A) : forall n l k, nth k (skipn n l) d = nth (n + k)%nat l d.
  Proof. induction n as [|n IH]; intros [|x l] k; cbn; try reflexivity; [now destruct k|apply IH]. Qed.
  Lemma finish_row_exact (r : ras) Y : wf r -> spanned r -> (Y < tall r)%nat -> (0 < wide r)%nat -> psum (cell r Y) (wide r + 2) == 0 ->
    exists row, finish_row E r Y = Some row /\ List.length row = wide r /\ forall j, (j < wide r)%nat -> exists s, nth_error row j = Some (byte_of E s) /\ s == psum (cell r Y) (S j).
  Proof.
    intros (W1 & W2 & W3) Sp HY Hw Tot. unfold finish_row. change (width E r) with (wide r).
    assert (N1 : nth_error (row_min E r) Y = Some (nth Y (row_min E r) 0%nat)) by (apply nth_error_nth'; lia). assert (N2 : nth_error (row_max E r) Y = Some (nth Y (row_max E r) 0%nat)) by (apply nth_error_nth'; lia). rewrite N1, N2.
    set (lo := nth Y (row_min E r) 0%nat) in *. set (mx := nth Y (row_max E r) 0%nat) in *. set (hi := Nat.min mx (wide r - 1)).
    assert (Sp' : forall c, (c < wide r + 2)%nat -> (c < lo \/ mx < c)%nat -> cell r Y c == 0) by (intros c Hc Hs; now apply Sp).
    destruct (Nat.ltb_spec hi lo) as [C|C].
    - exists (repeat 0%N (wide r)). split; [reflexivity|]. split; [apply repeat_length|]. intros j Hj. exists 0. split; [rewrite nth_repeat_error by exact Hj; now rewrite byte_zero|].
      symmetry. apply psum_zero. intros k Hk. apply Sp'; [lia|]. unfold hi in C. lia.
    - assert (Hhi : (hi <= wide r - 1)%nat) by (unfold hi; lia).
      assert (Hrow : (Y * stride E r + (wide r + 1) < List.length (cells sqf r))%nat).
      { rewrite W1. change (stride E r) with (wide r + 2)%nat. assert (Y + 1 <= Nat.max (tall r) 1)%nat by lia. assert ((Y + 1) * (wide r + 2) <= (wide r + 2) * Nat.max (tall r) 1)%nat by (rewrite (Nat.mul_comm (wide r + 2)); now apply Nat.mul_le_mono_r). lia. }
      unfold range_incl. change (acc E r) with (cells sqf r).
      assert (T1 : (Y * stride E r + hi <? List.length (cells sqf r))%nat = true) by (apply Nat.ltb_lt; lia). assert (T2 : (Y * stride E r + lo <=? Y * stride E r + hi + 1)%nat = true) by (apply Nat.leb_le; lia).
      cbn [num exact] in *. rewrite T1, T2. cbn [andb bind]. set (part := firstn (Y * stride E r + hi + 1 - (Y * stride E r + lo)) (skipn (Y * stride E r + lo) (cells sqf r))).
      assert (Lp : List.length part = (hi + 1 - lo)%nat) by (unfold part; rewrite firstn_length, skipn_length; lia).
      assert (Np : forall k, (k < hi + 1 - lo)%nat -> nth k part 0 = cell r Y (lo + k)).
      { intros k Hk. unfold part, RasterLine.cell. rewrite nth_first by lia. rewrite nth_skip. f_equal. change (stride E r) with (wide r + 2)%nat. lia. }
      exists (repeat 0%N lo ++ map (byte_of E) (prefix_sums E 0 part) ++ repeat 0%N (wide r - 1 - hi)). split; [reflexivity|]. split; [rewrite !app_length, !repeat_length, map_length, prefix_length, Lp; lia|].
      intros j Hj. destruct (Nat.lt_ge_cases j lo) as [K|K].
      { exists 0. split; [rewrite nth_error_app1 by (rewrite repeat_length; exact K); rewrite nth_repeat_error by exact K; now rewrite byte_zero|]. symmetry. apply psum_zero. intros k Hk. apply Sp'; lia. }
      rewrite nth_error_app2 by (rewrite repeat_length; exact K). rewrite repeat_length. destruct (Nat.le_gt_cases j hi) as [K2|K2].
      + destruct (prefix_nth part 0 (j - lo)) as (v & N & Ev); [lia|]. exists v. split.
        * rewrite nth_error_app1 by (rewrite map_length, prefix_length, Lp; lia). now apply map_nth_error.
        * rewrite Ev. replace (S j) with (lo + S (j - lo))%nat by lia. rewrite psum_split. rewrite (psum_zero (cell r Y) lo) by (intros k Hk; apply Sp'; lia). apply Qplus_comp; [reflexivity|]. apply psum_ext. intros k Hk. rewrite Np by lia. reflexivity.
      + exists 0. split.
        * rewrite nth_error_app2 by (rewrite map_length, prefix_length, Lp; lia). rewrite map_length, prefix_length, Lp. rewrite nth_repeat_error by lia. now rewrite byte_zero.
        * assert (Q : psum (cell r Y) (wide r + 2) == psum (cell r Y) (S j) + psum (fun k => cell r Y (S j + k)%nat) (wide r + 2 - S j)) by (rewrite <- psum_split; replace (S j + (wide r + 2 - S j))%nat with (wide r + 2)%nat by lia; reflexivity).
          rewrite (psum_zero (fun k => cell r Y (S j + k)%nat)) in Q by (intros k Hk; apply Sp'; [lia|unfold hi in K2; lia]). lra.
  Qed.
  Lemma nth_rows {A} (w : nat) (rows : nat -> list A) n : forall a y j, (forall y, (a <= y < a + n)%nat -> List.length (rows y) = w) -> (y < n)%nat -> (j < w)%nat -> nth_error (flat_map rows (seq a n)) (y * w + j) = nth_error (rows (a + y)%nat) j.
  Proof.
    induction n as [|n IH]; intros a y j L Hy Hj; [lia|]. cbn [seq flat_map]. destruct y as [|y].
    - cbn [Nat.mul Nat.add]. rewrite Nat.add_0_r. apply nth_error_app1. rewrite L by lia. exact Hj.
    - rewrite nth_error_app2 by (rewrite L by lia; lia). rewrite L by lia. replace (S y * w + j - w)%nat with (y * w + j)%nat by lia. rewrite (IH (S a) y j) by (try lia; intros y' Hy'; apply L; lia). now rewrite Nat.add_succ_comm.
  Qed.
  Lemma finish_exact (r : ras) : good r -> (0 < wide r)%nat -> (forall Y, (Y < tall r)%nat -> psum (cell r Y) (wide r + 2) == 0) ->
    exists data, finish E r = Some data /\ List.length data = (wide r * tall r)%nat /\ forall Y j, (Y < tall r)%nat -> (j < wide r)%nat -> exists s, nth_error data (Y * wide r + j) = Some (byte_of E s) /\ s == psum (cell r Y) (S j).
  Proof.
    intros [W Sp] Hw Tot. unfold finish. change (width E r) with (wide r). destruct (Nat.eqb_spec (wide r) 0); [lia|]. change (height E r) with (tall r).
    set (row := fun Y => match finish_row E r Y with Some x => x | None => [] end).
    assert (K : forall n a out, (a + n <= tall r)%nat -> fold_opt (fun out0 y => option_map (fun row0 => out0 ++ row0) (finish_row E r y)) (seq a n) out = Some (out ++ flat_map row (seq a n))).
    { induction n0 as [|n0 IH]; intros a out H; cbn [seq fold_opt flat_map]; [now rewrite app_nil_r|]. destruct (finish_row_exact r a W Sp ltac:(lia) Hw (Tot a ltac:(lia))) as (x & Fx & _). unfold row at 1. rewrite Fx. cbn [option_map bind]. rewrite IH by lia. now rewrite app_assoc. }
    rewrite (K (tall r) 0%nat []) by lia. cbn [app]. exists (flat_map row (seq 0 (tall r))).
    assert (R : forall Y, (Y < tall r)%nat -> List.length (row Y) = wide r /\ forall j, (j < wide r)%nat -> exists s, nth_error (row Y) j = Some (byte_of E s) /\ s == psum (cell r Y) (S j)).
    { intros Y HY. destruct (finish_row_exact r Y W Sp HY Hw (Tot Y HY)) as (x & Fx & L & P). unfold row. rewrite Fx. now split. }
    split; [reflexivity|]. split.
    - assert (Q : forall n a, (a + n <= tall r)%nat -> List.length (flat_map row (seq a n)) = (wide r * n)%nat).
      { induction n0 as [|n0 IH]; intros a H; cbn [seq flat_map]; [cbn; lia|]. rewrite app_length, IH by lia. rewrite (proj1 (R a ltac:(lia))). lia. }
      apply Q. lia.
    - intros Y j HY Hj. rewrite (nth_rows (wide r) row (tall r) 0 Y j) by (try assumption; intros y Hy; apply R; lia). cbn [Nat.add]. now apply R.
  Qed.
  Lemma byte_shade s : shade s (byte_of E s).
  Proof.
    unfold byte_of. cbn [exact to_u8 add mul min_ absv cst]. set (m := if Qle_bool (Qabs s) 1 then Qabs s else 1). set (u := m * 255 + (1 # 2)).
    assert (A0 : 0 <= Qabs s) by apply Qabs_nonneg.
    assert (Hm : (1 <= Qabs s /\ m == 1) \/ (Qabs s <= 1 /\ m == Qabs s)).
    { unfold m. destruct (Qle_bool (Qabs s) 1) eqn:B; [apply Qle_bool_iff in B; right; split; [exact B|reflexivity]|apply qle_false in B; left; split; [lra|reflexivity]]. }
    assert (U : (1 # 2) <= u /\ u <= 255 + (1 # 2)) by (unfold u; destruct Hm as [[? ->]|[? ->]]; lra).
    assert (Z0 : (0 <= Qnum u)%Z) by (assert (Z : 0 <= u) by lra; revert Z; clear; destruct u as [a b]; unfold Qle; cbn; lia).
    rewrite Z.quot_div_nonneg by (try exact Z0; reflexivity). assert (Fu : (Qnum u / Z.pos (Qden u))%Z = Qfloor u) by (destruct u; reflexivity). rewrite Fu.
    assert (F1 := Qfloor_le u). assert (F2 := Qlt_floor u). rewrite inject_Z_plus in F2. change (inject_Z 1) with 1 in F2.
    assert (B1 : (0 <= Qfloor u)%Z) by (change 0%Z with (Qfloor 0); apply Qfloor_resp_le; lra).
    assert (B2 : (Qfloor u < 256)%Z) by (rewrite Zlt_Qlt; change (inject_Z 256) with (256 # 1); lra).
    rewrite Z.max_r, Z.min_r by lia. unfold shade. rewrite Z2N.id by exact B1. unfold of_Z.
    destruct Hm as [[H Em]|[H Em]].
    - left. split; [exact H|]. assert (B3 : (254 < Qfloor u)%Z) by (rewrite Zlt_Qlt; change (inject_Z 254) with (254 # 1); assert (u == 255 + (1 # 2)) by (unfold u; rewrite Em; reflexivity); lra). replace (Qfloor u) with 255%Z by lia. reflexivity.
    - right. split; [exact H|]. assert (Eu : u == Qabs s * 255 + (1 # 2)) by (unfold u; now rewrite Em). split; lra.
  Qed.
  Lemma shade_wd v v' n : v == v' -> shade v n -> shade v' n.
  Proof. intros H. unfold shade. now rewrite H. Qed.
End Tile.
Close Scope Q_scope.
