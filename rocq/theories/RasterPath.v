(* Paths: the edges the rasterizer is given, and the bitmap it ends with. *)
From Coq Require Import Qround Qminmax.
From Verif Require Import Base FloatModel RasterModel RasterSpec RasterShare RasterDeposit RasterLine RasterEdge.
Open Scope Q_scope.

(* ---- equal points, equal areas ---- *)
Lemma share_wd j a a' b b' v v' : a == a' -> b == b' -> v == v' -> right_share j a b v -> right_share j a' b' v'.
Proof.
  intros Ha Hb Hv H. revert a' b' v' Ha Hb Hv. induction H as [a b v H L E0|a b v H L E0|a b v L1 H L2 E0|a c b u w v L1 L2 H1 IH1 H2 IH2 E0]; intros a' b' v' Ha Hb Hv.
  - apply rs_whole; lra.
  - apply rs_none; lra.
  - apply rs_trapezoid; [lra|lra|lra|]. rewrite <- Ha, <- Hb, <- Hv. exact E0.
  - apply (rs_cut j a' c b' u w); [lra|lra|now apply IH1|now apply IH2|]. rewrite <- Ha, <- Hb, <- Hv. exact E0.
Qed.
Lemma swept_wd X Y p q v : swept X Y p q v -> forall p' q' v', same_pt p p' -> same_pt q q' -> v == v' -> swept X Y p' q' v'.
Proof.
  induction 1 as [p q v H E|p q ya yb xa xb m v L1 L2 A B Ha Hb R E|p q u v L H IH E]; intros p' q' v' [P1 P2] [Q1 Q2] Hv.
  - apply sw_out; [|lra]. destruct H as [H|[H|H]]; [left; lra|right; left; lra|right; right; lra].
  - apply (sw_down X Y p' q' ya yb xa xb m); [lra|exact L2| | | | |exact R|lra].
    + destruct A as (A1 & A2 & [A3|A3]); (split; [lra|split; [lra|]]); [left|right]; lra.
    + destruct B as (A1 & A2 & [A3|A3]); (split; [lra|split; [lra|]]); [left|right]; lra.
    + unfold at_height in *. rewrite <- P1, <- P2, <- Q1, <- Q2. exact Ha.
    + unfold at_height in *. rewrite <- P1, <- P2, <- Q1, <- Q2. exact Hb.
  - apply (sw_up X Y p' q' u); [lra| |lra]. apply IH; [split; assumption|split; assumption|reflexivity].
Qed.
Lemma enclosed_wd X Y l v v' : enclosed X Y l v -> v == v' -> enclosed X Y l v'.
Proof. intros H E. destruct H as [v H|p q l u w v S H E0]; [apply en_nil|apply (en_cons X Y p q l u w)]; auto; now rewrite <- E. Qed.
Lemma enclosed_app X Y l1 v1 : enclosed X Y l1 v1 -> forall l2 v2, enclosed X Y l2 v2 -> enclosed X Y (l1 ++ l2) (v1 + v2).
Proof.
  induction 1 as [v H|p q l u w v S H IH E]; intros l2 v2 H2; cbn [app].
  - apply (enclosed_wd _ _ _ _ _ H2). rewrite H. ring.
  - apply (en_cons X Y p q _ u (w + v2) _ S); [now apply IH|]. rewrite E. ring.
Qed.
Definition alike (e e' : pt * pt) : Prop := same_pt (fst e) (fst e') /\ same_pt (snd e) (snd e').
Lemma enclosed_alike X Y l l' : Forall2 alike l l' -> forall v, enclosed X Y l v -> enclosed X Y l' v.
Proof.
  induction 1 as [|[p q] [p' q'] l l' [P Q] F IH]; intros v H; [exact H|]. inversion H as [|? ? ? u w ? S En Ev]; subst. apply (en_cons X Y p' q' l' u w); [|now apply IH|exact Ev]. apply (swept_wd _ _ _ _ _ S); auto. reflexivity.
Qed.

(* ---- moved by whole pixels ---- *)
Definition move (a b : Z) (p : pt) : pt := (fst p + of_Z a, snd p + of_Z b).
Lemma of_Z_add a b : of_Z (a + b) == of_Z a + of_Z b.
Proof. unfold of_Z. now rewrite inject_Z_plus. Qed.
Lemma share_move j k a b v : right_share j a b v -> right_share (j + k) (a + of_Z k) (b + of_Z k) v.
Proof.
  assert (J := of_Z_add j k). induction 1 as [a b v H L E0|a b v H L E0|a b v L1 H L2 E0|a c b u w v L1 L2 H1 IH1 H2 IH2 E0].
  - apply rs_whole; lra.
  - apply rs_none; lra.
  - apply rs_trapezoid; [lra|lra|lra|]. rewrite J, E0. field.
  - apply (rs_cut (j + k) (a + of_Z k) (c + of_Z k) (b + of_Z k) u w); [lra|lra|assumption|assumption|]. lra.
Qed.
Lemma swept_move k m X Y p q v : swept X Y p q v -> swept (X + k) (Y + m) (move k m p) (move k m q) v.
Proof.
  assert (J := of_Z_add Y m). induction 1 as [p q v H E|p q ya yb xa xb s v L1 L2 A B Ha Hb R E|p q u v L H IH E].
  - apply sw_out; [|exact E]. unfold move. cbn [snd]. destruct H as [H|[H|H]]; [left|right; left|right; right]; lra.
  - apply (sw_down _ _ _ _ (ya + of_Z m) (yb + of_Z m) (xa + of_Z k) (xb + of_Z k) s); unfold move, at_height in *; cbn [fst snd].
    + lra.
    + lra.
    + destruct A as (A1 & A2 & [A3|A3]); (split; [lra|split; [lra|]]); [left|right]; lra.
    + destruct B as (A1 & A2 & [A3|A3]); (split; [lra|split; [lra|]]); [left|right]; lra.
    + assert (Q1 : xa + of_Z k - (fst p + of_Z k) == xa - fst p) by ring. assert (Q2 : snd q + of_Z m - (snd p + of_Z m) == snd q - snd p) by ring. assert (Q3 : ya + of_Z m - (snd p + of_Z m) == ya - snd p) by ring. assert (Q4 : fst q + of_Z k - (fst p + of_Z k) == fst q - fst p) by ring. rewrite Q1, Q2, Q3, Q4. exact Ha.
    + assert (Q1 : xb + of_Z k - (fst p + of_Z k) == xb - fst p) by ring. assert (Q2 : snd q + of_Z m - (snd p + of_Z m) == snd q - snd p) by ring. assert (Q3 : yb + of_Z m - (snd p + of_Z m) == yb - snd p) by ring. assert (Q4 : fst q + of_Z k - (fst p + of_Z k) == fst q - fst p) by ring. rewrite Q1, Q2, Q3, Q4. exact Hb.
    + destruct R as [R|R]; [left|right]; now apply share_move.
    + lra.
  - apply (sw_up _ _ _ _ u); [unfold move; cbn [snd]; lra|exact IH|exact E].
Qed.
Lemma enclosed_move k m X Y l v : enclosed X Y l v -> enclosed (X + k) (Y + m) (map (fun e => (move k m (fst e), move k m (snd e))) l) v.
Proof. induction 1 as [v H|p q l u w v S H IH E]; cbn [map]; [now apply en_nil|]. apply (en_cons _ _ _ _ _ u w); [now apply swept_move|exact IH|exact E]. Qed.

(* ---- lists of edges ---- *)
Section Path.
  Variable sqf : Q -> Q.
  Notation E := (exact sqf).
  Notation ras := (raster E).
  Notation wide := (wide sqf). Notation tall := (tall sqf). Notation cell := (cell sqf). Notation wf := (wf sqf). Notation spanned := (spanned sqf). Notation same_size := (same_size sqf).
  Fixpoint rise (Y : nat) (es : list (pt * pt)) : Q := match es with [] => 0 | (p, q) :: r => level Y (snd q) - level Y (snd p) + rise Y r end.
  Lemma rise_app Y l1 l2 : rise Y (l1 ++ l2) == rise Y l1 + rise Y l2.
  Proof. induction l1 as [|[p q] l1 IH]; cbn [app rise]; [ring|]. rewrite IH. ring. Qed.
  Definition sweeps (r r' : ras) (es : list (pt * pt)) : Prop := same_size r r' /\
    (forall Y j, (Y < tall r)%nat -> (j < wide r + 2)%nat -> exists v, enclosed (Z.of_nat j) (Z.of_nat Y) es v /\ psum (cell r' Y) (S j) == psum (cell r Y) (S j) + v) /\
    (forall Y, (Y < tall r)%nat -> psum (cell r' Y) (wide r + 2) == psum (cell r Y) (wide r + 2) + rise Y es).
  Lemma sweeps_nil r : sweeps r r [].
  Proof. split; [split; reflexivity|]. split; [intros; exists 0; split; [now apply en_nil|ring]|intros; cbn; ring]. Qed.
  Lemma sweeps_one r r' p q : effect sqf r r' p q -> sweeps r r' [(p, q)].
  Proof.
    intros (Sz & H1 & H2). split; [exact Sz|]. split.
    - intros Y j HY Hj. destruct (H1 Y j HY Hj) as (v & S & P). exists v. split; [|exact P]. apply (en_cons _ _ p q [] v 0); [exact S|now apply en_nil|ring].
    - intros Y HY. cbn [rise]. rewrite (H2 Y HY). ring.
  Qed.
  Lemma sweeps_app r1 r2 r3 l1 l2 : sweeps r1 r2 l1 -> sweeps r2 r3 l2 -> sweeps r1 r3 (l1 ++ l2).
  Proof.
    intros ([Z1 Z2] & A1 & A2) ([Z3 Z4] & B1 & B2). split; [split; congruence|]. split.
    - intros Y j HY Hj. destruct (A1 Y j HY Hj) as (v1 & S1 & P1). destruct (B1 Y j) as (v2 & S2 & P2); [congruence|congruence|]. exists (v1 + v2). split; [now apply enclosed_app|]. rewrite P2, P1. ring.
    - intros Y HY. rewrite rise_app. specialize (A2 Y HY). assert (HY' : (Y < tall r2)%nat) by congruence. specialize (B2 Y HY'). rewrite Z1 in B2. rewrite B2, A2. ring.
  Qed.
  Lemma rise_alike Y l l' : Forall2 alike l l' -> rise Y l == rise Y l'.
  Proof. induction 1 as [|[p q] [p' q'] l l' [[P1 P2] [Q1 Q2]] F IH]; cbn [rise fst snd] in *; [reflexivity|]. rewrite IH, (level_wd Y (snd p) (snd p') P2), (level_wd Y (snd q) (snd q') Q2). reflexivity. Qed.
  Lemma sweeps_alike r r' l l' : Forall2 alike l l' -> sweeps r r' l -> sweeps r r' l'.
  Proof.
    intros F (Sz & H1 & H2). split; [exact Sz|]. split.
    - intros Y j HY Hj. destruct (H1 Y j HY Hj) as (v & S & P). exists v. split; [now apply (enclosed_alike _ _ _ _ F)|exact P].
    - intros Y HY. rewrite (H2 Y HY). now rewrite (rise_alike Y l l' F).
  Qed.
  Definition good (r : ras) : Prop := wf r /\ spanned r.
  Lemma inside_same r r' p : same_size r r' -> inside_x sqf r p -> inside_x sqf r' p.
  Proof. intros [H _]. unfold inside_x. now rewrite H. Qed.
  Lemma line_sweeps (r : ras) (p q : pt) : good r -> inside_x sqf r p -> inside_x sqf r q ->
    exists r', line E r (fst p) (snd p) (fst q) (snd q) = Some r' /\ good r' /\ sweeps r r' [(p, q)].
  Proof. intros [W S] P Q. destruct (line_effect sqf r p q W S P Q) as (r' & L & W' & S' & Ef). exists r'. split; [exact L|]. split; [now split|now apply sweeps_one]. Qed.

  (* ---- curves ---- *)
  Definition chain (f : nat -> pt) (a n : nat) : list (pt * pt) := map (fun i => (f i, f (S i))) (seq a n).
  Lemma chords_fold (f : nat -> pt) n : forall a (r : ras), good r -> (forall i, (a <= i <= a + n)%nat -> inside_x sqf r (f i)) ->
    exists st r', fold_opt (fun (st : (Q * Q) * ras) i => let '((px, py), r) := st in let (nx, ny) := f i in option_map (fun r => ((nx, ny), r)) (line E r px py nx ny)) (seq (S a) n) (f a, r) = Some (st, r') /\ good r' /\ sweeps r r' (chain f a n).
  Proof.
    induction n as [|n IH]; intros a r G H; cbn [seq fold_opt].
    - exists (f a), r. split; [reflexivity|]. split; [exact G|apply sweeps_nil].
    - destruct (line_sweeps r (f a) (f (S a)) G) as (r1 & L & G1 & S1); [apply H; lia|apply H; lia|].
      destruct (f a) as [px py] eqn:Ea, (f (S a)) as [nx ny] eqn:Eb. cbn [fst snd] in L. rewrite L. cbn [option_map bind]. rewrite <- Eb.
      destruct (IH (S a) r1 G1) as (st & r2 & F2 & G2 & S2); [intros i Hi; apply (inside_same r r1); [apply S1|apply H; lia]|].
      exists st, r2. split; [exact F2|]. split; [exact G2|]. change (chain f a (S n)) with ([(f a, f (S a))] ++ chain f (S a) n). rewrite Ea, Eb. now apply (sweeps_app r r1 r2).
  Qed.
  Lemma chords_sweep (f : nat -> pt) n (p0 : pt) (r : ras) : good r -> inside_x sqf r p0 -> same_pt p0 (f 0%nat) -> (1 <= n)%nat -> (forall i, (1 <= i <= n)%nat -> inside_x sqf r (f i)) ->
    exists r', chords E f n p0 r = Some r' /\ good r' /\ sweeps r r' (chain f 0 n).
  Proof.
    intros G P0 Sm Hn H. set (g := fun i => match i with O => p0 | S _ => f i end).
    destruct (chords_fold g n 0 r G) as (st & r' & F & G' & S).
    - intros [|i] Hi; [exact P0|apply H; lia].
    - exists r'. split.
      + unfold chords. match goal with |- option_map snd ?M = _ => assert (HM : M = Some (st, r')); [|rewrite HM; reflexivity] end. rewrite <- F. change (g 0%nat) with p0.
        assert (K : forall l s, (forall i, In i l -> (1 <= i)%nat) -> fold_opt (fun (st0 : (num E * num E) * ras) i => let '((px, py), r0) := st0 in let (nx, ny) := f i in option_map (fun r1 => ((nx, ny), r1)) (line E r0 px py nx ny)) l s = fold_opt (fun (st0 : (Q * Q) * ras) i => let '((px, py), r0) := st0 in let (nx, ny) := g i in option_map (fun r1 => ((nx, ny), r1)) (line E r0 px py nx ny)) l s).
        { induction l as [|i l IH]; intros s Hl; [reflexivity|]. cbn [fold_opt]. assert (1 <= i)%nat by (apply Hl; now left). destruct i as [|i]; [lia|]. cbn [g]. match goal with |- bind ?a _ = bind ?b _ => change b with a; destruct a as [s'|] end; [|reflexivity]. cbn [bind]. apply IH. intros k I. apply Hl. now right. }
        apply K. intros i I. apply in_seq in I. lia.
      + split; [exact G'|]. refine (sweeps_alike r r' _ _ _ S). unfold chain. clear -Sm. destruct n as [|n]; [constructor|]. cbn [seq map]. constructor.
        * split; cbn [fst snd g]; [exact Sm|split; reflexivity].
        * assert (K : forall l, (forall i, In i l -> (1 <= i)%nat) -> Forall2 alike (map (fun i => (g i, g (S i))) l) (map (fun i => (f i, f (S i))) l)).
          { induction l as [|i l IH]; intros Hl; cbn [map]; constructor; [|apply IH; intros k I; apply Hl; now right]. assert (1 <= i)%nat by (apply Hl; now left). destruct i; [lia|]. split; split; reflexivity. }
          apply K. intros i I. apply in_seq in I. lia.
  Qed.
  Lemma ratio i n : (1 <= n)%nat -> (i <= n)%nat -> 0 <= qn i / qn n /\ qn i / qn n <= 1.
  Proof.
    intros H1 H2. assert (P : 0 < qn n) by (apply qn_le in H1; change (qn 1) with 1 in H1; lra). apply qn_le in H2. split; [apply Qle_shift_div_l; [exact P|rewrite Qmult_0_l; apply qn_pos]|apply Qle_shift_div_r; [exact P|lra]].
  Qed.
  Lemma mix2 t a b c w : 0 <= t -> t <= 1 -> 0 <= a -> a <= w -> 0 <= b -> b <= w -> 0 <= c -> c <= w ->
    let v := (1 - t) * (1 - t) * a + 2 * (1 - t) * t * b + t * t * c in 0 <= v /\ v <= w.
  Proof.
    intros T1 T2 A1 A2 B1 B2 C1 C2 v. assert (K : forall x y z, 0 <= x -> 0 <= y -> 0 <= z -> 0 <= (1 - t) * (1 - t) * x + 2 * (1 - t) * t * y + t * t * z).
    { intros x y z Hx Hy Hz. assert (Q1 : 0 <= (1 - t) * (1 - t) * x) by (repeat apply Qmult_le_0_compat; lra). assert (Q2 : 0 <= 2 * (1 - t) * t * y) by (repeat apply Qmult_le_0_compat; lra). assert (Q3 : 0 <= t * t * z) by (repeat apply Qmult_le_0_compat; lra). lra. }
    split; [now apply K|]. assert (Q := K (w - a) (w - b) (w - c) ltac:(lra) ltac:(lra) ltac:(lra)). assert (Ev : (1 - t) * (1 - t) * (w - a) + 2 * (1 - t) * t * (w - b) + t * t * (w - c) == w - v) by (unfold v; ring). lra.
  Qed.
  Lemma mix3 t a b c d w : 0 <= t -> t <= 1 -> 0 <= a -> a <= w -> 0 <= b -> b <= w -> 0 <= c -> c <= w -> 0 <= d -> d <= w ->
    let v := (1 - t) * (1 - t) * (1 - t) * a + 3 * (1 - t) * (1 - t) * t * b + 3 * (1 - t) * t * t * c + t * t * t * d in 0 <= v /\ v <= w.
  Proof.
    intros T1 T2 A1 A2 B1 B2 C1 C2 D1 D2 v. assert (K : forall x y z u, 0 <= x -> 0 <= y -> 0 <= z -> 0 <= u -> 0 <= (1 - t) * (1 - t) * (1 - t) * x + 3 * (1 - t) * (1 - t) * t * y + 3 * (1 - t) * t * t * z + t * t * t * u).
    { intros x y z u Hx Hy Hz Hu. assert (Q1 : 0 <= (1 - t) * (1 - t) * (1 - t) * x) by (repeat apply Qmult_le_0_compat; lra). assert (Q2 : 0 <= 3 * (1 - t) * (1 - t) * t * y) by (repeat apply Qmult_le_0_compat; lra). assert (Q3 : 0 <= 3 * (1 - t) * t * t * z) by (repeat apply Qmult_le_0_compat; lra). assert (Q4 : 0 <= t * t * t * u) by (repeat apply Qmult_le_0_compat; lra). lra. }
    split; [now apply K|]. assert (Q := K (w - a) (w - b) (w - c) (w - d) ltac:(lra) ltac:(lra) ltac:(lra) ltac:(lra)).
    assert (Ev : (1 - t) * (1 - t) * (1 - t) * (w - a) + 3 * (1 - t) * (1 - t) * t * (w - b) + 3 * (1 - t) * t * t * (w - c) + t * t * t * (w - d) == w - v) by (unfold v; ring). lra.
  Qed.
  Lemma steps_chain n f : steps n f = chain (fun i => f (qn i / qn n)) 0 n.
  Proof. unfold steps, chain. apply map_ext. intros i. now rewrite Nat.add_1_r. Qed.
  Lemma zero_over n : (1 <= n)%nat -> qn 0 / qn n == 0.
  Proof. intros H. apply qn_le in H. change (qn 1) with 1 in H. change (qn 0) with 0. field. lra. Qed.
  Lemma quad_sweeps (r : ras) (p c q : pt) : good r -> inside_x sqf r p -> inside_x sqf r c -> inside_x sqf r q ->
    exists r' n, quad E r (fst p) (snd p) (fst c) (snd c) (fst q) (snd q) = Some r' /\ good r' /\ (1 <= n <= 64)%nat /\ sweeps r r' (steps n (fun t => blend2 t p c q)).
  Proof.
    intros G [P1 P2] [C1 C2] [Q1 Q2]. unfold quad. cbn [exact count_ bind]. set (n := Nat.max 1 (Nat.min 64 _)). assert (Hn : (1 <= n <= 64)%nat) by (unfold n; lia). clearbody n.
    destruct (chords_sweep (fun i => blend2 (qn i / qn n) p c q) n p r G) as (r' & F & G' & S).
    - now split.
    - assert (Z := zero_over n (proj1 Hn)). split; cbn [blend2 fst snd]; rewrite Z; ring.
    - lia.
    - intros i Hi. destruct (ratio i n) as [T1 T2]; [lia|lia|]. unfold inside_x, blend2. cbn [fst]. now apply mix2.
    - exists r', n. split; [destruct p; exact F|]. split; [exact G'|]. split; [exact Hn|]. now rewrite steps_chain.
  Qed.
  Lemma cubic_sweeps (r : ras) (p c c' q : pt) : good r -> inside_x sqf r p -> inside_x sqf r c -> inside_x sqf r c' -> inside_x sqf r q ->
    exists r' n, cubic E r (fst p) (snd p) (fst c) (snd c) (fst c') (snd c') (fst q) (snd q) = Some r' /\ good r' /\ (1 <= n <= 96)%nat /\ sweeps r r' (steps n (fun t => blend3 t p c c' q)).
  Proof.
    intros G [P1 P2] [C1 C2] [D1 D2] [Q1 Q2]. unfold cubic. cbn [exact count_ bind]. set (n := Nat.max 1 (Nat.min 96 _)). assert (Hn : (1 <= n <= 96)%nat) by (unfold n; lia). clearbody n.
    destruct (chords_sweep (fun i => blend3 (qn i / qn n) p c c' q) n p r G) as (r' & F & G' & S).
    - now split.
    - assert (Z := zero_over n (proj1 Hn)). split; cbn [blend3 fst snd]; rewrite Z; ring.
    - lia.
    - intros i Hi. destruct (ratio i n) as [T1 T2]; [lia|lia|]. unfold inside_x, blend3. cbn [fst]. now apply mix3.
    - exists r', n. split; [destruct p; exact F|]. split; [exact G'|]. split; [exact Hn|]. now rewrite steps_chain.
  Qed.
End Path.
Close Scope Q_scope.
