From Coq Require Import QArith Qabs Lqa.
From Verif Require Import Base FloatModel FloatSpec FloatProofs AnimSpec AnimProofs CompareModel CompareSpec.
Local Open Scope Z_scope.

Lemma valid32 : valid_format f32.
Proof. split; cbn; lia. Qed.
Lemma quarter_rep a : Z.abs a < 16777216 -> representable f32 (a # 4).
Proof.
  intros A. split.
  - apply Qlt_trans with (inject_Z 16777216); [|reflexivity]. apply Qabs_Qlt_condition. unfold Qlt, inject_Z; cbn [Qnum Qden Qopp]. lia.
  - exists a, (-2). split; [cbn; lia|]. split; [exact A|]. change (2 ^ (-2))%Q with (1 # 4)%Q. unfold Qeq, inject_Z, Qmult; cbn [Qnum Qden]. lia.
Qed.
Definition quarters (x : float) (a : Z) : Prop := number x (a # 4).
Lemma round_quarter q a : (q == a # 4)%Q -> Z.abs a < 16777216 -> quarters (round_to f32 q) a.
Proof. intros E A. rewrite (round_wd f32 valid32 q _ E). destruct (round_exact f32 valid32 _ (quarter_rep a A)) as (v & -> & V). exists v. split; [reflexivity|exact V]. Qed.
Lemma add_quarter x y a b : quarters x a -> quarters y b -> Z.abs (a + b) < 16777216 -> quarters (f_add f32 x y) (a + b).
Proof. intros (p & -> & P) (q & -> & Q) B. cbn [f_add]. apply round_quarter; [|exact B]. rewrite P, Q. unfold Qeq, Qplus; cbn [Qnum Qden]. lia. Qed.
Lemma apart_ok a b : (a < 256)%N -> (b < 256)%N -> quarters (apart a b) (4 * gap a b).
Proof. intros A B. unfold apart, f_of_Z, gap. apply round_quarter; [unfold Qeq, inject_Z; cbn [Qnum Qden]; lia|lia]. Qed.
Lemma gap_le a b : (a < 256)%N -> (b < 256)%N -> 0 <= gap a b <= 255.
Proof. unfold gap. lia. Qed.
Lemma off_range p q : byte_color p -> byte_color q -> 0 <= off_by p q <= 1020.
Proof.
  destruct p as [[[r1 g1] b1] a1], q as [[[r2 g2] b2] a2]. cbn [byte_color off_by]. intros (A1 & A2 & A3 & A4) (B1 & B2 & B3 & B4).
  pose proof (gap_le r1 r2). pose proof (gap_le g1 g2). pose proof (gap_le b1 b2). pose proof (gap_le a1 a2). lia.
Qed.
Lemma diff_ok p q : byte_color p -> byte_color q -> quarters (pixel_diff p q) (off_by p q).
Proof.
  intros P Q. pose proof (off_range p q P Q) as R. destruct p as [[[r1 g1] b1] a1], q as [[[r2 g2] b2] a2]. cbn [byte_color off_by pixel_diff] in *. destruct P as (A1 & A2 & A3 & A4), Q as (B1 & B2 & B3 & B4).
  pose proof (gap_le r1 r2 A1 B1). pose proof (gap_le g1 g2 A2 B2). pose proof (gap_le b1 b2 A3 B3). pose proof (gap_le a1 a2 A4 B4).
  pose proof (add_quarter _ _ _ _ (apart_ok r1 r2 A1 B1) (apart_ok g1 g2 A2 B2) ltac:(lia)) as E1.
  pose proof (add_quarter _ _ _ _ E1 (apart_ok b1 b2 A3 B3) ltac:(lia)) as E2. pose proof (add_quarter _ _ _ _ E2 (apart_ok a1 a2 A4 B4) ltac:(lia)) as E3.
  destruct E3 as (v & -> & V). unfold f_div. change (qzero 4) with false. cbv iota. apply round_quarter; [|lia]. rewrite V. unfold Qeq, Qdiv, Qmult, Qinv; cbn [Qnum Qden]. lia.
Qed.
Lemma lt_quarters x y a b : quarters x a -> quarters y b -> f_lt x y = (a <? b).
Proof.
  intros (p & -> & P) (q & -> & Q). unfold f_lt. cbn [f_le]. destruct (Z.ltb_spec a b) as [L|L].
  - rewrite (proj2 (Qle_bool_iff _ _)) by (rewrite P, Q; unfold Qle; cbn; lia). destruct (Qle_bool q p) eqn:E; [|reflexivity]. apply Qle_bool_iff in E. rewrite P, Q in E. unfold Qle in E; cbn in E. lia.
  - rewrite (proj2 (Qle_bool_iff q p)) by (rewrite P, Q; unfold Qle; cbn; lia). apply andb_false_r.
Qed.
Lemma ten : quarters (Fin 10) 40. Proof. exists 10%Q. split; reflexivity. Qed.
Lemma zero : quarters (Fin 0) 0. Proof. exists 0%Q. split; reflexivity. Qed.

Lemma places_common w h : places w h = map (fun i => (i mod w, i / w)%nat) (seq 0 (w * h)).
Proof.
  unfold places. destruct w as [|w0]; [cbn [seq map Nat.mul]; generalize (seq 0 h); induction l; cbn; auto|]. set (w := S w0).
  enough (K : forall n a, flat_map (fun y => map (fun x => (x, y)) (seq 0 w)) (seq a n) = map (fun i => (i mod w, i / w)%nat) (seq (w * a) (w * n))) by (rewrite K, Nat.mul_0_r; reflexivity).
  induction n as [|n IH]; intros a; [rewrite Nat.mul_0_r; reflexivity|]. cbn [seq flat_map]. rewrite IH. replace (w * S n)%nat with (w + w * n)%nat by lia. rewrite seq_app, map_app. replace (w * a + w)%nat with (w * S a)%nat by lia. f_equal.
  assert (S1 : seq (w * a) w = map (fun x => w * a + x)%nat (seq 0 w)).
  { enough (G : forall m k z, seq (k + z) m = map (fun x => k + x)%nat (seq z m)) by (rewrite <- (G w (w * a)%nat 0%nat), Nat.add_0_r; reflexivity). induction m as [|m IHm]; intros k z; cbn [seq map]; [reflexivity|]. rewrite <- IHm, Nat.add_succ_r. reflexivity. }
  rewrite S1, map_map. apply map_ext_in. intros x Hx. apply in_seq in Hx. rewrite (Nat.mul_comm w a), Nat.add_comm, Nat.mod_add, Nat.div_add by (unfold w; lia). rewrite Nat.mod_small, Nat.div_small by lia. reflexivity.
Qed.

Section Walk.
  Variables a b : pixmap.
  Hypothesis A : bytes_only a.
  Hypothesis B : bytes_only b.
  Definition rows (p : nat * nat) (d : difference) : Prop :=
    d_x d = fst p /\ d_y d = snd p /\ d_ours d = m_at a (fst p) (snd p) /\ d_theirs d = m_at b (fst p) (snd p) /\ number (d_by d) (off_at a b p # 4).
  Lemma walk_ok : forall l ds s m (mz : Z), Forall (fun p => (fst p < Nat.min (m_w a) (m_w b))%nat /\ (snd p < Nat.min (m_h a) (m_h b))%nat) l -> quarters m mz ->
    exists es s' m', walk a b l ds s m = Some (ds ++ es, s', m') /\ Forall2 rows (filter (fun p => 40 <? off_at a b p) l) es /\ quarters m' (fold_right Z.max mz (map (off_at a b) l)) /\
      (forall sz, quarters s sz -> 0 <= sz -> sz + sum (map (off_at a b) l) < 16777216 -> quarters s' (sz + sum (map (off_at a b) l))).
  Proof.
    induction l as [|[x y] l IH]; intros ds s m mz F Q; cbn [walk].
    { exists [], s, m. rewrite app_nil_r. split; [reflexivity|]. split; [constructor|]. split; [exact Q|]. intros sz H _ _. cbn [map sum fold_right]. rewrite Z.add_0_r. exact H. }
    inversion_clear F as [|? ? [F1 F2] F']. cbn [fst snd] in F1, F2. unfold pixel_at.
    rewrite (proj2 (Nat.ltb_lt x (m_w a))), (proj2 (Nat.ltb_lt y (m_h a))), (proj2 (Nat.ltb_lt x (m_w b))), (proj2 (Nat.ltb_lt y (m_h b))) by lia. cbn [andb].
    pose proof (diff_ok _ _ (A x y) (B x y)) as D. pose proof (off_range _ _ (A x y) (B x y)) as R. set (d := pixel_diff (m_at a x y) (m_at b x y)) in *.
    assert (EO : off_at a b (x, y) = off_by (m_at a x y) (m_at b x y)) by reflexivity. rewrite <- EO in D, R.
    rewrite (lt_quarters _ _ _ _ ten D), (lt_quarters _ _ _ _ Q D).
    assert (Q' : quarters (if mz <? off_at a b (x, y) then d else m) (Z.max mz (off_at a b (x, y)))) by (destruct (Z.ltb_spec mz (off_at a b (x, y))); [rewrite Z.max_r by lia; exact D|rewrite Z.max_l by lia; exact Q]).
    destruct (IH (if 40 <? off_at a b (x, y) then ds ++ [Df x y (m_at a x y) (m_at b x y) d] else ds) (f_add f32 s d) _ _ F' Q') as (es & s' & m' & E & H1 & H2 & H3).
    rewrite E. cbn [filter map fold_right]. assert (MX : fold_right Z.max (Z.max mz (off_at a b (x, y))) (map (off_at a b) l) = Z.max (off_at a b (x, y)) (fold_right Z.max mz (map (off_at a b) l))).
    { clear. induction (map (off_at a b) l) as [|z t IHt]; cbn [fold_right]; lia. }
    rewrite MX in H2.
    assert (H3' : forall sz, quarters s sz -> 0 <= sz -> sz + sum (off_at a b (x, y) :: map (off_at a b) l) < 16777216 -> quarters s' (sz + sum (off_at a b (x, y) :: map (off_at a b) l))).
    { intros sz Hs P L. cbn [sum fold_right] in *. fold (sum (map (off_at a b) l)) in *. assert (NN : 0 <= sum (map (off_at a b) l)).
      { clear - A B. induction l as [|p t IHt]; cbn [map sum fold_right]; [lia|]. fold (sum (map (off_at a b) t)). pose proof (off_range _ _ (A (fst p) (snd p)) (B (fst p) (snd p))). unfold off_at at 1. lia. }
      rewrite Z.add_assoc. apply H3; [|lia|lia]. apply add_quarter; [exact Hs|exact D|lia]. }
    destruct (40 <? off_at a b (x, y)).
    - exists (Df x y (m_at a x y) (m_at b x y) d :: es), s', m'. rewrite <- app_assoc. split; [reflexivity|]. split; [constructor; [|exact H1]|split; [exact H2|exact H3']]. repeat split; exact D.
    - exists es, s', m'. split; [reflexivity|]. split; [exact H1|]. split; [exact H2|exact H3'].
  Qed.
  Lemma common_inside : Forall (fun p => (fst p < Nat.min (m_w a) (m_w b))%nat /\ (snd p < Nat.min (m_h a) (m_h b))%nat) (common a b).
  Proof.
    unfold common. set (w := Nat.min (m_w a) (m_w b)). set (h := Nat.min (m_h a) (m_h b)). apply Forall_forall. intros p Hp. apply in_map_iff in Hp. destruct Hp as (i & <- & Hi). apply in_seq in Hi. cbn [fst snd].
    assert (w <> 0)%nat by (intros Z; rewrite Z in Hi; cbn in Hi; lia). split; [apply Nat.mod_upper_bound; assumption|apply Nat.div_lt_upper_bound; [assumption|lia]].
  Qed.
End Walk.

Lemma compare_ok a b : bytes_only a -> bytes_only b -> (N.of_nat (m_w a) * N.of_nat (m_h a) < 4294967296)%N ->
  exists c, compare a b = Some c /\ Forall2 (rows a b) (filter (fun p => 40 <? off_at a b p) (common a b)) (c_list c) /\ c_different c = List.length (c_list c) /\
    number (c_max c) (fold_right Z.max 0 (map (off_at a b) (common a b)) # 4).
Proof.
  intros A B S. destruct (walk_ok a b A B (common a b) [] (Fin 0) (Fin 0) 0 (common_inside a b) zero) as (es & s & m & E & H1 & H2 & _).
  unfold compare. rewrite places_common. fold (common a b). rewrite E. cbn [app]. rewrite (proj2 (N.leb_gt _ _) S). eexists. split; [reflexivity|]. cbn [c_list c_different c_max]. repeat split; assumption.
Qed.
Lemma compare_ends a b : bytes_only a -> bytes_only b -> (4294967296 <= N.of_nat (m_w a) * N.of_nat (m_h a))%N -> compare a b = None.
Proof.
  intros A B S. destruct (walk_ok a b A B (common a b) [] (Fin 0) (Fin 0) 0 (common_inside a b) zero) as (es & s & m & E & _).
  unfold compare. rewrite places_common. fold (common a b). rewrite E. rewrite (proj2 (N.leb_le _ _) S). reflexivity.
Qed.
Lemma whole_count n : (0 < n)%N -> (n <= 16777216)%N -> exists v, f_of_N f32 n = Fin v /\ (v == inject_Z (Z.of_N n))%Q.
Proof. intros P L. exact (int_exact (Z.of_N n) ltac:(lia)). Qed.
Lemma compare_mean a b c : bytes_only a -> bytes_only b -> (0 < N.of_nat (m_w a) * N.of_nat (m_h a) <= 16777216)%N -> sum (map (off_at a b) (common a b)) < 16777216 -> compare a b = Some c ->
  c_total c = (N.of_nat (m_w a) * N.of_nat (m_h a))%N /\
  c_average c = round_to f32 (inject_Z (sum (map (off_at a b) (common a b))) / (4 * inject_Z (Z.of_N (N.of_nat (m_w a) * N.of_nat (m_h a)))))%Q.
Proof.
  intros A B [P L] T. destruct (walk_ok a b A B (common a b) [] (Fin 0) (Fin 0) 0 (common_inside a b) zero) as (es & s & m & E & _ & _ & H3).
  specialize (H3 0 zero ltac:(lia) ltac:(lia)). cbn [Z.add] in H3. destruct H3 as (t & -> & T').
  unfold compare. rewrite places_common. fold (common a b). rewrite E. set (n := (N.of_nat (m_w a) * N.of_nat (m_h a))%N) in *. rewrite (proj2 (N.leb_gt _ _)) by lia. intros [= <-]. cbn [c_total c_average].
  destruct (whole_count n P L) as (v & -> & V). assert (NZ : ~ (v == 0)%Q) by (rewrite V; unfold Qeq, inject_Z; cbn; lia). split.
  - unfold f_to_N. cbn [f_to_Z]. assert (TZ : Z.quot (Qnum v) (Zpos (Qden v)) = Z.of_N n).
    { unfold Qeq in V. cbn [Qnum Qden inject_Z] in V. replace (Qnum v) with (Z.of_N n * Zpos (Qden v)) by lia. apply Z.quot_mul. lia. }
    rewrite TZ. lia.
  - unfold f_div. replace (qzero v) with false. 2:{ symmetry. unfold qzero. apply Z.eqb_neq. intros K. apply NZ. unfold Qeq. rewrite K. reflexivity. }
    apply round_wd; [exact valid32|]. rewrite T', V. assert (NZ' : ~ (inject_Z (Z.of_N n) == 0)%Q) by (rewrite <- V; exact NZ). setoid_replace (sum (map (off_at a b) (common a b)) # 4)%Q with (inject_Z (sum (map (off_at a b) (common a b))) * (1 # 4))%Q by (unfold Qeq, Qmult, inject_Z; cbn [Qnum Qden]; lia). field. exact NZ'.
Qed.

Lemma off_zero p q : byte_color p -> byte_color q -> off_by p q = 0 -> p = q.
Proof. destruct p as [[[r1 g1] b1] a1], q as [[[r2 g2] b2] a2]. cbn [off_by]. unfold gap. intros _ _ E. assert (r1 = r2 /\ g1 = g2 /\ b1 = b2 /\ a1 = a2) by lia. intuition congruence. Qed.
Lemma max_zero l : Forall (fun z => 0 <= z) l -> (fold_right Z.max 0 l = 0 <-> Forall (fun z => z = 0) l).
Proof.
  assert (P : forall l, 0 <= fold_right Z.max 0 l) by (clear; induction l; cbn [fold_right]; lia).
  induction 1 as [|z l H _ IH]; cbn [fold_right]; [split; [constructor|reflexivity]|]. specialize (P l). split.
  - intros E. constructor; [lia|]. apply IH. lia.
  - intros F. inversion_clear F. rewrite (proj2 IH) by assumption. lia.
Qed.
Lemma common_all a b x y : (x < Nat.min (m_w a) (m_w b))%nat -> (y < Nat.min (m_h a) (m_h b))%nat -> In (x, y) (common a b).
Proof.
  intros X Y. unfold common. set (w := Nat.min (m_w a) (m_w b)) in *. set (h := Nat.min (m_h a) (m_h b)) in *. apply in_map_iff. exists (x + y * w)%nat. split.
  - rewrite Nat.mod_add, Nat.div_add by lia. rewrite Nat.mod_small, Nat.div_small by lia. reflexivity.
  - apply in_seq. nia.
Qed.
Lemma compare_same a b c : bytes_only a -> bytes_only b -> compare a b = Some c ->
  (number (c_max c) 0 <-> forall x y, (x < Nat.min (m_w a) (m_w b))%nat -> (y < Nat.min (m_h a) (m_h b))%nat -> m_at a x y = m_at b x y).
Proof.
  intros A B C. destruct (N.le_gt_cases 4294967296 (N.of_nat (m_w a) * N.of_nat (m_h a))) as [S|S]; [rewrite (compare_ends a b A B S) in C; discriminate|].
  destruct (compare_ok a b A B S) as (c' & E & _ & _ & (v & EV & V)). rewrite C in E. injection E as <-. rewrite EV.
  assert (F : Forall (fun z => 0 <= z) (map (off_at a b) (common a b))) by (apply Forall_forall; intros z Hz; apply in_map_iff in Hz; destruct Hz as (p & <- & _); apply (off_range _ _ (A (fst p) (snd p)) (B (fst p) (snd p)))).
  transitivity (fold_right Z.max 0 (map (off_at a b) (common a b)) = 0).
  - split.
    + intros (w & [= <-] & W). rewrite V in W. unfold Qeq in W; cbn [Qnum Qden] in W. lia.
    + intros Z. exists v. split; [reflexivity|]. rewrite V, Z. reflexivity.
  - rewrite (max_zero _ F). split.
    + intros G x y X Y. rewrite Forall_forall in G. apply off_zero; [apply A|apply B|]. apply G. apply in_map_iff. exists (x, y). split; [reflexivity|apply common_all; assumption].
    + intros G. apply Forall_forall. intros z Hz. apply in_map_iff in Hz. destruct Hz as ([x y] & <- & I). pose proof (common_inside a b) as K. rewrite Forall_forall in K. destruct (K _ I) as [X Y]. unfold off_at. cbn [fst snd] in *. rewrite (G x y X Y). destruct (m_at b x y) as [[[r g] bl] al]. cbn [off_by]. unfold gap. lia.
Qed.
