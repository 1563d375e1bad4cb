(* Proofs about the lines of a text and about boxes that are placed or moved. *)
From Verif Require Import Base BaseLemmas FloatModel FloatSpec FloatProofs CollideProofs AnimModel AnimSpec AnimProofs AnimFields LayoutModel LayoutSpec LayoutProofs.
From Coq Require Import Lqa Qminmax.
Local Open Scope Z_scope.

(* ---- lines ---- *)
Definition row_y (spacing : float) (i : nat) : float := f_mul f32 (f_of_N f32 (N.of_nat i)) (f_add f32 (Fin 50) spacing).
Fixpoint rows (spacing : float) (i : nat) (l : list str) : list line :=
  match l with [] => [] | s :: r => Ln s (Fin 0) (row_y spacing i) (text_width s) (Fin 50) (Fin 40) :: rows spacing (S i) r end.
Lemma stack_rows sp : forall l i ls wd tl, stack i sp l ls wd tl =
  (ls ++ rows sp i l, fold_left (fun m s => f_max m (text_width s)) l wd, match l with [] => tl | _ => f_add f32 (row_y sp (i + length l - 1)) (Fin 50) end).
Proof.
  induction l as [|s r IH]; intros i ls wd tl; cbn [stack rows fold_left].
  - now rewrite app_nil_r.
  - rewrite IH, <- app_assoc. f_equal. destruct r as [|s' r]; cbn [length]; [now replace (i + 1 - 1)%nat with i by lia|now replace (S i + S (length r) - 1)%nat with (i + S (S (length r)) - 1)%nat by lia].
Qed.
Lemma rows_length sp : forall l i, length (rows sp i l) = length l.
Proof. induction l; intros; cbn; [reflexivity|now rewrite IHl]. Qed.
Lemma rows_text sp : forall l i, map l_text (rows sp i l) = l.
Proof. induction l; intros; cbn; [reflexivity|now rewrite IHl]. Qed.
Lemma rows_at sp : forall l i k s, nth_error l k = Some s -> nth_error (rows sp i l) k = Some (Ln s (Fin 0) (row_y sp (i + k)) (text_width s) (Fin 50) (Fin 40)).
Proof.
  induction l as [|x r IH]; intros i k s H; destruct k; cbn in H |- *; try discriminate.
  - injection H as ->. now rewrite Nat.add_0_r.
  - rewrite (IH (S i) k s H). now replace (S i + k)%nat with (i + S k)%nat by lia.
Qed.
Lemma new_is text a sp : multiline_new text a sp =
  let l := split_on is_nl text in let w := fold_left (fun m s => f_max m (text_width s)) l (Fin 0) in
  Ml (map (shift a w) (rows sp 0 l)) w (match l with [] => Fin 0 | _ => f_add f32 (row_y sp (0 + length l - 1)) (Fin 50) end).
Proof. unfold multiline_new. rewrite stack_rows. reflexivity. Qed.
Lemma is_nl_eq x : is_nl x = true <-> x = 10%N.
Proof. apply N.eqb_eq. Qed.
Lemma lines_text text a sp : join [10%N] (map l_text (ml_lines (multiline_new text a sp))) = text /\ Forall (fun l => ~ In 10%N (l_text l)) (ml_lines (multiline_new text a sp)).
Proof.
  rewrite new_is. cbn [ml_lines]. assert (E : map l_text (map (shift a (fold_left (fun m s => f_max m (text_width s)) (split_on is_nl text) (Fin 0))) (rows sp 0 (split_on is_nl text))) = split_on is_nl text).
  { rewrite map_map. cbn [shift l_text]. apply rows_text. }
  split; [rewrite E; apply join_split_on, is_nl_eq|]. apply Forall_forall. intros l I. assert (J : In (l_text l) (split_on is_nl text)) by (rewrite <- E; now apply in_map). clear E I. revert J. generalize (l_text l). clear.
  intros p. revert p. assert (G : Forall (fun p => ~ In 10%N p) (split_on is_nl text)); [|rewrite Forall_forall in G; exact G].
  induction text as [|c r IH]; cbn [split_on]; [now repeat constructor|]. destruct (is_nl c) eqn:E.
  - constructor; [now intros []|exact IH].
  - assert (c <> 10%N) by (intros ->; discriminate). destruct (split_on is_nl r) as [|x y]; [now repeat constructor; cbn; intros [|[]]|]. inversion_clear IH. constructor; [cbn; intros [|]; tauto|assumption].
Qed.
Lemma max_whole x y a b : whole x a -> whole y b -> whole (f_max x y) (Z.max a b).
Proof.
  intros (p & -> & P) (q & -> & Q). unfold f_max. cbn [f_le]. destruct (Qle_bool p q) eqn:E.
  - apply Qle_bool_iff in E. rewrite P, Q in E. rewrite <- Zle_Qle in E. rewrite Z.max_r by lia. now exists q.
  - assert (~ (p <= q)%Q) as E' by (rewrite <- Qle_bool_iff, E; discriminate). rewrite P, Q, <- Zle_Qle in E'. rewrite Z.max_l by lia. now exists p.
Qed.
Definition fits (s : str) : Prop := 20 * Z.of_nat (blen s) <= 1048576.
Lemma width_ok s : fits s -> whole (text_width s) (20 * Z.of_nat (blen s)).
Proof.
  unfold fits. intros F. unfold text_width. rewrite Z.mul_comm. replace (Z.of_nat (blen s)) with (Z.of_N (N.of_nat (blen s))) by lia. apply mul_whole; [apply of_N; lia|exact (lit_whole 20)|lia].
Qed.
Lemma widest_ok : forall l x a, Forall fits l -> whole x a -> 0 <= a -> whole (fold_left (fun m s => f_max m (text_width s)) l x) (Z.max a (widest l)).
Proof.
  induction l as [|s r IH]; intros x a F X A; cbn [fold_left].
  - unfold widest. cbn. now rewrite Z.max_l by lia.
  - inversion_clear F as [|? ? Fs Fr]. replace (Z.max a (widest (s :: r))) with (Z.max (Z.max a (20 * Z.of_nat (blen s))) (widest r)) by (unfold widest; cbn [map fold_right]; lia).
    apply IH; [exact Fr|apply max_whole; [exact X|now apply width_ok]|lia].
Qed.
Lemma widest_ge l s : In s l -> 20 * Z.of_nat (blen s) <= widest l.
Proof. unfold widest. induction l as [|x r IH]; intros []; cbn [map fold_right]; [subst; lia|specialize (IH H); lia]. Qed.
Lemma widest_bound l : Forall fits l -> 0 <= widest l <= 1048576.
Proof. unfold widest, fits. induction 1; cbn [map fold_right]; lia. Qed.
Lemma row_ok sp S i : whole sp S -> Z.of_nat i * (50 + Z.abs S) <= 1048576 -> Z.abs S <= 1048576 -> whole (row_y sp i) (Z.of_nat i * (50 + S)).
Proof.
  intros W B A. unfold row_y. replace (Z.of_nat i) with (Z.of_N (N.of_nat i)) in * by lia. apply mul_whole; [apply of_N; nia|apply add_whole; [exact (lit_whole 50)|exact W|lia]|]. rewrite Z.abs_mul. nia.
Qed.
Lemma blen_part : forall s p, In p (split_on is_nl s) -> (blen p <= blen s)%nat.
Proof.
  intros s p I. rewrite <- (join_split_on is_nl 10%N s is_nl_eq) at 1. induction (split_on is_nl s) as [|x r IH]; [destruct I|]. destruct r as [|y r].
  - destruct I as [->|[]]. cbn [join]. lia.
  - rewrite join_cons by discriminate. rewrite !blen_app. destruct I as [->|I]; [lia|specialize (IH I); lia].
Qed.
Lemma lines_exact text a sp S : whole sp S -> 20 * Z.of_nat (blen text) <= 1048576 -> Z.of_nat (length (split_on is_nl text)) * (50 + Z.abs S) <= 1048576 ->
  let m := multiline_new text a sp in let parts := split_on is_nl text in
  length (ml_lines m) = length parts /\
  (forall i s, nth_error parts i = Some s -> exists l, nth_error (ml_lines m) i = Some l /\ line_at (col_of a) (widest parts) S i s l /\ 0 <= widest parts - 20 * Z.of_nat (blen s)) /\
  whole (ml_width m) (widest parts) /\ whole (ml_height m) ((Z.of_nat (length parts) - 1) * (50 + S) + 50).
Proof.
  intros W T B. cbv zeta. rewrite new_is. cbv zeta. cbn [ml_lines ml_width ml_height]. set (parts := split_on is_nl text) in *. assert (NE : parts <> []) by apply split_on_nonempty.
  assert (F : Forall fits parts). { apply Forall_forall. intros p I. unfold fits. pose proof (blen_part text p I). lia. }
  assert (L : 1 <= Z.of_nat (length parts)) by (destruct parts; [congruence|cbn [length]; lia]).
  assert (SA : Z.abs S <= 1048576) by nia.
  pose proof (widest_bound parts F) as WB. assert (WD : whole (fold_left (fun m s => f_max m (text_width s)) parts (Fin 0)) (widest parts)).
  { replace (widest parts) with (Z.max 0 (widest parts)) by lia. apply widest_ok; [exact F|exact (lit_whole 0)|lia]. }
  split; [now rewrite map_length, rows_length|]. split; [|split; [exact WD|]].
  - intros i s H. exists (shift a (fold_left (fun m s => f_max m (text_width s)) parts (Fin 0)) (Ln s (Fin 0) (row_y sp i) (text_width s) (Fin 50) (Fin 40))).
    split; [rewrite (map_nth_error _ _ _ (rows_at sp parts 0 i s H)); reflexivity|]. assert (I : In s parts) by (eapply nth_error_In; exact H). pose proof (widest_ge parts s I) as G. split; [|lia].
    assert (LI : (i < length parts)%nat) by (apply nth_error_Some; congruence). assert (FS : fits s) by (rewrite Forall_forall in F; now apply F). unfold fits in FS.
    unfold line_at. cbv zeta. unfold shift; cbn [l_text l_x l_y l_width l_height l_baseline]. repeat split.
    + unfold col_of. destruct (fst a).
      * exists 0%Q. split; reflexivity.
      * rewrite Z.mul_1_l. apply half_of; [apply sub_whole; [exact WD|now apply width_ok|lia]|lia].
      * apply whole_half. apply sub_whole; [exact WD|now apply width_ok|lia].
    + apply row_ok; [exact W|nia|exact SA].
    + now apply width_ok.
    + exact (lit_whole 50).
    + exact (lit_whole 40).
  - destruct parts as [|p r] eqn:E; [congruence|]. rewrite <- E in *. replace (0 + length parts - 1)%nat with (length parts - 1)%nat by lia. replace (Z.of_nat (length parts) - 1) with (Z.of_nat (length parts - 1)) by lia.
    apply add_whole; [apply row_ok; [exact W|nia|exact SA]|exact (lit_whole 50)|].
    assert (M : Z.abs (Z.of_nat (length parts - 1) * (50 + S)) <= Z.of_nat (length parts) * (50 + Z.abs S)); [|lia]. rewrite Z.abs_mul. apply Z.mul_le_mono_nonneg; lia.
Qed.

(* ---- a placed box ---- *)
Lemma mod3 a : (a mod 3 = 0 \/ a mod 3 = 1 \/ a mod 3 = 2)%N.
Proof. pose proof (N.mod_lt a 3 ltac:(discriminate)). lia. Qed.
Lemma row_seen a : match row a with Bottom => 0 | Centre => 1 | Top => 2 end = snd (seen a).
Proof. unfold row, seen; cbn [snd]. destruct ((4 <=? a) && (a <=? 6))%N, ((7 <=? a) && (a <=? 9))%N; reflexivity. Qed.
Lemma anchor_exact c s a w h W H : on_config c s -> small_screen s -> small W -> small H -> whole w W -> whole h H ->
  halfs (fst (anchor_point a w h c)) (from_left (fst (seen a)) (s_w s) (s_left s) (s_right s) W) /\ halfs (snd (anchor_point a w h c)) (from_top (snd (seen a)) (s_h s) (s_vert s) H).
Proof.
  intros (A & B & C & D & E) (A' & B' & C' & D' & E') SW SH Ww Wh. unfold small in *. unfold anchor_point; cbn [fst snd]. split.
  - unfold seen; cbn [fst]. destruct (mod3 a) as [->|[->| ->]]; unfold from_left; cbv beta iota delta [N.eqb Pos.eqb Z.eqb].
    + apply half_of; [apply sub_whole; [exact A|exact Ww|lia]|lia].
    + now apply whole_half.
    + apply half_of; [apply sub_whole; [exact A|exact Ww|lia]|lia].
  - rewrite <- row_seen. unfold from_top. destruct (row a); cbn [Z.eqb Pos.eqb]; cbv iota.
    + apply whole_half. apply sub_whole; [apply sub_whole; [exact B|exact E|lia]|exact Wh|lia].
    + apply half_of; [apply sub_whole; [exact B|exact Wh|lia]|lia].
    + now apply whole_half.
Qed.
Lemma offset_x_ok a w W : small W -> whole w W -> halfs (offset_x a w) (inset (fst (seen a)) W).
Proof.
  unfold small, inset, seen, offset_x; cbn [fst]. intros S Ww. destruct (mod3 a) as [->|[->| ->]]; cbv beta iota delta [N.eqb Pos.eqb].
  - rewrite Z.mul_1_l. apply half_of; [exact Ww|lia].
  - exists 0%Q. split; reflexivity.
  - rewrite Z.mul_1_l. apply half_of; [exact Ww|lia].
Qed.
Lemma offset_y_ok a h H : small H -> whole h H -> halfs (offset_y a h) (drop (snd (seen a)) H).
Proof.
  unfold small, drop, offset_y. intros S Wh. rewrite <- row_seen. destruct (row a); cbn [Z.sub Z.add Z.opp Z.pos_sub].
  - change (2 - 0) with 2. now apply whole_half.
  - change (2 - 1) with 1. rewrite Z.mul_1_l. apply half_of; [exact Wh|lia].
  - change (2 - 2) with 0. exists 0%Q. split; reflexivity.
Qed.
Lemma inset_small a W : small W -> Z.abs (inset (fst (seen a)) W) <= 2097152.
Proof. unfold small, inset, seen; cbn [fst]. destruct (a mod 3 =? 1)%N; lia. Qed.
Lemma drop_small a H : small H -> Z.abs (drop (snd (seen a)) H) <= 2097152.
Proof. unfold small, drop. rewrite <- row_seen. destruct (row a); lia. Qed.

(* ---- a moving box ---- *)
Definition slide (x1 x2 off k : float) : float := f_sub f32 (LayoutModel.between x1 x2 k) off.
Section Slide.
  Variables (x1 x2 off : float) (X1 X2 O : Z).
  Hypotheses (W1 : whole x1 X1) (W2 : whole x2 X2) (WO : halfs off O) (S1 : small X1) (S2 : small X2) (SO : Z.abs O <= 2097152).
  Lemma slide_parts k : (0 <= k <= 1)%Q -> exists u d o m a v, x1 = Fin u /\ off = Fin o /\ f_sub f32 x2 x1 = Fin d /\ (u == inject_Z X1)%Q /\ (d == inject_Z (X2 - X1))%Q /\ round_to f32 (d * k) = Fin m /\ round_to f32 (u + m) = Fin a /\ round_to f32 (a + - o) = Fin v /\ slide x1 x2 off (Fin k) = Fin v.
  Proof.
    intros K. unfold small in *. assert (D : whole (f_sub f32 x2 x1) (X2 - X1)) by (apply sub_whole; [exact W2|exact W1|lia]). destruct W1 as (u & E1 & U), WO as (o & EO & Oq), D as (d & ED & Dq).
    assert (B1 : (inject_Z (Z.min 0 (X2 - X1)) <= d * k <= inject_Z (Z.max 0 (X2 - X1)))%Q).
    { rewrite Dq. destruct (Z.le_gt_cases X1 X2) as [L|L].
      - assert (0 <= inject_Z (X2 - X1))%Q by (change 0%Q with (inject_Z 0); rewrite <- Zle_Qle; lia). rewrite Z.min_l, Z.max_r by lia. change (inject_Z 0) with 0%Q. nra.
      - assert (inject_Z (X2 - X1) <= 0)%Q by (change 0%Q with (inject_Z 0); rewrite <- Zle_Qle; lia). rewrite Z.min_r, Z.max_l by lia. change (inject_Z 0) with 0%Q. nra. }
    destruct (fin_of_bounds (d * k)%Q (inject_Z (Z.min 0 (X2 - X1))) (inject_Z (Z.max 0 (X2 - X1)))) as (m & Em & Bd); [apply int_fits; lia|apply int_fits; lia|exact B1|].
    destruct (fin_of_bounds (u + m)%Q (inject_Z (X1 + Z.min 0 (X2 - X1))) (inject_Z (X1 + Z.max 0 (X2 - X1)))) as (a & Ea & Ab); [apply int_fits; lia|apply int_fits; lia|rewrite U, !inject_Z_plus; lra|].
    destruct (fin_of_bounds (a + - o)%Q (2 * (X1 + Z.min 0 (X2 - X1)) - O # 2) (2 * (X1 + Z.max 0 (X2 - X1)) - O # 2)) as (v & Ev & _); [apply half_rep; lia|apply half_rep; lia| |].
    { rewrite Oq. assert (Hq : forall z, (2 * z - O # 2 == inject_Z z - (O # 2))%Q) by (intros; unfold Qeq, Qminus, Qplus, Qopp, inject_Z; cbn [Qnum Qden]; lia). rewrite !Hq. lra. }
    exists u, d, o, m, a, v. repeat (split; [assumption|]). unfold slide, LayoutModel.between. rewrite ED, E1, EO. cbn [f_mul f_add f_sub f_opp]. unfold f_sub. rewrite Em. cbn [f_add f_opp]. rewrite Ea. cbn [f_add]. exact Ev.
  Qed.
  Lemma slide_mono k k' : (0 <= k <= 1)%Q -> (0 <= k' <= 1)%Q -> (k <= k')%Q -> ordered (X1 <=? X2) (slide x1 x2 off (Fin k)) (slide x1 x2 off (Fin k')).
  Proof.
    intros K K' L. destruct (slide_parts k K) as (u & d & o & m & a & v & E1 & EO & ED & U & D & Em & Ea & Ev & E). destruct (slide_parts k' K') as (u' & d' & o' & m' & a' & v' & E1' & EO' & ED' & _ & _ & Em' & Ea' & Ev' & E').
    rewrite E1 in E1'; injection E1' as <-. rewrite EO in EO'; injection EO' as <-. rewrite ED in ED'; injection ED' as <-. exists v, v'. split; [exact E|]. split; [exact E'|]. destruct (Z.leb_spec X1 X2) as [G|G].
    - assert (0 <= d)%Q by (rewrite D; change 0%Q with (inject_Z 0); rewrite <- Zle_Qle; lia). eapply mono_fin; [|exact Ev|exact Ev']. assert (a <= a')%Q; [|lra]. eapply mono_fin; [|exact Ea|exact Ea']. assert (m <= m')%Q; [|lra]. eapply mono_fin; [|exact Em|exact Em']. nra.
    - assert (d <= 0)%Q by (rewrite D; change 0%Q with (inject_Z 0); rewrite <- Zle_Qle; lia). eapply mono_fin; [|exact Ev'|exact Ev]. assert (a' <= a)%Q; [|lra]. eapply mono_fin; [|exact Ea'|exact Ea]. assert (m' <= m)%Q; [|lra]. eapply mono_fin; [|exact Em'|exact Em]. nra.
  Qed.
  Lemma slide_at k z : whole k z -> z = 0 \/ z = 1 -> halfs (slide x1 x2 off k) (2 * (X1 + z * (X2 - X1)) - O).
  Proof.
    intros K Z. unfold small in *. unfold slide, LayoutModel.between. apply sub_half; [|exact WO|nia]. apply -> whole_half. rewrite (Z.mul_comm z). apply add_whole; [exact W1| |nia]. apply mul_whole; [apply sub_whole; [exact W2|exact W1|lia]|exact K|nia].
  Qed.
End Slide.

Lemma clamp_in v : (0 <= v <= 1)%Q -> LayoutModel.clamp01 (Fin v) = Fin v.
Proof.
  intros V. unfold LayoutModel.clamp01, f_lt. cbn [f_le]. rewrite (proj2 (Qle_bool_iff 0 v)) by lra. rewrite andb_false_r. cbn [f_le]. rewrite (proj2 (Qle_bool_iff v 1)) by lra. now rewrite andb_false_r.
Qed.
Lemma clamp_over v : (1 <= v)%Q -> whole (LayoutModel.clamp01 (Fin v)) 1.
Proof.
  intros V. unfold LayoutModel.clamp01, f_lt. cbn [f_le]. rewrite (proj2 (Qle_bool_iff 0 v)) by lra. rewrite andb_false_r. cbn [f_le]. destruct (Qle_bool v 1) eqn:E.
  - rewrite andb_false_r. apply Qle_bool_iff in E. exists v. split; [reflexivity|]. change (inject_Z 1) with 1%Q. lra.
  - rewrite (proj2 (Qle_bool_iff 1 v)) by lra. exact (lit_whole 1).
Qed.
Lemma factor_over now t1 t2 : (now < 2 ^ 32)%N -> (t2 <= now)%N -> whole (factor now t1 t2) 1.
Proof.
  intros B L. unfold factor. destruct (N.ltb_spec t1 t2) as [T|T]; [|exact (lit_whole 1)]. unfold f_of_N.
  destruct (int_round (Z.of_N (now - t1))) as (a & A); [lia|]. destruct (int_round (Z.of_N (t2 - t1))) as (b & Bq); [lia|]. pose proof (int_pos (Z.of_N (t2 - t1)) b ltac:(lia) Bq) as B1.
  assert (AB : (b <= a)%Q). { eapply mono_fin; [|exact Bq|exact A]. rewrite <- Zle_Qle. lia. }
  rewrite A, Bq. cbn [f_div]. assert (Z : qzero b = false). { unfold qzero. apply Z.eqb_neq. intros Z. unfold Qle in B1. cbn in B1. rewrite Z in B1. lia. } rewrite Z.
  assert (R : (1 <= a / b)%Q) by (apply Qle_shift_div_l; lra).
  assert (HA : (a <= inject_Z (2 ^ 32))%Q). { change (f_of_Z f32 (Z.of_N (now - t1))) with (round_to f32 (inject_Z (Z.of_N (now - t1)))) in A. refine (round_le _ _ _ _ _ A); [split; [reflexivity|exists 1, 32; repeat split; try (cbn; lia); reflexivity]|rewrite <- Zle_Qle; lia]. }
  destruct (fin_of_bounds (a / b)%Q 1 (inject_Z (2 ^ 32))) as (v & E & V1 & _).
  - exact one_fits.
  - split; [reflexivity|exists 1, 32; repeat split; try (cbn; lia); reflexivity].
  - split; [exact R|]. apply Qle_shift_div_r; [lra|]. assert (0 <= inject_Z (2 ^ 32))%Q by (change 0%Q with (inject_Z 0); rewrite <- Zle_Qle; lia). nra.
  - rewrite E. now apply clamp_over.
Qed.
Lemma factor_in now t1 t2 : (t1 < t2)%N -> (t2 < 2 ^ 32)%N -> (now <= t2)%N -> exists v, factor now t1 t2 = Fin v /\ f_div f32 (f_of_N f32 (now - t1)) (f_of_N f32 (t2 - t1)) = Fin v /\ (0 <= v <= 1)%Q.
Proof.
  intros T B L. unfold factor. rewrite (proj2 (N.ltb_lt _ _) T). unfold f_of_N. destruct (ratio_unit (Z.of_N (now - t1)) (Z.of_N (t2 - t1))) as (a & b & v & _ & _ & _ & _ & E & _ & V); [lia|lia|]. exists v. rewrite E. split; [now apply clamp_in|]. now split.
Qed.
Lemma factor_unit now t1 t2 : (now < 2 ^ 32)%N -> (t2 < 2 ^ 32)%N -> exists v, factor now t1 t2 = Fin v /\ (0 <= v <= 1)%Q.
Proof.
  intros B T. destruct (N.le_gt_cases t2 now) as [L|L].
  - destruct (factor_over now t1 t2 B L) as (v & E & V). exists v. split; [exact E|]. rewrite V. change (inject_Z 1) with 1%Q. lra.
  - destruct (N.lt_ge_cases t1 t2) as [L2|L2].
    + destruct (factor_in now t1 t2 L2 T ltac:(lia)) as (v & E & _ & V). now exists v.
    + unfold factor. rewrite (proj2 (N.ltb_ge _ _) L2). exists 1%Q. split; [reflexivity|lra].
Qed.
Lemma factor_mono now now' t1 t2 v v' : (now <= now')%N -> (now' < 2 ^ 32)%N -> (t2 < 2 ^ 32)%N -> factor now t1 t2 = Fin v -> factor now' t1 t2 = Fin v' -> (v <= v')%Q.
Proof.
  intros L B T E E'. destruct (N.lt_ge_cases t1 t2) as [G|G].
  - destruct (N.le_gt_cases t2 now') as [K|K].
    + destruct (factor_over now' t1 t2 B K) as (w & F & W). rewrite E' in F; injection F as <-. destruct (factor_unit now t1 t2 ltac:(lia) T) as (x & X & U). rewrite E in X; injection X as <-. rewrite W. change (inject_Z 1) with 1%Q. lra.
    + destruct (factor_in now t1 t2 G T ltac:(lia)) as (x & X & D & _). destruct (factor_in now' t1 t2 G T ltac:(lia)) as (x' & X' & D' & _). rewrite E in X; injection X as <-. rewrite E' in X'; injection X' as <-. eapply (ratio_mono _ _ (Z.of_N (t2 - t1))); [| | |exact D|exact D']; lia.
  - unfold factor in E, E'. rewrite (proj2 (N.ltb_ge _ _) G) in E, E'. injection E as <-. injection E' as <-. lra.
Qed.
Lemma factor_under now t1 t2 : (t1 < t2)%N -> (t2 < 2 ^ 32)%N -> (now <= t1)%N -> whole (factor now t1 t2) 0.
Proof.
  intros G T L. destruct (factor_in now t1 t2 G T ltac:(lia)) as (v & E & D & V). exists v. split; [exact E|]. replace (now - t1)%N with 0%N in D by lia. change (f_of_N f32 0) with (Fin 0) in D. unfold f_of_N in D. destruct (int_round (Z.of_N (t2 - t1))) as (b & Bq); [lia|]. pose proof (int_pos (Z.of_N (t2 - t1)) b ltac:(lia) Bq) as B1. rewrite Bq in D. cbn [f_div] in D.
  assert (Z : qzero b = false). { unfold qzero. apply Z.eqb_neq. intros Z. unfold Qle in B1. cbn in B1. rewrite Z in B1. lia. } rewrite Z in D. assert (D0 : (0 / b == 0)%Q) by (unfold Qdiv; ring). assert (L0 : (0 / b <= 0)%Q) by (rewrite D0; apply Qle_refl). pose proof (round_le _ _ _ zero_fits32 L0 D). change (inject_Z 0) with 0%Q. lra.
Qed.

(* ---- together ---- *)
Lemma from_left_small col s b : small_screen s -> small b -> Z.abs (from_left col (s_w s) (s_left s) (s_right s) b) <= 6291456.
Proof. intros (A & B & C & D & E) F. unfold small, from_left in *. destruct (col =? 0), (col =? 1); lia. Qed.
Lemma from_top_small rank s b : small_screen s -> small b -> Z.abs (from_top rank (s_h s) (s_vert s) b) <= 6291456.
Proof. intros (A & B & C & D & E) F. unfold small, from_top in *. destruct (rank =? 2), (rank =? 1); lia. Qed.
Lemma fields t w h c : let p := calculate t w h c in let a := align_of t c in
  (p_ax p, p_ay p) = anchor_point a w h c /\
  (p_ox p, p_oy p) = match t_origin t with Some o => o | None => (f_add f32 (p_ax p) (half w), f_add f32 (p_ay p) (half h)) end /\
  (p_x p, p_y p, p_explicit p) = match t_pos t, t_move t with
    | Some (x, y), _ | None, Some (x, y, _, _, _, _) => (f_sub f32 x (offset_x a w), f_sub f32 y (offset_y a h), true)
    | None, None => (p_ax p, p_ay p, false) end.
Proof.
  cbv zeta. unfold calculate. destruct (anchor_point (align_of t c) w h c) as [ax ay]. destruct (t_pos t) as [[px py]|]; [|destruct (t_move t) as [[[[[[x1 y1] x2] y2] t1] t2]|]]; destruct (t_origin t) as [[ox oy]|]; repeat split.
Qed.
Lemma placed_exact t c s w h W H : on_config c s -> small_screen s -> small W -> small H -> whole w W -> whole h H ->
  let p := calculate t w h c in let a := seen (align_of t c) in
  let left := from_left (fst a) (s_w s) (s_left s) (s_right s) W in let top := from_top (snd a) (s_h s) (s_vert s) H in
  halfs (p_ax p) left /\ halfs (p_ay p) top /\
  match t_origin t with Some o => (p_ox p, p_oy p) = o | None => halfs (p_ox p) (left + W) /\ halfs (p_oy p) (top + H) end /\
  match t_pos t, t_move t with
  | Some (x, y), _ | None, Some (x, y, _, _, _, _) => p_explicit p = true /\ forall X Y, whole x X -> whole y Y -> small X -> small Y -> halfs (p_x p) (2 * X - inset (fst a) W) /\ halfs (p_y p) (2 * Y - drop (snd a) H)
  | None, None => p_explicit p = false /\ p_x p = p_ax p /\ p_y p = p_ay p
  end.
Proof.
  intros C S SW SH Ww Wh. cbv zeta. destruct (fields t w h c) as (A & O & X). cbv zeta in A, O, X. destruct (anchor_exact c s (align_of t c) w h W H C S SW SH Ww Wh) as [AX AY]. rewrite <- A in AX, AY. cbn [fst snd] in AX, AY.
  split; [exact AX|]. split; [exact AY|]. split.
  - destruct (t_origin t) as [o|]; [exact O|]. injection O as -> ->. pose proof (from_left_small (fst (seen (align_of t c))) s W S SW). pose proof (from_top_small (snd (seen (align_of t c))) s H S SH). unfold small in *. split; (apply add_half; [assumption|apply half_of; [assumption|lia]|lia]).
  - assert (P : forall x y, (p_x (calculate t w h c), p_y (calculate t w h c), p_explicit (calculate t w h c)) = (f_sub f32 x (offset_x (align_of t c) w), f_sub f32 y (offset_y (align_of t c) h), true) ->
      p_explicit (calculate t w h c) = true /\ forall X Y, whole x X -> whole y Y -> small X -> small Y -> halfs (p_x (calculate t w h c)) (2 * X - inset (fst (seen (align_of t c))) W) /\ halfs (p_y (calculate t w h c)) (2 * Y - drop (snd (seen (align_of t c))) H)).
    { intros x y E. injection E as -> -> ->. split; [reflexivity|]. intros X0 Y0 WX WY SX SY. pose proof (inset_small (align_of t c) W SW). pose proof (drop_small (align_of t c) H SH). unfold small in SX, SY.
      split; (apply sub_half; [now apply whole_half| |lia]); [now apply offset_x_ok|now apply offset_y_ok]. }
    destruct (t_pos t) as [[px py]|]; [now apply P|]. destruct (t_move t) as [[[[[[x1 y1] x2] y2] t1] t2]|]; [now apply P|]. injection X as -> -> ->. now repeat split.
Qed.

Section Moved.
  Variables (t : tags) (c : config) (w h x1 y1 x2 y2 : float) (t1 t2 : N) (W H X1 Y1 X2 Y2 : Z).
  Hypotheses (M : t_move t = Some (x1, y1, x2, y2, t1, t2)) (SW : small W) (SH : small H) (Ww : whole w W) (Wh : whole h H)
    (WX1 : whole x1 X1) (WY1 : whole y1 Y1) (WX2 : whole x2 X2) (WY2 : whole y2 Y2) (SX1 : small X1) (SY1 : small Y1) (SX2 : small X2) (SY2 : small Y2) (T2 : (t2 < 2 ^ 32)%N).
  Let a := align_of t c.
  Lemma moved_is now start : p_x (calculate_with_movement t w h c now start) = slide x1 x2 (offset_x a w) (factor (now - start) t1 t2) /\ p_y (calculate_with_movement t w h c now start) = slide y1 y2 (offset_y a h) (factor (now - start) t1 t2) /\ p_explicit (calculate_with_movement t w h c now start) = true /\
    p_ax (calculate_with_movement t w h c now start) = p_ax (calculate t w h c) /\ p_ay (calculate_with_movement t w h c now start) = p_ay (calculate t w h c) /\ p_ox (calculate_with_movement t w h c now start) = p_ox (calculate t w h c) /\ p_oy (calculate_with_movement t w h c now start) = p_oy (calculate t w h c).
  Proof. unfold calculate_with_movement. rewrite M. repeat split. Qed.
  Lemma moved_ends now start : (now < 2 ^ 32)%N ->
    let p := calculate_with_movement t w h c now start in
    p_explicit p = true /\
    ((t1 < t2)%N -> (now <= start + t1)%N -> halfs (p_x p) (2 * X1 - inset (fst (seen a)) W) /\ halfs (p_y p) (2 * Y1 - drop (snd (seen a)) H)) /\
    ((start + t2 <= now)%N \/ (t2 <= t1)%N -> halfs (p_x p) (2 * X2 - inset (fst (seen a)) W) /\ halfs (p_y p) (2 * Y2 - drop (snd (seen a)) H)).
  Proof.
    intros B. cbv zeta. destruct (moved_is now start) as (-> & -> & -> & _). split; [reflexivity|]. pose proof (inset_small a W SW) as IS. pose proof (drop_small a H SH) as DS. pose proof (offset_x_ok a w W SW Ww) as OX. pose proof (offset_y_ok a h H SH Wh) as OY. split.
    - intros L N. assert (F : whole (factor (now - start) t1 t2) 0) by (apply factor_under; [exact L|exact T2|lia]).
      split; [replace (2 * X1 - inset (fst (seen a)) W) with (2 * (X1 + 0 * (X2 - X1)) - inset (fst (seen a)) W) by lia|replace (2 * Y1 - drop (snd (seen a)) H) with (2 * (Y1 + 0 * (Y2 - Y1)) - drop (snd (seen a)) H) by lia]; (apply slide_at; auto).
    - intros N. assert (F : whole (factor (now - start) t1 t2) 1). { destruct N as [N|N]; [apply factor_over; lia|]. unfold factor. rewrite (proj2 (N.ltb_ge _ _) N). exact (lit_whole 1). }
      split; [replace (2 * X2 - inset (fst (seen a)) W) with (2 * (X1 + 1 * (X2 - X1)) - inset (fst (seen a)) W) by lia|replace (2 * Y2 - drop (snd (seen a)) H) with (2 * (Y1 + 1 * (Y2 - Y1)) - drop (snd (seen a)) H) by lia]; (apply slide_at; auto).
  Qed.
  Lemma moved_ordered now now' start : (now <= now')%N -> (now' < 2 ^ 32)%N ->
    let p := calculate_with_movement t w h c now start in let q := calculate_with_movement t w h c now' start in
    ordered (X1 <=? X2) (p_x p) (p_x q) /\ ordered (Y1 <=? Y2) (p_y p) (p_y q).
  Proof.
    intros L B. cbv zeta. destruct (moved_is now start) as (-> & -> & _). destruct (moved_is now' start) as (-> & -> & _). destruct (factor_unit (now - start) t1 t2) as (k & K & U); [lia|exact T2|]. destruct (factor_unit (now' - start) t1 t2) as (k' & K' & U'); [lia|exact T2|].
    assert (LK : (k <= k')%Q) by (refine (factor_mono (now - start) (now' - start) t1 t2 k k' _ _ T2 K K'); lia). rewrite K, K'. pose proof (inset_small a W SW). pose proof (drop_small a H SH).
    split; [eapply (slide_mono x1 x2 _ X1 X2 (inset (fst (seen a)) W))|eapply (slide_mono y1 y2 _ Y1 Y2 (drop (snd (seen a)) H))]; auto; [now apply offset_x_ok|now apply offset_y_ok].
  Qed.
End Moved.
