From Verif Require Import DrawSpec DrawProofs AnimProofs FloatProofs TrackProofs CollideProofs.
From Verif Require Import CollideModel.
From Coq Require Import Lia Lqa Qabs PeanoNat.
Open Scope Q_scope.

Lemma div6 d : f_div f32 (Fin d) (fl 6) = round_to f32 (d / 6). Proof. reflexivity. Qed.
Lemma div3 d : f_div f32 (Fin d) (fl 3) = round_to f32 (d / 3). Proof. reflexivity. Qed.
Lemma round_in q k b : - b <= q <= b -> b < 2 ^ k -> (-100 <= k <= 100)%Z -> exists v, round_to f32 q = Fin v /\ - 2 ^ (k - 25) <= v - q <= 2 ^ (k - 25).
Proof. intros B K R. destruct (round_err q k) as (v & E & V); [apply Qabs_Qlt_condition; lra|exact R|]. exists v. split; [exact E|]. now apply Qabs_Qle_condition. Qed.
Lemma part_near (ext : bool) d D : -32768 <= D <= 32768 -> - (1 # 512) <= d - D <= 1 # 512 ->
  exists v, (if ext then f_div f32 (mul32 (Fin (1 # 2)) (Fin d)) (fl 3) else f_div f32 (Fin d) (fl 6)) = Fin v /\ - (1 # 1024) <= v - D / 6 <= 1 # 1024.
Proof.
  intros B E. destruct ext.
  - rewrite mul_is. destruct (round_in ((1 # 2) * d) 15 16385) as (h & -> & H); [lra|reflexivity|lia|]. change (2 ^ (15 - 25)) with (1 # 1024) in H. rewrite div3.
    destruct (round_in (h / 3) 13 5463) as (v & -> & V); [unfold Qdiv; change (/ 3) with (1 # 3); lra|reflexivity|lia|]. change (2 ^ (13 - 25)) with (1 # 4096) in V. exists v. split; [reflexivity|]. unfold Qdiv in *. change (/ 3) with (1 # 3) in *. change (/ 6) with (1 # 6) in *. lra.
  - rewrite div6. destruct (round_in (d / 6) 13 5463) as (v & -> & V); [unfold Qdiv; change (/ 6) with (1 # 6); lra|reflexivity|lia|]. change (2 ^ (13 - 25)) with (1 # 4096) in V. exists v. split; [reflexivity|]. unfold Qdiv in *. change (/ 6) with (1 # 6) in *. lra.
Qed.
Lemma bend_near (ext plus : bool) b x y : -16384 <= b <= 16384 -> -16384 <= x <= 16384 -> -16384 <= y <= 16384 ->
  exists v, bend ext (Fin b) (sub32 (Fin y) (Fin x)) plus = Fin v /\ Qabs (v - (if plus then b + (y - x) / 6 else b - (y - x) / 6)) <= 1 # 256.
Proof.
  intros B X Y. unfold bend. rewrite sub_is. destruct (round_in (y - x) 16 32768) as (d & -> & D); [lra|reflexivity|lia|]. change (2 ^ (16 - 25)) with (1 # 512) in D.
  destruct (part_near ext d (y - x)) as (p & -> & P); [lra|exact D|]. unfold Qdiv in *. change (/ 6) with (1 # 6) in *. destruct plus.
  - rewrite add_is. destruct (round_in (b + p) 15 21847) as (v & -> & V); [lra|reflexivity|lia|]. change (2 ^ (15 - 25)) with (1 # 1024) in V. exists v. split; [reflexivity|]. apply Qabs_Qle_condition. lra.
  - rewrite sub_is. destruct (round_in (b - p) 15 21847) as (v & -> & V); [lra|reflexivity|lia|]. change (2 ^ (15 - 25)) with (1 # 1024) in V. exists v. split; [reflexivity|]. apply Qabs_Qle_condition. lra.
Qed.
Lemma control_near (ext plus : bool) p a b xp yp xa ya xb yb : at_point p xp yp -> at_point a xa ya -> at_point b xb yb ->
  near_point (control ext p a b plus) (if plus then xp + (xb - xa) / 6 else xp - (xb - xa) / 6) (if plus then yp + (yb - ya) / 6 else yp - (yb - ya) / 6).
Proof.
  destruct p as [p1 p2], a as [a1 a2], b as [b1 b2]. intros [[P1 P1'] [P2 P2']] [[A1 A1'] [A2 A2']] [[B1 B1'] [B2 B2']]. cbn [fst snd] in *. subst. unfold control. cbn [fst snd].
  destruct (bend_near ext plus xp xa xb P1' A1' B1') as (v & -> & V). destruct (bend_near ext plus yp ya yb P2' A2' B2') as (w & -> & W). exists v, w. now split.
Qed.

Open Scope nat_scope.
(* the curves, by position; prev is the point before the first of ps *)
Definition all_points (prev : option point) (ps : list point) : list point := match prev with Some p => p :: ps | None => ps end.
Lemma curves_len ext : forall ps prev, List.length (curves ext prev ps) = pred (List.length ps).
Proof. induction ps as [|p [|q r] IH]; intros prev; [reflexivity|reflexivity|]. transitivity (S (List.length (curves ext (Some p) (q :: r)))); [reflexivity|]. rewrite IH. reflexivity. Qed.
Lemma curves_nth ext : forall ps prev i c, nth_error (curves ext prev ps) i = Some c ->
  exists p0 p1 p2 p3, c = (control ext p1 p0 p2 true, control ext p2 p1 p3 false, p2) /\
    (match i, prev with 0, Some p => p0 = p | _, _ => nth_error ps (pred i) = Some p0 end) /\ nth_error ps i = Some p1 /\ nth_error ps (S i) = Some p2 /\ nth_error ps (Nat.min (i + 2) (List.length ps - 1)) = Some p3.
Proof.
  induction ps as [|p [|q r] IH]; intros prev i c H; [destruct i; discriminate|destruct i; discriminate|].
  destruct i as [|i].
  - cbn [curves nth_error] in H. injection H as <-. eexists _, _, _, _. split; [reflexivity|]. split; [destruct prev; reflexivity|]. split; [reflexivity|]. split; [reflexivity|]. destruct r; reflexivity.
  - change (nth_error (curves ext (Some p) (q :: r)) i = Some c) in H. apply IH in H. destruct H as (p0 & p1 & p2 & p3 & -> & A & B & C & D). exists p0, p1, p2, p3. split; [reflexivity|]. split; [destruct i; [subst; reflexivity|exact A]|]. split; [exact B|]. split; [exact C|].
    replace (Nat.min (S i + 2) (List.length (p :: q :: r) - 1)) with (S (Nat.min (i + 2) (List.length (q :: r) - 1))) by (cbn [List.length]; lia). exact D.
Qed.
Definition to_cubic (k : curve3) : path_call := let '(a, b, c) := k in PCubic a b c.
Lemma spline_smoothed ext ps : 3 <= List.length ps -> smoothed ps (map to_cubic (spline_to_bezier ps ext)).
Proof.
  intros L. unfold spline_to_bezier. replace (_ <? _) with false by (symmetry; apply Nat.ltb_ge; exact L). split; [exact L|]. split; [rewrite map_length, curves_len; lia|].
  intros i call H. rewrite nth_error_map in H. destruct (nth_error (curves ext None ps) i) as [c|] eqn:E; [|discriminate]. injection H as <-.
  destruct (curves_nth ext ps None i c E) as (p0 & p1 & p2 & p3 & -> & A & B & C & D). eexists _, _, p0, p1, p2, p3. split; [reflexivity|]. split; [destruct i; exact A|]. repeat (split; [assumption|]).
  intros x0 y0 x1 y1 x2 y2 x3 y3 H0 H1 H2 H3. split; [exact (control_near ext true p1 p0 p2 _ _ _ _ _ _ H1 H0 H2)|exact (control_near ext false p2 p1 p3 _ _ _ _ _ _ H2 H1 H3)].
Qed.
Definition enough (c : draw_command) : Prop := match c with Spline ps | ExtendSpline ps => 3 <= List.length ps | _ => True end.
Lemma block_enough cs n b out : block_gives cs n b out -> Forall enough out.
Proof.
  assert (M : forall A (f : A -> draw_command) l, (forall a, enough (f a)) -> Forall enough (map f l)) by (intros A f l H; apply Forall_forall; intros c I; apply in_map_iff in I as (a & <- & _); apply H).
  destruct 1 as [args p ps|args ps|args ps|args bs|args p mid q G K|args p mid q G K|args ps|l args|args].
  - constructor; [exact I|]. apply M. intros a. exact I.
  - apply M. intros a. exact I.
  - apply M. intros a. exact I.
  - apply M. intros [[a b] c]. exact I.
  - constructor; [|constructor]. cbn [enough List.length]. rewrite app_length. destruct mid; [congruence|]. cbn. lia.
  - constructor; [|constructor]. cbn [enough List.length]. rewrite app_length. destruct mid; [congruence|]. cbn. lia.
  - constructor; [assumption|constructor].
  - constructor.
  - constructor; [exact I|constructor].
Qed.
Lemma blocks_enough cs bs out : blocks_give cs bs out -> Forall enough cs -> Forall enough out.
Proof. induction 1 as [|cs b bs o all B _ IH]; intros F; [exact F|]. apply IH. apply Forall_app. split; [exact F|now apply block_enough in B]. Qed.
Lemma calls_are c : enough c -> command_calls c (calls_of c).
Proof.
  intros H. destruct c; cbn [calls_of]; try constructor; cbn [enough] in H; pose proof H as H'; apply Nat.leb_le in H'; rewrite H'; now apply spline_smoothed.
Qed.
Lemma drawing_enough text cs : drawing text cs -> Forall enough cs.
Proof. intros (pre & bs & _ & _ & _ & G). eapply blocks_enough; [exact G|constructor]. Qed.
Lemma process_path text cs : drawing text cs -> cs <> [] -> exists groups, process_drawing_commands text = Done (Some (List.concat groups)) /\ Forall2 command_calls cs groups.
Proof.
  intros D N. exists (map calls_of cs). split.
  - unfold process_drawing_commands. rewrite (proj2 (parse_is text cs) D). cbn [bind]. destruct cs; [congruence|]. rewrite flat_map_concat_map. reflexivity.
  - pose proof (drawing_enough text cs D) as F. clear D N. induction F; constructor; [now apply calls_are|assumption].
Qed.
Lemma process_none text : process_drawing_commands text = Done None <-> (forall cs, drawing text cs -> cs = []).
Proof.
  unfold process_drawing_commands. destruct (parse_total text) as [o E]. rewrite E. cbn [bind]. split.
  - intros H cs D. apply parse_is in D. rewrite E in D. injection D as ->. destruct cs; [reflexivity|discriminate].
  - intros H. destruct o as [cs|]; [|reflexivity]. apply parse_is in E. now rewrite (H cs E).
Qed.
Lemma drawing_one text cs cs' : drawing text cs -> drawing text cs' -> cs = cs'.
Proof. intros A B. apply parse_is in A, B. congruence. Qed.

Open Scope Q_scope.
Lemma whole_diff a b x y : num_is a (inject_Z x) -> num_is b (inject_Z y) -> (-8192 <= x <= 8192)%Z -> (-8192 <= y <= 8192)%Z -> f_lt hundredth (f_abs (f_sub f32 a b)) = true <-> x <> y.
Proof.
  intros (p & -> & P) (q & -> & Q) X Y. change (f_sub f32 (Fin p) (Fin q)) with (round_to f32 (p - q)). rewrite (round_wd f32 f32_valid (p - q) (inject_Z (x - y))) by (rewrite P, Q; unfold Z.sub; rewrite inject_Z_plus, inject_Z_opp; reflexivity).
  destruct (round_exact f32 f32_valid _ (int_fits (x - y) ltac:(lia))) as (v & -> & V). change (f_abs (Fin v)) with (Fin (Qabs v)). 
  assert (H : exists h, hundredth = Fin h /\ 0 < h < 1) by (eexists; split; [vm_compute; reflexivity|split; vm_compute; reflexivity]). destruct H as (h & -> & H0 & H1). unfold f_lt, f_le. rewrite Bool.andb_true_iff, Bool.negb_true_iff.
  split.
  - intros [_ K] ->. assert (Z : Qle_bool (Qabs v) h = true) by (apply Qle_bool_iff; rewrite V, Z.sub_diag; change (Qabs (inject_Z 0)) with 0; lra). congruence.
  - intros NE. assert (G : 1 <= Qabs v). { rewrite V. change (Qabs (inject_Z (x - y))) with (inject_Z (Z.abs (x - y))). change 1 with (inject_Z 1). rewrite <- Zle_Qle. lia. }
    split; [apply Qle_bool_iff; lra|]. destruct (Qle_bool (Qabs v) h) eqn:E; [|reflexivity]. apply Qle_bool_iff in E. lra.
Qed.
Lemma whole_apart p q x y u v : whole_point p x y -> whole_point q u v -> apart p q <-> (x, y) <> (u, v).
Proof.
  intros (A & B & C & D) (E & F & G & H). unfold apart. rewrite (whole_diff _ _ x u A E C G), (whole_diff _ _ y v B F D H). split.
  - intros [K|K] E'; injection E'; intros; congruence.
  - intros K. destruct (Z.eq_dec x u) as [->|NE]; [|now left]. right. congruence.
Qed.
