(* Proofs about matrices, interpolation and the ranges of tag parameters. *)
From Coq Require Import QArith Qround Qabs.
From Verif Require Import Base FloatModel FloatSpec FloatProofs CollideProofs AnimModel AnimSpec AnimProofs AnimFields LayoutSpec LayoutProofs MatrixModel MatrixSpec.
From Coq Require Import Lqa.
Local Open Scope Z_scope.

Lemma abs_mul_le a b m n : Z.abs a <= m -> Z.abs b <= n -> Z.abs (a * b) <= m * n.
Proof. intros A B. rewrite Z.abs_mul. apply Z.mul_le_mono_nonneg; lia. Qed.
Lemma zero_whole : whole (Fin 0) 0. Proof. exact (lit_whole 0). Qed.
Lemma element_ok r x y z a b c X Y Z' m n : whole (r0 r) a -> whole (r1 r) b -> whole (r2 r) c -> whole x X -> whole y Y -> whole z Z' ->
  Z.abs a <= m -> Z.abs b <= m -> Z.abs c <= m -> Z.abs X <= n -> Z.abs Y <= n -> Z.abs Z' <= n -> 3 * (m * n) < 8388608 ->
  whole (element r x y z) (a * X + b * Y + c * Z').
Proof.
  intros Ra Rb Rc Wx Wy Wz Ba Bb Bc Bx By Bz M. pose proof (abs_mul_le _ _ _ _ Ba Bx). pose proof (abs_mul_le _ _ _ _ Bb By). pose proof (abs_mul_le _ _ _ _ Bc Bz).
  unfold element. apply add_whole; [apply add_whole; [|apply mul_whole; [assumption..|lia]|lia]|apply mul_whole; [assumption..|lia]|lia].
  replace (a * X) with (0 + a * X) by lia. apply add_whole; [exact zero_whole|apply mul_whole; [assumption..|lia]|lia].
Qed.
Lemma lt3 i : (i < 3)%nat -> i = 0%nat \/ i = 1%nat \/ i = 2%nat. Proof. lia. Qed.
Lemma product_ok a b A B m n : stands a A -> stands b B -> within m A -> within n B -> 3 * (m * n) < 8388608 -> stands (multiply a b) (product A B).
Proof.
  intros SA SB WA WB M i j I J. unfold product. 
  assert (E : forall r, whole (r0 r) (A i 0%nat) -> whole (r1 r) (A i 1%nat) -> whole (r2 r) (A i 2%nat) -> whole (match j with 0%nat => r0 (row_by r b) | 1%nat => r1 (row_by r b) | _ => r2 (row_by r b) end) (A i 0%nat * B 0%nat j + A i 1%nat * B 1%nat j + A i 2%nat * B 2%nat j)).
  { intros r R0 R1 R2. pose proof (SB 0%nat j ltac:(lia) J) as B0. pose proof (SB 1%nat j ltac:(lia) J) as B1. pose proof (SB 2%nat j ltac:(lia) J) as B2.
    destruct (lt3 j J) as [->|[->| ->]]; cbn [row_by r0 r1 r2]; (eapply (element_ok _ _ _ _ _ _ _ _ _ _ m n); [assumption|assumption|assumption|exact B0|exact B1|exact B2| | | | | | |exact M]; first [apply WA; lia|apply WB; lia]). }
  pose proof (SA i 0%nat I ltac:(lia)) as A0. pose proof (SA i 1%nat I ltac:(lia)) as A1. pose proof (SA i 2%nat I ltac:(lia)) as A2.
  destruct (lt3 i I) as [->|[->| ->]]; unfold entry, multiply; cbn [m0 m1 m2]; apply E; assumption.
Qed.
Lemma along_ok r x y a b c X Y m n : whole (r0 r) a -> whole (r1 r) b -> whole (r2 r) c -> whole x X -> whole y Y -> Z.abs a <= m -> Z.abs b <= m -> Z.abs c <= m -> Z.abs X <= n -> Z.abs Y <= n -> 2 * (m * n) + m < 8388608 ->
  whole (along r x y) (a * X + b * Y + c).
Proof.
  intros Ra Rb Rc Wx Wy Ba Bb Bc Bx By M. pose proof (abs_mul_le _ _ _ _ Ba Bx). pose proof (abs_mul_le _ _ _ _ Bb By).
  unfold along. apply add_whole; [apply add_whole; [apply mul_whole; [assumption..|lia]|apply mul_whole; [assumption..|lia]|lia]|assumption|lia].
Qed.
Lemma point_ok a A x y X Y m n : stands a A -> within m A -> whole x X -> whole y Y -> Z.abs X <= n -> Z.abs Y <= n -> 2 * (m * n) + m < 8388608 ->
  whole (fst (transform_point a x y)) (image A 0 X Y) /\ whole (snd (transform_point a x y)) (image A 1 X Y).
Proof.
  intros S W Wx Wy Bx By M. unfold transform_point, image; cbn [fst snd]. split.
  - pose proof (S 0%nat 0%nat ltac:(lia) ltac:(lia)). pose proof (S 0%nat 1%nat ltac:(lia) ltac:(lia)). pose proof (S 0%nat 2%nat ltac:(lia) ltac:(lia)). eapply (along_ok _ _ _ _ _ _ _ _ m n); try eassumption; apply W; lia.
  - pose proof (S 1%nat 0%nat ltac:(lia) ltac:(lia)). pose proof (S 1%nat 1%nat ltac:(lia) ltac:(lia)). pose proof (S 1%nat 2%nat ltac:(lia) ltac:(lia)). eapply (along_ok _ _ _ _ _ _ _ _ m n); try eassumption; apply W; lia.
Qed.
Lemma product_within A B m n : within m A -> within n B -> within (3 * (m * n)) (product A B).
Proof.
  intros WA WB i j I J. unfold product. pose proof (abs_mul_le _ _ _ _ (WA i 0%nat I ltac:(lia)) (WB 0%nat j ltac:(lia) J)). pose proof (abs_mul_le _ _ _ _ (WA i 1%nat I ltac:(lia)) (WB 1%nat j ltac:(lia) J)). pose proof (abs_mul_le _ _ _ _ (WA i 2%nat I ltac:(lia)) (WB 2%nat j ltac:(lia) J)). lia.
Qed.
Lemma image_within A n m i X Y : within m A -> (i < 3)%nat -> Z.abs X <= n -> Z.abs Y <= n -> Z.abs (image A i X Y) <= 2 * (m * n) + m.
Proof. intros W I BX BY. unfold image. pose proof (abs_mul_le _ _ _ _ (W i 0%nat I ltac:(lia)) BX). pose proof (abs_mul_le _ _ _ _ (W i 1%nat I ltac:(lia)) BY). pose proof (W i 2%nat I ltac:(lia)). lia. Qed.
Lemma image_product A B i X Y : affine B -> image (product A B) i X Y = image A i (image B 0 X Y) (image B 1 X Y).
Proof. intros (E0 & E1 & E2). unfold image, product. rewrite E0, E1, E2. ring. Qed.
Lemma composed_ok a b A B x y X Y m n k : stands a A -> stands b B -> within m A -> within n B -> affine B -> whole x X -> whole y Y -> Z.abs X <= k -> Z.abs Y <= k -> 1 <= m -> 1 <= n -> 1 <= k -> 9 * (m * n * k) < 8388608 ->
  let p := transform_point b x y in let q := transform_point a (fst p) (snd p) in let r := transform_point (multiply a b) x y in
  whole (fst q) (image A 0 (image B 0 X Y) (image B 1 X Y)) /\ whole (snd q) (image A 1 (image B 0 X Y) (image B 1 X Y)) /\
  whole (fst r) (image A 0 (image B 0 X Y) (image B 1 X Y)) /\ whole (snd r) (image A 1 (image B 0 X Y) (image B 1 X Y)).
Proof.
  intros SA SB WA WB AF Wx Wy BX BY M1 N1 K1 M. cbv zeta.
  assert (P1 : m * n <= m * n * k) by nia. assert (P2 : n * k <= m * n * k) by nia. assert (P3 : m <= m * n) by nia. assert (P4 : n <= n * k) by nia.
  destruct (point_ok b B x y X Y n k SB WB Wx Wy BX BY ltac:(lia)) as [Q0 Q1].
  destruct (point_ok a A _ _ _ _ m (2 * (n * k) + n) SA WA Q0 Q1 (image_within B k n 0 X Y WB ltac:(lia) BX BY) (image_within B k n 1 X Y WB ltac:(lia) BX BY) ltac:(nia)) as [R0 R1].
  destruct (point_ok (multiply a b) (product A B) x y X Y (3 * (m * n)) k (product_ok a b A B m n SA SB WA WB ltac:(lia)) (product_within A B m n WA WB) Wx Wy BX BY ltac:(nia)) as [S0 S1].
  rewrite image_product in S0, S1 by exact AF. repeat split; assumption.
Qed.

(* the identity changes no matrix of numbers *)
Lemma same_number x q : number32 x q -> (0 + q == q)%Q -> exists v, round_to f32 (0 + q) = Fin v /\ (v == q)%Q.
Proof. intros ((u & -> & U) & R) E. rewrite (round_wd f32 f32_valid _ _ E). exact (round_exact f32 f32_valid q R). Qed.
Lemma round_is_q p q : representable f32 q -> (p == q)%Q -> exists v, round_to f32 p = Fin v /\ (v == q)%Q.
Proof. intros R E. rewrite (round_wd f32 f32_valid _ _ E). exact (round_exact f32 f32_valid q R). Qed.
Lemma mul_is x y p q r : is x p -> is y q -> (p * q == r)%Q -> representable f32 r -> is (f_mul f32 x y) r.
Proof. intros (u & -> & U) (v & -> & V) E R. cbn [f_mul]. destruct (round_is_q (u * v) r R) as (w & W & Wq); [now rewrite U, V|]. now exists w. Qed.
Lemma add_is x y p q r : is x p -> is y q -> (p + q == r)%Q -> representable f32 r -> is (f_add f32 x y) r.
Proof. intros (u & -> & U) (v & -> & V) E R. cbn [f_add]. destruct (round_is_q (u + v) r R) as (w & W & Wq); [now rewrite U, V|]. now exists w. Qed.
Lemma sub_is x y p q r : is x p -> is y q -> (p - q == r)%Q -> representable f32 r -> is (f_sub f32 x y) r.
Proof. intros X (v & -> & V) E R. unfold f_sub. apply (add_is _ _ p (- q)); [exact X| |exact E|exact R]. exists (- v)%Q. split; [reflexivity|now rewrite V]. Qed.
Lemma is0 : is (Fin 0) 0. Proof. exists 0%Q. split; reflexivity. Qed.
Lemma is1 : is (Fin 1) 1. Proof. exists 1%Q. split; reflexivity. Qed.
Lemma pick a b c x y z p q r A B C s : is a A -> is b B -> is c C -> is x p -> is y q -> is z r -> representable f32 (A * p) -> representable f32 (B * q) -> representable f32 (C * r) ->
  representable f32 (A * p + B * q) -> (A * p + B * q + C * r == s)%Q -> representable f32 s -> is (element (Rw a b c) x y z) s.
Proof.
  intros Ha Hb Hc Hx Hy Hz R1 R2 R3 R12 E R. unfold element; cbn [r0 r1 r2].
  eapply (add_is _ _ (A * p + B * q) (C * r)); [| |exact E|exact R]; [|eapply mul_is; [exact Hc|exact Hz|reflexivity|exact R3]].
  eapply (add_is _ _ (A * p) (B * q)); [| |reflexivity|exact R12]; [|eapply mul_is; [exact Hb|exact Hy|reflexivity|exact R2]].
  eapply (add_is _ _ 0 (A * p)); [exact is0| |ring|exact R1]. eapply mul_is; [exact Ha|exact Hx|reflexivity|exact R1].
Qed.
Lemma rep_wd p q : (p == q)%Q -> representable f32 p -> representable f32 q.
Proof. intros E (A & n & e & B & C & D). split; [now rewrite <- E|]. exists n, e. split; [exact B|]. split; [exact C|]. now rewrite <- E. Qed.
Ltac rep R := first [exact R | (eapply rep_wd; [|exact R]; ring) | (eapply rep_wd; [|exact zero_fits32]; ring)].
Lemma identity_ok m q : (forall i j, (i < 3)%nat -> (j < 3)%nat -> number32 (entry m i j) (q i j)) ->
  forall i j, (i < 3)%nat -> (j < 3)%nat -> is (entry (multiply identity m) i j) (q i j) /\ is (entry (multiply m identity) i j) (q i j).
Proof.
  intros H i j I J.
  assert (L : forall i j, (i < 3)%nat -> (j < 3)%nat -> is (entry m i j) (q i j)) by (intros; apply H; assumption). assert (R : forall i j, (i < 3)%nat -> (j < 3)%nat -> representable f32 (q i j)) by (intros; apply H; assumption).
  assert (R0 := zero_fits32). clear H. destruct m as [[a b c] [d e f] [g h k]].
  pose proof (L 0%nat 0%nat ltac:(lia) ltac:(lia)) as L00. pose proof (L 0%nat 1%nat ltac:(lia) ltac:(lia)) as L01. pose proof (L 0%nat 2%nat ltac:(lia) ltac:(lia)) as L02.
  pose proof (L 1%nat 0%nat ltac:(lia) ltac:(lia)) as L10. pose proof (L 1%nat 1%nat ltac:(lia) ltac:(lia)) as L11. pose proof (L 1%nat 2%nat ltac:(lia) ltac:(lia)) as L12.
  pose proof (L 2%nat 0%nat ltac:(lia) ltac:(lia)) as L20. pose proof (L 2%nat 1%nat ltac:(lia) ltac:(lia)) as L21. pose proof (L 2%nat 2%nat ltac:(lia) ltac:(lia)) as L22. cbn [entry m0 m1 m2 r0 r1 r2] in *.
  pose proof (R i j I J) as RR.
  destruct (lt3 i I) as [->|[->| ->]], (lt3 j J) as [->|[->| ->]]; unfold entry, multiply, identity, row_by; cbn [m0 m1 m2 r0 r1 r2]; split;
   (eapply pick; [first [exact is0|exact is1|eassumption]|first [exact is0|exact is1|eassumption]|first [exact is0|exact is1|eassumption]|first [exact is0|exact is1|eassumption]|first [exact is0|exact is1|eassumption]|first [exact is0|exact is1|eassumption]|rep RR|rep RR|rep RR|rep RR|ring|exact RR]).
Qed.

(* ---- a transform as a matrix ---- *)
Definition full (TX TY SX SY C S : Z) : table := fun i j =>
  match i, j with
  | 0%nat, 0%nat => C * SX | 0%nat, 1%nat => - S * SY | 0%nat, _ => TX
  | 1%nat, 0%nat => S * SX | 1%nat, 1%nat => C * SY | 1%nat, _ => TY
  | _, 0%nat => 0 | _, 1%nat => 0 | _, _ => 1 end.
Definition moved (TX TY : Z) : table := full TX TY 1 1 1 0.
Definition turned (C S : Z) : table := full 0 0 1 1 C S.
Definition scaled (SX SY : Z) : table := full 0 0 SX SY 1 0.
Lemma opp_whole x z : whole x z -> whole (f_opp x) (- z).
Proof. intros (v & -> & V). exists (- v)%Q. split; [reflexivity|]. now rewrite V, inject_Z_opp. Qed.
Ltac cells := intros i j I J; destruct (lt3 i I) as [->|[->| ->]], (lt3 j J) as [->|[->| ->]].
Lemma one_whole : whole (Fin 1) 1. Proof. exact (lit_whole 1). Qed.
Lemma to_matrix_ok cos sin t TX TY SX SY C S n : whole (tx t) TX -> whole (ty t) TY -> whole (sx t) SX -> whole (sy t) SY -> whole (cos (rotation t)) C -> whole (sin (rotation t)) S -> Z.abs C <= 1 -> Z.abs S <= 1 ->
  Z.abs TX <= n -> Z.abs TY <= n -> Z.abs SX <= n -> Z.abs SY <= n -> 1 <= n -> 9 * (n * n) < 8388608 -> stands (to_matrix cos sin t) (full TX TY SX SY C S).
Proof.
  intros WTX WTY WSX WSY WC WS BC BS BTX BTY BSX BSY N M. assert (n <= n * n) by nia. pose proof zero_whole as Z0. pose proof one_whole as Z1.
  assert (A : stands (multiply (translate (tx t) (ty t)) (rotate cos sin (rotation t))) (product (moved TX TY) (turned C S))).
  { apply (product_ok _ _ _ _ n 1); [| | | |lia].
    - cells; cbn [entry translate m0 m1 m2 r0 r1 r2 moved full]; first [exact Z0|exact Z1|assumption].
    - cells; cbn [entry rotate m0 m1 m2 r0 r1 r2 turned full]; rewrite ?Z.mul_1_r; first [exact Z0|exact Z1|assumption|now apply opp_whole].
    - cells; cbn [moved full]; lia.
    - cells; cbn [turned full]; lia. }
  assert (B : stands (to_matrix cos sin t) (product (product (moved TX TY) (turned C S)) (scaled SX SY))).
  { unfold to_matrix. apply (product_ok _ _ _ _ (3 * (n * 1)) n); [exact A| | | |lia].
    - cells; cbn [entry scale m0 m1 m2 r0 r1 r2 scaled full]; rewrite ?Z.mul_1_l; first [exact Z0|exact Z1|assumption].
    - apply product_within; [cells; cbn [moved full]; lia|cells; cbn [turned full]; lia].
    - cells; cbn [scaled full]; lia. }
  intros i j I J. replace (full TX TY SX SY C S i j) with (product (product (moved TX TY) (turned C S)) (scaled SX SY) i j); [now apply B|].
  revert i j I J. cells; unfold product, moved, turned, scaled, full; ring.
Qed.

(* ---- interpolation ---- *)
Lemma lerp_at a b A B t : number32 a A -> number32 b B -> representable f32 (B - A) -> (is t 0 -> is (lerp a b t) A) /\ (is t 1 -> is (lerp a b t) B).
Proof.
  intros (HA & RA) (HB & RB) RD. assert (D : is (f_sub f32 b a) (B - A)) by (eapply sub_is; [exact HB|exact HA|reflexivity|exact RD]). unfold lerp. split; intros T.
  - eapply (add_is _ _ A 0); [exact HA| |ring|exact RA]. eapply (mul_is _ _ _ 0); [exact D|exact T|ring|exact zero_fits32].
  - eapply (add_is _ _ A (B - A)); [exact HA| |ring|exact RB]. eapply (mul_is _ _ _ 1); [exact D|exact T|ring|exact RD].
Qed.
Lemma lerp_parts a b A B t : number32 a A -> number32 b B -> representable f32 (B - A) -> (0 <= t <= 1)%Q ->
  exists u d m v, a = Fin u /\ f_sub f32 b a = Fin d /\ (u == A)%Q /\ (d == B - A)%Q /\ round_to f32 (d * t) = Fin m /\ round_to f32 (u + m) = Fin v /\ lerp a b (Fin t) = Fin v.
Proof.
  intros (HA & RA) (HB & RB) RD T. assert (D : is (f_sub f32 b a) (B - A)) by (eapply sub_is; [exact HB|exact HA|reflexivity|exact RD]). destruct HA as (u & EA & U), D as (d & ED & DQ).
  destruct (Qlt_le_dec B A) as [G|G].
  - destruct (fin_of_bounds (d * t)%Q (B - A) 0) as (m & Em & Mb); [exact RD|exact zero_fits32|rewrite DQ; nra|]. destruct (fin_of_bounds (u + m)%Q B A) as (v & Ev & Vb); [exact RB|exact RA|rewrite U; lra|].
    exists u, d, m, v. repeat (split; [assumption|]). unfold lerp. rewrite ED, EA. cbn [f_mul]. rewrite Em. exact Ev.
  - destruct (fin_of_bounds (d * t)%Q 0 (B - A)) as (m & Em & Mb); [exact zero_fits32|exact RD|rewrite DQ; nra|]. destruct (fin_of_bounds (u + m)%Q A B) as (v & Ev & Vb); [exact RA|exact RB|rewrite U; lra|].
    exists u, d, m, v. repeat (split; [assumption|]). unfold lerp. rewrite ED, EA. cbn [f_mul]. rewrite Em. exact Ev.
Qed.
Lemma lerp_one_way a b A B t t' : number32 a A -> number32 b B -> representable f32 (B - A) -> (0 <= t)%Q -> (t <= t')%Q -> (t' <= 1)%Q -> ordered (Qle_bool A B) (lerp a b (Fin t)) (lerp a b (Fin t')).
Proof.
  intros HA HB RD T0 T T1. destruct (lerp_parts a b A B t HA HB RD ltac:(lra)) as (u & d & m & v & EU & ED & U & D & Em & Ev & E). destruct (lerp_parts a b A B t' HA HB RD ltac:(lra)) as (u' & d' & m' & v' & EU' & ED' & _ & _ & Em' & Ev' & E').
  rewrite EU in EU'; injection EU' as <-. rewrite ED in ED'; injection ED' as <-. exists v, v'. split; [exact E|]. split; [exact E'|]. destruct (Qle_bool A B) eqn:L.
  - apply Qle_bool_iff in L. eapply mono_fin; [|exact Ev|exact Ev']. assert (m <= m')%Q; [|lra]. eapply mono_fin; [|exact Em|exact Em']. nra.
  - assert (B < A)%Q. { apply Qnot_le_lt. intros K. apply Qle_bool_iff in K. congruence. } eapply mono_fin; [|exact Ev'|exact Ev]. assert (m' <= m)%Q; [|lra]. eapply mono_fin; [|exact Em'|exact Em]. nra.
Qed.
Lemma lerp_fields a b t : fields (transform_lerp a b t) = map (fun p => lerp (fst p) (snd p) t) (combine (fields a) (fields b)).
Proof. reflexivity. Qed.
Lemma bezier_ends_ok t p1 p2 P1 P2 : is p1 P1 -> is p2 P2 -> (is t 0 -> is (cubic_bezier t p1 p2) 0) /\ (is t 1 -> is (cubic_bezier t p1 p2) 1).
Proof.
  intros H1 H2. pose proof zero_fits32 as R0. pose proof one_fits as R1. assert (R3 : representable f32 3) by exact (int_fits 3 ltac:(lia)). assert (I3 : is (Fin 3) 3) by (exists 3%Q; split; reflexivity). unfold cubic_bezier. cbv zeta. split; intros T.
  - assert (M : is (f_sub f32 (Fin 1) t) 1) by (eapply sub_is; [exact is1|exact T|ring|exact R1]). assert (T2 : is (f_mul f32 t t) 0) by (eapply mul_is; [exact T|exact T|ring|exact R0]). assert (T3 : is (f_mul f32 (f_mul f32 t t) t) 0) by (eapply mul_is; [exact T2|exact T|ring|exact R0]).
    assert (M2 : is (f_mul f32 (f_sub f32 (Fin 1) t) (f_sub f32 (Fin 1) t)) 1) by (eapply mul_is; [exact M|exact M|ring|exact R1]). assert (M3 : is (f_mul f32 (f_mul f32 (f_sub f32 (Fin 1) t) (f_sub f32 (Fin 1) t)) (f_sub f32 (Fin 1) t)) 1) by (eapply mul_is; [exact M2|exact M|ring|exact R1]).
    eapply (add_is _ _ 0 0); [| |ring|exact R0]; [|eapply (mul_is _ _ 0 1); [exact T3|exact is1|ring|exact R0]].
    eapply (add_is _ _ 0 0); [| |ring|exact R0]; [|eapply (mul_is _ _ 0 P2); [|exact H2|ring|exact R0]; eapply (mul_is _ _ 3 0); [|exact T2|ring|exact R0]; eapply (mul_is _ _ 3 1); [exact I3|exact M|ring|exact R3]].
    eapply (add_is _ _ 0 0); [| |ring|exact R0]; [eapply (mul_is _ _ 1 0); [exact M3|exact is0|ring|exact R0]|]. eapply (mul_is _ _ 0 P1); [|exact H1|ring|exact R0]. eapply (mul_is _ _ 3 0); [|exact T|ring|exact R0]. eapply (mul_is _ _ 3 1); [exact I3|exact M2|ring|exact R3].
  - assert (M : is (f_sub f32 (Fin 1) t) 0) by (eapply sub_is; [exact is1|exact T|ring|exact R0]). assert (T2 : is (f_mul f32 t t) 1) by (eapply mul_is; [exact T|exact T|ring|exact R1]). assert (T3 : is (f_mul f32 (f_mul f32 t t) t) 1) by (eapply mul_is; [exact T2|exact T|ring|exact R1]).
    assert (M2 : is (f_mul f32 (f_sub f32 (Fin 1) t) (f_sub f32 (Fin 1) t)) 0) by (eapply mul_is; [exact M|exact M|ring|exact R0]). assert (M3 : is (f_mul f32 (f_mul f32 (f_sub f32 (Fin 1) t) (f_sub f32 (Fin 1) t)) (f_sub f32 (Fin 1) t)) 0) by (eapply mul_is; [exact M2|exact M|ring|exact R0]).
    eapply (add_is _ _ 0 1); [| |ring|exact R1]; [|eapply (mul_is _ _ 1 1); [exact T3|exact is1|ring|exact R1]].
    eapply (add_is _ _ 0 0); [| |ring|exact R0]; [|eapply (mul_is _ _ 0 P2); [|exact H2|ring|exact R0]; eapply (mul_is _ _ 0 1); [|exact T2|ring|exact R0]; eapply (mul_is _ _ 3 0); [exact I3|exact M|ring|exact R0]].
    eapply (add_is _ _ 0 0); [| |ring|exact R0]; [eapply (mul_is _ _ 0 0); [exact M3|exact is0|ring|exact R0]|]. eapply (mul_is _ _ 0 P1); [|exact H1|ring|exact R0]. eapply (mul_is _ _ 0 1); [|exact T|ring|exact R0]. eapply (mul_is _ _ 3 0); [exact I3|exact M2|ring|exact R0].
Qed.

(* ---- ranges ---- *)
Lemma keep_ok {A} (p : A -> Prop) (b : A -> bool) : (forall v, b v = true <-> p v) -> accepts p (fun v => keep (b v) v).
Proof. intros H v. unfold keep. split; intros P; [now rewrite (proj2 (H v) P)|]. destruct (b v) eqn:E; [|reflexivity]. apply H in E. contradiction. Qed.
Lemma lt_qb p q : f_lt (Fin p) (Fin q) = true <-> (p < q)%Q.
Proof.
  unfold f_lt. cbn [f_le]. rewrite andb_true_iff, negb_true_iff, Qle_bool_iff. split.
  - intros [L N]. apply Qnot_le_lt. intros K. apply Qle_bool_iff in K. congruence.
  - intros L. split; [lra|]. destruct (Qle_bool q p) eqn:E; [|reflexivity]. apply Qle_bool_iff in E. lra.
Qed.
Lemma le_qb p q : f_le (Fin p) (Fin q) = true <-> (p <= q)%Q. Proof. apply Qle_bool_iff. Qed.
Lemma range_ok (lo hi : Q) (ll hh : bool) (b : float -> bool) :
  (forall v, b v = (if ll then f_le (Fin lo) v else f_lt (Fin lo) v) && (if hh then f_le v (Fin hi) else f_lt v (Fin hi))) ->
  forall v, b v = true <-> inside (fun q => (if ll then lo <= q else lo < q)%Q /\ (if hh then q <= hi else q < hi)%Q) v.
Proof.
  intros E v. rewrite E, andb_true_iff. split.
  - intros [L H]. destruct v as [|[]|q]; [destruct ll; discriminate|destruct ll; discriminate|destruct hh; discriminate|]. exists q. split; [reflexivity|]. split; [destruct ll; [now apply le_qb|now apply lt_qb]|destruct hh; [now apply le_qb|now apply lt_qb]].
  - intros (q & -> & L & H). split; [destruct ll; [now apply le_qb|now apply lt_qb]|destruct hh; [now apply le_qb|now apply lt_qb]].
Qed.

(* ---- angles ---- *)
Lemma trunc_pos q : (0 <= q)%Q -> (0 <= q - 360 * inject_Z (trunc (q / 360)) < 360)%Q.
Proof.
  intros P. assert (P' : (0 <= q / 360)%Q) by (apply Qle_shift_div_l; lra). unfold trunc. assert (E : Qnum (q / 360) <? 0 = false) by (apply Z.ltb_ge; unfold Qle in P'; cbn [Qnum Qden] in P'; lia). rewrite E.
  pose proof (Qfloor_le (q / 360)) as L. pose proof (Qlt_floor (q / 360)) as G. rewrite inject_Z_plus in G. change (inject_Z 1) with 1%Q in G. assert (Q0 : (q == 360 * (q / 360))%Q) by field. set (f := inject_Z (Qfloor (q / 360))) in *. set (d := (q / 360)%Q) in *. lra.
Qed.
Lemma trunc_neg q : (q < 0)%Q -> (- (360) < q - 360 * inject_Z (trunc (q / 360)) <= 0)%Q.
Proof.
  intros P. assert (P' : (q / 360 < 0)%Q) by (apply Qlt_shift_div_r; lra). unfold trunc. assert (E : Qnum (q / 360) <? 0 = true) by (apply Z.ltb_lt; unfold Qlt in P'; cbn [Qnum Qden] in P'; lia). rewrite E, inject_Z_opp.
  pose proof (Qfloor_le (- (q / 360))) as L. pose proof (Qlt_floor (- (q / 360))) as G. rewrite inject_Z_plus in G. change (inject_Z 1) with 1%Q in G. assert (Q0 : (q == 360 * (q / 360))%Q) by field. set (f := inject_Z (Qfloor (- (q / 360)))) in *. set (d := (q / 360)%Q) in *. lra.
Qed.
Lemma rotation_ok q : exists r k, validate_rotation (Fin q) = Some (Fin r) /\ (0 <= r <= 360)%Q /\ (Qabs (r - (q - 360 * inject_Z k)) <= 2 ^ (-16))%Q /\ ((0 <= q)%Q -> (r == q - 360 * inject_Z k)%Q /\ (r < 360)%Q).
Proof.
  unfold validate_rotation, rem360. set (n := (q - 360 * inject_Z (trunc (q / 360)))%Q). destruct (f_lt (Fin n) (Fin 0)) eqn:E.
  - apply lt_qb in E. destruct (Qlt_le_dec q 0) as [L|L]; [|pose proof (trunc_pos q L); fold n in H; lra]. pose proof (trunc_neg q L) as B. fold n in B. cbn [f_add].
    destruct (round_err (n + 360) 9) as (r & Er & Ee); [|lia|]. { apply Qabs_Qlt_condition. change (2 ^ 9)%Q with 512%Q. lra. }
    exists r, (trunc (q / 360) - 1). rewrite Er. split; [reflexivity|]. split.
    + assert (R360 : representable f32 360) by exact (int_fits 360 ltac:(lia)). split; [eapply round_ge; [exact zero_fits32| |exact Er]; lra|eapply round_le; [exact R360| |exact Er]; lra].
    + split; [|intros K; lra]. change (9 - 25) with (-16) in Ee. assert (S : (r - (q - 360 * inject_Z (trunc (q / 360) - 1)) == r - (n + 360))%Q). { unfold n, Z.sub. rewrite inject_Z_plus. change (inject_Z (- (1))) with (- (1))%Q. ring. } rewrite S. exact Ee.
  - exists n, (trunc (q / 360)). split; [reflexivity|]. assert (NN : (0 <= n)%Q). { apply Qnot_lt_le. intros K. apply lt_qb in K. congruence. }
    destruct (Qlt_le_dec q 0) as [L|L].
    + pose proof (trunc_neg q L) as B. fold n in B. split; [lra|]. split; [|intros K; lra]. assert (S : (n - (q - 360 * inject_Z (trunc (q / 360))) == 0)%Q) by (unfold n; ring). rewrite S. vm_compute. discriminate.
    + pose proof (trunc_pos q L) as B. fold n in B. split; [lra|]. split; [|intros _; split; [reflexivity|lra]]. assert (S : (n - (q - 360 * inject_Z (trunc (q / 360))) == 0)%Q) by (unfold n; ring). rewrite S. vm_compute. discriminate.
Qed.
Lemma rotation_whole v z : whole v z -> exists r, validate_rotation v = Some r /\ whole r (z mod 360).
Proof.
  intros (q & -> & Q). unfold validate_rotation, rem360. set (t := trunc (q / 360)). set (n := (q - 360 * inject_Z t)%Q).
  assert (N : (n == inject_Z (z - 360 * t))%Q). { unfold n, Z.sub. rewrite Q, inject_Z_plus, inject_Z_opp, inject_Z_mult. change (inject_Z 360) with 360%Q. ring. }
  destruct (f_lt (Fin n) (Fin 0)) eqn:E.
  - apply lt_qb in E. destruct (Qlt_le_dec q 0) as [L|L]; [|pose proof (trunc_pos q L) as H; fold t in H; fold n in H; lra]. pose proof (trunc_neg q L) as B. fold t in B. fold n in B. rewrite N in E, B. change (- (360))%Q with (inject_Z (-360)) in B. change 0%Q with (inject_Z 0) in E, B. rewrite <- Zlt_Qlt in E. destruct B as [B _]. rewrite <- Zlt_Qlt in B.
    eexists. split; [reflexivity|]. replace (z mod 360) with (z - 360 * t + 360); [|rewrite (Z.mod_eq z 360) by lia; replace (z / 360) with (t - 1); [lia|]; apply Z.div_unique with (z - 360 * t + 360); lia].
    apply add_whole; [now exists n|exact (lit_whole 360)|lia].
  - assert (NN : (0 <= n)%Q). { apply Qnot_lt_le. intros K. apply lt_qb in K. congruence. }
    assert (NL : (n < 360)%Q). { destruct (Qlt_le_dec q 0) as [L|L]; [pose proof (trunc_neg q L) as B|pose proof (trunc_pos q L) as B]; fold t in B; fold n in B; lra. }
    rewrite N in NN, NL. change 0%Q with (inject_Z 0) in NN. change 360%Q with (inject_Z 360) in NL. rewrite <- Zle_Qle in NN. rewrite <- Zlt_Qlt in NL.
    exists (Fin n). split; [reflexivity|]. replace (z mod 360) with (z - 360 * t); [now exists n|]. apply Z.mod_unique with t; lia.
Qed.
Lemma clip_ok x1 y1 x2 y2 : match validate_clip_rect x1 y1 x2 y2 with
  | Some (a, b, c, d) => exists p q r s, a = Fin p /\ b = Fin q /\ c = Fin r /\ d = Fin s /\ (p <= r)%Q /\ (q <= s)%Q /\ ((a, c) = (x1, x2) \/ (a, c) = (x2, x1)) /\ ((b, d) = (y1, y2) \/ (b, d) = (y2, y1))
  | None => exists v, In v [x1; y1; x2; y2] /\ forall q, v <> Fin q end.
Proof.
  unfold validate_clip_rect. destruct x1 as [|s|p]; [exists NaN; split; [cbn; tauto|discriminate]|exists (Inf s); split; [cbn; tauto|discriminate]|].
  destruct y1 as [|s|q]; [exists NaN; split; [cbn; tauto|discriminate]|exists (Inf s); split; [cbn; tauto|discriminate]|].
  destruct x2 as [|s|r]; [exists NaN; split; [cbn; tauto|discriminate]|exists (Inf s); split; [cbn; tauto|discriminate]|].
  destruct y2 as [|t|s]; [exists NaN; split; [cbn; tauto|discriminate]|exists (Inf t); split; [cbn; tauto|discriminate]|]. cbn [finite andb].
  assert (T : forall a b, f_le (Fin a) (Fin b) = false -> (b <= a)%Q). { intros a b E. destruct (Qlt_le_dec a b) as [L|L]; [|exact L]. assert (f_le (Fin a) (Fin b) = true) by (apply le_qb; lra). congruence. }
  destruct (f_le (Fin p) (Fin r)) eqn:E1, (f_le (Fin q) (Fin s)) eqn:E2; try apply le_qb in E1; try apply le_qb in E2; try apply T in E1; try apply T in E2; do 4 eexists; repeat (split; [reflexivity|]); (split; [eassumption|]); (split; [eassumption|]); tauto.
Qed.
