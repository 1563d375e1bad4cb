(* Proofs about the layout of a text box, of its lines and of its movement. *)
From Verif Require Import Base BaseLemmas FloatModel FloatSpec FloatProofs CollideProofs AnimModel AnimSpec AnimProofs LayoutModel LayoutSpec.
From Coq Require Import Lqa.
Local Open Scope Z_scope.

Lemma half_rep a : Z.abs a < 16777216 -> representable f32 (a # 2).
Proof.
  intros A. split.
  - apply Qlt_trans with (inject_Z 16777216); [|reflexivity]. apply Qabs_Qlt_condition. unfold Qlt, inject_Z; cbn [Qnum Qden Qopp]. lia.
  - exists a, (-1). split; [cbn; lia|]. split; [exact A|]. change (2 ^ (-1))%Q with (1 # 2)%Q. unfold Qeq, inject_Z, Qmult; cbn [Qnum Qden]. lia.
Qed.
Lemma round_half q a : (q == a # 2)%Q -> Z.abs a < 16777216 -> halfs (round_to f32 q) a.
Proof. intros E A. rewrite (round_wd f32 f32_valid q _ E). destruct (round_exact f32 f32_valid _ (half_rep a A)) as (v & -> & V). exists v. split; [reflexivity|exact V]. Qed.
Lemma add_half x y a b : halfs x a -> halfs y b -> Z.abs (a + b) < 16777216 -> halfs (f_add f32 x y) (a + b).
Proof. intros (p & -> & P) (q & -> & Q) B. cbn [f_add]. apply round_half; [|exact B]. rewrite P, Q. unfold Qeq, Qplus; cbn [Qnum Qden]. lia. Qed.
Lemma opp_half x a : halfs x a -> halfs (f_opp x) (- a).
Proof. intros (p & -> & P). exists (- p)%Q. split; [reflexivity|]. rewrite P. unfold Qeq, Qopp; cbn [Qnum Qden]. lia. Qed.
Lemma sub_half x y a b : halfs x a -> halfs y b -> Z.abs (a - b) < 16777216 -> halfs (f_sub f32 x y) (a - b).
Proof. intros X Y B. unfold f_sub. replace (a - b) with (a + - b) by lia. apply add_half; [exact X|now apply opp_half|lia]. Qed.
Lemma whole_half x z : whole x z <-> halfs x (2 * z).
Proof. split; intros (v & -> & V); exists v; (split; [reflexivity|]); rewrite V; unfold Qeq, inject_Z; cbn [Qnum Qden]; lia. Qed.
Lemma half_of x z : whole x z -> Z.abs z < 16777216 -> halfs (half x) z.
Proof. intros (v & -> & V) B. unfold half. cbn [f_div]. change (qzero 2) with false. cbv iota. apply round_half; [|exact B]. rewrite V. unfold Qeq, inject_Z, Qdiv, Qmult, Qinv; cbn [Qnum Qden]. lia. Qed.
Lemma half_half x z : halfs x (2 * z) -> Z.abs z < 16777216 -> halfs (half x) z.
Proof. intros X. apply half_of. now apply whole_half. Qed.
Lemma mul_whole x y a b : whole x a -> whole y b -> Z.abs (a * b) < 8388608 -> whole (f_mul f32 x y) (a * b).
Proof.
  intros (p & -> & P) (q & -> & Q) B. cbn [f_mul]. apply whole_half. apply round_half; [|lia]. rewrite P, Q. unfold Qeq, inject_Z, Qmult; cbn [Qnum Qden]. lia.
Qed.
Lemma add_whole x y a b : whole x a -> whole y b -> Z.abs (a + b) < 8388608 -> whole (f_add f32 x y) (a + b).
Proof. intros X Y B. apply whole_half in X, Y. apply whole_half. replace (2 * (a + b)) with (2 * a + 2 * b) by lia. apply add_half; [exact X|exact Y|lia]. Qed.
Lemma sub_whole x y a b : whole x a -> whole y b -> Z.abs (a - b) < 8388608 -> whole (f_sub f32 x y) (a - b).
Proof. intros X Y B. apply whole_half in X, Y. apply whole_half. replace (2 * (a - b)) with (2 * a - 2 * b) by lia. apply sub_half; [exact X|exact Y|lia]. Qed.
Lemma of_N n : Z.of_N n < 8388608 -> whole (f_of_N f32 n) (Z.of_N n).
Proof. intros B. apply whole_half. unfold f_of_N, f_of_Z. apply round_half; [|lia]. unfold Qeq, inject_Z; cbn [Qnum Qden]. lia. Qed.
Lemma lit_whole z : whole (Fin (inject_Z z)) z.
Proof. exists (inject_Z z). split; reflexivity. Qed.

(* ---- the box ---- *)
Definition col_of (a : alignment) : Z := match fst a with Left => 0 | Middle => 1 | Right => 2 end.
Definition rank_of (a : alignment) : Z := match snd a with Bottom => 0 | Centre => 1 | Top => 2 end.
Lemma out_of v : (((1 <=? v) && (v <=? 9)) = false -> v = 0 \/ 10 <= v)%N.
Proof. destruct (N.leb_spec 1 v), (N.leb_spec v 9); cbn; intros; try discriminate; lia. Qed.
Lemma from_value_keypad v : (col_of (from_value v), rank_of (from_value v)) = keypad v.
Proof.
  unfold keypad. destruct ((1 <=? v) && (v <=? 9))%N eqn:E.
  - apply andb_prop in E as [A B]. apply N.leb_le in A, B.
    assert (v = 1 \/ v = 2 \/ v = 3 \/ v = 4 \/ v = 5 \/ v = 6 \/ v = 7 \/ v = 8 \/ v = 9)%N as K by lia. repeat (destruct K as [->|K]; [reflexivity|]). now subst v.
  - apply out_of in E. destruct E as [->|E]; [reflexivity|]. unfold from_value. destruct v as [|p]; [lia|]. do 4 (destruct p as [p|p|]; try lia; try reflexivity).
Qed.
Lemma position_exact c s v w h W H : on_context c s -> small_screen s -> small W -> small H -> whole w W -> whole h H ->
  halfs (fst (calculate_position c (from_value v) w h)) (from_left (fst (keypad v)) (s_w s) (s_left s) (s_right s) W) /\
  halfs (snd (calculate_position c (from_value v) w h)) (from_top (snd (keypad v)) (s_h s) (s_vert s) H).
Proof.
  intros (A & B & C & D & E) (A' & B' & C' & D' & E') SW SH Ww Wh. rewrite <- from_value_keypad. destruct (from_value v) as [sd lv]. unfold small in *. unfold calculate_position, col_of, rank_of, from_left, from_top; cbn [fst snd]. split.
  - destruct sd; cbn [Z.eqb Pos.eqb]; cbv iota.
    + now apply whole_half.
    + apply sub_half; [apply half_of; [exact A|lia]|apply half_of; [exact Ww|lia]|lia].
    + apply whole_half. apply sub_whole; [apply sub_whole; [exact A|exact D|lia]|exact Ww|lia].
  - destruct lv; cbn [Z.eqb Pos.eqb]; cbv iota.
    + apply whole_half. apply sub_whole; [apply sub_whole; [exact B|exact E|lia]|exact Wh|lia].
    + apply sub_half; [apply half_of; [exact B|lia]|apply half_of; [exact Wh|lia]|lia].
    + now apply whole_half.
Qed.
Lemma keypad_range v : 0 <= fst (keypad v) <= 2 /\ 0 <= snd (keypad v) <= 2.
Proof. rewrite <- from_value_keypad. destruct (from_value v) as [[] []]; cbn; lia. Qed.
Lemma from_left_in col w l r b : 0 <= l -> 0 <= r -> l + b <= w -> r + b <= w -> 0 <= from_left col w l r b <= 2 * (w - b).
Proof. unfold from_left. destruct (col =? 0), (col =? 1); lia. Qed.
Lemma from_top_in rank h v b : 0 <= v -> v + b <= h -> 0 <= from_top rank h v b <= 2 * (h - b).
Proof. unfold from_top. destruct (rank =? 2), (rank =? 1); lia. Qed.
Lemma position_inside c s v w h W H : on_context c s -> small_screen s -> small W -> small H -> whole w W -> whole h H -> 0 <= s_left s -> 0 <= s_right s -> 0 <= s_vert s ->
  s_left s + W <= s_w s -> s_right s + W <= s_w s -> s_vert s + H <= s_h s ->
  exists x y, fst (calculate_position c (from_value v) w h) = Fin x /\ snd (calculate_position c (from_value v) w h) = Fin y /\ (0 <= x /\ x + inject_Z W <= inject_Z (s_w s) /\ 0 <= y /\ y + inject_Z H <= inject_Z (s_h s))%Q.
Proof.
  intros C S SW SH Ww Wh L R V FL FR FV. destruct (position_exact c s v w h W H C S SW SH Ww Wh) as ((x & X & Xq) & (y & Y & Yq)). exists x, y. split; [exact X|]. split; [exact Y|]. rewrite Xq, Yq.
  pose proof (from_left_in (fst (keypad v)) (s_w s) (s_left s) (s_right s) W L R FL FR). pose proof (from_top_in (snd (keypad v)) (s_h s) (s_vert s) H V FV). unfold Qle, Qplus, inject_Z; cbn [Qnum Qden]. repeat split; lia.
Qed.
Lemma scaling_exact x y px py w h X Y PX PY kx ky : whole x X -> whole y Y -> whole px PX -> whole py PY -> whole w (kx * PX) -> whole h (ky * PY) -> PX <> 0 -> PY <> 0 -> Z.abs kx < 8388608 -> Z.abs ky < 8388608 -> Z.abs (X * kx) < 8388608 -> Z.abs (Y * ky) < 8388608 ->
  whole (fst (scale_coordinates x y px py w h)) (X * kx) /\ whole (snd (scale_coordinates x y px py w h)) (Y * ky).
Proof.
  assert (D : forall a b p k, whole a (k * p) -> whole b p -> p <> 0 -> Z.abs k < 8388608 -> whole (f_div f32 a b) k).
  { intros a b p k (u & -> & U) (v & -> & V) N K. cbn [f_div]. assert (Z : qzero v = false). { unfold qzero. apply Z.eqb_neq. intros Z. apply N. unfold Qeq, inject_Z in V. cbn [Qnum Qden] in V. nia. } rewrite Z. apply whole_half, round_half; [|lia].
    assert (K1 : ~ (v == 0)%Q). { intros E. rewrite V in E. unfold Qeq, inject_Z in E; cbn [Qnum Qden] in E. lia. }
    assert (E : (u == inject_Z k * v)%Q) by (rewrite U, V, inject_Z_mult; reflexivity). rewrite E. unfold Qdiv. rewrite <- Qmult_assoc, Qmult_inv_r by exact K1. unfold Qeq, Qmult, inject_Z; cbn [Qnum Qden]. lia. }
  intros. unfold scale_coordinates; cbn [fst snd]. split; (apply mul_whole; [assumption| |assumption]); eapply D; eassumption.
Qed.

(* ---- the old numbering ---- *)
Definition bytes : list N := map N.of_nat (seq 0 256).
Lemma all_bytes (p : N -> bool) : forallb p bytes = true -> forall v, (v < 256)%N -> p v = true.
Proof. intros F v V. rewrite forallb_forall in F. apply F. unfold bytes. apply in_map_iff. exists (N.to_nat v). split; [lia|]. apply in_seq. lia. Qed.
Definition same (a b : alignment) : bool := (col_of a =? col_of b) && (rank_of a =? rank_of b).
Lemma same_eq a b : same a b = true -> a = b.
Proof. destruct a as [[] []], b as [[] []]; cbn; intros; congruence || discriminate. Qed.
Lemma ssa_read col rank : (col < 3)%N -> (rank < 3)%N -> convert_ssa (ssa_number col rank) = (1 + col + 3 * rank)%N /\ from_ssa_legacy (ssa_number col rank) = from_value (1 + col + 3 * rank)%N.
Proof.
  intros C R. assert (col = 0 \/ col = 1 \/ col = 2)%N as K by lia. assert (rank = 0 \/ rank = 1 \/ rank = 2)%N as L by lia. destruct K as [->|[->| ->]], L as [->|[->| ->]]; split; reflexivity.
Qed.
Lemma ssa_keypad v : (1 <= convert_ssa v <= 9)%N.
Proof.
  unfold convert_ssa. assert (N.land v 3 < 4)%N by (change 3%N with (N.ones 2); rewrite N.land_ones; apply N.mod_lt; discriminate).
  assert (N.land (N.shiftr v 2) 3 < 4)%N by (change 3%N with (N.ones 2); rewrite N.land_ones; apply N.mod_lt; discriminate).
  destruct (N.land v 3) as [|[[]|[]|]], (N.land (N.shiftr v 2) 3) as [|[[]|[]|]]; lia.
Qed.
Lemma ssa_same v : (v < 256)%N -> (from_value (convert_ssa v) = from_ssa_legacy v <-> (v mod 4 <> 0 /\ (v / 4) mod 4 <> 3) \/ v mod 16 = 0)%N.
Proof.
  intros V.
  assert (K := all_bytes (fun v => Bool.eqb (same (from_value (convert_ssa v)) (from_ssa_legacy v)) ((negb (v mod 4 =? 0)%N && negb ((v / 4) mod 4 =? 3)%N) || (v mod 16 =? 0)%N)) ltac:(vm_compute; reflexivity) v V). cbv beta in K. apply Bool.eqb_prop in K.
  split.
  - intros E. rewrite E in K. assert (S : same (from_ssa_legacy v) (from_ssa_legacy v) = true) by (unfold same; now rewrite !Z.eqb_refl). rewrite S in K. symmetry in K. apply orb_prop in K as [K|K]; [left; apply andb_prop in K as [A B]; apply negb_true_iff in A, B; apply N.eqb_neq in A, B; now split|right; now apply N.eqb_eq].
  - intros H. apply same_eq. rewrite K. apply orb_true_iff. destruct H as [[A B]|H]; [left; apply andb_true_iff; split; apply negb_true_iff; now apply N.eqb_neq|right; now apply N.eqb_eq].
Qed.
