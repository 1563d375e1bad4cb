(* Where shaping puts the glyphs. *)
From Coq Require Import Qabs Qpower Lqa.
From Verif Require AnimSpec AnimProofs.
From Verif Require Import Base BaseLemmas FloatModel FloatSpec FloatProofs ShapeModel ShapeSpec.
Local Open Scope Z_scope.

Lemma valid32 : valid_format f32.
Proof. split; cbn; lia. Qed.

(* ---- for every size: the sum of the advances is the width ---- *)
Lemma lay_width k : forall l cx cy gs w, lay k cx cy l = (gs, w) -> fold_left (fun t g => f_add f32 t (g_xa g)) gs cx = w.
Proof.
  induction l as [|p l IH]; intros cx cy gs w; cbn [lay]; [intros [= <- <-]; reflexivity|].
  destruct (lay k _ _ l) as [gs' w'] eqn:E. intros [= <- <-]. cbn [fold_left g_xa]. exact (IH _ _ _ _ E).
Qed.
Lemma lay_ids k : forall l cx cy gs w, lay k cx cy l = (gs, w) -> map (fun g => (g_id g, g_cluster g)) gs = map (fun p => (p_id p, p_cluster p)) l.
Proof.
  induction l as [|p l IH]; intros cx cy gs w; cbn [lay]; [intros [= <- <-]; reflexivity|].
  destruct (lay k _ _ l) as [gs' w'] eqn:E. intros [= <- <-]. cbn [map g_id g_cluster]. f_equal. exact (IH _ _ _ _ E).
Qed.
Lemma shape_shape f text size s : shape_face f text size = Some s ->
  map (fun g => (g_id g, g_cluster g)) (s_glyphs s) = map (fun p => (p_id p, p_cluster p)) (f_shape f text) /\ total_advance s = s_width s /\ s_baseline s = s_ascent s /\ s_size s = size.
Proof.
  unfold shape_face. destruct (from_face f) as [m|]; [|discriminate]. destruct (lay _ _ _ _) as [gs w] eqn:E. destruct (ink _ _ _ _ _) as [lo hi]. destruct (if f_lt hi lo then _ else _) as [lo' hi']. intros [= <-]. cbn [s_glyphs s_width s_baseline s_ascent s_size].
  split; [exact (lay_ids _ _ _ _ _ _ E)|]. split; [exact (lay_width _ _ _ _ _ _ E)|]. split; reflexivity.
Qed.
Lemma shape_ends f text size : shape_face f text size = None <-> exists wa wd, f_os2 f = Some (wa, wd) /\ wa <> 0 /\ (wa = -32768 \/ wd = -32768).
Proof.
  unfold shape_face, from_face. destruct (f_os2 f) as [[wa wd]|].
  - destruct (Z.eqb_spec wa 0) as [Z|Z].
    + destruct (lay _ _ _ _) as [gs w]. destruct (ink _ _ _ _ _) as [lo hi]. destruct (if f_lt hi lo then _ else _). split; [discriminate|]. intros (? & ? & [= <- <-] & K & _). contradiction.
    + destruct (Z.eqb_spec wa (-32768)) as [A|A]; [cbn [orb]; split; [intros _; exists wa, wd; auto|reflexivity]|]. destruct (Z.eqb_spec wd (-32768)) as [B|B]; cbn [orb]; [split; [intros _; exists wa, wd; auto|reflexivity]|].
      destruct (lay _ _ _ _) as [gs w]. destruct (ink _ _ _ _ _) as [lo hi]. destruct (if f_lt hi lo then _ else _). split; [discriminate|]. intros (? & ? & [= <- <-] & _ & [K|K]); contradiction.
  - destruct (lay _ _ _ _) as [gs w]. destruct (ink _ _ _ _ _) as [lo hi]. destruct (if f_lt hi lo then _ else _). split; [discriminate|]. intros (? & ? & K & _). discriminate K.
Qed.

Lemma pow_inv k : 0 <= k -> (2 ^ (- k) == / inject_Z (2 ^ k))%Q.
Proof. intros P. destruct k as [|p|p]; [reflexivity| |lia]. change (2 ^ (- Z.pos p))%Q with (/ (2 ^ Z.pos p))%Q. rewrite <- (Zpower_Qpower 2 (Z.pos p)) by lia. reflexivity. Qed.
(* ---- exactly, on the grid of a font with a power of two of units ---- *)
Section Grid.
  Variables (k em : Z).
  Hypothesis K : 0 <= k <= 14.
  Hypothesis EM : em = 2 ^ k.
  Lemma em_pos : 0 < em <= 16384.
  Proof. subst em. split; [apply Z.pow_pos_nonneg; lia|]. change 16384 with (2 ^ 14). apply Z.pow_le_mono_r; lia. Qed.
  Definition on (x : float) (a : Z) : Prop := number x (inject_Z a / inject_Z em).
  Lemma em_nz : ~ (inject_Z em == 0)%Q.
  Proof. pose proof em_pos. unfold Qeq, inject_Z; cbn. lia. Qed.
  Lemma grid_rep a : Z.abs a < 16777216 -> representable f32 (inject_Z a / inject_Z em).
  Proof.
    intros A. pose proof em_pos as P. split.
    - apply Qlt_trans with (inject_Z 16777216); [|reflexivity]. apply Qabs_Qlt_condition. assert (PE : (0 < inject_Z em)%Q) by (change 0%Q with (inject_Z 0); rewrite <- Zlt_Qlt; lia). split.
      + apply Qlt_shift_div_l; [exact PE|]. change (- inject_Z 16777216)%Q with (inject_Z (-16777216)). rewrite <- inject_Z_mult, <- Zlt_Qlt. nia.
      + apply Qlt_shift_div_r; [exact PE|]. rewrite <- inject_Z_mult, <- Zlt_Qlt. nia.
    - exists a, (-k). split; [cbn; lia|]. split; [exact A|]. rewrite (pow_inv k) by lia. rewrite <- EM. reflexivity.
  Qed.
  Lemma round_on q a : (q == inject_Z a / inject_Z em)%Q -> Z.abs a < 16777216 -> on (round_to f32 q) a.
  Proof. intros E A. rewrite (round_wd f32 valid32 q _ E). destruct (round_exact f32 valid32 _ (grid_rep a A)) as (v & -> & V). exists v. split; [reflexivity|exact V]. Qed.
  Lemma add_on x y a b : on x a -> on y b -> Z.abs (a + b) < 16777216 -> on (f_add f32 x y) (a + b).
  Proof. intros (p & -> & P) (q & -> & Q) B. cbn [f_add]. apply round_on; [|exact B]. rewrite P, Q, inject_Z_plus. field. exact em_nz. Qed.
  Lemma opp_on x a : on x a -> on (f_opp x) (- a).
  Proof. intros (p & -> & P). exists (- p)%Q. split; [reflexivity|]. rewrite P, inject_Z_opp. field. exact em_nz. Qed.
  Lemma whole a : Z.abs a <= 16777216 -> exists v, f_of_Z f32 a = Fin v /\ (v == inject_Z a)%Q.
  Proof. exact (AnimProofs.int_exact a). Qed.
  Lemma mul_on m x a n : number m (inject_Z a) -> on x n -> Z.abs (a * n) < 16777216 -> on (f_mul f32 m x) (a * n).
  Proof. intros (p & -> & P) (q & -> & Q) B. cbn [f_mul]. apply round_on; [|exact B]. rewrite P, Q, inject_Z_mult. field. exact em_nz. Qed.
  Lemma zero_on : on (Fin 0) 0.
  Proof. exists 0%Q. split; [reflexivity|]. field. exact em_nz. Qed.
  Lemma le_on x y a b : on x a -> on y b -> f_le x y = (a <=? b).
  Proof.
    intros (p & -> & P) (q & -> & Q). cbn [f_le]. pose proof em_pos as E. assert (PE : (0 < inject_Z em)%Q) by (change 0%Q with (inject_Z 0); rewrite <- Zlt_Qlt; lia).
    assert (PP : (p * inject_Z em == inject_Z a)%Q) by (rewrite P; field; exact em_nz). assert (QQ : (q * inject_Z em == inject_Z b)%Q) by (rewrite Q; field; exact em_nz).
    destruct (Z.leb_spec a b) as [L|L].
    - apply Qle_bool_iff. apply (Qmult_le_r _ _ _ PE). rewrite PP, QQ, <- Zle_Qle. exact L.
    - destruct (Qle_bool p q) eqn:B; [|reflexivity]. apply Qle_bool_iff in B. apply (Qmult_le_r _ _ _ PE) in B. rewrite PP, QQ, <- Zle_Qle in B. lia.
  Qed.

  Variable n : Z.
  Hypothesis N1 : 1 <= n < 16777216.
  Variable scale : float.
  Hypothesis SC : on scale n.
  Lemma units z : fits n z -> on (f_mul f32 (f_of_Z f32 z) scale) (z * n).
  Proof. unfold fits. intros F. destruct (whole z ltac:(nia)) as (v & E & V). rewrite E. apply mul_on; [exists v; split; [reflexivity|exact V]|exact SC|exact F]. Qed.
  Lemma units_plus x a z : on x (a * n) -> fits n z -> fits n (a + z) -> on (f_add f32 x (f_mul f32 (f_of_Z f32 z) scale)) ((a + z) * n).
  Proof. intros X F G. rewrite Z.mul_add_distr_r. apply add_on; [exact X|exact (units z F)|]. unfold fits in G. rewrite Z.mul_add_distr_r in G. exact G. Qed.
  Lemma before_cons p l i : before (p :: l) (S i) = p_xa p + before l i. Proof. reflexivity. Qed.
  Lemma above_cons p l i : above (p :: l) (S i) = p_ya p + above l i. Proof. reflexivity. Qed.
  Definition room (X Y : Z) (l : list placed) : Prop :=
    (forall i, fits n (X + before l i) /\ fits n (Y + above l i)) /\
    (forall i p, nth_error l i = Some p -> fits n (p_xo p) /\ fits n (p_yo p) /\ fits n (p_xa p) /\ fits n (p_ya p) /\ fits n (X + before l i + p_xo p) /\ fits n (Y + above l i + p_yo p)).
  Lemma room_tail X Y p l : room X Y (p :: l) -> room (X + p_xa p) (Y + p_ya p) l.
  Proof.
    intros [A B]. split.
    - intros i. specialize (A (S i)). rewrite before_cons, above_cons, !Z.add_assoc in A. exact A.
    - intros i q H. specialize (B (S i) q H). rewrite before_cons, above_cons, !Z.add_assoc in B. exact B.
  Qed.
  Definition set_at (X Y : Z) (l : list placed) (i : nat) (p : placed) (g : glyph) : Prop :=
    g_id g = p_id p /\ g_cluster g = p_cluster p /\ on (g_x g) ((X + before l i + p_xo p) * n) /\ on (g_y g) ((Y + above l i + p_yo p) * n) /\
    on (g_xo g) (p_xo p * n) /\ on (g_yo g) (p_yo p * n) /\ on (g_xa g) (p_xa p * n) /\ on (g_ya g) (p_ya p * n).
  Lemma lay_on : forall l X Y cx cy gs w, room X Y l -> on cx (X * n) -> on cy (Y * n) -> lay scale cx cy l = (gs, w) ->
    List.length gs = List.length l /\ on w ((X + before l (List.length l)) * n) /\ forall i p g, nth_error l i = Some p -> nth_error gs i = Some g -> set_at X Y l i p g.
  Proof.
    induction l as [|p l IH]; intros X Y cx cy gs w R HX HY; cbn [lay].
    { intros [= <- <-]. split; [reflexivity|]. split; [cbn [List.length before firstn map fold_right]; unfold before; cbn; rewrite Z.add_0_r; exact HX|]. intros [|i] p g H; discriminate H. }
    destruct (lay scale _ _ l) as [gs' w'] eqn:E. intros [= <- <-]. pose proof R as [RA RB]. destruct (RB 0%nat p eq_refl) as (F1 & F2 & F3 & F4 & F5 & F6). change (before (p :: l) 0) with 0 in F5. change (above (p :: l) 0) with 0 in F6. rewrite Z.add_0_r in F5, F6.
    pose proof (RA 1%nat) as [A1 A2]. rewrite before_cons in A1. rewrite above_cons in A2. change (before l 0) with 0 in A1. change (above l 0) with 0 in A2. rewrite Z.add_0_r in A1, A2.
    destruct (IH _ _ _ _ _ _ (room_tail _ _ _ _ R) (units_plus _ _ _ HX F3 A1) (units_plus _ _ _ HY F4 A2) E) as (L & W & H).
    split; [cbn [List.length]; rewrite L; reflexivity|]. split; [cbn [List.length]; rewrite before_cons, Z.add_assoc; exact W|]. intros [|i] q g; cbn [nth_error].
    - intros [= <-] [= <-]. unfold set_at. cbn [g_id g_cluster g_x g_y g_xo g_yo g_xa g_ya]. change (before (p :: l) 0) with 0. change (above (p :: l) 0) with 0. rewrite !Z.add_0_r.
      repeat split; try (apply units; assumption); apply units_plus; assumption.
    - intros H1 H2. specialize (H i q g H1 H2). unfold set_at in *. rewrite before_cons, above_cons, !Z.add_assoc. exact H.
  Qed.
  (* the ink *)
  Variable f : face.
  Fixpoint marks (X : Z) (l : list placed) : list (Z * Z) :=
    match l with [] => [] | p :: r => (match f_box f (p_id p mod 65536)%N with Some (a, b) => [(X + p_xo p + a, X + p_xo p + b)] | None => [] end) ++ marks (X + p_xa p) r end.
  Definition inky (X : Z) (l : list placed) : Prop := forall i p a b, nth_error l i = Some p -> f_box f (p_id p mod 65536)%N = Some (a, b) -> fits n a /\ fits n b /\ fits n (X + before l i + p_xo p + a) /\ fits n (X + before l i + p_xo p + b).
  Definition lowest (lo : float) (es : list Z) : Prop := match es with [] => lo = Inf false | e :: r => on lo (fold_left Z.min r e * n) end.
  Definition highest (hi : float) (es : list Z) : Prop := match es with [] => hi = Inf true | e :: r => on hi (fold_left Z.max r e * n) end.
  Lemma low_step lo es x a : lowest lo es -> on x (a * n) -> lowest (f_min lo x) (es ++ [a]).
  Proof.
    intros L X. destruct es as [|e r]; cbn [lowest app] in *.
    - subst lo. destruct X as (v & -> & V). exists v. split; [reflexivity|exact V].
    - rewrite fold_left_app. cbn [fold_left]. unfold f_min. pose proof (le_on _ _ _ _ L X) as C. destruct L as (p & -> & P), X as (q & -> & Q). rewrite C. destruct (Z.leb_spec (fold_left Z.min r e * n) (a * n)) as [D|D]; [rewrite Z.min_l by nia; exists p|rewrite Z.min_r by nia; exists q]; split; auto.
  Qed.
  Lemma high_step hi es x a : highest hi es -> on x (a * n) -> highest (f_max hi x) (es ++ [a]).
  Proof.
    intros L X. destruct es as [|e r]; cbn [highest app] in *.
    - subst hi. destruct X as (v & -> & V). exists v. split; [reflexivity|exact V].
    - rewrite fold_left_app. cbn [fold_left]. unfold f_max. pose proof (le_on _ _ _ _ X L) as C. destruct L as (p & -> & P), X as (q & -> & Q). rewrite C. destruct (Z.leb_spec (a * n) (fold_left Z.max r e * n)) as [D|D]; [rewrite Z.max_l by nia; exists p|rewrite Z.max_r by nia; exists q]; split; auto.
  Qed.
  Lemma ink_on : forall l X gs lo hi es lo' hi', inky X l -> List.length gs = List.length l -> (forall i p g, nth_error l i = Some p -> nth_error gs i = Some g -> g_id g = p_id p /\ on (g_x g) ((X + before l i + p_xo p) * n)) ->
    lowest lo (map fst es) -> highest hi (map snd es) -> ink f scale gs lo hi = (lo', hi') -> lowest lo' (map fst (es ++ marks X l)) /\ highest hi' (map snd (es ++ marks X l)).
  Proof.
    induction l as [|p l IH]; intros X gs lo hi es lo' hi' I L H LO HI; destruct gs as [|g gs]; try discriminate L; cbn [ink marks].
    { intros [= <- <-]. rewrite app_nil_r. auto. }
    destruct (H 0%nat p g eq_refl eq_refl) as [ID GX]. change (before (p :: l) 0) with 0 in GX. rewrite Z.add_0_r in GX. rewrite ID.
    assert (I' : inky (X + p_xa p) l) by (intros i q a b E1 E2; specialize (I (S i) q a b E1 E2); rewrite before_cons, Z.add_assoc in I; exact I).
    assert (H' : forall i q g', nth_error l i = Some q -> nth_error gs i = Some g' -> g_id g' = p_id q /\ on (g_x g') ((X + p_xa p + before l i + p_xo q) * n)) by (intros i q g' E1 E2; specialize (H (S i) q g' E1 E2); rewrite before_cons, Z.add_assoc in H; exact H).
    injection L as L. destruct (f_box f (p_id p mod 65536)%N) as [[a b]|] eqn:B.
    - destruct (I 0%nat p a b eq_refl B) as (F1 & F2 & F3 & F4). change (before (p :: l) 0) with 0 in F3, F4. rewrite Z.add_0_r in F3, F4.
      rewrite app_assoc. apply (IH (X + p_xa p) gs); [exact I'|exact L|exact H'| |].
      + rewrite map_app. apply low_step; [exact LO|]. apply units_plus; assumption.
      + rewrite map_app. apply high_step; [exact HI|]. apply units_plus; assumption.
    - cbn [app]. apply (IH (X + p_xa p) gs); assumption.
  Qed.
End Grid.

Lemma marks_edges f : forall l X, marks f X l = map (fun '(a, b) => (X + a, X + b)) (edges f l).
Proof.
  induction l as [|p l IH]; intros X; [reflexivity|]. cbn [marks]. rewrite IH. unfold edges. cbn [List.length seq flat_map nth_error]. rewrite map_app. f_equal.
  - change (before (p :: l) 0) with 0. destruct (f_box f _) as [[a b]|]; [|reflexivity]. cbn [map]. do 2 f_equal; lia.
  - rewrite <- seq_shift, !flat_map_concat_map, map_map, !concat_map, !map_map. f_equal. apply map_ext. intros i. cbn [nth_error]. destruct (nth_error l i) as [q|]; [|reflexivity]. destruct (f_box f _) as [[a b]|]; [|reflexivity].
    cbn [map]. rewrite before_cons. do 2 f_equal; lia.
Qed.

Lemma edges_ordered f l : sound_face f -> Forall (fun e => fst e <= snd e) (edges f l).
Proof.
  intros (_ & _ & _ & B). apply Forall_forall. intros e H. unfold edges in H. apply in_flat_map in H. destruct H as (i & _ & H). destruct (nth_error l i) as [p|]; [|contradiction].
  destruct (f_box f _) as [[a b]|] eqn:E; [|contradiction]. destruct H as [<-|[]]. cbn [fst snd]. destruct (B _ _ _ E) as (_ & _ & L). lia.
Qed.
Lemma min_max : forall r a b, a <= b -> Forall (fun e : Z * Z => fst e <= snd e) r -> fold_left Z.min (map fst r) a <= fold_left Z.max (map snd r) b.
Proof. induction r as [|[x y] r IH]; intros a b L F; cbn [map fold_left fst snd]; [exact L|]. inversion_clear F as [|? ? F1 F2]. cbn [fst snd] in F1. apply IH; [lia|exact F2]. Qed.
Lemma map_zero (l : list (Z * Z)) : map (fun '(a, b) => (0 + a, 0 + b)) l = l.
Proof. induction l as [|[a b] l IH]; [reflexivity|]. cbn [map]. rewrite IH. reflexivity. Qed.
Lemma from_face_ok f : sound_face f -> exists m, from_face f = Some m /\ me_em m = f_of_N f32 (f_em f) /\ number (me_asc m) (inject_Z (rise f)) /\ number (me_desc m) (inject_Z (drop f)).
Proof.
  intros (A & D & O & _). unfold i16 in A, D.
  assert (WH : forall z, -32768 <= z <= 32768 -> number (f_of_Z f32 z) (inject_Z z)) by (intros z R; destruct (whole z ltac:(lia)) as (v & E & V); exists v; split; assumption).
  unfold from_face, rise, drop. destruct (f_os2 f) as [[wa wd]|].
  - destruct (O wa wd eq_refl) as (W1 & W2 & W3). unfold i16 in W1, W2. destruct (Z.eqb_spec wa 0) as [Z0|Z0].
    + eexists. split; [reflexivity|]. cbn. repeat split; apply WH; lia.
    + destruct (W3 Z0) as [N1 N2]. destruct (Z.eqb_spec wa (-32768)); [contradiction|]. destruct (Z.eqb_spec wd (-32768)); [contradiction|]. cbn [orb]. eexists. split; [reflexivity|]. cbn [me_em me_asc me_desc]. split; [reflexivity|]. split; [apply WH; lia|].
      destruct (WH (Z.abs wd) ltac:(lia)) as (v & -> & V). exists (- v)%Q. split; [reflexivity|]. rewrite V, inject_Z_opp. reflexivity.
  - eexists. split; [reflexivity|]. cbn. repeat split; apply WH; lia.
Qed.
Lemma shape_set f k size text : sound_face f -> 0 <= k <= 14 -> Z.of_N (f_em f) = 2 ^ k -> 1 <= size < 16777216 -> small_run f size (f_shape f text) ->
  exists s, shape_face f text (Fin (inject_Z size)) = Some s /\ well_set f size (f_shape f text) s.
Proof.
  intros SF K EM S (R1 & R2 & FA & FD & FH). set (em := Z.of_N (f_em f)) in *. pose proof (em_pos k em K EM) as EP. set (l := f_shape f text) in *.
  destruct (from_face_ok f SF) as (m & E & ME & MA & MD). unfold shape_face. rewrite E, ME. fold l.
  assert (SC : on em (f_div f32 (Fin (inject_Z size)) (f_of_N f32 (f_em f))) size).
  { destruct (whole em ltac:(lia)) as (v & EV & V). unfold f_of_N. fold em. rewrite EV. assert (NZ : ~ (v == 0)%Q) by (rewrite V; unfold Qeq, inject_Z; cbn; lia). unfold f_div.
    replace (qzero v) with false by (symmetry; unfold qzero; apply Z.eqb_neq; intros Q0; apply NZ; unfold Qeq; rewrite Q0; reflexivity). apply (round_on k em K EM); [rewrite V; reflexivity|lia]. }
  unfold baseline. rewrite ME. set (scale := f_div f32 (Fin (inject_Z size)) (f_of_N f32 (f_em f))) in *.
  assert (PX : forall x z, on em x (z * size) -> number x (pixels f size z)) by (intros x z H; exact H).
  destruct (lay scale (Fin 0) (Fin 0) l) as [gs w] eqn:LY.
  assert (RM : room size 0 0 l) by (split; [intros i; rewrite !Z.add_0_l; apply R1|intros i p H; rewrite !Z.add_0_l; destruct (R2 i p H) as (? & ? & ? & ? & ? & ? & _); auto 10]).
  destruct (lay_on k em K EM size S scale SC l 0 0 _ _ gs w RM (zero_on k em K EM) (zero_on k em K EM) LY) as (L & W & H). rewrite Z.add_0_l in W.
  destruct (ink f scale gs (Inf false) (Inf true)) as [lo hi] eqn:IK.
  assert (IY : inky size f 0 l) by (intros i p a b H1 H2; rewrite Z.add_0_l; destruct (R2 i p H1) as (_ & _ & _ & _ & _ & _ & Q); exact (Q a b H2)).
  destruct (ink_on k em K EM size S scale SC f l 0 gs (Inf false) (Inf true) [] lo hi IY L ltac:(intros i p g H1 H2; destruct (H i p g H1 H2) as (? & _ & ? & _); auto) eq_refl eq_refl IK) as [LO HI].
  cbn [app] in LO, HI. rewrite marks_edges, map_zero in LO, HI.
  pose proof (mul_on k em K EM _ _ _ _ MA SC FA) as ASC. pose proof (mul_on k em K EM _ _ _ _ MD SC FD) as DSC.
  assert (HT : on em (f_sub f32 (f_mul f32 (me_asc m) scale) (f_mul f32 (me_desc m) scale)) ((rise f - drop f) * size)).
  { unfold f_sub. replace ((rise f - drop f) * size) with (rise f * size + - (drop f * size)) by ring. apply (add_on k em K EM); [exact ASC|apply (opp_on k em K EM); exact DSC|]. unfold fits in FH. replace (rise f * size + - (drop f * size)) with ((rise f - drop f) * size) by ring. exact FH. }
  assert (COMMON : forall lo' hi', match edges f l with [] => lo' = Fin 0 /\ hi' = w | (a, b) :: r => number lo' (pixels f size (fold_left Z.min (map fst r) a)) /\ number hi' (pixels f size (fold_left Z.max (map snd r) b)) end ->
    well_set f size l (Sh gs w (f_sub f32 (f_mul f32 (me_asc m) scale) (f_mul f32 (me_desc m) scale)) (f_mul f32 (me_asc m) scale) (Fin (inject_Z size)) (f_mul f32 (me_asc m) scale) (f_mul f32 (me_desc m) scale) lo' hi')).
  { intros lo' hi' I. unfold well_set. cbn [s_glyphs s_width s_ascent s_descent s_baseline s_height s_ink_min s_ink_max]. split; [exact L|]. split; [|repeat split; first [exact W|exact ASC|exact DSC|exact HT|exact I]].
    intros i p g H1 H2. specialize (H i p g H1 H2). unfold set_at in H. rewrite !Z.add_0_l in H. exact H. }
  pose proof (edges_ordered f l SF) as EO. destruct (edges f l) as [|[a b] r] eqn:EE.
  - cbn [map lowest highest] in LO, HI. subst lo hi. change (f_lt (Inf true) (Inf false)) with true. cbv iota. eexists. split; [reflexivity|]. apply COMMON. split; reflexivity.
  - cbn [map lowest highest fst snd] in LO, HI. inversion_clear EO as [|? ? EO1 EO2]. cbn [fst snd] in EO1. pose proof (min_max r a b EO1 EO2) as MM.
    replace (f_lt hi lo) with false. 2:{ symmetry. unfold f_lt. rewrite (le_on k em K EM _ _ _ _ LO HI). replace (fold_left Z.min (map fst r) a * size <=? fold_left Z.max (map snd r) b * size) with true by (symmetry; apply Z.leb_le; nia). apply andb_false_r. }
    eexists. split; [reflexivity|]. apply COMMON. split; [exact LO|exact HI].
Qed.
