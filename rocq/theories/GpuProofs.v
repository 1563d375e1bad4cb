(* The GPU compositor's caches are invisible. *)
From Verif Require Import Base PixelModel FloatModel GpuModel GpuSpec.
From Verif Require Import FrameProofs.
From Verif Require FrameModel.

(* --- slices --- *)
Lemma sub_some i n (b : list N) : i + n <= List.length b -> sub_slice i n b = Some (firstn n (skipn i b)).
Proof. intros H. unfold sub_slice. rewrite (proj2 (Nat.leb_le _ _) H). reflexivity. Qed.
Lemma sub_prefix i n (b c : list N) : i + n <= List.length b -> sub_slice i n (b ++ c) = sub_slice i n b.
Proof.
  intros H. rewrite !sub_some by (rewrite ?app_length; lia). f_equal. rewrite skipn_app, firstn_app.
  rewrite skipn_length. replace (n - (List.length b - i)) with 0 by lia. cbn [firstn]. rewrite app_nil_r. reflexivity.
Qed.
Lemma sub_firstn i n k (b c : list N) : i + n <= k -> k <= List.length b -> firstn k b = firstn k c -> k <= List.length c ->
  sub_slice i n b = sub_slice i n c.
Proof.
  intros H Hb E Hc. rewrite <- (firstn_skipn k b), <- (firstn_skipn k c), !sub_prefix by (rewrite firstn_length; lia). rewrite E. reflexivity.
Qed.
Lemma copy_some i (n b : list N) : i + List.length n <= List.length b ->
  copy_at i n b = Some (firstn i b ++ n ++ skipn (i + List.length n) b).
Proof. intros H. unfold copy_at. rewrite (proj2 (Nat.leb_le _ _) H). reflexivity. Qed.
Lemma copy_facts i (n b c : list N) : copy_at i n b = Some c ->
  List.length c = List.length b /\ firstn i c = firstn i b /\ sub_slice i (List.length n) c = Some n /\ i + List.length n <= List.length b.
Proof.
  unfold copy_at. destruct (Nat.leb_spec (i + List.length n) (List.length b)) as [H|]; [|discriminate]. intros [= <-].
  assert (L : List.length (firstn i b) = i) by (rewrite firstn_length; lia).
  split; [rewrite !app_length, skipn_length, L; lia|]. split; [|split; [|exact H]].
  - rewrite firstn_app, L, Nat.sub_diag. cbn [firstn]. rewrite app_nil_r. apply firstn_all2. lia.
  - rewrite sub_some by (rewrite !app_length, skipn_length, L; lia). f_equal.
    rewrite skipn_app, L, Nat.sub_diag, (skipn_all2 (firstn i b)) by lia. cbn [skipn app].
    rewrite firstn_app, Nat.sub_diag. cbn [firstn]. rewrite app_nil_r. apply firstn_all2. lia.
Qed.

Lemma skip_skip {A} a b (l : list A) : skipn a (skipn b l) = skipn (b + a) l.
Proof. revert l. induction b as [|b IH]; intros l; [reflexivity|]. destruct l; [rewrite !skipn_nil; reflexivity|]. cbn [skipn plus]. apply IH. Qed.
(* rows that touch each other are the data itself *)
Lemma rows_tight r : forall n y (d : list N), List.length d = (y + n) * r -> rows_at r r y n d = Some (skipn (y * r) d).
Proof.
  induction n as [|n IH]; intros y d H; cbn [rows_at].
  - rewrite skipn_all2 by lia. reflexivity.
  - rewrite sub_some by lia. rewrite (IH (S y) d) by lia. f_equal.
    rewrite <- (firstn_skipn r (skipn (y * r) d)) at 2. f_equal. rewrite skip_skip. f_equal. lia.
Qed.
(* putting rows apart leaves what is before the first *)
Lemma rows_to_ok st r (px : list N) : r <= st -> forall n y buf, List.length px = (y + n) * r -> List.length buf = (y + n) * st ->
  exists b, rows_to st r y n px buf = Some b /\ List.length b = List.length buf /\ firstn (y * st) b = firstn (y * st) buf /\
    rows_at st r y n b = Some (skipn (y * r) px).
Proof.
  intros Hr. induction n as [|n IH]; intros y buf Hp Hb; cbn [rows_to rows_at].
  - exists buf. rewrite skipn_all2 by lia. auto.
  - rewrite sub_some by lia. set (row := firstn r (skipn (y * r) px)).
    assert (Lr : List.length row = r) by (unfold row; rewrite firstn_length, skipn_length; lia).
    destruct (copy_at (y * st) row buf) as [b1|] eqn:E; [|rewrite copy_some in E by (rewrite Lr; nia); discriminate].
    destruct (copy_facts _ _ _ _ E) as (L1 & F1 & S1 & _). rewrite Lr in S1.
    destruct (IH (S y) b1) as (b & Eb & Lb & Fb & Rb); [lia|lia|]. exists b. rewrite Eb. split; [reflexivity|]. split; [lia|].
    split.
    + rewrite <- F1. replace (firstn (y * st) b) with (firstn (y * st) (firstn (S y * st) b)) by (rewrite firstn_firstn; f_equal; lia).
      rewrite Fb, firstn_firstn. f_equal. lia.
    + rewrite (sub_firstn (y * st) r (S y * st) b b1) by (try lia; exact Fb). rewrite S1, Rb. f_equal. unfold row.
      rewrite <- (firstn_skipn r (skipn (y * r) px)) at 2. f_equal. rewrite skip_skip. f_equal. lia.
Qed.

(* --- stores --- *)
Lemma nth_app_keep {A} (l m : list A) i : i < List.length l -> nth_error (l ++ m) i = nth_error l i.
Proof. apply nth_error_app1. Qed.
Lemma nth_app_new {A} (l : list A) x : nth_error (l ++ [x]) (List.length l) = Some x.
Proof. rewrite nth_error_app2, Nat.sub_diag by lia. reflexivity. Qed.
Lemma create_texture_ok dv s f w h : size_ok dv w h ->
  create_texture dv s f w h = Some (St (textures s ++ [Tex f w h (repeat 0%N (N.to_nat (w * h * tbpp f)))]) (buffers s), List.length (textures s)).
Proof.
  intros [[A B] [C D]]. unfold create_texture. rewrite (proj2 (N.ltb_lt _ _) A), (proj2 (N.leb_le _ _) B), (proj2 (N.ltb_lt _ _) C), (proj2 (N.leb_le _ _) D). reflexivity.
Qed.
Lemma create_buffer_ok dv s n : (n <= d_maxbuf dv)%N ->
  create_buffer dv s n = Some (St (textures s) (buffers s ++ [repeat 0%N (N.to_nat n)]), List.length (buffers s)).
Proof. intros H. unfold create_buffer. rewrite (proj2 (N.leb_le _ _) H). reflexivity. Qed.
Lemma mul32_ok a b : (a * b < 4294967296)%N -> mul32 a b = Some (a * b)%N.
Proof. intros H. unfold mul32. rewrite (proj2 (N.ltb_lt _ _) H). reflexivity. Qed.

Definition padded_of (w : N) : N := (div_ceil (w * 4) 256 * 256)%N.
Lemma padded_bounds w : (w * 4 <= padded_of w <= w * 4 + 255)%N.
Proof. unfold padded_of, div_ceil. pose proof (N.div_mod (w * 4 + 256 - 1) 256). pose proof (N.mod_lt (w * 4 + 256 - 1) 256). lia. Qed.
Lemma padded_mod w : (padded_of w mod 256 = 0)%N.
Proof. unfold padded_of. apply N.mod_mul. lia. Qed.

(* a target or layer: its texture with pixels px, its read-back buffer *)
Definition has_target (dv : device) (s : store) (g : target) (px : list N) : Prop :=
  size_ok dv (g_w g) (g_h g) /\ nth_error (textures s) (g_tex g) = Some (Tex RGBA8 (g_w g) (g_h g) px) /\
  List.length px = N.to_nat (g_w g * g_h g * 4) /\ g_padded g = padded_of (g_w g) /\
  exists b, nth_error (buffers s) (g_read g) = Some b /\ List.length b = N.to_nat (padded_of (g_w g) * g_h g).
Definition tile_ok (s : store) (t : tile) : Prop :=
  exists f w h px, tl_key t = (f, w, h) /\ nth_error (textures s) (tl_tex t) = Some (Tex f w h px).
Definition stride_of (dv : device) : N := (div_ceil UNIFORM_SIZE (d_align dv) * d_align dv)%N.
Definition uniforms_ok (dv : device) (s : store) (u : option (nat * N)) : Prop :=
  match u with None => True | Some (i, cap) => exists b, nth_error (buffers s) i = Some b /\ List.length b = N.to_nat (stride_of dv * cap) end.
Definition otex (g : option target) : list nat := match g with Some g => [g_tex g] | None => [] end.
Definition oscr (g : option screen) : list nat := match g with Some g => [s_tex g] | None => [] end.
Definition keep_ids (c : comp) : list nat := otex (c_target c) ++ otex (c_layer c) ++ oscr (c_screen c).

Lemma stride_bounds dv : device_ok dv -> (48 <= stride_of dv < 48 + d_align dv)%N /\ (stride_of dv mod d_align dv = 0)%N /\ (stride_of dv mod 4 = 0)%N.
Proof.
  intros [[A M] _ _ _ _ _]. unfold stride_of, div_ceil, UNIFORM_SIZE.
  pose proof (N.div_mod (48 + d_align dv - 1) (d_align dv)). pose proof (N.mod_lt (48 + d_align dv - 1) (d_align dv)).
  split; [nia|]. split; [apply N.mod_mul; lia|].
  rewrite N.mul_mod, M, N.mul_0_r by lia. reflexivity.
Qed.

Definition pres (s s' : store) (ids : list nat) : Prop := forall i, In i ids -> nth_error (textures s') i = nth_error (textures s) i.
Definition within (s : store) (ids : list nat) : Prop := forall i, In i ids -> i < List.length (textures s).

(* read-back gives the pixels back *)
Lemma read_back_ok dv s g px : device_ok dv -> has_target dv s g px ->
  exists s1, copy_from s g = Some s1 /\ read_rows s1 g = Some px /\ textures s1 = textures s /\
    List.length (buffers s1) = List.length (buffers s) /\
    forall i b, nth_error (buffers s) i = Some b -> exists b1, nth_error (buffers s1) i = Some b1 /\ List.length b1 = List.length b.
Proof.
  intros D ([[W1 W2] [H1 H2]] & Et & Lp & Ep & b & Eb & Lb). pose proof (o_dim _ D) as OD.
  unfold copy_from. rewrite Et, Eb. cbn [t_fmt tbpp t_px]. rewrite Ep, padded_mod.
  pose proof (padded_bounds (g_w g)) as PB. cbn [N.eqb andb].
  rewrite (proj2 (N.leb_le _ _) (proj1 PB)). cbn [negb andb].
  destruct (rows_to_ok (N.to_nat (padded_of (g_w g))) (N.to_nat (g_w g * 4)) px ltac:(lia) (N.to_nat (g_h g)) 0 b ltac:(nia) ltac:(nia))
    as (b1 & E1 & L1 & _ & R1). rewrite E1. eexists. split; [reflexivity|].
  assert (Li : g_read g < List.length (buffers s)) by (apply nth_error_Some; congruence).
  split; [|split; [reflexivity|split; [apply upd_length|]]].
  - unfold read_rows. cbn [set_buf buffers]. rewrite upd_same by exact Li. rewrite mul32_ok by lia.
    replace (g_w g * 4 =? 0)%N with false by (symmetry; apply N.eqb_neq; lia). rewrite Ep, R1. cbn [Nat.mul skipn]. reflexivity.
  - intros i c Ec. cbn [set_buf buffers]. destruct (Nat.eq_dec (g_read g) i) as [<-|Ne].
    + exists b1. rewrite upd_same by exact Li. split; [reflexivity|]. congruence.
    + exists c. rewrite upd_other by exact Ne. auto.
Qed.

(* --- uniforms --- *)
Lemma pow2_up n : (1 <= n)%N -> (n <= 2 ^ N.log2_up n)%N /\ (2 ^ N.log2_up n < 2 * n)%N \/ n = 1%N.
Proof.
  intros H. destruct (N.eq_dec n 1) as [->|Ne]; [right; reflexivity|left].
  pose proof (N.log2_up_spec n ltac:(lia)) as [A B]. split; [exact B|].
  assert (P : (0 < N.log2_up n)%N) by (apply N.log2_up_pos; lia).
  replace (N.log2_up n) with (N.succ (N.pred (N.log2_up n))) by lia. rewrite N.pow_succ_r'. lia.
Qed.
Lemma next_pow2_ok n : (1 <= n < 1073741824)%N -> exists p, next_pow2 n = Some p /\ (n <= p <= 2 * n)%N.
Proof.
  intros H. unfold next_pow2. destruct (pow2_up n ltac:(lia)) as [[A B]| ->].
  - rewrite (proj2 (N.ltb_lt _ _)) by lia. eexists. split; [reflexivity|lia].
  - exists 1%N. split; [reflexivity|lia].
Qed.
Lemma ensure_uniforms_ok dv s c n : device_ok dv -> c_stride c = stride_of dv -> uniforms_ok dv s (c_uniforms c) ->
  (n < 1073741824)%N -> (stride_of dv * (2 * n) <= d_maxbuf dv)%N ->
  exists s1 c1 u, ensure_uniforms dv s c n = Some (s1, c1) /\ textures s1 = textures s /\
    (forall i b, nth_error (buffers s) i = Some b -> nth_error (buffers s1) i = Some b) /\
    c1 = Co (c_stride c) (c_target c) (c_layer c) (c_screen c) u (c_pool c) (c_present c) /\ uniforms_ok dv s1 u /\
    (n = 0%N \/ exists i b, (exists cap, u = Some (i, cap)) /\ nth_error (buffers s1) i = Some b /\ N.to_nat (stride_of dv * n) <= List.length b).
Proof.
  intros D Es U Hn Hb. unfold ensure_uniforms. destruct (N.eqb_spec n 0) as [->|N0].
  - exists s, c, (c_uniforms c). cbn [orb]. destruct c; cbn. auto 10.
  - cbn [orb]. assert (New : exists s1 c1 u, (do cap <- next_pow2 n; do (s1, b) <- create_buffer dv s (c_stride c * cap);
        Some (s1, Co (c_stride c) (c_target c) (c_layer c) (c_screen c) (Some (b, cap)) (c_pool c) (c_present c))) = Some (s1, c1) /\ textures s1 = textures s /\
      (forall i b, nth_error (buffers s) i = Some b -> nth_error (buffers s1) i = Some b) /\
      c1 = Co (c_stride c) (c_target c) (c_layer c) (c_screen c) u (c_pool c) (c_present c) /\ uniforms_ok dv s1 u /\
      (n = 0%N \/ exists i b, (exists cap, u = Some (i, cap)) /\ nth_error (buffers s1) i = Some b /\ N.to_nat (stride_of dv * n) <= List.length b)).
    { destruct (next_pow2_ok n ltac:(lia)) as (p & -> & P1 & P2). rewrite Es. rewrite create_buffer_ok by nia.
      do 2 eexists. exists (Some (List.length (buffers s), p)). split; [reflexivity|]. split; [reflexivity|]. cbn [buffers].
      split; [intros i b E; rewrite nth_app_keep; [exact E|apply nth_error_Some; congruence]|].
      split; [reflexivity|]. cbn [uniforms_ok]. split.
      - eexists. cbn [buffers]. rewrite nth_app_new. split; [reflexivity|]. apply repeat_length.
      - right. do 2 eexists. split; [eexists; reflexivity|]. rewrite nth_app_new. split; [reflexivity|]. rewrite repeat_length. nia. }
    destruct (c_uniforms c) as [[i cap]|] eqn:Eu; [|exact New]. destruct (N.leb_spec n cap) as [L|L]; [|exact New].
    exists s, c, (Some (i, cap)). split; [reflexivity|]. split; [reflexivity|]. split; [auto|]. split; [destruct c; cbn in *; subst; reflexivity|].
    split; [exact U|]. right. destruct U as (b & Eb & Lb). exists i, b. split; [eauto|]. split; [exact Eb|]. rewrite Lb. nia.
Qed.
