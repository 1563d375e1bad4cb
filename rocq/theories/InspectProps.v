(* C210: what the frame inspector reports of a frame *)
From Verif Require Import Base AnalyzeModel InspectModel.

(* ---- specification: a picture is rows of pixels, stored row after row ---- *)
Definition rgba := (N * N * N * N)%type.
Definition bytes (c : rgba) : list N := let '(r, g, b, a) := c in [r; g; b; a].
Definition alpha (c : rgba) : N := snd c.
Record picture (w : nat) (rows : list (list rgba)) : Prop := { even : forall r, List.In r rows -> length r = w; small : (4 * N.of_nat (w * length rows) < 4294967296)%N }.
Definition stored (w : nat) (rows : list (list rgba)) : frame := Fr w (length rows) (flat_map (flat_map bytes) rows).
Definition color_at (rows : list (list rgba)) (x y : nat) : option rgba := match nth_error rows y with Some r => nth_error r x | None => None end.
Definition pix_of (x y : nat) (c : rgba) : pix := let '(r, g, b, a) := c in Pix x y r g b a.
Definition visible (rows : list (list rgba)) (x y : nat) : Prop := exists c, color_at rows x y = Some c /\ (0 < alpha c)%N.

(* ---- proofs ---- *)
Lemma nth_flat {A B} (g : A -> list B) n l : (forall a, List.In a l -> length (g a) = n) -> forall i k, k < n ->
  nth_error (flat_map g l) (n * i + k) = match nth_error l i with Some a => nth_error (g a) k | None => None end.
Proof.
  induction l as [|a r IH]; intros H i k K. { cbn. destruct (n * i + k); destruct i; reflexivity. }
  cbn [flat_map]. destruct i as [|i].
  - rewrite Nat.mul_0_r. cbn [nth_error Nat.add]. apply nth_error_app1. rewrite (H a); [exact K|left; reflexivity].
  - rewrite nth_error_app2; rewrite (H a) by (left; reflexivity); [|nia]. cbn [nth_error]. replace (n * S i + k - n) with (n * i + k) by nia. apply IH; [intros; apply H; right; assumption|exact K].
Qed.
Lemma bytes_length c : length (bytes c) = 4. Proof. destruct c as [[[? ?] ?] ?]. reflexivity. Qed.
Lemma row_length r : length (flat_map bytes r) = 4 * length r.
Proof. induction r as [|c r IH]; [reflexivity|]. cbn [flat_map]. rewrite app_length, IH, bytes_length. cbn [length]. lia. Qed.
Lemma byte_at w rows x y k : (forall r, List.In r rows -> length r = w) -> x < w -> k < 4 ->
  nth_error (flat_map (flat_map bytes) rows) ((y * w + x) * 4 + k) = match color_at rows x y with Some c => nth_error (bytes c) k | None => None end.
Proof.
  intros E X K. replace ((y * w + x) * 4 + k) with ((4 * w) * y + (4 * x + k)) by nia.
  rewrite (nth_flat (flat_map bytes) (4 * w)); [|intros r I; rewrite row_length, (E r I); reflexivity|nia]. unfold color_at.
  destruct (nth_error rows y) as [r|]; [|reflexivity]. apply nth_flat; [intros; apply bytes_length|exact K].
Qed.
Lemma color_some w rows x y : (forall r, List.In r rows -> length r = w) -> x < w -> y < length rows -> exists c, color_at rows x y = Some c.
Proof.
  intros E X Y. unfold color_at. destruct (nth_error rows y) as [r|] eqn:R; [|apply nth_error_None in R; lia].
  destruct (nth_error r x) as [c|] eqn:C; [exists c; reflexivity|]. apply nth_error_None in C. rewrite (E r (nth_error_In _ _ R)) in C. lia.
Qed.
Lemma color_inside w rows x y c : (forall r, List.In r rows -> length r = w) -> color_at rows x y = Some c -> x < w /\ y < length rows.
Proof.
  intros E. unfold color_at. destruct (nth_error rows y) as [r|] eqn:R; [|discriminate]. intros C. split; [rewrite <- (E r (nth_error_In _ _ R)); apply nth_error_Some; rewrite C; discriminate|apply nth_error_Some; rewrite R; discriminate].
Qed.
Lemma offset_ok w rows x y : picture w rows -> x < w -> y < length rows -> offset (stored w rows) x y = Some ((y * w + x) * 4).
Proof.
  intros [E S] X Y. unfold offset, u32, stored; cbn [f_w].
  assert (B : ((y * w + x) * 4 < 4 * (w * length rows))) by nia.
  assert (C : (N.of_nat ((y * w + x) * 4) < 4294967296)%N) by lia.
  rewrite (proj2 (N.ltb_lt _ _)) by lia. cbn [bind]. rewrite (proj2 (N.ltb_lt _ _)) by lia. cbn [bind]. rewrite (proj2 (N.ltb_lt _ _)) by exact C. reflexivity.
Qed.
Lemma pixel_in_exact w rows x y : picture w rows -> pixel_in (stored w rows) x y = Some (option_map (pix_of x y) (color_at rows x y)).
Proof.
  intros P. unfold pixel_in. cbn [stored f_w f_h].
  destruct (Nat.leb_spec w x) as [X|X]; cbn [orb].
  { destruct (color_at rows x y) eqn:C; [|reflexivity]. apply (color_inside w) in C; [lia|apply P]. }
  destruct (Nat.leb_spec (length rows) y) as [Y|Y].
  { destruct (color_at rows x y) eqn:C; [|reflexivity]. apply (color_inside w) in C; [lia|apply P]. }
  change (Fr w (length rows) (flat_map (flat_map bytes) rows)) with (stored w rows). rewrite (offset_ok w) by assumption. cbn [bind stored f_px].
  replace ((y * w + x) * 4) with ((y * w + x) * 4 + 0) at 1 by lia. rewrite !(byte_at w) by (try apply P; lia).
  destruct (color_some w rows x y ltac:(apply P) X Y) as ([[[r g] b] a] & ->). reflexivity.
Qed.

Theorem inspector_pixel : forall w rows cx cy x y, picture w rows ->
  pixel_at (In (Some (stored w rows)) cx cy) x y = Some (option_map (pix_of x y) (color_at rows x y)).
Proof. intros. unfold pixel_at. cbn [i_frame]. apply pixel_in_exact. assumption. Qed.
Print Assumptions inspector_pixel.

(* the cursor: for every history it stays on a pixel of the frame last loaded *)
Inductive op := Load (f : frame) | Move (dx dy : Z) | Set_ (x y : nat).
Definition step (o : op) (i : inspector) : option inspector :=
  match o with Load f => Some (load f i) | Move dx dy => move_cursor dx dy i | Set_ x y => set_cursor x y i end.
Fixpoint run (l : list op) (i : inspector) : option inspector := match l with [] => Some i | o :: r => bind (step o i) (run r) end.
Definition sized (f : frame) : Prop := 1 <= f_w f /\ 1 <= f_h f /\ (Z.of_nat (f_w f) < 2147483648)%Z /\ (Z.of_nat (f_h f) < 2147483648)%Z.
(* what may be passed: frames of a real size, displacements that are i32 *)
Definition modest (o : op) : Prop := match o with Load f => sized f | Move dx dy => (-2147483648 <= dx < 2147483648 /\ -2147483648 <= dy < 2147483648)%Z | Set_ _ _ => True end.
Definition on_frame (i : inspector) : Prop := match i_frame i with Some f => sized f /\ i_x i < f_w f /\ i_y i < f_h f | None => True end.
Definition clamp (z : Z) (n : nat) : Z := Z.max 0 (Z.min z (Z.of_nat n - 1)).
Lemma moved_exact c d n : c < n -> (Z.of_nat n < 2147483648)%Z -> (-2147483648 <= d)%Z ->
  if (Z.of_nat c + d <? 2147483648)%Z then exists m, moved c d n = Some m /\ Z.of_nat m = clamp (Z.of_nat c + d) n /\ m < n else moved c d n = None.
Proof.
  intros C S D. unfold moved, as_i32, i32, clamp. rewrite (proj2 (Z.ltb_lt (Z.of_nat c) _)) by lia. rewrite (proj2 (Z.ltb_lt (Z.of_nat n) _)) by lia.
  rewrite (proj2 (Z.leb_le _ (Z.of_nat c + d))) by lia. cbn [andb]. destruct (Z.ltb_spec (Z.of_nat c + d) 2147483648); [|reflexivity]. cbn [bind].
  rewrite (proj2 (Z.leb_le _ (Z.of_nat n - 1))) by lia. rewrite (proj2 (Z.ltb_lt (Z.of_nat n - 1) _)) by lia. cbn [andb bind]. eexists. split; [reflexivity|]. unfold as_u32.
  destruct (Z.ltb_spec (Z.min (Z.max (Z.of_nat c + d) 0) (Z.of_nat n - 1)) 0); [lia|]. rewrite Z2Nat.id by lia. split; lia.
Qed.

Theorem inspector_moves : forall f cx cy dx dy, sized f -> cx < f_w f -> cy < f_h f -> modest (Move dx dy) ->
  match move_cursor dx dy (In (Some f) cx cy) with
  | Some j => i_frame j = Some f /\ Z.of_nat (i_x j) = clamp (Z.of_nat cx + dx) (f_w f) /\ Z.of_nat (i_y j) = clamp (Z.of_nat cy + dy) (f_h f)
  | None => (2147483648 <= Z.of_nat cx + dx \/ 2147483648 <= Z.of_nat cy + dy)%Z
  end.
Proof.
  intros f cx cy dx dy (_ & _ & W & H) X Y (DX & DY). unfold move_cursor. cbn [i_frame i_x i_y].
  pose proof (moved_exact cx dx (f_w f) X W ltac:(lia)) as A. pose proof (moved_exact cy dy (f_h f) Y H ltac:(lia)) as B.
  destruct (Z.ltb_spec (Z.of_nat cx + dx) 2147483648); [|rewrite A; cbn [bind]; left; assumption]. destruct A as (m & -> & M & _). cbn [bind].
  destruct (Z.ltb_spec (Z.of_nat cy + dy) 2147483648); [|rewrite B; cbn [bind]; right; assumption]. destruct B as (n & -> & N & _). cbn [bind i_frame i_x i_y]. auto.
Qed.
Print Assumptions inspector_moves.

Lemma step_on o i : modest o -> on_frame i -> match step o i with Some j => on_frame j | None => True end.
Proof.
  intros M I. destruct o as [f|dx dy|x y]; cbn [step].
  - destruct M as (A & B & C & D). unfold on_frame, load; cbn [i_frame i_x i_y]. split; [repeat split; assumption|]. split; apply Nat.div_lt; lia.
  - unfold move_cursor. destruct (i_frame i) as [f|] eqn:F; [|exact I]. unfold on_frame in I. rewrite F in I. destruct I as ((A & B & C & D) & X & Y). destruct M as (MX & MY).
    pose proof (moved_exact (i_x i) dx (f_w f) X C ltac:(lia)) as P. pose proof (moved_exact (i_y i) dy (f_h f) Y D ltac:(lia)) as Q.
    destruct (Z.of_nat (i_x i) + dx <? _)%Z; [|rewrite P; exact Logic.I]. destruct P as (m & -> & _ & LM). cbn [bind].
    destruct (Z.of_nat (i_y i) + dy <? _)%Z; [|rewrite Q; exact Logic.I]. destruct Q as (n & -> & _ & LN). cbn [bind]. unfold on_frame. cbn [i_frame i_x i_y]. repeat split; assumption.
  - unfold set_cursor. destruct (i_frame i) as [f|] eqn:F; [|exact I]. unfold on_frame in I. rewrite F in I. destruct I as ((A & B & C & D) & X & Y).
    unfold sub. rewrite (proj2 (Nat.leb_le _ _) A), (proj2 (Nat.leb_le _ _) B). cbn [bind]. unfold on_frame. cbn [i_frame i_x i_y]. repeat split; try assumption; lia.
Qed.
Theorem inspector_cursor : forall l j, Forall modest l -> run l fresh = Some j -> on_frame j.
Proof.
  assert (G : forall l i j, Forall modest l -> on_frame i -> run l i = Some j -> on_frame j).
  { induction l as [|o r IH]; intros i j F I R; [injection R as <-; exact I|]. inversion F; subst. cbn [run] in R. pose proof (step_on o i ltac:(assumption) I) as S. destruct (step o i) as [k|]; [|discriminate]. cbn [bind] in R. eapply IH; eassumption. }
  intros l j F R. eapply G; [exact F| |exact R]. exact I.
Qed.
Print Assumptions inspector_cursor.

Theorem inspector_sets : forall f cx cy x y, sized f ->
  exists j, set_cursor x y (In (Some f) cx cy) = Some j /\ i_frame j = Some f /\ Z.of_nat (i_x j) = clamp (Z.of_nat x) (f_w f) /\ Z.of_nat (i_y j) = clamp (Z.of_nat y) (f_h f).
Proof.
  intros f cx cy x y (A & B & _). unfold set_cursor, sub. cbn [i_frame]. rewrite (proj2 (Nat.leb_le _ _) A), (proj2 (Nat.leb_le _ _) B). cbn [bind]. eexists. split; [reflexivity|]. cbn [i_frame i_x i_y]. unfold clamp. repeat split; lia.
Qed.
Print Assumptions inspector_sets.

(* ---- a region ---- *)
Definition found (rows : list (list rgba)) (c : nat * nat) : list pix := match color_at rows (fst c) (snd c) with Some k => [pix_of (fst c) (snd c) k] | None => [] end.
(* the pixels of the picture in the rectangle asked for, row by row *)
Definition inside (rows : list (list rgba)) (x y width height : nat) : list pix := flat_map (fun py => flat_map (fun px => found rows (px, py)) (seq x width)) (seq y height).
Definition sum_of (g : pix -> N) (l : list pix) : N := fold_right N.add 0%N (map g l).
Lemma take_all w rows : picture w rows -> forall cs l h, fold_left (take_pixel (stored w rows)) cs (Some (l, h)) = Some (l ++ flat_map (found rows) cs, fold_left add_pixel (flat_map (found rows) cs) h).
Proof.
  intros P. induction cs as [|c r IH]; intros l h; [cbn; rewrite app_nil_r; reflexivity|]. cbn [fold_left flat_map]. unfold take_pixel at 2. cbn [bind]. rewrite (pixel_in_exact w) by exact P. cbn [bind].
  unfold found at 1 3. destruct (color_at rows (fst c) (snd c)); cbn [option_map]; rewrite IH; cbn [app fold_left]; [rewrite <- app_assoc|]; reflexivity.
Qed.
Lemma hist_sums l : forall h, fold_left add_pixel l h = Hi (h_r h + sum_of p_r l) (h_g h + sum_of p_g l) (h_b h + sum_of p_b l) (h_a h + sum_of p_a l) (h_count h + length l).
Proof.
  induction l as [|p r IH]; intros h; [destruct h; cbn; rewrite !N.add_0_r, Nat.add_0_r; reflexivity|]. cbn [fold_left]. rewrite IH. unfold add_pixel, sum_of. cbn [h_r h_g h_b h_a h_count map fold_right length]. f_equal; lia.
Qed.
Lemma none_there {A} (g : nat -> list A) m : forall a n, (forall k, m <= k -> g k = []) -> flat_map g (seq a (Nat.min (a + n) m - a)) = flat_map g (seq a n).
Proof.
  intros a n H. destruct (Nat.leb_spec m (a + n)) as [L|L]; [|rewrite Nat.min_l by lia; f_equal; f_equal; lia].
  rewrite Nat.min_r by lia. replace n with ((m - a) + (n - (m - a))) at 1 by lia. rewrite seq_app, flat_map_app.
  assert (Z : forall j b, m <= b -> flat_map g (seq b j) = []) by (induction j as [|j IH]; intros b B; [reflexivity|cbn [seq flat_map]; rewrite (H b B), (IH (S b)) by lia; reflexivity]).
  rewrite (Z (n - (m - a)) (a + (m - a))) by lia. rewrite app_nil_r. reflexivity.
Qed.
Lemma flat_cells {A} (g : nat * nat -> list A) xs ys : flat_map g (cells xs ys) = flat_map (fun y => flat_map (fun x => g (x, y)) xs) ys.
Proof.
  unfold cells. induction ys as [|y r IH]; [reflexivity|]. cbn [flat_map]. rewrite flat_map_app, IH. f_equal. clear. induction xs as [|x r IH]; [reflexivity|]. cbn [map flat_map]. rewrite IH. reflexivity.
Qed.
Theorem inspector_region : forall w rows cx cy x y width height, picture w rows -> x <= w -> y <= length rows ->
  (N.of_nat (x + width) < 4294967296)%N -> (N.of_nat (y + height) < 4294967296)%N ->
  let l := inside rows x y width height in
  region_of (In (Some (stored w rows)) cx cy) x y width height =
  Some (Re x y (Nat.min width (w - x)) (Nat.min height (length rows - y)) l (Hi (sum_of p_r l) (sum_of p_g l) (sum_of p_b l) (sum_of p_a l) (length l))).
Proof.
  intros w rows cx cy x y width height P X Y UX UY l. unfold region_of. cbn [i_frame]. unfold u32. rewrite (proj2 (N.ltb_lt _ _) UX), (proj2 (N.ltb_lt _ _) UY). cbn [bind]. cbn zeta.
  change (f_w (stored w rows)) with w. change (f_h (stored w rows)) with (length rows). rewrite (take_all w rows P). cbn [bind app].
  assert (E : flat_map (found rows) (cells (seq x (Nat.min (x + width) w - x)) (seq y (Nat.min (y + height) (length rows) - y))) = l).
  { rewrite flat_cells. unfold l, inside. rewrite none_there.
    - apply flat_map_ext. intros py. apply none_there. intros k K. unfold found. cbn [fst snd]. destruct (color_at rows k py) eqn:C; [|reflexivity]. apply (color_inside w) in C; [lia|apply P].
    - intros k K. assert (Q : forall xs, flat_map (fun px => found rows (px, k)) xs = []); [|apply Q]. induction xs as [|z r IH]; [reflexivity|]. cbn [flat_map]. rewrite IH. unfold found. cbn [fst snd]. destruct (color_at rows z k) eqn:C; [|reflexivity]. apply (color_inside w) in C; [lia|apply P]. }
  rewrite E, hist_sums. cbn [h_r h_g h_b h_a h_count]. rewrite !N.add_0_l, Nat.add_0_l. unfold sub. rewrite !(proj2 (Nat.leb_le _ _)) by lia. cbn [bind]. f_equal. f_equal; lia.
Qed.
Print Assumptions inspector_region.
(* a region that starts beyond the frame is a panic, not an empty region *)
Theorem inspector_region_refuted : exists w rows x, picture w rows /\ x = w + 1 /\ region_of (In (Some (stored w rows)) 0 0) x 0 1 1 = None /\ inside rows x 0 1 1 = [].
Proof. exists 1, [[(1, 2, 3, 4)%N]], 2. split; [split; [intros r [<-|[]]; reflexivity|reflexivity]|]. vm_compute. repeat split. Qed.
Print Assumptions inspector_region_refuted.
(* so is a move that is too long *)
Theorem inspector_move_refuted : exists f dx, sized f /\ modest (Move dx 0) /\ bind (Some (load f fresh)) (move_cursor dx 0) = None.
Proof. exists (Fr 2 1 []), 2147483647%Z. split; [unfold sized; cbn; lia|]. split; [unfold modest; lia|reflexivity]. Qed.
Print Assumptions inspector_move_refuted.

(* ---- the bounds of what is visible ---- *)
Definition lit (rows : list (list rgba)) (c : nat * nat) : bool := match color_at rows (fst c) (snd c) with Some k => (0 <? alpha k)%N | None => false end.
Definition seen (rows : list (list rgba)) (b : box) (c : nat * nat) : box :=
  if lit rows c then Bx (Nat.min (x_minx b) (fst c)) (Nat.min (x_miny b) (snd c)) (Nat.max (x_maxx b) (fst c)) (Nat.max (x_maxy b) (snd c)) true else b.
Lemma see_all w rows : picture w rows -> forall cs b, (forall c, List.In c cs -> fst c < w /\ snd c < length rows) -> fold_left (see (stored w rows)) cs (Some b) = Some (fold_left (seen rows) cs b).
Proof.
  intros P. induction cs as [|c r IH]; intros b H; [reflexivity|]. cbn [fold_left]. unfold see at 2. cbn [bind]. destruct (H c (or_introl eq_refl)) as [X Y]. rewrite (offset_ok w) by assumption. cbn [bind stored f_px]. rewrite (byte_at w) by (try apply P; lia).
  change (Fr w (length rows) (flat_map (flat_map bytes) rows)) with (stored w rows).
  assert (E : match match color_at rows (fst c) (snd c) with Some k => nth_error (bytes k) 3 | None => None end with Some a => if (0 <? a)%N then Bx (Nat.min (x_minx b) (fst c)) (Nat.min (x_miny b) (snd c)) (Nat.max (x_maxx b) (fst c)) (Nat.max (x_maxy b) (snd c)) true else b | None => b end = seen rows b c).
  { unfold seen, lit. destruct (color_at rows (fst c) (snd c)) as [[[[k1 k2] k3] k4]|]; reflexivity. }
  rewrite E. apply IH. intros; apply H; right; assumption.
Qed.
Lemma seen_all rows : forall cs b, let b' := fold_left (seen rows) cs b in
  x_found b' = x_found b || existsb (lit rows) cs /\
  (x_minx b' <= x_minx b /\ x_miny b' <= x_miny b /\ x_maxx b <= x_maxx b' /\ x_maxy b <= x_maxy b') /\
  (forall c, List.In c cs -> lit rows c = true -> x_minx b' <= fst c <= x_maxx b' /\ x_miny b' <= snd c <= x_maxy b') /\
  (x_minx b' = x_minx b \/ exists c, List.In c cs /\ lit rows c = true /\ fst c = x_minx b') /\
  (x_miny b' = x_miny b \/ exists c, List.In c cs /\ lit rows c = true /\ snd c = x_miny b') /\
  (x_maxx b' = x_maxx b \/ exists c, List.In c cs /\ lit rows c = true /\ fst c = x_maxx b') /\
  (x_maxy b' = x_maxy b \/ exists c, List.In c cs /\ lit rows c = true /\ snd c = x_maxy b').
Proof.
  induction cs as [|c r IH]; intros b; cbn zeta. { cbn. rewrite orb_false_r. repeat split; auto; contradiction. }
  cbn [fold_left]. destruct (IH (seen rows b c)) as (F & (M1 & M2 & M3 & M4) & A & B1 & B2 & B3 & B4). set (q := fold_left (seen rows) r (seen rows b c)) in *. unfold seen in *. cbn [existsb].
  destruct (lit rows c) eqn:L; cbn [x_minx x_miny x_maxx x_maxy x_found] in *.
  - split; [rewrite F; cbn [orb]; destruct (x_found b); reflexivity|]. split; [repeat split; lia|]. split.
    + intros d [<-|I] Ld; [lia|apply A; assumption].
    + repeat split.
      * destruct B1 as [B|(d & I & Ld & E)]; [|right; exists d; repeat split; try right; assumption]. destruct (Nat.leb_spec (x_minx b) (fst c)); [left; lia|right; exists c; repeat split; try assumption; [left; reflexivity|lia]].
      * destruct B2 as [B|(d & I & Ld & E)]; [|right; exists d; repeat split; try right; assumption]. destruct (Nat.leb_spec (x_miny b) (snd c)); [left; lia|right; exists c; repeat split; try assumption; [left; reflexivity|lia]].
      * destruct B3 as [B|(d & I & Ld & E)]; [|right; exists d; repeat split; try right; assumption]. destruct (Nat.leb_spec (fst c) (x_maxx b)); [left; lia|right; exists c; repeat split; try assumption; [left; reflexivity|lia]].
      * destruct B4 as [B|(d & I & Ld & E)]; [|right; exists d; repeat split; try right; assumption]. destruct (Nat.leb_spec (snd c) (x_maxy b)); [left; lia|right; exists c; repeat split; try assumption; [left; reflexivity|lia]].
  - split; [rewrite F; reflexivity|]. split; [repeat split; lia|]. split.
    + intros d [<-|I] Ld; [congruence|apply A; assumption].
    + repeat split; [destruct B1 as [B|(d & I & Ld & E)]|destruct B2 as [B|(d & I & Ld & E)]|destruct B3 as [B|(d & I & Ld & E)]|destruct B4 as [B|(d & I & Ld & E)]]; try (left; assumption); right; exists d; repeat split; try right; assumption.
Qed.
Lemma in_cells w h c : List.In c (cells (seq 0 w) (seq 0 h)) <-> fst c < w /\ snd c < h.
Proof.
  unfold cells. rewrite in_flat_map. split.
  - intros (y & Y & I). apply in_map_iff in I. destruct I as (x & <- & X). apply in_seq in X, Y. cbn. lia.
  - intros [X Y]. exists (snd c). split; [apply in_seq; lia|]. apply in_map_iff. exists (fst c). split; [destruct c; reflexivity|apply in_seq; lia].
Qed.
Lemma lit_visible rows c : lit rows c = true <-> visible rows (fst c) (snd c).
Proof.
  unfold lit, visible. destruct (color_at rows (fst c) (snd c)) as [k|]; split.
  - intros L. exists k. split; [reflexivity|]. apply N.ltb_lt. exact L.
  - intros (k' & E & L). injection E as <-. apply N.ltb_lt. exact L.
  - discriminate.
  - intros (k' & E & _). discriminate E.
Qed.
Theorem inspector_bounds : forall w rows cx cy, picture w rows ->
  match find_bounds (In (Some (stored w rows)) cx cy) with
  | None => False
  | Some None => forall x y, ~ visible rows x y
  | Some (Some b) =>
    (forall x y, visible rows x y -> b_minx b <= x <= b_maxx b /\ b_miny b <= y <= b_maxy b) /\
    (exists y, visible rows (b_minx b) y) /\ (exists y, visible rows (b_maxx b) y) /\ (exists x, visible rows x (b_miny b)) /\ (exists x, visible rows x (b_maxy b)) /\
    b_minx b + b_w b = b_maxx b + 1 /\ b_miny b + b_h b = b_maxy b + 1
  end.
Proof.
  intros w rows cx cy P. unfold find_bounds. cbn [i_frame]. change (f_w (stored w rows)) with w. change (f_h (stored w rows)) with (length rows).
  rewrite (see_all w rows P) by (intros c I; apply in_cells in I; exact I). cbn [bind]. pose proof (seen_all rows (cells (seq 0 w) (seq 0 (length rows))) (Bx w (length rows) 0 0 false)) as S. cbn zeta in S.
  set (b := fold_left _ _ _) in *. cbn [x_minx x_miny x_maxx x_maxy x_found orb] in S. destruct S as (F & _ & A & B1 & B2 & B3 & B4).
  assert (IN : forall x y, visible rows x y -> List.In (x, y) (cells (seq 0 w) (seq 0 (length rows)))) by (intros x y (c & C & _); apply in_cells; apply (color_inside w) in C; [exact C|apply P]).
  destruct (x_found b) eqn:FB; cbn [negb].
  - symmetry in F. apply existsb_exists in F. destruct F as (c & I & L). pose proof (A c I L) as (AX & AY). apply in_cells in I.
    unfold sub. rewrite !(proj2 (Nat.leb_le _ _)) by lia. cbn [bind b_minx b_miny b_maxx b_maxy b_w b_h].
    split; [intros x y V; apply (A (x, y)); [apply IN; exact V|apply lit_visible; exact V]|].
    assert (W0 : forall d, lit rows d = true -> visible rows (fst d) (snd d)) by (intros; apply lit_visible; assumption).
    split; [destruct B1 as [B|(d & _ & Ld & <-)]; [lia|eexists; apply W0; exact Ld]|].
    split; [destruct B3 as [B|(d & _ & Ld & <-)]; [|eexists; apply W0; exact Ld]; exists (snd c); replace (x_maxx b) with (fst c) by lia; apply W0; exact L|].
    split; [destruct B2 as [B|(d & _ & Ld & <-)]; [lia|eexists; apply W0; exact Ld]|].
    split; [destruct B4 as [B|(d & _ & Ld & <-)]; [|eexists; apply W0; exact Ld]; exists (fst c); replace (x_maxy b) with (snd c) by lia; apply W0; exact L|]. split; lia.
  - intros x y V. assert (K : existsb (lit rows) (cells (seq 0 w) (seq 0 (length rows))) = true) by (apply existsb_exists; exists (x, y); split; [apply IN; exact V|apply lit_visible; exact V]). congruence.
Qed.
Print Assumptions inspector_bounds.

(* ---- a line's segments ---- *)
Definition row (rows : list (list rgba)) (w y : nat) : list pix := inside rows 0 y w 1.
Definition near (a b : N) : Prop := (Z.abs (Z.of_N a - Z.of_N b) <= 30)%Z.
Definition close (p q : pix) : Prop := near (p_r p) (p_r q) /\ near (p_g p) (p_g q) /\ near (p_b p) (p_b q).
Definition begins (s : segment) (p : pix) : Prop := exists r, s_pix s = p :: r.
(* an unbroken run of the line, each of its pixels close to the first *)
Definition run_of (y : nat) (s : segment) : Prop :=
  s_y s = y /\ s_start s <= s_end s /\ map p_x (s_pix s) = seq (s_start s) (S (s_end s) - s_start s) /\ exists p, begins s p /\ Forall (close p) (s_pix s).
(* two neighbours have a gap between them or differ *)
Definition apart (s t : segment) : Prop := S (s_end s) < s_start t \/ (S (s_end s) = s_start t /\ exists p q, begins s p /\ begins t q /\ ~ close p q).
Fixpoint neighbours (l : list segment) : Prop := match l with s :: (t :: _) as r => apart s t /\ neighbours r | _ => True end.
Definition color (p : pix) : list N := [p_r p; p_g p; p_b p; p_a p].
Definition mean (l : list pix) : list N := map (fun g => (sum_of g l / N.of_nat (length l))%N) [p_r; p_g; p_b; p_a].

Lemma diff_near a b : (diff a b <=? 30)%N = true <-> near a b.
Proof. unfold diff, near. destruct (N.ltb_spec a b); rewrite N.leb_le; lia. Qed.
Lemma neighbours_snoc l s t : neighbours (l ++ [s]) -> apart s t -> neighbours ((l ++ [s]) ++ [t]).
Proof.
  induction l as [|a l IH]; [cbn; auto|]. cbn [app]. intros N A. destruct l as [|b l]; cbn [app neighbours] in *; [tauto|]. destruct N as [N1 N2]. split; [exact N1|]. apply IH; assumption.
Qed.
Lemma neighbours_last l s s' : (forall a, apart a s -> apart a s') -> neighbours (l ++ [s]) -> neighbours (l ++ [s']).
Proof.
  intros H. induction l as [|a l IH]; [cbn; auto|]. cbn [app]. intros N. destruct l as [|b l]; cbn [app neighbours] in *; [destruct N; split; auto|]. destruct N as [N1 N2]. split; [exact N1|]. apply IH; assumption.
Qed.
Definition shown (p : pix) : bool := (0 <? p_a p)%N.
Definition first_color (s : segment) : Prop := exists p, begins s p /\ s_avg s = color p.
Record inv (y next : nat) (past : list pix) (st : list segment * option segment) : Prop := {
  v_pix : flat_map s_pix (push (snd st) (fst st)) = filter shown past;
  v_runs : Forall (fun s => run_of y s /\ first_color s) (push (snd st) (fst st));
  v_adj : neighbours (push (snd st) (fst st));
  v_done : Forall (fun s => S (s_end s) < next) (fst st);
  v_cur : forall s, snd st = Some s -> S (s_end s) = next }.
Lemma similar_close s p q : begins s p -> s_avg s = color p -> seg_similar s q = true <-> close p q.
Proof.
  intros (r & E) A. unfold seg_similar. rewrite E, A. unfold color, close. rewrite !andb_true_iff, !diff_near. tauto.
Qed.
Lemma new_run y p : run_of y (Sg y (p_x p) (p_x p) [p] (color p)) /\ first_color (Sg y (p_x p) (p_x p) [p] (color p)).
Proof.
  split; [|exists p; split; [exists []; reflexivity|reflexivity]]. unfold run_of; cbn [s_y s_start s_end s_pix]. split; [reflexivity|]. split; [lia|]. split; [replace (S (p_x p) - p_x p) with 1 by lia; reflexivity|].
  exists p. split; [exists []; reflexivity|]. constructor; [|constructor]. unfold close, near. repeat split; lia.
Qed.
Lemma scan_inv y next past st p : inv y next past st -> p_x p = next -> inv y (S next) (past ++ [p]) (scan_pixel y st p).
Proof.
  intros [P R A D C] X. destruct st as [done cur]. cbn [fst snd] in *. unfold scan_pixel. assert (FA : filter shown (past ++ [p]) = filter shown past ++ (if (0 <? p_a p)%N then [p] else [])) by (rewrite filter_app; reflexivity).
  assert (D' : Forall (fun s => S (s_end s) < S next) (push cur done)).
  { destruct cur as [s|]; cbn [push]; [apply Forall_app; split; [|constructor; [rewrite (C s eq_refl); lia|constructor]]|]; (eapply Forall_impl; [|exact D]); cbn; intros; lia. }
  destruct (0 <? p_a p)%N.
  2: { split; cbn [fst snd push]; try assumption; [rewrite FA, app_nil_r; exact P|discriminate]. }
  assert (FRESH : (forall s, cur = Some s -> seg_similar s p = false) -> inv y (S next) (past ++ [p]) (push cur done, Some (Sg y (p_x p) (p_x p) [p] (color p)))).
  { intros NS. split; cbn [fst snd push].
    - rewrite flat_map_app, P, FA. reflexivity.
    - apply Forall_app. split; [exact R|]. constructor; [apply new_run|constructor].
    - destruct cur as [s|]; cbn [push] in *.
      + apply neighbours_snoc; [exact A|]. right. rewrite (C s eq_refl). cbn [s_start]. split; [auto|]. apply Forall_app in R. destruct R as [_ R]. inversion R as [|? ? [_ (q & B & V)] _]; subst.
        exists q, p. split; [exact B|]. split; [exists []; reflexivity|]. intros K. apply (similar_close s q p B V) in K. rewrite (NS s eq_refl) in K. discriminate K.
      + destruct done as [|d0 dr] using rev_ind; [exact Logic.I|]. apply neighbours_snoc; [exact A|]. left. apply Forall_app in D. destruct D as [_ D]. inversion D; subst. cbn [s_start]. assumption.
    - exact D'.
    - intros s E. injection E as <-. cbn [s_end]. congruence. }
  destruct cur as [s|]; [|apply FRESH; discriminate]. destruct (seg_similar s p) eqn:SS; [|apply FRESH; intros s' E; injection E as <-; exact SS].
  clear FRESH D'. cbn [push] in *. pose proof (C s eq_refl) as CS. apply Forall_app in R. destruct R as [R1 R2]. inversion R2 as [|? ? [(Y & LE & XS & q0 & B0 & F0) (q & B & V)] _]; subst.
  assert (E0 : q0 = q) by (destruct B0 as (? & Z), B as (? & Z'); congruence). subst q0.
  split; cbn [fst snd push].
  - rewrite flat_map_app in *. cbn [flat_map s_pix] in *. rewrite app_nil_r in *. rewrite app_assoc, P, FA. reflexivity.
  - apply Forall_app. split; [exact R1|]. constructor; [|constructor]. split.
    + unfold run_of; cbn [s_y s_start s_end s_pix]. split; [reflexivity|]. split; [lia|]. split.
      * rewrite map_app, XS. cbn [map]. replace (S (p_x p) - s_start s) with ((S (s_end s) - s_start s) + 1) by lia. rewrite seq_app. cbn [seq]. do 2 f_equal. lia.
      * exists q. split; [destruct B as (r & ->); exists (r ++ [p]); reflexivity|]. apply Forall_app. split; [exact F0|]. constructor; [|constructor]. apply (similar_close s q p B V). exact SS.
    + exists q. split; [destruct B as (r & ->); exists (r ++ [p]); reflexivity|exact V].
  - eapply neighbours_last; [|exact A]. intros a [G|(G & pa & qa & Ba & Bs & N)]; [left; exact G|]. right. split; [exact G|]. exists pa, qa. split; [exact Ba|]. split; [destruct Bs as (r & ES); exists (r ++ [p]); cbn [s_pix]; rewrite ES; reflexivity|exact N].
  - eapply Forall_impl; [|exact D]. cbn. intros; lia.
  - intros s' E. injection E as <-. reflexivity.
Qed.
Lemma scan_all y : forall l next past st, inv y next past st -> map p_x l = seq next (length l) -> inv y (next + length l) (past ++ l) (fold_left (scan_pixel y) l st).
Proof.
  induction l as [|p r IH]; intros next past st I X; [cbn [fold_left length]; rewrite Nat.add_0_r, app_nil_r; exact I|]. cbn [map length seq fold_left] in *. injection X as X1 X2.
  replace (next + S (length r)) with (S next + length r) by lia. replace (past ++ p :: r) with ((past ++ [p]) ++ r) by (rewrite <- app_assoc; reflexivity). apply IH; [apply scan_inv; assumption|exact X2].
Qed.
Lemma scan_steps w rows y : picture w rows -> forall xs st, fold_left (scan_step (stored w rows) y) xs (Some st) = Some (fold_left (scan_pixel y) (flat_map (fun x => found rows (x, y)) xs) st).
Proof.
  intros P. induction xs as [|x r IH]; intros st; [reflexivity|]. cbn [fold_left flat_map]. unfold scan_step at 2. cbn [bind]. rewrite (pixel_in_exact w) by exact P. cbn [bind]. rewrite IH, fold_left_app. unfold found at 3. cbn [fst snd].
  destruct (color_at rows x y); reflexivity.
Qed.
Lemma row_xs w rows y : picture w rows -> y < length rows -> forall n a, a + n <= w -> map p_x (flat_map (fun x => found rows (x, y)) (seq a n)) = seq a n.
Proof.
  intros P Y. induction n as [|n IH]; intros a A; [reflexivity|]. cbn [seq flat_map]. rewrite map_app, IH by lia. unfold found at 1. cbn [fst snd].
  destruct (color_some w rows a y ltac:(apply P) ltac:(lia) Y) as ([[[c1 c2] c3] c4] & ->). reflexivity.
Qed.

Theorem inspector_line : forall w rows cx cy y, picture w rows -> y < length rows ->
  exists segs, scan_line (In (Some (stored w rows)) cx cy) y = Some segs /\
    flat_map s_pix segs = filter shown (row rows w y) /\ Forall (run_of y) segs /\ neighbours segs /\
    Forall (fun s => if S (s_end s) =? w then s_avg s = mean (s_pix s) else exists p, begins s p /\ s_avg s = color p) segs.
Proof.
  intros w rows cx cy y P Y. unfold scan_line. cbn [i_frame]. change (f_h (stored w rows)) with (length rows). change (f_w (stored w rows)) with w. rewrite (proj2 (Nat.leb_gt _ _) Y). rewrite (scan_steps w rows y P). cbn [bind].
  assert (RW : row rows w y = flat_map (fun x => found rows (x, y)) (seq 0 w)) by (unfold row, inside; cbn [seq flat_map]; apply app_nil_r). rewrite <- RW.
  assert (XS : map p_x (row rows w y) = seq 0 w) by (rewrite RW; apply (row_xs w); [exact P|exact Y|lia]).
  assert (LN : length (row rows w y) = w) by (rewrite <- (map_length p_x), XS; apply seq_length).
  assert (I0 : inv y 0 [] ([], None)) by (split; cbn; auto; discriminate).
  pose proof (scan_all y (row rows w y) 0 [] ([], None) I0 ltac:(rewrite LN; exact XS)) as I. rewrite LN in I. cbn [app Nat.add] in I. destruct (fold_left _ _ _) as [done cur]. destruct I as [VP VR VA VD VC]. cbn [fst snd] in *.
  eexists. split; [reflexivity|]. destruct cur as [s|]; cbn [option_map push] in *.
  - apply Forall_app in VR. destruct VR as [VR1 VR2]. inversion VR2 as [|? ? [RS (q & (rr & B) & V)] _]; subst.
    assert (CA : calculate_average s = Sg (s_y s) (s_start s) (s_end s) (s_pix s) (mean (s_pix s))).
    { unfold calculate_average. rewrite hist_sums. unfold average. cbn [h_r h_g h_b h_a h_count]. rewrite !N.add_0_l, Nat.add_0_l. rewrite B at 1. cbn [length]. unfold mean. cbn [map]. rewrite B. reflexivity. }
    rewrite CA. split; [rewrite flat_map_app in *; exact VP|]. split; [apply Forall_app; split; [eapply Forall_impl; [|exact VR1]; cbn; tauto|constructor; [exact RS|constructor]]|].
    split; [eapply neighbours_last; [|exact VA]; intros a G; exact G|]. apply Forall_app. split.
    + apply Forall_forall. intros t T. rewrite Forall_forall in VR1, VD. pose proof (VD t T). destruct (VR1 t T) as [_ F]. rewrite (proj2 (Nat.eqb_neq _ _)) by lia. exact F.
    + constructor; [|constructor]. cbn [s_end s_avg s_pix]. rewrite (VC s eq_refl), Nat.eqb_refl. reflexivity.
  - split; [exact VP|]. split; [eapply Forall_impl; [|exact VR]; cbn; tauto|]. split; [exact VA|]. apply Forall_forall. intros t T. rewrite Forall_forall in VR, VD. pose proof (VD t T). destruct (VR t T) as [_ F]. rewrite (proj2 (Nat.eqb_neq _ _)) by lia. exact F.
Qed.
Print Assumptions inspector_line.

(* a segment that ends before the line does keeps its first pixel's colour as its average *)
Theorem inspector_average_refuted : exists w rows s, picture w rows /\ scan_line (In (Some (stored w rows)) 0 0) 0 = Some [s] /\ s_avg s <> mean (s_pix s).
Proof.
  exists 3, [[(10, 10, 10, 255); (20, 20, 20, 255); (0, 0, 0, 0)]%N], (Sg 0 0 1 [Pix 0 0 10 10 10 255; Pix 1 0 20 20 20 255] [10; 10; 10; 255]%N).
  split; [split; [intros r [<-|[]]; reflexivity|reflexivity]|]. split; [vm_compute; reflexivity|vm_compute; discriminate].
Qed.
Print Assumptions inspector_average_refuted.

Definition demo : list (list rgba) := [[(0, 0, 0, 0); (9, 8, 7, 200); (90, 8, 7, 200)]; [(0, 0, 0, 0); (1, 1, 1, 1); (0, 0, 0, 0)]]%N.
Example demo_ok : picture 3 demo. Proof. split; [intros r [<-|[<-|[]]]; reflexivity|reflexivity]. Qed.
Example demo_bounds : find_bounds (In (Some (stored 3 demo)) 0 0) = Some (Some (Bd 1 0 2 1 2 2)). Proof. vm_compute. reflexivity. Qed.
Example demo_line : option_map (map (fun s => (s_start s, s_end s))) (scan_line (In (Some (stored 3 demo)) 0 0) 0) = Some [(1, 1); (2, 2)]. Proof. vm_compute. reflexivity. Qed.
Example demo_region : option_map (fun r => (re_w r, re_h r, length (re_pix r), h_a (re_hist r))) (region_of (In (Some (stored 3 demo)) 0 0) 1 0 9 9) = Some (2, 2, 4, 401%N). Proof. vm_compute. reflexivity. Qed.
Example demo_cursor : let l := [Load (stored 3 demo); Move (-5) 1; Move 7 (-9); Set_ 1 9] in Forall modest l /\ run l fresh = Some (In (Some (stored 3 demo)) 1 1).
Proof. split; [|vm_compute; reflexivity]. repeat constructor; cbn; lia. Qed.

(* two pixels are similar when no channel differs by more than the threshold *)
Theorem inspector_similar : forall p q t, pix_similar p q t = true <-> forall g, List.In g [p_r; p_g; p_b; p_a] -> (Z.abs (Z.of_N (g p) - Z.of_N (g q)) <= Z.of_N t)%Z.
Proof.
  assert (D : forall a b t, (diff a b <=? t)%N = true <-> (Z.abs (Z.of_N a - Z.of_N b) <= Z.of_N t)%Z) by (intros a b t; unfold diff; destruct (N.ltb_spec a b); rewrite N.leb_le; lia).
  intros p q t. unfold pix_similar. rewrite !andb_true_iff, !D. split.
  - intros (((A & B) & C) & E) g [<-|[<-|[<-|[<-|[]]]]]; assumption.
  - intros H. repeat split; apply H; cbn; auto.
Qed.
Print Assumptions inspector_similar.
(* a region's average colour is the mean of its pixels *)
Theorem inspector_mean : forall w rows cx cy x y width height r, picture w rows -> x <= w -> y <= length rows ->
  (N.of_nat (x + width) < 4294967296)%N -> (N.of_nat (y + height) < 4294967296)%N ->
  region_of (In (Some (stored w rows)) cx cy) x y width height = Some r ->
  average (re_hist r) = match inside rows x y width height with [] => None | l => Some (mean l) end.
Proof.
  intros w rows cx cy x y width height r P X Y UX UY E. rewrite (inspector_region w rows cx cy x y width height P X Y UX UY) in E. injection E as <-. cbn [re_hist]. unfold average. cbn [h_r h_g h_b h_a h_count].
  destruct (inside rows x y width height); reflexivity.
Qed.
Print Assumptions inspector_mean.
