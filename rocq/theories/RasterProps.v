(* Properties of the scanline rasterizer and its tiles: C170, C171. *)
From Coq Require Import Qround Qminmax.
From Verif Require Import Base FloatModel FloatSpec FloatProofs FloatProps RasterModel RasterSpec RasterShare RasterDeposit RasterLine RasterEdge RasterPath RasterTile RasterArea RasterWhole RasterSafe RasterBound.
Open Scope Q_scope.

(* ---- C170: every pixel shows the area enclosed in it ---- *)
(* sqf, used only to choose how many chords stand for a curve, is any function *)
Theorem tile_shows_area : forall sqf path l t r b, match path with [] => True | MoveTo _ :: _ => True | _ => False end ->
  l <= r -> t <= b -> of_Z (- 1073741820) <= l -> r <= of_Z 1073741820 -> of_Z (- 1073741820) <= t -> b <= of_Z 1073741820 ->
  (forall g p, In g path -> In p (points g) -> within l t r b p) ->
  exists T es, rasterize (exact sqf) path l t r b = Some T /\ List.length (t_data T) = (t_width T * t_height T)%nat /\ edges_of None path es /\
    forall X Y, exists v n, enclosed X Y es v /\ shown (t_width T) (t_height T) (t_data T) (t_x T) (t_y T) X Y n /\ shade v n.
Proof. exact tile_exact. Qed.
Print Assumptions tile_shows_area.
(* the area is a number: there is one, and only one *)
Theorem area_exists : forall X Y es, exists v, enclosed X Y es v.
Proof. intros X Y es. exists (total X Y es). apply enclosed_exists. Qed.
Print Assumptions area_exists.
Theorem area_unique : forall X Y es v v', enclosed X Y es v -> enclosed X Y es v' -> v == v'.
Proof. intros X Y es v v' A B. now rewrite (enclosed_unique _ _ _ _ A), (enclosed_unique _ _ _ _ B). Qed.
Print Assumptions area_unique.
Theorem shade_unique : forall v n m, shade v n -> shade v m -> n = m.
Proof.
  intros v n m A B. assert (K : forall x y : Z, of_Z x < of_Z y + 1 -> (x <= y)%Z) by (intros x y H; assert (Q : of_Z x < of_Z (y + 1)) by (rewrite of_Z_add; exact H); apply of_Z_lt in Q; lia).
  assert (F : of_Z (Z.of_N 255) == 255) by reflexivity.
  destruct A as [[A1 ->]|(A1 & A2 & A3)], B as [[B1 ->]|(B1 & B2 & B3)].
  - reflexivity.
  - assert (Z.of_N m <= Z.of_N 255)%Z by (apply K; lra). assert (Z.of_N 255 <= Z.of_N m)%Z by (apply K; lra). lia.
  - assert (Z.of_N n <= Z.of_N 255)%Z by (apply K; lra). assert (Z.of_N 255 <= Z.of_N n)%Z by (apply K; lra). lia.
  - assert (Z.of_N n <= Z.of_N m)%Z by (apply K; lra). assert (Z.of_N m <= Z.of_N n)%Z by (apply K; lra). lia.
Qed.
Print Assumptions shade_unique.

(* A rectangle covers of a pixel what the two have in common. *)
Lemma flat_hat x X : hat x x (of_Z X + 1) == unit_clamp (of_Z X + 1 - x).
Proof. unfold hat. rewrite (share_flat _ (Qmin x x) (Qmax x x)) by (rewrite Q.min_id, Q.max_id; apply Qle_refl). assert (E : of_Z X + 1 - Qmin x x == of_Z X + 1 - x) by (rewrite Q.min_id; reflexivity).
  destruct (unit_cases (of_Z X + 1 - Qmin x x)) as [[? U]|[[? [? U]]|[? U]]], (unit_cases (of_Z X + 1 - x)) as [[? V]|[[? [? V]]|[? V]]]; rewrite U, V; lra. Qed.
Lemma pos_upright x c d t : c < d -> pos (x, c) (x, d) t == x.
Proof. intros H. unfold pos. cbn [fst snd]. field. lra. Qed.
Lemma overlap_cases a b X : a <= b -> overlap a b X == unit_clamp (of_Z X + 1 - a) - unit_clamp (of_Z X + 1 - b) /\ 0 <= overlap a b X.
Proof.
  intros H. unfold overlap. destruct (max_cases 0 (Qmin b (of_Z X + 1) - Qmax a (of_Z X))) as [[? M]|[? M]], (min_cases b (of_Z X + 1)) as [[? N]|[? N]], (max_cases a (of_Z X)) as [[? O]|[? O]];
    destruct (unit_cases (of_Z X + 1 - a)) as [[? U]|[[? [? U]]|[? U]]], (unit_cases (of_Z X + 1 - b)) as [[? V]|[[? [? V]]|[? V]]]; rewrite M, U, V; split; lra.
Qed.
Lemma upright X Y x c d : c <= d -> amount X Y (x, c) (x, d) == overlap c d Y * unit_clamp (of_Z X + 1 - x) /\ amount X Y (x, d) (x, c) == - (overlap c d Y * unit_clamp (of_Z X + 1 - x)).
Proof.
  intros H. destruct (Qlt_le_dec c d) as [L|L].
  - rewrite (amount_down X Y (x, c) (x, d) L), (amount_up X Y (x, d) (x, c) L). assert (D : drop X Y (x, c) (x, d) == overlap c d Y * unit_clamp (of_Z X + 1 - x)).
    { unfold drop, overlap. cbn [snd]. set (ya := Qmax (of_Z Y) c). set (yb := Qmin (of_Z Y + 1) d). assert (Ea : Qmax c (of_Z Y) == ya) by apply Q.max_comm. assert (Eb : Qmin d (of_Z Y + 1) == yb) by apply Q.min_comm.
      destruct (Qle_bool yb ya) eqn:B.
      - apply Qle_bool_iff in B. destruct (max_cases 0 (Qmin d (of_Z Y + 1) - Qmax c (of_Z Y))) as [[? M]|[? M]]; rewrite M; [ring|lra].
      - apply qle_false in B. destruct (max_cases 0 (Qmin d (of_Z Y + 1) - Qmax c (of_Z Y))) as [[? M]|[? M]]; rewrite M; [lra|]. rewrite (hat_wd _ x _ x _ (of_Z X + 1) (pos_upright x c d ya L) (pos_upright x c d yb L) (Qeq_refl _)), flat_hat. rewrite Ea, Eb. reflexivity. }
    split; rewrite D; reflexivity.
  - assert (E : c == d) by lra. assert (O : overlap c d Y == 0).
    { destruct (overlap_cases c d Y H) as [O _]. rewrite O. destruct (unit_cases (of_Z Y + 1 - c)) as [[? U]|[[? [? U]]|[? U]]], (unit_cases (of_Z Y + 1 - d)) as [[? V]|[[? [? V]]|[? V]]]; rewrite U, V; lra. }
    rewrite O. unfold amount. cbn [snd]. rewrite (proj2 (qlt_false c d)) by lra. rewrite (proj2 (qlt_false d c)) by lra. split; ring.
Qed.
Lemma level_edge X Y p q : snd p == snd q -> amount X Y p q == 0.
Proof. intros H. unfold amount. rewrite (proj2 (qlt_false (snd p) (snd q))) by lra. rewrite (proj2 (qlt_false (snd q) (snd p))) by lra. reflexivity. Qed.
Theorem rectangle_covers : forall a c b d es X Y v, a <= b -> c <= d -> edges_of None (rectangle a c b d) es -> enclosed X Y es v -> Qabs v == overlap a b X * overlap c d Y.
Proof.
  intros a c b d es X Y v Hab Hcd Ee Ev. apply enclosed_unique in Ev. unfold rectangle in Ee.
  repeat match goal with H : edges_of _ _ _ |- _ => inversion H; subst; clear H end.
  cbn [total] in Ev. rewrite (level_edge X Y (a, c) (b, c)), (level_edge X Y (b, d) (a, d)), (level_edge X Y (a, c) (a, c)) in Ev by reflexivity.
  rewrite (proj1 (upright X Y b c d Hcd)), (proj2 (upright X Y a c d Hcd)) in Ev. destruct (overlap_cases a b X Hab) as [O1 O2]. destruct (overlap_cases c d Y Hcd) as [_ O3].
  assert (K : v == - (overlap a b X * overlap c d Y)) by (rewrite Ev, O1; ring). rewrite K, Qabs_opp. apply Qabs_pos. now apply Qmult_le_0_compat.
Qed.
Print Assumptions rectangle_covers.
Example rectangle_case : edges_of None (rectangle (1#2) 0 (9#4) (3#2)) [((1#2, 0), (9#4, 0)); ((9#4, 0), (9#4, 3#2)); ((9#4, 3#2), (1#2, 3#2)); ((1#2, 3#2), (1#2, 0)); ((1#2, 0), (1#2, 0))]
  /\ overlap (1#2) (9#4) 2 * overlap 0 (3#2) 1 == 1#8.
Proof. split; [repeat constructor|reflexivity]. Qed.

(* a triangle in exact arithmetic: its tile, one pixel of padding all around *)
Definition triangle : list (segment Q) := [MoveTo (0, 0); LineTo (3, 0); LineTo (0, 2); ClosePath].
Example triangle_tile : rasterize (exact (fun q => q)) triangle 0 0 3 2 =
  Some (Tile 5 4 [0; 0; 0; 0; 0; 0; 255; 234; 85; 0; 0; 170; 21; 0; 0; 0; 0; 0; 0; 0]%N (-1) (-1)).
Proof. vm_compute. reflexivity. Qed.
Example triangle_meets : match triangle with MoveTo _ :: _ => True | _ => False end /\ forall g p, In g triangle -> In p (points g) -> within 0 0 3 2 p.
Proof.
  split; [exact I|]. intros g p Hg Hp. unfold triangle in Hg. cbn [In] in Hg. unfold within.
  destruct Hg as [<-|[<-|[<-|[<-|[]]]]]; cbn [points In] in Hp; try destruct Hp as [<-|[]]; try destruct Hp; cbn [fst snd]; repeat split; vm_compute; discriminate.
Qed.

(* Finding: outlines that overlap add up.  A half-covered pixel drawn twice shows
   as fully covered, although the region is the same; so the promise of coverage
   by non-zero winding fails for overlapping outlines. *)
Definition iroot (x : float) : float := match x with Fin q => Fin (inject_Z (Z.sqrt (Qfloor q))) | Inf _ => Inf false | NaN => NaN end.
Definition f (q : Q) : float := round_to f32 q.
Definition half_strip : list (segment float) := [MoveTo (f 0, f 0); LineTo (f 1, f 0); LineTo (f 1, f (1#2)); LineTo (f 0, f (1#2)); ClosePath].
Theorem overlap_refuted : exists once twice, rasterize (single iroot) half_strip (f 0) (f 0) (f 1) (f (1#2)) = Some once /\ rasterize (single iroot) (half_strip ++ half_strip) (f 0) (f 0) (f 1) (f (1#2)) = Some twice /\
  nth_error (t_data once) 4 = Some 128%N /\ nth_error (t_data twice) 4 = Some 255%N.
Proof. eexists. eexists. split; [vm_compute; reflexivity|]. split; [vm_compute; reflexivity|]. split; reflexivity. Qed.
Print Assumptions overlap_refuted.

(* ---- C171: no call leaves the buffer ---- *)
Lemma at_most_small i x : at_most i x -> small i x. Proof. exact (fun H => H). Qed.
Theorem calls_never_panic : forall sq w h calls, rootlike sq -> (Z.of_nat w < 2 ^ 24)%Z -> (forall c p, In c calls -> In p (curve_points c) -> at_most 45 (fst p) /\ at_most 45 (snd p)) ->
  exists r data, fold_opt (perform sq) calls (new (single sq) w h) = Some r /\ finish (single sq) r = Some data /\ List.length data = (w * h)%nat.
Proof.
  intros sq w h calls R Hw H.
  assert (K : forall calls r, sized sq r -> (forall c p, In c calls -> In p (curve_points c) -> at_most 45 (fst p) /\ at_most 45 (snd p)) -> exists r', fold_opt (perform sq) calls r = Some r' /\ sized sq r' /\ alike_size sq r r').
  { clear -R. induction calls as [|c calls IH]; intros r Z H; cbn [fold_opt]; [exists r; split; [reflexivity|]; split; [exact Z|split; reflexivity]|].
    assert (Hc : forall p, In p (curve_points c) -> near p) by (intros p I; exact (H c p (or_introl eq_refl) I)).
    assert (S : exists r1, perform sq r c = Some r1 /\ sized sq r1 /\ alike_size sq r r1).
    { destruct c as [x0 y0 x1 y1|p c q|p c d q]; cbn [perform curve_points In] in *; [now apply line_safe|apply (quad_safe sq R); try exact Z; apply Hc; tauto|apply (cubic_safe sq R); try exact Z; apply Hc; tauto]. }
    destruct S as (r1 & E1 & Z1 & A1). rewrite E1. cbn [bind]. destruct (IH r1 Z1) as (r2 & E2 & Z2 & A2); [intros c' p I1 I2; apply (H c' p); [now right|exact I2]|]. exists r2. split; [exact E2|]. split; [exact Z2|exact (alike_trans sq _ _ _ A1 A2)]. }
  destruct (K calls (new (single sq) w h) (new_sized sq w h Hw) H) as (r & Er & Z & [A1 A2]). destruct (finish_safe sq r Z) as (data & Ed & Ld). exists r, data. split; [exact Er|]. split; [exact Ed|]. rewrite Ld, A1, A2. reflexivity.
Qed.
Print Assumptions calls_never_panic.
Lemma iroot_rootlike : rootlike iroot.
Proof.
  intros q H. exists (inject_Z (Z.sqrt (Qfloor q))). split; [reflexivity|]. assert (P : (0 <= Qfloor q)%Z) by (apply (Qfloor_resp_le 0 q H)). destruct (Z.sqrt_spec (Qfloor q) P) as [S _]. split.
  - change 0 with (inject_Z 0). rewrite <- Zle_Qle. apply Z.sqrt_nonneg.
  - rewrite <- inject_Z_mult. assert (Q1 : inject_Z (Z.sqrt (Qfloor q) * Z.sqrt (Qfloor q)) <= inject_Z (Qfloor q)) by (rewrite <- Zle_Qle; exact S). assert (Q2 := Qfloor_le q). lra.
Qed.
(* a line from a NaN to infinity, and a curve *)
Example calls_case : (forall c p, In c [CallLine NaN (f (-3)) (Inf false) (f 3); CallQuad (f 0, f 0) (f 2, f 1) (f 0, f 2)] -> In p (curve_points c) -> at_most 45 (fst p) /\ at_most 45 (snd p)) /\
  option_map (finish (single iroot)) (fold_opt (perform iroot) [CallLine NaN (f (-3)) (Inf false) (f 3); CallQuad (f 0, f 0) (f 2, f 1) (f 0, f 2)] (new (single iroot) 2 2)) = Some (Some [255; 255; 255; 255]%N).
Proof.
  split; [|vm_compute; reflexivity]. intros c p Hc Hp. cbn [In] in Hc. destruct Hc as [<-|[<-|[]]]; cbn [curve_points In] in Hp; [destruct Hp|]. unfold at_most.
  destruct Hp as [<-|[<-|[<-|[]]]]; cbn [fst snd]; split; (eexists; split; [vm_compute; reflexivity|split; vm_compute; discriminate]).
Qed.
Lemma gone_none {X} (o : option X) : (if o then false else true) = true -> o = None.
Proof. now destruct o. Qed.
(* Finding: a curve whose points are far enough apart overflows the count of its
   chords (1 + usize::MAX). *)
Theorem far_curve_panics_refuted : perform iroot (new (single iroot) 2 2) (CallQuad (f 0, f 0) (f (inject_Z (2 ^ 70)), f 0) (f 1, f 1)) = None.
Proof. apply gone_none. vm_compute. reflexivity. Qed.
Print Assumptions far_curve_panics_refuted.

(* A whole path: the tile is the bounds grown by one pixel, and it is full. *)
Theorem tile_never_panics : forall sq path l t r b, rootlike sq -> - inject_Z (2 ^ 22) <= l -> l <= r -> r <= inject_Z (2 ^ 22) -> - inject_Z (2 ^ 22) <= t -> t <= b -> b <= inject_Z (2 ^ 22) ->
  (forall g p, In g path -> In p (float_points g) -> at_most 40 (fst p) /\ at_most 40 (snd p)) ->
  exists T, rasterize (single sq) path (Fin l) (Fin t) (Fin r) (Fin b) = Some T /\ t_x T = (Qfloor l - 1)%Z /\ t_y T = (Qfloor t - 1)%Z /\
    (t_x T + Z.of_nat (t_width T) = Qceiling r + 1)%Z /\ (t_y T + Z.of_nat (t_height T) = Qceiling b + 1)%Z /\ List.length (t_data T) = (t_width T * t_height T)%nat.
Proof.
  intros sq path l t r b R Bl Hlr Br Bt Htb Bb H. unfold rasterize. cbn [single floor_ ceil_ f_floor f_ceil].
  assert (I32 : forall z, (-2147483648 <= z <= 2147483647)%Z -> to_i32 (single sq) (Fin (inject_Z z)) = z) by (intros z Hz; cbn [single to_i32 f_to_Z inject_Z Qnum Qden]; rewrite Z.quot_1_r; lia).
  set (fl := Qfloor l). set (ft := Qfloor t). set (cr := Qceiling r). set (cb := Qceiling b).
  assert (L1 : inject_Z fl <= l) by apply Qfloor_le. assert (T1 : inject_Z ft <= t) by apply Qfloor_le. assert (R1 : r <= inject_Z cr) by apply Qle_ceiling. assert (B1 : b <= inject_Z cb) by apply Qle_ceiling.
  rewrite <- inject_Z_opp in Bl, Bt.
  assert (RL : (- 2 ^ 22 <= fl)%Z) by (rewrite <- (Qfloor_Z (- 2 ^ 22)); now apply Qfloor_resp_le). assert (RT : (- 2 ^ 22 <= ft)%Z) by (rewrite <- (Qfloor_Z (- 2 ^ 22)); now apply Qfloor_resp_le).
  assert (RR : (cr <= 2 ^ 22)%Z) by (rewrite <- (Qceiling_Z (2 ^ 22)); now apply Qceiling_resp_le). assert (RB : (cb <= 2 ^ 22)%Z) by (rewrite <- (Qceiling_Z (2 ^ 22)); now apply Qceiling_resp_le).
  assert (LR : (fl <= cr)%Z) by (rewrite Zle_Qle; lra). assert (TB : (ft <= cb)%Z) by (rewrite Zle_Qle; lra).
  change (2 ^ 22)%Z with 4194304%Z in *. rewrite !I32 by lia. repeat (rewrite i32_some by lia; cbn [bind]).
  set (mx := (fl - 1)%Z) in *. set (my := (ft - 1)%Z) in *. set (w := Z.to_nat (Z.max (cr + 1 - mx) 1)). set (h := Z.to_nat (Z.max (cb + 1 - my) 1)).
  assert (Ww : Z.of_nat w = (cr + 1 - mx)%Z) by (unfold w, mx; lia). assert (Hh : Z.of_nat h = (cb + 1 - my)%Z) by (unfold h, my; lia).
  assert (Hw : (Z.of_nat w < 2 ^ 24)%Z) by (change (2 ^ 24)%Z with 16777216%Z; unfold mx in Ww; lia).
  assert (Off : forall z, (-4194305 <= z <= 4194305)%Z -> small 40 (of_i32 (single sq) z)).
  { intros z Hz. cbn [single of_i32]. destruct (integers_exact f32 z (proj1 formats_valid)) as (v & Ev & Vv); [cbn; lia|change (2 ^ fm_prec f32)%Z with 16777216%Z; lia|cbn; lia|]. rewrite Ev. exists v. split; [reflexivity|]. rewrite Vv, <- inject_Z_opp, <- !Zle_Qle. change (2 ^ 40)%Z with 1099511627776%Z. lia. }
  assert (N0 : near (cst (single sq) 0, cst (single sq) 0)) by (split; cbn [fst snd single cst]; exists 0; (split; [reflexivity|split; vm_compute; discriminate])).
  destruct (walk_safe sq R (of_i32 (single sq) mx) (of_i32 (single sq) my) path (Off mx ltac:(unfold mx; lia)) (Off my ltac:(unfold my; lia)) _ _ false (new (single sq) w h) (new_sized sq w h Hw) N0 N0 H) as (s & c & o & r1 & E1 & Z1 & A1).
  unfold RasterModel.point in *. cbn [num single] in *. rewrite E1. cbn [bind].
  assert (L : exists r2, (if o then line (single sq) r1 (fst c) (snd c) (fst s) (snd s) else Some r1) = Some r2 /\ sized sq r2 /\ alike_size sq r1 r2) by (destruct o; [now apply line_safe|exists r1; split; [reflexivity|split; [exact Z1|split; reflexivity]]]).
  destruct L as (r2 & E2 & Z2 & A2). cbn [num single] in *. rewrite E2. cbn [bind]. destruct (finish_safe sq r2 Z2) as (data & Ed & Ld). cbn [num single] in *. rewrite Ed. cbn [bind].
  eexists. split; [reflexivity|]. cbn [t_x t_y t_width t_height t_data]. split; [reflexivity|]. split; [reflexivity|]. split; [lia|]. split; [lia|]. destruct (alike_trans sq _ _ _ A1 A2) as [Q1 Q2]. rewrite Ld, Q1, Q2. reflexivity.
Qed.
Print Assumptions tile_never_panics.
Definition leaf : list (segment float) := [MoveTo (f 0, f 0); QuadTo (f 4, f 0) (f 4, f 4); CubicTo (f 2, f 4) (f 0, f 3) (f 0, f 1)].
Example tile_case : (forall g p, In g leaf -> In p (float_points g) -> at_most 40 (fst p) /\ at_most 40 (snd p)) /\
  option_map (fun T => (t_width T, t_height T, List.length (t_data T), nth_error (t_data T) 15)) (rasterize (single iroot) leaf (Fin 0) (Fin 0) (Fin 4) (Fin 4)) = Some (6%nat, 6%nat, 36%nat, Some 249%N).
Proof.
  split; [|vm_compute; reflexivity]. intros g p Hg Hp. unfold leaf in Hg. cbn [In] in Hg. unfold at_most.
  destruct Hg as [<-|[<-|[<-|[]]]]; cbn [float_points In] in Hp; repeat (destruct Hp as [<-|Hp]; [cbn [fst snd]; split; (eexists; split; [vm_compute; reflexivity|split; vm_compute; discriminate])|]); destruct Hp.
Qed.
(* Finding: beyond the range of an i32 the padding overflows; the documented
   answer for a path that cannot be rasterized, None, is never given. *)
Theorem huge_bounds_panic_refuted : rasterize (single iroot) [MoveTo (f (3000000000 # 1), f 0); LineTo (f (3000000000 # 1), f 1); ClosePath] (f (3000000000 # 1)) (f 0) (f (3000000000 # 1)) (f 1) = None.
Proof. vm_compute. reflexivity. Qed.
Print Assumptions huge_bounds_panic_refuted.
Close Scope Q_scope.
