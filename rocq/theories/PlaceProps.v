(* C134-C137: where text is put. *)
From Verif Require Import Base BaseLemmas FloatModel FloatSpec FloatProofs CollideModel CollideProofs SegmentModel AnimModel AnimSpec AnimProofs AnimFields ShowModel ShowSpec ShowProofs WrapModel WrapSpec WrapProofs WrapProps PlaceModel PlaceSpec PlaceProofs PlaceAnchor PlaceLines.
From Coq Require Import Lqa.
Open Scope Q_scope.

(* ---- C134: \pos and \move ---- *)
(* \pos names pixels when the frame has the size of the script *)
Theorem pos_native g w h sw now d t x y : frame_is g w h w h -> st_layout g = None -> pinned t (Fin x) (Fin y) -> representable f32 x -> representable f32 y ->
  at_point (position_from_tags g sw now d t) x y.
Proof. exact (pos_exact g w h sw now d t x y). Qed.
(* otherwise it is scaled, to within a share of 2^-22 *)
Theorem pos_scaled g w h p r sw now d t x y : frame_is g w h p r -> st_layout g = None -> pinned t (Fin x) (Fin y) -> sensible x -> sensible y ->
  exists a b, position_from_tags g sw now d t = Done (a, b) /\ within_share (2 ^ (-22)) a (x * (Qn w / Qn p)) /\ within_share (2 ^ (-22)) b (y * (Qn h / Qn r)).
Proof. exact (pos_near g w h p r sw now d t x y). Qed.
(* with a LayoutRes it counts in that *)
Theorem pos_in_layout g w h p r lx ly cx cy sw now d t x y : frame_is g w h p r -> st_layout g = Some (lx, ly) -> num_is lx (Qn cx) -> num_is ly (Qn cy) -> (1 <= cx <= 16777216)%N -> (1 <= cy <= 16777216)%N ->
  pinned t (Fin x) (Fin y) -> 2 ^ (-5) <= Qabs x < 2 ^ 5 * 4096 -> 2 ^ (-5) <= Qabs y < 2 ^ 5 * 4096 -> Qn p / 1024 <= Qn cx <= Qn p * 1024 -> Qn r / 1024 <= Qn cy <= Qn r * 1024 ->
  exists a b, position_from_tags g sw now d t = Done (a, b) /\ within_share (2 ^ (-21)) a (x * (Qn w / Qn cx)) /\ within_share (2 ^ (-21)) b (y * (Qn h / Qn cy)).
Proof.
  assert (AX : forall w p c s lx b x, num_is b (Qn p) -> num_is lx (Qn c) -> (1 <= w <= 16777216)%N -> (1 <= p <= 16777216)%N -> (1 <= c <= 16777216)%N -> 2 ^ (-5) <= Qabs x < 2 ^ 5 * 4096 -> Qn p / 1024 <= Qn c <= Qn p * 1024 ->
    Qabs (s - Qn w / Qn p) <= (1 # 16777216) * (Qn w / Qn p) -> within_share (2 ^ (-21)) (mul32 (mul32 (Fin x) (f_div f32 b lx)) (Fin s)) (x * (Qn w / Qn c))).
  { clear. intros w p c s lx b x B L W P C (X1 & X2) (R1 & R2) S. destruct (scale_rel p c b lx B L P C) as (u & -> & U0 & U). destruct (ratio_wide p c P C) as (Q1 & Q2). destruct (ratio_wide w p W P) as (T1 & T2).
    pose proof (Qn_1 p ltac:(lia)) as P1. pose proof (Qn_1 c ltac:(lia)) as C1. pose proof (Qn_1 w ltac:(lia)) as W1.
    assert (PC : (1 # 1024) <= Qn p / Qn c /\ Qn p / Qn c <= 1024). { assert (Qn p / 1024 == Qn p * (1 # 1024)) by field. split; [apply Qle_shift_div_l|apply Qle_shift_div_r]; lra. }
    assert (K : within_share (3 # 16777216) (mul32 (Fin x) (Fin u)) (x * (Qn p / Qn c))).
    { eapply share_le; [|apply mul_share with (e1 := 1 # 16777216); try assumption; [right; split; [apply Qle_trans with (2 ^ (-5)); [vm_compute; discriminate|exact X1]|eapply Qlt_trans; [exact X2|reflexivity]]|vm_compute; discriminate|vm_compute; discriminate]]. vm_compute. discriminate. }
    destruct K as (v & -> & V). set (m := x * (Qn p / Qn c)) in *.
    assert (MB : (1 # 32768) <= Qabs m /\ Qabs m < 2 ^ 5 * 4096 * 1024). { unfold m. rewrite Qabs_Qmult, (Qabs_pos (Qn p / Qn c)) by lra. change (2 ^ (-5)) with (1 # 32) in X1. change (2 ^ 5 * 4096) with 131072 in *. split; nra. }
    change (2 ^ 5 * 4096 * 1024) with 134217728 in MB. apply abs_bound in V.
    assert (VS : sensible v). { right. assert (AV : Qabs m * (1 # 2) <= Qabs v <= Qabs m * 2). { destruct (Qlt_le_dec m 0) as [H|H]; [rewrite (Qabs_neg m) in * by lra; rewrite (Qabs_neg v) by lra; lra|rewrite (Qabs_pos m) in * by lra; rewrite (Qabs_pos v) by lra; lra]. } split; [apply Qle_trans with (1 # 65536); [vm_compute; discriminate|lra]|apply Qle_lt_trans with 268435456; [lra|reflexivity]]. }
    destruct (mul_share v s (Qn w / Qn p) (1 # 16777216) VS T1 T2 ltac:(vm_compute; discriminate) ltac:(vm_compute; discriminate) S) as (z & E & Z0). exists z. split; [exact E|].
    assert (G : x * (Qn w / Qn c) == m * (Qn w / Qn p)). { unfold m. field. split; lra. }
    rewrite G. set (t := Qn w / Qn p) in *. pose proof (pow2_pos (-50)). assert (TP : 0 < t) by lra. rewrite Qabs_Qmult in *. rewrite (Qabs_pos t) in * by lra. change (2 ^ (-21)) with (1 # 2097152).
    assert (VM : Qabs v <= (1 + (3 # 16777216)) * Qabs m). { destruct (Qlt_le_dec m 0) as [H'|H']; [rewrite (Qabs_neg m) in * by lra; rewrite (Qabs_neg v) by lra; lra|rewrite (Qabs_pos m) in * by lra; rewrite (Qabs_pos v) by lra; lra]. }
    assert (D : Qabs (v * t - m * t) <= (3 # 16777216) * (Qabs m * t)). { setoid_replace (v * t - m * t) with ((v - m) * t) by ring. rewrite Qabs_Qmult, (Qabs_pos t) by lra. assert (Qabs (v - m) <= (3 # 16777216) * Qabs m) by (apply abs_bound; exact V). nra. }
    setoid_replace (z - m * t) with ((z - v * t) + (v * t - m * t)) by ring. eapply Qle_trans; [apply Qabs_triangle|]. assert (Qabs v * t <= (1 + (3 # 16777216)) * (Qabs m * t)) by nra. assert (0 <= Qabs m * t) by nra. lra. }
  intros F L LX LY CX CY T X Y RX RY. destruct (scales g w h p r F) as (s & u & S & U & S0 & U0 & SE & UE). destruct F as (W & H & P & R & BW & BH & BP & BR).
  unfold position_from_tags, laid_x, laid_y. unfold pinned in T. rewrite T, L, S, U. eexists _, _. split; [reflexivity|]. split; [eapply (AX w p cx)|eapply (AX h r cy)]; eassumption.
Qed.
(* it does not depend on the time, on a \move or on the alignment *)
Theorem pos_stays g sw now now' d d' t u x y : pinned t x y -> pinned u x y -> position_from_tags g sw now d t = position_from_tags g sw now' d' u.
Proof. unfold pinned, position_from_tags. now intros -> ->. Qed.
(* a movement starts at its first point, *)
Theorem move_starts g sw now d d' t u x1 y1 x2 y2 t1 t2 a b w h p r : frame_is g w h p r -> st_layout g = None -> movable x1 x2 -> movable y1 y2 -> moved t (Fin x1) (Fin y1) (Fin x2) (Fin y2) t1 t2 ->
  move_time (sw_start sw) (sw_end sw) t1 t2 a b -> (now <= a)%N -> pinned u (Fin x1) (Fin y1) -> position_from_tags g sw now d t = position_from_tags g sw now d' u.
Proof. exact (move_first g sw now d d' t u x1 y1 x2 y2 t1 t2 a b w h p r). Qed.
(* ends at its last, *)
Theorem move_ends g sw now d d' t u x1 y1 x2 y2 t1 t2 a b w h p r : frame_is g w h p r -> st_layout g = None -> movable x1 x2 -> movable y1 y2 -> moved t (Fin x1) (Fin y1) (Fin x2) (Fin y2) t1 t2 ->
  move_time (sw_start sw) (sw_end sw) t1 t2 a b -> (a < now)%N -> (b <= now)%N -> pinned u (Fin x2) (Fin y2) -> position_from_tags g sw now d t = position_from_tags g sw now d' u.
Proof. exact (move_last g sw now d d' t u x1 y1 x2 y2 t1 t2 a b w h p r). Qed.
(* never turns back and never leaves the way between them, *)
Definition along (a b : float) (x y : Q) (p q : float) : Prop := (x <= y -> num_le a p /\ num_le p q /\ num_le q b) /\ (y <= x -> num_le b q /\ num_le q p /\ num_le p a).
Theorem move_onward g sw now now' d d' t u v x1 y1 x2 y2 t1 t2 a b w h p r : frame_is g w h p r -> st_layout g = None -> movable x1 x2 -> movable y1 y2 -> Qabs x1 < 2 ^ 30 -> Qabs x2 < 2 ^ 30 -> Qabs y1 < 2 ^ 30 -> Qabs y2 < 2 ^ 30 ->
  moved t (Fin x1) (Fin y1) (Fin x2) (Fin y2) t1 t2 -> (sw_end sw < 2 ^ 32)%N -> move_time (sw_start sw) (sw_end sw) t1 t2 a b -> (now <= now')%N -> pinned u (Fin x1) (Fin y1) -> pinned v (Fin x2) (Fin y2) ->
  exists fx fy lx ly px py qx qy, position_from_tags g sw now d' u = Done (fx, fy) /\ position_from_tags g sw now d' v = Done (lx, ly) /\ position_from_tags g sw now d t = Done (px, py) /\ position_from_tags g sw now' d t = Done (qx, qy) /\
    along fx lx x1 x2 px qx /\ along fy ly y1 y2 py qy.
Proof.
  intros F L MX MY BX1 BX2 BY1 BY2 T E M N0 U V. destruct (scales g w h p r F) as (s & z & S & Z0 & S0 & Z1 & SE & ZE). pose proof (time_bound _ _ _ _ _ _ E M) as B.
  rewrite !(moved_is _ _ _ _ _ _ _ _ _ _ _ _ _ T L M), (pinned_is _ _ _ _ _ _ _ U L), (pinned_is _ _ _ _ _ _ _ V L). rewrite S, Z0. destruct (progress_is now a b B) as (c & C & CB). destruct (progress_is now' a b B) as (c' & C' & CB'). pose proof (progress_later now now' a b c c' N0 B C C') as CC. rewrite C, C'.
  destruct F as (W & H & P & R & BW & BH & BP & BR). eexists _, _, _, _, _, _, _, _. split; [reflexivity|]. split; [reflexivity|]. split; [reflexivity|]. split; [reflexivity|]. split.
  - apply axis_mono; try assumption; try (exact (conj (proj1 CB) CC)); try exact (proj2 CB'). eapply scale_small; [exact BW|exact BP|exact SE].
  - apply axis_mono; try assumption; try (exact (conj (proj1 CB) CC)); try exact (proj2 CB'). eapply scale_small; [exact BH|exact BR|exact ZE].
Qed.
(* and is even: within 1/256 of a pixel when the frame has the size of the script *)
Theorem move_even g sw now d t x1 y1 x2 y2 t1 t2 a b w h : frame_is g w h w h -> st_layout g = None -> movable x1 x2 -> movable y1 y2 -> Qabs x1 <= 8192 -> Qabs x2 <= 8192 -> Qabs y1 <= 8192 -> Qabs y2 <= 8192 ->
  moved t (Fin x1) (Fin y1) (Fin x2) (Fin y2) t1 t2 -> move_time (sw_start sw) (sw_end sw) t1 t2 a b -> (a <= now <= b)%N -> (a < b)%N -> (b - a <= 16777216)%N ->
  exists x y, position_from_tags g sw now d t = Done (x, y) /\ within_err (1 # 256) x (on_the_way x1 x2 (now - a) (b - a)) /\ within_err (1 # 256) y (on_the_way y1 y2 (now - a) (b - a)).
Proof.
  intros F L MX MY BX1 BX2 BY1 BY2 T M N0 AB D. destruct (native_scales g w h F) as (s & z & S & Z0 & S1 & Z1). rewrite (moved_is _ _ _ _ _ _ _ _ _ _ _ _ _ T L M), S, Z0.
  assert (PR : exists c, move_progress now a b = Fin c /\ 0 <= c <= 1 /\ Qabs (c - Qn (now - a) / Qn (b - a)) <= 2 ^ (-25)).
  { pose proof (Qn_1 (b - a) ltac:(lia)) as D1. unfold move_progress. destruct (N.leb_spec now a).
    - exists 0. split; [reflexivity|]. split; [lra|]. replace (now - a)%N with 0%N by lia. change (Qn 0) with 0. assert (E : 0 - 0 / Qn (b - a) == 0) by (field; lra). rewrite E. vm_compute. discriminate.
    - destruct (N.leb_spec b now).
      + exists 1. split; [reflexivity|]. split; [lra|]. replace now with b by lia. assert (E : 1 - Qn (b - a) / Qn (b - a) == 0) by (field; lra). rewrite E. vm_compute. discriminate.
      + unfold f_of_N. apply (share_err (Z.of_N (now - a)) (Z.of_N (b - a))); lia. }
  destruct PR as (c & -> & CB & CE). assert (XB : 0 <= Qn (now - a) / Qn (b - a) <= 1). { pose proof (Qn_1 (b - a) ltac:(lia)). pose proof (Qn_0 (now - a)). assert (Qn (now - a) <= Qn (b - a)) by (apply Qn_le; lia). split; [apply div_pos; lra|apply Qle_shift_div_r; lra]. }
  eexists _, _. split; [reflexivity|]. split; apply axis_near; assumption.
Qed.
(* a movement whose times overflow ends the program *)
Theorem move_panics g sw now d t x1 y1 x2 y2 t1 t2 : moved t x1 y1 x2 y2 t1 t2 -> (position_from_tags g sw now d t = Crash <-> ~ exists a b, move_time (sw_start sw) (sw_end sw) t1 t2 a b).
Proof.
  intros (T0 & T). unfold position_from_tags. rewrite T0, T. destruct (move_span (sw_start sw) (sw_end sw) t1 t2) as [(a & b)|] eqn:E.
  - split; [discriminate|]. intros N0. exfalso. apply N0. exists a, b. now apply move_span_is.
  - split; [|reflexivity]. intros _ (a & b & M). apply move_span_is in M. congruence.
Qed.
Definition tag (f : field) (v : value) : tags := set_field f (Some v) no_tags.
Definition vga : stage := Stage 640 480 (fl 640) (fl 480) None.
Definition hd : stage := Stage 1280 960 (fl 640) (fl 480) None.
Definition for_10s : shown := Shown [] (lit "30") (lit "0") (Some (lit "20", lit "25", lit "10")) 0 1000.
Example vga_is : frame_is vga 640 480 640 480.
Proof. repeat split; try (now exists (Qn 640)); try (now exists (Qn 480)); lia. Qed.
Example hd_is : frame_is hd 1280 960 640 480.
Proof. repeat split; try (now exists (Qn 640)); try (now exists (Qn 480)); lia. Qed.
Example movable_ex : movable (inject_Z 0) (inject_Z 100) /\ movable (inject_Z 0) (inject_Z 200).
Proof. split; (split; [|split]); try exact (int_fits 0 ltac:(lia)); try exact (int_fits 100 ltac:(lia)); exact (int_fits 200 ltac:(lia)). Qed.
Example pos_ex : position_from_tags vga for_10s 5 2 (tag FPosition (VPoint (fl 100) (fl 50))) = Done (fl 100, fl 50) /\
  position_from_tags hd for_10s 5 2 (tag FPosition (VPoint (fl 100) (fl 50))) = Done (fl 200, fl 100) /\
  position_from_tags (Stage 1280 960 (fl 640) (fl 480) (Some (fl 320, fl 240))) for_10s 5 2 (tag FPosition (VPoint (fl 100) (fl 50))) = Done (fl 400, fl 200).
Proof. repeat split; vm_compute; reflexivity. Qed.
Definition to_100_200 : tags := tag FMovement (VMove (fl 0) (fl 0) (fl 100) (fl 200) 0 0).
Example move_ex : moved to_100_200 (fl 0) (fl 0) (fl 100) (fl 200) 0 0 /\ move_time 0 1000 0 0 0 1000 /\
  map (fun now => position_from_tags vga for_10s now 2 to_100_200) [0; 500; 1000; 2000]%N = [Done (fl 0, fl 0); Done (fl 50, fl 100); Done (fl 100, fl 200); Done (fl 100, fl 200)] /\
  position_from_tags vga (Shown [] [] [] None 4294967000 4294967290) 4294967100 2 (tag FMovement (VMove (fl 0) (fl 0) (fl 100) (fl 200) 0 400)) = Crash.
Proof. split; [split; reflexivity|]. split; [constructor|]. split; vm_compute; reflexivity. Qed.

(* ---- C135: margins, anchors and boxes ---- *)
Theorem margin_read s st x : margin_or_style s st = x <-> margin_text s st x.
Proof. split; [intros <-; apply margin_ok|]. intros H. eapply margin_fun; [apply margin_ok|exact H]. Qed.
(* a margin written 0000, as many programs do, is not the style's *)
Theorem margin_zeros_refuted : ~ (forall s st, Forall (fun c => c = 48%N) s -> margin_or_style s st = margin_or_style [] st).
Proof. intros H. specialize (H (lit "0000") (Some (lit "25")) ltac:(repeat constructor)). vm_compute in H. discriminate. Qed.
Theorem anchor_near g sw a w h p r ml mr mv : frame_is g w h p r -> modest_frame w h p r -> keypad a ->
  num_is (margin_left sw) (Qn ml) -> num_is (margin_right sw) (Qn mr) -> num_is (margin_vert sw) (Qn mv) -> (ml <= p)%N -> (mr <= p)%N -> (mv <= r)%N ->
  exists x y, position_from_alignment g sw a = (x, y) /\
    within_err (1 # 256) x (anchor_x a (Qn w) (Qn ml * (Qn w / Qn p)) (Qn mr * (Qn w / Qn p))) /\ within_err (1 # 256) y (anchor_y a (Qn h) (Qn mv * (Qn h / Qn r))).
Proof. exact (anchor_ok g sw a w h p r ml mr mv). Qed.
Theorem box_at_anchor ax ay w h a k : keypad a -> (0 <= k <= 20)%Z -> Qabs ax < 2 ^ k -> Qabs ay < 2 ^ k -> Qabs w < 2 ^ k -> Qabs h < 2 ^ k ->
  exists x y, alignment_offset (Fin ax) (Fin ay) (Fin w) (Fin h) a = (x, y) /\ within_err (2 ^ (k - 23)) x (ax - from_left a * w) /\ within_err (2 ^ (k - 23)) y (ay - from_top a * h).
Proof. exact (box_ok ax ay w h a k). Qed.
Example anchors_ex : margin_left for_10s = fl 20 /\ margin_right for_10s = fl 30 /\ margin_vert for_10s = fl 10 /\
  map (position_from_alignment hd for_10s) [1; 2; 3; 4; 5; 6; 7; 8; 9; 10; 11; 12]%N =
  [(fl 40, fl 940); (fl 640, fl 940); (fl 1220, fl 940); (fl 40, fl 480); (fl 640, fl 480); (fl 1220, fl 480); (fl 40, fl 20); (fl 640, fl 20); (fl 1220, fl 20); (fl 40, fl 480); (fl 640, fl 480); (fl 1220, fl 480)] /\
  map (alignment_offset (fl 100) (fl 100) (fl 60) (fl 20)) [1; 2; 3; 4; 5; 6; 7; 8; 9]%N =
  [(fl 100, fl 80); (fl 70, fl 80); (fl 40, fl 80); (fl 100, fl 90); (fl 70, fl 90); (fl 40, fl 90); (fl 100, fl 100); (fl 70, fl 100); (fl 40, fl 100)].
Proof. repeat split; vm_compute; reflexivity. Qed.

(* ---- C136: lines below each other, runs beside each other ---- *)
Definition line_no (g : stage) (sw : shown) (l : layout) (h : Z) (n : Z) (i : nat) : Prop :=
  num_is (ly_height l) (inject_Z h) /\ ly_lines l = Z.to_N n /\ ly_index l = N.of_nat i /\ ly_offset l = line_offset (ly_height l) i.
(* n lines of height h make one block, put at the anchor like one line of height n * h *)
Theorem lines_stacked g sw now d l pen s w h mv lh n i : frame_is g w h w h -> (h <= 1000000)%N -> num_is (margin_vert sw) (Qn mv) -> (mv <= h)%N -> is_placed (sp_tags s) = false -> keypad (alignment_of (sp_tags s) d) ->
  line_no g sw l lh n i -> (Z.of_nat i < n)%Z -> (2 <= n <= 2097152)%Z -> (0 <= lh)%Z -> (n * lh <= 2097152)%Z ->
  exists x y, position_run g sw now d l pen s = Done (x, y) /\ num_is y (anchor_y (alignment_of (sp_tags s) d) (Qn h) (Qn mv) - from_top (alignment_of (sp_tags s) d) * inject_Z (n * lh) + inject_Z (Z.of_nat i * lh)).
Proof.
  intros F HB MV BV P K (LH & LN & LI & LO) I NB H0 NH. rewrite (run_of _ _ _ _ _ _ _ P). cbv zeta. eexists _, _. split; [reflexivity|].
  destruct (native_anchor g sw _ w h mv F HB K MV BV) as (A & HA & AB & AE). assert (E : (1 <? ly_lines l)%N = true) by (apply N.ltb_lt; rewrite LN; lia). rewrite E.
  match goal with |- num_is (snd (alignment_offset ?ax (stacked_y l ?a ?ay) ?wd _ _)) _ => destruct (stacked_ok l a ay A lh n i ax wd K HA AB LH H0 NH LN LI I NB LO) as (v & V & VE) end.
  exists v. split; [exact V|]. rewrite VE, AE. reflexivity.
Qed.
(* an alignment off the keypad, as \an0, lets the lines run into the margin *)
Theorem lines_stacked_off_keypad_refuted : exists l s x y, is_placed (sp_tags s) = false /\ alignment_of (sp_tags s) 2 = 0%N /\ line_no vga for_10s l 20 2 1 /\
  position_from_alignment vga for_10s 0 = (fl 320, fl 470) /\ position_run vga for_10s 0 2 l None s = Done (x, y) /\ f_lt (fl 470) (add32 y (ly_height l)) = true.
Proof.
  exists (Layout false (fl 0) 2 1 (fl 20) (fl 20)), (Shaped (tag FAlignment (VByte 0)) (fl 60) (fl 20) None (fl 1)), (fl 290), (fl 460). split; [reflexivity|]. split; [reflexivity|]. split; [split; [now exists 20|repeat split; vm_compute; reflexivity]|]. split; [vm_compute; reflexivity|]. split; vm_compute; reflexivity.
Qed.
(* the lines of \pos and \move text are not stacked: all are put at the same height *)
Theorem placed_lines_same_height g sw now d l l' pen pen' s : is_placed (sp_tags s) = true -> forall x y x' y', position_run g sw now d l pen s = Done (x, y) -> position_run g sw now d l' pen' s = Done (x', y') -> y = y'.
Proof.
  intros P x y x' y'. unfold position_run. rewrite P. destruct (position_from_tags g sw now d (sp_tags s)) as [(ax & ay)| |]; cbn [bind]; try discriminate.
  unfold alignment_offset. intros [= _ <-] [= _ <-]. reflexivity.
Qed.
Theorem placed_lines_stacked_refuted : ~ (forall g sw now d l l' s x y x' y', (ly_index l < ly_index l')%N -> f_lt (fl 0) (ly_height l) = true -> ly_height l = ly_height l' -> is_placed (sp_tags s) = true ->
  position_run g sw now d l None s = Done (x, y) -> position_run g sw now d l' None s = Done (x', y') -> f_lt y y' = true).
Proof.
  intros H. eassert (K : _); [eapply (H vga for_10s 0 2 (Layout false (fl 0) 2 0 (fl 20) (fl 0)) (Layout false (fl 0) 2 1 (fl 20) (fl 20)) (Shaped (tag FPosition (VPoint (fl 100) (fl 50))) (fl 60) (fl 20) None (fl 1)))%N; vm_compute; reflexivity|].
  vm_compute in K. discriminate K.
Qed.
(* the first run starts where the whole line is aligned; each other starts where the one before it ends *)
Theorem runs_in_a_row g sw now d l runs ps : position_line g sw now d l None runs = Done ps -> length ps = length runs /\
  (forall s p, nth_error runs 0 = Some s -> nth_error ps 0 = Some p -> position_run g sw now d l None s = Done p) /\
  (forall i s q p, nth_error runs i = Some s -> nth_error ps i = Some q -> nth_error ps (S i) = Some p -> fst p = advanced (fst q) s).
Proof.
  intros H. destruct (runs_row _ _ _ _ _ _ _ _ H) as (L & R). split; [exact L|]. split.
  - intros s p S0 P0. destruct (R 0%nat s p S0 P0) as (pen & E & P & _). rewrite (P eq_refl) in E. exact E.
  - intros i s q p S0 Q0 P0. destruct (nth_error runs (S i)) as [s'|] eqn:S1.
    + destruct (R (S i) s' p S1 P0) as (pen & E & _ & P). rewrite (P i s q eq_refl S0 Q0) in E. now apply pen_kept in E.
    + apply nth_error_None in S1. assert (S i < length ps)%nat by (apply nth_error_Some; congruence). lia.
Qed.
Definition two_lines (i : N) (o : Z) : layout := Layout true (fl 100) 2 i (fl 20) (fl o).
Definition words2 : list shaped := [Shaped no_tags (fl 60) (fl 18) (Some (fl 60)) (fl 1); Shaped no_tags (fl 40) (fl 18) (Some (fl 40)) (fl 1)].
Example stack_ex : line_no vga for_10s (two_lines 1 20) 20 2 1 /\
  position_line vga for_10s 0 2 (two_lines 0 0) None words2 = Done [(fl 270, fl 430); (fl 330, fl 430)] /\
  position_line vga for_10s 0 2 (two_lines 1 20) None words2 = Done [(fl 270, fl 450); (fl 330, fl 450)] /\
  position_line vga for_10s 0 9 (two_lines 1 20) None words2 = Done [(fl 510, fl 30); (fl 570, fl 30)] /\
  position_line vga for_10s 0 4 (two_lines 1 20) None words2 = Done [(fl 20, fl 240); (fl 80, fl 240)].
Proof. split; [split; [now exists 20|repeat split; vm_compute; reflexivity]|]. repeat split; vm_compute; reflexivity. Qed.

(* ---- C137: from runs to lines ---- *)
(* every character but blanks and breaks is on one line, in order, with its tags *)
Theorem event_text_kept sh g sw text script segs : filter seen_mark (line_marks (concat (event_lines sh g sw text script segs))) = filter seen_mark (line_marks segs).
Proof.
  assert (SP : filter seen_mark (line_marks (concat (split_into_lines segs))) = filter seen_mark (line_marks segs)).
  { destruct (lines_are segs) as (gs & D & E & _). rewrite line_marks_concat, E, concat_not_empty. now apply divided_seen. }
  unfold event_lines. destruct (_ && _); [|exact SP]. rewrite <- SP. clear SP. set (bal := negb (wrap_style_of segs script =? 1)%N). clearbody bal. induction (split_into_lines segs) as [|l r IH]; [reflexivity|]. cbn [flat_map concat]. rewrite concat_app, !line_marks_app, !filter_app, IH. f_equal.
  destruct (wrap_keeps_text (sh l) l (available g sw) bal) as [E|(bs & gs & B & E)].
  - rewrite E. cbn [concat]. now rewrite app_nil_r.
  - rewrite line_marks_concat, E, concat_not_empty. eapply broken_seen. exact B.
Qed.
(* \pos or \move, and wrap style 2, leave the lines as they are written *)
Theorem event_not_wrapped sh g sw text script segs : event_is_positioned text = true \/ wrap_style_of segs script = 2%N -> event_lines sh g sw text script segs = split_into_lines segs.
Proof. unfold event_lines. intros [->| ->]; [reflexivity|]. now rewrite andb_false_r. Qed.
(* the first \q decides if it is one of 0 to 3, else the script *)
Definition q_of (s : segment) : option N := match tg_field (sg_tags s) FWrap with Some (VByte q) => Some q | _ => None end.
Theorem wrap_style_chosen segs script : (Forall (fun s => q_of s = None) segs /\ wrap_style_of segs script = script) \/
  (exists l s r q, segs = l ++ s :: r /\ Forall (fun s => q_of s = None) l /\ q_of s = Some q /\ wrap_style_of segs script = if (q <=? 3)%N then q else script).
Proof.
  unfold wrap_style_of. fold q_of. induction segs as [|s r IH]; [left; split; constructor|]. cbn [first_some]. destruct (q_of s) as [q|] eqn:E.
  - right. exists [], s, r, q. repeat split; [constructor|exact E].
  - destruct IH as [(A & B)|(l & s' & r' & q & -> & A & Q & B)].
    + left. split; [now constructor|exact B].
    + right. exists (s :: l), s', r', q. repeat split; [now constructor|exact Q|exact B].
Qed.
(* the word "\pos" anywhere in the text counts, even where it is no tag *)
Theorem pos_in_text_refuted : ~ (forall text segs, segment_text text = Done (Some segs) -> Forall (fun s => is_placed (sg_tags s) = false) segs -> event_is_positioned text = false).
Proof.
  intros H. specialize (H (lit "a\posb")). destruct (segment_text (lit "a\posb")) as [[segs|]| |] eqn:E; try (vm_compute in E; discriminate E).
  specialize (H segs eq_refl). assert (F : forallb (fun s => negb (is_placed (sg_tags s))) segs = true) by (vm_compute in E; injection E as <-; vm_compute; reflexivity). rewrite forallb_forall in F.
  assert (K : event_is_positioned (lit "a\posb") = false). { apply H. apply Forall_forall. intros s I. apply F in I. now destruct (is_placed (sg_tags s)). } vm_compute in K. discriminate K.
Qed.
Example lines_ex : map (map sg_text) (event_lines (fun _ => mono) vga (Shown (lit "270") (lit "270") [] None 0 100) (lit "one two three") 1 [Segment (lit "one two three") 0 13 no_tags]) = [[lit "one two"]; [lit "three"]]%list.
Proof. vm_compute. reflexivity. Qed.
Print Assumptions pos_native.
Print Assumptions pos_scaled.
Print Assumptions pos_in_layout.
Print Assumptions pos_stays.
Print Assumptions move_starts.
Print Assumptions move_ends.
Print Assumptions move_onward.
Print Assumptions move_even.
Print Assumptions move_panics.
Print Assumptions margin_read.
Print Assumptions margin_zeros_refuted.
Print Assumptions anchor_near.
Print Assumptions box_at_anchor.
Print Assumptions lines_stacked.
Print Assumptions lines_stacked_off_keypad_refuted.
Print Assumptions placed_lines_same_height.
Print Assumptions placed_lines_stacked_refuted.
Print Assumptions runs_in_a_row.
Print Assumptions event_text_kept.
Print Assumptions event_not_wrapped.
Print Assumptions wrap_style_chosen.
Print Assumptions pos_in_text_refuted.
