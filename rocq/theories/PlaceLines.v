(* Proofs about lines and runs on the frame. *)
From Verif Require Import Base BaseLemmas FloatModel FloatSpec FloatProofs FloatTextProofs CollideModel CollideProofs SegmentModel AnimModel AnimSpec AnimProofs AnimFields ShowModel ShowSpec ShowProofs WrapModel WrapSpec WrapProofs PlaceModel PlaceSpec PlaceProofs PlaceAnchor.
From Coq Require Import Lqa.
Open Scope Q_scope.

(* numbers of half pixels *)
Definition halves (a : float) (k : Z) : Prop := num_is a (inject_Z k / 2).
Lemma half_round q k : q == inject_Z k / 2 -> (Z.abs k <= 16777215)%Z -> exists v, round_to f32 q = Fin v /\ v == inject_Z k / 2.
Proof. intros E H. destruct (round_exact f32 f32_valid _ (half_fits k H)) as (v & R & V). exists v. split; [|exact V]. rewrite <- R. apply round_wd; [exact f32_valid|exact E]. Qed.
Lemma halves_sub a b i j : halves a i -> halves b j -> (Z.abs (i - j) <= 16777215)%Z -> halves (sub32 a b) (i - j).
Proof.
  intros (x & -> & X) (y & -> & Y) H. rewrite sub_fin. destruct (half_round (x - y) (i - j)) as (v & E & V); [|exact H|exists v; split; assumption]. rewrite X, Y. unfold Z.sub. rewrite inject_Z_plus, inject_Z_opp. field.
Qed.
Lemma halves_add a b i j : halves a i -> halves b j -> (Z.abs (i + j) <= 16777215)%Z -> halves (add32 a b) (i + j).
Proof.
  intros (x & -> & X) (y & -> & Y) H. rewrite add_fin. destruct (half_round (x + y) (i + j)) as (v & E & V); [|exact H|exists v; split; assumption]. rewrite X, Y. rewrite inject_Z_plus. field.
Qed.
Lemma halves_opp a i : halves a i -> halves (f_opp a) (- i).
Proof. intros (x & -> & X). exists (- x). split; [reflexivity|]. rewrite X, inject_Z_opp. field. Qed.
Lemma halves_int a k : halves a (2 * k) <-> num_is a (inject_Z k).
Proof.
  assert (E : inject_Z (2 * k) / 2 == inject_Z k) by (rewrite inject_Z_mult; change (inject_Z 2) with 2; field).
  unfold halves. split; intros (x & A & X); exists x; (split; [exact A|]); rewrite X; [exact E|now symmetry].
Qed.
Lemma nat_halves n : (n <= 8388607)%N -> halves (f_of_N f32 n) (2 * Z.of_N n).
Proof. intros H. apply halves_int. apply nat_is. lia. Qed.
Lemma int_mul a b i j : num_is a (inject_Z i) -> num_is b (inject_Z j) -> (Z.abs (i * j) <= 16777216)%Z -> num_is (mul32 a b) (inject_Z (i * j)).
Proof.
  intros (x & -> & X) (y & -> & Y) H. rewrite mul_fin. destruct (round_exact f32 f32_valid _ (int_fits _ H)) as (v & E & V). exists v. split; [|exact V]. rewrite <- E. apply round_wd; [exact f32_valid|]. rewrite X, Y, inject_Z_mult. reflexivity.
Qed.
Lemma offset_is h k i : num_is h (inject_Z k) -> (0 <= k)%Z -> (Z.of_nat i * k <= 8388607)%Z -> halves (line_offset h i) (2 * (Z.of_nat i * k)).
Proof.
  intros H K. induction i as [|i IH]; intros B; cbn [line_offset].
  - apply halves_int. exists 0. split; reflexivity.
  - replace (2 * (Z.of_nat (S i) * k))%Z with (2 * (Z.of_nat i * k) + 2 * k)%Z by lia. assert (B0 : (Z.of_nat i * k <= 8388607)%Z) by lia. apply halves_add; [apply IH; exact B0|now apply halves_int|].
    assert (0 <= Z.of_nat i * k)%Z by (apply Z.mul_nonneg_nonneg; lia). lia.
Qed.
Lemma halves_half a k : num_is a (inject_Z k) -> (Z.abs k <= 16777215)%Z -> halves (f_div f32 a (fl 2)) k.
Proof. apply half_of. Qed.

(* where the line with a number is put, in half pixels *)
Lemma stacked_ok l a ay A h n i ax w : keypad a -> halves ay A -> (Z.abs A <= 2097152)%Z -> num_is (ly_height l) (inject_Z h) -> (0 <= h)%Z -> (n * h <= 2097152)%Z -> ly_lines l = Z.to_N n -> ly_index l = N.of_nat i -> (Z.of_nat i < n)%Z -> (2 <= n <= 2097152)%Z ->
  ly_offset l = line_offset (ly_height l) i ->
  num_is (snd (alignment_offset ax (stacked_y l a ay) w (ly_height l) a)) (inject_Z A / 2 - from_top a * inject_Z (n * h) + inject_Z (Z.of_nat i * h)).
Proof.
  intros K AY AB H H0 NH LN LI I NB LO. rewrite (offset_split _ _ _ _ _ K). cbn [snd]. unfold stacked_y. rewrite LN, LI, LO. destruct (N.ltb_spec 1 (Z.to_N n)); [|lia].
  assert (IH : (0 <= Z.of_nat i * h /\ Z.of_nat i * h + h <= n * h)%Z).
  { split; [apply Z.mul_nonneg_nonneg; lia|]. replace (Z.of_nat i * h + h)%Z with ((Z.of_nat i + 1) * h)%Z by lia. apply Z.mul_le_mono_nonneg_r; lia. }
  assert (HH : (h <= 2097152)%Z) by lia.
  assert (OF : halves (line_offset (ly_height l) i) (2 * (Z.of_nat i * h))) by (apply offset_is; [exact H|exact H0|lia]).
  assert (H2 : halves (ly_height l) (2 * h)) by (apply halves_int; exact H).
  assert (WB : within a 1 3 = (a <=? 3)%N). { unfold within. destruct K as (K1 & K2). destruct (N.leb_spec 1 a); [reflexivity|lia]. }
  unfold from_top. rewrite WB. change (within a 7 9) with ((7 <=? a) && (a <=? 9))%N. destruct (N.leb a 3); [|destruct (((7 <=? a) && (a <=? 9))%N)].
  - assert (R : halves (mul32 (f_of_N f32 (Z.to_N n - 1 - N.of_nat i)) (ly_height l)) (2 * ((n - 1 - Z.of_nat i) * h))).
    { apply halves_int. apply int_mul; [|exact H|].
      - replace (n - 1 - Z.of_nat i)%Z with (Z.of_N (Z.to_N n - 1 - N.of_nat i)) by lia. apply nat_is. lia.
      - replace ((n - 1 - Z.of_nat i) * h)%Z with (n * h - (Z.of_nat i * h + h))%Z by lia. lia. }
    replace ((n - 1 - Z.of_nat i) * h)%Z with (n * h - (Z.of_nat i * h + h))%Z in R by lia.
    pose proof (halves_sub _ _ _ _ AY R ltac:(lia)) as S1. pose proof (halves_sub _ _ _ _ S1 H2 ltac:(lia)) as (v & E & V). exists v. split; [exact E|]. rewrite V.
    replace (A - 2 * (n * h - (Z.of_nat i * h + h)) - 2 * h)%Z with (A + (-2) * (n * h) + 2 * (Z.of_nat i * h))%Z by lia. rewrite !inject_Z_plus. rewrite (inject_Z_mult (-2)), (inject_Z_mult 2 (Z.of_nat i * h)). change (inject_Z (-2)) with (- (2)). change (inject_Z 2) with 2. field.
  - pose proof (halves_add _ _ _ _ AY OF ltac:(lia)) as (v & E & V). exists v. split; [exact E|]. rewrite V, inject_Z_plus, (inject_Z_mult 2 (Z.of_nat i * h)). change (inject_Z 2) with 2. field.
  - assert (N1 : num_is (sub32 (f_of_N f32 (Z.to_N n)) (fl 1)) (inject_Z (n - 1))).
    { apply halves_int. replace (2 * (n - 1))%Z with (2 * Z.of_N (Z.to_N n) - 2 * 1)%Z by lia. apply halves_sub; [apply nat_halves; lia|apply halves_int; exists 1; split; reflexivity|lia]. }
    pose proof (int_mul _ _ _ _ N1 H ltac:(lia)) as M. pose proof (halves_half _ _ M ltac:(lia)) as D. apply halves_opp in D.
    pose proof (halves_add _ _ _ _ AY D ltac:(lia)) as S1. pose proof (halves_add _ _ _ _ S1 OF ltac:(lia)) as S2. pose proof (halves_half _ _ H ltac:(lia)) as HD.
    pose proof (halves_sub _ _ _ _ S2 HD ltac:(lia)) as (v & E & V). exists v. split; [exact E|]. rewrite V.
    replace (A + - ((n - 1) * h) + 2 * (Z.of_nat i * h) - h)%Z with (A + - (n * h) + 2 * (Z.of_nat i * h))%Z by lia. rewrite !inject_Z_plus, inject_Z_opp, (inject_Z_mult 2 (Z.of_nat i * h)). change (inject_Z 2) with 2. field.
Qed.

(* ---- native anchors ---- *)
Lemma mul_one_is a q s : num_is a q -> representable f32 q -> s == 1 -> num_is (mul32 a (Fin s)) q.
Proof. intros A R S. rewrite (mul_wd _ _ s A). now apply mul_one. Qed.
Lemma native_anchor g sw a w h mv : frame_is g w h w h -> (h <= 1000000)%N -> keypad a -> num_is (margin_vert sw) (Qn mv) -> (mv <= h)%N ->
  exists A, halves (snd (position_from_alignment g sw a)) A /\ (Z.abs A <= 2097152)%Z /\ inject_Z A / 2 == anchor_y a (Qn h) (Qn mv).
Proof.
  intros F HB K MV BV. destruct (native_scales g w h F) as (s & u & S & U & S1 & U1). destruct F as (W & H & P & R & BW & BH & _). rewrite (anchor_split g sw a K). cbn [snd]. rewrite U. unfold anchor_y.
  assert (TW : forall k, inject_Z (2 * k) / 2 == inject_Z k) by (intros k; rewrite inject_Z_mult; change (inject_Z 2) with 2; field).
  destruct (N.leb a 3); [|destruct (((7 <=? a) && (a <=? 9))%N)].
  - exists (2 * Z.of_N (h - mv))%Z. split; [|split; [lia|]].
    + apply halves_int. apply mul_one_is; [|apply int_fits; lia|exact U1]. apply sub_nat; [exact R|exact MV|lia].
    + rewrite TW. unfold Qn. rewrite N2Z.inj_sub by lia. unfold Z.sub, Qminus. rewrite inject_Z_plus, inject_Z_opp. reflexivity.
  - exists (2 * Z.of_N mv)%Z. split; [|split; [lia|apply TW]]. apply halves_int. apply mul_one_is; [exact MV|apply int_fits; lia|exact U1].
  - exists (Z.of_N h). split; [|split; [lia|reflexivity]]. unfold halves. apply mul_one_is; [|apply half_fits; lia|exact U1]. apply half_of; [exact R|lia].
Qed.
(* ---- one run ---- *)
Lemma run_of g sw now d l pen s : is_placed (sp_tags s) = false ->
  position_run g sw now d l pen s =
  let a := alignment_of (sp_tags s) d in let anchor := position_from_alignment g sw a in
  let width := match pen with None => if ly_multi l then ly_total l else sp_width s | Some _ => sp_width s end in
  let o := alignment_offset (fst anchor) (stacked_y l a (snd anchor)) width (if (1 <? ly_lines l)%N then ly_height l else sp_height s) a in
  Done (match pen with None => fst o | Some p => p end, snd o).
Proof.
  intros P. unfold position_run. rewrite P. destruct (position_from_alignment g sw (alignment_of (sp_tags s) d)) as (ax & ay). cbn [fst snd]. unfold bind. cbv beta iota. destruct (alignment_offset _ _ _ _ _) as (x & y). reflexivity.
Qed.
Lemma runs_row g sw now d l : forall runs pen ps, position_line g sw now d l pen runs = Done ps -> length ps = length runs /\
  (forall i s p, nth_error runs i = Some s -> nth_error ps i = Some p -> exists pen', position_run g sw now d l pen' s = Done p /\ (i = 0%nat -> pen' = pen) /\
     forall j s' q, i = S j -> nth_error runs j = Some s' -> nth_error ps j = Some q -> pen' = Some (advanced (fst q) s')).
Proof.
  induction runs as [|s r IH]; intros pen ps H; cbn [position_line] in H.
  - injection H as <-. split; [reflexivity|]. intros i s p E. destruct i; discriminate.
  - destruct (position_run g sw now d l pen s) as [p| |] eqn:P; try discriminate. cbn in H. destruct (position_line g sw now d l (Some (advanced (fst p) s)) r) as [rest| |] eqn:R; try discriminate. injection H as <-.
    destruct (IH _ _ R) as (L & N0). split; [cbn; now rewrite L|]. intros [|i] s0 p0 E E0; cbn [nth_error] in E, E0.
    + injection E as <-. injection E0 as <-. exists pen. split; [exact P|]. split; [reflexivity|]. intros j s' q X. discriminate.
    + destruct (N0 i s0 p0 E E0) as (pen' & P1 & P2 & P3). exists pen'. split; [exact P1|]. split; [discriminate|]. intros j s' q [= <-] F F0. destruct i as [|i]; cbn [nth_error] in F, F0.
      * injection F as <-. injection F0 as <-. now apply P2.
      * apply (P3 i s' q eq_refl F F0).
Qed.
Lemma pen_kept g sw now d l x s p : position_run g sw now d l (Some x) s = Done p -> fst p = x.
Proof.
  unfold position_run. destruct (is_placed (sp_tags s)).
  - destruct (position_from_tags g sw now d (sp_tags s)) as [(ax & ay)| |]; cbn [bind]; try discriminate. destruct (alignment_offset _ _ _ _ _) as (x0 & y0). intros [= <-]. reflexivity.
  - cbn [bind]. destruct (position_from_alignment _ _ _) as (ax & ay). destruct (alignment_offset _ _ _ _ _) as (x0 & y0). intros [= <-]. reflexivity.
Qed.
(* ---- the lines of an event ---- *)
Definition seen_mark (x : mark) : bool := negb ((fst x =? 10)%N || (fst x =? 32)%N).
Lemma filter_concat {T} (f : T -> bool) l : filter f (concat l) = concat (map (filter f) l).
Proof. induction l as [|x r IH]; cbn [concat map]; [reflexivity|]. now rewrite filter_app, IH. Qed.
Lemma concat_not_empty {T} (l : list (list T)) : concat (filter not_empty l) = concat l.
Proof. induction l as [|[|x g] r IH]; cbn; [reflexivity|exact IH|now rewrite IH]. Qed.
Lemma divided_seen ms gs : divided ms gs -> filter seen_mark (concat gs) = filter seen_mark ms.
Proof.
  induction 1 as [g H|g x r gs H X D IH]; cbn [concat].
  - now rewrite app_nil_r.
  - rewrite !filter_app. cbn [filter]. assert (E : seen_mark x = false) by (unfold seen_mark; unfold newline in X; now rewrite X). rewrite E. now rewrite IH.
Qed.
Lemma broken_seen a ms bs gs : broken_at a ms bs gs -> filter seen_mark (concat gs) = filter seen_mark ms.
Proof.
  induction 1 as [a g|a g x r b bs gs X B H IH]; cbn [concat].
  - now rewrite app_nil_r.
  - rewrite !filter_app. cbn [filter]. assert (E : seen_mark x = false) by (unfold seen_mark; rewrite X; reflexivity). rewrite E. f_equal. exact IH.
Qed.
Lemma line_marks_concat ls : line_marks (concat ls) = concat (map line_marks ls).
Proof. unfold line_marks. induction ls as [|l r IH]; cbn; [reflexivity|]. now rewrite flat_map_app, IH. Qed.
