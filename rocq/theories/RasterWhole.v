(* The whole of a path, in exact arithmetic: every pixel of the screen shows the
   area the path encloses there. *)
From Coq Require Import Qround Qminmax.
From Verif Require Import Base FloatModel RasterModel RasterSpec RasterShare RasterDeposit RasterLine RasterEdge RasterPath RasterTile RasterArea.
Open Scope Q_scope.

Section Whole.
  Variable sqf : Q -> Q.
  Notation E := (exact sqf).

  (* ---- edges moved with their points ---- *)
  Definition off (k m : Z) (p p' : pt) : Prop := fst p == fst p' + of_Z k /\ snd p == snd p' + of_Z m.
  Definition off_st (k m : Z) (st st' : option (pt * pt)) : Prop :=
    match st, st' with Some (s, c), Some (s', c') => off k m s s' /\ off k m c c' | None, None => True | _, _ => False end.
  Lemma off_rel k m p : off k m p (rel E (of_Z k) (of_Z m) p).
  Proof. split; cbn; ring. Qed.
  Lemma off_move k m p p' : off k m p p' -> same_pt (move k m p') p.
  Proof. intros [A B]. split; cbn [move fst snd]; symmetry; assumption. Qed.
  Lemma off_blend2 k m u p p' c c' q q' : off k m p p' -> off k m c c' -> off k m q q' -> off k m (blend2 u p c q) (blend2 u p' c' q').
  Proof. intros [P1 P2] [C1 C2] [Q1 Q2]. split; cbn [blend2 fst snd]; [rewrite P1, C1, Q1|rewrite P2, C2, Q2]; ring. Qed.
  Lemma off_blend3 k m u p p' c c' d d' q q' : off k m p p' -> off k m c c' -> off k m d d' -> off k m q q' -> off k m (blend3 u p c d q) (blend3 u p' c' d' q').
  Proof. intros [P1 P2] [C1 C2] [D1 D2] [Q1 Q2]. split; cbn [blend3 fst snd]; [rewrite P1, C1, D1, Q1|rewrite P2, C2, D2, Q2]; ring. Qed.
  Definition moved (k m : Z) (es' : list (pt * pt)) : list (pt * pt) := map (fun e => (move k m (fst e), move k m (snd e))) es'.
  Lemma steps_moved k m n f f' : (forall u, off k m (f u) (f' u)) -> Forall2 alike (moved k m (steps n f')) (steps n f).
  Proof.
    intros H. unfold moved, steps. rewrite map_map. induction (seq 0 n) as [|i l IH]; cbn [map]; constructor; [|exact IH]. cbn [fst snd]. split; cbn [fst snd]; apply off_move, H.
  Qed.
  Lemma one_moved k m p p' q q' : off k m p p' -> off k m q q' -> alike (move k m p', move k m q') (p, q).
  Proof. intros A B. split; cbn [fst snd]; now apply off_move. Qed.
  Lemma unshift k m path : forall st st' es', off_st k m st st' -> edges_of st' (map (shift sqf (of_Z k) (of_Z m)) path) es' -> exists es, edges_of st path es /\ Forall2 alike (moved k m es') es.
  Proof.
    induction path as [|g path IH]; intros st st' es' O H.
    - cbn [map] in H. inversion H as [|s' c'| | | | | | ]; subst; destruct st as [[s c]|]; try contradiction.
      + exists []. split; constructor.
      + exists [(c, s)]. split; [constructor|]. constructor; [|constructor]. apply one_moved; apply O.
    - destruct g as [p|p|b p|b b' p|]; cbn [map shift] in H; destruct st as [[s c]|], st' as [[s' c']|]; try contradiction; inversion H; subst; clear H.
      + match goal with K : edges_of (Some _) _ _ |- _ => destruct (IH (Some (p, p)) (Some (rel E (of_Z k) (of_Z m) p, rel E (of_Z k) (of_Z m) p)) _ (conj (off_rel k m p) (off_rel k m p)) K) as (zs & Ee & F) end. exists ((c, s) :: zs). split; [now constructor|]. constructor; [apply one_moved; apply O|exact F].
      + match goal with K : edges_of (Some _) _ _ |- _ => destruct (IH (Some (p, p)) (Some (rel E (of_Z k) (of_Z m) p, rel E (of_Z k) (of_Z m) p)) _ (conj (off_rel k m p) (off_rel k m p)) K) as (zs & Ee & F) end. exists zs. split; [now constructor|exact F].
      + match goal with K : edges_of (Some _) _ _ |- _ => destruct (IH (Some (s, p)) (Some (s', rel E (of_Z k) (of_Z m) p)) _ (conj (proj1 O) (off_rel k m p)) K) as (zs & Ee & F) end. exists ((c, p) :: zs). split; [now constructor|]. constructor; [apply one_moved; [apply O|apply off_rel]|exact F].
      + match goal with K : edges_of (Some _) _ _ |- _ => destruct (IH (Some (s, p)) (Some (s', rel E (of_Z k) (of_Z m) p)) _ (conj (proj1 O) (off_rel k m p)) K) as (zs & Ee & F) end. eexists. split; [apply eo_quad; eassumption|]. unfold moved. rewrite map_app. apply Forall2_app; [|exact F]. apply steps_moved. intros u. apply off_blend2; [apply O|apply off_rel|apply off_rel].
      + match goal with K : edges_of (Some _) _ _ |- _ => destruct (IH (Some (s, p)) (Some (s', rel E (of_Z k) (of_Z m) p)) _ (conj (proj1 O) (off_rel k m p)) K) as (zs & Ee & F) end. eexists. split; [apply eo_cubic; eassumption|]. unfold moved. rewrite map_app. apply Forall2_app; [|exact F]. apply steps_moved. intros u. apply off_blend3; [apply O|apply off_rel|apply off_rel|apply off_rel].
      + match goal with K : edges_of (Some _) _ _ |- _ => destruct (IH (Some (s, s)) (Some (s', s')) _ (conj (proj1 O) (proj1 O)) K) as (zs & Ee & F) end. exists ((c, s) :: zs). split; [now constructor|]. constructor; [apply one_moved; apply O|exact F].
  Qed.

  (* ---- the whole ---- *)
  Definition starts (path : list (segment Q)) : Prop := match path with [] => True | MoveTo _ :: _ => True | _ => False end.
  Lemma i32_int z : (-2147483648 <= z <= 2147483647)%Z -> to_i32 E (inject_Z z) = z.
  Proof. intros H. cbn [exact to_i32 inject_Z Qnum Qden]. rewrite Z.quot_1_r. lia. Qed.
  Lemma i32_some z : (-2147483648 <= z <= 2147483647)%Z -> i32_of z = Some z.
  Proof. intros H. unfold i32_of. rewrite (proj2 (Z.leb_le _ _) (proj1 H)), (proj2 (Z.leb_le _ _) (proj2 H)). reflexivity. Qed.
  Definition bound : Z := 1073741820.
  Lemma of_Z_le a b : (a <= b)%Z <-> of_Z a <= of_Z b. Proof. unfold of_Z. now rewrite Zle_Qle. Qed.
  Lemma of_Z_lt a b : (a < b)%Z <-> of_Z a < of_Z b. Proof. unfold of_Z. now rewrite Zlt_Qlt. Qed.

  Lemma tile_exact path l t r b : starts path -> l <= r -> t <= b -> of_Z (- bound) <= l -> r <= of_Z bound -> of_Z (- bound) <= t -> b <= of_Z bound ->
    (forall g p, In g path -> In p (points g) -> within l t r b p) ->
    exists T es, rasterize E path l t r b = Some T /\ List.length (t_data T) = (t_width T * t_height T)%nat /\ edges_of None path es /\
      forall X Y, exists v n, enclosed X Y es v /\ shown (t_width T) (t_height T) (t_data T) (t_x T) (t_y T) X Y n /\ shade v n.
  Proof.
    intros St Hlr Htb Bl Br Bt Bb Pw. unfold rasterize. cbn [exact floor_ ceil_ of_i32]. change (cst E 0) with (0 : Q).
    set (fl := Qfloor l). set (ft := Qfloor t). set (cr := Qceiling r). set (cb := Qceiling b).
    assert (L1 : of_Z fl <= l) by apply Qfloor_le. assert (T1 : of_Z ft <= t) by apply Qfloor_le. assert (R1 : r <= of_Z cr) by apply Qle_ceiling. assert (B1 : b <= of_Z cb) by apply Qle_ceiling.
    assert (RL : (- bound <= fl)%Z) by (replace (- bound)%Z with (Qfloor (of_Z (- bound))) by apply Qfloor_Z; now apply Qfloor_resp_le). assert (RT : (- bound <= ft)%Z) by (replace (- bound)%Z with (Qfloor (of_Z (- bound))) by apply Qfloor_Z; now apply Qfloor_resp_le).
    assert (RR : (cr <= bound)%Z) by (replace bound with (Qceiling (of_Z bound)) by apply Qceiling_Z; now apply Qceiling_resp_le). assert (RB : (cb <= bound)%Z) by (replace bound with (Qceiling (of_Z bound)) by apply Qceiling_Z; now apply Qceiling_resp_le).
    assert (LR : (fl <= cr)%Z) by (apply of_Z_le; lra). assert (TB : (ft <= cb)%Z) by (apply of_Z_le; lra).
    unfold bound in *. rewrite !i32_int by lia. repeat (rewrite i32_some by lia; cbn [bind]).
    set (mx := (fl - 1)%Z). set (my := (ft - 1)%Z). replace (Z.max (cr + 1 - mx) 1) with (cr + 1 - mx)%Z by (unfold mx; lia). replace (Z.max (cb + 1 - my) 1) with (cb + 1 - my)%Z by (unfold my; lia).
    set (w := Z.to_nat (cr + 1 - mx)). set (h := Z.to_nat (cb + 1 - my)).
    assert (Ww : Z.of_nat w = (cr + 1 - mx)%Z) by (unfold w, mx; lia). assert (Hh : Z.of_nat h = (cb + 1 - my)%Z) by (unfold h, my; lia). assert (W0 : (0 < w)%nat) by (unfold mx in Ww; lia). assert (H0 : (0 < h)%nat) by (unfold my in Hh; lia).
    change (inject_Z mx) with (of_Z mx). change (inject_Z my) with (of_Z my).
    assert (Omx : of_Z fl == of_Z mx + 1) by (replace fl with (mx + 1)%Z by (unfold mx; lia); apply of_Z_add). assert (Omy : of_Z ft == of_Z my + 1) by (replace ft with (my + 1)%Z by (unfold my; lia); apply of_Z_add).
    assert (Ocr : of_Z mx + qn w == of_Z cr + 1) by (change (qn w) with (of_Z (Z.of_nat w)); rewrite Ww, <- of_Z_add; replace (mx + (cr + 1 - mx))%Z with (cr + 1)%Z by lia; apply of_Z_add).
    assert (In0 : forall p, within l t r b p -> inside_x sqf (new E w h) (rel E (of_Z mx) (of_Z my) p)).
    { intros p (P1 & P2 & _). change (0 <= fst p - of_Z mx /\ fst p - of_Z mx <= qn w). clearbody mx my fl ft cr cb. split; lra. }
    (* the buffer after the whole path *)
    assert (Walk : exists r' es' s c o r1, fold_opt (walk_step E (of_Z mx) (of_Z my)) path ((0, 0), (0, 0), false, new E w h) = Some (s, c, o, r1) /\ (if o : bool then line E r1 (fst c) (snd c) (fst s) (snd s) else Some r1) = Some r' /\ good sqf r' /\ edges_of None (map (shift sqf (of_Z mx) (of_Z my)) path) es' /\ sweeps sqf (new E w h) r' es').
    { destruct path as [|[p|p|c p|c c' p|] rest]; try contradiction.
      - exists (new E w h), [], (0, 0), (0, 0), false, (new E w h). split; [reflexivity|]. split; [reflexivity|]. split; [apply new_good|]. split; [apply eo_empty|apply sweeps_nil].
      - cbn [fold_opt walk_step bind]. assert (Wp : within l t r b p) by (apply (Pw (MoveTo p) p); now left).
        destruct (walk_sweeps sqf (of_Z mx) (of_Z my) rest (rel E (of_Z mx) (of_Z my) p) (rel E (of_Z mx) (of_Z my) p) (new E w h) (new_good sqf w h) (In0 p Wp) (In0 p Wp)) as (s' & c' & r1 & r' & es' & F & Ln & G & Ee & Se).
        + intros g q I Iq. assert (K : forall z, In z (points g) -> within l t r b z) by (intros z Iz; apply (Pw g z); [now right|exact Iz]).
          destruct g as [z|z|z z'|z z' z''|]; cbn [shift points] in *; cbn [In] in Iq; repeat (destruct Iq as [Iq|Iq]; [subst q; apply In0, K; cbn [In]; auto|]); destruct Iq.
        + exists r', es', s', c', true, r1. split; [exact F|]. split; [exact Ln|]. split; [exact G|]. split; [now apply eo_first|exact Se]. }
    destruct Walk as (r' & es' & s & c & o & r1 & F & Ln & G & Ee & (Sz & S1 & S2)). destruct Sz as [Zw Zh].
    cbn [num exact] in *. unfold RasterModel.point in *. cbn [num exact] in *. rewrite F. cbn [bind]. rewrite Ln. cbn [bind].
    change (RasterLine.wide sqf (new E w h)) with w in *. change (RasterLine.tall sqf (new E w h)) with h in *.
    assert (Tot : forall Y, (Y < RasterLine.tall sqf r')%nat -> psum (RasterLine.cell sqf r' Y) (RasterLine.wide sqf r' + 2) == 0).
    { intros Y HY. rewrite Zh in HY. rewrite Zw, (S2 Y HY), (rise_edges Y _ _ _ Ee). rewrite psum_zero; [ring|]. intros. now rewrite new_cell. }
    destruct (finish_exact sqf r' G ltac:(rewrite Zw; exact W0) Tot) as (data & Fd & Ld & Nd). cbn [num exact] in *. rewrite Fd. cbn [bind]. rewrite Zw, Zh in *.
    destruct (unshift mx my path None None es' I Ee) as (es & Es & Al).
    eexists. exists es. split; [reflexivity|]. cbn [t_width t_height t_data t_x t_y]. split; [exact Ld|]. split; [exact Es|].
    assert (Ew := edges_within l t r b None path es Es I Pw).
    intros X Y. destruct (Z_le_dec mx X) as [X1|X1]; [destruct (Z_lt_dec X (mx + Z.of_nat w)) as [X2|X2]|].
    - destruct (Z_le_dec my Y) as [Y1|Y1]; [destruct (Z_lt_dec Y (my + Z.of_nat h)) as [Y2|Y2]|].
      + assert (HY : (Z.to_nat (Y - my) < h)%nat) by lia. assert (HX : (Z.to_nat (X - mx) < w)%nat) by lia.
        destruct (S1 (Z.to_nat (Y - my)) (Z.to_nat (X - mx)) HY ltac:(lia)) as (v & En & Pv). destruct (Nd (Z.to_nat (Y - my)) (Z.to_nat (X - mx)) HY HX) as (sv & Nv & Es').
        exists v, (byte_of E sv). split; [|split].
        * apply (enclosed_move mx my) in En. rewrite !Z2Nat.id in En by lia. replace (X - mx + mx)%Z with X in En by lia. replace (Y - my + my)%Z with Y in En by lia. exact (enclosed_alike _ _ _ _ Al _ En).
        * left. split; [lia|]. split; [lia|exact Nv].
        * apply (shade_wd sv v); [|apply byte_shade]. rewrite Es', Pv, psum_zero by (intros; now rewrite new_cell). ring.
      + exists (total X Y es), 0%N. split; [apply enclosed_exists|]. split; [right; split; [lia|reflexivity]|]. apply (shade_wd 0); [symmetry; apply total_out|right; cbn; split; [discriminate|split; [discriminate|reflexivity]]].
        intros p q Ip. destruct (Ew p q Ip) as [(_ & _ & P3 & P4) (_ & _ & Q3 & Q4)]. left. assert (K : (cb <= Y)%Z) by lia. apply of_Z_le in K. split; lra.
      + exists (total X Y es), 0%N. split; [apply enclosed_exists|]. split; [right; split; [lia|reflexivity]|]. apply (shade_wd 0); [symmetry; apply total_out|right; cbn; split; [discriminate|split; [discriminate|reflexivity]]].
        intros p q Ip. destruct (Ew p q Ip) as [(_ & _ & P3 & P4) (_ & _ & Q3 & Q4)]. right. assert (K : (Y + 1 <= ft)%Z) by (unfold my in Y1; lia). apply of_Z_le in K. rewrite of_Z_add in K. change (of_Z 1) with 1 in K. split; lra.
    - exists (total X Y es), 0%N. split; [apply enclosed_exists|]. split; [right; split; [lia|reflexivity]|]. apply (shade_wd 0); [symmetry; rewrite total_right|right; cbn; split; [discriminate|split; [discriminate|reflexivity]]].
      + apply (climb_edges (zlevel Y) None path es (zlevel_wd Y) Es).
      + intros p q Ip. destruct (Ew p q Ip) as [(_ & P2 & _) (_ & Q2 & _)]. assert (K : (cr <= X)%Z) by lia. apply of_Z_le in K. split; lra.
    - exists (total X Y es), 0%N. split; [apply enclosed_exists|]. split; [right; split; [lia|reflexivity]|]. apply (shade_wd 0); [symmetry; apply total_left|right; cbn; split; [discriminate|split; [discriminate|reflexivity]]].
      intros p q Ip. destruct (Ew p q Ip) as [(P1 & _) (Q1 & _)]. assert (K : (X + 1 <= fl)%Z) by (unfold mx in X1; lia). apply of_Z_le in K. rewrite of_Z_add in K. change (of_Z 1) with 1 in K. split; lra.
  Qed.
End Whole.
Close Scope Q_scope.
