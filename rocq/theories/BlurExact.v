(* The blur with nothing rounded but the bytes: weights that add up to one. *)
From Coq Require Import Qround Lqa.
From Verif Require Import Base BaseLemmas FloatModel PixelModel PixelSpec BlurModel BlurSpec BlurProofs BlurTheory.
From Coq Require Import Lia.

Local Open Scope Q_scope.
Lemma byte_between q lo hi : (hi < 256)%N -> inject_Z (Z.of_N lo) <= q -> q <= inject_Z (Z.of_N hi) -> (lo <= clamp_byte (round_away q) <= hi)%N.
Proof.
  intros B L H.
  assert (Q0 : 0 <= q) by (eapply Qle_trans; [|exact L]; unfold Qle; cbn; lia).
  unfold round_away. destruct (Z.ltb_spec (Qnum q) 0) as [Hn|_]; [unfold Qle in Q0; cbn in Q0; lia|].
  assert (F1 : (Z.of_N lo <= Qfloor (q + (1 # 2)))%Z).
  { rewrite <- (Qfloor_Z (Z.of_N lo)). apply Qfloor_resp_le. lra. }
  assert (F2 : (Qfloor (q + (1 # 2)) <= Z.of_N hi)%Z).
  { assert (inject_Z (Qfloor (q + (1 # 2))) <= q + (1 # 2)) as F by apply Qfloor_le.
    apply Zlt_succ_le. rewrite Zlt_Qlt. unfold Z.succ. rewrite inject_Z_plus. change (inject_Z 1) with 1. lra. }
  unfold clamp_byte. lia.
Qed.
Section Exact.
  Context (ex : Q -> Q) (Hex : forall q, (0 < ex q)%Q).
  Definition qsum (l : list Q) : Q := fold_right Qplus 0 l.
  Lemma fold_qsum l : forall a, fold_left Qplus l a == a + qsum l.
  Proof. induction l as [|x l IH]; intros a; cbn [fold_left qsum fold_right]; [lra|]. rewrite IH. fold (qsum l). lra. Qed.
  Lemma qsum_pos {X} (f : X -> Q) l : (forall x, 0 < f x) -> 0 <= qsum (map f l) /\ (l <> [] -> 0 < qsum (map f l)).
  Proof.
    intros H. induction l as [|x l [IH _]]; cbn [map qsum fold_right]; [split; [lra|congruence]|]. fold (qsum (map f l)).
    pose proof (H x). split; [lra|intros _; lra].
  Qed.
  Lemma bell_pos sigma j : 0 < bell (exact ex) sigma j.
  Proof. apply Hex. Qed.
  Lemma offsets_nonempty r : (0 <= r)%Z -> offsets r <> [].
  Proof. intros R E. pose proof (offsets_length r R) as L. rewrite E in L. change (Z.of_nat (length (@nil Z))) with 0%Z in L. lia. Qed.
  Lemma total_qsum sigma r : total (exact ex) sigma r == qsum (map (bell (exact ex) sigma) (offsets r)).
  Proof. unfold total. cbn [add lit_ exact]. rewrite fold_qsum. apply Qplus_0_l. Qed.
  Lemma total_pos sigma r : (0 <= r)%Z -> 0 < total (exact ex) sigma r.
  Proof. intros R. rewrite total_qsum. apply qsum_pos; [apply bell_pos|apply offsets_nonempty, R]. Qed.
  Lemma weight_pos sigma r j : (0 <= r)%Z -> 0 < weight (exact ex) sigma r j.
  Proof. intros R. unfold weight. cbn [div exact]. apply Qlt_shift_div_l; [apply total_pos, R|]. rewrite Qmult_0_l. apply bell_pos. Qed.
  Lemma qsum_div {X} (f : X -> Q) t l : ~ t == 0 -> qsum (map (fun x => f x / t) l) == qsum (map f l) / t.
  Proof. intros T. induction l as [|x l IH]; cbn [map qsum fold_right]; [field; exact T|]. fold (qsum (map (fun x => f x / t) l)) (qsum (map f l)). rewrite IH. field. exact T. Qed.
  (* the weights add up to one *)
  Lemma weights_one sigma r : (0 <= r)%Z -> qsum (map (weight (exact ex) sigma r) (offsets r)) == 1.
  Proof.
    intros R. pose proof (total_pos sigma r R) as T. unfold weight. cbn [div exact].
    rewrite (qsum_div (bell (exact ex) sigma) (total (exact ex) sigma r)) by lra.
    rewrite <- total_qsum. field. lra.
  Qed.
  Lemma fold_between (k v : Z -> Q) lo hi js : (forall j, 0 < k j) -> (forall j, In j js -> lo <= v j <= hi) -> forall a,
    a + qsum (map k js) * lo <= fold_left (fun acc j => acc + k j * v j) js a <= a + qsum (map k js) * hi.
  Proof.
    intros K. induction js as [|j js IH]; intros V a; cbn [fold_left map qsum fold_right]; [split; lra|]. fold (qsum (map k js)).
    destruct (IH (fun i Hi => V i (or_intror Hi)) (a + k j * v j)) as [H1 H2]. destruct (V j (or_introl eq_refl)) as [V1 V2].
    pose proof (K j) as Kj.
    assert (k j * lo <= k j * v j) by (rewrite !(Qmult_comm (k j)); apply Qmult_le_compat_r; lra).
    assert (k j * v j <= k j * hi) by (rewrite !(Qmult_comm (k j)); apply Qmult_le_compat_r; lra).
    split; [apply Qle_trans with (2 := H1)|apply Qle_trans with (1 := H2)]; lra.
  Qed.
  Lemma blend_between sigma r v lo hi : (0 <= r)%Z -> (hi < 256)%N -> (forall j, (- r <= j <= r)%Z -> (lo <= v j <= hi)%N) ->
    (lo <= blend (exact ex) sigma r v <= hi)%N.
  Proof.
    intros R B V. unfold blend. cbn [byte add mul lit_ exact num].
    destruct (fold_between (weight (exact ex) sigma r) (fun j => inject_Z (Z.of_N (v j))) (inject_Z (Z.of_N lo)) (inject_Z (Z.of_N hi)) (offsets r)) with (a := inject_Z 0) as [H1 H2].
    - intros j. apply weight_pos, R.
    - intros j Hj. specialize (V j (in_offsets r j Hj)). rewrite <- !Zle_Qle. lia.
    - rewrite (weights_one sigma r R) in H1, H2. change (inject_Z 0) with 0 in *. apply byte_between; [exact B|lra|lra].
  Qed.

  Theorem gaussian_between sigma r w h buf x y lo hi : (0 <= r)%Z -> (hi < 256)%N -> inside w h x y ->
    (forall x' y', within r w h x y x' y' -> (lo <= c_a (at_xy w buf x' y') <= hi)%N) ->
    (lo <= c_a (gaussian (exact ex) sigma r w h buf x y) <= hi)%N.
  Proof.
    intros R B I H.
    assert (E : (lo <= blend (exact ex) sigma r (fun j => c_a (along_row (exact ex) sigma r w buf x (nearest_in h (y + j)))) <= hi)%N).
    { apply blend_between; [exact R|exact B|]. intros j Hj. cbn. apply blend_between; [exact R|exact B|]. intros i Hi. cbn.
      apply H, near_within; assumption. }
    unfold gaussian, undim. cbn [c_a channels]. destruct (N.eqb_spec (blend (exact ex) sigma r (fun j => c_a (along_row (exact ex) sigma r w buf x (nearest_in h (y + j))))) 0) as [Z0|]; [rewrite Z0 in E; exact E|exact E].
  Qed.
  Theorem gaussian_uniform sigma r w h buf x y c : (0 <= r)%Z -> byte_colour c -> c_a c = 255%N -> inside w h x y ->
    (forall x' y', within r w h x y x' y' -> at_xy w buf x' y' = c) -> gaussian (exact ex) sigma r w h buf x y = c.
  Proof.
    intros R (B1 & B2 & B3 & B4) Ca I H.
    assert (D : dim c = c).
    { destruct c as [cr cg cb ca]. cbn in *. subst ca. unfold dim. cbn.
      assert (F : forall v, (v < 256 -> (v * 255 + 127) / 255 = v)%N) by (intros v Hv; rewrite N.add_comm, N.div_add by discriminate; reflexivity).
      rewrite !F by assumption. reflexivity. }
    assert (K : forall ch v, (ch c < 256)%N -> (forall j, (- r <= j <= r)%Z -> v j = ch c) -> blend (exact ex) sigma r v = ch c).
    { intros ch v Hc Hv. assert (ch c <= blend (exact ex) sigma r v <= ch c)%N by (apply blend_between; [exact R|exact Hc|]; intros j Hj; rewrite (Hv j Hj); lia). lia. }
    assert (Row : forall j, (- r <= j <= r)%Z -> along_row (exact ex) sigma r w buf x (nearest_in h (y + j)) = c).
    { intros j Hj. unfold along_row, channels. rewrite (K c_r), (K c_g), (K c_b), (K c_a); try assumption; [destruct c; reflexivity|..];
        intros i Hi; rewrite (H _ _ (near_within r w h x y i j I Hi Hj)), D; reflexivity. }
    unfold gaussian, channels.
    rewrite (K c_r), (K c_g), (K c_b), (K c_a); try assumption; [|intros j Hj; rewrite (Row j Hj); reflexivity..].
    unfold undim. cbn [c_a c_r c_g c_b]. rewrite Ca. change (255 =? 0)%N with false. cbv iota.
    assert (F : forall v, (v < 256 -> N.min (v * 255 / 255) 255 = v)%N) by (intros v Hv; rewrite N.div_mul by discriminate; lia).
    rewrite !F by assumption. rewrite <- Ca. destruct c. reflexivity.
  Qed.
End Exact.
Lemma exact_silent ex : silent (exact ex).
Proof.
  unfold silent. cbn [num add mul lit_ byte exact].
  enough (H : forall ks a, (a == 0)%Q -> (fold_left (fun acc k => acc + k * inject_Z 0) ks a == 0)%Q).
  { intros ks. specialize (H ks (inject_Z 0) (Qeq_refl 0)). set (q := fold_left _ _ _) in *. clearbody q.
    assert (B : (0 <= clamp_byte (round_away q) <= 0)%N) by (apply byte_between; [reflexivity|rewrite H; apply Qle_refl|rewrite H; apply Qle_refl]). lia. }
  induction ks as [|k ks IH]; intros a Ha; [exact Ha|]. cbn [fold_left]. apply IH. rewrite Ha. change (inject_Z 0) with 0%Q. lra.
Qed.
