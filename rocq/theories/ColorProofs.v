From Verif Require Import Base BaseLemmas NumSpec ColorModel ColorSpec.
Ltac Zify.zify_post_hook ::= Z.div_mod_to_equations.

Lemma to_digit_16 c d : to_digit 16 c = Some d <-> is_hex c = true /\ d = hex_digit_value c.
Proof.
  unfold to_digit, is_hex, hex_digit_value. destruct (is_digit c) eqn:E0.
  - unfold is_digit in E0. destruct (N.ltb_spec (c - 48) 16); [|lia]. destruct (N.leb_spec c 57); [|lia].
    split; [intros H1; inversion H1; auto|intros [_ ->]; reflexivity].
  - unfold is_digit, is_lower, is_upper in *.
    destruct ((97 <=? c) && (c <=? 122))%N eqn:E1.
    + destruct (N.ltb_spec (c - 87) 16).
      * destruct (N.leb_spec c 57); [lia|]. destruct (N.leb_spec c 70); [lia|].
        split; [intros G; inversion G; split; lia|intros [_ ->]; reflexivity].
      * split; [discriminate|]. intros [G _]. lia.
    + destruct ((65 <=? c) && (c <=? 90))%N eqn:E2.
      * destruct (N.ltb_spec (c - 55) 16).
        -- destruct (N.leb_spec c 57); [lia|]. destruct (N.leb_spec c 70); [|lia].
           split; [intros G; inversion G; split; lia|intros [_ ->]; reflexivity].
        -- split; [discriminate|]. intros [G _]. lia.
      * split; [discriminate|]. intros [G _]. lia.
Qed.

Definition hex_from (a : N) (s : str) : N := fold_left (fun a c => (16 * a + hex_digit_value c)%N) s a.
Lemma hex_from_ge a s : (a <= hex_from a s)%N.
Proof. revert a. induction s as [|c s IH]; intros a; cbn; [lia|]. specialize (IH (16 * a + hex_digit_value c)%N). unfold hex_from in *. lia. Qed.

Lemma digits_val_hex mx acc s v : (acc <= mx)%N -> digits_val mx 16 acc s = Some v <->
  forallb is_hex s = true /\ hex_from acc s = v /\ (v <= mx)%N.
Proof.
  revert acc. induction s as [|c s IH]; intros acc Ha; cbn [digits_val forallb].
  - cbn. split; [intros H; inversion H; subst; auto|intros (_ & -> & _); reflexivity].
  - destruct (to_digit 16 c) as [d|] eqn:E.
    + apply to_digit_16 in E as [Ec ->]. rewrite Ec. cbn [andb].
      unfold hex_from. cbn [fold_left]. fold (hex_from (16 * acc + hex_digit_value c) s).
      replace (acc * 16 + hex_digit_value c)%N with (16 * acc + hex_digit_value c)%N by lia.
      destruct (N.ltb_spec mx (16 * acc + hex_digit_value c)).
      * split; [discriminate|]. intros (_ & Hv & Hm).
        pose proof (hex_from_ge (16 * acc + hex_digit_value c) s). lia.
      * rewrite IH by exact H. reflexivity.
    + split; [discriminate|]. intros (H & _ & _). apply andb_prop in H as [H _].
      assert (to_digit 16 c = Some (hex_digit_value c)) by (apply to_digit_16; auto). congruence.
Qed.
Lemma parse_uint_hex mx s v : parse_uint mx 16 s = Some v <-> hex_numeral_plus s v /\ (v <= mx)%N.
Proof.
  assert (D : forall d, digits_val mx 16 0 d = Some v <-> forallb is_hex d = true /\ hex_value d = v /\ (v <= mx)%N).
  { intros d. rewrite digits_val_hex by lia. reflexivity. }
  unfold hex_numeral_plus, hex_numeral. split.
  - intros H. destruct s as [|c [|c' s]]; cbn [parse_uint] in H; [discriminate| |].
    + destruct ((c =? 43)%N || (c =? 45)%N); [discriminate|]. apply D in H as (H1 & H2 & H3).
      split; [|exact H3]. left. repeat split; auto. discriminate.
    + destruct (N.eqb_spec c 43).
      * apply D in H as (H1 & H2 & H3). subst c. split; [|exact H3]. right. exists (c' :: s). repeat split; auto. discriminate.
      * apply D in H as (H1 & H2 & H3). split; [|exact H3]. left. repeat split; auto. discriminate.
  - intros [[(Hne & Hd & Hv)|(d & -> & Hne & Hd & Hv)] Hm].
    + assert (E : digits_val mx 16 0 s = Some v) by (apply D; auto).
      destruct s as [|c [|c' s]]; [congruence| |]; cbn [forallb] in Hd; apply andb_prop in Hd as [Hc _];
        assert (c <> 43 /\ c <> 45)%N by (unfold is_hex, is_digit in Hc; lia);
        cbn [parse_uint]; destruct (N.eqb_spec c 43); try lia; destruct (N.eqb_spec c 45); try lia; exact E.
    + destruct d as [|c d]; [congruence|]. cbn [parse_uint]. change (43 =? 43)%N with true. cbn [orb]. apply D. auto.
Qed.

Lemma plus_chars d v : hex_numeral_plus d v -> forall c, In c d -> c = 43%N \/ is_hex c = true.
Proof.
  intros [(_ & H & _)|(d' & -> & _ & H & _)] c Hc; rewrite forallb_forall in H; [auto|].
  destruct Hc as [<-|Hc]; auto.
Qed.
Lemma plus_ascii d v : hex_numeral_plus d v -> Forall (fun c => (c < 128)%N) d.
Proof.
  intros H. apply Forall_forall. intros c Hc. destruct (plus_chars d v H c Hc) as [-> | E]; [lia|].
  unfold is_hex, is_digit in E. lia.
Qed.
Lemma hex_from_bound a d : forallb is_hex d = true -> (hex_from a d < (a + 1) * 16 ^ N.of_nat (List.length d))%N.
Proof.
  revert a. induction d as [|c d IH]; intros a H.
  - cbn. lia.
  - cbn [forallb] in H. apply andb_prop in H as [Hc Hd]. cbn [List.length]. rewrite Nat2N.inj_succ, N.pow_succ_r'.
    unfold hex_from. cbn [fold_left]. fold (hex_from (16 * a + hex_digit_value c) d).
    specialize (IH (16 * a + hex_digit_value c)%N Hd).
    assert (B : (hex_digit_value c < 16)%N).
    { unfold is_hex, is_digit in Hc. unfold hex_digit_value. destruct (c <=? 57)%N eqn:?, (c <=? 70)%N eqn:?; lia. }
    set (p := (16 ^ N.of_nat (List.length d))%N) in *.
    eapply N.lt_le_trans; [exact IH|]. rewrite N.mul_assoc.
    replace (p * (16 * a + hex_digit_value c + 1))%N with ((16 * a + hex_digit_value c + 1) * p)%N by apply N.mul_comm.
    apply N.mul_le_mono_r. lia.
Qed.
Lemma plus_bound d v : hex_numeral_plus d v -> List.length d <= 8 -> (v <= u32_max)%N.
Proof.
  assert (G : forall x, forallb is_hex x = true -> List.length x <= 8 -> (hex_value x <= u32_max)%N).
  { intros x Hx Hl. pose proof (hex_from_bound 0 x Hx) as B. unfold hex_value. fold (hex_from 0 x).
    assert (16 ^ N.of_nat (List.length x) <= 16 ^ 8)%N by (apply N.pow_le_mono_r; lia).
    change (16 ^ 8)%N with 4294967296%N in H. unfold u32_max. lia. }
  intros [(_ & H & <-)|(d' & -> & _ & H & <-)] Hl; apply G; auto. cbn in Hl. lia.
Qed.

Lemma land_255 x : N.land x 255 = (x mod 256)%N.
Proof. change 255%N with (N.ones 8). rewrite N.land_ones. reflexivity. Qed.
Lemma byte_model k v : N.land (N.shiftr v (8 * k)) 255 = byte_at k v.
Proof. unfold byte_at. rewrite land_255, N.shiftr_div_pow2. reflexivity. Qed.

Lemma hex_part_dressed t d : color_hex_part t = Ok d -> dressed t d.
Proof.
  unfold color_hex_part, dressed. intros H.
  destruct ((starts_with (lit "&H") t || starts_with (lit "&h") t) && ends_with (lit "&") t) eqn:E.
  - apply andb_prop in E as [E1 E2]. apply ends_with_spec in E2 as [r Hr].
    destruct (slice t 2 (blen t - 1)) as [d'|] eqn:Es; [|discriminate]. inversion H; subst d'. clear H.
    apply slice_spec in Es as (a & b & Ht & Ha & Hb).
    assert (Hbl : blen b = 1) by (rewrite Ht, !blen_app in Hb; lia).
    assert (Hend : t = (a ++ d) ++ b) by (rewrite <- app_assoc; exact Ht).
    assert (b = lit "&").
    { rewrite Hend in Hr. apply (f_equal blen) in Hr as Hrl. rewrite !blen_app in Hrl. change (blen (lit "&")) with 1 in Hrl.
      apply app_inj_blen in Hr; [tauto|rewrite !blen_app; lia]. }
    subst b. apply orb_prop in E1. destruct E1 as [E1|E1]; apply starts_with_spec in E1 as [q Hq].
    + left. rewrite Ht in Hq. apply app_inj_blen in Hq; [|rewrite Ha; reflexivity]. destruct Hq as [-> _]. exact Ht.
    + right; left. rewrite Ht in Hq. apply app_inj_blen in Hq; [|rewrite Ha; reflexivity]. destruct Hq as [-> _]. exact Ht.
  - destruct (strip_prefix (lit "&H") t) eqn:E1; [apply strip_prefix_some in E1; inversion H; subst; auto|].
    destruct (strip_prefix (lit "&h") t) eqn:E2; [apply strip_prefix_some in E2; inversion H; subst; auto|].
    destruct (strip_prefix (lit "0x") t) eqn:E3; [apply strip_prefix_some in E3; inversion H; subst; auto 6|].
    destruct (forallb is_hex t) eqn:E4; [|discriminate]. inversion H; subst. auto 10.
Qed.

Lemma last_not_amp d v : hex_numeral_plus d v -> forall p, (p = lit "&H" \/ p = lit "&h") -> ends_with (lit "&") (p ++ d) = false.
Proof.
  intros Hd p Hp. destruct (ends_with (lit "&") (p ++ d)) eqn:E; [|reflexivity]. exfalso.
  apply ends_with_spec in E as [r Hr].
  assert (Hl : last (p ++ d) 0%N = 38%N) by (rewrite Hr; change (lit "&") with [38%N]; apply last_last).
  assert (d <> []) by (destruct Hd as [(H & _)|(d' & -> & _)]; [exact H|discriminate]).
  destruct (exists_last H) as (d0 & c & ->).
  rewrite app_assoc, last_last in Hl. subst c.
  destruct (plus_chars _ _ Hd 38%N) as [F|F]; [apply in_or_app; right; left; reflexivity|discriminate|].
  vm_compute in F. discriminate.
Qed.
Lemma sw_H x : starts_with (lit "&H") (lit "&H" ++ x) = true. Proof. apply starts_with_app. Qed.
Lemma sw_h x : starts_with (lit "&h") (lit "&h" ++ x) = true. Proof. apply starts_with_app. Qed.

Lemma dressed_hex_part t d v : dressed t d -> hex_numeral_plus d v -> color_hex_part t = Ok d.
Proof.
  intros Hdr Hd. unfold color_hex_part.
  destruct Hdr as [-> | [-> | [-> | [-> | [-> | [-> Hh]]]]]].
  - rewrite sw_H. assert (E : ends_with (lit "&") (lit "&H" ++ d ++ lit "&") = true).
    { apply ends_with_spec. exists (lit "&H" ++ d). rewrite app_assoc. reflexivity. }
    rewrite E. cbn [orb andb]. replace (blen (lit "&H" ++ d ++ lit "&") - 1) with (blen (lit "&H") + blen d) by (rewrite !blen_app; blits; lia).
    change 2 with (blen (lit "&H")) at 1. rewrite slice_app. reflexivity.
  - rewrite sw_h. assert (E : ends_with (lit "&") (lit "&h" ++ d ++ lit "&") = true).
    { apply ends_with_spec. exists (lit "&h" ++ d). rewrite app_assoc. reflexivity. }
    rewrite E, orb_true_r. cbn [andb]. replace (blen (lit "&h" ++ d ++ lit "&") - 1) with (blen (lit "&h") + blen d) by (rewrite !blen_app; blits; lia).
    change 2 with (blen (lit "&h")) at 1. rewrite slice_app. reflexivity.
  - rewrite (last_not_amp d v Hd) by auto. rewrite andb_false_r. reflexivity.
  - rewrite (last_not_amp d v Hd) by auto. rewrite andb_false_r. reflexivity.
  - reflexivity.
  - assert (Hne : d <> []) by (destruct Hd as [(H & _)|(d' & -> & _)]; [exact H|discriminate]).
    destruct d as [|c d]; [congruence|]. pose proof Hh as Hh'. cbn [forallb] in Hh. apply andb_prop in Hh as [Hc Hd'].
    assert (Hc38 : (38 =? c)%N = false) by (unfold is_hex, is_digit in Hc; lia).
    assert (S1 : strip_prefix (lit "&H") (c :: d) = None) by (lits; cbn [strip_prefix]; rewrite Hc38; reflexivity).
    assert (S2 : strip_prefix (lit "&h") (c :: d) = None) by (lits; cbn [strip_prefix]; rewrite Hc38; reflexivity).
    assert (S3 : strip_prefix (lit "0x") (c :: d) = None).
    { lits. cbn [strip_prefix]. destruct (48 =? c)%N; [|reflexivity]. destruct d as [|c2 d]; [reflexivity|]. cbn [forallb] in Hd'.
      apply andb_prop in Hd' as [Hc2 _]. assert ((120 =? c2)%N = false) by (unfold is_hex, is_digit in Hc2; lia). rewrite H. reflexivity. }
    unfold starts_with. rewrite S1, S2, S3. cbn [orb andb]. rewrite Hh'. reflexivity.
Qed.

Lemma color_exact s q : parse_bgr_color s = Ok q <->
  exists d v, dressed (trim s) d /\ hex_numeral_plus d v /\
   ((List.length d = 6 /\ q = (byte_at 0 v, byte_at 1 v, byte_at 2 v, 0%N)) \/
    (List.length d = 8 /\ q = (byte_at 0 v, byte_at 1 v, byte_at 2 v, byte_at 3 v))).
Proof.
  assert (B0 : forall v, N.land v 255 = byte_at 0 v).
  { intros v. rewrite <- byte_model. reflexivity. }
  assert (B1 : forall v, N.land (N.shiftr v 8) 255 = byte_at 1 v) by (intros v; apply (byte_model 1)).
  assert (B2 : forall v, N.land (N.shiftr v 16) 255 = byte_at 2 v) by (intros v; apply (byte_model 2)).
  assert (B3 : forall v, N.land (N.shiftr v 24) 255 = byte_at 3 v) by (intros v; apply (byte_model 3)).
  split.
  - unfold parse_bgr_color. intros H. destruct (color_hex_part (trim s)) as [h| |] eqn:E; try discriminate.
    cbn [res_bind] in H. destruct (parse_uint u32_max 16 h) as [v|] eqn:E2; [|discriminate].
    cbn [res_bind of_opt] in H. cbv zeta in H. rewrite B0, B1, B2, B3 in H. apply parse_uint_hex in E2 as [E2 _].
    apply hex_part_dressed in E. exists h, v. split; [exact E|]. split; [exact E2|].
    rewrite (blen_ascii h) in H by (eapply plus_ascii; eauto).
    destruct (Nat.eqb_spec (List.length h) 6); [left; split; [assumption|congruence]|].
    destruct (Nat.eqb_spec (List.length h) 8); [right; split; [assumption|congruence]|]. discriminate.
  - intros (d & v & H1 & H2 & H3). unfold parse_bgr_color. rewrite (dressed_hex_part _ d v H1 H2). cbn [res_bind].
    assert (E : parse_uint u32_max 16 d = Some v).
    { apply parse_uint_hex. split; [exact H2|]. eapply plus_bound; [exact H2|lia]. }
    rewrite E. cbn [of_opt res_bind]. cbv zeta. rewrite B0, B1, B2, B3, (blen_ascii d) by (eapply plus_ascii; eauto).
    destruct H3 as [[-> ->]|[-> ->]]; reflexivity.
Qed.

Lemma bytes_of_color r g b a : (r < 256)%N -> (g < 256)%N -> (b < 256)%N -> (a < 256)%N ->
  let v := (a * 16777216 + b * 65536 + g * 256 + r)%N in
  byte_at 0 v = r /\ byte_at 1 v = g /\ byte_at 2 v = b /\ byte_at 3 v = a.
Proof.
  intros Hr Hg Hb Ha v. unfold byte_at. change (2 ^ (8 * 0))%N with 1%N. change (2 ^ (8 * 1))%N with 256%N.
  change (2 ^ (8 * 2))%N with 65536%N. change (2 ^ (8 * 3))%N with 16777216%N. unfold v. repeat split; lia.
Qed.

Lemma color_rgba s d r g b a : (r < 256)%N -> (g < 256)%N -> (b < 256)%N -> (a < 256)%N ->
  dressed (trim s) d -> forallb is_hex d = true -> List.length d = 8 ->
  hex_value d = (a * 16777216 + b * 65536 + g * 256 + r)%N ->
  parse_bgr_color s = Ok (r, g, b, a).
Proof.
  intros Hr Hg Hb Ha Hs Hd Hl Hv. apply color_exact. exists d, (hex_value d).
  destruct (bytes_of_color r g b a Hr Hg Hb Ha) as (E0 & E1 & E2 & E3). cbv zeta in *.
  split; [exact Hs|]. split.
  - left. repeat split; auto. destruct d; discriminate.
  - right. split; [exact Hl|]. rewrite Hv, E0, E1, E2, E3. reflexivity.
Qed.
Lemma color_rgb s d r g b : (r < 256)%N -> (g < 256)%N -> (b < 256)%N ->
  dressed (trim s) d -> forallb is_hex d = true -> List.length d = 6 ->
  hex_value d = (b * 65536 + g * 256 + r)%N ->
  parse_bgr_color s = Ok (r, g, b, 0%N).
Proof.
  intros Hr Hg Hb Hs Hd Hl Hv. apply color_exact. exists d, (hex_value d).
  destruct (bytes_of_color r g b 0 Hr Hg Hb ltac:(lia)) as (E0 & E1 & E2 & E3). cbv zeta in *.
  replace (0 * 16777216 + b * 65536 + g * 256 + r)%N with (b * 65536 + g * 256 + r)%N in * by lia.
  split; [exact Hs|]. split.
  - left. repeat split; auto. destruct d; discriminate.
  - left. split; [exact Hl|]. rewrite Hv, E0, E1, E2. reflexivity.
Qed.
Lemma color_no_panic s : parse_bgr_color s <> Panic.
Proof.
  unfold parse_bgr_color. intros H. destruct (color_hex_part (trim s)) as [h| |] eqn:E; cbn [res_bind] in H; try discriminate.
  - destruct (parse_uint u32_max 16 h); cbn [of_opt res_bind] in H; [|discriminate]. cbv zeta in H.
    destruct (Nat.eqb (blen h) 6), (Nat.eqb (blen h) 8); discriminate.
  - clear H. unfold color_hex_part in E. set (t := trim s) in *. clearbody t.
    destruct ((starts_with (lit "&H") t || starts_with (lit "&h") t) && ends_with (lit "&") t) eqn:G.
    + apply andb_prop in G as [E1 E2]. apply ends_with_spec in E2 as [r Hr]. apply orb_prop in E1.
      assert (exists p q, t = p ++ q ++ lit "&" /\ blen p = 2) as (p & q & -> & Hp).
      { destruct E1 as [E1|E1]; apply starts_with_spec in E1 as [q Hq]; rewrite Hq in Hr.
        all: destruct q as [|q0 q _] using rev_ind; [exfalso; cbn in Hr; destruct r as [|r0 [|r1 [|r2 r]]]; cbn in Hr; discriminate|].
        all: rewrite app_assoc in Hr; apply app_inj_tail in Hr as [_ ->].
        - exists (lit "&H"), q. auto.
        - exists (lit "&h"), q. auto. }
      replace (blen (p ++ q ++ lit "&") - 1) with (blen p + blen q) in E by (rewrite !blen_app; blits; lia).
      rewrite <- Hp in E. rewrite slice_app in E. discriminate.
    + destruct (strip_prefix (lit "&H") t); [discriminate|]. destruct (strip_prefix (lit "&h") t); [discriminate|].
      destruct (strip_prefix (lit "0x") t); [discriminate|]. destruct (forallb is_hex t); discriminate.
Qed.
