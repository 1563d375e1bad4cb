From Verif Require Import Base BaseLemmas NumSpec NumProofs TimeModel TimeSpec.
Ltac Zify.zify_post_hook ::= Z.div_mod_to_equations.

Lemma time_sum_ok h m s cs : (centis h m s cs <= u32_max)%N -> time_sum h m s cs = Ok (centis h m s cs).
Proof.
  unfold centis. intros H. unfold time_sum, u32_mul, u32_add, res_bind.
  destruct (N.ltb_spec u32_max (h * 360000)); [lia|].
  destruct (N.ltb_spec u32_max (m * 6000)); [lia|].
  destruct (N.ltb_spec u32_max (h * 360000 + m * 6000)); [lia|].
  destruct (N.ltb_spec u32_max (s * 100)); [lia|].
  destruct (N.ltb_spec u32_max (h * 360000 + m * 6000 + s * 100)); [lia|].
  destruct (N.ltb_spec u32_max (h * 360000 + m * 6000 + s * 100 + cs)); [lia|]. reflexivity.
Qed.
Lemma time_sum_panic h m s cs : (u32_max < centis h m s cs)%N -> time_sum h m s cs = Panic.
Proof.
  unfold centis. intros H. unfold time_sum, u32_mul, u32_add, res_bind.
  destruct (N.ltb_spec u32_max (h * 360000)); [reflexivity|].
  destruct (N.ltb_spec u32_max (m * 6000)); [reflexivity|].
  destruct (N.ltb_spec u32_max (h * 360000 + m * 6000)); [reflexivity|].
  destruct (N.ltb_spec u32_max (s * 100)); [reflexivity|].
  destruct (N.ltb_spec u32_max (h * 360000 + m * 6000 + s * 100)); [reflexivity|].
  destruct (N.ltb_spec u32_max (h * 360000 + m * 6000 + s * 100 + cs)); [reflexivity|]. lia.
Qed.
Lemma time_sum_cases h m s cs :
  time_sum h m s cs = if (centis h m s cs <=? u32_max)%N then Ok (centis h m s cs) else Panic.
Proof. destruct (N.leb_spec (centis h m s cs) u32_max); [apply time_sum_ok|apply time_sum_panic]; assumption. Qed.

Lemma numeral_chars s v : numeral s v -> forall c, In c s -> c = 43%N \/ is_digit c = true.
Proof.
  intros (d & [-> | ->] & _ & Hd & _) c Hc; rewrite forallb_forall in Hd.
  - right. apply Hd. exact Hc.
  - destruct Hc as [<-|Hc]; [left; reflexivity|right; apply Hd; exact Hc].
Qed.
Lemma numeral_free (p : char -> bool) s v : numeral s v -> p 43%N = false -> (forall c, is_digit c = true -> p c = false) ->
  forallb (fun c => negb (p c)) s = true.
Proof.
  intros Hn H1 H2. apply forallb_forall. intros c Hc.
  destruct (numeral_chars s v Hn c Hc) as [-> | Hd]; [rewrite H1|rewrite (H2 c Hd)]; reflexivity.
Qed.
Lemma digit_not_colon c : is_digit c = true -> is_colon c = false.
Proof. unfold is_digit, is_colon. lia. Qed.
Lemma digit_not_dot c : is_digit c = true -> is_dot c = false.
Proof. unfold is_digit, is_dot. lia. Qed.

Lemma split3 (p : char -> bool) c t a b d : (forall x, p x = true <-> x = c) ->
  split_on p t = [a; b; d] -> t = a ++ [c] ++ b ++ [c] ++ d /\ ~ In c d.
Proof.
  intros Hp H. split.
  - rewrite <- (join_split_on p c t Hp), H. reflexivity.
  - assert (G : forall s, Forall (fun w => ~ In c w) (split_on p s)).
    { clear -Hp. induction s as [|x s IH]; cbn.
      - constructor; [easy|constructor].
      - destruct (p x) eqn:E.
        + constructor; [easy|exact IH].
        + destruct (split_on p s) as [|w ws].
          * constructor; [|constructor]. cbn. intros [<-|[]].
            assert (p x = true) by (apply Hp; reflexivity). congruence.
          * inversion IH; subst. constructor; [|assumption]. cbn. intros [<-|Hin]; [|contradiction].
            assert (p x = true) by (apply Hp; reflexivity). congruence. }
    specialize (G t). rewrite H in G. inversion G; subst. inversion H3; subst. inversion H5; subst. assumption.
Qed.
Lemma colon_iff x : is_colon x = true <-> x = 58%N. Proof. unfold is_colon. lia. Qed.
Lemma dot_iff x : is_dot x = true <-> x = 46%N. Proof. unfold is_dot. lia. Qed.

Lemma notin_free (p : char -> bool) c s : (forall x, p x = true <-> x = c) -> ~ In c s -> forallb (fun x => negb (p x)) s = true.
Proof.
  intros Hp H. apply forallb_forall. intros x Hx. destruct (p x) eqn:E; [|reflexivity].
  apply Hp in E. subst. contradiction.
Qed.

(* seconds part *)
Lemma seconds_parse t s cs : (s <= u32_max)%N -> (cs <= u32_max)%N ->
  (parse_u32 (hd [] (split_on is_dot t)) = Some s /\ frac_part (split_on is_dot t) = Some cs)
  <-> seconds_field t s cs.
Proof.
  intros Bs Bc. split.
  - intros [H1 H2]. pose proof (join_split_on is_dot 46%N t dot_iff) as J.
    destruct (split_on is_dot t) as [|S [|F R]] eqn:E.
    + exfalso. eapply split_on_nonempty; eauto.
    + cbn in J, H1, H2. subst t. left. apply parse_u32_spec in H1 as [H1 _]. inversion H2. auto.
    + cbn [hd] in H1. apply parse_u32_spec in H1 as [H1 _]. cbn [frac_part] in H2.
      destruct (match F with [] => true | _ => false end || negb (forallb is_digit F)) eqn:G; [discriminate|].
      apply orb_false_iff in G as [G1 G2]. apply negb_false_iff in G2.
      assert (HF : F <> []) by (destruct F; [discriminate|discriminate]).
      unfold parse_u32 in H2. rewrite parse_uint_digits in H2 by assumption.
      apply digits_val_dec in H2 as (_ & H2 & _); [|lia].
      right. exists S, F, (match R with [] => [] | _ => [46%N] ++ join [46%N] R end).
      split; [|repeat split; try assumption].
      * rewrite <- J. destruct R; cbn; rewrite ?app_nil_r; reflexivity.
      * destruct R as [|w R]; [left; reflexivity|right]. exists (join [46%N] (w :: R)). reflexivity.
  - intros [[H ->]|(S & F & rest & -> & HS & HF & HD & HV & HR)].
    + rewrite split_on_none by (eapply numeral_free; [exact H|reflexivity|apply digit_not_dot]).
      cbn. split; [apply parse_u32_spec; auto|reflexivity].
    + change (lit ".") with [46%N]. cbn [app].
      rewrite split_on_app; [|eapply numeral_free; [exact HS|reflexivity|apply digit_not_dot]|reflexivity].
      cbn [hd]. split; [apply parse_u32_spec; auto|].
      assert (G : exists R, split_on is_dot (F ++ rest) = F :: R).
      { destruct HR as [-> | [r ->]].
        - rewrite app_nil_r. exists []. apply split_on_none. apply digits_not; [assumption|apply digit_not_dot].
        - exists (split_on is_dot r). apply split_on_app; [|reflexivity].
          apply digits_not; [assumption|apply digit_not_dot]. }
      destruct G as [R ->]. cbn [frac_part]. rewrite HD. destruct F as [|f F]; [congruence|]. cbn [orb negb].
      unfold parse_u32. rewrite parse_uint_digits by (assumption || discriminate).
      apply digits_val_dec; [lia|]. auto.
Qed.

Definition fields_fit (h m s cs : N) : Prop :=
  (h <= u32_max /\ m <= u32_max /\ s <= u32_max /\ cs <= u32_max)%N.

Lemma frac_part_bound l cs : frac_part l = Some cs -> (cs <= u32_max)%N.
Proof.
  destruct l as [|a [|b l]]; cbn; intros H; try (inversion H; unfold u32_max; lia).
  destruct (_ || _); [discriminate|]. apply parse_u32_spec in H. tauto.
Qed.

(* The parser's behaviour in terms of the fields. *)
Lemma parse_time_fields t h m s cs : time_fields t h m s cs -> fields_fit h m s cs ->
  parse_ass_time t = if (60 <=? m)%N then Err else if (60 <=? s)%N then Err else time_sum h m s cs.
Proof.
  intros (H & M & S & -> & HS & Hh & Hm & Hs) (Bh & Bm & Bs & Bc).
  unfold parse_ass_time. change (lit ":") with [58%N]. cbn [app].
  rewrite split_on_app; [|eapply numeral_free; [exact Hh|reflexivity|apply digit_not_colon]|reflexivity].
  rewrite split_on_app; [|eapply numeral_free; [exact Hm|reflexivity|apply digit_not_colon]|reflexivity].
  rewrite split_on_none by (eapply notin_free; [apply colon_iff|exact HS]).
  assert (E1 : parse_u32 H = Some h) by (apply parse_u32_spec; auto).
  assert (E2 : parse_u32 M = Some m) by (apply parse_u32_spec; auto).
  destruct (proj2 (seconds_parse S s cs Bs Bc) Hs) as [E3 E4].
  rewrite E1, E2. cbn [of_opt res_bind]. cbv zeta. rewrite E3, E4. reflexivity.
Qed.
Lemma parse_time_inv t : parse_ass_time t = Err \/
  exists h m s cs, time_fields t h m s cs /\ fields_fit h m s cs /\ (m < 60)%N /\ (s < 60)%N /\
     parse_ass_time t = time_sum h m s cs.
Proof.
  unfold parse_ass_time. destruct (split_on is_colon t) as [|H [|M [|S [|x l]]]] eqn:E; auto.
  apply (split3 is_colon 58%N) in E as [-> HS]; [|apply colon_iff].
  destruct (parse_u32 H) as [h|] eqn:E1; [|auto]. destruct (parse_u32 M) as [m|] eqn:E2; [|auto].
  cbn [of_opt res_bind]. destruct (parse_u32 (hd [] (split_on is_dot S))) as [s|] eqn:E3; [|auto].
  cbn [of_opt res_bind]. destruct (frac_part (split_on is_dot S)) as [cs|] eqn:E4; [|auto].
  cbn [of_opt res_bind]. destruct (N.leb_spec 60 m); [auto|]. destruct (N.leb_spec 60 s); [auto|].
  right. pose proof (frac_part_bound _ _ E4) as Bc. apply parse_u32_spec in E1 as [E1 B1]. apply parse_u32_spec in E2 as [E2 B2].
  pose proof (proj1 (parse_u32_spec _ _) E3) as [_ B3].
  exists h, m, s, cs. repeat split; try assumption.
  exists H, M, S. repeat split; try assumption. apply seconds_parse; auto.
Qed.

Lemma parse_time_exact t v : parse_ass_time t = Ok v <->
  exists h m s cs, time_fields t h m s cs /\ (m < 60)%N /\ (s < 60)%N /\
     v = centis h m s cs /\ (v <= u32_max)%N.
Proof.
  split.
  - intros H. destruct (parse_time_inv t) as [E|(h & m & s & cs & F & _ & Hm & Hs & E)]; [congruence|].
    rewrite E, time_sum_cases in H. destruct (N.leb_spec (centis h m s cs) u32_max); [|discriminate].
    inversion H. subst v. exists h, m, s, cs. auto.
  - intros (h & m & s & cs & F & Hm & Hs & -> & B).
    rewrite (parse_time_fields t h m s cs F).
    + destruct (N.leb_spec 60 m); [lia|]. destruct (N.leb_spec 60 s); [lia|]. apply time_sum_ok. exact B.
    + unfold fields_fit, centis in *. lia.
Qed.
Lemma parse_time_panics t : parse_ass_time t = Panic <->
  exists h m s cs, time_fields t h m s cs /\ fields_fit h m s cs /\ (m < 60)%N /\ (s < 60)%N /\
     (u32_max < centis h m s cs)%N.
Proof.
  split.
  - intros H. destruct (parse_time_inv t) as [E|(h & m & s & cs & F & B & Hm & Hs & E)]; [congruence|].
    rewrite E, time_sum_cases in H. destruct (N.leb_spec (centis h m s cs) u32_max); [discriminate|].
    exists h, m, s, cs. auto 10.
  - intros (h & m & s & cs & F & B & Hm & Hs & G). rewrite (parse_time_fields t h m s cs F B).
    destruct (N.leb_spec 60 m); [lia|]. destruct (N.leb_spec 60 s); [lia|]. apply time_sum_panic. exact G.
Qed.

Lemma numeral_to_dec n : numeral (to_dec n) n.
Proof. apply (proj1 (parse_uint_dec n (to_dec n) n)). apply parse_to_dec. lia. Qed.
Lemma numeral_dec_pad w n : numeral (dec_pad w n) n.
Proof. apply (proj1 (parse_uint_dec n (dec_pad w n) n)). apply parse_dec_pad. lia. Qed.
Lemma dec_value_pad w n : dec_value (dec_pad w n) = n.
Proof.
  pose proof (parse_dec_pad n w n ltac:(lia)) as H.
  rewrite parse_uint_digits in H by (apply dec_pad_nonempty || apply dec_pad_digits).
  apply digits_val_dec in H; [|lia]. apply H.
Qed.
Lemma digits_notin c s : forallb is_digit s = true -> is_digit c = false -> ~ In c s.
Proof. intros H Hc Hin. rewrite forallb_forall in H. apply H in Hin. congruence. Qed.

Lemma format_fields t : exists h m s cs, time_fields (format_ass_time t) h m s cs /\
  (m < 60)%N /\ (s < 60)%N /\ (cs < 100)%N /\ centis h m s cs = t.
Proof.
  unfold format_ass_time.
  set (h := (t / 360000)%N). set (r1 := (t mod 360000)%N). set (m := (r1 / 6000)%N).
  set (r2 := (r1 mod 6000)%N). set (s := (r2 / 100)%N). set (cs := (r2 mod 100)%N).
  exists h, m, s, cs.
  assert (D1 : t = (360000 * h + r1)%N /\ (r1 < 360000)%N).
  { split; [apply N.div_mod; lia|apply N.mod_lt; lia]. }
  assert (D2 : r1 = (6000 * m + r2)%N /\ (r2 < 6000)%N).
  { split; [apply N.div_mod; lia|apply N.mod_lt; lia]. }
  assert (D3 : r2 = (100 * s + cs)%N /\ (cs < 100)%N).
  { split; [apply N.div_mod; lia|apply N.mod_lt; lia]. }
  clearbody h r1 m r2 s cs. split; [|unfold centis; lia].
  exists (to_dec h), (dec_pad 2 m), (dec_pad 2 s ++ lit "." ++ dec_pad 2 cs).
  repeat split.
  - intros Hin. apply in_app_or in Hin as [Hin|Hin].
    + revert Hin. apply digits_notin; [apply dec_pad_digits|reflexivity].
    + change (lit ".") with [46%N] in Hin. cbn [app In] in Hin. destruct Hin as [Hin|Hin]; [discriminate|]. revert Hin.
      apply digits_notin; [apply dec_pad_digits|reflexivity].
  - apply numeral_to_dec.
  - apply numeral_dec_pad.
  - right. exists (dec_pad 2 s), (dec_pad 2 cs), []. rewrite app_nil_r. repeat split; auto.
    + apply numeral_dec_pad.
    + apply dec_pad_nonempty.
    + apply dec_pad_digits.
    + apply dec_value_pad.
Qed.
Lemma time_round_trip t : (t <= u32_max)%N -> parse_ass_time (format_ass_time t) = Ok t.
Proof.
  intros B. apply parse_time_exact. destruct (format_fields t) as (h & m & s & cs & F & Hm & Hs & _ & <-).
  exists h, m, s, cs. auto.
Qed.
