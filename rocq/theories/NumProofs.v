(* The integer parser of Base.v reads exactly the numerals of NumSpec.v. *)
From Verif Require Import Base BaseLemmas NumSpec.
Ltac Zify.zify_post_hook ::= Z.div_mod_to_equations.

Lemma to_digit_10 c d : to_digit 10 c = Some d <-> is_digit c = true /\ d = (c - 48)%N.
Proof.
  unfold to_digit. destruct (is_digit c) eqn:E.
  - unfold is_digit in E. destruct (N.ltb_spec (c - 48) 10); [|lia]. split; [intros H0; inversion H0; auto|intros [_ ->]; reflexivity].
  - split; [|intros [H _]; discriminate]. unfold is_digit in E.
    destruct (is_lower c) eqn:E1; [|destruct (is_upper c) eqn:E2]; [| |discriminate].
    + unfold is_lower in E1. destruct (N.ltb_spec (c - 87) 10); [lia|discriminate].
    + unfold is_upper in E2. destruct (N.ltb_spec (c - 55) 10); [lia|discriminate].
Qed.

Definition dec_from (a : N) (s : str) : N := fold_left (fun a c => (10 * a + (c - 48))%N) s a.
Lemma dec_from_ge a s : (a <= dec_from a s)%N.
Proof. revert a. induction s as [|c s IH]; intros a; cbn; [lia|]. specialize (IH (10 * a + (c - 48))%N). unfold dec_from in *. lia. Qed.

Lemma digits_val_dec mx acc s v : (acc <= mx)%N -> digits_val mx 10 acc s = Some v <->
  forallb is_digit s = true /\ dec_from acc s = v /\ (v <= mx)%N.
Proof.
  revert acc. induction s as [|c s IH]; intros acc Ha; cbn [digits_val forallb].
  - cbn. split; [intros H; inversion H; subst; auto|intros (_ & -> & _); reflexivity].
  - destruct (to_digit 10 c) as [d|] eqn:E.
    + apply to_digit_10 in E as [Ec ->]. rewrite Ec. cbn [andb].
      unfold dec_from. cbn [fold_left]. fold (dec_from (10 * acc + (c - 48)) s).
      replace (acc * 10 + (c - 48))%N with (10 * acc + (c - 48))%N by lia.
      destruct (N.ltb_spec mx (10 * acc + (c - 48))).
      * split; [discriminate|]. intros (_ & Hv & Hm).
        pose proof (dec_from_ge (10 * acc + (c - 48)) s). lia.
      * rewrite IH by exact H. reflexivity.
    + split; [discriminate|]. intros (H & _ & _). apply andb_prop in H as [H _].
      assert (to_digit 10 c = Some (c - 48)%N) by (apply to_digit_10; auto). congruence.
Qed.

Lemma parse_uint_dec mx s v : parse_uint mx 10 s = Some v <-> numeral s v /\ (v <= mx)%N.
Proof.
  assert (D : forall d, digits_val mx 10 0 d = Some v <-> forallb is_digit d = true /\ dec_value d = v /\ (v <= mx)%N).
  { intros d. rewrite digits_val_dec by lia. reflexivity. }
  assert (P : forall d : str, forallb is_digit (43%N :: d) = true -> False) by (intros d H; cbn in H; discriminate).
  split.
  - intros H. destruct s as [|c [|c' s]]; cbn [parse_uint] in H; [discriminate| |].
    + destruct ((c =? 43)%N || (c =? 45)%N); [discriminate|]. apply D in H as (H1 & H2 & H3).
      split; [|exact H3]. exists [c]. repeat split; auto. discriminate.
    + destruct (N.eqb_spec c 43).
      * apply D in H as (H1 & H2 & H3). subst c. split; [|exact H3]. exists (c' :: s). repeat split; auto. discriminate.
      * apply D in H as (H1 & H2 & H3). split; [|exact H3]. exists (c :: c' :: s). repeat split; auto. discriminate.
  - intros [(d & [-> | ->] & Hne & Hd & Hv) Hm].
    + rewrite parse_uint_digits by assumption. apply D. auto.
    + destruct d as [|c d]; [congruence|]. cbn [parse_uint]. change (43 =? 43)%N with true. cbn [orb].
      apply D. auto.
Qed.
Lemma parse_u32_spec s v : parse_u32 s = Some v <-> numeral s v /\ (v <= u32_max)%N.
Proof. apply parse_uint_dec. Qed.
Lemma numeral_fun s v w : numeral s v -> numeral s w -> v = w.
Proof.
  intros H1 H2.
  assert (A : parse_uint (N.max v w) 10 s = Some v) by (apply parse_uint_dec; split; [assumption|lia]).
  assert (B : parse_uint (N.max v w) 10 s = Some w) by (apply parse_uint_dec; split; [assumption|lia]).
  congruence.
Qed.
Lemma parse_uint_none mx s : parse_uint mx 10 s = None <-> forall v, numeral s v -> (mx < v)%N.
Proof.
  split.
  - intros H v Hv. destruct (N.ltb_spec mx v); [assumption|].
    assert (parse_uint mx 10 s = Some v) by (apply parse_uint_dec; auto). congruence.
  - intros H. destruct (parse_uint mx 10 s) as [v|] eqn:E; [|reflexivity].
    apply parse_uint_dec in E as [E1 E2]. specialize (H v E1). lia.
Qed.
