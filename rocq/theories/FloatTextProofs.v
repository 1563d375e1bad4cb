From Coq Require Import Qpower Lia.
From Verif Require Import FloatModel FloatSpec FloatProofs BaseLemmas.
Open Scope Q_scope.

Lemma digit_true c : is_digit c = true <-> decimal_digit c.
Proof. unfold is_digit, decimal_digit. rewrite andb_true_iff, !N.leb_le. reflexivity. Qed.
Lemma digit_false c : is_digit c = false <-> ~ decimal_digit c.
Proof. rewrite <- digit_true. destruct (is_digit c); split; congruence. Qed.
Definition no_digit_first (r : str) : Prop := match r with c :: _ => ~ decimal_digit c | [] => True end.
Lemma run_spec s : forall ds r, digit_run s = (ds, r) <-> s = ds ++ r /\ Forall decimal_digit ds /\ no_digit_first r.
Proof.
  unfold digit_run. induction s as [|c s IH]; intros ds r.
  - split; [intros [= <- <-]; repeat split; constructor|]. intros (E & _). destruct ds; [|discriminate]. cbn in E. now subst.
  - destruct (is_digit c) eqn:D.
    + set (go := fix go (s : str) : str * str := match s with c :: r => if is_digit c then (c :: fst (go r), snd (go r)) else ([], s) | [] => ([], []) end) in *. destruct (go s) as [a b] eqn:G. cbn [fst snd]. split.
      * intros [= <- <-]. destruct (proj1 (IH a b) eq_refl) as (-> & F & N). split; [reflexivity|]. split; [constructor; [now apply digit_true|exact F]|exact N].
      * intros (E & F & N). destruct ds as [|d ds]; [cbn in E; subst r; exfalso; apply N; now apply digit_true|]. injection E as <- E. inversion F; subst.
        assert (X : (a, b) = (ds, r)) by (apply IH; split; [reflexivity|]; split; assumption). injection X as -> ->. reflexivity.
    + split.
      * intros [= <- <-]. split; [reflexivity|]. split; [constructor|]. now apply digit_false.
      * intros (E & F & N). destruct ds as [|d ds]; [cbn in E; now subst|]. injection E as <- E. inversion F; subst. apply digit_true in H1. congruence.
Qed.
Lemma number_app a b : digits_number (a ++ b) = (digits_number a * 10 ^ Z.of_nat (List.length b) + digits_number b)%Z.
Proof. induction a as [|c a IH]; [cbn; lia|]. cbn [digits_number app]. rewrite IH, app_length, Nat2Z.inj_add, Z.pow_add_r by lia. ring. Qed.
Lemma dec_Z_is s : dec_Z s = digits_number s.
Proof.
  unfold dec_Z. assert (H : forall s a, fold_left (fun a c => (10 * a + Z.of_N (c - 48))%Z) s a = (a * 10 ^ Z.of_nat (List.length s) + digits_number s)%Z); [|now rewrite H].
  clear. induction s as [|c s IH]; intros a; [cbn; lia|]. cbn [fold_left digits_number List.length]. rewrite IH, Nat2Z.inj_succ, Z.pow_succ_r by lia. ring.
Qed.
Lemma pow10_is e : pow10 e == 10 ^ e.
Proof.
  destruct e as [|p|p]; cbn [pow10]; [reflexivity| |].
  - rewrite Zpower_Qpower by lia. reflexivity.
  - change (Zneg p) with (- Zpos p)%Z. rewrite Qpower_opp. assert (H : inject_Z (10 ^ Zpos p) == 10 ^ Zpos p) by (rewrite Zpower_Qpower by lia; reflexivity).
    rewrite <- H. unfold Qinv, inject_Z. cbn [Qnum Qden]. rewrite <- Pos2Z.inj_pow. reflexivity.
Qed.
Lemma sign_cases (r : str) : exists sg neg t, r = sg ++ t /\ sign_of sg neg /\ (sg = [] -> match t with c :: _ => c <> 45%N /\ c <> 43%N | [] => True end) /\
  (match r with d :: t => if (d =? 45)%N then (true, t) else if (d =? 43)%N then (false, t) else (false, r) | [] => (false, r) end) = (neg, t).
Proof.
  destruct r as [|d t]; [exists [], false, []; repeat split; constructor|]. destruct (N.eqb_spec d 45) as [->|A]; [exists [45%N], true, t; split; [reflexivity|]; split; [constructor|]; split; [discriminate|reflexivity]|].
  destruct (N.eqb_spec d 43) as [->|B]; [exists [43%N], false, t; split; [reflexivity|]; split; [constructor|]; split; [discriminate|reflexivity]|].
  exists [], false, (d :: t). split; [reflexivity|]. split; [constructor|]. split; [intros _; now split|reflexivity].
Qed.
Lemma exponent_iff s z : parse_exponent s = Some z <-> exponent s z.
Proof.
  split.
  - intros H. destruct s as [|c r]; [injection H as <-; constructor|]. cbn [parse_exponent] in H. destruct ((c =? 101)%N || (c =? 69)%N) eqn:C; [|discriminate].
    assert (C' : (c = 101 \/ c = 69)%N) by lia. destruct (sign_cases r) as (sg & neg & t & -> & S & _ & E). rewrite E in H. destruct (digit_run t) as [ds u] eqn:R. destruct u; [|discriminate]. apply run_spec in R. destruct R as (-> & F & _).
    destruct ds as [|d ds]; [discriminate|]. rewrite app_nil_r. injection H as <-. rewrite !dec_Z_is. constructor; [exact C'|discriminate|exact F|]. destruct S; [left|left|right]; (split; [|reflexivity]); auto.
  - intros H. destruct H as [|c sg ds z C D F S]; [reflexivity|]. cbn [parse_exponent]. replace ((c =? 101)%N || (c =? 69)%N) with true by (symmetry; destruct C as [-> | ->]; reflexivity).
    assert (R : digit_run ds = (ds, [])) by (apply run_spec; rewrite app_nil_r; repeat split; exact F).
    destruct ds as [|d ds]; [now destruct D|]. assert (Dd : decimal_digit d) by now inversion F. unfold decimal_digit in Dd.
    destruct S as [[[-> | ->] ->]|[-> ->]]; cbn [app].
    + replace (d =? 45)%N with false by (symmetry; apply N.eqb_neq; lia). replace (d =? 43)%N with false by (symmetry; apply N.eqb_neq; lia). rewrite R. now rewrite dec_Z_is.
    + change (43 =? 45)%N with false. change (43 =? 43)%N with true. cbv iota. rewrite R. now rewrite dec_Z_is.
    + change (45 =? 45)%N with true. cbv iota. rewrite R. now rewrite dec_Z_is.
Qed.
Lemma pow10_plus a b : 10 ^ (a + b) == 10 ^ a * 10 ^ b.
Proof. apply Qpower_plus. discriminate. Qed.
Lemma exponent_first s z : exponent s z -> no_digit_first s /\ match s with c :: _ => c <> 46%N | [] => True end.
Proof. intros H. destruct H as [|c sg ds z C D F S]; [split; exact I|]. cbn. unfold decimal_digit. split; lia. Qed.
Lemma point_value i f z : inject_Z (dec_Z (i ++ f)) * pow10 (z - Z.of_nat (List.length f)) ==
  (inject_Z (digits_number i) + inject_Z (digits_number f) * 10 ^ (- Z.of_nat (List.length f))) * 10 ^ z.
Proof.
  rewrite dec_Z_is, number_app, pow10_is. replace (z - Z.of_nat (List.length f))%Z with (- Z.of_nat (List.length f) + z)%Z by lia. rewrite pow10_plus, inject_Z_plus, inject_Z_mult, Zpower_Qpower by lia.
  assert (E : inject_Z 10 ^ Z.of_nat (List.length f) * 10 ^ (- Z.of_nat (List.length f)) == 1). { change (inject_Z 10) with 10. rewrite <- pow10_plus. replace (Z.of_nat (List.length f) + - Z.of_nat (List.length f))%Z with 0%Z by lia. reflexivity. }
  rewrite Qmult_assoc, Qmult_plus_distr_l, <- (Qmult_assoc _ (inject_Z 10 ^ _)), E. ring.
Qed.
Lemma decimal_sound s q : parse_decimal s = Some q -> exists q', decimal s q' /\ q == q'.
Proof.
  unfold parse_decimal. destruct (digit_run s) as [i r] eqn:R. apply run_spec in R. destruct R as (-> & Fi & Nr). intros H.
  destruct r as [|c t].
  - rewrite app_nil_r in H. destruct i as [|d i]; [discriminate|]. cbn [parse_exponent] in H. injection H as <-. eexists. split; [apply (dec_plain (d :: i) [] 0); [discriminate|exact Fi|constructor]|]. rewrite dec_Z_is. reflexivity.
  - destruct (N.eqb_spec c 46) as [->|C].
    + destruct (digit_run t) as [f u] eqn:Rt. apply run_spec in Rt. destruct Rt as (-> & Ff & Nu). destruct (i ++ f) as [|d ds] eqn:A; [discriminate|]. destruct (parse_exponent u) as [z|] eqn:Z1; [|discriminate]. injection H as <-. rewrite <- A. apply exponent_iff in Z1.
      eexists. split; [apply (dec_point i f u z); [congruence|apply Forall_app; now split|exact Z1]|]. apply point_value.
    + rewrite app_nil_r in H. destruct i as [|d i]; [discriminate|]. destruct (parse_exponent (c :: t)) as [z|] eqn:Z1; [|discriminate]. injection H as <-. apply exponent_iff in Z1.
      eexists. split; [apply (dec_plain (d :: i) (c :: t) z); [discriminate|exact Fi|exact Z1]|]. rewrite dec_Z_is, pow10_is. cbn. rewrite Z.sub_0_r. reflexivity.
Qed.
Lemma decimal_complete s q : decimal s q -> exists q', parse_decimal s = Some q' /\ q' == q.
Proof.
  intros H. unfold parse_decimal. destruct H as [i ex z D F X|i f ex z D F X].
  - pose proof (exponent_first _ _ X) as [N P]. assert (R : digit_run (i ++ ex) = (i, ex)) by (apply run_spec; now repeat split). rewrite R. apply exponent_iff in X.
    assert (E : match ex with c :: t => if (c =? 46)%N then digit_run t else ([], ex) | [] => ([], ex) end = ([], ex)). { destruct ex as [|c t]; [reflexivity|]. now rewrite (proj2 (N.eqb_neq _ _) P). }
    rewrite E, app_nil_r. destruct i as [|d i]; [now destruct D|]. rewrite X. eexists. split; [reflexivity|]. rewrite dec_Z_is, pow10_is. cbn. rewrite Z.sub_0_r. reflexivity.
  - pose proof (exponent_first _ _ X) as [N P]. apply Forall_app in F. destruct F as [Fi Ff]. assert (R : digit_run (i ++ [46%N] ++ f ++ ex) = (i, 46%N :: f ++ ex)). { apply run_spec. split; [reflexivity|]. split; [exact Fi|]. cbn. unfold decimal_digit. lia. }
    rewrite R. change (46 =? 46)%N with true. cbv iota. assert (R2 : digit_run (f ++ ex) = (f, ex)) by (apply run_spec; now repeat split). rewrite R2. apply exponent_iff in X. destruct (i ++ f) as [|d ds] eqn:A; [now destruct D|]. rewrite X. eexists. split; [reflexivity|]. rewrite <- A. apply point_value.
Qed.
Lemma decimal_first s q : decimal s q -> match s with c :: _ => decimal_digit c \/ c = 46%N | [] => False end.
Proof.
  intros H. destruct H as [i ex z D F X|i f ex z D F X].
  - destruct i as [|c i]; [now destruct D|]. cbn. left. now inversion F.
  - destruct i as [|c i]; cbn; [now right|]. left. now inversion F.
Qed.
Lemma spelled_iff s w : Forall (fun d => 97 <= d <= 122)%N w -> map lower_ascii s = w <-> Forall2 (fun c d => c = d \/ (c + 32 = d /\ 97 <= d <= 122))%N s w.
Proof.
  intros F. split.
  - intros <-. induction s as [|c s IH]; [constructor|]. cbn [map] in *. inversion F; subst. constructor; [|now apply IH]. revert H1. unfold lower_ascii. destruct ((65 <=? c)%N && (c <=? 90)%N) eqn:E; [right; lia|now left].
  - intros H. induction H as [|c d s w R H IH]; [reflexivity|]. cbn [map]. inversion F; subst. rewrite IH by assumption. f_equal. unfold lower_ascii. destruct ((65 <=? c)%N && (c <=? 90)%N) eqn:E; lia.
Qed.
Lemma is_word_iff w s : Forall (fun d => 97 <= d <= 122)%N (lit w) -> is_word w s = true <-> spelled w s.
Proof. intros F. unfold is_word, spelled. rewrite <- (spelled_iff s (lit w) F). apply str_eqb_eq. Qed.
Ltac word := unfold lit; cbn; repeat constructor; lia.
Lemma word_first w s : spelled w s -> lit w <> [] -> Forall (fun d => 97 <= d <= 122)%N (lit w) -> match s with c :: _ => ~ decimal_digit c /\ c <> 46%N /\ c <> 43%N /\ c <> 45%N | [] => False end.
Proof. intros H N F. unfold spelled in H. destruct (lit w) as [|d r]; [now destruct N|]. inversion H; subst. inversion F; subst. unfold decimal_digit. lia. Qed.
Lemma no_decimal s : match s with c :: _ => ~ decimal_digit c /\ c <> 46%N /\ c <> 43%N /\ c <> 45%N | [] => False end -> parse_decimal s = None.
Proof. intros H. destruct (parse_decimal s) as [q|] eqn:E; [|reflexivity]. apply decimal_sound in E. destruct E as (q' & D & _). apply decimal_first in D. destruct s as [|c t]; [destruct D|]. destruct H as (A & B & _). now destruct D. Qed.
Lemma sign_split sg neg s : sign_of sg neg -> match s with c :: _ => c <> 45%N /\ c <> 43%N | [] => True end ->
  (match sg ++ s with d :: t => if (d =? 45)%N then (true, t) else if (d =? 43)%N then (false, t) else (false, sg ++ s) | [] => (false, sg ++ s) end) = (neg, s).
Proof.
  intros S F. destruct S; cbn [app]; [|reflexivity|reflexivity]. destruct s as [|c t]; [reflexivity|]. destruct F as [A B]. now rewrite (proj2 (N.eqb_neq _ _) A), (proj2 (N.eqb_neq _ _) B).
Qed.
Lemma parse_iff fm s x : valid_format fm -> parse_float fm s = Some x <-> number_text fm s x.
Proof.
  intros V. assert (WI : Forall (fun d => 97 <= d <= 122)%N (lit "inf")) by word. assert (WF : Forall (fun d => 97 <= d <= 122)%N (lit "infinity")) by word. assert (WN : Forall (fun d => 97 <= d <= 122)%N (lit "nan")) by word. split.
  - unfold parse_float. destruct (sign_cases s) as (sg & neg & t & -> & S & _ & E). rewrite E. destruct (parse_decimal t) as [q|] eqn:P.
    + intros [= <-]. apply decimal_sound in P. destruct P as (q' & D & Q). assert (R : round_to fm (if neg then - q else q) = round_to fm (if neg then - q' else q')). { apply round_wd; [exact V|]. destruct neg; now rewrite Q. } rewrite R. now constructor.
    + destruct (is_word "inf" t || is_word "infinity" t) eqn:W.
      * intros [= <-]. constructor; [exact S|]. apply orb_true_iff in W. destruct W as [W|W]; apply is_word_iff in W; auto.
      * destruct (is_word "nan" t) eqn:W2; [|discriminate]. intros [= <-]. apply is_word_iff in W2; [|exact WN]. now apply (num_nan fm sg neg).
  - unfold parse_float. intros H. destruct H as [sg neg s q S D|sg neg s S W|sg neg s S W].
    + pose proof (decimal_first _ _ D) as F. rewrite (sign_split sg neg s S). 2: { destruct s; [exact I|]. unfold decimal_digit in F. lia. } apply decimal_complete in D. destruct D as (q' & -> & Q). f_equal. apply round_wd; [exact V|]. destruct neg; now rewrite Q.
    + assert (F : match s with c :: _ => ~ decimal_digit c /\ c <> 46%N /\ c <> 43%N /\ c <> 45%N | [] => False end) by (destruct W as [W|W]; eapply word_first; eauto; discriminate).
      rewrite (sign_split sg neg s S). 2: { destruct s; [exact I|]. tauto. } rewrite (no_decimal _ F). assert (B : is_word "inf" s || is_word "infinity" s = true). { apply orb_true_iff. destruct W as [W|W]; [left|right]; now apply is_word_iff. } now rewrite B.
    + assert (F : match s with c :: _ => ~ decimal_digit c /\ c <> 46%N /\ c <> 43%N /\ c <> 45%N | [] => False end) by (eapply word_first; eauto; discriminate).
      rewrite (sign_split sg neg s S). 2: { destruct s; [exact I|]. tauto. } rewrite (no_decimal _ F).
      assert (B : is_word "inf" s || is_word "infinity" s = false).
      { apply orb_false_iff. split; (match goal with |- ?b = false => destruct b eqn:B end; [|reflexivity]); apply is_word_iff in B; auto; unfold spelled, lit in *; cbn in *; inversion W; subst; inversion B; subst; lia. }
      rewrite B. replace (is_word "nan" s) with true; [reflexivity|]. symmetry. now apply is_word_iff.
Qed.
Close Scope Q_scope.
