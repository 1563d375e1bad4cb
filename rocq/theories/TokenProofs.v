(* Proofs about the byte utilities and the tokenizer. *)
From Verif Require Import Base BaseLemmas StreamModel StreamSpec StreamProofs TokenModel TokenSpec.

(* ---- delimiters ---- *)
Lemma mask_scalar l : trailing_zeros (delim_mask l) = scan_delimiters_scalar l.
Proof.
  induction l as [|x r IH]; [reflexivity|]. cbn [delim_mask map trailing_zeros scan_delimiters_scalar].
  change ((x =? 58) || (x =? 44) || (x =? 123) || (x =? 125) || (x =? 91) || (x =? 93) || (x =? 10) || (x =? 13))%N with (delim_byte x).
  destruct (delim_byte x); [reflexivity|]. unfold delim_mask in IH. now rewrite IH.
Qed.
Lemma scalar_app a b : scan_delimiters_scalar (a ++ b) =
  match scan_delimiters_scalar a with Some z => Some z | None => option_map (fun p => List.length a + p) (scan_delimiters_scalar b) end.
Proof.
  induction a as [|x r IH]; cbn [app scan_delimiters_scalar List.length].
  - now destruct (scan_delimiters_scalar b).
  - destruct (delim_byte x); [reflexivity|]. rewrite IH. destruct (scan_delimiters_scalar r); [reflexivity|].
    now destruct (scan_delimiters_scalar b).
Qed.
Lemma chunks_scalar n : forall idx b total, List.length b + idx * 16 = total -> n * 16 <= List.length b ->
  scan_chunks n idx b total = option_map (fun p => idx * 16 + p) (scan_delimiters_scalar b).
Proof.
  induction n as [|n IH]; intros idx b total L M.
  - cbn [scan_chunks]. destruct b as [|x r]; [reflexivity|]. destruct (scan_delimiters_scalar (x :: r)); [|reflexivity].
    cbn [option_map]. f_equal. lia.
  - cbn [scan_chunks]. rewrite mask_scalar.
    replace (scan_delimiters_scalar b) with (scan_delimiters_scalar (firstn 16 b ++ skipn 16 b)) by now rewrite firstn_skipn. rewrite scalar_app.
    destruct (scan_delimiters_scalar (firstn 16 b)); [reflexivity|].
    assert (F : List.length (firstn 16 b) = 16) by (rewrite firstn_length; lia).
    rewrite IH; rewrite ?skipn_length; try lia. rewrite F.
    destruct (scan_delimiters_scalar (skipn 16 b)); [|reflexivity]. cbn [option_map]. f_equal. lia.
Qed.
Lemma delimiters_flag simd s : scan_delimiters simd s = scan_delimiters_scalar (encode s).
Proof.
  unfold scan_delimiters. destruct (simd && _) eqn:E; [|reflexivity].
  rewrite chunks_scalar; [|lia|]. { now destruct (scan_delimiters_scalar (encode s)). }
  pose proof (Nat.div_mod (List.length (encode s)) 16). lia.
Qed.
Lemma delim_char c : delim_byte c = true <-> In c delimiters.
Proof.
  unfold delim_byte, delimiters. rewrite !orb_true_iff, !N.eqb_eq. cbn [In]. lia.
Qed.
Lemma high_bytes c : (128 <= c)%N -> Forall (fun b => delim_byte b = false) (encode_char c).
Proof.
  intros H. assert (K : forall b, (128 <= b)%N -> delim_byte b = false).
  { intros b Hb. destruct (delim_byte b) eqn:E; [|reflexivity]. apply delim_char in E. unfold delimiters in E. cbn [In] in E.
    repeat (destruct E as [E|E]; [subst b; lia|]). contradiction. }
  unfold encode_char. destruct (N.ltb_spec c 128); [lia|].
  destruct (c <? 2048)%N; [|destruct (c <? 65536)%N]; repeat constructor; apply K; lia.
Qed.
Lemma scalar_none b : Forall (fun x => delim_byte x = false) b -> scan_delimiters_scalar b = None.
Proof. induction 1 as [|x r E _ IH]; [reflexivity|]. cbn [scan_delimiters_scalar]. now rewrite E, IH. Qed.
Lemma encode_cons c s : encode (c :: s) = encode_char c ++ encode s. Proof. reflexivity. Qed.
Lemma delim_cons c s : scan_delimiters_scalar (encode (c :: s)) =
  if delim_byte c then Some 0 else option_map (fun p => len_utf8 c + p) (scan_delimiters_scalar (encode s)).
Proof.
  rewrite encode_cons, scalar_app. destruct (N.ltb_spec c 128) as [L|L].
  - unfold encode_char, len_utf8. apply N.ltb_lt in L. rewrite L. cbn [scan_delimiters_scalar List.length].
    now destruct (delim_byte c).
  - rewrite (scalar_none _ (high_bytes c L)).
    assert (E : delim_byte c = false).
    { destruct (delim_byte c) eqn:E; [|reflexivity]. apply delim_char in E. unfold delimiters in E. cbn [In] in E.
      repeat (destruct E as [E|E]; [subst c; lia|]). contradiction. }
    rewrite E. replace (List.length (encode_char c)) with (len_utf8 c); [reflexivity|].
    unfold encode_char, len_utf8. destruct (c <? 128)%N, (c <? 2048)%N, (c <? 65536)%N; reflexivity.
Qed.
Lemma delimiters_none simd s : scan_delimiters simd s = None <-> lacks (one_of delimiters) s.
Proof.
  rewrite delimiters_flag. induction s as [|c s IH]; [split; [constructor|reflexivity]|]. rewrite delim_cons. unfold lacks, one_of in *. split.
  - intros H. destruct (delim_byte c) eqn:E; [discriminate|]. constructor.
    + intros I. apply delim_char in I. congruence.
    + apply IH. now destruct (scan_delimiters_scalar (encode s)).
  - intros H. inversion H as [|? ? H1 H2]; subst. destruct (delim_byte c) eqn:E.
    + now apply delim_char in E.
    + now rewrite (proj2 IH H2).
Qed.
Lemma delimiters_some simd s n : scan_delimiters simd s = Some n <->
  exists a c b, s = a ++ c :: b /\ lacks (one_of delimiters) a /\ In c delimiters /\ n = blen a.
Proof.
  rewrite delimiters_flag. revert n. induction s as [|c s IH]; intros n.
  - split; [discriminate|]. intros (a & c & b & H & _). destruct a; discriminate.
  - rewrite delim_cons. destruct (delim_byte c) eqn:E.
    + split.
      * intros [= <-]. exists [], c, s. repeat split; [constructor|]. now apply delim_char.
      * intros (a & d & b & H & La & I & ->). destruct a as [|x a]; [reflexivity|]. injection H as <- ->.
        inversion La as [|? ? Q1 Q2]; subst. now apply delim_char in E.
    + split.
      * intros H. destruct (scan_delimiters_scalar (encode s)) as [m|]; [|discriminate]. injection H as <-.
        destruct (proj1 (IH m) eq_refl) as (a & d & b & -> & La & I & ->). exists (c :: a), d, b.
        repeat split; auto. constructor; [|exact La]. intros I'. apply delim_char in I'. congruence.
      * intros (a & d & b & H & La & I & ->). destruct a as [|x a].
        -- injection H as <- ->. apply delim_char in I. congruence.
        -- injection H as <- ->. inversion La as [|? ? Q1 Q2]; subst.
           rewrite (proj2 (IH (blen a))); [reflexivity|]. now exists a, d, b.
Qed.

(* ---- hexadecimal ---- *)
Lemma hex_digit_to_digit c : hex_digit c = to_digit 16 c.
Proof.
  unfold hex_digit, to_digit, is_digit, is_lower, is_upper.
  destruct (N.leb_spec 48 c), (N.leb_spec c 57); cbn [andb]; try (destruct (N.ltb_spec (c - 48) 16); [reflexivity|lia]);
  destruct (N.leb_spec 97 c), (N.leb_spec c 102), (N.leb_spec c 122), (N.leb_spec 65 c), (N.leb_spec c 70), (N.leb_spec c 90); cbn [andb]; try lia; try reflexivity;
  repeat match goal with |- context [(?a <? ?b)%N] => destruct (N.ltb_spec a b); try lia end; try reflexivity; f_equal; lia.
Qed.
Lemma to_digit_ascii c d : to_digit 16 c = Some d -> (c < 128)%N /\ (d < 16)%N.
Proof.
  rewrite <- hex_digit_to_digit. unfold hex_digit. 
  destruct (N.leb_spec 48 c), (N.leb_spec c 57); cbn [andb]; try (intros [= <-]; lia);
  destruct (N.leb_spec 65 c), (N.leb_spec c 70); cbn [andb]; try (intros [= <-]; lia);
  destruct (N.leb_spec 97 c), (N.leb_spec c 102); cbn [andb]; try (intros [= <-]; lia); discriminate.
Qed.
Definition hex_go (acc : N) (s : str) (v : N) : Prop :=
  exists ds, Forall2 (fun c d => to_digit 16 c = Some d) s ds /\ v = fold_left (fun a d => a * 16 + d)%N ds acc.
Lemma digits_hex k s : forall acc v, (acc < 16 ^ N.of_nat k)%N -> k + List.length s <= 8 ->
  digits_val u32_max 16 acc s = Some v <-> hex_go acc s v.
Proof.
  revert k. induction s as [|c s IH]; intros k acc v A L.
  - cbn [digits_val]. split.
    + intros [= <-]. now exists [].
    + intros (ds & F & ->). inversion F; subst. reflexivity.
  - cbn [digits_val List.length] in *. destruct (to_digit 16 c) as [d|] eqn:E.
    + pose proof (to_digit_ascii c d E) as [_ D].
      assert (B : (acc * 16 + d < 16 ^ N.of_nat (S k))%N) by (rewrite Nat2N.inj_succ, N.pow_succ_r'; lia).
      assert (M : (16 ^ N.of_nat (S k) <= 16 ^ 8)%N) by (apply N.pow_le_mono_r; lia).
      change (16 ^ 8)%N with 4294967296%N in M. destruct (N.ltb_spec u32_max (acc * 16 + d)) as [Q|Q]; [unfold u32_max in Q; lia|].
      rewrite (IH (S k)); [|exact B|lia]. split.
      * intros (ds & F & ->). exists (d :: ds). split; [now constructor|reflexivity].
      * intros (ds & F & ->). inversion F as [|? d' ? ds' Hd Hf]; subst. rewrite E in Hd. injection Hd as <-. now exists ds'.
    + split; [discriminate|]. intros (ds & F & _). inversion F; congruence.
Qed.
Lemma direct_hex s : forall acc, Forall (fun c => (c < 128)%N) s \/ True -> hex_direct acc (encode s) = digits_val u32_max 16 acc s.
Proof.
  induction s as [|c s IH]; intros acc _; [reflexivity|]. rewrite encode_cons. destruct (N.ltb_spec c 128) as [L|L].
  - unfold encode_char. apply N.ltb_lt in L. rewrite L. cbn [app hex_direct digits_val]. rewrite hex_digit_to_digit.
    destruct (to_digit 16 c) as [d|]; [|reflexivity].
    destruct (N.ltb_spec u32_max (acc * 16)), (N.ltb_spec u32_max (acc * 16 + d)); try lia; auto.
  - cbn [digits_val]. destruct (to_digit 16 c) as [d|] eqn:E; [apply to_digit_ascii in E; lia|].
    assert (K : forall b, (128 <= b)%N -> hex_digit b = None).
    { intros b Hb. rewrite hex_digit_to_digit. destruct (to_digit 16 b) eqn:E'; [apply to_digit_ascii in E'; lia|reflexivity]. }
    unfold encode_char. destruct (N.ltb_spec c 128); [lia|].
    destruct (c <? 2048)%N; [|destruct (c <? 65536)%N]; cbn [app hex_direct]; rewrite K by lia; reflexivity.
Qed.
Lemma hex_ascii acc s v : hex_go acc s v -> blen s = List.length s.
Proof.
  intros (ds & F & _). apply blen_ascii. clear acc v. induction F as [|c d s ds E _ IH]; constructor; auto. now apply to_digit_ascii in E.
Qed.
Lemma plus_not_hex acc r v : ~ hex_go acc (43%N :: r) v.
Proof. intros (ds & F & _). inversion F as [|? d ? ? E]; subst. discriminate E. Qed.
Lemma hex_parse simd s v : parse_hex_u32 simd s = Some v <->
  (s <> [] /\ List.length s <= 8 /\ hex_value s v) \/
  (exists r, s = 43%N :: r /\ r <> [] /\ hex_value r v /\ if simd then List.length r <= 2 else List.length r <= 7).
Proof.
  change hex_value with (hex_go 0). unfold parse_hex_u32.
  destruct (Nat.eqb_spec (blen s) 0) as [Z|Z]; cbn [orb].
  { apply blen_zero in Z. subst s. split; [discriminate|]. intros [(H & _)|(r & H & _)]; [congruence|discriminate]. }
  assert (S0 : s <> []) by (intros ->; now apply Z).
  destruct (Nat.ltb_spec 8 (blen s)) as [B|B].
  { split; [discriminate|]. intros [(_ & L & H)|(r & -> & R & H & L)].
    - rewrite (hex_ascii _ _ _ H) in B. lia.
    - rewrite blen_cons, (hex_ascii _ _ _ H) in B. change (len_utf8 43) with 1 in B. destruct simd; lia. }
  pose proof (blen_length s) as BL. assert (D : forall s, List.length s <= 8 -> digits_val u32_max 16 0 s = Some v <-> hex_go 0 s v).
  { intros t Lt. apply (digits_hex 0); [reflexivity|exact Lt]. }
  destruct simd; cbn [andb]; [destruct (Nat.leb_spec 4 (blen s)) as [F|F]|].
  - rewrite direct_hex by auto. rewrite D by lia. split.
    + intros H. left. repeat split; auto. lia.
    + intros [(_ & _ & H)|(r & -> & R & H & L)]; [exact H|]. exfalso. rewrite blen_cons, (hex_ascii _ _ _ H) in F. change (len_utf8 43) with 1 in F. lia.
  - destruct s as [|c [|c2 r]]; [congruence| |].
    + cbn [parse_uint]. destruct (N.eqb_spec c 43) as [->|N1]; cbn [orb].
      { split; [discriminate|]. intros [(_ & _ & H)|(r & [= <-] & R & _)]; [now apply plus_not_hex in H|congruence]. }
      destruct (N.eqb_spec c 45) as [->|N2].
      { split; [discriminate|]. intros [(_ & _ & (ds & F' & _))|(r & Q & _)]; [|discriminate Q]. inversion F' as [|? ? ? ? E]; subst. discriminate E. }
      rewrite D by (cbn; lia). split; [intros H; left; repeat split; auto; cbn; lia|]. intros [(_ & _ & H)|(r & [= -> _] & _)]; [exact H|congruence].
    + cbn [parse_uint]. destruct (N.eqb_spec c 43) as [->|N1].
      * rewrite D by (cbn [List.length] in *; lia). split.
        -- intros H. right. exists (c2 :: r). repeat split; auto; [discriminate|]. cbn [List.length] in *. lia.
        -- intros [(_ & _ & H)|(r' & [= <-] & _ & H & _)]; [now apply plus_not_hex in H|exact H].
      * rewrite D by (cbn [List.length] in *; lia). split; [intros H; left; repeat split; auto; lia|].
        intros [(_ & _ & H)|(r' & [= -> _] & _)]; [exact H|congruence].
  - destruct s as [|c [|c2 r]]; [congruence| |].
    + cbn [parse_uint]. destruct (N.eqb_spec c 43) as [->|N1]; cbn [orb].
      { split; [discriminate|]. intros [(_ & _ & H)|(r & [= <-] & R & _)]; [now apply plus_not_hex in H|congruence]. }
      destruct (N.eqb_spec c 45) as [->|N2].
      { split; [discriminate|]. intros [(_ & _ & (ds & F' & _))|(r & Q & _)]; [|discriminate Q]. inversion F' as [|? ? ? ? E]; subst. discriminate E. }
      rewrite D by (cbn; lia). split; [intros H; left; repeat split; auto; cbn; lia|]. intros [(_ & _ & H)|(r & [= -> _] & _)]; [exact H|congruence].
    + cbn [parse_uint]. destruct (N.eqb_spec c 43) as [->|N1].
      * rewrite D by (cbn [List.length] in *; lia). split.
        -- intros H. right. exists (c2 :: r). repeat split; auto; [discriminate|]. cbn [List.length] in *. lia.
        -- intros [(_ & _ & H)|(r' & [= <-] & _ & H & _)]; [now apply plus_not_hex in H|exact H].
      * rewrite D by (cbn [List.length] in *; lia). split; [intros H; left; repeat split; auto; lia|].
        intros [(_ & _ & H)|(r' & [= -> _] & _)]; [exact H|congruence].
Qed.

(* ---- UTF-8 ---- *)
Lemma decodes_text b : decodes b = true <-> is_text b.
Proof. unfold decodes, is_text. destruct (from_utf8 b) as [s|]; split; try discriminate; eauto. intros [s H]. discriminate. Qed.
Lemma longest_valid_spec n b : n <= List.length b ->
  is_text (firstn (longest_valid n b) b) /\ longest_valid n b <= n /\ forall m, longest_valid n b < m <= n -> ~ is_text (firstn m b).
Proof.
  induction n as [|n IH]; intros L.
  - cbn. repeat split; [now exists []|lia|intros; lia].
  - cbn [longest_valid]. destruct (decodes (firstn (S n) b)) eqn:E.
    + repeat split; [now apply decodes_text|lia|intros; lia].
    + destruct IH as (H1 & H2 & H3); [lia|]. repeat split; [exact H1|lia|]. intros m Hm T.
      destruct (Nat.eq_dec m (S n)) as [->|Q]; [apply decodes_text in T; congruence|]. apply (H3 m); [lia|exact T].
Qed.
Lemma from_utf8_ascii_app a b : Forall (fun x => (x < 128)%N) a -> from_utf8 (a ++ b) = option_map (app a) (from_utf8 b).
Proof.
  induction 1 as [|x r Hx _ IH]; [cbn; now destruct (from_utf8 b)|].
  cbn [app from_utf8]. apply N.ltb_lt in Hx. rewrite Hx, IH. now destruct (from_utf8 b).
Qed.
Lemma ascii_chunks_spec n : forall b, n * 16 <= List.length b -> ascii_chunks n b = true -> Forall (fun x => (x < 128)%N) (firstn (n * 16) b).
Proof.
  induction n as [|n IH]; intros b L H; [constructor|]. cbn [ascii_chunks] in H. apply andb_true_iff in H as [H1 H2].
  apply IH in H2; [|rewrite skipn_length; lia].
  change (S n * 16) with (16 + n * 16). rewrite <- (firstn_skipn 16 b) at 1.
  rewrite firstn_app. assert (F : List.length (firstn 16 b) = 16) by (rewrite firstn_length; lia).
  rewrite F. replace (16 + n * 16 - 16) with (n * 16) by lia. apply Forall_app. split; [|exact H2].
  rewrite firstn_all2 by lia. apply Forall_forall. intros x Hx. rewrite forallb_forall in H1. apply N.ltb_lt. auto.
Qed.
Lemma validate_scalar_none b : validate_scalar b = None <-> is_text b.
Proof. unfold validate_scalar. rewrite <- decodes_text. destruct (decodes b); split; congruence. Qed.
Lemma validate_none simd b : validate_utf8_batch simd b = None <-> is_text b.
Proof.
  unfold validate_utf8_batch. destruct (simd && _); [|apply validate_scalar_none].
  destruct (ascii_chunks _ b) eqn:E; [|apply validate_scalar_none].
  rewrite validate_scalar_none. apply ascii_chunks_spec in E.
  2:{ pose proof (Nat.div_mod (List.length b) 16). lia. }
  unfold is_text. replace (from_utf8 b) with (from_utf8 (firstn (List.length b / 16 * 16) b ++ skipn (List.length b / 16 * 16) b)) by now rewrite firstn_skipn.
  rewrite from_utf8_ascii_app by exact E.
  destruct (from_utf8 (skipn _ b)) as [s|]; cbn [option_map]; split; intros [t H]; try discriminate; eauto.
Qed.
Lemma validate_position b p : validate_utf8_batch false b = Some p ->
  ~ is_text b /\ p < List.length b /\ is_text (firstn p b) /\ forall m, p < m <= List.length b -> ~ is_text (firstn m b).
Proof.
  unfold validate_utf8_batch, validate_scalar. cbn [andb]. destruct (decodes b) eqn:E; [discriminate|]. intros [= <-].
  assert (NT : ~ is_text b) by (intros T; apply decodes_text in T; congruence).
  destruct (longest_valid_spec (List.length b) b) as (H1 & H2 & H3); [lia|]. repeat split; auto.
  destruct (Nat.eq_dec (longest_valid (List.length b) b) (List.length b)) as [Q|Q]; [|lia].
  rewrite Q, firstn_all in H1. contradiction.
Qed.
