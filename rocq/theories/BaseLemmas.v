(* General lemmas about the string library of Base.v. *)
From Verif Require Import Base.
Ltac Zify.zify_post_hook ::= Z.div_mod_to_equations.

(* Replace every ASCII literal by its list of code points. *)
Ltac lits := repeat match goal with
  | |- context [lit ?s] => let v := eval vm_compute in (lit s) in change (lit s) with v
  | H : context [lit ?s] |- _ => let v := eval vm_compute in (lit s) in change (lit s) with v in H
  end.

(* Replace the byte length of every ASCII literal by its value. *)
Ltac blits := repeat match goal with
  | |- context [blen (lit ?s)] => let v := eval vm_compute in (blen (lit s)) in change (blen (lit s)) with v
  | H : context [blen (lit ?s)] |- _ => let v := eval vm_compute in (blen (lit s)) in change (blen (lit s)) with v in H
  end.

Lemma len_utf8_pos c : 1 <= len_utf8 c <= 4.
Proof. unfold len_utf8. destruct (c <? 128)%N, (c <? 2048)%N, (c <? 65536)%N; lia. Qed.

Lemma len_utf8_ascii c : (c < 128)%N -> len_utf8 c = 1.
Proof. unfold len_utf8. intros H. destruct (N.ltb_spec c 128); lia. Qed.

Lemma blen_app a b : blen (a ++ b) = blen a + blen b.
Proof. induction a as [|c a IH]; cbn; lia. Qed.

Lemma blen_cons c s : blen (c :: s) = len_utf8 c + blen s.
Proof. reflexivity. Qed.

Lemma blen_zero s : blen s = 0 <-> s = [].
Proof. destruct s as [|c s]; cbn; split; intros H; try easy. pose proof (len_utf8_pos c). lia. Qed.

Lemma blen_length s : List.length s <= blen s.
Proof. induction s as [|c s IH]; cbn; [lia|]. pose proof (len_utf8_pos c). lia. Qed.

Lemma blen_ascii s : Forall (fun c => (c < 128)%N) s -> blen s = List.length s.
Proof. induction 1 as [|c s H _ IH]; cbn; [reflexivity|]. rewrite len_utf8_ascii by exact H. lia. Qed.

Lemma blen_rev s : blen (rev s) = blen s.
Proof. induction s as [|c s IH]; cbn; [reflexivity|]. rewrite blen_app, IH. cbn. lia. Qed.

Lemma str_eqb_eq a b : str_eqb a b = true <-> a = b.
Proof.
  revert b. induction a as [|x a IH]; intros [|y b]; cbn; try easy.
  rewrite andb_true_iff, N.eqb_eq, IH. split; [intros [-> ->]; reflexivity|intros H; inversion H; auto].
Qed.
Lemma str_eqb_refl a : str_eqb a a = true.
Proof. apply str_eqb_eq. reflexivity. Qed.
Lemma str_eqb_neq a b : str_eqb a b = false <-> a <> b.
Proof.
  destruct (str_eqb a b) eqn:E.
  - apply str_eqb_eq in E. split; [discriminate|congruence].
  - split; [|reflexivity]. intros _ H. apply str_eqb_eq in H. congruence.
Qed.

Lemma cut_0 s : cut s 0 = Some ([], s).
Proof. destruct s; reflexivity. Qed.

Lemma cut_app a b : cut (a ++ b) (blen a) = Some (a, b).
Proof.
  induction a as [|c a IH]; cbn [app blen].
  - apply cut_0.
  - pose proof (len_utf8_pos c) as Hc.
    destruct (len_utf8 c + blen a) eqn:E; [lia|]. cbn [cut]. rewrite <- E.
    destruct (Nat.leb_spec (len_utf8 c) (len_utf8 c + blen a)); [|lia].
    replace (len_utf8 c + blen a - len_utf8 c) with (blen a) by lia.
    rewrite IH. reflexivity.
Qed.

Lemma cut_spec s n a b : cut s n = Some (a, b) <-> s = a ++ b /\ blen a = n.
Proof.
  split.
  - revert n a b. induction s as [|c s IH]; intros n a b H.
    + destruct n; cbn in H; inversion H; subst; auto.
    + destruct n as [|n]; [cbn in H; inversion H; subst; auto|].
      cbn [cut] in H. destruct (Nat.leb_spec (len_utf8 c) (S n)); [|discriminate].
      destruct (cut s (S n - len_utf8 c)) as [[a' b']|] eqn:E; [|discriminate].
      inversion H; subst. apply IH in E as [-> Hl]. split; [reflexivity|]. cbn. lia.
  - intros [-> <-]. apply cut_app.
Qed.

Lemma cut_all s : cut s (blen s) = Some (s, []).
Proof. rewrite <- (app_nil_r s) at 1. apply cut_app. Qed.

Lemma cut_none_len s n : blen s < n -> cut s n = None.
Proof.
  intros H. destruct (cut s n) as [[a b]|] eqn:E; [|reflexivity].
  apply cut_spec in E as [-> <-]. rewrite blen_app in H. lia.
Qed.

Lemma cut_ascii s n : Forall (fun c => (c < 128)%N) s -> n <= List.length s ->
  cut s n = Some (firstn n s, skipn n s).
Proof.
  intros H Hn. apply cut_spec. split; [symmetry; apply firstn_skipn|].
  rewrite blen_ascii.
  - rewrite firstn_length. lia.
  - apply Forall_forall. intros x Hx. rewrite Forall_forall in H. apply H.
    rewrite <- (firstn_skipn n s). apply in_or_app. auto.
Qed.

Lemma slice_from_app a b : slice_from (a ++ b) (blen a) = Some b.
Proof. unfold slice_from. rewrite cut_app. reflexivity. Qed.
Lemma slice_to_app a b : slice_to (a ++ b) (blen a) = Some a.
Proof. unfold slice_to. rewrite cut_app. reflexivity. Qed.
Lemma slice_from_spec s n b : slice_from s n = Some b <-> exists a, s = a ++ b /\ blen a = n.
Proof.
  unfold slice_from. split.
  - destruct (cut s n) as [[a b']|] eqn:E; cbn; [|discriminate]. intros H; inversion H; subst.
    apply cut_spec in E. eauto.
  - intros (a & -> & <-). rewrite cut_app. reflexivity.
Qed.
Lemma slice_to_spec s n a : slice_to s n = Some a <-> exists b, s = a ++ b /\ blen a = n.
Proof.
  unfold slice_to. split.
  - destruct (cut s n) as [[a' b']|] eqn:E; cbn; [|discriminate]. intros H; inversion H; subst.
    apply cut_spec in E. eauto.
  - intros (b & -> & <-). rewrite cut_app. reflexivity.
Qed.
Lemma slice_app a m b : slice (a ++ m ++ b) (blen a) (blen a + blen m) = Some m.
Proof.
  unfold slice. destruct (Nat.ltb_spec (blen a + blen m) (blen a)); [lia|].
  rewrite app_assoc, <- blen_app, cut_app. apply slice_from_app.
Qed.
Lemma slice_spec s i j m : slice s i j = Some m <->
  exists a b, s = a ++ m ++ b /\ blen a = i /\ i + blen m = j.
Proof.
  split.
  - unfold slice. destruct (Nat.ltb_spec j i); [discriminate|].
    destruct (cut s j) as [[p q]|] eqn:E; [|discriminate]. intros H1.
    apply cut_spec in E as [-> <-]. apply slice_from_spec in H1 as (a & -> & <-).
    exists a, q. rewrite <- app_assoc, blen_app. auto.
  - intros (a & b & -> & <- & <-). apply slice_app.
Qed.

Lemma is_boundary_spec s n : is_boundary s n = true <-> exists a b, s = a ++ b /\ blen a = n.
Proof.
  unfold is_boundary. destruct (cut s n) as [[a b]|] eqn:E.
  - apply cut_spec in E. split; eauto.
  - split; [discriminate|]. intros (a & b & -> & <-). rewrite cut_app in E. discriminate.
Qed.

(* Two prefixes of one string with comparable byte lengths are comparable. *)
Lemma app_prefix_blen (a b c d : str) : a ++ b = c ++ d -> blen a <= blen c ->
  exists m, c = a ++ m /\ b = m ++ d.
Proof.
  revert c. induction a as [|x a IH]; intros c H Hl.
  - exists c. cbn in *. auto.
  - destruct c as [|y c].
    + cbn in Hl. pose proof (len_utf8_pos x). lia.
    + cbn in H. inversion H; subst. cbn in Hl.
      destruct (IH c H2) as (m & -> & ->); [lia|]. exists m. auto.
Qed.
Lemma app_inj_blen (a b c d : str) : a ++ b = c ++ d -> blen a = blen c -> a = c /\ b = d.
Proof.
  intros H Hl. destruct (app_prefix_blen a b c d H) as (m & -> & ->); [lia|].
  rewrite blen_app in Hl. assert (blen m = 0) by lia. apply blen_zero in H0. subst.
  rewrite app_nil_r. auto.
Qed.

(* find_char *)
Lemma find_char_some p s a b : find_char p s = Some (a, b) <->
  s = a ++ b /\ forallb (fun c => negb (p c)) a = true /\ (exists c r, b = c :: r /\ p c = true).
Proof.
  split.
  - revert a b. induction s as [|c s IH]; intros a b H; cbn in H; [discriminate|].
    destruct (p c) eqn:Ep.
    + inversion H; subst. split; [reflexivity|]. split; [reflexivity|]. eauto.
    + destruct (find_char p s) as [[a' b']|]; [|discriminate]. inversion H; subst.
      destruct (IH a' b eq_refl) as (-> & Ha & Hb). split; [reflexivity|].
      split; [cbn; rewrite Ep; exact Ha|exact Hb].
  - intros (-> & Ha & (c & r & -> & Hc)). induction a as [|x a IH]; cbn in *.
    + rewrite Hc. reflexivity.
    + apply andb_prop in Ha as [Hx Ha]. destruct (p x); [discriminate|]. rewrite IH by exact Ha. reflexivity.
Qed.
Lemma find_char_none p s : find_char p s = None <-> forallb (fun c => negb (p c)) s = true.
Proof.
  induction s as [|c s IH]; cbn; [easy|]. destruct (p c); cbn; [easy|].
  destruct (find_char p s) as [[a b]|]; split; intros H; try easy.
  - apply IH in H. discriminate.
  - apply IH. reflexivity.
Qed.

(* strip_prefix / starts_with *)
Lemma strip_prefix_some p s r : strip_prefix p s = Some r <-> s = p ++ r.
Proof.
  revert s. induction p as [|x p IH]; intros s; cbn.
  - split; [intros H; inversion H; reflexivity|intros ->; reflexivity].
  - destruct s as [|y s]; [split; discriminate|]. destruct (N.eqb_spec x y).
    + subst. rewrite IH. split; [intros ->; reflexivity|intros H; inversion H; reflexivity].
    + split; [discriminate|]. intros H; inversion H; congruence.
Qed.
Lemma starts_with_spec p s : starts_with p s = true <-> exists r, s = p ++ r.
Proof.
  unfold starts_with. destruct (strip_prefix p s) as [r|] eqn:E.
  - apply strip_prefix_some in E. split; eauto.
  - split; [discriminate|]. intros [r H]. apply strip_prefix_some in H. congruence.
Qed.
Lemma starts_with_app p s : starts_with p (p ++ s) = true.
Proof. apply starts_with_spec. eauto. Qed.
Lemma ends_with_spec p s : ends_with p s = true <-> exists r, s = r ++ p.
Proof.
  unfold ends_with. rewrite starts_with_spec. split; intros [r H].
  - exists (rev r). rewrite <- (rev_involutive s), H, rev_app_distr, rev_involutive. reflexivity.
  - exists (rev r). rewrite H, rev_app_distr. reflexivity.
Qed.

(* split_on and join *)
Lemma split_on_nonempty p s : split_on p s <> [].
Proof. destruct s as [|c s]; cbn; [discriminate|]. destruct (p c); [discriminate|]. destruct (split_on p s); discriminate. Qed.

Lemma split_on_none p s : forallb (fun c => negb (p c)) s = true -> split_on p s = [s].
Proof.
  induction s as [|c s IH]; cbn; [reflexivity|]. intros H. apply andb_prop in H as [Hc Hs].
  destruct (p c); [discriminate|]. rewrite IH by exact Hs. reflexivity.
Qed.
Lemma split_on_app p a c b : forallb (fun c => negb (p c)) a = true -> p c = true ->
  split_on p (a ++ c :: b) = a :: split_on p b.
Proof.
  induction a as [|x a IH]; cbn; intros Ha Hc.
  - rewrite Hc. reflexivity.
  - apply andb_prop in Ha as [Hx Ha]. destruct (p x); [discriminate|]. rewrite IH by assumption. reflexivity.
Qed.
Lemma join_cons sep x l : l <> [] -> join sep (x :: l) = x ++ sep ++ join sep l.
Proof. destruct l; [congruence|reflexivity]. Qed.
Lemma split_on_join p c l : p c = true -> l <> [] ->
  Forall (fun w => forallb (fun c => negb (p c)) w = true) l ->
  split_on p (join [c] l) = l.
Proof.
  intros Hc Hne H. induction H as [|w l Hw Hl IH]; [congruence|].
  destruct l as [|w' l].
  - cbn. apply split_on_none. exact Hw.
  - rewrite join_cons by discriminate. cbn [app]. rewrite split_on_app by assumption.
    rewrite IH by discriminate. reflexivity.
Qed.
Lemma join_split_on p c s : (forall x, p x = true <-> x = c) -> join [c] (split_on p s) = s.
Proof.
  intros Hp. induction s as [|x s IH]; [reflexivity|]. cbn [split_on]. destruct (p x) eqn:E.
  - apply Hp in E. subst. rewrite join_cons by apply split_on_nonempty. rewrite IH. reflexivity.
  - destruct (split_on p s) as [|w ws] eqn:Es; [exfalso; eapply split_on_nonempty; eauto|].
    destruct ws as [|w' ws]; cbn in *; rewrite <- IH; reflexivity.
Qed.

(* drop_while / drop_end *)
Lemma drop_while_spec p s : exists a, s = a ++ drop_while p s /\ forallb p a = true /\
  match drop_while p s with [] => True | c :: _ => p c = false end.
Proof.
  induction s as [|c s IH]; cbn; [exists []; auto|]. destruct (p c) eqn:E.
  - destruct IH as (a & H1 & H2 & H3). exists (c :: a). cbn. rewrite E, H2. split; [congruence|auto].
  - exists []. cbn. auto.
Qed.
Lemma drop_while_id p s : match s with [] => True | c :: _ => p c = false end -> drop_while p s = s.
Proof. destruct s as [|c s]; cbn; [reflexivity|]. intros ->. reflexivity. Qed.
Lemma drop_while_app_all p a b : forallb p a = true -> drop_while p (a ++ b) = drop_while p b.
Proof. induction a as [|c a IH]; cbn; [reflexivity|]. intros H. apply andb_prop in H as [-> H]. auto. Qed.
Lemma drop_while_idem p s : drop_while p (drop_while p s) = drop_while p s.
Proof. apply drop_while_id. destruct (drop_while_spec p s) as (a & _ & _ & H). exact H. Qed.

Lemma drop_end_rev p s : drop_end p s = rev (drop_while p (rev s)).
Proof.
  induction s as [|c s IH]; [reflexivity|]. cbn [drop_end rev].
  assert (G : forall l x, drop_while p (l ++ [x]) =
     match drop_while p l with [] => if p x then [] else [x] | l' => l' ++ [x] end).
  { clear. induction l as [|y l IH]; intros x; cbn.
    - reflexivity.
    - destruct (p y); [apply IH|reflexivity]. }
  rewrite G, IH. destruct (drop_while p (rev s)) as [|y l] eqn:E.
  - cbn. destruct (p c); reflexivity.
  - rewrite rev_app_distr. cbn [rev app].
    destruct (rev l ++ [y]) eqn:F; [|reflexivity].
    destruct (rev l); discriminate.
Qed.
Lemma drop_end_spec p s : exists b, s = drop_end p s ++ b /\ forallb p b = true /\
  (drop_end p s = [] \/ exists l c, drop_end p s = l ++ [c] /\ p c = false).
Proof.
  rewrite drop_end_rev. destruct (drop_while_spec p (rev s)) as (a & H1 & H2 & H3).
  exists (rev a). split; [|split].
  - rewrite <- rev_app_distr, <- H1, rev_involutive. reflexivity.
  - rewrite forallb_forall in *. intros x Hx. apply H2. apply in_rev. exact Hx.
  - destruct (drop_while p (rev s)) as [|c l]; [left; reflexivity|].
    right. exists (rev l), c. cbn. auto.
Qed.
Lemma drop_end_id p s : (s = [] \/ exists l c, s = l ++ [c] /\ p c = false) -> drop_end p s = s.
Proof.
  rewrite drop_end_rev. intros [->|(l & c & -> & H)]; [reflexivity|].
  rewrite rev_app_distr. cbn. rewrite H. cbn. rewrite rev_involutive. reflexivity.
Qed.
Lemma drop_end_app_all p a b : forallb p b = true -> drop_end p (a ++ b) = drop_end p a.
Proof.
  intros H. rewrite !drop_end_rev, rev_app_distr, drop_while_app_all; [reflexivity|].
  rewrite forallb_forall in *. intros x Hx. apply H. apply in_rev. exact Hx.
Qed.

(* A string is trimmed when it neither starts nor ends with whitespace. *)
Definition trimmed (s : str) : Prop := trim s = s.

Lemma trim_spec s : exists a b, s = a ++ trim s ++ b /\ forallb is_ws a = true /\ forallb is_ws b = true.
Proof.
  destruct (drop_while_spec is_ws s) as (a & H1 & H2 & _).
  destruct (drop_end_spec is_ws (trim_start s)) as (b & H3 & H4 & _).
  exists a, b. unfold trim, trim_end, trim_start in *. rewrite <- H3. auto.
Qed.

Lemma trim_end_start_head s : match trim_end s with [] => True | c :: _ => match s with [] => False | d :: _ => c = d end end.
Proof.
  destruct (drop_end_spec is_ws s) as (b & H & _ & _). unfold trim_end.
  destruct (drop_end is_ws s) as [|c l]; [exact I|]. destruct s; cbn in H; congruence.
Qed.
Lemma trim_idem s : trim (trim s) = trim s.
Proof.
  assert (Hh : match trim s with [] => True | c :: _ => is_ws c = false end).
  { unfold trim. pose proof (trim_end_start_head (trim_start s)) as H.
    destruct (trim_end (trim_start s)) as [|c l]; [exact I|].
    destruct (drop_while_spec is_ws s) as (a & _ & _ & H3). unfold trim_start in *.
    destruct (drop_while is_ws s); [contradiction|congruence]. }
  unfold trim at 1, trim_start. rewrite (drop_while_id _ _ Hh).
  unfold trim, trim_end. apply drop_end_id.
  destruct (drop_end_spec is_ws (trim_start s)) as (b & _ & _ & H). exact H.
Qed.
Lemma trimmed_nil : trimmed []. Proof. reflexivity. Qed.

Lemma trim_app_ws a s b : forallb is_ws a = true -> forallb is_ws b = true -> trimmed s -> trim (a ++ s ++ b) = s.
Proof.
  intros Ha Hb Hs. unfold trim, trim_start. rewrite drop_while_app_all by exact Ha.
  destruct s as [|c s].
  - cbn. rewrite <- (app_nil_r b) at 1. rewrite drop_while_app_all by exact Hb. reflexivity.
  - assert (Hc : is_ws c = false).
    { destruct (is_ws c) eqn:E; [|reflexivity]. exfalso. unfold trimmed, trim, trim_start in Hs.
      cbn [drop_while] in Hs. rewrite E in Hs.
      destruct (drop_while_spec is_ws s) as (x & Hx & _ & _).
      destruct (drop_end_spec is_ws (drop_while is_ws s)) as (y & Hy & _ & _).
      unfold trim_end in Hs. rewrite Hs in Hy.
      apply (f_equal (@List.length N)) in Hx, Hy. rewrite app_length in Hx, Hy. cbn in *. lia. }
    cbn [app drop_while]. rewrite Hc. unfold trim_end. rewrite app_comm_cons, drop_end_app_all by exact Hb.
    unfold trimmed, trim, trim_start in Hs. cbn [drop_while] in Hs. rewrite Hc in Hs. exact Hs.
Qed.

(* Numbers *)
Lemma size_nat_bound n : (n < 2 ^ N.of_nat (N.size_nat n))%N.
Proof.
  destruct n as [|p]; [cbn; lia|]. cbn [N.size_nat].
  induction p as [p IH|p IH|]; cbn [Pos.size_nat]; rewrite ?Nat2N.inj_succ, ?N.pow_succ_r'; cbn; try lia.
Qed.
Lemma dec_digits_val mx f n : (n < 2 ^ N.of_nat (S f))%N ->
  exists k, forall a r, (a * 10 ^ k + n <= mx)%N ->
     digits_val mx 10 a (dec_digits (S f) n ++ r) = digits_val mx 10 (a * 10 ^ k + n) r.
Proof.
  revert n. induction f as [|f IH]; intros n Hn; cbn [dec_digits].
  - exists 1%N. intros a r Ha. change (2 ^ N.of_nat 1)%N with 2%N in Hn.
    destruct (N.ltb_spec n 10); [|lia]. cbn [app digits_val]. unfold to_digit, is_digit.
    destruct (N.leb_spec 48 (48 + n)); [|lia]. destruct (N.leb_spec (48 + n) 57); [|lia]. cbn [andb].
    replace (48 + n - 48)%N with n by lia. destruct (N.ltb_spec n 10); [|lia].
    rewrite N.pow_1_r in *. destruct (N.ltb_spec mx (a * 10 + n)); [lia|]. reflexivity.
  - destruct (N.ltb_spec n 10) as [Hlt|Hge].
    + exists 1%N. intros a r Ha. cbn [app digits_val]. unfold to_digit, is_digit.
      destruct (N.leb_spec 48 (48 + n)); [|lia]. destruct (N.leb_spec (48 + n) 57); [|lia]. cbn [andb].
      replace (48 + n - 48)%N with n by lia. destruct (N.ltb_spec n 10); [|lia].
      rewrite N.pow_1_r in *. destruct (N.ltb_spec mx (a * 10 + n)); [lia|]. reflexivity.
    + assert (Hq : (n / 10 < 2 ^ N.of_nat (S f))%N).
      { rewrite Nat2N.inj_succ, N.pow_succ_r' in Hn. apply N.div_lt_upper_bound; lia. }
      destruct (IH (n / 10)%N Hq) as (k & H1). cbn [dec_digits] in H1.
      exists (N.succ k). intros a r Ha. rewrite N.pow_succ_r' in *. rewrite <- app_assoc.
      pose proof (N.div_mod n 10 ltac:(lia)) as Hdm. pose proof (N.mod_lt n 10 ltac:(lia)) as Hm.
      set (m := (n mod 10)%N) in *. set (q := (n / 10)%N) in *.
      assert (HX : (a * (10 * 10 ^ k) = 10 * (a * 10 ^ k))%N) by (rewrite !N.mul_assoc; f_equal; apply N.mul_comm).
      set (z := (a * 10 ^ k)%N) in *.
      rewrite H1 by (fold z; lia). fold z. cbn [app digits_val]. unfold to_digit, is_digit.
      destruct (N.leb_spec 48 (48 + m)); [|lia]. destruct (N.leb_spec (48 + m) 57); [|lia]. cbn [andb].
      replace (48 + m - 48)%N with m by lia. destruct (N.ltb_spec m 10); [|lia].
      rewrite HX in *. replace ((z + q) * 10 + m)%N with (10 * z + n)%N by lia.
      destruct (N.ltb_spec mx (10 * z + n)); [lia|]. reflexivity.
Qed.

Lemma dec_digits_all f n : (n < 2 ^ N.of_nat f)%N -> forallb is_digit (dec_digits f n) = true.
Proof.
  revert n. induction f as [|f IH]; intros n H; [reflexivity|]. cbn [dec_digits].
  destruct (N.ltb_spec n 10).
  - cbn. unfold is_digit. destruct (N.leb_spec 48 (48 + n)), (N.leb_spec (48 + n) 57); lia.
  - rewrite forallb_app, IH.
    + cbn. unfold is_digit. pose proof (N.mod_lt n 10 ltac:(lia)).
      destruct (N.leb_spec 48 (48 + n mod 10)), (N.leb_spec (48 + n mod 10) 57); lia.
    + rewrite Nat2N.inj_succ, N.pow_succ_r' in H. apply N.div_lt_upper_bound; lia.
Qed.
Lemma to_dec_fuel n : (n < 2 ^ N.of_nat (S (N.size_nat n)))%N.
Proof. pose proof (size_nat_bound n). rewrite Nat2N.inj_succ, N.pow_succ_r'. lia. Qed.

Lemma to_dec_digits n : forallb is_digit (to_dec n) = true.
Proof. apply dec_digits_all, to_dec_fuel. Qed.
Lemma to_dec_nonempty n : to_dec n <> [].
Proof. unfold to_dec. cbn [dec_digits]. destruct (n <? 10)%N; [discriminate|]. destruct (dec_digits _ _); discriminate. Qed.
Lemma to_dec_val mx n : (n <= mx)%N -> digits_val mx 10 0 (to_dec n) = Some n.
Proof.
  intros H. destruct (dec_digits_val mx (N.size_nat n) n (to_dec_fuel n)) as (k & H1).
  specialize (H1 0%N []). rewrite app_nil_r in H1. unfold to_dec. rewrite H1; cbn; f_equal; lia.
Qed.
Lemma digits_val_zeros mx k s : digits_val mx 10 0 (repeat 48%N k ++ s) = digits_val mx 10 0 s.
Proof.
  induction k as [|k IH]; [reflexivity|]. cbn [repeat app digits_val].
  change (to_digit 10 48%N) with (Some 0%N). cbn [digits_val].
  destruct (N.ltb_spec mx (0 * 10 + 0)); [lia|]. exact IH.
Qed.
Lemma parse_uint_digits mx s : s <> [] -> forallb is_digit s = true -> parse_uint mx 10 s = digits_val mx 10 0 s.
Proof.
  destruct s as [|c s]; [congruence|]. intros _ H. cbn in H. apply andb_prop in H as [Hc _].
  unfold is_digit in Hc. unfold parse_uint.
  destruct s; destruct (N.eqb_spec c 43); try lia; destruct (N.eqb_spec c 45); try lia; reflexivity.
Qed.
Lemma repeat_digits k : forallb is_digit (repeat 48%N k) = true.
Proof. induction k; cbn; auto. Qed.
Lemma dec_pad_digits w n : forallb is_digit (dec_pad w n) = true.
Proof. unfold dec_pad, pad_left. rewrite forallb_app, repeat_digits, to_dec_digits. reflexivity. Qed.
Lemma dec_pad_nonempty w n : dec_pad w n <> [].
Proof. unfold dec_pad, pad_left. pose proof (to_dec_nonempty n). destruct (repeat _ _); [assumption|discriminate]. Qed.
Lemma parse_dec_pad mx w n : (n <= mx)%N -> parse_uint mx 10 (dec_pad w n) = Some n.
Proof.
  intros H. rewrite parse_uint_digits by (apply dec_pad_nonempty || apply dec_pad_digits).
  unfold dec_pad, pad_left. rewrite digits_val_zeros. apply to_dec_val. exact H.
Qed.
Lemma parse_to_dec mx n : (n <= mx)%N -> parse_uint mx 10 (to_dec n) = Some n.
Proof.
  intros H. rewrite parse_uint_digits by (apply to_dec_nonempty || apply to_dec_digits).
  apply to_dec_val. exact H.
Qed.
Lemma digits_not p s : forallb is_digit s = true -> (forall c, is_digit c = true -> p c = false) ->
  forallb (fun c => negb (p c)) s = true.
Proof.
  intros H Hp. rewrite forallb_forall in *. intros x Hx. rewrite (Hp x (H x Hx)). reflexivity.
Qed.
