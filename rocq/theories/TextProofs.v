From Verif Require Import BaseLemmas NumProofs TagSpec TagProofs.

(* ---- drawing mode ---- *)
Lemma forall_digit s : forallb is_digit s = true <-> Forall digit s.
Proof. rewrite forallb_forall, Forall_forall. split; intros H x I; apply digit_iff, H, I. Qed.
Lemma digits_10 mx s v : digits_val mx 10 0 s = Some v <-> Forall digit s /\ dec_value s = v /\ (v <= mx)%N.
Proof. rewrite digits_val_dec by lia. rewrite forall_digit. reflexivity. Qed.
Lemma i32_iff s z : ~ In 43%N s -> parse_i32 s = Some z <-> i32_numeral s z.
Proof.
  intros NP. unfold i32_numeral. destruct s as [|c r].
  { cbn. split; [discriminate|]. intros (_ & ds & NE & _ & [[E _]|[E _]]); congruence. }
  assert (C43 : (c =? 43)%N = false) by (apply N.eqb_neq; intros ->; apply NP; now left).
  assert (POS : forall s, option_map Z.of_N (digits_val 2147483647 10 0 s) = Some z <-> Forall digit s /\ z = Z.of_N (dec_value s) /\ (z <= 2147483647)%Z).
  { intros s. destruct (digits_val 2147483647 10 0 s) as [v|] eqn:E; cbn [option_map].
    - apply digits_10 in E as (D & V & M). split; [intros Q; injection Q as <-; subst v; split; [exact D|]; split; [reflexivity|lia]|intros (_ & -> & _); subst v; reflexivity].
    - split; [discriminate|]. intros (D & -> & M). exfalso.
      assert (digits_val 2147483647 10 0 s = Some (dec_value s)) by (apply digits_10; split; [exact D|]; split; [reflexivity|lia]). congruence. }
  assert (NEG : forall s, option_map (fun v => (- Z.of_N v)%Z) (digits_val 2147483648 10 0 s) = Some z <-> Forall digit s /\ z = (- Z.of_N (dec_value s))%Z /\ (-2147483648 <= z)%Z).
  { intros s. destruct (digits_val 2147483648 10 0 s) as [v|] eqn:E; cbn [option_map].
    - apply digits_10 in E as (D & V & M). split; [intros Q; injection Q as <-; subst v; split; [exact D|]; split; [reflexivity|lia]|intros (_ & -> & _); subst v; reflexivity].
    - split; [discriminate|]. intros (D & -> & M). exfalso.
      assert (digits_val 2147483648 10 0 s = Some (dec_value s)) by (apply digits_10; split; [exact D|]; split; [reflexivity|lia]). congruence. }
  assert (PS : (c =? 45)%N = false -> (option_map Z.of_N (digits_val 2147483647 10 0 (c :: r)) = Some z <->
    (-2147483648 <= z <= 2147483647)%Z /\ exists ds, ds <> [] /\ Forall digit ds /\ (c :: r = ds /\ z = Z.of_N (dec_value ds) \/ c :: r = 45%N :: ds /\ z = (- Z.of_N (dec_value ds))%Z))).
  { intros C45. rewrite POS. split.
    - intros (D & -> & M). split; [lia|]. exists (c :: r). split; [discriminate|]. split; [exact D|]. left. now split.
    - intros (B & ds & NE & D & [[<- ->]|[E _]]); [split; [exact D|]; split; [reflexivity|lia]|]. injection E as -> _. discriminate. }
  unfold parse_i32. rewrite C43. destruct r as [|x r].
  - cbn [orb]. destruct (c =? 45)%N eqn:C45; [|apply PS; reflexivity].
    apply N.eqb_eq in C45. subst c. split; [discriminate|]. intros (_ & ds & NE & D & [[<- _]|[E _]]); [|injection E as <-; congruence].
    apply Forall_inv in D. unfold digit in D. lia.
  - destruct (c =? 45)%N eqn:C45; [|apply PS; reflexivity].
    apply N.eqb_eq in C45. subst c. rewrite NEG. split.
    + intros (D & -> & M). split; [lia|]. exists (x :: r). split; [discriminate|]. split; [exact D|]. right. now split.
    + intros (B & ds & NE & D & [[<- _]|[E ->]]); [apply Forall_inv in D; unfold digit in D; lia|]. injection E as <-. split; [exact D|]. split; [reflexivity|lia].
Qed.
Lemma num_iff c : is_num c = true <-> numeral_char c.
Proof. unfold is_num, numeral_char. rewrite orb_true_iff, digit_iff, N.eqb_eq. reflexivity. Qed.
Lemma take_drop (p : char -> bool) s : s = take_while p s ++ drop_while p s.
Proof. induction s as [|c s IH]; [reflexivity|]. cbn. destruct (p c); [cbn; congruence|reflexivity]. Qed.
Lemma take_num s : Forall numeral_char (take_while is_num s).
Proof. induction s as [|c s IH]; cbn; [constructor|]. destruct (is_num c) eqn:E; [constructor; [now apply num_iff|exact IH]|constructor]. Qed.
Lemma drop_num s : ~ starts numeral_char (drop_while is_num s).
Proof.
  induction s as [|c s IH]; cbn; [intros (? & ? & ? & _); discriminate|]. destruct (is_num c) eqn:E; [exact IH|].
  intros (x & y & Q & N). injection Q as <- <-. apply num_iff in N. congruence.
Qed.
Lemma drop_length (p : char -> bool) s : List.length (drop_while p s) <= List.length s.
Proof. induction s as [|c s IH]; cbn; [lia|]. destruct (p c); cbn; lia. Qed.
Lemma num_split n v n' v' : Forall numeral_char n -> ~ starts numeral_char v -> Forall numeral_char n' -> ~ starts numeral_char v' -> n ++ v = n' ++ v' -> n = n' /\ v = v'.
Proof.
  revert n'. induction n as [|c n IH]; intros [|c' n'] A B A' B' E; cbn [app] in E.
  - now split.
  - exfalso. apply B. exists c', (n' ++ v'). split; [exact E|exact (Forall_inv A')].
  - exfalso. apply B'. exists c, (n ++ v). split; [now symmetry|exact (Forall_inv A)].
  - injection E as -> E. destruct (IH n' (Forall_inv_tail A) B (Forall_inv_tail A') B' E) as [-> ->]. now split.
Qed.
(* the occurrences of \p in a text that starts with one *)
Lemma p_tag_head n v u' n' v' : Forall numeral_char n -> ~ starts numeral_char v -> p_tag ([92; 112]%N ++ n ++ v) u' n' v' ->
  (u' = [] /\ n' = n /\ v' = v) \/ exists u'', u' = [92; 112]%N ++ n ++ u'' /\ p_tag v u'' n' v'.
Proof.
  intros A B (E & A' & B'). destruct u' as [|a [|b u']].
  - left. cbn [app] in E. injection E as E. destruct (num_split _ _ _ _ A B A' B' E). auto.
  - cbn [app] in E. injection E as _ E. discriminate.
  - right. cbn [app] in E. injection E as <- <- E. clear -E A A' B'. revert u' E. induction n as [|c n IH]; intros u' E.
    + exists u'. split; [reflexivity|]. split; [exact E|now split].
    + cbn [app] in E. destruct u' as [|c' u'].
      * cbn [app] in E. injection E as -> _. apply Forall_inv in A. destruct A as [A|A]; [unfold digit in A; lia|discriminate].
      * cbn [app] in E. injection E as <- E. destruct (IH (Forall_inv_tail A) u' E) as (w & Q & P).
        exists w. split; [|exact P]. cbn [app] in Q |- *. injection Q as ->. reflexivity.
Qed.
Lemma no_plus n : Forall numeral_char n -> ~ In 43%N n.
Proof. rewrite Forall_forall. intros H I. apply H in I. destruct I as [I|I]; [unfold digit in I; lia|discriminate]. Qed.
Lemma drawing_loop_ok : forall fuel cs mode, List.length cs <= fuel -> exists m', drawing_loop fuel cs mode = Done m' /\ drawing_after cs mode m'.
Proof.
  assert (SKIP : forall c r mode m', (forall n v, c :: r <> [92; 112]%N ++ n ++ v) -> drawing_after r mode m' -> drawing_after (c :: r) mode m').
  { intros c r mode m' N [(u & n & v & z & (E & A & B) & Z & -> & L)|[-> L]].
    - left. exists (c :: u), n, v, z. split; [split; [cbn [app]; now rewrite E|now split]|]. split; [exact Z|]. split; [reflexivity|].
      intros u' n' v' z' (E' & A' & B') Z'. destruct u' as [|d u']; [exfalso; exact (N _ _ E')|].
      cbn [app] in E'. injection E' as <- E'. cbn. apply le_n_S. apply (L u' n' v' z'); [split; [exact E'|now split]|exact Z'].
    - right. split; [reflexivity|]. intros u' n' v' z' (E' & A' & B') Z'. destruct u' as [|d u']; [exact (N _ _ E')|].
      cbn [app] in E'. injection E' as <- E'. exact (L u' n' v' z' (conj E' (conj A' B')) Z'). }
  induction fuel as [|f IH]; intros cs mode L.
  - destruct cs; [|cbn in L; lia]. exists mode. split; [reflexivity|]. right. split; [reflexivity|]. intros u n v z (E & _). destruct u; discriminate.
  - destruct cs as [|c r]; [exists mode; split; [reflexivity|]; right; split; [reflexivity|]; intros u n v z (E & _); destruct u; discriminate|].
    cbn [drawing_loop]. cbn [List.length] in L. destruct r as [|d r'].
    { exists mode. split; [destruct f; reflexivity|]. right. split; [reflexivity|]. intros u n v z (E & _). destruct u as [|? [|? ?]]; discriminate. }
    destruct (is_bs c && (d =? 112)%N) eqn:E.
    + apply andb_true_iff in E as [E1 E2]. apply bs_iff in E1. apply N.eqb_eq in E2. subst c d.
      set (n := take_while is_num r'). set (v := drop_while is_num r').
      assert (R : r' = n ++ v) by apply take_drop. pose proof (take_num r' : Forall numeral_char n) as A. pose proof (drop_num r' : ~ starts numeral_char v) as B.
      destruct (IH v (match parse_i32 n with Some v => (0 <? v)%Z | None => mode end)) as (m' & H & K).
      { pose proof (drop_length is_num r'). cbn in L. unfold v. lia. }
      exists m'. split; [exact H|]. change (92%N :: 112%N :: r') with ([92; 112]%N ++ r'). rewrite R.
      destruct K as [(u & n1 & v1 & z & (E & A1 & B1) & Z & -> & LL)|[K NO]].
      * left. exists ([92; 112]%N ++ n ++ u), n1, v1, z. split; [split; [rewrite E, <- !app_assoc; reflexivity|now split]|]. split; [exact Z|]. split; [reflexivity|].
        intros u' n' v' z' P Z'. destruct (p_tag_head _ _ _ _ _ A B P) as [(-> & _ & _)|(u'' & -> & P')]; [cbn; lia|].
        rewrite !app_length. specialize (LL _ _ _ _ P' Z'). lia.
      * destruct (parse_i32 n) as [z|] eqn:PI.
        -- left. exists [], n, v, z. split; [split; [reflexivity|now split]|]. split; [apply i32_iff; [now apply no_plus|exact PI]|]. split; [exact K|].
           intros u' n' v' z' P Z'. destruct (p_tag_head _ _ _ _ _ A B P) as [(-> & _ & _)|(u'' & -> & P')]; [cbn; lia|]. exfalso. exact (NO _ _ _ _ P' Z').
        -- right. split; [exact K|]. intros u' n' v' z' P Z'. destruct (p_tag_head _ _ _ _ _ A B P) as [(-> & -> & _)|(u'' & -> & P')]; [|exact (NO _ _ _ _ P' Z')].
           apply i32_iff in Z'; [congruence|now apply no_plus].
    + destruct (IH (d :: r') mode) as (m' & H & K); [cbn in *; lia|]. exists m'. split; [exact H|]. apply SKIP; [|exact K].
      intros n v Q. cbn [app] in Q. injection Q as -> -> _. discriminate.
Qed.
Lemma drawing_ok x mode : exists m', update_drawing_mode x mode = Done m' /\ drawing_after x mode m'.
Proof. apply drawing_loop_ok. lia. Qed.
Lemma i32_fun s z z' : i32_numeral s z -> i32_numeral s z' -> z = z'.
Proof.
  intros (_ & ds & NE & D & H) (_ & ds' & NE' & D' & H').
  destruct H as [[E ->]|[E ->]], H' as [[E' ->]|[E' ->]]; subst; try congruence.
  - apply Forall_inv in D. unfold digit in D. lia.
  - apply Forall_inv in D'. unfold digit in D'. lia.
Qed.
Lemma drawing_fun x b a a' : drawing_after x b a -> drawing_after x b a' -> a = a'.
Proof.
  intros [(u & n & v & z & P & Z & -> & L)|[-> N]] [(u' & n' & v' & z' & P' & Z' & -> & L')|[-> N']].
  - pose proof (L _ _ _ _ P' Z') as L1. pose proof (L' _ _ _ _ P Z) as L2.
    destruct P as (E & A & B), P' as (E' & A' & B'). rewrite E in E'.
    assert (u = u') as <-.
    { clear -E' L1 L2. assert (L : List.length u = List.length u') by lia. clear L1 L2. revert u' E' L.
      induction u as [|c u IH]; intros [|c' u'] E L; try discriminate; [reflexivity|]. cbn [app] in E. injection E as -> E. f_equal. injection L as L. now apply IH. }
    apply app_inv_head in E'. cbn [app] in E'. injection E' as E'. destruct (num_split _ _ _ _ A B A' B' E') as [<- _]. now rewrite (i32_fun _ _ _ Z Z').
  - exfalso. exact (N' _ _ _ _ P Z).
  - exfalso. exact (N _ _ _ _ P' Z').
  - reflexivity.
Qed.

(* ---- one block ---- *)
Definition ins (k : Z) (x : str) : Prop := forall p q, x = p ++ q -> (0 <= k + braces p <= 99)%Z.
Lemma braces_app a b : braces (a ++ b) = (braces a + braces b)%Z.
Proof. induction a as [|c a IH]; [reflexivity|]. cbn [app braces]. rewrite IH. lia. Qed.
Lemma ins_inside x : ins 0 x <-> inside x.
Proof. unfold ins, inside. reflexivity. Qed.
Lemma ins_cons k c x : ins k (c :: x) <-> (0 <= k <= 99)%Z /\ ins (k + (if (c =? 123)%N then 1 else if (c =? 125)%N then -1 else 0)) x.
Proof.
  split.
  - intros H. split; [specialize (H [] (c :: x) eq_refl); cbn in H; lia|]. intros p q E. specialize (H (c :: p) q). cbn [app braces] in H. rewrite E in H. specialize (H eq_refl). lia.
  - intros [K H] p q E. destruct p as [|d p]; [cbn; lia|]. cbn [app] in E. injection E as <- E. specialize (H p q E). cbn [braces]. lia.
Qed.
Lemma ins_nil k : ins k [] <-> (0 <= k <= 99)%Z.
Proof.
  split; [intros H; specialize (H [] [] eq_refl); cbn in H; lia|]. intros K p q E. symmetry in E. apply app_eq_nil in E as [-> _]. cbn. lia.
Qed.
Lemma scan_closed x r : forall pos d, 1 <= d -> ins (Z.of_nat d - 1) x -> (Z.of_nat d - 1 + braces x = 0)%Z ->
  scan_block (x ++ 125%N :: r) pos d = Some (r, pos + blen x + 1).
Proof.
  induction x as [|c x IH]; intros pos d D K B; cbn [app scan_block].
  - cbn in B. assert (d = 1) as -> by lia. change (125 =? 123)%N with false. change (125 =? 125)%N with true. cbv iota. cbn [Nat.sub Nat.eqb blen]. rewrite Nat.add_0_r. reflexivity.
  - apply ins_cons in K as [K1 K2]. cbn [braces] in B. cbn [blen]. destruct (c =? 123)%N eqn:E1.
    + destruct (Nat.ltb_spec 100 (d + 1)) as [L|L].
      * exfalso. specialize (K2 [] x eq_refl). cbn in K2. lia.
      * rewrite IH; [do 2 f_equal; lia|lia|replace (Z.of_nat (d + 1) - 1)%Z with (Z.of_nat d - 1 + 1)%Z by lia; exact K2|lia].
    + destruct (c =? 125)%N eqn:E2.
      * destruct (Nat.eqb_spec (d - 1) 0) as [Q|Q].
        -- exfalso. specialize (K2 [] x eq_refl). cbn in K2. lia.
        -- rewrite IH; [do 2 f_equal; lia|lia|replace (Z.of_nat (d - 1) - 1)%Z with (Z.of_nat d - 1 + -1)%Z by lia; exact K2|lia].
      * rewrite IH; [do 2 f_equal; lia|lia|replace (Z.of_nat d - 1)%Z with (Z.of_nat d - 1 + 0)%Z by lia; exact K2|lia].
Qed.
Lemma scan_open x : forall pos d, 1 <= d -> ins (Z.of_nat d - 1) x -> scan_block x pos d = Some ([], pos + blen x).
Proof.
  induction x as [|c x IH]; intros pos d D K; cbn [scan_block].
  - cbn [blen]. do 2 f_equal. lia.
  - apply ins_cons in K as [K1 K2]. pose proof (K2 [] x eq_refl) as K3. cbn [braces] in K3. cbn [blen]. destruct (c =? 123)%N eqn:E1.
    + destruct (Nat.ltb_spec 100 (d + 1)) as [L|L]; [lia|]. rewrite IH; [do 2 f_equal; lia|lia|replace (Z.of_nat (d + 1) - 1)%Z with (Z.of_nat d - 1 + 1)%Z by lia; exact K2].
    + destruct (c =? 125)%N eqn:E2.
      * destruct (Nat.eqb_spec (d - 1) 0) as [Q|Q]; [lia|]. rewrite IH; [do 2 f_equal; lia|lia|replace (Z.of_nat (d - 1) - 1)%Z with (Z.of_nat d - 1 + -1)%Z by lia; exact K2].
      * rewrite IH; [do 2 f_equal; lia|lia|replace (Z.of_nat d - 1)%Z with (Z.of_nat d - 1 + 0)%Z by lia; exact K2].
Qed.
Lemma scan_deep x y : forall pos d, 1 <= d -> ins (Z.of_nat d - 1) x -> (Z.of_nat d - 1 + braces x = 99)%Z -> scan_block (x ++ 123%N :: y) pos d = None.
Proof.
  induction x as [|c x IH]; intros pos d D K B; cbn [app scan_block].
  - cbn in B. change (123 =? 123)%N with true. cbn match. destruct (Nat.ltb_spec 100 (d + 1)) as [L|L]; [reflexivity|lia].
  - apply ins_cons in K as [K1 K2]. pose proof (K2 [] x eq_refl) as K3. cbn [braces] in B, K3. destruct (c =? 123)%N eqn:E1.
    + destruct (Nat.ltb_spec 100 (d + 1)) as [L|L]; [reflexivity|]. apply IH; [lia|replace (Z.of_nat (d + 1) - 1)%Z with (Z.of_nat d - 1 + 1)%Z by lia; exact K2|lia].
    + destruct (c =? 125)%N eqn:E2.
      * destruct (Nat.eqb_spec (d - 1) 0) as [Q|Q]; [lia|]. apply IH; [lia|replace (Z.of_nat (d - 1) - 1)%Z with (Z.of_nat d - 1 + -1)%Z by lia; exact K2|lia].
      * apply IH; [lia|replace (Z.of_nat d - 1)%Z with (Z.of_nat d - 1 + 0)%Z by lia; exact K2|lia].
Qed.
(* what may follow an opening brace *)
Lemma block_cases s : forall k, (0 <= k <= 99)%Z ->
  (exists x r, s = x ++ 125%N :: r /\ ins k x /\ (k + braces x = 0)%Z) \/ ins k s \/ (exists x y, s = x ++ 123%N :: y /\ ins k x /\ (k + braces x = 99)%Z).
Proof.
  induction s as [|c s IH]; intros k K; [right; left; now apply ins_nil|].
  destruct (N.eqb_spec c 123) as [->|N1].
  - destruct (Z.eq_dec k 99) as [->|NK]; [right; right; exists [], s; split; [reflexivity|]; split; [now apply ins_nil|reflexivity]|].
    destruct (IH (k + 1)%Z) as [(x & r & -> & I & B)|[I|(x & y & -> & I & B)]]; [lia| | |].
    + left. exists (123%N :: x), r. split; [reflexivity|]. split; [apply ins_cons; split; [lia|exact I]|cbn [braces]; change (123 =? 123)%N with true; cbv iota; lia].
    + right. left. apply ins_cons. split; [lia|exact I].
    + right. right. exists (123%N :: x), y. split; [reflexivity|]. split; [apply ins_cons; split; [lia|exact I]|cbn [braces]; change (123 =? 123)%N with true; cbv iota; lia].
  - destruct (N.eqb_spec c 125) as [->|N2].
    + destruct (Z.eq_dec k 0) as [->|NK]; [left; exists [], s; split; [reflexivity|]; split; [now apply ins_nil|reflexivity]|].
      destruct (IH (k + -1)%Z) as [(x & r & -> & I & B)|[I|(x & y & -> & I & B)]]; [lia| | |].
      * left. exists (125%N :: x), r. split; [reflexivity|]. split; [apply ins_cons; split; [lia|exact I]|cbn [braces]; change (125 =? 123)%N with false; change (125 =? 125)%N with true; cbv iota; lia].
      * right. left. apply ins_cons. split; [lia|exact I].
      * right. right. exists (125%N :: x), y. split; [reflexivity|]. split; [apply ins_cons; split; [lia|exact I]|cbn [braces]; change (125 =? 123)%N with false; change (125 =? 125)%N with true; cbv iota; lia].
    + assert (E1 : (c =? 123)%N = false) by now apply N.eqb_neq. assert (E2 : (c =? 125)%N = false) by now apply N.eqb_neq.
      destruct (IH (k + 0)%Z) as [(x & r & -> & I & B)|[I|(x & y & -> & I & B)]]; [lia| | |].
      * left. exists (c :: x), r. split; [reflexivity|]. split; [apply ins_cons; rewrite E1, E2; split; [lia|exact I]|cbn [braces]; rewrite E1, E2; lia].
      * right. left. apply ins_cons. rewrite E1, E2. split; [lia|exact I].
      * right. right. exists (c :: x), y. split; [reflexivity|]. split; [apply ins_cons; rewrite E1, E2; split; [lia|exact I]|cbn [braces]; rewrite E1, E2; lia].
Qed.
Lemma text_cases : forall n text, List.length text <= n -> exists l, Forall seg_ok l /\
  ((exists e, ending_ok e /\ text = event_text l e) \/ exists tail, text = flat_map seg_text l ++ tail /\ too_deep tail).
Proof.
  assert (CONS : forall s l text r, seg_ok s -> text = seg_text s ++ r -> Forall seg_ok l ->
    ((exists e, ending_ok e /\ r = event_text l e) \/ exists tail, r = flat_map seg_text l ++ tail /\ too_deep tail) ->
    exists l', Forall seg_ok l' /\ ((exists e, ending_ok e /\ text = event_text l' e) \/ exists tail, text = flat_map seg_text l' ++ tail /\ too_deep tail)).
  { intros s l text r S E F K. exists (s :: l). split; [now constructor|]. destruct K as [(e & O & ->)|(tail & -> & D)].
    - left. exists e. split; [exact O|]. rewrite E. unfold event_text. cbn [flat_map]. now rewrite app_assoc.
    - right. exists tail. split; [|exact D]. rewrite E. cbn [flat_map]. now rewrite app_assoc. }
  induction n as [|n IH]; intros text L.
  - destruct text; [|cbn in L; lia]. exists []. split; [constructor|]. left. exists EndText. now split.
  - destruct text as [|c r]; [exists []; split; [constructor|]; left; exists EndText; now split|]. cbn [List.length] in L.
    destruct (N.eqb_spec c 123) as [->|N1].
    + destruct (block_cases r 0) as [(x & r' & -> & I & B)|[I|(x & y & -> & I & B)]]; [lia| | |].
      * rewrite app_length in L. cbn [List.length] in L. destruct (IH r') as (l & F & K); [lia|].
        apply (CONS (Block x) l _ r'); [split; [exact I|lia]| |exact F|exact K]. cbn [seg_text app]. rewrite <- app_assoc. reflexivity.
      * exists []. split; [constructor|]. left. exists (EndOpen r). split; [exact I|reflexivity].
      * exists []. split; [constructor|]. right. exists (123%N :: x ++ 123%N :: y). split; [reflexivity|]. exists x, y. split; [reflexivity|]. split; [exact I|lia].
    + destruct (N.eqb_spec c 92) as [->|N2].
      * destruct r as [|d r]; [exists []; split; [constructor|]; left; exists EndSlash; now split|].
        destruct (IH r) as (l & F & K); [cbn in L; lia|]. apply (CONS (Esc d) l _ r); [exact Logic.I|reflexivity|exact F|exact K].
      * destruct (IH r) as (l & F & K); [lia|]. apply (CONS (Chr c) l _ r); [now split|reflexivity|exact F|exact K].
Qed.

(* ---- the main loop ---- *)
Lemma safe_block_run x o : safe_block x -> exists ps ts ds, x = pieces_text ps /\ pieces_ok ps /\ parse_override_block x o = Done (ts, ds) /\ reported o ps ts ds.
Proof.
  intros S. destruct (block_pieces x) as (ps & E & K). exists ps. pose proof (block_exact ps o K) as R. rewrite <- E in R.
  destruct R as [[X _]|[_ (ts & ds & H & R)]].
  - exfalso. specialize (S ps E K). apply Exists_exists in X as (p & I & X). rewrite Forall_forall in S. exact (S p I X).
  - rewrite Nat.add_0_r in R. exists ts, ds. auto.
Qed.
Lemma splits_dec p : {splits_char p} + {~ splits_char p}.
Proof. destruct p as [c|n a|[d|]]; cbn; try (right; tauto). destruct (128 <=? d)%N eqn:E; [left; now apply N.leb_le|right; apply N.leb_gt in E; lia]. Qed.
Lemma safe_block_dec x : {safe_block x} + {~ safe_block x}.
Proof.
  destruct (parse_override_block x 0) as [[ts ds]| |] eqn:E.
  - left. intros ps Q K. subst x. destruct (block_exact ps 0 K) as [[_ H]|[H _]]; [congruence|exact H].
  - right. intros S. destruct (safe_block_run x 0 S) as (? & ? & ? & _ & _ & H & _). congruence.
  - right. intros S. destruct (safe_block_run x 0 S) as (? & ? & ? & _ & _ & H & _). congruence.
Qed.
Lemma unsafe_block_run x o : ~ safe_block x -> parse_override_block x o = Crash.
Proof.
  intros N. destruct (block_pieces x) as (ps & E & K). pose proof (block_exact ps o K) as R. rewrite <- E in R.
  destruct R as [[_ H]|[F _]]; [exact H|]. exfalso. apply N. intros ps' E' K'. assert (ps' = ps) as -> by (apply pieces_unique; congruence). exact F.
Qed.

Lemma not_block_chr c x : Chr c <> Block x. Proof. discriminate. Qed.
Lemma not_block_esc c x : Esc c <> Block x. Proof. discriminate. Qed.

Lemma one_closed_block f text u x r pos mode a : text = u ++ 123%N :: x ++ 125%N :: r -> pos = blen u -> inside x -> braces x = 0%Z ->
  analyze_loop (S f) no_registry text (123%N :: x ++ 125%N :: r) pos mode a =
  match x with
  | [] => analyze_loop f no_registry text r (pos + 2) mode (Acc (ac_plain a) (ac_tags a) (ac_diags a ++ [Diag (lit "}") (pos + 1) EmptyOverride]))
  | _ => q <- parse_override_block x (pos + 1) ;; m' <- update_drawing_mode x mode ;;
         analyze_loop f no_registry text r (pos + blen x + 2) m' (Acc (ac_plain a) (ac_tags a ++ fst q) (ac_diags a ++ snd q))
  end.
Proof.
  intros T P I B. cbn [analyze_loop]. change (123 =? 123)%N with true. cbv iota. change (len_utf8 123) with 1.
  rewrite (scan_closed x r pos 1); [|lia|exact I|lia].
  destruct x as [|c x].
  - cbn [blen]. replace (pos + 0 + 1) with (pos + 1) by lia. rewrite Nat.ltb_irrefl. rewrite Nat.max_r by lia.
    rewrite T. cbn [app]. replace (u ++ 123%N :: 125%N :: r) with ((u ++ [123%N]) ++ [125%N] ++ r) by (rewrite <- app_assoc; reflexivity).
    rewrite slice_at; [|rewrite blen_app; cbn [blen]; change (len_utf8 123) with 1; lia|rewrite blen_app; cbn [blen]; change (len_utf8 123) with 1; change (len_utf8 125) with 1; lia].
    cbn [or_crash bind]. replace (pos + 1 + 1) with (pos + 2) by lia. reflexivity.
  - set (y := c :: x) in *. assert (Y : 1 <= blen y) by (unfold y; cbn [blen]; pose proof (len_utf8_pos c); lia).
    destruct (Nat.ltb_spec (pos + 1) (pos + blen y + 1)) as [_|L]; [|lia].
    rewrite T at 1. replace (u ++ 123%N :: y ++ 125%N :: r) with ((u ++ [123%N]) ++ y ++ 125%N :: r) by (rewrite <- !app_assoc; reflexivity).
    rewrite slice_at; [|rewrite blen_app; cbn [blen]; change (len_utf8 123) with 1; lia|rewrite blen_app; cbn [blen]; change (len_utf8 123) with 1; lia].
    cbn [or_crash bind]. change (parse_override_block_with no_registry) with parse_override_block.
    replace (pos + blen y + 1 + 1) with (pos + blen y + 2) by lia. reflexivity.
Qed.

Lemma segs_run : forall l text u tail fuel pos mode a, Forall seg_ok l -> Forall safe_seg l -> text = u ++ flat_map seg_text l ++ tail -> pos = blen u ->
  List.length (flat_map seg_text l ++ tail) <= fuel ->
  exists plain m' ts ds fuel', visible mode l plain m' /\ tagged pos l ts ds /\ List.length tail <= fuel' /\
    analyze_loop fuel no_registry text (flat_map seg_text l ++ tail) pos mode a =
    analyze_loop fuel' no_registry text tail (pos + blen (flat_map seg_text l)) m' (Acc (ac_plain a ++ plain) (ac_tags a ++ ts) (ac_diags a ++ ds)).
Proof.
  induction l as [|s l IH]; intros text u tail fuel pos mode a OK SF T P L.
  - exists [], mode, [], [], fuel. split; [constructor|]. split; [constructor|]. split; [exact L|]. cbn [flat_map app blen]. rewrite Nat.add_0_r, !app_nil_r. destruct a; reflexivity.
  - pose proof (Forall_inv OK) as S. apply Forall_inv_tail in OK. pose proof (Forall_inv SF) as S'. apply Forall_inv_tail in SF.
    cbn [flat_map] in T, L |- *. rewrite <- app_assoc in T, L |- *.
    destruct fuel as [|f]; [exfalso; rewrite app_length in L; destruct s; cbn in L; lia|].
    destruct s as [c|d|x].
    + cbn [seg_text app] in *. destruct S as [N1 N2]. cbn [analyze_loop].
      replace (c =? 123)%N with false by (symmetry; now apply N.eqb_neq). replace (is_bs c) with false by (symmetry; now apply N.eqb_neq).
      destruct (IH text (u ++ [c]) tail f (pos + len_utf8 c) mode (Acc (ac_plain a ++ (if mode then [] else [c])) (ac_tags a) (ac_diags a)) OK SF) as (pl & m' & ts & ds & f' & V & G & LF & H).
      * rewrite T, <- app_assoc. reflexivity.
      * rewrite blen_app. cbn [blen]. lia.
      * cbn [List.length] in L. lia.
      * exists (shown mode (Chr c) ++ pl), m', ts, ds, f'. split; [apply vis_other; [apply not_block_chr|exact V]|]. split; [apply tgd_other; [apply not_block_chr|]; cbn [seg_text blen]; rewrite Nat.add_0_r; exact G|].
        split; [exact LF|]. rewrite H. cbn [ac_plain ac_tags ac_diags blen]. rewrite <- app_assoc. unfold shown. rewrite (Nat.add_assoc pos). destruct mode; reflexivity.
    + cbn [seg_text app] in *. cbn [analyze_loop]. change (92 =? 123)%N with false. change (is_bs 92) with true. cbv iota. change (len_utf8 92) with 1.
      match goal with |- context [analyze_loop f no_registry text _ _ _ ?a'] => destruct (IH text (u ++ [92%N; d]) tail f (pos + len_utf8 d + 1) mode a' OK SF) as (pl & m' & ts & ds & f' & V & G & LF & H) end.
      * rewrite T, <- app_assoc. reflexivity.
      * rewrite blen_app. cbn [blen]. change (len_utf8 92) with 1. lia.
      * cbn [List.length] in L. lia.
      * exists (shown mode (Esc d) ++ pl), m', ts, ds, f'. split; [apply vis_other; [apply not_block_esc|exact V]|].
        split; [apply tgd_other; [apply not_block_esc|]; cbn [seg_text blen]; change (len_utf8 92) with 1; replace (pos + (1 + (len_utf8 d + 0))) with (pos + len_utf8 d + 1) by lia; exact G|].
        split; [exact LF|]. rewrite H. cbn [ac_plain ac_tags ac_diags blen]. change (len_utf8 92) with 1. rewrite <- app_assoc. unfold shown. f_equal. lia.
    + destruct S as [I B]. cbn [safe_seg] in S'. cbn [seg_text] in *.
      replace ((123%N :: x ++ [125%N]) ++ flat_map seg_text l ++ tail) with (123%N :: x ++ 125%N :: flat_map seg_text l ++ tail) in T, L |- * by (cbn [app]; rewrite <- app_assoc; reflexivity).
      rewrite (one_closed_block f text u x _ pos mode a T P I B).
      assert (BX : forall y, blen ((123%N :: x ++ [125%N]) ++ y) = blen x + 2 + blen y).
      { intros y. rewrite blen_app. cbn [blen]. rewrite blen_app. cbn [blen]. change (len_utf8 123) with 1. change (len_utf8 125) with 1. lia. }
      cbn [List.length] in L. rewrite app_length in L. cbn [List.length] in L.
      destruct x as [|c x].
      * match goal with |- context [analyze_loop f no_registry text _ _ _ ?a'] => destruct (IH text (u ++ [123%N; 125%N]) tail f (pos + 2) mode a' OK SF) as (pl & m' & ts & ds & f' & V & G & LF & H) end.
        -- rewrite T, <- app_assoc. reflexivity.
        -- rewrite blen_app. cbn [blen]. change (len_utf8 123) with 1. change (len_utf8 125) with 1. lia.
        -- cbn in L. lia.
        -- exists pl, m', ts, (Diag (lit "}") (pos + 1) EmptyOverride :: ds), f'. split; [now apply vis_empty|]. split; [now apply tgd_empty|]. split; [exact LF|].
           rewrite H. cbn [ac_plain ac_tags ac_diags]. rewrite <- app_assoc. rewrite BX. cbn [blen app]. f_equal. lia.
      * set (y := c :: x) in *. assert (NY : y <> []) by discriminate.
        destruct (safe_block_run y (pos + 1) S') as (ps & ts0 & ds0 & EP & KP & HP & RP). rewrite HP. cbn [bind fst snd].
        destruct (drawing_ok y mode) as (m1 & HM & DM). rewrite HM. cbn [bind].
        match goal with |- context [analyze_loop f no_registry text _ _ _ ?a'] => destruct (IH text (u ++ 123%N :: y ++ [125%N]) tail f (pos + blen y + 2) m1 a' OK SF) as (pl & m' & ts & ds & f' & V & G & LF & H) end.
        -- rewrite T, <- app_assoc. cbn [app]. rewrite <- app_assoc. reflexivity.
        -- rewrite blen_app. cbn [blen]. rewrite blen_app. cbn [blen]. change (len_utf8 123) with 1. change (len_utf8 125) with 1. lia.
        -- lia.
        -- exists pl, m', (ts0 ++ ts), (ds0 ++ ds), f'. split; [exact (vis_block _ _ _ _ _ _ NY DM V)|]. split.
           ++ apply (tgd_block pos y ps); [exact NY|exact EP|exact KP|exact RP|]. cbn [seg_text]. rewrite <- (app_nil_r (123%N :: y ++ [125%N])), BX. cbn [blen].
              replace (pos + (blen y + 2 + 0)) with (pos + blen y + 2) by lia. exact G.
           ++ split; [exact LF|]. rewrite H. cbn [ac_plain ac_tags ac_diags]. rewrite <- !app_assoc, BX. f_equal. lia.
Qed.
(* the first unsafe block stops everything *)
Lemma segs_crash : forall l text u x tail fuel pos mode a, Forall seg_ok l -> Forall safe_seg l -> inside x -> braces x = 0%Z -> ~ safe_block x ->
  text = u ++ flat_map seg_text l ++ seg_text (Block x) ++ tail -> pos = blen u -> List.length (flat_map seg_text l ++ seg_text (Block x) ++ tail) <= fuel ->
  analyze_loop fuel no_registry text (flat_map seg_text l ++ seg_text (Block x) ++ tail) pos mode a = Crash.
Proof.
  intros l text u x tail fuel pos mode a OK SF I B NS T P L.
  destruct (segs_run l text u (seg_text (Block x) ++ tail) fuel pos mode a OK SF T P L) as (pl & m' & ts & ds & f' & _ & _ & LF & H). rewrite H. clear H.
  cbn [seg_text] in *. replace ((123%N :: x ++ [125%N]) ++ tail) with (123%N :: x ++ 125%N :: tail) in * by (cbn [app]; rewrite <- app_assoc; reflexivity).
  destruct f' as [|f']; [cbn in LF; lia|]. rewrite (one_closed_block f' text (u ++ flat_map seg_text l) x tail); [|rewrite T, <- app_assoc; reflexivity|rewrite blen_app; lia|exact I|exact B].
  destruct x as [|c x]; [|rewrite unsafe_block_run by exact NS; reflexivity].
  exfalso. apply NS. intros ps E K. destruct ps as [|[c|n w|[d|]] ps]; [constructor|discriminate..].
Qed.
Lemma last_boundary (u x : str) c : (128 <= c)%N -> forall i, i <= blen u + blen x -> slice (u ++ x ++ [c]) i (blen u + (blen x + len_utf8 c - 1)) = None.
Proof.
  intros C i LI. destruct (slice (u ++ x ++ [c]) i (blen u + (blen x + len_utf8 c - 1))) as [m|] eqn:E; [|reflexivity]. exfalso.
  apply slice_spec in E as (p & q & E & A & M). rewrite app_assoc, (app_assoc p) in E.
  assert (Z : blen (p ++ m) = blen (u ++ x) + len_utf8 c - 1) by (rewrite !blen_app; pose proof (len_utf8_pos c); lia).
  assert (2 <= len_utf8 c) by (pose proof (len_utf8_pos c); destruct (Nat.eq_dec (len_utf8 c) 1) as [Q|Q]; [apply len1 in Q; lia|lia]).
  destruct q as [|y q] using rev_ind.
  - rewrite app_nil_r in E. apply (f_equal blen) in E. rewrite (blen_app (u ++ x)) in E. cbn [blen] in E. lia.
  - clear IHq. rewrite app_assoc in E. apply app_inj_tail in E as [E _]. apply (f_equal blen) in E. rewrite (blen_app (p ++ m)) in E. lia.
Qed.
Lemma end_run e text u fuel pos mode a : ending_ok e -> text = u ++ ending_text e -> pos = blen u -> List.length (ending_text e) <= fuel ->
  (safe_end e -> exists ts ds, tagged_end pos e ts ds /\ analyze_loop fuel no_registry text (ending_text e) pos mode a = Done (Some (Acc (ac_plain a) (ac_tags a ++ ts) (ac_diags a ++ ds)))) /\
  (~ safe_end e -> analyze_loop fuel no_registry text (ending_text e) pos mode a = Crash).
Proof.
  intros OK T P L. destruct e as [| |x]; cbn [ending_text safe_end] in *.
  - split; [|tauto]. intros _. exists [], []. split; [constructor|]. rewrite !app_nil_r. destruct fuel, a; reflexivity.
  - split; [|tauto]. intros _. exists [], []. split; [constructor|]. rewrite !app_nil_r. destruct fuel as [|f]; [cbn in L; lia|].
    cbn [analyze_loop]. change (92 =? 123)%N with false. change (is_bs 92) with true. cbv iota. destruct f, a; reflexivity.
  - destruct fuel as [|f]; [cbn in L; lia|]. cbn [ending_ok] in OK. cbn [analyze_loop]. change (123 =? 123)%N with true. cbv iota. change (len_utf8 123) with 1.
    rewrite (scan_open x pos 1); [|lia|exact OK].
    destruct x as [|c x _] using rev_ind.
    + split; [intros [(x' & c & E & _) _]; destruct x'; discriminate|]. intros _. cbn [blen]. rewrite Nat.add_0_r.
      destruct (Nat.ltb_spec (pos + 1) pos) as [Q|_]; [lia|]. rewrite Nat.max_r by lia.
      destruct (slice text (pos + 1) (pos + 1 + 1)) as [m|] eqn:E; [|reflexivity]. exfalso. apply slice_spec in E as (p & q & E & A & M).
      rewrite T in E. apply (f_equal blen) in E. rewrite !blen_app in E. cbn [blen] in E. change (len_utf8 123) with 1 in E. lia.
    + assert (TT : text = (u ++ [123%N]) ++ x ++ [c]) by (rewrite T, <- app_assoc; reflexivity).
      assert (BU : blen (u ++ [123%N]) = pos + 1) by (rewrite blen_app; cbn [blen]; change (len_utf8 123) with 1; lia).
      rewrite removelast_last. rewrite blen_app. cbn [blen]. rewrite Nat.add_0_r.
      assert (FIN : forall m b p, analyze_loop f no_registry text [] p m b = Done (Some b)) by (intros m b p; destruct f; reflexivity).
      destruct (N.ltb_spec c 128) as [C|C].
      * pose proof (proj2 (len1 c) C) as LC. rewrite LC.
        assert (OO : open_ok (x ++ [c])) by (exists x, c; now split).
        destruct x as [|y x].
        -- cbn [blen app] in *. split.
           ++ intros _. exists [], [Diag [c] (pos + 1) EmptyOverride]. split; [now constructor|]. destruct (Nat.ltb_spec (pos + 1) (pos + (0 + 1))) as [Q|_]; [lia|].
              rewrite Nat.max_r by lia. rewrite TT, <- (app_nil_r [c]), slice_at; [|lia|cbn [blen]; lia]. cbn [or_crash bind]. rewrite app_nil_r, <- TT, FIN, app_nil_r. reflexivity.
           ++ intros N. exfalso. apply N. split; [exact OO|]. intros ps E K. destruct ps as [|[z|n w|[d|]] ps]; [constructor|discriminate..].
        -- set (z := y :: x) in *. assert (Z : z <> []) by discriminate. assert (BZ : 1 <= blen z) by (unfold z; cbn [blen]; pose proof (len_utf8_pos y); lia).
           destruct (Nat.ltb_spec (pos + 1) (pos + (blen z + 1))) as [_|Q]; [|lia].
           assert (SZ : slice text (pos + 1) (pos + (blen z + 1)) = Some z) by (rewrite TT; apply slice_at; lia). rewrite SZ. cbn [or_crash bind]. change (parse_override_block_with no_registry) with parse_override_block. split.
           ++ intros [_ S]. destruct (safe_block_run z (pos + 1) S) as (ps & ts & ds & EP & KP & HP & RP). rewrite HP. cbn [bind fst snd].
              destruct (drawing_ok z mode) as (m1 & -> & _). cbn [bind]. exists ts, ds. split; [exact (tge_open pos z c ps ts ds C Z EP KP RP)|]. now rewrite FIN.
           ++ intros N. rewrite unsafe_block_run; [reflexivity|]. intros S. apply N. now split.
      * split; [intros [(x' & c' & E & LT) _]; apply app_inj_tail in E as [_ <-]; lia|]. intros _.
        assert (2 <= len_utf8 c) by (pose proof (len_utf8_pos c); destruct (Nat.eq_dec (len_utf8 c) 1) as [Q|Q]; [apply len1 in Q; lia|lia]).
        destruct (Nat.ltb_spec (pos + 1) (pos + (blen x + len_utf8 c))) as [_|Q]; [|lia].
        rewrite TT. replace (pos + (blen x + len_utf8 c)) with (blen (u ++ [123%N]) + (blen x + len_utf8 c - 1)) by lia.
        rewrite last_boundary; [reflexivity|exact C|lia].
Qed.
Lemma deep_run tail text fuel pos mode a : too_deep tail -> List.length tail <= fuel -> analyze_loop fuel no_registry text tail pos mode a = Done None.
Proof.
  intros (x & y & -> & I & B) L. destruct fuel as [|f]; [cbn in L; lia|]. cbn [analyze_loop]. change (123 =? 123)%N with true. cbv iota.
  rewrite scan_deep; [reflexivity|lia|exact I|lia].
Qed.

Definition finished (plain : str) (ts : list tag) (ds : list tag_diag) : text_analysis :=
  TextAnalysis plain (List.length plain) (count_lines plain) (detect_bidi plain) (detect_complex plain) ts ds.
Lemma analyze_safe l e : Forall seg_ok l -> ending_ok e -> Forall safe_seg l -> safe_end e ->
  exists plain m ts ds ts' ds', visible false l plain m /\ tagged 0 l ts ds /\ tagged_end (blen (flat_map seg_text l)) e ts' ds' /\
    analyze_text (event_text l e) = Done (Some (finished plain (ts ++ ts') (ds ++ ds'))).
Proof.
  intros OK OE SF SE. unfold analyze_text, analyze_text_with, event_text.
  destruct (segs_run l (flat_map seg_text l ++ ending_text e) [] (ending_text e) (List.length (flat_map seg_text l ++ ending_text e)) 0 false (Acc [] [] []) OK SF eq_refl eq_refl (le_n _)) as (pl & m' & ts & ds & f' & V & G & LF & H).
  rewrite H. clear H. destruct (end_run e (flat_map seg_text l ++ ending_text e) (flat_map seg_text l) f' (0 + blen (flat_map seg_text l)) m' (Acc ([] ++ pl) ([] ++ ts) ([] ++ ds)) OE eq_refl eq_refl LF) as [K _].
  destruct (K SE) as (ts' & ds' & TE & H). cbn [ac_plain ac_tags ac_diags]. rewrite H. cbn [bind option_map ac_plain ac_tags ac_diags app]. exists pl, m', ts, ds, ts', ds'.
  split; [exact V|]. split; [exact G|]. split; [exact TE|reflexivity].
Qed.
Lemma analyze_unsafe l e : Forall seg_ok l -> ending_ok e -> ~ (Forall safe_seg l /\ safe_end e) -> analyze_text (event_text l e) = Crash.
Proof.
  intros OK OE N. unfold analyze_text, analyze_text_with, event_text.
  assert (D : Forall safe_seg l \/ exists l1 x l2, l = l1 ++ Block x :: l2 /\ Forall safe_seg l1 /\ ~ safe_block x).
  { clear. induction l as [|s l IH]; [left; constructor|].
    destruct s as [c|d|x]; try (destruct IH as [IH|(l1 & x' & l2 & -> & F & X)]; [left; now constructor|right; eexists (_ :: l1), x', l2; split; [reflexivity|]; split; [now constructor|exact X]]).
    destruct (safe_block_dec x) as [S|S]; [|right; exists [], x, l; split; [reflexivity|]; split; [constructor|exact S]].
    destruct IH as [IH|(l1 & x' & l2 & -> & F & X)]; [left; now constructor|right; exists (Block x :: l1), x', l2; split; [reflexivity|]; split; [now constructor|exact X]]. }
  destruct D as [SF|(l1 & x & l2 & -> & F & X)].
  - destruct (segs_run l (flat_map seg_text l ++ ending_text e) [] (ending_text e) (List.length (flat_map seg_text l ++ ending_text e)) 0 false (Acc [] [] []) OK SF eq_refl eq_refl (le_n _)) as (pl & m' & ts & ds & f' & V & G & LF & H).
    rewrite H. destruct (end_run e (flat_map seg_text l ++ ending_text e) (flat_map seg_text l) f' (0 + blen (flat_map seg_text l)) m' (Acc ([] ++ pl) ([] ++ ts) ([] ++ ds)) OE eq_refl eq_refl LF) as [_ K].
    cbn [ac_plain ac_tags ac_diags]. rewrite K; [reflexivity|tauto].
  - apply Forall_app in OK as [OK1 OK2]. apply Forall_inv in OK2. destruct OK2 as [I B].
    assert (E : flat_map seg_text (l1 ++ Block x :: l2) ++ ending_text e = flat_map seg_text l1 ++ seg_text (Block x) ++ (flat_map seg_text l2 ++ ending_text e)).
    { rewrite flat_map_app, <- app_assoc. cbn [flat_map]. rewrite <- app_assoc. reflexivity. }
    rewrite E. rewrite (segs_crash l1 _ [] x (flat_map seg_text l2 ++ ending_text e)); [reflexivity|exact OK1|exact F|exact I|exact B|exact X|reflexivity|reflexivity|lia].
Qed.
Lemma analyze_deep l tail : Forall seg_ok l -> Forall safe_seg l -> too_deep tail -> analyze_text (flat_map seg_text l ++ tail) = Done None.
Proof.
  intros OK SF D. unfold analyze_text, analyze_text_with.
  destruct (segs_run l (flat_map seg_text l ++ tail) [] tail (List.length (flat_map seg_text l ++ tail)) 0 false (Acc [] [] []) OK SF eq_refl eq_refl (le_n _)) as (pl & m' & ts & ds & f' & V & G & LF & H).
  rewrite H, deep_run by assumption. reflexivity.
Qed.
Lemma analyze_unsafe_before l tail : Forall seg_ok l -> ~ Forall safe_seg l -> analyze_text (flat_map seg_text l ++ tail) = Crash.
Proof.
  intros OK N. assert (D : exists l1 x l2, l = l1 ++ Block x :: l2 /\ Forall safe_seg l1 /\ ~ safe_block x).
  { clear OK. induction l as [|s l IH]; [exfalso; apply N; constructor|].
    assert (R : safe_seg s -> exists l1 x l2, s :: l = l1 ++ Block x :: l2 /\ Forall safe_seg l1 /\ ~ safe_block x).
    { intros Ss. destruct IH as (l1 & x & l2 & -> & F & X); [intros A; apply N; now constructor|]. exists (s :: l1), x, l2. split; [reflexivity|]. split; [now constructor|exact X]. }
    destruct s as [c|d|x]; [apply R; exact I..|]. destruct (safe_block_dec x) as [S|S]; [now apply R|]. exists [], x, l. split; [reflexivity|]. split; [constructor|exact S]. }
  destruct D as (l1 & x & l2 & -> & F & X). apply Forall_app in OK as [OK1 OK2]. apply Forall_inv in OK2. destruct OK2 as [I B].
  assert (E : flat_map seg_text (l1 ++ Block x :: l2) ++ tail = flat_map seg_text l1 ++ seg_text (Block x) ++ (flat_map seg_text l2 ++ tail)).
  { rewrite flat_map_app, <- app_assoc. cbn [flat_map]. rewrite <- app_assoc. reflexivity. }
  unfold analyze_text, analyze_text_with. rewrite E. rewrite (segs_crash l1 _ [] x (flat_map seg_text l2 ++ tail)); [reflexivity|exact OK1|exact F|exact I|exact B|exact X|reflexivity|reflexivity|lia].
Qed.
Lemma safe_segs_dec l : {Forall safe_seg l} + {~ Forall safe_seg l}.
Proof. apply Forall_dec. intros [c|d|x]; [left; exact I..|]. apply safe_block_dec. Qed.
Lemma analyze_text_runs text : analyze_text text = Crash \/ exists o, analyze_text text = Done o.
Proof.
  destruct (text_cases (List.length text) text (le_n _)) as (l & OK & [(e & OE & ->)|(tail & -> & D)]).
  - destruct (safe_segs_dec l) as [S|S].
    + assert (SE : safe_end e \/ ~ safe_end e).
      { destruct e as [| |x]; cbn [safe_end]; auto. destruct (safe_block_dec (removelast x)) as [B|B]; [|right; tauto].
        unfold open_ok. destruct (rev x) as [|c r] eqn:R; [right; intros [(x' & c & -> & _) _]; rewrite rev_app_distr in R; discriminate|]. assert (X : x = rev r ++ [c]) by (rewrite <- (rev_involutive x), R; reflexivity).
        destruct (N.lt_ge_cases c 128) as [C|C]; [left; split; [exists (rev r), c; auto|exact B]|right; intros [(x' & c' & E & C') _]; rewrite X in E; apply app_inj_tail in E as [_ <-]; lia]. }
      destruct SE as [SE|SE]; [right|left; apply analyze_unsafe; tauto]. destruct (analyze_safe l e OK OE S SE) as (pl & m & ts & ds & ts' & ds' & _ & _ & _ & H). eexists. exact H.
    + left. now apply analyze_unsafe_before.
  - destruct (safe_segs_dec l) as [S|S]; [right; exists None; now apply analyze_deep|left; now apply analyze_unsafe_before].
Qed.
