(* C207: where a slice lies in its source; C208: text recovered from bytes *)
From Verif Require Import Base BaseLemmas StreamModel StreamSpec StreamProofs SpanModel.

(* ---- specification ---- *)
(* what stands before a place, cut at the beginning of its line *)
Definition line_head (before head : str) : Prop := ~ In 10%N head /\ (before = head \/ exists p, before = p ++ 10%N :: head).

(* ---- C207 ---- *)
Lemma start_app p : forall pos start s, line_start pos start (p ++ s) = line_start (pos + blen p) (line_start pos start p) s.
Proof. induction p as [|c p IH]; intros pos start s; cbn [app line_start blen]; [now rewrite Nat.add_0_r|]. rewrite IH. now rewrite Nat.add_assoc. Qed.
Lemma start_none s : ~ In 10%N s -> forall pos start, line_start pos start s = start.
Proof. induction s as [|c s IH]; intros N pos start; [reflexivity|]. cbn [line_start]. destruct (N.eqb_spec c 10) as [->|D]; [exfalso; apply N; now left|]. apply IH. intros H. apply N. now right. Qed.
Lemma start_head before head : line_head before head -> exists p, before = p ++ head /\ line_start 0 0 before = blen p.
Proof.
  intros [N [->|(p & ->)]].
  - exists []. split; [reflexivity|]. now apply start_none.
  - exists (p ++ [10%N]). split; [now rewrite <- app_assoc|]. rewrite start_app. cbn [line_start]. rewrite N.eqb_refl, start_none by exact N. rewrite blen_app. reflexivity.
Qed.
Lemma head_exists before : exists head, line_head before head.
Proof.
  induction before as [|c s (h & N & [->|(p & ->)])]; [exists []; split; [easy|now left]| |].
  - destruct (N.eqb_spec c 10) as [->|D]; [exists h; split; [exact N|right; now exists []]|]. exists (c :: h). split; [intros [E|E]; [congruence|contradiction]|now left].
  - exists h. split; [exact N|]. right. now exists (c :: p).
Qed.
Lemma valid_slice base pre s post : span_offset base (pre ++ s ++ post) (base + blen pre) (blen s) = Some (blen pre).
Proof. unfold span_offset, validate_span. rewrite !blen_app. rewrite (proj2 (Nat.leb_le _ _)) by lia. rewrite (proj2 (Nat.leb_le _ _)) by lia. cbn [andb]. f_equal. lia. Qed.

(* a slice of the source has the offset, line and column a reader counts, and is found again there *)
Theorem span_located : forall base pre s post head, line_head pre head -> let source := pre ++ s ++ post in let a := base + blen pre in
  validate_span base source a (blen s) = true /\ span_offset base source a (blen s) = Some (blen pre) /\
  span_line base source a (blen s) = Found (count_occ N.eq_dec pre 10%N + 1) /\ span_column base source a (blen s) = Found (List.length head + 1) /\
  substring source (blen pre) (blen pre + blen s) = Some s.
Proof.
  intros base pre s post head H. cbv zeta. pose proof (valid_slice base pre s post) as V. split; [unfold span_offset in V; destruct (validate_span _ _ _ _); [reflexivity|discriminate]|]. split; [exact V|]. split; [|split].
  - unfold span_line. rewrite V, slice_to_app. f_equal. f_equal. unfold newlines. clear. induction pre as [|c pre IH]; [reflexivity|]. cbn [filter count_occ]. destruct (N.eqb_spec c 10), (N.eq_dec c 10); try contradiction; cbn [List.length]; congruence.
  - unfold span_column. rewrite V, slice_to_app. destruct (start_head pre head H) as (p & E & ->). subst pre. rewrite <- app_assoc, blen_app, slice_app. reflexivity.
  - apply slice_app.
Qed.
Print Assumptions span_located.

(* any other slice is refused by all of them *)
Theorem span_foreign : forall base source a len, (a < base \/ base + blen source < a + len) ->
  validate_span base source a len = false /\ span_offset base source a len = None /\ span_line base source a len = Nothing /\ span_column base source a len = Nothing.
Proof.
  intros base source a len H. assert (V : validate_span base source a len = false) by (unfold validate_span; apply andb_false_iff; destruct H; [left|right]; apply Nat.leb_gt; lia).
  unfold span_line, span_column, span_offset. rewrite V. auto.
Qed.
Print Assumptions span_foreign.

(* the line and column name one place of the source *)
Theorem span_place_unique : forall base pre s post pre' s' post', pre ++ s ++ post = pre' ++ s' ++ post' ->
  let source := pre ++ s ++ post in
  span_line base source (base + blen pre) (blen s) = span_line base source (base + blen pre') (blen s') ->
  span_column base source (base + blen pre) (blen s) = span_column base source (base + blen pre') (blen s') -> pre = pre'.
Proof.
  intros base pre s post pre' s' post' E. cbv zeta. destruct (head_exists pre) as (h & H), (head_exists pre') as (h' & H').
  destruct (span_located base pre s post h H) as (_ & _ & -> & -> & _). rewrite E. destruct (span_located base pre' s' post' h' H') as (_ & _ & -> & -> & _).
  intros L C. injection L as L. injection C as C. apply Nat.add_cancel_r in L, C.
  assert (K : forall p q r r' hp hq, p ++ r = q ++ r' -> List.length p <= List.length q -> line_head p hp -> line_head q hq -> count_occ N.eq_dec p 10%N = count_occ N.eq_dec q 10%N -> List.length hp = List.length hq -> p = q).
  { clear. intros p q r r' hp hq E LE [Np Hp] [Nq Hq] L C. assert (exists d, q = p ++ d) as (d & ->).
    { exists (skipn (List.length p) q). rewrite <- (firstn_skipn (List.length p) q) at 1. f_equal. apply (f_equal (firstn (List.length p))) in E. rewrite !firstn_app, firstn_all, Nat.sub_diag, firstn_O, app_nil_r in E. replace (List.length p - List.length q) with 0 in E by lia. now rewrite firstn_O, app_nil_r in E. }
    rewrite count_occ_app in L. assert (Nd : ~ In 10%N d) by (intros I; apply (count_occ_In N.eq_dec) in I; lia).
    assert (hq = hp ++ d) as ->.
    { assert (U : forall b x y, line_head b x -> line_head b y -> x = y).
      { clear. assert (W : forall a b x y, ~ In 10%N x -> ~ In 10%N y -> a ++ 10%N :: x = b ++ 10%N :: y -> x = y).
        { induction a as [|c a IH]; intros [|e b] x y Nx Ny E; cbn [app] in E.
          - now injection E.
          - injection E as _ E. exfalso. apply Nx. rewrite E. apply in_elt.
          - injection E as _ E. exfalso. apply Ny. rewrite <- E. apply in_elt.
          - injection E as -> E. eapply IH; eassumption. }
        intros b x y [Nx Hx] [Ny Hy]. destruct Hx as [->|(p & ->)], Hy as [E|(q & E)]; [exact E| | |eapply W; eassumption].
        - exfalso. apply Nx. rewrite E. apply in_elt.
        - exfalso. apply Ny. rewrite <- E. apply in_elt. }
      apply (U (p ++ d)); [now split|]. split; [intros I; apply in_app_or in I as [I|I]; contradiction|]. destruct Hp as [->|(w & ->)]; [now left|right]. exists w. now rewrite <- app_assoc. }
    rewrite app_length in C. destruct d; [now rewrite app_nil_r|cbn in C; lia]. }
  destruct (Nat.le_ge_cases (List.length pre) (List.length pre')) as [LE|LE].
  - eapply K; eassumption.
  - symmetry. eapply K; [symmetry; exact E|exact LE|exact H'|exact H|now symmetry|now symmetry].
Qed.
Print Assumptions span_place_unique.

Example span_ex : let source := lit "ab" ++ [10; 233; 8364]%N ++ lit "cd" in
  span_line 100 source 108 1 = Found 2 /\ span_column 100 source 108 1 = Found 3 /\ span_offset 100 source 99 1 = None /\ line_head (lit "ab" ++ [10; 233; 8364]%N) [233; 8364]%N.
Proof. repeat split; [intros H; repeat destruct H as [H|H]; discriminate || contradiction|]. right. now exists (lit "ab"). Qed.

(* a slice is within the limits exactly when the numbers say so, and the error carries them *)
Theorem limits_checked : forall current additional limit,
  (check_memory_limit current additional limit = Within <-> current + additional <= usize_max /\ current + additional <= limit)%N /\
  (check_memory_limit current additional limit = Overflows <-> usize_max < current + additional)%N /\
  (forall t l, check_memory_limit current additional limit = Exceeds t l <-> current + additional <= usize_max /\ limit < t /\ t = current + additional /\ l = limit)%N /\
  (check_limit current limit = Within <-> current <= limit)%N /\ (forall t l, check_limit current limit = Exceeds t l <-> limit < current /\ t = current /\ l = limit)%N.
Proof.
  intros c a l. unfold check_memory_limit, check_limit. cbv zeta. destruct (N.ltb_spec usize_max (c + a)), (N.ltb_spec l (c + a)), (N.ltb_spec l c); repeat split; intros; try discriminate; try lia; try (injection H2; lia); try (injection H3; lia); try (destruct H2 as (? & ? & -> & ->)); try (destruct H2 as (? & -> & ->)); try reflexivity; try lia.
Qed.
Print Assumptions limits_checked.

(* ---- C208 ---- *)
(* bytes with which the form of a character begins *)
Definition starts (l : list N) : Prop := exists c rest, scalar c /\ encode_char c = l ++ rest.
Definition unfinished (l : list N) : Prop := exists c rest, scalar c /\ rest <> [] /\ encode_char c = l ++ rest.
(* bytes that must be given up: the beginning of a character that does not go on,
   or one byte with which none begins *)
Inductive broken : list N -> list N -> Prop :=
| br_ends l : l <> [] -> unfinished l -> broken l []
| br_stops l x b : l <> [] -> unfinished l -> ~ starts (l ++ [x]) -> broken l (x :: b)
| br_byte x b : ~ starts [x] -> broken [x] b.
(* the text bytes stand for, and how often something was given up *)
Inductive reads : list N -> str -> nat -> Prop :=
| rd_nil : reads [] [] 0
| rd_char c b s k : scalar c -> reads b s k -> reads (encode_char c ++ b) (c :: s) k
| rd_broken l b s k : broken l b -> reads b s k -> reads (l ++ b) (replacement :: s) (S k).
Lemma encodes b c : from_utf8 b = Some [c] -> b = encode_char c /\ scalar c.
Proof. intros H. apply encode_decode in H as [-> F]. inversion_clear F. split; [|assumption]. unfold encode. cbn [flat_map]. apply app_nil_r. Qed.
Lemma begun b l rest c : from_utf8 b = Some [c] -> b = l ++ rest -> rest <> [] -> unfinished l.
Proof. intros H E N. apply encodes in H as [H S]. exists c, rest. subst b. now rewrite <- E. Qed.
Lemma not_started l : (forall rest s, from_utf8 (l ++ rest) <> Some s) -> ~ starts l.
Proof. intros H (c & rest & S & E). apply (H rest [c]). rewrite <- E. rewrite <- (app_nil_r (encode_char c)). rewrite decode_char by exact S. reflexivity. Qed.
Lemma lossy_reads_n n : forall b, List.length b <= n -> exists k, reads b (lossy b) k /\ (k = 0 -> from_utf8 b = Some (lossy b)) /\ (from_utf8 b <> None -> k = 0).
Proof.
  induction n as [|n IH]; intros b L; [destruct b; [|cbn in L; lia]; exists 0; split; [constructor|split; reflexivity]|].
  destruct b as [|b0 r0]; [exists 0; split; [constructor|split; reflexivity]|]. cbn [List.length] in L.
  assert (Good : forall c h r, from_utf8 h = Some [c] -> List.length r <= n -> from_utf8 (h ++ r) = push c (from_utf8 r) -> exists k, reads (h ++ r) (c :: lossy r) k /\ (k = 0 -> from_utf8 (h ++ r) = Some (c :: lossy r)) /\ (from_utf8 (h ++ r) <> None -> k = 0)).
  { intros c h r H Lr E. destruct (IH r Lr) as (k & R & K & Z). exists k. apply encodes in H as [-> S]. split; [now constructor|]. rewrite E. split; [intros ->; rewrite K by reflexivity; reflexivity|]. intros D. apply Z. intros X. rewrite X in D. now apply D. }
  assert (Bad : forall h r, broken h r -> List.length r <= n -> from_utf8 (h ++ r) = None -> exists k, reads (h ++ r) (replacement :: lossy r) k /\ (k = 0 -> from_utf8 (h ++ r) = Some (replacement :: lossy r)) /\ (from_utf8 (h ++ r) <> None -> k = 0)).
  { intros h r H Lr E. destruct (IH r Lr) as (k & R & _). exists (S k). split; [now constructor|]. split; [discriminate|]. intros D. now rewrite E in D. }
  assert (One : lossy (b0 :: r0) = replacement :: lossy r0 -> (forall r s, from_utf8 (b0 :: r) <> Some s) -> exists k, reads (b0 :: r0) (lossy (b0 :: r0)) k /\ (k = 0 -> from_utf8 (b0 :: r0) = Some (lossy (b0 :: r0))) /\ (from_utf8 (b0 :: r0) <> None -> k = 0)).
  { intros -> H. apply (Bad [b0] r0); [|lia|]. - apply br_byte, not_started. intros rest s. apply H. - destruct (from_utf8 ([b0] ++ r0)) eqn:X; [|reflexivity]. exfalso. eapply H. exact X. }
  destruct (b0 <? 128)%N eqn:A.
  { cbn [lossy]. rewrite A. apply (Good b0 [b0] r0); [| lia |]; cbn [app from_utf8]; rewrite A; reflexivity. }
  destruct (within 194 223 b0) eqn:B2.
  { assert (U : unfinished [b0]). { eapply (begun [b0; 128%N] [b0] [128%N]); [cbn [from_utf8]; rewrite A, B2; reflexivity|reflexivity|discriminate]. }
    destruct r0 as [|b1 r1].
    - cbn [lossy]. rewrite A, B2. apply (Bad [b0] []); [now apply br_ends|cbn; lia|cbn [app from_utf8]; now rewrite A, B2].
    - cbn [lossy]. rewrite A, B2. cbn [List.length] in L. destruct (cont b1) eqn:C1.
      + apply (Good _ [b0; b1] r1); [|lia|]; cbn [app from_utf8]; rewrite A, B2, C1; reflexivity.
      + apply (Bad [b0] (b1 :: r1)); [apply br_stops; [discriminate|exact U|]|cbn [List.length]; lia|cbn [app from_utf8]; now rewrite A, B2, C1]. apply not_started. intros rest s. cbn [app from_utf8]. rewrite A, B2, C1. discriminate. }
  destruct (within 224 239 b0) eqn:B3.
  { assert (Next : forall b1, second_of_three b0 b1 = true -> unfinished [b0; b1]). { intros b1 S1. eapply (begun [b0; b1; 128%N] [b0; b1] [128%N]); [cbn [from_utf8]; rewrite A, B2, B3, S1; reflexivity|reflexivity|discriminate]. }
    assert (U : unfinished [b0]). { assert (exists b1, second_of_three b0 b1 = true) as (b1 & S1) by (unfold second_of_three; destruct (b0 =? 224)%N; [now exists 160%N|destruct (b0 =? 237)%N; now exists 128%N]). destruct (Next b1 S1) as (c & rest & S & _ & E). exists c, (b1 :: rest). repeat split; [exact S|discriminate|exact E]. }
    destruct r0 as [|b1 r1].
    - cbn [lossy]. rewrite A, B2, B3. apply (Bad [b0] []); [now apply br_ends|cbn; lia|cbn [app from_utf8]; now rewrite A, B2, B3].
    - cbn [lossy]. rewrite A, B2, B3. cbn [List.length] in L. destruct (second_of_three b0 b1) eqn:C1.
      + destruct r1 as [|b2 r2].
        * apply (Bad [b0; b1] []); [apply br_ends; [discriminate|now apply Next]|cbn; lia|cbn [app from_utf8]; now rewrite A, B2, B3].
        * cbn [List.length] in L. destruct (cont b2) eqn:C2.
          -- apply (Good _ [b0; b1; b2] r2); [|lia|]; cbn [app from_utf8]; rewrite A, B2, B3, C1, C2; reflexivity.
          -- apply (Bad [b0; b1] (b2 :: r2)); [apply br_stops; [discriminate|now apply Next|]|cbn [List.length]; lia|cbn [app from_utf8]; now rewrite A, B2, B3, C1, C2]. apply not_started. intros rest s. cbn [app from_utf8]. rewrite A, B2, B3, C1, C2. discriminate.
      + apply (Bad [b0] (b1 :: r1)); [apply br_stops; [discriminate|exact U|]|cbn [List.length]; lia|cbn [app from_utf8]; rewrite A, B2, B3, C1; now destruct r1]. apply not_started. intros rest s. cbn [app from_utf8]. rewrite A, B2, B3, C1. destruct rest; discriminate. }
  destruct (within 240 244 b0) eqn:B4.
  { assert (Next2 : forall b1 b2, second_of_four b0 b1 = true -> cont b2 = true -> unfinished [b0; b1; b2]). { intros b1 b2 S1 S2. eapply (begun [b0; b1; b2; 128%N] [b0; b1; b2] [128%N]); [cbn [from_utf8]; rewrite A, B2, B3, B4, S1, S2; reflexivity|reflexivity|discriminate]. }
    assert (Next : forall b1, second_of_four b0 b1 = true -> unfinished [b0; b1]). { intros b1 S1. destruct (Next2 b1 128%N S1 eq_refl) as (c & rest & S & _ & E). exists c, (128%N :: rest). repeat split; [exact S|discriminate|exact E]. }
    assert (U : unfinished [b0]). { assert (exists b1, second_of_four b0 b1 = true) as (b1 & S1) by (unfold second_of_four; destruct (b0 =? 240)%N; [now exists 144%N|destruct (b0 =? 244)%N; now exists 128%N]). destruct (Next b1 S1) as (c & rest & S & _ & E). exists c, (b1 :: rest). repeat split; [exact S|discriminate|exact E]. }
    destruct r0 as [|b1 r1].
    - cbn [lossy]. rewrite A, B2, B3, B4. apply (Bad [b0] []); [now apply br_ends|cbn; lia|cbn [app from_utf8]; now rewrite A, B2, B3, B4].
    - cbn [lossy]. rewrite A, B2, B3, B4. cbn [List.length] in L. destruct (second_of_four b0 b1) eqn:C1.
      + destruct r1 as [|b2 r2].
        * apply (Bad [b0; b1] []); [apply br_ends; [discriminate|now apply Next]|cbn; lia|cbn [app from_utf8]; now rewrite A, B2, B3, B4].
        * cbn [List.length] in L. destruct (cont b2) eqn:C2.
          -- destruct r2 as [|b3 r3].
             ++ apply (Bad [b0; b1; b2] []); [apply br_ends; [discriminate|now apply Next2]|cbn; lia|cbn [app from_utf8]; now rewrite A, B2, B3, B4].
             ++ cbn [List.length] in L. destruct (cont b3) eqn:C3.
                ** apply (Good _ [b0; b1; b2; b3] r3); [|lia|]; cbn [app from_utf8]; rewrite A, B2, B3, B4, C1, C2, C3; reflexivity.
                ** apply (Bad [b0; b1; b2] (b3 :: r3)); [apply br_stops; [discriminate|now apply Next2|]|cbn [List.length]; lia|cbn [app from_utf8]; now rewrite A, B2, B3, B4, C1, C2, C3]. apply not_started. intros rest s. cbn [app from_utf8]. rewrite A, B2, B3, B4, C1, C2, C3. discriminate.
          -- apply (Bad [b0; b1] (b2 :: r2)); [apply br_stops; [discriminate|now apply Next|]|cbn [List.length]; lia|cbn [app from_utf8]; rewrite A, B2, B3, B4, C1, C2; now destruct r2]. apply not_started. intros rest s. cbn [app from_utf8]. rewrite A, B2, B3, B4, C1, C2. destruct rest; discriminate.
      + apply (Bad [b0] (b1 :: r1)); [apply br_stops; [discriminate|exact U|]|cbn [List.length]; lia|cbn [app from_utf8]; rewrite A, B2, B3, B4, C1; now destruct r1 as [|? [|? ?]]]. apply not_started. intros rest s. cbn [app from_utf8]. rewrite A, B2, B3, B4, C1. destruct rest as [|? [|? ?]]; discriminate. }
  apply One; [cbn [lossy]; now rewrite A, B2, B3, B4|]. intros r s. cbn [from_utf8]. rewrite A, B2, B3, B4. discriminate.
Qed.

Lemma prefix_char c c' l : scalar c -> scalar c' -> encode_char c = encode_char c' ++ l -> c = c' /\ l = [].
Proof.
  intros S S' E. pose proof (decode_char c [] S) as D. rewrite app_nil_r, E, (decode_char c' l S') in D. destruct (from_utf8 l) as [s|] eqn:F; [|discriminate]. cbn [push from_utf8] in D. injection D as -> ->. split; [reflexivity|]. now apply encode_decode in F as [-> _].
Qed.
Lemma char_broken c r l r' : scalar c -> broken l r' -> encode_char c ++ r = l ++ r' -> False.
Proof.
  intros S B E. assert (Ne : encode_char c <> []) by (unfold encode_char; destruct (c <? 128)%N, (c <? 2048)%N, (c <? 65536)%N; discriminate). apply app_eq_app in E as (d & [[E1 E2]|[E1 E2]]).
  - destruct B as [l N (c' & rest & S' & Nr & E3)|l x b N (c' & rest & S' & Nr & E3) NS|x b NS].
    + symmetry in E2. apply app_eq_nil in E2 as [-> _]. rewrite app_nil_r in E1. rewrite <- E1 in E3. apply (prefix_char c' c rest S' S) in E3 as [_ E3]. contradiction.
    + destruct d as [|y d]; [rewrite app_nil_r in E1; rewrite <- E1 in E3; apply (prefix_char c' c rest S' S) in E3 as [_ E3]; contradiction|]. injection E2 as -> _. apply NS. exists c, d. split; [exact S|]. now rewrite <- app_assoc.
    + apply NS. now exists c, d.
  - destruct B as [l N (c' & rest & S' & Nr & E3)|l x b N (c' & rest & S' & Nr & E3) NS|x b NS].
    + rewrite E1, <- app_assoc in E3. apply (prefix_char c' c _ S' S) in E3 as [_ E3]. apply app_eq_nil in E3 as [_ E3]. contradiction.
    + rewrite E1, <- app_assoc in E3. apply (prefix_char c' c _ S' S) in E3 as [_ E3]. apply app_eq_nil in E3 as [_ E3]. contradiction.
    + apply NS. destruct (encode_char c) as [|y e] eqn:Ec; [contradiction|]. injection E1 as -> E1. symmetry in E1. apply app_eq_nil in E1 as [-> _]. exists c, []. now split.
Qed.
Lemma broken_longer l r l' r' d : broken l r -> broken l' r' -> l = l' ++ d -> r' = d ++ r -> d = [].
Proof.
  intros B B' E E2. destruct d as [|x d]; [reflexivity|exfalso].
  assert (U : starts (l' ++ [x]) \/ exists y, l = [y]).
  { destruct B as [l N (c & rest & S & _ & E3)|l z b N (c & rest & S & _ & E3) _|z b _]; [left|left|right; now exists z]; exists c, (d ++ rest); (split; [exact S|]); rewrite E3, E, <- !app_assoc; reflexivity. }
  destruct B' as [l' N _|l' y b N _ NS|y b NS].
  - discriminate.
  - injection E2 as -> _. destruct U as [U|(y & ->)]; [contradiction|]. destruct l' as [|w l']; [contradiction|]. injection E as -> E. now destruct l'.
  - destruct U as [(c & rest & S & E3)|(w & ->)]; [|discriminate]. apply NS. exists c, (x :: rest). now split.
Qed.
(* the description leaves no choice *)
Theorem utf8_reading_unique : forall b s k, reads b s k -> forall s' k', reads b s' k' -> s = s' /\ k = k'.
Proof.
  assert (Ne : forall l r, broken l r -> l <> []) by (intros l r [| |]; [assumption|assumption|discriminate]).
  assert (Nc : forall c, encode_char c <> []) by (intros c; unfold encode_char; destruct (c <? 128)%N, (c <? 2048)%N, (c <? 65536)%N; discriminate).
  induction 1 as [|c b s k S R IH|l b s k B R IH]; intros s' k' R'.
  - inversion R' as [|c b s k S R E|l b s k B R E]; subst; [now split| |]; exfalso; apply app_eq_nil in E as [E _]; [exact (Nc c E)|exact (Ne _ _ B E)].
  - inversion R' as [E|c2 b2 s2 k2 S2 R2 E|l b2 s2 k2 B R2 E]; subst.
    + exfalso. symmetry in E. apply app_eq_nil in E as [E _]. exact (Nc c E).
    + assert (c = c2 /\ b = b2) as [<- <-]. { pose proof E as E0. apply app_eq_app in E as (d & [[E1 E2]|[E1 E2]]); [destruct (prefix_char c2 c d S2 S E1) as [-> ->]|destruct (prefix_char c c2 d S S2 E1) as [-> ->]]; (split; [reflexivity|]); cbn [app] in E2; congruence. } destruct (IH _ _ R2) as [-> ->]. now split.
    + exfalso. symmetry in E. exact (char_broken c b l b2 S B E).
  - inversion R' as [E|c2 b2 s2 k2 S2 R2 E|l2 b2 s2 k2 B2 R2 E]; subst.
    + exfalso. symmetry in E. apply app_eq_nil in E as [E _]. exact (Ne _ _ B E).
    + exfalso. exact (char_broken c2 b2 l b S2 B E).
    + assert (b = b2) as <-. { apply app_eq_app in E as (d & [[E1 E2]|[E1 E2]]); [pose proof (broken_longer l2 b2 l b d B2 B E1 E2) as Z|pose proof (broken_longer l b l2 b2 d B B2 E1 E2) as Z]; subst d; cbn [app] in E2; congruence. } destruct (IH _ _ R2) as [-> ->]. now split.
Qed.
Print Assumptions utf8_reading_unique.

(* every byte is read as part of a character or given up with what it began; the
   count is that of the replacement characters when anything was given up *)
Theorem utf8_recovered : forall b, exists k, let (s, n) := recover_utf8 b in reads b s k /\ n = (if k =? 0 then 0 else count_occ N.eq_dec s replacement).
Proof.
  intros b. destruct (lossy_reads_n _ b (Nat.le_refl _)) as (k & R & K & Z). exists k. unfold recover_utf8. destruct (from_utf8 b) as [s|] eqn:E.
  - assert (k = 0) as -> by (apply Z; discriminate). specialize (K eq_refl). injection K as ->. now split.
  - cbv zeta. split; [exact R|]. destruct (Nat.eqb_spec k 0) as [->|_]; [specialize (K eq_refl); discriminate|]. unfold count_replacement_chars. generalize (lossy b). clear. intros s. induction s as [|c s IH]; [reflexivity|]. cbn [filter count_occ]. destruct (N.eqb_spec c replacement), (N.eq_dec c replacement); try contradiction; cbn [List.length]; congruence.
Qed.
Print Assumptions utf8_recovered.

(* what is recovered is text, of at most three bytes for each byte given *)
Theorem utf8_recovered_text : forall b, Forall scalar (fst (recover_utf8 b)) /\ blen (fst (recover_utf8 b)) <= 3 * List.length b.
Proof.
  intros b. destruct (utf8_recovered b) as (k & H). destruct (recover_utf8 b) as [s n]. destruct H as [R _]. cbn [fst]. induction R as [|c b s k S R [F IH]|l b s k B R [F IH]]; [split; [constructor|reflexivity]| |].
  - split; [now constructor|]. rewrite app_length. cbn [blen]. pose proof (encode_length [c]) as E. unfold encode in E. cbn [flat_map blen] in E. rewrite app_nil_r in E. lia.
  - split; [constructor; [|exact F]; unfold scalar, replacement; lia|]. rewrite app_length. cbn [blen]. change (len_utf8 replacement) with 3. assert (1 <= List.length l) by (destruct B; [destruct l; [contradiction|cbn; lia]|destruct l; [contradiction|cbn; lia]|reflexivity]). lia.
Qed.
Print Assumptions utf8_recovered_text.

(* well-formed bytes are kept and report nothing, whatever they contain *)
Theorem utf8_kept : forall s, Forall scalar s -> recover_utf8 (encode s) = (s, 0).
Proof. intros s F. unfold recover_utf8. now rewrite decode_encode. Qed.
Print Assumptions utf8_kept.

Example recover_ex : recover_utf8 [72; 255; 226; 130; 33; 240; 159; 146]%N = ([72; 65533; 65533; 33; 65533]%N, 3).
Proof. vm_compute. reflexivity. Qed.

(* the count is not that of what was given up: a replacement character already
   in the bytes is counted when something else is wrong *)
Theorem utf8_count_refuted : exists b k, reads b (fst (recover_utf8 b)) k /\ snd (recover_utf8 b) <> k.
Proof.
  exists (encode_char replacement ++ [255%N] ++ []), 1. split; [|vm_compute; discriminate]. change (fst (recover_utf8 _)) with [replacement; replacement]. apply rd_char; [unfold scalar, replacement; lia|]. apply rd_broken; [|constructor]. apply br_byte, not_started. intros rest s. cbn [app from_utf8]. discriminate.
Qed.
Print Assumptions utf8_count_refuted.
