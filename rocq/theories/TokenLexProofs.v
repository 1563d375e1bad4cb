(* Proofs that the tokenizer follows the lexical grammar. *)
From Verif Require Import Base BaseLemmas StreamModel StreamSpec StreamProofs TokenModel TokenSpec TokenProofs.

(* ---- places ---- *)
Definition ends_cr (p : str) : Prop := exists q, p = q ++ [13%N].
Definition placed (cols : bool) (p : str) (n : nav) : Prop :=
  nv_line n = line_after p /\ (cols = true -> column_after p (nv_col n)) /\ (nv_last n = Some 13%N <-> ends_cr p).
Definition over (a : str) (n n' : nav) : Prop :=
  nv_rest n = a ++ nv_rest n' /\ nv_pos n' = nv_pos n + blen a /\ forall cols p, placed cols p n -> placed cols (p ++ a) n'.

Lemma over_refl n : over [] n n.
Proof. split; [reflexivity|]. split; [cbn [blen]; lia|]. intros cols p H. now rewrite app_nil_r. Qed.
Lemma over_trans a b n n1 n2 : over a n n1 -> over b n1 n2 -> over (a ++ b) n n2.
Proof.
  intros (A1 & A2 & A3) (B1 & B2 & B3). split; [now rewrite A1, B1, app_assoc|]. split; [rewrite B2, A2, blen_app; lia|].
  intros cols p H. rewrite app_assoc. auto.
Qed.
Definition last_cr (f : bool) (p : str) : bool := fold_left (fun _ c => (c =? 13)%N) p f.
Lemma last_cr_snoc f p c : last_cr f (p ++ [c]) = (c =? 13)%N.
Proof. unfold last_cr. now rewrite fold_left_app. Qed.
Lemma ends_cr_snoc p c : ends_cr (p ++ [c]) <-> c = 13%N.
Proof. split; [intros [q H]; now apply app_inj_tail in H|intros ->; now exists p]. Qed.
Lemma ends_cr_last p : ends_cr p <-> last_cr false p = true.
Proof.
  destruct p as [|c p] using rev_ind; [split; [intros [q H]; destruct q; discriminate|discriminate]|].
  rewrite ends_cr_snoc, last_cr_snoc. now rewrite N.eqb_eq.
Qed.
Lemma breaks_app f a b : line_breaks f (a ++ b) = line_breaks f a + line_breaks (last_cr f a) b.
Proof. revert f. induction a as [|c a IH]; intros f; [reflexivity|]. cbn [app line_breaks]. rewrite IH. unfold last_cr. cbn [fold_left]. lia. Qed.
Lemma column_snoc p c col : column_after p col -> column_after (p ++ [c]) (if ((c =? 13) || (c =? 10))%N then 1 else S col).
Proof.
  intros (a & b & -> & A & B & ->). destruct ((c =? 13) || (c =? 10))%N eqn:E.
  - exists ((a ++ b) ++ [c]), []. rewrite app_nil_r. repeat split; [|constructor].
    right. exists (a ++ b), c. split; [reflexivity|]. unfold line_end. lia.
  - exists a, (b ++ [c]). repeat split; [now rewrite app_assoc|exact A| |rewrite app_length; cbn; lia].
    apply Forall_app. split; [exact B|]. constructor; [|constructor]. unfold line_end. lia.
Qed.
Lemma advance_over n c r : nv_rest n = c :: r -> exists n', advance n = Some n' /\ over [c] n n' /\ nv_rest n' = r.
Proof.
  intros R. unfold advance. rewrite R. eexists. split; [reflexivity|]. split.
  2:{ destruct (c =? 13)%N, (c =? 10)%N; reflexivity. }
  split; [rewrite R; destruct (c =? 13)%N, (c =? 10)%N; reflexivity|].
  split; [destruct (c =? 13)%N, (c =? 10)%N; cbn; lia|].
  intros cols p (L & C & S). unfold placed. rewrite ends_cr_snoc. split; [|split].
  - unfold line_after in *. rewrite breaks_app. cbn [line_breaks]. destruct (N.eqb_spec c 13) as [->|N1]; [cbn; lia|].
    destruct (N.eqb_spec c 10) as [->|N2]; [|cbn; lia]. cbn [nv_line].
    destruct (last_cr false p) eqn:E.
    + apply ends_cr_last in E. apply S in E. rewrite E. change (13 =? 13)%N with true. cbv iota. lia.
    + destruct (nv_last n) as [l|] eqn:El; [|lia]. destruct (N.eqb_spec l 13) as [->|N3]; [|lia].
      assert (Q : ends_cr p) by now apply S. apply ends_cr_last in Q. congruence.
  - intros Q. specialize (C Q). apply (column_snoc p c) in C.
    destruct (N.eqb_spec c 13) as [->|N1]; [exact C|]. destruct (N.eqb_spec c 10) as [->|N2]; exact C.
  - destruct (N.eqb_spec c 13) as [->|N1]; cbn [nv_last]; [tauto|]. destruct (N.eqb_spec c 10) as [->|N2]; cbn [nv_last]; split; congruence.
Qed.
Definition stops (stop : char -> bool) (s : str) : Prop := match s with [] => True | c :: _ => stop c = true end.
Lemma scan_rest_over stop a : forall b n, nv_rest n = a ++ b -> Forall (fun c => stop c = false) a -> stops stop b ->
  over a n (scan_rest stop (a ++ b) n) /\ nv_rest (scan_rest stop (a ++ b) n) = b.
Proof.
  induction a as [|c a IH]; intros b n R F B.
  - cbn [app] in *. assert (E : scan_rest stop b n = n).
    { destruct b as [|d b]; [reflexivity|]. cbn [scan_rest]. cbn in B. now rewrite B. }
    rewrite E. split; [apply over_refl|exact R].
  - cbn [app scan_rest]. rewrite (Forall_inv F). destruct (advance_over n c (a ++ b) R) as (n' & -> & O & R').
    destruct (IH b n' R' (Forall_inv_tail F) B) as [O2 R2]. split; [|exact R2].
    change (c :: a) with ([c] ++ a). now apply over_trans with n'.
Qed.
Lemma scan_until_over stop a b n : nv_rest n = a ++ b -> Forall (fun c => stop c = false) a -> stops stop b ->
  over a n (scan_until stop n) /\ nv_rest (scan_until stop n) = b.
Proof. intros R F B. unfold scan_until. rewrite R. now apply scan_rest_over. Qed.
Lemma split_stop stop s : exists a b, s = a ++ b /\ Forall (fun c => stop c = false) a /\ stops stop b.
Proof.
  induction s as [|c s (a & b & -> & F & B)]; [exists [], []; repeat split; constructor|].
  destruct (stop c) eqn:E; [exists [], (c :: a ++ b); repeat split; [constructor|exact E]|].
  exists (c :: a), b. repeat split; auto.
Qed.

(* ---- blanks ---- *)
Definition blankb (c : char) : bool := (is_ws c && negb (c =? 10) && negb (c =? 13))%N.
Lemma blankb_spec c : blankb c = true <-> blank c.
Proof. unfold blankb, blank, line_end. rewrite !andb_true_iff, !negb_true_iff, !N.eqb_neq. tauto. Qed.
Lemma blankb_false c : blankb c = false <-> ~ blank c.
Proof. rewrite <- blankb_spec. now destruct (blankb c). Qed.
Lemma skip_over gap s n : nv_rest n = gap ++ s -> Forall blank gap -> next_is (fun d => ~ blank d) s ->
  over gap n (skip_whitespace n) /\ nv_rest (skip_whitespace n) = s.
Proof.
  intros R G S. unfold skip_whitespace. apply scan_until_over; [exact R| |].
  - eapply Forall_impl; [|exact G]. intros c H. apply blankb_spec in H. fold (blankb c). now rewrite H.
  - destruct s as [|c s]; [exact I|]. cbn in *. fold (blankb c). apply blankb_false in S. now rewrite S.
Qed.
Lemma skipped_exists c s : exists gap s1, s = gap ++ s1 /\ skipped c gap s1.
Proof.
  destruct (split_stop (fun c => negb (blankb c)) s) as (a & b & -> & F & B).
  assert (K : Forall blank a /\ next_is (fun d => ~ blank d) b).
  { split; [eapply Forall_impl; [|exact F]; intros d H; apply blankb_spec; cbv beta in H; now destruct (blankb d)|].
    destruct b as [|d b]; [exact I|]. cbn in *. apply blankb_false. now destruct (blankb d). }
  destruct c; try (exists a, b; split; [reflexivity|exact K]). exists [], (a ++ b). split; reflexivity.
Qed.
Lemma skipped_over c gap s n : nv_rest n = gap ++ s -> skipped c gap s ->
  let n1 := if skips_ws c then skip_whitespace n else n in over gap n n1 /\ nv_rest n1 = s.
Proof.
  intros R S. destruct c; cbn [skips_ws skipped] in *; cbv zeta iota; try (destruct S; now apply skip_over).
  subst gap. split; [apply over_refl|exact R].
Qed.

(* ---- kinds of text ---- *)
Lemma hex_ascii_char c : is_hex c = true -> (c < 128)%N /\ exists d, to_digit 16 c = Some d.
Proof.
  intros H. rewrite <- hex_digit_to_digit. unfold is_hex, is_digit, hex_digit in *.
  destruct ((48 <=? c) && (c <=? 57))%N eqn:E1; [split; [lia|eauto]|].
  destruct ((65 <=? c) && (c <=? 70))%N eqn:E2; [split; [lia|eauto]|].
  destruct ((97 <=? c) && (c <=? 102))%N eqn:E3; [split; [lia|eauto]|]. discriminate.
Qed.
Lemma all_hex d : forallb is_hex d = true -> blen d = List.length d /\ exists v, hex_value d v.
Proof.
  intros H. rewrite forallb_forall in H. split.
  - apply blen_ascii. apply Forall_forall. intros c Hc. now apply hex_ascii_char, H.
  - assert (E : exists ds, Forall2 (fun c d => to_digit 16 c = Some d) d ds).
    { induction d as [|c d IH]; [now exists []|]. destruct IH as [ds F]; [intros x Hx; apply H; now right|].
      destruct (hex_ascii_char c) as [_ [v Hv]]; [apply H; now left|]. exists (v :: ds). now constructor. }
    destruct E as [ds F]. eexists. exists ds. split; [exact F|reflexivity].
Qed.
Lemma strip_amp_cases s : (exists r, s = r ++ [38%N] /\ strip_amp s = r) \/ (strip_amp s = s /\ forall r, s <> r ++ [38%N]).
Proof.
  unfold strip_amp. destruct s as [|c s _] using rev_ind; [right; split; [reflexivity|intros [|? ?]; discriminate]|].
  rewrite rev_app_distr. cbn [rev app]. destruct (N.eqb_spec c 38) as [->|Q].
  - left. exists s. now rewrite rev_involutive.
  - right. split; [reflexivity|]. intros r E. apply app_inj_tail in E. now destruct E.
Qed.
Lemma is_hex_value_spec simd s : is_hex_value simd s = true <-> hex_literal s.
Proof.
  unfold is_hex_value, hex_literal. destruct (strip_prefix (lit "&H") s) as [x|] eqn:E.
  2:{ split; [discriminate|]. intros (d & e & H & _). apply strip_prefix_some in H. congruence. }
  apply strip_prefix_some in E. subst s.
  assert (K : forall h, (if negb (blen h =? 0) && (blen h mod 2 =? 0) && (blen h <=? 8) && forallb is_hex h
                then if simd then match parse_hex_u32 simd h with Some _ => true | None => false end else true else false) = true
              <-> In (List.length h) [2; 4; 6; 8] /\ forallb is_hex h = true).
  { intros h. destruct (forallb is_hex h) eqn:H; [|rewrite andb_false_r; split; [discriminate|intros [_ ?]; discriminate]].
    destruct (all_hex h H) as (B & v & V). rewrite B, andb_true_r.
    assert (P : List.length h <= 8 -> h <> [] -> parse_hex_u32 simd h = Some v) by (intros; apply hex_parse; left; auto).
    assert (M : In (List.length h) [2; 4; 6; 8] <-> negb (List.length h =? 0) && (List.length h mod 2 =? 0) && (List.length h <=? 8) = true).
    { split.
      - cbn [In]. intros [<-|[<-|[<-|[<-|[]]]]]; reflexivity.
      - intros Q. apply andb_true_iff in Q as [Q Q3]. apply andb_true_iff in Q as [Q1 Q2]. apply Nat.leb_le in Q3.
        clear -Q1 Q2 Q3. do 9 (destruct h as [|? h]; [cbn in *; try discriminate; tauto|]). cbn in Q3. lia. }
    split.
    - intros Q. split; [|reflexivity]. apply M. now destruct (negb _ && _ && _).
    - intros [Q _]. pose proof (proj1 M Q) as Q'. rewrite Q'. destruct simd; [|reflexivity].
      rewrite P; [reflexivity| |].
      + apply andb_true_iff in Q' as [_ Q3]. now apply Nat.leb_le in Q3.
      + intros ->. cbn in Q. lia. }
  rewrite K. clear K. split.
  - intros [L H]. destruct (strip_amp_cases x) as [(r & -> & Q)|(Q & _)]; rewrite Q in *.
    + exists r, (lit "&"). auto.
    + exists x, []. rewrite app_nil_r. auto.
  - intros (d & e & Q & He & L & H). apply app_inv_head in Q. subst x. destruct (strip_amp_cases (d ++ e)) as [(r & Q & ->)|(-> & N)].
    + destruct He as [->| ->].
      * rewrite app_nil_r in Q. exfalso. subst d. rewrite forallb_app in H. apply andb_true_iff in H as [_ H]. discriminate H.
      * apply app_inj_tail in Q as [<- _]. auto.
    + destruct He as [->| ->]; [now rewrite app_nil_r|]. now specialize (N d).
Qed.
Lemma numeral_spec s : forallb (fun c => is_digit c || (c =? 46) || (c =? 45))%N s = true <-> numeral [] s.
Proof.
  unfold numeral. rewrite forallb_forall, Forall_forall. cbn [app In]. split; intros H x Hx; specialize (H x Hx); cbn in *; destruct (is_digit x); lia.
Qed.
Lemma numeral_colon_spec s : forallb (fun c => is_digit c || (c =? 46) || (c =? 45) || (c =? 58))%N s = true <-> numeral [58%N] s.
Proof.
  unfold numeral. rewrite forallb_forall, Forall_forall. cbn [app In]. split; intros H x Hx; specialize (H x Hx); cbn in *; destruct (is_digit x); lia.
Qed.
Lemma pick_text (h n w : bool) P Q k : (h = true <-> P) -> (n = true <-> Q) ->
  (if h then TkHex else if n then TkNumber else if w then TkWhitespace else TkText) = k <->
  (P /\ k = TkHex) \/ (~ P /\ Q /\ k = TkNumber) \/ (~ P /\ ~ Q /\ w = true /\ k = TkWhitespace) \/ (~ P /\ ~ Q /\ w = false /\ k = TkText).
Proof.
  intros A B. assert (A' : h = true \/ h = false) by (destruct h; auto). assert (B' : n = true \/ n = false) by (destruct n; auto).
  destruct A' as [A'|A'], B' as [B'|B'], w; rewrite A', ?B' in *; split.
  all: try (intros <-). all: intuition (try congruence).
Qed.
Lemma pick_value (n w : bool) Q k : (n = true <-> Q) ->
  (if n then TkNumber else if w then TkWhitespace else TkText) = k <->
  (Q /\ k = TkNumber) \/ (~ Q /\ w = true /\ k = TkWhitespace) \/ (~ Q /\ w = false /\ k = TkText).
Proof.
  intros B. assert (B' : n = true \/ n = false) by (destruct n; auto).
  destruct B' as [B'|B'], w; rewrite ?B' in *; split.
  all: try (intros <-). all: intuition (try congruence).
Qed.
Lemma text_kind_spec simd s k : s <> [] -> text_type simd CtxDocument s = k <-> text_kind s k.
Proof.
  intros N. unfold text_type, text_kind. destruct s as [|c s]; [congruence|]. cbn [andb].
  apply pick_text; [apply is_hex_value_spec|apply numeral_spec].
Qed.
Lemma value_kind_spec s k : s <> [] -> value_type s = k <-> value_kind s k.
Proof.
  intros N. unfold value_type, value_kind. destruct s as [|c s]; [congruence|]. cbn [andb].
  apply pick_value, numeral_colon_spec.
Qed.

(* ---- braces ---- *)
Lemma count_cons k c s : count k (c :: s) = (if (c =? k)%N then 1 else 0) + count k s.
Proof. unfold count. cbn [filter]. destruct (c =? k)%N; reflexivity. Qed.
Lemma braces_over x : forall d b n, nv_rest n = x ++ b -> 1 <= d -> (forall p q, x = p ++ q -> count 125 p < d + count 123 p) ->
  next_is (fun c => c = 125%N /\ count 125 x + 1 = d + count 123 x) b ->
  over x n (scan_braces (x ++ b) d n) /\ nv_rest (scan_braces (x ++ b) d n) = b.
Proof.
  induction x as [|c x IH]; intros d b n R D F B.
  - cbn [app] in *. assert (E : scan_braces b d n = n).
    { destruct b as [|c b]; [reflexivity|]. cbn in B. destruct B as [-> B]. destruct d as [|d]; [lia|].
      cbn [scan_braces]. change (125 =? 123)%N with false. change (125 =? 125)%N with true. cbv iota zeta.
      replace (S d - 1) with 0 by lia. reflexivity. }
    rewrite E. split; [apply over_refl|exact R].
  - cbn [app scan_braces]. destruct d as [|d]; [lia|].
    set (d' := if (c =? 123)%N then S (S d) else if (c =? 125)%N then S d - 1 else S d).
    assert (E : d' + count 125 [c] = S d + count 123 [c]).
    { specialize (F [c] x eq_refl). unfold d', count in *. cbn [filter] in *.
      destruct (N.eqb_spec c 123), (N.eqb_spec c 125); cbn [List.length] in *; lia. }
    assert (D' : 1 <= d') by (specialize (F [c] x eq_refl); lia).
    clearbody d'. destruct d' as [|e]; [lia|]. set (d' := S e) in *.
    destruct (advance_over n c (x ++ b) R) as (n' & -> & O & R').
    destruct (IH d' b n' R' D') as [O2 R2].
    + intros p q ->. specialize (F (c :: p) q eq_refl). rewrite !count_cons in F. unfold count in E at 1 2. cbn [filter] in E.
      destruct (N.eqb_spec c 123), (N.eqb_spec c 125); cbn [List.length] in E; lia.
    + destruct b as [|y b]; [exact I|]. cbn [next_is] in B |- *. destruct B as [-> B]. split; [reflexivity|]. rewrite !count_cons in B.
      unfold count in E at 1 2. cbn [filter] in E. destruct (N.eqb_spec c 123), (N.eqb_spec c 125); cbn [List.length] in E; lia.
    + split; [|exact R2]. change (c :: x) with ([c] ++ x). now apply over_trans with n'.
Qed.
Lemma braces_split s : forall d, 1 <= d -> exists x b, s = x ++ b /\ (forall p q, x = p ++ q -> count 125 p < d + count 123 p) /\
  next_is (fun c => c = 125%N /\ count 125 x + 1 = d + count 123 x) b.
Proof.
  induction s as [|c s IH]; intros d D.
  - exists [], []. repeat split. intros p q H. symmetry in H. apply app_eq_nil in H as [-> ->]. cbn. lia.
  - destruct (N.eqb_spec c 125) as [->|N1].
    + destruct (Nat.eq_dec d 1) as [->|Q].
      * exists [], (125%N :: s). repeat split. intros p q H. symmetry in H. apply app_eq_nil in H as [-> ->]. cbn. lia.
      * destruct (IH (d - 1)) as (x & b & -> & F & B); [lia|]. exists (125%N :: x), b. split; [reflexivity|]. split.
        -- intros p q H. destruct p as [|y p]; [cbn; lia|]. injection H as <- ->. specialize (F p q eq_refl). rewrite !count_cons. change (125 =? 125)%N with true. change (125 =? 123)%N with false. cbv iota. lia.
        -- destruct b as [|y b]; [exact I|]. cbn [next_is] in B |- *. destruct B as [-> B]. split; [reflexivity|]. rewrite !count_cons. change (125 =? 125)%N with true. change (125 =? 123)%N with false. cbv iota. lia.
    + destruct (IH (if (c =? 123)%N then S d else d)) as (x & b & -> & F & B); [destruct (c =? 123)%N; lia|].
      exists (c :: x), b. split; [reflexivity|]. apply N.eqb_neq in N1. split.
      * intros p q H. destruct p as [|y p]; [cbn; lia|]. injection H as <- ->. specialize (F p q eq_refl). rewrite !count_cons, N1.
        destruct (c =? 123)%N; lia.
      * destruct b as [|y b]; [exact I|]. cbn [next_is] in B |- *. destruct B as [-> B]. split; [reflexivity|]. rewrite !count_cons, N1.
        destruct (c =? 123)%N; lia.
Qed.

(* ---- one token ---- *)
Lemma lacks_false stop (P : char -> Prop) s : (forall c, stop c = true <-> P c) -> lacks P s <-> Forall (fun c => stop c = false) s.
Proof.
  intros H. unfold lacks. rewrite !Forall_forall. split; intros F x Hx; specialize (F x Hx); rewrite <- ?H in *; destruct (stop x); congruence.
Qed.
Lemma next_stops stop (P : char -> Prop) s : (forall c, stop c = true <-> P c) -> next_is P s <-> stops stop s.
Proof. intros H. destruct s as [|c s]; [reflexivity|]. cbn. now rewrite H. Qed.
Lemma value_stop_spec c : value_stop c = true <-> value_ends c.
Proof. unfold value_stop, value_ends, one_of. cbn [In]. lia. Qed.
Lemma doc_stop_spec c : text_stop CtxDocument c = true <-> text_ends false c.
Proof. unfold text_stop, text_ends, one_of. cbn [app In]. rewrite andb_true_r. lia. Qed.
Lemma comment_stop_spec c : ((c =? 10) || (c =? 13))%N = true <-> line_end c.
Proof. unfold line_end. lia. Qed.
Lemma bracket_stop_spec c : (c =? 93)%N = true <-> 93%N = c.
Proof. lia. Qed.

Lemma text_nav simd span rest n : nv_rest n = span ++ rest -> span <> [] -> lacks (text_ends simd) span -> next_is (text_ends simd) rest ->
  exists n', scan_text_nav simd CtxDocument n = Some n' /\ nv_rest n' = rest /\ nv_pos n' = nv_pos n + blen span /\
  (simd = false -> over span n n') /\ (nv_line n' = nv_line n /\ nv_last n' = nv_last n \/ simd = false).
Proof.
  intros R N L S. unfold scan_text_nav. destruct simd; cbn [andb].
  - assert (E : (match scan_delimiters true (nv_rest n) with Some o => o | None => blen (nv_rest n) end) = blen span).
    { rewrite R. destruct rest as [|c rest].
      - rewrite app_nil_r. rewrite (proj2 (delimiters_none true span)); [reflexivity|exact L].
      - rewrite (proj2 (delimiters_some true _ (blen span))); [reflexivity|]. exists span, c, rest. repeat split; auto. }
    rewrite E, R, slice_from_app. eexists. split; [reflexivity|]. cbn. split; [reflexivity|]. split; [reflexivity|]. split; [discriminate|auto].
  - destruct (scan_until_over (text_stop CtxDocument) span rest n R) as [O R'].
    + now apply (lacks_false _ _ _ doc_stop_spec).
    + now apply (next_stops _ _ _ doc_stop_spec).
    + eexists. split; [reflexivity|]. split; [exact R'|]. split; [apply O|]. auto.
Qed.
Lemma line_breaks_none f s : lacks line_end s -> line_breaks f s = 0.
Proof.
  intros H. revert f. induction H as [|c s N _ IH]; intros f; [reflexivity|]. cbn [line_breaks]. rewrite IH.
  destruct (N.eqb_spec c 13); [exfalso; apply N; now right|]. destruct (N.eqb_spec c 10); [exfalso; apply N; now left|reflexivity].
Qed.
Definition may_place (simd cols : bool) (p s : str) : Prop := simd = false \/ (cols = false /\ (ends_cr p -> next_is (eq 10%N) s)).
Lemma text_lacks_line_end simd s : lacks (text_ends simd) s -> lacks line_end s.
Proof.
  unfold lacks. intros H. eapply Forall_impl; [|exact H]. cbn. intros c N Q. apply N. unfold line_end in Q. destruct Q; subst c; tauto.
Qed.
Lemma ends_cr_app p s : s <> [] -> lacks line_end s -> ~ ends_cr (p ++ s).
Proof.
  intros N L. destruct s as [|c s _] using rev_ind; [congruence|]. rewrite app_assoc, ends_cr_snoc. intros ->.
  apply Forall_app in L as [_ L]. apply Forall_inv in L. apply L. now right.
Qed.
Lemma over_may_place simd span rest n n' : over span n n' -> forall cols p, may_place simd cols p (span ++ rest) -> placed cols p n -> placed cols (p ++ span) n'.
Proof. intros (_ & _ & H) cols p _. apply H. Qed.

Definition arm_ok (simd : bool) (pre span rest : str) (n n' : nav) : Prop :=
  nv_rest n' = rest /\ nv_pos n' = blen (pre ++ span) /\
  forall cols p, may_place simd cols p (span ++ rest) -> placed cols p n -> placed cols (p ++ span) n'.
Lemma over_arm_ok simd pre span rest n n' : nv_pos n = blen pre -> over span n n' -> nv_rest n' = rest -> arm_ok simd pre span rest n n'.
Proof. intros P O R. split; [exact R|]. split; [destruct O as (_ & -> & _); rewrite blen_app; lia|]. now apply over_may_place. Qed.
Lemma one_ok simd pre c rest n ty ctx : nv_pos n = blen pre -> nv_rest n = c :: rest -> exists n', one ty n ctx = Arm ty n' ctx /\ arm_ok simd pre [c] rest n n'.
Proof.
  intros P R. unfold one. destruct (advance_over n c rest R) as (n' & -> & O & R'). exists n'. split; [reflexivity|]. now apply over_arm_ok.
Qed.

Lemma comment_ok simd pre span rest n ctx : nv_pos n = blen pre -> nv_rest n = span ++ rest -> lacks line_end span -> next_is line_end rest ->
  exists n', comment_arm ctx n = Arm TkComment n' ctx /\ arm_ok simd pre span rest n n'.
Proof.
  intros P R L S. unfold comment_arm. destruct (scan_until_over (fun c => (c =? 10) || (c =? 13))%N span rest n R) as [O R'].
  - now apply (lacks_false _ _ _ comment_stop_spec).
  - now apply (next_stops _ _ _ comment_stop_spec).
  - eexists. split; [reflexivity|]. now apply over_arm_ok.
Qed.
Lemma text_ok simd pre span rest k n : nv_pos n = blen pre -> nv_rest n = span ++ rest -> span <> [] ->
  lacks (text_ends simd) span -> next_is (text_ends simd) rest -> text_kind span k ->
  exists n', text_arm simd (pre ++ span ++ rest) CtxDocument n = Arm k n' CtxDocument /\ arm_ok simd pre span rest n n'.
Proof.
  intros P R N L S K. unfold text_arm. destruct (text_nav simd span rest n R N L S) as (n' & -> & R' & P' & O & Q).
  rewrite P', P, slice_app. apply (text_kind_spec simd) in K; [|exact N]. rewrite K. eexists. split; [reflexivity|].
  split; [exact R'|]. split; [rewrite P', P, blen_app; lia|]. intros cols p M H.
  destruct simd; [|now apply (over_may_place false span rest n n' (O eq_refl) cols p M)].
  destruct M as [M|[-> M]]; [discriminate|]. destruct Q as [[Q1 Q2]|Q]; [|discriminate].
  destruct H as (H1 & _ & H3). apply text_lacks_line_end in L. unfold placed, line_after in *. rewrite Q1, Q2, H1, H3, breaks_app, (line_breaks_none _ _ L).
  split; [lia|]. split; [discriminate|].
  assert (E : ~ ends_cr p).
  { intros E. apply M in E. destruct span as [|c span]; [congruence|]. cbn in E. apply Forall_inv in L. apply L. left. congruence. }
  pose proof (ends_cr_app p span N L). tauto.
Qed.
Lemma value_ok simd pre span rest k n : nv_pos n = blen pre -> nv_rest n = span ++ rest -> span <> [] ->
  lacks value_ends span -> next_is value_ends rest -> value_kind span k ->
  exists n', value_arm (pre ++ span ++ rest) CtxField n = Arm k n' CtxField /\ arm_ok simd pre span rest n n'.
Proof.
  intros P R N L S K. unfold value_arm. destruct (scan_until_over value_stop span rest n R) as [O R'].
  - now apply (lacks_false _ _ _ value_stop_spec).
  - now apply (next_stops _ _ _ value_stop_spec).
  - cbv zeta. destruct O as (O1 & O2 & O3). rewrite O2, P, slice_app. apply value_kind_spec in K; [|exact N]. rewrite K.
    eexists. split; [reflexivity|]. apply over_arm_ok; [exact P| |exact R']. split; [exact O1|split; [exact O2|exact O3]].
Qed.

Lemma not_in_head (P : char -> Prop) c s : lacks P (c :: s) -> ~ P c. Proof. intros H. now apply Forall_inv in H. Qed.
Lemma match_arm_ok simd ctx ty span rest ctx' pre n : lex simd ctx ty span rest ctx' -> nv_pos n = blen pre -> nv_rest n = span ++ rest ->
  exists c s n', span = c :: s /\ match_arm simd (pre ++ span ++ rest) c ctx n = Arm ty n' ctx' /\ arm_ok simd pre span rest n n'.
Proof.
  intros X P R. destruct X as [c x rest L S|rest|rest|c x rest F S|rest|c rest|c rest|c rest|c rest B|span rest B L S|c rest C|c rest C|span rest k N L S H K|span rest k N L S H1 H2 K].
  - exists 91%N, x. unfold match_arm. change (91 =? 91)%N with true. cbv iota.
    destruct (advance_over n 91%N (x ++ rest) R) as (n1 & -> & O & R1).
    destruct (scan_until_over (fun c => c =? 93)%N x rest n1 R1) as [O2 R2];
      [now apply (lacks_false _ _ _ bracket_stop_spec)|now apply (next_stops _ _ _ bracket_stop_spec)|].
    eexists. split; [reflexivity|]. split; [reflexivity|]. apply over_arm_ok; [exact P| |exact R2].
    change (91%N :: x) with ([91%N] ++ x). now apply over_trans with n1.
  - destruct (one_ok simd pre 93%N rest n TkSectionClose CtxDocument P R) as (n' & E & A). exists 93%N, [], n'. split; [reflexivity|]. split; [exact E|exact A].
  - destruct (one_ok simd pre 58%N rest n TkColon CtxField P R) as (n' & E & A). exists 58%N, [], n'. split; [reflexivity|]. split; [exact E|exact A].
  - exists 123%N, x. unfold match_arm. change (123 =? 91)%N with false. change (123 =? 123)%N with true. cbv iota.
    destruct (advance_over n 123%N (x ++ rest) R) as (n1 & -> & O & R1).
    destruct (braces_over x 1 rest n1 R1) as [O2 R2]; [lia| | |].
    { intros p q E. specialize (F p q E). lia. }
    { destruct rest as [|d rest]; [exact I|]. cbn [next_is] in *. destruct S as [-> S]. split; [reflexivity|lia]. }
    rewrite R1. eexists. split; [reflexivity|]. split; [reflexivity|]. apply over_arm_ok; [exact P| |exact R2].
    change (123%N :: x) with ([123%N] ++ x). now apply over_trans with n1.
  - destruct (one_ok simd pre 125%N rest n TkOverrideClose CtxDocument P R) as (n' & E & A). exists 125%N, [], n'. split; [reflexivity|]. split; [exact E|exact A].
  - destruct (one_ok simd pre 44%N rest n TkComma c P R) as (n' & E & A). exists 44%N, [], n'. split; [reflexivity|]. split; [exact E|exact A].
  - destruct (one_ok simd pre 10%N rest n TkNewline CtxDocument P R) as (n' & E & A). exists 10%N, [], n'. split; [reflexivity|]. split; [exact E|exact A].
  - exists 13%N, [10%N]. unfold match_arm. change (13 =? 91)%N with false. change (13 =? 123)%N with false. change (13 =? 44)%N with false.
    change (13 =? 10)%N with false. change (13 =? 13)%N with true. cbv iota.
    destruct (advance_over n 13%N (10%N :: rest) R) as (n1 & -> & O & R1). rewrite R1. change (10 =? 10)%N with true. cbv iota. unfold one.
    destruct (advance_over n1 10%N rest R1) as (n2 & -> & O2 & R2). exists n2. split; [reflexivity|]. split; [reflexivity|].
    apply over_arm_ok; [exact P| |exact R2]. change [13%N; 10%N] with ([13%N] ++ [10%N]). now apply over_trans with n1.
  - exists 13%N, []. unfold match_arm. change (13 =? 91)%N with false. change (13 =? 123)%N with false. change (13 =? 44)%N with false.
    change (13 =? 10)%N with false. change (13 =? 13)%N with true. cbv iota.
    destruct (advance_over n 13%N rest R) as (n1 & -> & O & R1). rewrite R1. destruct rest as [|d rest]; [destruct B|]. cbn in B.
    destruct (N.eqb_spec d 10); [contradiction|]. exists n1. split; [reflexivity|]. split; [reflexivity|]. now apply over_arm_ok.
  - destruct (comment_ok simd pre span rest n CtxDocument P R L S) as (n' & E & A).
    destruct span as [|c s]; [destruct B as [[]|[x B]]; discriminate|]. exists c, s, n'. split; [reflexivity|]. split; [|exact A].
    destruct B as [B|[x [= -> ->]]].
    + cbn in B. subst c. exact E.
    + unfold match_arm. change (33 =? 91)%N with false. change (33 =? 123)%N with false. change (33 =? 44)%N with false. change (33 =? 10)%N with false.
      change (33 =? 13)%N with false. change (33 =? 58)%N with false. change (33 =? 59)%N with false. change (33 =? 33)%N with true. cbv iota.
      unfold second_is_colon. rewrite R. cbn [app]. change (58 =? 58)%N with true. cbv iota. exact E.
  - destruct (one_ok simd pre 125%N rest n TkText c P R) as (n' & E & A). exists 125%N, [], n'. split; [reflexivity|]. split; [destruct c; try congruence; exact E|exact A].
  - destruct (one_ok simd pre 93%N rest n TkText c P R) as (n' & E & A). exists 93%N, [], n'. split; [reflexivity|]. split; [destruct c; try congruence; exact E|exact A].
  - destruct (value_ok simd pre span rest k n P R N L S K) as (n' & E & A). destruct span as [|c s]; [congruence|].
    exists c, s, n'. split; [reflexivity|]. split; [|exact A]. cbn [next_is] in H. pose proof (not_in_head _ _ _ L) as Q. unfold value_ends, one_of in Q. cbn [In] in Q.
    unfold match_arm.
    destruct (N.eqb_spec c 91); [lia|]. destruct (N.eqb_spec c 123); [lia|]. destruct (N.eqb_spec c 44); [lia|]. destruct (N.eqb_spec c 10); [lia|].
    destruct (N.eqb_spec c 13); [lia|]. destruct (N.eqb_spec c 125); [lia|]. destruct (N.eqb_spec c 93); [lia|]. exact E.
  - destruct (text_ok simd pre span rest k n P R N L S K) as (n' & E & A). destruct span as [|c s]; [congruence|].
    exists c, s, n'. split; [reflexivity|]. split; [|exact A]. cbn [begins_with] in H1. pose proof (not_in_head _ _ _ L) as Q.
    unfold text_ends, one_of in Q. cbn [app In] in Q.
    unfold match_arm.
    destruct (N.eqb_spec c 91); [lia|]. destruct (N.eqb_spec c 123); [lia|]. destruct (N.eqb_spec c 44); [lia|]. destruct (N.eqb_spec c 10); [lia|].
    destruct (N.eqb_spec c 13); [lia|]. destruct (N.eqb_spec c 58); [lia|]. destruct (N.eqb_spec c 59); [lia|].
    destruct (N.eqb_spec c 33) as [->|].
    + assert (Q' : second_is_colon n = false).
      { unfold second_is_colon. rewrite R. cbn [app]. destruct (s ++ rest) as [|d x] eqn:Ex; [reflexivity|].
        destruct (N.eqb_spec d 58) as [->|]; [|reflexivity]. exfalso. apply (H2 x). cbn [app]. now rewrite Ex. }
      rewrite Q'. exact E.
    + destruct (N.eqb_spec c 125); [lia|]. destruct (N.eqb_spec c 93); [lia|]. exact E.
Qed.

(* ---- states ---- *)
Definition good (c : tok_ctx) (s : str) : Prop :=
  match c with CtxHeader => next_is (eq 93%N) s | CtxOverride => next_is (eq 125%N) s | _ => True end.
Definition at_text (k : tokenizer) (b p s : str) : Prop :=
  tz_source k = b ++ p ++ s /\ nv_rest (tz_nav k) = s /\ nv_pos (tz_nav k) = blen (b ++ p).
Lemma lex_nonempty simd c ty span rest c' : lex simd c ty span rest c' -> span <> [].
Proof. intros X. destruct X; try discriminate; auto. destruct H as [H|[x ->]]; [|discriminate]. intros ->. destruct H. Qed.
Lemma good_skipped c gap s : good c (gap ++ s) -> skipped c gap s -> good c s.
Proof.
  intros G S. destruct gap as [|d gap]; [exact G|]. destruct c; cbn [skipped good app next_is] in *; auto; destruct S as [S _]; apply Forall_inv in S.
  - subst d. destruct S as [S _]. discriminate S.
  - subst d. destruct S as [S _]. discriminate S.
Qed.
Lemma lex_good simd c ty span rest c' : lex simd c ty span rest c' -> good c (span ++ rest) -> good c' rest.
Proof.
  intros X G. destruct X; cbn [good] in *; auto.
  - destruct rest as [|d rest]; [exact I|]. cbn [next_is] in *. destruct H0 as [-> _]. reflexivity.
  - destruct c; cbn in G; try exact I; lia.
  - destruct c; cbn in G |- *; try exact I; [lia|congruence].
  - destruct c; cbn in G |- *; try exact I; [congruence|lia].
Qed.
Lemma lex_total simd c s : good c s -> s <> [] -> s <> [13%N] -> next_is (fun d => c <> CtxField -> ~ blank d) s ->
  exists ty span rest c', s = span ++ rest /\ lex simd c ty span rest c'.
Proof.
  intros G N1 N2 B. destruct s as [|d s]; [congruence|].
  destruct (N.eq_dec d 91) as [->|D1].
  { destruct (split_stop (fun c => c =? 93)%N s) as (x & b & -> & F & T). exists TkSectionHeader, (91%N :: x), b, CtxHeader. split; [reflexivity|].
    constructor; [now apply (lacks_false _ _ _ bracket_stop_spec)|now apply (next_stops _ _ _ bracket_stop_spec)]. }
  destruct (N.eq_dec d 123) as [->|D2].
  { destruct (braces_split s 1) as (x & b & -> & F & T); [lia|]. exists TkOverrideBlock, (123%N :: x), b, CtxOverride. split; [reflexivity|].
    constructor; [intros p q E; specialize (F p q E); lia|]. destruct b as [|y b]; [exact I|]. cbn [next_is] in *. destruct T as [-> T]. split; [reflexivity|lia]. }
  destruct (N.eq_dec d 44) as [->|D3]; [exists TkComma, [44%N], s, c; split; [reflexivity|constructor]|].
  destruct (N.eq_dec d 10) as [->|D4]; [exists TkNewline, [10%N], s, CtxDocument; split; [reflexivity|constructor]|].
  destruct (N.eq_dec d 13) as [->|D5].
  { destruct s as [|e s]; [congruence|]. destruct (N.eq_dec e 10) as [->|E]; [exists TkNewline, [13%N; 10%N], s, CtxDocument; split; [reflexivity|constructor]|].
    exists TkNewline, [13%N], (e :: s), CtxDocument. split; [reflexivity|]. constructor. exact E. }
  destruct c; cbn [good next_is] in G, B.
  - destruct (N.eq_dec d 58) as [->|D6]; [exists TkColon, [58%N], s, CtxField; split; [reflexivity|constructor]|].
    assert (Cm : d = 59%N \/ (exists x, d :: s = 33%N :: 58%N :: x) -> exists ty span rest c', d :: s = span ++ rest /\ lex simd CtxDocument ty span rest c').
    { intros Q. destruct (split_stop (fun c => (c =? 10) || (c =? 13))%N (d :: s)) as (x & b & E & F & T).
      exists TkComment, x, b, CtxDocument. split; [exact E|].
      assert (X : x <> []).
      { intros ->. cbn in E. rewrite <- E in T. cbn in T. lia. }
      destruct x as [|y x]; [congruence|]. constructor; [|now apply (lacks_false _ _ _ comment_stop_spec)|now apply (next_stops _ _ _ comment_stop_spec)].
      injection E as -> E. destruct Q as [->|[z [= -> ->]]]; [left; reflexivity|]. right. destruct x as [|w x].
      - cbn in E. rewrite <- E in T. cbn in T. lia.
      - injection E as <- E. now exists x. }
    destruct (N.eq_dec d 59) as [->|D7]; [auto|].
    destruct (N.eq_dec d 125) as [->|D8]; [exists TkText, [125%N], s, CtxDocument; split; [reflexivity|now constructor]|].
    destruct (N.eq_dec d 93) as [->|D9]; [exists TkText, [93%N], s, CtxDocument; split; [reflexivity|now constructor]|].
    destruct (list_eq_dec N.eq_dec (firstn 2 (d :: s)) [33; 58]%N) as [Q|Q].
    { apply Cm. right. destruct s as [|e s]; [discriminate|]. cbn in Q. injection Q as -> ->. now exists s. }
    set (stop := fun c => existsb (N.eqb c) ([58; 44; 123; 125; 91; 93; 10; 13]%N ++ (if simd then [] else [59%N]))).
    assert (St : forall c, stop c = true <-> text_ends simd c).
    { intros e. unfold stop, text_ends, one_of. rewrite existsb_exists. split; [intros (x & I & E); apply N.eqb_eq in E; now subst|intros I; exists e; split; [exact I|apply N.eqb_refl]]. }
    destruct (split_stop stop (d :: s)) as (x & b & E & F & T).
    assert (X : x <> []).
    { intros ->. cbn in E. rewrite <- E in T. cbn [stops] in T. apply St in T. unfold text_ends, one_of in T. apply in_app_or in T as [T|T].
      - cbn [In] in T. lia.
      - destruct simd; cbn in T; lia. }
    exists (text_type simd CtxDocument x), x, b, CtxDocument. split; [exact E|].
    constructor; [exact X|now apply (lacks_false _ _ _ St)|now apply (next_stops _ _ _ St)| | |].
    + destruct x as [|y x]; [congruence|]. injection E as -> _. cbn. congruence.
    + intros y E'. rewrite <- E in E'. injection E' as -> ->. now apply Q.
    + now apply (text_kind_spec simd).
  - subst d. exists TkSectionClose, [93%N], s, CtxDocument. split; [reflexivity|constructor].
  - destruct (N.eq_dec d 125) as [->|D8]; [exists TkText, [125%N], s, CtxField; split; [reflexivity|now constructor]|].
    destruct (N.eq_dec d 93) as [->|D9]; [exists TkText, [93%N], s, CtxField; split; [reflexivity|now constructor]|].
    destruct (split_stop value_stop (d :: s)) as (x & b & E & F & T).
    assert (X : x <> []).
    { intros ->. cbn in E. rewrite <- E in T. cbn [stops] in T. apply value_stop_spec in T. unfold value_ends, one_of in T. cbn [In] in T. lia. }
    exists (value_type x), x, b, CtxField. split; [exact E|].
    constructor; [exact X|now apply (lacks_false _ _ _ value_stop_spec)|now apply (next_stops _ _ _ value_stop_spec)| |now apply value_kind_spec].
    destruct x as [|y x]; [congruence|]. injection E as -> _. cbn. auto.
  - subst d. exists TkOverrideClose, [125%N], s, CtxDocument. split; [reflexivity|constructor].
Qed.

Lemma next_tok simd k b p gap span rest ty c' : at_text k b p (gap ++ span ++ rest) -> skipped (tz_ctx k) gap (span ++ rest) ->
  lex simd (tz_ctx k) ty span rest c' ->
  exists t k', next_token simd k = Tok t k' /\ tk_type t = ty /\ tk_span t = span /\ tz_ctx k' = c' /\ at_text k' b (p ++ gap ++ span) rest /\
  forall cols, may_place simd cols (p ++ gap) (span ++ rest) -> placed cols p (tz_nav k) ->
    tk_line t = line_after (p ++ gap) /\ (cols = true -> column_after (p ++ gap) (tk_col t)) /\ placed cols (p ++ gap ++ span) (tz_nav k').
Proof.
  intros (A1 & A2 & A3) S X. destruct (skipped_over _ _ _ _ A2 S) as [O R].
  set (n := if skips_ws (tz_ctx k) then skip_whitespace (tz_nav k) else tz_nav k) in *.
  assert (P : nv_pos n = blen (b ++ p ++ gap)). { destruct O as (_ & -> & _). rewrite A3, !blen_app. lia. }
  destruct (match_arm_ok simd _ _ _ _ _ (b ++ p ++ gap) n X P R) as (c & s & n' & E & M & (R' & P' & Pl)).
  assert (Src : tz_source k = (b ++ p ++ gap) ++ span ++ rest) by (rewrite A1, !app_assoc; reflexivity).
  assert (Rc : nv_rest n = c :: s ++ rest) by now rewrite R, E.
  unfold next_token. fold n. rewrite Rc, Src, M.
  rewrite P', P, (blen_app _ span), slice_app. pose proof (lex_nonempty _ _ _ _ _ _ X) as NE.
  assert (BP : blen span <> 0) by (intros Q; now apply blen_zero in Q).
  destruct (Nat.eqb_spec (blen (b ++ p ++ gap)) (blen (b ++ p ++ gap) + blen span)) as [Q|Q]; [lia|]. cbn [andb].
  eexists _, _. split; [reflexivity|]. cbn [tk_type tk_span tk_line tk_col tz_ctx tz_nav]. split; [reflexivity|]. split; [reflexivity|]. split; [reflexivity|].
  split; [split; [|split]|].
  - cbn [tz_source]. rewrite !app_assoc. reflexivity.
  - exact R'.
  - cbn [tz_nav]. rewrite P', !blen_app. lia.
  - intros cols Mp Hp. destruct O as (_ & _ & O). apply O in Hp. split; [apply Hp|]. split; [apply Hp|]. rewrite app_assoc. now apply Pl.
Qed.
Lemma next_end simd k b p s : at_text k b p s -> skipped (tz_ctx k) s [] -> exists k', next_token simd k = End k' /\ at_text k' b (p ++ s) [].
Proof.
  intros (A1 & A2 & A3) S. rewrite <- (app_nil_r s) in A2. destruct (skipped_over _ _ _ _ A2 S) as [O R].
  set (n := if skips_ws (tz_ctx k) then skip_whitespace (tz_nav k) else tz_nav k) in *.
  unfold next_token. fold n. rewrite R. eexists. split; [reflexivity|]. split; [|split].
  - cbn [tz_source]. now rewrite A1, app_nil_r.
  - exact R.
  - cbn [tz_nav]. destruct O as (_ & -> & _). rewrite A3, !blen_app. lia.
Qed.
Lemma next_fail simd k b p gap : at_text k b p (gap ++ [13%N]) -> skipped (tz_ctx k) gap [13%N] -> exists k', next_token simd k = Fail k' /\ at_text k' b (p ++ gap ++ [13%N]) [].
Proof.
  intros (A1 & A2 & A3) S. destruct (skipped_over _ _ _ _ A2 S) as [O R].
  set (n := if skips_ws (tz_ctx k) then skip_whitespace (tz_nav k) else tz_nav k) in *.
  unfold next_token. fold n. rewrite R. unfold match_arm. change (13 =? 91)%N with false. change (13 =? 123)%N with false. change (13 =? 44)%N with false.
  change (13 =? 10)%N with false. change (13 =? 13)%N with true. cbv iota.
  destruct (advance_over n 13%N [] R) as (n' & -> & O' & R'). rewrite R'. eexists. split; [reflexivity|]. split; [|split].
  - cbn [tz_source]. now rewrite A1, app_nil_r.
  - exact R'.
  - cbn [tz_nav]. destruct O' as (_ & -> & _). destruct O as (_ & -> & _). rewrite A3, !blen_app. lia.
Qed.
(* One call in any good state. *)
Lemma next_cases simd k b p s : at_text k b p s -> good (tz_ctx k) s ->
  (skipped (tz_ctx k) s []) \/
  (exists gap, s = gap ++ [13%N] /\ skipped (tz_ctx k) gap [13%N]) \/
  (exists gap span rest ty c', s = gap ++ span ++ rest /\ skipped (tz_ctx k) gap (span ++ rest) /\ lex simd (tz_ctx k) ty span rest c').
Proof.
  intros A G. destruct (skipped_exists (tz_ctx k) s) as (gap & s1 & -> & S).
  destruct (list_eq_dec N.eq_dec s1 []) as [->|N1]; [left; now rewrite app_nil_r|].
  destruct (list_eq_dec N.eq_dec s1 [13%N]) as [->|N2]; [right; left; now exists gap|].
  right. right. destruct (lex_total simd (tz_ctx k) s1) as (ty & span & rest & c' & -> & X).
  - eapply good_skipped; eassumption.
  - exact N1.
  - exact N2.
  - destruct s1 as [|d s1]; [exact I|]. cbn. destruct (tz_ctx k); cbn [skipped next_is] in S; try (intros _; apply S). congruence.
  - now exists gap, span, rest, ty, c'.
Qed.

(* ---- sequences of calls ---- *)
Lemma new_at src : exists k b, new_tokenizer src = Some k /\ tz_source k = src /\ tz_ctx k = CtxDocument /\ src = b ++ text_body src /\ (b = [] \/ b = [65279%N]) /\
  at_text k b [] (text_body src) /\ forall cols, placed cols [] (tz_nav k).
Proof.
  assert (Pl : forall cols r p, placed cols [] (Nav r p 1 1 None)).
  { intros cols r p. split; [reflexivity|]. split; [intros _; exists [], []; repeat split; [now left|constructor]|]. split; [discriminate|]. intros [q H]. destruct q; discriminate. }
  unfold new_tokenizer, text_body. destruct src as [|c r].
  - eexists _, []. split; [reflexivity|]. split; [reflexivity|]. split; [reflexivity|]. split; [reflexivity|]. split; [now left|]. split; [repeat split|intros; apply Pl].
  - destruct (N.eqb_spec c 65279) as [->|N].
    + change (slice_from (65279%N :: r) 3) with (slice_from ([65279%N] ++ r) (blen [65279%N])). rewrite slice_from_app.
      eexists _, [65279%N]. split; [reflexivity|]. split; [reflexivity|]. split; [reflexivity|]. split; [reflexivity|]. split; [now right|]. split; [repeat split|intros; apply Pl].
    + eexists _, []. split; [reflexivity|]. split; [reflexivity|]. split; [reflexivity|]. split; [reflexivity|]. split; [now left|]. split; [repeat split|intros; apply Pl].
Qed.
Definition place_ok (simd cols : bool) (text : str) : Prop := simd = false \/ (cols = false /\ crlf_only text).
Lemma place_may simd cols p s : place_ok simd cols (p ++ s) -> may_place simd cols p s.
Proof.
  intros [H|[H C]]; [now left|right]. split; [exact H|]. intros [q ->]. destruct (C q s) as [b ->]; [now rewrite <- app_assoc|reflexivity].
Qed.
Lemma skipped_blank c gap s : skipped c gap s -> Forall blank gap.
Proof. destruct c; cbn; try tauto. intros ->. constructor. Qed.
Lemma calls_ok simd k ts k' : calls simd k ts k' -> forall b p s, at_text k b p s -> good (tz_ctx k) s ->
  exists p' s', at_text k' b p' s' /\ p ++ s = p' ++ s' /\ good (tz_ctx k') s' /\ lexes simd (tz_ctx k) s (kinds ts) (tz_ctx k') s' /\
  forall cols, placed cols p (tz_nav k) -> place_ok simd cols (p ++ s) -> laid_out cols p s ts s'.
Proof.
  induction 1 as [k|k t k1 ts k2 E _ IH]; intros b p s A G.
  - exists p, s. split; [exact A|]. split; [reflexivity|]. split; [exact G|]. split; [constructor|]. intros; constructor.
  - destruct (next_cases simd k b p s A G) as [S|[(gap & -> & S)|(gap & span & rest & ty & c' & -> & S & X)]].
    + destruct (next_end simd k b p s A S) as (k' & E' & _). congruence.
    + destruct (next_fail simd k b p gap A S) as (k' & E' & _). congruence.
    + destruct (next_tok simd k b p gap span rest ty c' A S X) as (t' & k' & E' & T1 & T2 & C' & A' & Pl).
      rewrite E in E'. injection E' as <- <-.
      assert (G' : good (tz_ctx k1) rest).
      { rewrite C'. eapply lex_good; [exact X|]. eapply good_skipped; eassumption. }
      destruct (IH b _ _ A' G') as (p' & s' & A2 & Q & G2 & L & Lo). exists p', s'. split; [exact A2|]. split; [rewrite <- Q, !app_assoc; reflexivity|]. split; [exact G2|]. split.
      * cbn [kinds map]. rewrite T1, T2. econstructor; [exact S|exact X|]. rewrite <- C'. exact L.
      * intros cols Hp Ok. assert (M : may_place simd cols (p ++ gap) (span ++ rest)) by (apply place_may; now rewrite <- app_assoc).
        destruct (Pl cols M Hp) as (P1 & P2 & P3). rewrite <- T2. constructor.
        -- eapply skipped_blank; eassumption.
        -- rewrite T2. eapply lex_nonempty; eassumption.
        -- exact P1.
        -- exact P2.
        -- rewrite T2. apply Lo; [exact P3|]. now rewrite <- !app_assoc.
Qed.
Lemma lexes_calls simd c s l c' s' : lexes simd c s l c' s' -> forall k b p, at_text k b p s -> tz_ctx k = c ->
  exists ts k' p', calls simd k ts k' /\ kinds ts = l /\ tz_ctx k' = c' /\ at_text k' b p' s'.
Proof.
  induction 1 as [c s|c gap ty span rest c1 l c2 s2 S X _ IH]; intros k b p A C.
  - exists [], k, p. repeat split; auto; try constructor; apply A.
  - subst c. destruct (next_tok simd k b p gap span rest ty c1 A S X) as (t & k1 & E & T1 & T2 & C1 & A1 & _).
    destruct (IH k1 b _ A1 C1) as (ts & k2 & p2 & R & K & C2 & A2). exists (t :: ts), k2, p2.
    split; [econstructor; eassumption|]. split; [cbn; now rewrite T1, T2, <- K|]. auto.
Qed.
Lemma collect_ok_iff simd left : forall k ts, collect_tokens simd left k = Ok ts <->
  List.length ts <= left /\ exists k' k2, calls simd k ts k' /\ next_token simd k' = End k2.
Proof.
  induction left as [|left IH]; intros k ts; cbn [collect_tokens].
  - split.
    + destruct (next_token simd k) as [t k'|k'|k'|] eqn:E; try discriminate. intros [= <-]. split; [auto|]. exists k, k'. split; [constructor|exact E].
    + intros (L & k' & k2 & C & E). destruct ts as [|t ts]; [|cbn in L; lia]. inversion C; subst. now rewrite E.
  - split.
    + destruct (next_token simd k) as [t k'|k'|k'|] eqn:E; try discriminate.
      * destruct (collect_tokens simd left k') as [l| |] eqn:R; try discriminate. intros [= <-]. apply IH in R as (L & k1 & k2 & C & E2).
        split; [cbn; lia|]. exists k1, k2. split; [econstructor; eassumption|exact E2].
      * intros [= <-]. split; [cbn; lia|]. exists k, k'. split; [constructor|exact E].
    + intros (L & k' & k2 & C & E). inversion C as [|? t k1 ts' ? E1 C']; subst.
      * now rewrite E.
      * rewrite E1. rewrite (proj2 (IH k1 ts')); [reflexivity|]. split; [cbn in L; lia|]. eauto.
Qed.
Lemma collect_err_iff simd left : forall k, collect_tokens simd left k = Err <->
  exists ts k', calls simd k ts k' /\ (List.length ts = S left \/ List.length ts <= left /\ exists k2, next_token simd k' = Fail k2).
Proof.
  induction left as [|left IH]; intros k; cbn [collect_tokens].
  - split.
    + destruct (next_token simd k) as [t k'|k'|k'|] eqn:E; try discriminate; intros _.
      * exists [t], k'. split; [econstructor; [exact E|constructor]|now left].
      * exists [], k. split; [constructor|right; split; [auto|eauto]].
    + intros (ts & k' & C & H). inversion C as [|? t k1 ts' ? E1 C']; subst.
      * destruct H as [H|(_ & k2 & E)]; [discriminate|now rewrite E].
      * now rewrite E1.
  - split.
    + destruct (next_token simd k) as [t k'|k'|k'|] eqn:E; try discriminate.
      * destruct (collect_tokens simd left k') as [l| |] eqn:R; try discriminate. intros _. apply IH in R as (ts & k1 & C & H).
        exists (t :: ts), k1. split; [econstructor; eassumption|]. cbn. destruct H as [H|[H H']]; [left; lia|right; split; [lia|exact H']].
      * intros _. exists [], k. split; [constructor|right; split; [cbn; lia|eauto]].
    + intros (ts & k' & C & H). inversion C as [|? t k1 ts' ? E1 C']; subst.
      * destruct H as [H|(_ & k2 & E)]; [discriminate|now rewrite E].
      * rewrite E1. rewrite (proj2 (IH k1)); [reflexivity|]. exists ts', k'. split; [exact C'|]. cbn in H. destruct H as [H|[H H']]; [left; lia|right; split; [lia|exact H']].
Qed.
Lemma next_end_iff simd k b p s : at_text k b p s -> good (tz_ctx k) s -> (exists k2, next_token simd k = End k2) <-> skipped (tz_ctx k) s [].
Proof.
  intros A G. split.
  - intros [k2 E]. destruct (next_cases simd k b p s A G) as [S|[(gap & -> & S)|(gap & span & rest & ty & c' & -> & S & X)]]; [exact S| |].
    + destruct (next_fail simd k b p gap A S) as (k' & E' & _). congruence.
    + destruct (next_tok simd k b p gap span rest ty c' A S X) as (t' & k' & E' & _). congruence.
  - intros S. destruct (next_end simd k b p s A S) as (k' & E & _). eauto.
Qed.
Lemma next_fail_iff simd k b p s : at_text k b p s -> good (tz_ctx k) s -> (exists k2, next_token simd k = Fail k2) <-> exists gap, s = gap ++ [13%N] /\ skipped (tz_ctx k) gap [13%N].
Proof.
  intros A G. split.
  - intros [k2 E]. destruct (next_cases simd k b p s A G) as [S|[(gap & -> & S)|(gap & span & rest & ty & c' & -> & S & X)]]; [|eauto|].
    + destruct (next_end simd k b p s A S) as (k' & E' & _). congruence.
    + destruct (next_tok simd k b p gap span rest ty c' A S X) as (t' & k' & E' & _). congruence.
  - intros (gap & -> & S). destruct (next_fail simd k b p gap A S) as (k' & E & _). eauto.
Qed.
Lemma next_no_boom simd k b p s : at_text k b p s -> good (tz_ctx k) s -> next_token simd k <> Boom.
Proof.
  intros A G E. destruct (next_cases simd k b p s A G) as [S|[(gap & -> & S)|(gap & span & rest & ty & c' & -> & S & X)]].
  - destruct (next_end simd k b p s A S) as (k' & E' & _). congruence.
  - destruct (next_fail simd k b p gap A S) as (k' & E' & _). congruence.
  - destruct (next_tok simd k b p gap span rest ty c' A S X) as (t' & k' & E' & _). congruence.
Qed.
Lemma collect_no_panic simd left : forall k b p s, at_text k b p s -> good (tz_ctx k) s -> collect_tokens simd left k <> Panic.
Proof.
  induction left as [|left IH]; intros k b p s A G; cbn [collect_tokens].
  - pose proof (next_no_boom simd k b p s A G). destruct (next_token simd k); congruence.
  - pose proof (next_no_boom simd k b p s A G). destruct (next_token simd k) as [t k'|k'|k'|] eqn:E; try congruence.
    destruct (calls_ok simd k [t] k') with (b := b) (p := p) (s := s) as (p' & s' & A' & _ & G' & _); auto.
    { econstructor; [exact E|constructor]. }
    specialize (IH k' b p' s' A' G'). destruct (collect_tokens simd left k'); congruence.
Qed.

(* ---- the grammar alone ---- *)
Fixpoint woven (gaps : list str) (l : list (tok_type * str)) (rest : str) : str :=
  match gaps, l with g :: gs, x :: r => g ++ snd x ++ woven gs r rest | _, _ => rest end.
Lemma lexes_woven simd c s l c' s' : lexes simd c s l c' s' -> exists gaps, List.length gaps = List.length l /\ Forall (Forall blank) gaps /\
  Forall (fun x => snd x <> []) l /\ s = woven gaps l s'.
Proof.
  induction 1 as [c s|c gap ty span rest c1 l c2 s2 S X _ (gaps & L & F & N & E)]; [exists []; repeat split; constructor|].
  exists (gap :: gaps). repeat split; [cbn; now rewrite L| | |cbn; now rewrite <- E].
  - constructor; [eapply skipped_blank; eassumption|exact F].
  - constructor; [eapply lex_nonempty; eassumption|exact N].
Qed.
Lemma lexes_length simd c s l c' s' : lexes simd c s l c' s' -> List.length l + List.length s' <= List.length s.
Proof.
  induction 1 as [c s|c gap ty span rest c1 l c2 s2 S X _ IH]; [cbn; lia|]. apply lex_nonempty in X. rewrite !app_length. destruct span; [congruence|]. cbn [List.length]. lia.
Qed.
Lemma lex_flag c ty span rest c' : ~ In 59%N span -> ~ In 59%N (firstn 1 rest) -> lex true c ty span rest c' <-> lex false c ty span rest c'.
Proof.
  intros H H'.
  assert (T : forall s, ~ In 59%N s -> lacks (text_ends true) s <-> lacks (text_ends false) s).
  { intros s Hs. unfold lacks, text_ends, one_of. rewrite !Forall_forall. split; intros F x Hx; specialize (F x Hx); cbn [app In] in *.
    - intros Q. apply F. repeat (destruct Q as [Q|Q]; [tauto|]). destruct Q as [Q|[]]. subst x. contradiction.
    - tauto. }
  assert (U : next_is (text_ends true) rest <-> next_is (text_ends false) rest).
  { destruct rest as [|d rest]; [reflexivity|]. cbn [firstn] in H'. unfold next_is, text_ends, one_of. cbn [app In] in *. split; [tauto|].
    intros Q. repeat (destruct Q as [Q|Q]; [tauto|]). destruct Q as [Q|[]]. subst d. exfalso. apply H'. now left. }
  split; intros X; destruct X; try (constructor; auto; fail).
  - constructor; auto; [now apply T|now apply U].
  - constructor; auto; [now apply T|now apply U].
Qed.
Lemma lexes_flag c s l c' s' : ~ In 59%N s -> lexes true c s l c' s' <-> lexes false c s l c' s'.
Proof.
  intros H. split; intros X; revert H; induction X as [c s|c gap ty span rest c1 l c2 s2 S X _ IH]; intros H; try constructor.
  - assert (H1 : ~ In 59%N span) by (intros Q; apply H; apply in_or_app; right; apply in_or_app; now left).
    assert (H2 : ~ In 59%N rest) by (intros Q; apply H; apply in_or_app; right; apply in_or_app; now right).
    econstructor; [exact S| |now apply IH]. apply lex_flag; auto. intros Q. apply H2. destruct rest; [destruct Q|]. destruct Q as [Q|[]]. now left.
  - assert (H1 : ~ In 59%N span) by (intros Q; apply H; apply in_or_app; right; apply in_or_app; now left).
    assert (H2 : ~ In 59%N rest) by (intros Q; apply H; apply in_or_app; right; apply in_or_app; now right).
    econstructor; [exact S| |now apply IH]. apply lex_flag; auto. intros Q. apply H2. destruct rest; [destruct Q|]. destruct Q as [Q|[]]. now left.
Qed.

(* ---- a field ---- *)
Lemma values_lexes simd vals : forall ks rest, vals <> [] -> Forall plain_value vals -> Forall2 value_kind vals ks -> next_is line_end rest ->
  lexes simd CtxField (join [44%N] vals ++ rest) (with_commas (combine ks vals)) CtxField rest.
Proof.
  induction vals as [|v vals IH]; intros ks rest N P K E; [congruence|]. inversion K as [|? k ? ks' Kv K']; subst.
  destruct (Forall_inv P) as (V1 & V2 & V3).
  assert (V4 : next_is (fun d => d <> 125%N /\ d <> 93%N) v) by (destruct v; [congruence|exact V3]).
  destruct vals as [|v2 vals].
  - inversion K'; subst. cbn [join combine with_commas].
    change (v ++ rest) with ([] ++ v ++ rest). econstructor; [reflexivity| |constructor]. constructor; auto.
    destruct rest as [|d rest]; [exact I|]. cbn in *. unfold value_ends, one_of. cbn [In]. unfold line_end in E. lia.
  - inversion K' as [|? k2 ? ks2 Kv2 K2]; subst. rewrite join_cons by discriminate. cbn [combine with_commas].
    rewrite <- !app_assoc. change (v ++ [44%N] ++ join [44%N] (v2 :: vals) ++ rest) with ([] ++ v ++ ([44%N] ++ join [44%N] (v2 :: vals) ++ rest)).
    econstructor; [reflexivity| |].
    + constructor; auto. cbn. unfold value_ends, one_of. cbn [In]. lia.
    + change ([44%N] ++ join [44%N] (v2 :: vals) ++ rest) with ([] ++ [44%N] ++ join [44%N] (v2 :: vals) ++ rest).
      econstructor; [reflexivity|constructor|]. apply (IH (k2 :: ks2) rest); [discriminate|now apply Forall_inv_tail in P|exact K'|exact E].
Qed.
Lemma field_lexes simd key k vals ks rest : plain_key simd key -> text_kind key k -> vals <> [] -> Forall plain_value vals -> Forall2 value_kind vals ks -> next_is line_end rest ->
  lexes simd CtxDocument (field_text key vals ++ rest) ((k, key) :: (TkColon, [58%N]) :: with_commas (combine ks vals)) CtxField rest.
Proof.
  intros (K1 & K2 & K3 & K4) Kk N P K E. unfold field_text. rewrite <- !app_assoc.
  change (key ++ [58%N] ++ join [44%N] vals ++ rest) with ([] ++ key ++ ([58%N] ++ join [44%N] vals ++ rest)).
  econstructor.
  - split; [constructor|]. destruct key as [|c key]; [congruence|]. apply K3.
  - constructor; auto.
    + cbn. left. reflexivity.
    + intros Q. destruct key as [|c key]; [destruct Q|]. cbn in *. destruct K3 as [_ K3]. congruence.
    + intros x Q. destruct key as [|c [|d key]]; [congruence| |].
      * injection Q as -> _. congruence.
      * injection Q as -> -> _. apply Forall_inv_tail, Forall_inv in K2. apply K2. cbn. left. reflexivity.
  - change ([58%N] ++ join [44%N] vals ++ rest) with ([] ++ [58%N] ++ join [44%N] vals ++ rest). econstructor.
    + split; [constructor|]. cbn. intros [Q _]. discriminate Q.
    + constructor.
    + now apply values_lexes.
Qed.
Lemma with_commas_length l : List.length (with_commas l) = 2 * List.length l - 1.
Proof.
  induction l as [|x [|y l] IH]; [reflexivity..|]. cbn [with_commas List.length] in *. lia.
Qed.

Lemma laid_out_length cols p s ts s' : laid_out cols p s ts s' -> List.length s = 0 \/ List.length s' + List.length (concat (map tk_span ts)) <= List.length s.
Proof.
  induction 1 as [p s|p gap t ts rest s2 G N L C X IH]; [right; cbn; lia|]. right. rewrite !app_length. cbn [map concat]. rewrite app_length.
  destruct IH as [IH|IH]; [|lia]. destruct rest; [|discriminate]. clear IH.
  assert (K : forall p ts s2, laid_out cols p [] ts s2 -> ts = [] /\ s2 = []).
  { clear. intros p ts s2 X. remember [] as z eqn:Z in X. destruct X as [|p gap t ts rest s2 _ N _ _ _]; [auto|]. apply app_eq_nil in Z as [_ Z]. apply app_eq_nil in Z as [Z _]. congruence. }
  apply K in X as [-> ->]. cbn. lia.
Qed.
