(* The position tracker on text split at the current position. *)
From Verif Require Import Base BaseLemmas UuModel ParseModel ParseSpec.

(* ---- bytes ---- *)
Lemma as_bytes_app a b : as_bytes (a ++ b) = as_bytes a ++ as_bytes b.
Proof. unfold as_bytes. apply flat_map_app. Qed.
Lemma utf8_char_len c : List.length (utf8_char c) = len_utf8 c.
Proof. unfold utf8_char, len_utf8. destruct (c <? 128)%N, (c <? 2048)%N, (c <? 65536)%N; reflexivity. Qed.
Lemma as_bytes_len s : List.length (as_bytes s) = blen s.
Proof. induction s as [|c s IH]; [reflexivity|]. cbn [as_bytes flat_map blen]. rewrite app_length, utf8_char_len. fold (as_bytes s). lia. Qed.
Lemma utf8_char_ascii c : (c < 128)%N -> utf8_char c = [c].
Proof. unfold utf8_char. destruct (N.ltb_spec c 128); [reflexivity|lia]. Qed.
Lemma utf8_char_high c : (128 <= c)%N -> Forall (fun b => (128 <= b)%N) (utf8_char c).
Proof.
  unfold utf8_char. intros H. destruct (N.ltb_spec c 128); [lia|].
  destruct (c <? 2048)%N; [|destruct (c <? 65536)%N]; repeat constructor; lia.
Qed.
(* the first byte of a character tells an ASCII character apart *)
Lemma utf8_char_head c : exists b r, utf8_char c = b :: r /\ (forall a, (a < 128)%N -> (b =? a)%N = (c =? a)%N).
Proof.
  destruct (N.ltb_spec c 128) as [H|H].
  - rewrite utf8_char_ascii by exact H. exists c, []. auto.
  - pose proof (utf8_char_high c H) as F. pose proof (utf8_char_len c) as L. pose proof (len_utf8_pos c) as P.
    destruct (utf8_char c) as [|b r] eqn:E; [cbn in L; lia|]. exists b, r. split; [reflexivity|].
    intros a Ha. inversion F as [|? ? Hb Hr]. subst. destruct (N.eqb_spec b a), (N.eqb_spec c a); try reflexivity; lia.
Qed.
Lemma no_nl_bytes l : no_newline l -> ~ In 10%N (as_bytes l).
Proof.
  unfold no_newline. induction l as [|c l IH]; cbn [forallb]; [intros _ []|].
  rewrite andb_true_iff. intros [Hc Hl] Hin. cbn [as_bytes flat_map] in Hin. apply in_app_or in Hin. destruct Hin as [Hin|Hin]; [|exact (IH Hl Hin)].
  destruct (N.ltb_spec c 128) as [H|H].
  - rewrite utf8_char_ascii in Hin by exact H. destruct Hin as [->|[]]. vm_compute in Hc. discriminate.
  - pose proof (utf8_char_high c H) as F. rewrite Forall_forall in F. specialize (F _ Hin). lia.
Qed.
Lemma byte_at_app (a b : list N) k : nth_error (a ++ b) (List.length a + k) = nth_error b k.
Proof. rewrite nth_error_app2 by lia. f_equal. lia. Qed.

(* ---- positions ---- *)
Lemma newlines_app a b : newlines (a ++ b) = (newlines a + newlines b)%N.
Proof. unfold newlines. rewrite filter_app, app_length. lia. Qed.
Lemma newlines_none l : no_newline l -> newlines l = 0%N.
Proof.
  unfold newlines, no_newline. induction l as [|c l IH]; [reflexivity|]. cbn [forallb filter].
  rewrite andb_true_iff, negb_true_iff. intros [-> H]. exact (IH H).
Qed.
Lemma newlines_nl : newlines [10%N] = 1%N. Proof. reflexivity. Qed.
Lemma filter_length_le {A} (p : A -> bool) s : List.length (filter p s) <= List.length s.
Proof. induction s as [|c s IH]; [reflexivity|]. cbn. destruct (p c); cbn; lia. Qed.
Lemma newlines_blen s : (newlines s <= N.of_nat (blen s))%N.
Proof. unfold newlines. pose proof (filter_length_le is_nl s). pose proof (blen_length s). lia. Qed.

Lemma take_while_all p s : forallb p s = true -> take_while p s = s.
Proof. induction s as [|c s IH]; [reflexivity|]. cbn. destruct (p c); [|discriminate]. intros H. f_equal. auto. Qed.
Lemma take_while_app_all p a b : forallb p a = true -> take_while p (a ++ b) = a ++ take_while p b.
Proof. induction a as [|c a IH]; [reflexivity|]. cbn. destruct (p c); [|discriminate]. intros H. f_equal. auto. Qed.
Lemma take_drop_while p s : take_while p s ++ drop_while p s = s.
Proof. induction s as [|c s IH]; [reflexivity|]. cbn. destruct (p c); [|reflexivity]. cbn. f_equal. exact IH. Qed.
Lemma take_while_forall p s : forallb p (take_while p s) = true.
Proof. induction s as [|c s IH]; [reflexivity|]. cbn. destruct (p c) eqn:E; [|reflexivity]. cbn. rewrite E. exact IH. Qed.
Lemma forallb_rev {A} (p : A -> bool) s : forallb p (rev s) = forallb p s.
Proof. induction s as [|c s IH]; [reflexivity|]. cbn. rewrite forallb_app, IH. cbn. destruct (p c); cbn; [apply andb_true_r|apply andb_false_r]. Qed.
Lemma tail_line_app a l : no_newline l -> tail_line (a ++ l) = tail_line a ++ l.
Proof.
  intros H. unfold tail_line. rewrite rev_app_distr, take_while_app_all by (rewrite forallb_rev; exact H).
  rewrite rev_app_distr, rev_involutive. reflexivity.
Qed.
Lemma tail_line_nl a : tail_line (a ++ [10%N]) = [].
Proof. unfold tail_line. rewrite rev_app_distr. reflexivity. Qed.
Lemma tail_line_blen a : blen (tail_line a) <= blen a.
Proof.
  unfold tail_line. rewrite blen_rev, <- (blen_rev a). set (p := fun c => _).
  rewrite <- (take_drop_while p (rev a)) at 2. rewrite blen_app. lia.
Qed.

(* The tracker standing after the text pre, when miss newlines of pre were not
   counted. *)
Definition place (miss : N) (pre : str) : tracker := Tracker (blen pre) (true_line pre - miss) (true_col pre).
(* Small enough for the u32 counters. *)

Lemma small_lt src : small src -> (N.of_nat (blen src) + 1 < u32_max)%N.
Proof. unfold small, max_input_size, u32_max. lia. Qed.

Lemma bump_ok n : (n < u32_max)%N -> bump n = Done (n + 1)%N.
Proof. unfold bump. intros H. destruct (N.eqb_spec n u32_max); [lia|reflexivity]. Qed.

Lemma step_byte_other b t : b <> Some 10%N -> (tcol t < u32_max)%N ->
  step_byte b t = Done (Tracker (toff t + 1) (tline t) (tcol t + 1)).
Proof.
  intros H Hc. unfold step_byte. destruct b as [[|p]|]; try (rewrite bump_ok by exact Hc; reflexivity).
  repeat (destruct p as [p|p|]; try (rewrite bump_ok by exact Hc; reflexivity)). congruence.
Qed.
Lemma step_byte_nl t : (tline t < u32_max)%N -> step_byte (Some 10%N) t = Done (Tracker (toff t + 1) (tline t + 1) 1).
Proof. intros H. unfold step_byte. rewrite bump_ok by exact H. reflexivity. Qed.

Lemma advance_one src t : toff t < blen src ->
  advance src 1 t = step_byte (nth_error (as_bytes src) (toff t)) t.
Proof.
  intros H. unfold advance. replace (Nat.min (toff t + 1) (blen src) - toff t) with 1 by lia.
  cbn [advance_loop]. destruct (step_byte _ t); reflexivity.
Qed.

(* moving over bytes without a newline *)
Lemma next_line_skip src A B C t fuel : as_bytes src = A ++ B ++ C -> ~ In 10%N B -> toff t = List.length A ->
  (tcol t + N.of_nat (List.length B) <= u32_max)%N ->
  next_line_loop (List.length B + fuel) src t =
  next_line_loop fuel src (Tracker (toff t + List.length B) (tline t) (tcol t + N.of_nat (List.length B))).
Proof.
  revert A t. induction B as [|b B IH]; intros A t HB Hn Ho Hc.
  - cbn [List.length Nat.add]. destruct t as [o l c]. cbn in *. f_equal. f_equal; lia.
  - cbn [List.length Nat.add next_line_loop].
    assert (Hb : nth_error (as_bytes src) (toff t) = Some b).
    { rewrite HB, Ho. rewrite <- (Nat.add_0_r (List.length A)), byte_at_app. reflexivity. }
    assert (Hlt : toff t < blen src).
    { rewrite <- as_bytes_len, HB, !app_length. cbn [List.length]. lia. }
    assert (Hb10 : b <> 10%N) by (intros ->; apply Hn; left; reflexivity).
    rewrite Hb, advance_one, Hb by exact Hlt.
    rewrite step_byte_other; [|congruence|cbn [List.length] in Hc; lia].
    cbn [bind]. destruct (N.eqb_spec b 10); [contradiction|].
    specialize (IH (A ++ [b]) (Tracker (toff t + 1) (tline t) (tcol t + 1))). cbn [toff tline tcol] in IH. rewrite IH.
    + f_equal. f_equal; lia.
    + rewrite HB, <- app_assoc. reflexivity.
    + intros Hin. apply Hn. right. exact Hin.
    + rewrite app_length. cbn. lia.
    + cbn [List.length] in Hc. lia.
Qed.

Lemma place_col src pre r : small src -> src = pre ++ r -> (true_col pre + N.of_nat (blen r) <= u32_max)%N.
Proof.
  intros Hs ->. apply small_lt in Hs. rewrite blen_app in Hs. unfold true_col. pose proof (tail_line_blen pre). lia.
Qed.
Lemma place_line src pre r miss : small src -> src = pre ++ r -> (true_line pre - miss < u32_max)%N.
Proof.
  intros Hs ->. apply small_lt in Hs. rewrite blen_app in Hs. unfold true_line. pose proof (newlines_blen pre). lia.
Qed.

Lemma place_app miss pre l : no_newline l -> place miss (pre ++ l) =
  Tracker (blen pre + blen l) (true_line pre - miss) (true_col pre + N.of_nat (blen l)).
Proof.
  intros H. unfold place, true_line, true_col. rewrite newlines_app, (newlines_none l H), (tail_line_app pre l H), !blen_app.
  f_equal; lia.
Qed.
Lemma place_nl miss pre : (miss <= newlines pre)%N -> place miss (pre ++ [10%N]) = Tracker (blen pre + 1) (true_line pre - miss + 1) 1.
Proof.
  intros H. unfold place, true_line, true_col. rewrite blen_app, newlines_app, tail_line_nl, newlines_nl. f_equal; cbn; lia.
Qed.
Lemma nl_no_nl_miss miss pre l : (miss <= newlines pre)%N -> (miss <= newlines (pre ++ l))%N.
Proof. rewrite newlines_app. lia. Qed.

Lemma next_line_mid src pre l r miss : small src -> src = pre ++ l ++ 10%N :: r -> no_newline l -> (miss <= newlines pre)%N ->
  next_line src (place miss pre) = Done (place miss (pre ++ l ++ [10%N])).
Proof.
  intros Hs E Hl Hm. unfold next_line.
  pose proof (place_col src pre (l ++ 10%N :: r) Hs E) as Hcol.
  pose proof (place_line src (pre ++ l) (10%N :: r) miss Hs ltac:(rewrite E, <- app_assoc; reflexivity)) as Hline.
  assert (HB : as_bytes src = as_bytes pre ++ as_bytes l ++ (10%N :: as_bytes r)).
  { rewrite E, !as_bytes_app. reflexivity. }
  assert (Hlen : blen src = blen pre + blen l + 1 + blen r).
  { rewrite E, !blen_app. rewrite blen_cons. change (len_utf8 10) with 1. lia. }
  replace (S (blen src)) with (List.length (as_bytes l) + S (blen pre + 1 + blen r)) by (rewrite as_bytes_len; lia).
  rewrite (next_line_skip src _ _ _ (place miss pre) _ HB); [|apply no_nl_bytes, Hl|cbn; now rewrite as_bytes_len|].
  2:{ cbn [place tcol]. rewrite as_bytes_len. rewrite blen_app in Hcol. lia. }
  rewrite as_bytes_len. cbn [place toff tline tcol].
  rewrite <- (place_app miss pre l Hl). cbn [next_line_loop].
  assert (Hb : nth_error (as_bytes src) (toff (place miss (pre ++ l))) = Some 10%N).
  { cbn [place toff]. rewrite E, app_assoc, as_bytes_app, <- (as_bytes_len (pre ++ l)).
    rewrite <- (Nat.add_0_r (List.length _)), byte_at_app. reflexivity. }
  rewrite Hb, advance_one, Hb by (cbn [place toff]; rewrite blen_app; lia).
  rewrite step_byte_nl by exact Hline. cbn [bind]. change (10 =? 10)%N with true. cbn iota.
  cbn [place toff tline]. rewrite app_assoc, place_nl by (apply nl_no_nl_miss, Hm). reflexivity.
Qed.

Lemma next_line_end src pre l miss : small src -> src = pre ++ l -> no_newline l ->
  next_line src (place miss pre) = Done (place miss (pre ++ l)).
Proof.
  intros Hs E Hl. unfold next_line.
  pose proof (place_col src pre l Hs E) as Hcol.
  assert (HB : as_bytes src = as_bytes pre ++ as_bytes l ++ []).
  { rewrite E, !as_bytes_app, app_nil_r. reflexivity. }
  assert (Hlen : blen src = blen pre + blen l) by (rewrite E, blen_app; lia).
  replace (S (blen src)) with (List.length (as_bytes l) + S (blen pre)) by (rewrite as_bytes_len; lia).
  rewrite (next_line_skip src _ _ _ (place miss pre) _ HB); [|apply no_nl_bytes, Hl|cbn; now rewrite as_bytes_len|].
  2:{ cbn [place tcol]. rewrite as_bytes_len. lia. }
  rewrite as_bytes_len. cbn [place toff tline tcol]. rewrite <- (place_app miss pre l Hl). cbn [next_line_loop].
  replace (nth_error (as_bytes src) (toff (place miss (pre ++ l)))) with (@None N); [reflexivity|].
  symmetry. apply nth_error_None. rewrite as_bytes_len. cbn [place toff]. rewrite blen_app. lia.
Qed.

(* one ASCII character *)
Lemma byte_here src pre c r : src = pre ++ c :: r -> exists b, nth_error (as_bytes src) (blen pre) = Some b /\
  (forall a, (a < 128)%N -> (b =? a)%N = (c =? a)%N).
Proof.
  intros ->. destruct (utf8_char_head c) as (b & t & E & H). exists b. split; [|exact H].
  rewrite as_bytes_app, <- as_bytes_len. rewrite <- (Nat.add_0_r (List.length _)), byte_at_app.
  cbn [as_bytes flat_map]. rewrite E. reflexivity.
Qed.
Lemma byte_end src pre : src = pre -> nth_error (as_bytes src) (blen pre) = None.
Proof. intros ->. apply nth_error_None. rewrite as_bytes_len. lia. Qed.

Lemma advance_nl src pre r miss : small src -> src = pre ++ 10%N :: r -> (miss <= newlines pre)%N ->
  advance src 1 (place miss pre) = Done (place miss (pre ++ [10%N])).
Proof.
  intros Hs E Hm. pose proof (place_line src pre _ miss Hs E) as Hline.
  destruct (byte_here src pre 10 r E) as (b & Hb & Hc). specialize (Hc 10%N ltac:(lia)). apply N.eqb_eq in Hc. subst b.
  rewrite advance_one by (cbn [place toff]; rewrite E, blen_app, blen_cons; change (len_utf8 10) with 1; lia). cbn [place toff] in *. rewrite Hb.
  rewrite step_byte_nl by exact Hline. cbn [place toff tline]. rewrite place_nl by exact Hm. reflexivity.
Qed.
Lemma advance_ascii src pre c r miss : small src -> src = pre ++ c :: r -> (c < 128)%N -> c <> 10%N ->
  advance src 1 (place miss pre) = Done (place miss (pre ++ [c])).
Proof.
  intros Hs E Hc1 Hc. pose proof (place_col src pre _ Hs E) as Hcol.
  destruct (byte_here src pre c r E) as (b & Hb & Hbc). specialize (Hbc c Hc1). rewrite N.eqb_refl in Hbc. apply N.eqb_eq in Hbc. subst b.
  rewrite advance_one by (cbn [place toff]; rewrite E, blen_app; cbn [blen]; pose proof (len_utf8_pos c); lia).
  cbn [place toff] in *. rewrite Hb. rewrite blen_cons in Hcol. pose proof (len_utf8_pos c). rewrite step_byte_other; [|congruence|cbn [place tcol]; lia].
  cbn [place toff tline tcol].
  rewrite place_app by (unfold no_newline; cbn; unfold is_nl; destruct (N.eqb_spec c 10); [contradiction|reflexivity]).
  cbn [blen]. rewrite len_utf8_ascii by exact Hc1. f_equal.
Qed.

Lemma skip_blanks_spec src pre rest miss fuel : small src -> src = pre ++ rest -> List.length rest < fuel ->
  skip_blanks_loop fuel src (place miss pre) = Done (place miss (pre ++ take_while blank rest)).
Proof.
  intros Hs. revert pre rest. induction fuel as [|f IH]; intros pre rest E Hf; [lia|]. cbn [skip_blanks_loop].
  destruct rest as [|c r].
  - cbn [place toff]. rewrite byte_end by (rewrite E; apply app_nil_r). cbn. rewrite app_nil_r. reflexivity.
  - destruct (byte_here src pre c r E) as (b & Hb & Hbc). cbn [place toff]. rewrite Hb.
    rewrite !Hbc by lia. fold (blank c). cbn [take_while].
    destruct (blank c) eqn:Ec; [|rewrite app_nil_r; reflexivity].
    assert (Hc : (c < 128)%N /\ c <> 10%N). { unfold blank in Ec. lia. }
    fold (place miss pre). rewrite (advance_ascii src pre c r miss Hs E (proj1 Hc) (proj2 Hc)). cbn [bind].
    rewrite (IH (pre ++ [c]) r); [|rewrite <- app_assoc; exact E|cbn in Hf; lia]. rewrite <- app_assoc. reflexivity.
Qed.
Lemma skip_blanks_place src pre rest miss : small src -> src = pre ++ rest ->
  skip_blanks src (place miss pre) = Done (place miss (pre ++ take_while blank rest)).
Proof.
  intros Hs E. apply skip_blanks_spec; [exact Hs|exact E|]. pose proof (blen_length rest). rewrite E, blen_app. lia.
Qed.

Lemma remaining_place src pre rest miss : src = pre ++ rest -> remaining src (place miss pre) = Done rest.
Proof. intros ->. unfold remaining. cbn [place toff]. rewrite slice_from_app. reflexivity. Qed.
Lemma at_end_place src pre rest miss : src = pre ++ rest -> at_end src (place miss pre) = match rest with [] => true | _ => false end.
Proof.
  intros ->. unfold at_end. cbn [place toff]. rewrite blen_app. destruct rest as [|c r].
  - cbn. apply Nat.leb_le. lia.
  - rewrite blen_cons. pose proof (len_utf8_pos c). apply Nat.leb_gt. lia.
Qed.
Lemma next_section_place src pre rest miss : src = pre ++ rest ->
  next_section src (place miss pre) = Done (at_next_section rest).
Proof. intros E. unfold next_section. rewrite (remaining_place src pre rest miss E). reflexivity. Qed.
Lemma this_line_place src pre rest miss : src = pre ++ rest ->
  this_line src (place miss pre) = Done (current_line rest).
Proof. intros E. unfold this_line. rewrite (remaining_place src pre rest miss E). reflexivity. Qed.
