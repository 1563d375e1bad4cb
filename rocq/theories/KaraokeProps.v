(* C101-C104: the karaoke commands. *)
From Verif Require Import Base BaseLemmas DocModel DocSpec DocProofs ParseModel TagModel TagSpec TagProofs TagCmdModel TagCmdSpec TagCmdProofs
  FloatModel KaraokeModel KaraokeSpec KaraokeProofs KaraokeMore KaraokeBeat.
From Verif Require TagCmdProps.

(* ---- C101: generating ---- *)
(* In a text without braces, without two spaces together or one at the end,
   every syllable gets a duration and nothing else changes. *)
Theorem generate_exact : forall c d a m b, text d = a ++ m ++ b -> r_start (ge_range c) = blen a -> r_end (ge_range c) = blen a + blen m ->
  m <> [] -> well_spaced m -> ~ In 123%N m -> ~ In 125%N m ->
  exists l m', (if ge_auto c then syllabified m l else l = [m]) /\
    m' = whole (flat_map (timed (tag_word (ge_type c)) (ge_duration c)) l) None /\
    exec_generate c d = OOk (set_text d (a ++ m' ++ b)) (success_with_change (mkRange (blen a) (blen a + blen m')) (blen a + blen m')).
Proof.
  intros c d a m b T S E N W B1 B2. exists (split_into_syllables (ge_auto c) m). eexists.
  pose proof (text_range_app d a m b (ge_range c) T S E) as P.
  assert (F : Forall (fun p => is_nil (trim p) = false) (split_into_syllables (ge_auto c) m)).
  { destruct (ge_auto c); [apply (nonblank m); [exact W|now apply syllables_well]|]. constructor; [|constructor]. destruct (exists_last N) as (m0 & x & ->). eapply trim_filled; [reflexivity|]. exact (proj2 W m0 x eq_refl). }
  assert (TW : tag_word (ge_type c) = tag_string (ge_type c)) by (destruct (ge_type c); reflexivity). split; [destruct (ge_auto c); [now apply syllables_well|reflexivity]|]. split; [reflexivity|]. rewrite TW. unfold exec_generate. rewrite P. assert (H : has_brace m = false) by (apply Bool.not_true_iff_false; rewrite brace_iff; tauto).
  rewrite H, (rewrite_range_ok _ _ d a m b T S E). unfold generate_text. rewrite text_marked by exact F. rewrite marked_list. unfold whole, tail_text. now rewrite app_nil_r.
Qed.
(* Removing the tags again gives the text back. *)
Theorem generate_visible : forall n d l, visible_chars (flat_map (timed n d) l) = concat l.
Proof. exact visible_timed. Qed.
(* In general the text that is seen afterwards is the inflated one; without
   syllable detection it is always the text itself. *)
Theorem generate_seen : forall c m, ~ In 123%N m -> exists l, generate_text c m = whole l None /\ Forall part_ok l /\
  (ge_auto c = false -> visible_chars l = m) /\
  (ge_auto c = true -> m <> [] -> (forall w, m = [w] -> ~ space w) -> visible_chars l = inflated m).
Proof.
  intros c m B. exists (gen_parts (tag_string (ge_type c)) (ge_duration c) (split_into_syllables (ge_auto c) m)). split; [apply gen_text|]. split; [|split].
  - apply gen_ok; [apply tag_string_name|]. destruct (ge_auto c); [|constructor; [exact B|constructor]].
    rewrite Forall_forall. intros s Hs Q. assert (I : In 123%N (concat (split_into_syllables true m))) by (apply in_concat; eauto).
    destruct (syllables_text m) as [[E _]|E]; cbn zeta in E; rewrite E in I; [exact (B I)|exact (B (inflated_in m _ I))].
  - intros ->. rewrite gen_visible. cbn [split_into_syllables negb concat]. apply app_nil_r.
  - intros -> N W. rewrite gen_visible. now apply syllables_exact.
Qed.
(* Braces in the range are refused without a change. *)
Theorem generate_refused : forall c d a m b, text d = a ++ m ++ b -> r_start (ge_range c) = blen a -> r_end (ge_range c) = blen a + blen m ->
  In 123%N m \/ In 125%N m -> exec_generate c d = OErr d.
Proof.
  intros c d a m b T S E H. unfold exec_generate. rewrite (text_range_app d a m b (ge_range c) T S E). apply brace_iff in H. now rewrite H.
Qed.
(* Spaces are multiplied: n together become n(n+1)/2, and the last one of the
   text is lost. *)
Theorem generate_spaces_refuted : forall n x y, n <> 0 -> ~ space x -> ~ space y ->
  inflated (x :: repeat 32%N n ++ [y]) = x :: repeat 32%N (n * (n + 1) / 2) ++ [y] /\ inflated [x; 32%N] = [x].
Proof.
  intros n x y N X Y. apply nospace in X, Y. cbn [inflated]. rewrite X. change (is_ws 32) with true. cbn iota. split; [|reflexivity]. f_equal.
  assert (H : forall k, inflated (repeat 32%N (S k) ++ [y]) = repeat 32%N (Nat.div2 (S k * (S k + 1))) ++ [y]).
  { induction k as [|k IH]; [cbn [repeat app inflated]; now rewrite Y|]. change (repeat 32%N (S (S k)) ++ [y]) with (32%N :: repeat 32%N (S k) ++ [y]).
    assert (TW : take_while is_ws (repeat 32%N (S k) ++ [y]) = repeat 32%N (S k)). { clear IH. generalize (S k) as j. induction j as [|j IH]; [cbn [repeat app take_while]; now rewrite Y|]. cbn [repeat app take_while]. change (is_ws 32) with true. cbn iota. now rewrite IH. }
    cbn [inflated]. change (is_ws 32) with true. cbn iota. change (repeat 32%N (S k) ++ [y]) with (32%N :: repeat 32%N k ++ [y]) at 1. cbn iota. change (is_ws 32) with true. cbn iota.
    rewrite TW, IH. rewrite app_assoc. f_equal. change (32%N :: repeat 32%N (S k)) with (repeat 32%N (S (S k))). rewrite <- repeat_app. f_equal.
    rewrite !Nat.div2_div. replace (S (S k) * (S (S k) + 1)) with (S (S k) * 2 + S k * (S k + 1)) by lia. now rewrite Nat.div_add_l by discriminate. }
  destruct n as [|n]; [congruence|]. rewrite H, Nat.div2_div. reflexivity.
Qed.
Example generate_spaces_case : generate_text (Generate (mkRange 0 4) 50 Standard true) (lit "a  b") = lit "{\k50}a  {\k50} b".
Proof. vm_compute. reflexivity. Qed.
Example generate_case : well_spaced (lit "banana split") /\ generate_text (Generate (mkRange 0 12) 50 Fill true) (lit "banana split") = lit "{\kf50}ba{\kf50}na{\kf50}na{\kf50} spli{\kf50}t".
Proof.
  split; [|vm_compute; reflexivity]. split.
  - intros a x y b E Hx. vm_compute in E. do 11 (destruct a as [|? a]; [injection E as <- <- _; (discriminate Hx || discriminate)|injection E as _ E]). destruct a as [|? [|? a]]; discriminate E.
  - intros a x E. change (lit "banana split") with (lit "banana spli" ++ [116%N]) in E. apply app_inj_tail in E as [_ <-]. discriminate.
Qed.

(* ---- C102: splitting ---- *)
(* The text is cut at the positions that lie inside it and grow, and every
   piece gets a duration; a position inside a character panics. *)
Theorem split_exact : forall c d a m b, text d = a ++ m ++ b -> r_start (sp_range c) = blen a -> r_end (sp_range c) = blen a + blen m -> m <> [] ->
  let us := useful 0 (blen m) (sp_positions c) in
  (exists segs m', concat segs = m /\ cut_at 0 us segs /\ m' = flat_map part_text (flat_map (timed (lit "k") (sp_dur c)) segs) /\
    exec_split c d = OOk (set_text d (a ++ m' ++ b)) (success_with_change (mkRange (blen a) (blen a + blen m')) (blen a + blen m'))) \/
  (Exists (fun p => is_boundary m p = false) us /\ exec_split c d = OPanic).
Proof.
  intros c d a m b T S E N us. unfold exec_split. rewrite (rewrite_range_ok _ _ d a m b T S E). unfold split_text.
  destruct (split_ok c m (sp_positions c) [] m [] eq_refl N) as [(segs & C & K & F)|[X F]]; cbn zeta in *; cbn [blen app] in *; rewrite F.
  - left. exists segs. eexists. split; [exact C|]. split; [exact K|]. rewrite marked_list. split; reflexivity.
  - right. split; [exact X|reflexivity].
Qed.
(* At boundaries it does not panic. *)
Theorem split_succeeds : forall c d a m b, text d = a ++ m ++ b -> r_start (sp_range c) = blen a -> r_end (sp_range c) = blen a + blen m -> m <> [] ->
  Forall (fun p => is_boundary m p = true) (sp_positions c) -> exists d' r, exec_split c d = OOk d' r.
Proof.
  intros c d a m b T S E N F. destruct (split_exact c d a m b T S E N) as [(segs & m' & _ & _ & _ & R)|[X _]]; [eauto|]. exfalso.
  assert (U : forall n ps last p, In p (useful last n ps) -> In p ps). { clear. intros n ps. induction ps as [|q ps IH]; intros last p H; [destruct H|]. cbn [useful] in H. destruct (_ && _); [destruct H as [H|H]; [now left|right; eauto]|right; eauto]. }
  apply Exists_exists in X as (p & Hp & Q). apply U in Hp. rewrite Forall_forall in F. rewrite (F p Hp) in Q. discriminate Q.
Qed.
(* Positions that do not grow are left out without a word. *)
Theorem split_unsorted_refuted : split_text (SplitCmd (mkRange 0 6) [4; 2] None) (lit "abcdef") = Done (lit "{\k50}abcd{\k50}ef").
Proof. vm_compute. reflexivity. Qed.
Theorem split_inside_refuted : split_text (SplitCmd (mkRange 0 3) [2] None) [97%N; 233%N] = Crash.
Proof. vm_compute. reflexivity. Qed.
Example split_case : split_text (SplitCmd (mkRange 0 6) [2; 2; 4; 9] (Some 30%N)) (lit "abcdef") = Done (lit "{\k30}ab{\k30}cd{\k30}ef") /\ useful 0 6 [2; 2; 4; 9] = [2; 4].
Proof. split; vm_compute; reflexivity. Qed.

(* ---- C103: applying a template ---- *)
(* The words of the visible text are kept in order, each gets the duration of
   the template, and one space is put between them; importing changes nothing. *)
Definition durations_of (k : template) (n : nat) : list N :=
  match k with
  | Equal d _ => repeat d n
  | Beat bpm bps _ => repeat (beat_duration bpm bps) n
  | Pattern ds _ => map (fun i => nth (i mod List.length ds) ds 50%N) (seq 0 n)
  | ImportFrom _ => []
  end.
Definition kind_of (k : template) : option ktype := match k with Equal _ t | Beat _ _ t | Pattern _ t => Some t | ImportFrom _ => None end.
Lemma combine_repeat {A B} (x : A) (l : list B) : combine (repeat x (List.length l)) l = map (fun w => (x, w)) l.
Proof. induction l as [|w l IH]; [reflexivity|]. cbn. now rewrite IH. Qed.
Lemma combine_map_l {A B C} (f : A -> B) (l : list A) (m : list C) : combine (map f l) m = map (fun p => (f (fst p), snd p)) (combine l m).
Proof. revert m. induction l as [|x l IH]; intros [|y m]; try reflexivity. cbn. now rewrite IH. Qed.
Theorem apply_exact : forall k t l o, Forall part_ok l -> tail_ok o -> t = whole l o ->
  match kind_of k with
  | None => apply_template k t = Done t
  | Some ty => exists ws, worded (visible_chars l) ws /\
      (apply_template k t = Done (timed_words (tag_word ty) (combine (durations_of k (List.length ws)) ws)) \/
       (k = Pattern [] ty /\ ws <> [] /\ apply_template k t = Crash))
  end.
Proof.
  intros k t l o F O ->. assert (C : extract_clean_text (whole l o) = Done (visible_chars l)) by (apply clean_exact; auto).
  destruct k as [d ty|bpm bps ty|ds ty|i]; unfold apply_template; cbn [kind_of durations_of]; rewrite C; cbn [bind]; try reflexivity; (assert (TW : tag_word ty = tag_string ty) by (destruct ty; reflexivity)); rewrite TW;
    (exists (FormatModel.words (visible_chars l)); split; [apply words_worded|]); rewrite ?combine_repeat; [left; now rewrite equal_words|left; now rewrite equal_words|].
  destruct ds as [|d0 ds].
  - destruct (FormatModel.words (visible_chars l)) as [|w ws]; [left; reflexivity|right]. repeat split; discriminate.
  - left. rewrite pattern_words by discriminate. f_equal. rewrite combine_map_l. destruct (FormatModel.words (visible_chars l)); reflexivity.
Qed.
(* A beat lasts as many hundredths of a second as 6000 over the beats a minute, times the beats a syllable. *)
Theorem beat_length : forall bpm b, (1 <= bpm <= 1000)%N -> (0 <= b <= 16)%Q -> let d := inject_Z (Z.of_N (beat_duration bpm (Fin b))) in let exact := (6000 * b / inject_Z (Z.of_N bpm))%Q in
  (d <= exact + (1 # 50) /\ exact < d + 1 + (1 # 50))%Q.
Proof. exact beat_near. Qed.
Example beat_case : beat_duration 120 (Fin (1 # 2)) = 25%N /\ beat_duration 90 (Fin 1) = 66%N.
Proof. split; vm_compute; reflexivity. Qed.
(* What is seen afterwards: the same words, one space apart. *)
Theorem apply_visible : forall k t l o ty t', Forall part_ok l -> tail_ok o -> t = whole l o -> kind_of k = Some ty -> apply_template k t = Done t' ->
  exists ws l', worded (visible_chars l) ws /\ t' = whole l' None /\ Forall part_ok l' /\ visible_chars l' = join [32%N] ws.
Proof.
  intros k t l o ty t' F O E K A. pose proof (apply_exact k t l o F O E) as H. rewrite K in H. destruct H as (ws & W & [H|(_ & _ & H)]); rewrite H in A; [|discriminate A]. injection A as <-.
  assert (TW : tag_word ty = tag_string ty) by (destruct ty; reflexivity). rewrite TW. exists ws, (word_parts (tag_string ty) (combine (durations_of k (List.length ws)) ws)). split; [exact W|]. split; [apply word_parts_text|].
  assert (L : List.length (durations_of k (List.length ws)) = List.length ws) by (destruct k; cbn [durations_of]; rewrite ?map_length, ?seq_length, ?repeat_length; auto; discriminate K).
  split.
  - apply word_parts_ok; [apply tag_string_name|]. rewrite Forall_forall. intros [d w] Hp. cbn [snd]. apply in_combine_r in Hp. intros Q.
    apply (worded_in _ _ W w 123%N Hp) in Q. exact (proj1 (proj2 (TagCmdProps.remove_all_exact (mkRange 0 0) l o F O)) Q).
  - rewrite word_parts_visible. f_equal. revert L. generalize (durations_of k (List.length ws)) as ds. clear. induction ws as [|w ws IH]; intros [|d ds] L; try discriminate L; [reflexivity|]. cbn. f_equal. apply IH. now injection L.
Qed.
(* Applying a template to its own outcome gives the same. *)
Theorem apply_again : forall k t l o t', Forall part_ok l -> tail_ok o -> t = whole l o -> apply_template k t = Done t' -> apply_template k t' = Done t'.
Proof.
  intros k t l o t' F O E A. destruct (kind_of k) as [ty|] eqn:K; [|destruct k; try discriminate K; unfold apply_template in A |- *].
  - destruct (apply_visible k t l o ty t' F O E K A) as (ws & l' & W & E' & F' & V). pose proof (apply_exact k t l o F O E) as H. rewrite K in H. destruct H as (ws1 & W1 & H).
    assert (ws1 = ws) as -> by (eapply worded_unique; eassumption). destruct H as [H|(_ & _ & H)]; rewrite H in A; [|discriminate A]. injection A as A.
    pose proof (apply_exact k t' l' None F' I E') as H'. rewrite K in H'. destruct H' as (ws2 & W2 & H'). rewrite V in W2.
    assert (ws2 = ws) as -> by (eapply worded_unique; [exact W2|apply worded_join; eapply worded_words; exact W]).
    destruct H' as [H'|(-> & N & H')]; [now rewrite H', A|]. exfalso. unfold apply_template in H. subst t. rewrite (clean_exact o O l F _ (le_n _) : extract_clean_text (whole l o) = _) in H. cbn [bind] in H.
    assert (X : FormatModel.words (visible_chars l) = ws) by (eapply worded_unique; [apply words_worded|exact W]). rewrite X in H. destruct ws; [congruence|]. discriminate H.
  - subst t. rewrite (clean_exact o O l F _ (le_n _) : extract_clean_text (whole l o) = _) in A. cbn [bind] in A. injection A as <-. now rewrite (clean_exact o O l F _ (le_n _) : extract_clean_text (whole l o) = _).
Qed.
(* On the document. *)
Theorem apply_document : forall k r d a m b m', text d = a ++ m ++ b -> r_start r = blen a -> r_end r = blen a + blen m -> apply_template k m = Done m' ->
  exec_apply r k d = OOk (set_text d (a ++ m' ++ b)) (success_with_change (mkRange (blen a) (blen a + blen m')) (blen a + blen m')).
Proof. intros k r d a m b m' T S E A. unfold exec_apply. rewrite (rewrite_range_ok _ _ d a m b T S E), A. reflexivity. Qed.
(* An empty pattern panics as soon as there is a word, all other tags are
   dropped, and so is the layout of the spaces. *)
Theorem apply_empty_refuted : forall t l o c, Forall part_ok l -> tail_ok o -> t = whole l o -> In c (visible_chars l) -> ~ space c -> forall ty, apply_template (Pattern [] ty) t = Crash.
Proof.
  intros t l o c F O -> H N ty. unfold apply_template. rewrite (clean_exact o O l F _ (le_n _) : extract_clean_text (whole l o) = _). cbn [bind]. pose proof (words_worded (visible_chars l)) as W.
  destruct (FormatModel.words (visible_chars l)) as [|w ws]; [|reflexivity]. inversion W as [s Hs|]; subst. rewrite Forall_forall in Hs. exfalso. exact (N (Hs c H)).
Qed.
Theorem apply_tags_refuted : apply_template (Equal 20 Standard) (lit "{\i1}one  {\pos(1,2)}two") = Done (lit "{\k20}one {\k20}two").
Proof. vm_compute. reflexivity. Qed.
Example apply_case : apply_template (Pattern [10; 20] Fill)%N (lit "{\k50}one two three") = Done (lit "{\kf10}one {\kf20}two {\kf10}three") /\
  apply_template (Beat 120 (Fin 1) Standard) (lit "la la") = Done (lit "{\k50}la {\k50}la").
Proof. split; vm_compute; reflexivity. Qed.

(* ---- C104: adjusting ---- *)
(* Where every block has at most one karaoke duration, written in digits, the
   durations are changed as asked, in order, and all else stays. *)
Theorem adjust_tags_exact : forall a l l', Forall part_ok l -> adjusted a 0 l l' -> adjust_text a (whole l None) = Done (whole l' None).
Proof. intros a l l' F A. apply (adjust_exact a 0 l l' A F). apply le_n. Qed.
Theorem adjust_document : forall a r d x m y m', text d = x ++ m ++ y -> r_start r = blen x -> r_end r = blen x + blen m -> adjust_text a m = Done m' ->
  exec_adjust r a d = OOk (set_text d (x ++ m' ++ y)) (success_with_change (mkRange (blen x) (blen x + blen m')) (blen x + blen m')).
Proof. intros a r d x m y m' T S E A. unfold exec_adjust. rewrite (rewrite_range_ok _ _ d x m y T S E), A. reflexivity. Qed.
(* The result is again such a text, seen the same. *)
Theorem adjust_seen : forall a l l', Forall part_ok l -> adjusted a 0 l l' -> Forall part_ok l' /\ visible_chars l' = visible_chars l.
Proof. intros a l l' F A. split; [exact (adjusted_ok a 0 l l' A F)|exact (adjusted_visible a 0 l l' A)]. Qed.
(* Generating and then setting is generating with the other duration. *)
Theorem generate_set : forall r k auto m d e, ~ In 123%N m -> (d <= u32_max)%N ->
  adjust_text (SetAll e) (generate_text (Generate r d k auto) m) = Done (generate_text (Generate r e k auto) m).
Proof.
  intros r k auto m d e B Hd. unfold generate_text. cbn [ge_type ge_duration ge_auto]. rewrite !gen_text. apply adjust_tags_exact; [|apply set_gen; [apply tag_string_name|exact Hd]].
  apply gen_ok; [apply tag_string_name|]. destruct auto; [|constructor; [exact B|constructor]].
  rewrite Forall_forall. intros s Hs Q. assert (I : In 123%N (concat (split_into_syllables true m))) by (apply in_concat; eauto).
  destruct (syllables_text m) as [[E _]|E]; cbn zeta in E; rewrite E in I; [exact (B I)|exact (B (inflated_in m _ I))].
Qed.
(* On a text with a duration before every piece: one list of durations is put
   in place of another; scaling and shifting change each on its own. *)
Definition sung_text (n : str) (l : list (N * str)) : str := whole (flat_map (fun p => timed n (fst p) (snd p)) l) None.
Definition singable (n : str) (l : list (N * str)) : Prop := In n names /\ Forall (fun p => (fst p <= u32_max)%N /\ ~ In 123%N (snd p)) l.
Lemma singable_ok n l : singable n l -> Forall part_ok (flat_map (fun p => timed n (fst p) (snd p)) l) /\ Forall (fun p => (fst p <= u32_max)%N) l.
Proof.
  intros [Hn F]. split; [|eapply Forall_impl; [|exact F]; now intros p [H _]]. induction F as [|p l [_ H] F IH]; [constructor|]. cbn [flat_map]. apply Forall_app. split; [now apply timed_ok|exact IH].
Qed.
Theorem adjust_custom : forall n l es, singable n l -> List.length es = List.length l -> adjust_text (Custom es) (sung_text n l) = Done (sung_text n (combine es (map snd l))).
Proof.
  intros n l es S L. destruct (singable_ok n l S) as [F U]. apply adjust_tags_exact; [exact F|]. exact (custom_timed n es l 0 [] (proj1 S) U L eq_refl).
Qed.
Theorem adjust_set : forall n l e, singable n l -> adjust_text (SetAll e) (sung_text n l) = Done (sung_text n (map (fun p => (e, snd p)) l)).
Proof.
  intros n l e S. destruct (singable_ok n l S) as [F U]. unfold sung_text at 2. rewrite flat_map_concat_map, map_map, <- flat_map_concat_map. cbn [fst snd].
  apply adjust_tags_exact; [exact F|]. apply (each_timed (fun _ => e)); [constructor|exact (proj1 S)|exact U].
Qed.
Theorem adjust_scale : forall n l f, singable n l ->
  adjust_text (Scale f) (sung_text n l) = Done (sung_text n (map (fun p => (N.max 1 (f_to_N u32_max (f_mul f32 (f_of_N f32 (fst p)) f)), snd p)) l)).
Proof.
  intros n l f S. destruct (singable_ok n l S) as [F U]. unfold sung_text at 2. rewrite flat_map_concat_map, map_map, <- flat_map_concat_map. cbn [fst snd].
  apply adjust_tags_exact; [exact F|]. apply (each_timed (fun d => N.max 1 (f_to_N u32_max (f_mul f32 (f_of_N f32 d) f)))); [constructor|exact (proj1 S)|exact U].
Qed.
Theorem adjust_offset : forall n l o, singable n l -> Forall (fun p => Z.of_N (fst p) < 2147483648 /\ -2147483648 <= Z.of_N (fst p) + o < 2147483648)%Z l ->
  adjust_text (Offset o) (sung_text n l) = Done (sung_text n (map (fun p => (Z.to_N (Z.max 1 (Z.of_N (fst p) + o)), snd p)) l)).
Proof.
  intros n l o S B. destruct (singable_ok n l S) as [F U]. unfold sung_text at 2. rewrite flat_map_concat_map, map_map, <- flat_map_concat_map. cbn [fst snd].
  apply adjust_tags_exact; [exact F|]. clear F. destruct S as [Hn _]. induction B as [|[d s] l [B1 B2] B IH]; [constructor|]. inversion U; subst. cbn [flat_map fst snd] in *. eapply adjusted_timed; [exact Hn|assumption|now constructor|now apply IH].
Qed.
(* Two durations in a block disturb each other, \K and a space before the
   digits are not understood, an open block is closed, and a long duration
   makes the shift panic. *)
Theorem adjust_refuted :
  adjust_text (Scale (Fin 10)) (lit "{\k5\k50}a") = Done (lit "{\k50\k5000}a") /\
  adjust_text (Custom [10; 20])%N (lit "{\k50\k50}a") = Done (lit "{\k10\k10}a") /\
  adjust_text (SetAll 10) (lit "{\K50}a{\k 50}b") = Done (lit "{\K50}a{\k 50}b") /\
  adjust_text (SetAll 10) (lit "a{\k50") = Done (lit "a{\k10}") /\
  adjust_text (Offset 1) (lit "{\k2147483647}a") = Crash.
Proof. repeat split; vm_compute; reflexivity. Qed.
Example adjust_case : singable (lit "k") [(50, lit "la"); (30, lit " lo")]%N /\
  sung_text (lit "k") [(50, lit "la"); (30, lit " lo")]%N = lit "{\k50}la{\k30} lo" /\
  adjust_text (Offset (-40)) (lit "{\k50}la{\k30} lo") = Done (lit "{\k10}la{\k1} lo") /\
  adjust_text (Custom [7; 8])%N (lit "{\k50}la{\i1}{\k30} lo") = Done (lit "{\k7}la{\i1}{\k8} lo").
Proof.
  split; [split; [now left|]|].
  - assert (H : forall d s, (d <= u32_max)%N -> existsb (N.eqb 123) s = false -> (fst (d, s) <= u32_max)%N /\ ~ In 123%N (snd (d, s))).
    { intros d s A B. split; [exact A|]. intros Q. cbn [snd] in Q. apply Bool.not_true_iff_false in B. apply B. apply existsb_exists. now exists 123%N. }
    constructor; [apply H; [unfold u32_max; lia|reflexivity]|]. constructor; [apply H; [unfold u32_max; lia|reflexivity]|constructor].
  - repeat split; vm_compute; reflexivity.
Qed.
Example adjusted_case : adjusted (SetAll 9) 0 [Blk [PTag (lit "i") (lit "1"); PTag (lit "k") (lit "50")]; Plain 97%N] [Blk [PTag (lit "i") (lit "1"); PTag (lit "k") (lit "9")]; Plain 97%N].
Proof.
  change [PTag (lit "i") (lit "1"); PTag (lit "k") (lit "50")] with ([PTag (lit "i") (lit "1")] ++ [PTag (lit "k") (to_dec 50 ++ [])]).
  change [PTag (lit "i") (lit "1"); PTag (lit "k") (lit "9")] with ([PTag (lit "i") (lit "1")] ++ [PTag (lit "k") (to_dec 9 ++ [])]).
  eapply ad_sung; [now exists []|unfold u32_max; lia|constructor| |intros ? ? []| | |constructor|repeat constructor].
  - intros n a [Q|[]]. injection Q as <- <-. intros [r Q]. discriminate Q.
  - repeat constructor. exact (fun x => x).
  - repeat constructor. intros Q. vm_compute in Q. intuition discriminate.
Qed.

(* None of the commands is recorded, so none can be undone. *)
Theorem karaoke_unrecorded_refuted : forall d,
  (forall c, match exec_generate c d with OOk d1 _ | OErr d1 => history d1 = history d | OPanic => True end) /\
  (forall c, match exec_split c d with OOk d1 _ | OErr d1 => history d1 = history d | OPanic => True end) /\
  (forall r k, match exec_apply r k d with OOk d1 _ | OErr d1 => history d1 = history d | OPanic => True end) /\
  (forall r a, match exec_adjust r a d with OOk d1 _ | OErr d1 => history d1 = history d | OPanic => True end).
Proof.
  intros d. assert (R : forall f r, match rewrite_range f r d with OOk d1 _ | OErr d1 => history d1 = history d | OPanic => True end).
  { intros f r. unfold rewrite_range. destruct (text_range d r) as [t| |]; [|reflexivity|exact I]. destruct (f t) as [t'| |]; [|exact I|exact I].
    pose proof (replace_raw_hist d r t') as H. destruct (replace_raw d r t'); cbn [out_bind]; exact H. }
  split; [|split; [|split]]; intros; try apply R. unfold exec_generate. destruct (text_range d (ge_range c)) as [t| |]; [destruct (has_brace t); [reflexivity|apply R]|apply R|apply R].
Qed.

Print Assumptions generate_exact.
Print Assumptions generate_visible.
Print Assumptions generate_seen.
Print Assumptions generate_refused.
Print Assumptions generate_spaces_refuted.
Print Assumptions split_exact.
Print Assumptions split_succeeds.
Print Assumptions split_unsorted_refuted.
Print Assumptions split_inside_refuted.
Print Assumptions apply_exact.
Print Assumptions apply_visible.
Print Assumptions apply_again.
Print Assumptions apply_document.
Print Assumptions apply_empty_refuted.
Print Assumptions apply_tags_refuted.
Print Assumptions adjust_tags_exact.
Print Assumptions adjust_document.
Print Assumptions adjust_seen.
Print Assumptions generate_set.
Print Assumptions adjust_custom.
Print Assumptions adjust_set.
Print Assumptions adjust_scale.
Print Assumptions adjust_offset.
Print Assumptions adjust_refuted.
Print Assumptions karaoke_unrecorded_refuted.
