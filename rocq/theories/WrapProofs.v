(* Wrapping keeps the text and fills the lines. *)
From Verif Require Import Base FloatModel FloatSpec FloatProofs CollideModel CollideProofs SegmentModel AnimModel AnimSpec AnimProofs ShowModel ShowSpec ShowProofs WrapModel WrapSpec.

(* ---- words ---- *)
Lemma split_spaced s : spaced s (split_on is_space s).
Proof.
  induction s as [|c s IH]; cbn [split_on]; [apply sp_last; intros []|]. destruct (is_space c) eqn:C.
  - apply N.eqb_eq in C. subst c. apply (sp_cons []); [intros []|exact IH].
  - apply N.eqb_neq in C. inversion IH as [w W E1 E2|w s' ws W S' E1 E2].
    + subst w. apply sp_last. intros [K|I]; [now apply C|contradiction].
    + apply (sp_cons (c :: w)); [|exact S']. intros [K|I]; [now apply C|contradiction].
Qed.
Lemma drop_blank_ok r : exists blanks, r = drop_blank r ++ blanks /\ Forall (fun w => w = []) blanks /\ (drop_blank r <> [] -> last (drop_blank r) [] <> []).
Proof.
  induction r as [|w r (bl & E & F & L)]; [exists []; repeat split; [constructor|intros H; contradiction]|]. cbn [drop_blank]. destruct (drop_blank r) as [|x r'] eqn:D.
  - cbn [app] in E. destruct w as [|c w].
    + exists ([] :: bl). split; [cbn [app]; now rewrite E at 1|]. split; [now constructor|intros H; contradiction].
    + exists bl. split; [cbn [app]; now rewrite E at 1|]. split; [exact F|]. intros _. discriminate.
  - exists bl. split; [cbn [app] in *; now rewrite E at 1|]. split; [exact F|]. intros _. change (last (w :: x :: r') []) with (last (x :: r') []). now apply L.
Qed.
Lemma text_words_ok s : words_of s (text_words s).
Proof.
  unfold text_words. pose proof (split_spaced s) as P. destruct (split_on is_space s) as [|w r] eqn:E; [inversion P|]. destruct (drop_blank_ok r) as (bl & R & F & L). exists bl. split; [cbn [app]; now rewrite <- R|]. split; [exact F|]. split; [discriminate|].
  intros H. destruct (drop_blank r) as [|x r'] eqn:D; [reflexivity|]. exfalso. apply L; [discriminate|]. exact H.
Qed.
Lemma word_start_0 ws : word_start ws 0 = 0. Proof. reflexivity. Qed.
Lemma word_start_cons w ws i : word_start (w :: ws) (S i) = S (length w) + word_start ws i. Proof. reflexivity. Qed.
Lemma word_start_lt ws : forall i j, i < j -> j <= length ws -> word_start ws i < word_start ws j.
Proof.
  induction ws as [|w ws IH]; intros i j L J; cbn [length] in J; [lia|]. destruct j as [|j]; [lia|]. rewrite word_start_cons. destruct i as [|i]; [rewrite word_start_0; lia|]. rewrite word_start_cons. specialize (IH i j ltac:(lia) ltac:(lia)). lia.
Qed.
Definition str_spaces (s : str) : nat := length (filter is_space s).
Lemma no_spaces w : ~ In 32%N w -> str_spaces w = 0.
Proof. unfold str_spaces. induction w as [|c w IH]; intros H; [reflexivity|]. cbn [filter]. destruct (is_space c) eqn:C; [apply N.eqb_eq in C; exfalso; apply H; now left|]. apply IH. intros I. apply H. now right. Qed.
Lemma str_spaces_app a b : str_spaces (a ++ b) = str_spaces a + str_spaces b. Proof. unfold str_spaces. rewrite filter_app, app_length. reflexivity. Qed.
Lemma start_prefix s ws : spaced s ws -> forall i, i < length ws -> exists pre post, s = pre ++ post /\ length pre = word_start ws i /\ str_spaces pre = i /\ (0 < i -> exists pre', pre = pre' ++ [32%N]).
Proof.
  induction 1 as [w W|w s ws W P IH]; intros i I; cbn [length] in I.
  - assert (i = 0) by lia. subst i. exists [], w. repeat split. lia.
  - destruct i as [|i]; [exists [], (w ++ 32%N :: s); repeat split; lia|]. destruct (IH i ltac:(lia)) as (pre & post & E & L & S0 & T). exists (w ++ 32%N :: pre), post. split; [rewrite E, <- app_assoc; reflexivity|]. split; [rewrite app_length, word_start_cons; cbn [length]; lia|]. split.
    + rewrite str_spaces_app, (no_spaces w W). change (32%N :: pre) with ([32%N] ++ pre). rewrite str_spaces_app, S0. reflexivity.
    + intros _. destruct i as [|i]; [destruct pre; [now exists w|discriminate L]|]. destruct T as (pre' & ->); [lia|]. exists (w ++ 32%N :: pre'). rewrite <- app_assoc. reflexivity.
Qed.
Lemma start_same ws bl i : i <= length ws -> word_start (ws ++ bl) i = word_start ws i.
Proof. intros H. unfold word_start. rewrite firstn_app. replace (i - length ws) with 0 by lia. cbn [firstn]. now rewrite app_nil_r. Qed.

(* ---- cutting ---- *)
Lemma spaces_fst {T} (l : list (char * T)) : spaces l = str_spaces (map fst l).
Proof. unfold spaces, str_spaces. induction l as [|[c t] l IH]; [reflexivity|]. cbn [filter map fst]. unfold is_space. destruct (c =? 32)%N; cbn [length]; now rewrite IH. Qed.
Lemma spaces_app {T} (a b : list (char * T)) : spaces (a ++ b) = spaces a + spaces b. Proof. unfold spaces. rewrite filter_app, app_length. reflexivity. Qed.
Definition starts_here (ws : list str) {T} (cs : list (char * T)) (i : nat) (pre post : list (char * T)) : Prop :=
  cs = pre ++ post /\ length pre = word_start ws i /\ spaces pre = i /\ (0 < i -> exists pre' x, pre = pre' ++ [x] /\ fst x = 32%N).
Lemma starts_exist {T} (cs : list (char * T)) ws : words_of (map fst cs) ws -> forall i, i < length ws -> exists pre post, starts_here ws cs i pre post.
Proof.
  intros (bl & P & _ & _ & _) i I. destruct (start_prefix _ _ P i) as (pre & post & E & L & S0 & K); [rewrite app_length; lia|]. rewrite start_same in L by lia.
  apply map_eq_app in E as (a & b & -> & A & B). exists a, b. subst pre post. rewrite map_length in L. split; [reflexivity|]. split; [exact L|]. split; [now rewrite spaces_fst|].
  intros I0. destruct (K I0) as (pre' & E). apply map_eq_app in E as (a1 & a2 & -> & _ & E2). destruct a2 as [|x [|y a2]]; try discriminate. exists a1, x. split; [reflexivity|]. now injection E2.
Qed.
Fixpoint chain (n a : nat) (l : list nat) : Prop := match l with [] => a < n | b :: r => a < b /\ chain n b r end.
Lemma chain_lt n l : forall a, chain n a l -> a < n.
Proof. induction l as [|b r IH]; intros a; cbn [chain]; [auto|]. intros [L C]. apply IH in C. lia. Qed.
Lemma cut_ok ws (cs : list (char * nat)) : words_of (map fst cs) ws -> forall l a, chain (length ws) a l ->
  broken_at a (skipn (word_start ws a) cs) l (cut_lines ws cs (a :: l)).
Proof.
  intros W. induction l as [|b r IH]; intros a C; cbn [cut_lines].
  - assert (E : firstn (length cs - word_start ws a) (skipn (word_start ws a) cs) = skipn (word_start ws a) cs) by (apply firstn_all2; rewrite skipn_length; lia). rewrite E. apply br_last.
  - cbn [chain] in C. destruct C as [L C]. pose proof (chain_lt _ _ _ C) as B. destruct (starts_exist cs ws W a ltac:(lia)) as (pa & qa & Ea & La & Sa & _). destruct (starts_exist cs ws W b B) as (pb & qb & Eb & Lb & Sb & K). destruct K as (p & x & -> & X); [lia|].
    pose proof (word_start_lt ws a b L ltac:(lia)) as M. rewrite app_length in Lb. cbn [length] in Lb.
    assert (S1 : skipn (word_start ws a) cs = skipn (word_start ws a) p ++ x :: skipn (word_start ws b) cs).
    { rewrite Eb at 1. rewrite <- app_assoc. rewrite skipn_app. replace (word_start ws a - length p) with 0 by lia. cbn [skipn app]. f_equal. f_equal. rewrite Eb. rewrite skipn_app, app_length. cbn [length]. replace (word_start ws b - (length p + 1)) with 0 by lia. rewrite skipn_all2 by (rewrite app_length; cbn [length]; lia). reflexivity. }
    assert (F : firstn (word_start ws b - 1 - word_start ws a) (skipn (word_start ws a) cs) = skipn (word_start ws a) p). { rewrite S1, firstn_app, skipn_length. replace (word_start ws b - 1 - word_start ws a - (length p - word_start ws a)) with 0 by lia. cbn [firstn]. rewrite app_nil_r. apply firstn_all2. rewrite skipn_length. lia. }
    rewrite F, S1. apply br_cons; [exact X| |now apply IH].
    rewrite spaces_app in Sb. assert (X1 : spaces [x] = 1) by (unfold spaces; cbn [filter]; rewrite X; reflexivity). rewrite X1 in Sb.
    assert (Q1 : p = pa ++ skipn (word_start ws a) p). { rewrite <- (firstn_skipn (word_start ws a) p) at 1. f_equal. rewrite <- La. assert (E : firstn (length pa) (pa ++ qa) = firstn (length pa) ((p ++ [x]) ++ qb)) by (rewrite <- Ea, <- Eb; reflexivity). rewrite firstn_app, Nat.sub_diag, firstn_all in E. cbn [firstn] in E. rewrite app_nil_r, <- app_assoc, firstn_app in E. replace (length pa - length p) with 0 in E by lia. cbn [firstn] in E. rewrite app_nil_r in E. now symmetry. }
    rewrite Q1, spaces_app, Sa in Sb. lia.
Qed.
Lemma broken_map {T U} (f : char * T -> char * U) : (forall x, fst (f x) = fst x) -> forall a l bs gs, broken_at a l bs gs -> broken_at a (map f l) bs (map (map f) gs).
Proof.
  intros F a l bs gs H. induction H as [a g|a g x r b bs gs X B H IH]; cbn [map]; [apply br_last|]. rewrite map_app. cbn [map]. apply br_cons; [now rewrite F| |exact IH]. rewrite B. do 2 f_equal. rewrite !spaces_fst, map_map. f_equal. symmetry. apply map_ext. exact F.
Qed.

(* ---- owners ---- *)
Definition own_mark (line : list segment) (x : char * nat) : mark :=
  let s := nth (snd x) line (Segment [] 0 0 no_tags) in (fst x, (sg_start s, sg_end s, sg_tags s)).
Lemma owned_marks line : forall pre, map (own_mark (pre ++ line)) (owned (length pre) line) = line_marks line.
Proof.
  induction line as [|s r IH]; intros pre; [reflexivity|]. cbn [owned line_marks flat_map]. rewrite map_app. f_equal.
  - rewrite map_map. unfold marks. apply map_ext. intros c. unfold own_mark. cbn [fst snd]. rewrite app_nth2 by lia. rewrite Nat.sub_diag. reflexivity.
  - specialize (IH (pre ++ [s])). rewrite <- app_assoc, app_length in IH. cbn [app length] in IH. rewrite Nat.add_1_r in IH. exact IH.
Qed.
Lemma by_owner_ok cs : flat_map (fun g => map (fun c => (c, fst g)) (snd g)) (by_owner cs) = cs.
Proof.
  induction cs as [|[c i] r IH]; [reflexivity|]. cbn [by_owner]. destruct (by_owner r) as [|[j t] gs]; [now rewrite <- IH|]. destruct (Nat.eqb_spec i j) as [->|N0]; cbn [flat_map fst snd map app] in *; now rewrite <- IH.
Qed.
Lemma line_of_group line g : line_marks (map (owner_segment line) (by_owner g)) = map (own_mark line) g.
Proof.
  rewrite <- (by_owner_ok g) at 2. unfold line_marks. induction (by_owner g) as [|[i t] r IH]; [reflexivity|]. cbn [map flat_map]. rewrite map_app, IH. f_equal. rewrite map_map. reflexivity.
Qed.
Lemma group_filled line g : filled_line (map (owner_segment line) (by_owner g)) = not_empty (map (own_mark line) g).
Proof.
  destruct g as [|[c i] r]; [reflexivity|]. cbn [by_owner map not_empty]. destruct (by_owner r) as [|[j t] gs]; [reflexivity|]. destruct (i =? j); reflexivity.
Qed.
Lemma lines_filtered line gs : map line_marks (filter filled_line (map (fun g => map (owner_segment line) (by_owner g)) gs)) = filter not_empty (map (map (own_mark line)) gs).
Proof.
  induction gs as [|g r IH]; [reflexivity|]. cbn [map filter]. rewrite group_filled. destruct (not_empty (map (own_mark line) g)); [cbn [map]; now rewrite line_of_group, IH|exact IH].
Qed.

(* ---- filling ---- *)
Lemma fill_loop_ok sh ws limit : forall todo i a adv g, S i + todo = length ws -> a <= i -> on_line sh ws a i adv g -> (forall j, a < j <= i -> fitting sh ws limit a j) ->
  greedy sh ws limit (length ws) a (fill_loop sh ws limit (S i) todo a adv g true).
Proof.
  induction todo as [|todo IH]; intros i a adv g E A O F; cbn [fill_loop andb].
  - apply gr_last; [lia|]. intros j J. apply F. lia.
  - unfold too_wide. destruct (f_lt limit (line_ink sh ws (add32 adv (add32 (space_adv sh) (word_adv sh ws (S i)))) (g + (1 + word_glyphs ws (S i))) a (S i))) eqn:T.
    + apply gr_cons; [lia| | |].
      * intros j J. apply F. lia.
      * do 2 eexists. split; [apply ol_next; exact O|exact T].
      * apply IH; [lia|lia|apply ol_start; lia|intros j J; lia].
    + apply IH; [lia|lia|apply ol_next; exact O|]. intros j J. destruct (Nat.eq_dec j (S i)) as [->|]; [|apply F; lia]. do 2 eexists. split; [apply ol_next; exact O|exact T].
Qed.
Lemma fill_greedy sh ws limit : ws <> [] -> greedy sh ws limit (length ws) 0 (fill sh ws limit).
Proof.
  intros W. unfold fill. destruct ws as [|w r] eqn:E; [contradiction|]. rewrite <- E. replace (length ws) with (S (length r)) by now rewrite E. cbn [fill_loop andb]. change (S (length r)) with (length (w :: r)). rewrite <- E. apply fill_loop_ok; [rewrite E; reflexivity|lia| |intros j J; lia]. apply ol_first.
Qed.
Lemma greedy_chain sh ws limit n a l : greedy sh ws limit n a l -> chain n a l.
Proof. induction 1 as [a A F|a b r A F T G IH]; cbn [chain]; [exact A|]. split; [lia|exact IH]. Qed.
Lemma greedy_fit sh ws l l' n a r : (forall a i, fitting sh ws l a i -> fitting sh ws l' a i) -> greedy sh ws l n a r -> lines_fit sh ws l' n a r.
Proof. intros H G. induction G as [a A F|a b r A F T G IH]; [apply lf_last|apply lf_cons]; auto. Qed.
Lemma halve_few sh ws target n : forall lo hi, length (fill sh ws hi) <= target -> length (fill sh ws (halve sh ws target n lo hi)) <= target.
Proof.
  induction n as [|n IH]; intros lo hi H; cbn [halve]; [exact H|]. destruct (Nat.leb_spec (length (fill sh ws (f_div f32 (add32 lo hi) (fl 2)))) target); now apply IH.
Qed.
Open Scope Q_scope.
Definition fair (q : Q) : Prop := representable f32 q /\ Qabs q <= 2 ^ 90.
Lemma double_fits q : fair q -> representable f32 (2 * q).
Proof.
  intros ((_ & m & e & E & M & Q1) & B). split.
  - rewrite Qabs_Qmult. change (Qabs 2) with 2. eapply Qle_lt_trans; [apply Qmult_le_l; [reflexivity|exact B]|]. reflexivity.
  - exists m, (e + 1)%Z. split; [lia|]. split; [exact M|]. rewrite Q1, pow2_plus. change (2 ^ 1) with 2. ring.
Qed.
Lemma mid_between lo hi : fair lo -> fair hi -> lo <= hi -> exists m, f_div f32 (add32 (Fin lo) (Fin hi)) (fl 2) = Fin m /\ fair m /\ lo <= m <= hi.
Proof.
  intros L H O. pose proof (double_fits lo L) as DL. pose proof (double_fits hi H) as DH. destruct L as [RL BL], H as [RH BH]. apply abs_bound in BL as BL'. apply abs_bound in BH as BH'. 
  assert (P92 : 2 ^ 92 == 4 * 2 ^ 90) by reflexivity. assert (P90 : 0 < 2 ^ 90) by reflexivity.
  destruct (round_err (lo + hi) 92) as (s & S1 & _); [apply Qabs_Qlt_condition; lra|lia|].
  assert (SB : 2 * lo <= s <= 2 * hi). { split; [eapply round_ge; [exact DL| |exact S1]; lra|eapply round_le; [exact DH| |exact S1]; lra]. }
  destruct (round_err (s / 2) 92) as (m & M1 & _). { assert (K : s / 2 == s * (1 # 2)) by (unfold Qdiv; reflexivity). apply Qabs_Qlt_condition. rewrite K. lra. } { lia. }
  exists m. split; [unfold add32, fl; cbn [f_add]; rewrite S1; unfold f_div; exact M1|].
  assert (MB : lo <= m <= hi). { assert (K : s / 2 == s * (1 # 2)) by (unfold Qdiv; reflexivity). split; [eapply round_ge; [exact RL| |exact M1]; rewrite K; lra|eapply round_le; [exact RH| |exact M1]; rewrite K; lra]. }
  split; [|exact MB]. split; [apply (round_fin f32 f32_valid _ _ M1)|]. apply abs_bound. lra.
Qed.
Lemma halve_low sh ws target n : forall lo hi, fair lo -> fair hi -> lo <= hi -> exists m, halve sh ws target n (Fin lo) (Fin hi) = Fin m /\ m <= hi.
Proof.
  induction n as [|n IH]; intros lo hi L H O; cbn [halve]; [exists hi; split; [reflexivity|lra]|]. destruct (mid_between lo hi L H O) as (m & -> & M & B). destruct (Nat.leb_spec (length (fill sh ws (Fin m))) target).
  - destruct (IH lo m L M (proj1 B)) as (r & R & LE). exists r. split; [exact R|lra].
  - exact (IH m hi M H (proj2 B)).
Qed.
Lemma lt_wider l l' x : l <= l' -> f_lt (Fin l) x = false -> f_lt (Fin l') x = false.
Proof.
  unfold f_lt. intros L. destruct x as [|[|]|q]; cbn [f_le negb andb]; try (intros; assumption). intros H. destruct (Qle_bool l' q) eqn:E; [|reflexivity]. apply Qle_bool_iff in E. assert (E' : Qle_bool l q = true) by (apply Qle_bool_iff; lra). rewrite E' in H. cbn [andb] in *. apply negb_false_iff in H. apply Qle_bool_iff in H. apply negb_false_iff, Qle_bool_iff. lra.
Qed.
Lemma fitting_wider sh ws l l' a i : l <= l' -> fitting sh ws (Fin l) a i -> fitting sh ws (Fin l') a i.
Proof. intros L (x & g & O & F). exists x, g. split; [exact O|]. now apply (lt_wider l l'). Qed.
(* the widest word *)
Lemma max_word_ok sh ws hi : 0 <= hi -> fair hi -> (forall i, (i < length ws)%nat -> exists q, line_ink sh ws (word_adv sh ws i) (word_glyphs ws i) i i = Fin q /\ fair q /\ q <= hi) -> exists m, max_word sh ws = Fin m /\ fair m /\ m <= hi.
Proof.
  intros H0 H F. unfold max_word. assert (K : forall l m, (forall i, In i l -> (i < length ws)%nat) -> fair m -> m <= hi -> exists m', fold_left (fun m i => f_max m (line_ink sh ws (word_adv sh ws i) (word_glyphs ws i) i i)) l (Fin m) = Fin m' /\ fair m' /\ m' <= hi).
  { induction l as [|i r IH]; intros m I M L; cbn [fold_left]; [now exists m|]. destruct (F i) as (q & -> & Q1 & Q2); [apply I; now left|]. cbn [f_max]. destruct (f_le (Fin m) (Fin q)); apply IH; auto; intros j J; apply I; now right. }
  apply (K (seq 0 (length ws)) 0); [intros i I; apply in_seq in I; lia|split; [exact zero_fits32|discriminate]|exact H0].
Qed.
Close Scope Q_scope.
