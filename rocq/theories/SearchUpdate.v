From Coq Require Import Permutation.
From Verif Require Import Base BaseLemmas DocModel ParseModel MapLib SortLib SearchModel SearchSpec SearchProofs SearchMore SearchFst.

Lemma add_positions_in base : forall ps e p, In p (add_positions base ps e) <-> In p e \/ exists q, In q ps /\ p = q + base.
Proof.
  induction ps as [|x ps IH]; intros e p; cbn [add_positions].
  - split; [now left|intros [H|(q & [] & _)]; exact H].
  - rewrite IH. destruct (existsb (Nat.eqb (x + base)) e) eqn:E.
    + split.
      * intros [H|(q & H & ->)]; [now left|right; exists q; split; [now right|reflexivity]].
      * intros [H|(q & [<-|H] & ->)]; [now left| |right; now exists q]. left. apply existsb_exists in E as (y & Hy & Q). apply Nat.eqb_eq in Q. now rewrite Q.
    + rewrite in_app_iff. cbn [In]. split.
      * intros [[H|[<-|[]]]|(q & H & ->)]; [now left|right; exists x; split; [now left|reflexivity]|right; exists q; split; [now right|reflexivity]].
      * intros [H|(q & [<-|H] & ->)]; [auto|left; right; now left|right; now exists q].
Qed.
Lemma add_words_get k base : forall ws m, sorted ws -> sm_get k (add_words base ws m) = match sm_get k ws with None => sm_get k m | Some ps => Some (stable_sort Nat.leb (add_positions base ps (match sm_get k m with Some e => e | None => [] end))) end.
Proof.
  induction ws as [|[w ps] ws IH]; intros m S; [reflexivity|]. cbn [add_words]. unfold sorted, sm_keys in S. cbn [map fst] in S. apply StronglySorted_inv in S as [S F]. rewrite IH by exact S. rewrite update_get.
  cbn [sm_get]. destruct (str_eqb k w) eqn:E.
  - apply str_eqb_eq in E. subst w. assert (G : sm_get k ws = None).
    { destruct (sm_get k ws) as [v|] eqn:G; [|reflexivity]. assert (K : In k (sm_keys ws)) by (apply get_in; eauto). rewrite Forall_forall in F. exact (False_ind _ (str_lt_irrefl k (F k K))). }
    rewrite G. reflexivity.
  - reflexivity.
Qed.
(* A short text with one change near its front: the window covers all of it. *)
Lemma update_covers u e t c : r_start c <= r_end c -> r_end c - r_start c <= 1000 -> r_start c <= 50 -> (exists a b, t = a ++ b /\ blen a = r_start c) -> t <> [] -> blen t <= r_start c + 100 ->
  exists m, update_index true u e t [c] = Done (Engine (match m with [] => None | _ => Some m end) t) /\
    forall w o, whole_word (word_char u) t w o -> exists ps, sm_get (word_key u w) m = Some ps /\ In o ps.
Proof.
  intros H0 H1 H2 (a & b & -> & Ha) NE HL. unfold update_index. cbn [is_nil negb List.length fold_right]. change (10 <? 1) with false. rewrite Nat.add_0_r. replace (1000 <? r_end c - r_start c) with false by (symmetry; now apply Nat.ltb_ge). cbn [orb].
  change (stable_sort start_le [c]) with [c]. cbn [guess_loop]. unfold usub. replace (r_start c <=? r_end c) with true by (symmetry; now apply Nat.leb_le). cbn [need bind]. unfold sat_add at 1. rewrite Z.add_0_r, Nat2Z.id, <- Ha, slice_from_app. cbn [need bind].
  match goal with |- context [combine [c] [?z]] => generalize z end. intros z. cbn [bind combine rescan]. unfold sat_add. rewrite !Z.add_0_r, !Nat2Z.id. replace (r_start c - 50) with 0 by lia. rewrite Nat.min_r by lia.
  assert (P : 0 < blen (a ++ b)) by (destruct (a ++ b) as [|x r]; [congruence|]; rewrite blen_cons; pose proof (len_utf8_pos x); lia). replace (0 <? blen (a ++ b)) with true by (symmetry; now apply Nat.ltb_lt).
  assert (SL : slice (a ++ b) 0 (blen (a ++ b)) = Some (a ++ b)) by (pose proof (slice_app [] (a ++ b) []) as S; cbn [app blen Nat.add] in S; rewrite app_nil_r in S; exact S). rewrite SL. cbn [need bind].
  eexists. split; [reflexivity|]. intros w o W. set (m0 := move_index _ _). rewrite add_words_get by apply group_sorted. rewrite index_get.
  assert (F : In o (found u (word_key u w) (words_loop u (a ++ b) 0 None))) by (apply (proj2 (search_listing u (a ++ b) (word_key u w)) o); exists w; auto).
  destruct (found u (word_key u w) (words_loop u (a ++ b) 0 None)) as [|x l] eqn:E; [destruct F|]. cbn [some_list]. eexists. split; [reflexivity|].
  eapply Permutation_in; [apply sort_perm|]. apply add_positions_in. right. exists o. split; [exact F|lia].
Qed.
(* ---- one change, anywhere ---- *)
Lemma move_all_in cs n : forall ps, In n (move_all cs ps) <-> exists q, In q ps /\ move_pos cs q q = Some n.
Proof.
  induction ps as [|p ps IH]; cbn [move_all In].
  - split; [intros []|intros (q & [] & _)].
  - destruct (move_pos cs p p) as [q|] eqn:E; cbn [In]; rewrite IH; split.
    + intros [<-|(x & H & M)]; [exists p; auto|exists x; auto].
    + intros (x & [<-|H] & M); [left; congruence|right; now exists x].
    + intros (x & H & M). exists x. auto.
    + intros (x & [<-|H] & M); [congruence|now exists x].
Qed.
Lemma move_index_get cs k : forall m, sorted m -> sm_get k (move_index cs m) = match sm_get k m with Some ps => some_list (move_all cs ps) | None => None end.
Proof.
  induction m as [|[w ps] m IH]; intros S; [reflexivity|]. unfold sorted, sm_keys in S. cbn [map fst] in S. apply StronglySorted_inv in S as [S F]. cbn [move_index sm_get].
  destruct (str_eqb k w) eqn:E.
  - apply str_eqb_eq in E. subst w. assert (G : sm_get k m = None).
    { destruct (sm_get k m) as [v|] eqn:G; [|reflexivity]. assert (K : In k (sm_keys m)) by (apply get_in; eauto). rewrite Forall_forall in F. exact (False_ind _ (str_lt_irrefl k (F k K))). }
    destruct (move_all cs ps) as [|x l]; [rewrite (IH S), G; reflexivity|]. cbn [sm_get]. now rewrite str_eqb_refl.
  - destruct (move_all cs ps) as [|x l]; [exact (IH S)|]. cbn [sm_get]. rewrite E. exact (IH S).
Qed.
Definition positions (k : str) (m : smap (list nat)) : list nat := match sm_get k m with Some ps => ps | None => [] end.
Lemma positions_extract u t k : positions k (extract_words u t) = found u k (words_loop u t 0 None).
Proof. unfold positions. rewrite index_get. destruct (found u k (words_loop u t 0 None)); reflexivity. Qed.
Lemma update_one u t0 t c a b X R Y : r_start c <= r_end c -> r_end c - r_start c <= 1000 -> t = a ++ b -> blen a = r_start c ->
  t = X ++ R ++ Y -> blen X = r_start c - 50 -> blen X + blen R = Nat.min (r_start c + 100) (blen t) ->
  let k := match find_char is_eol b with Some (x, _) => blen x | None => Nat.min (blen b) ((r_end c - r_start c) * 2) end in
  exists m, update_index true u (build_index true u t0) t [c] = Done (Engine (match m with [] => None | _ => Some m end) t) /\
    forall w n, In n (positions w m) <->
      (exists q, In q (found u w (words_loop u t0 0 None)) /\ ((q < r_start c /\ n = q) \/ (r_end c <= q /\ n = q - (r_end c - r_start c) + k))) \/
      (exists i, In i (found u w (words_loop u R 0 None)) /\ n = i + (r_start c - 50)).
Proof.
  intros H0 H1 E Ha EX HX HR k. unfold update_index. cbn [is_nil negb List.length fold_right]. change (10 <? 1) with false. rewrite Nat.add_0_r. replace (1000 <? r_end c - r_start c) with false by (symmetry; now apply Nat.ltb_ge). cbn [orb].
  change (stable_sort start_le [c]) with [c]. cbn [guess_loop]. unfold usub. replace (r_start c <=? r_end c) with true by (symmetry; now apply Nat.leb_le). cbn [need bind]. unfold sat_add at 1. rewrite Z.add_0_r, Nat2Z.id. replace (slice_from t (r_start c)) with (Some b) by (rewrite E, <- Ha; symmetry; apply slice_from_app). cbn [need bind].
  cbn [find]. replace (r_end c <? r_start c) with false by (symmetry; apply Nat.ltb_ge; lia). fold k. cbn [bind combine rescan]. set (z := (Z.of_nat k - Z.of_nat (r_end c - r_start c))%Z).
  replace (sat_add (r_start c) 0) with (r_start c) by (unfold sat_add; lia). cbn [word_index build_index].
  set (m0 := move_index [(c, z)] (extract_words u t0)).
  assert (RE : (if r_start c - 50 <? Nat.min (r_start c + 100) (blen t) then region <- need (slice t (r_start c - 50) (Nat.min (r_start c + 100) (blen t))) ;; Done (add_words (r_start c - 50) (extract_words u region) m0) else Done m0) = Done (add_words (r_start c - 50) (extract_words u R) m0)).
  { destruct (Nat.ltb_spec (r_start c - 50) (Nat.min (r_start c + 100) (blen t))) as [L|L].
    - replace (slice t (r_start c - 50) (Nat.min (r_start c + 100) (blen t))) with (Some R) by (rewrite <- HR, <- HX, EX; symmetry; apply slice_app). reflexivity.
    - assert (B : blen t = blen a + blen b) by (rewrite E; apply blen_app). assert (R0 : blen R = 0) by lia. destruct R as [|x R]; [reflexivity|]. rewrite blen_cons in R0. pose proof (len_utf8_pos x). lia. }
  rewrite RE. cbn [bind]. eexists. split; [reflexivity|]. intros w n. unfold positions. rewrite add_words_get by apply group_sorted. unfold m0. rewrite move_index_get by apply group_sorted. rewrite !index_get.
  assert (MV : forall q, move_pos [(c, z)] q q = Some n <-> (q < r_start c /\ n = q) \/ (r_end c <= q /\ n = q - (r_end c - r_start c) + k)).
  { intros q. cbn [move_pos]. destruct (Nat.leb_spec (r_start c) q), (Nat.ltb_spec q (r_end c)), (Nat.leb_spec (r_end c) q); cbn [andb]; unfold sat_add, z; (split; [try discriminate; intros [= <-]|]); try lia; intros Q; f_equal; lia. }
  assert (MA : forall ps, In n (move_all [(c, z)] ps) <-> exists q, In q ps /\ ((q < r_start c /\ n = q) \/ (r_end c <= q /\ n = q - (r_end c - r_start c) + k))).
  { intros ps. rewrite move_all_in. split; intros (q & H & M); exists q; (split; [exact H|]); now apply MV. }
  assert (OLD : In n (match match some_list (found u w (words_loop u t0 0 None)) with Some ps => some_list (move_all [(c, z)] ps) | None => None end with Some e => e | None => [] end) <-> exists q, In q (found u w (words_loop u t0 0 None)) /\ ((q < r_start c /\ n = q) \/ (r_end c <= q /\ n = q - (r_end c - r_start c) + k))).
  { rewrite <- MA. destruct (found u w (words_loop u t0 0 None)) as [|x l]; [reflexivity|]. cbn [some_list]. destruct (move_all [(c, z)] (x :: l)); reflexivity. }
  rewrite <- OLD. destruct (found u w (words_loop u R 0 None)) as [|x l] eqn:FR; cbn [some_list].
  - split; [now left|]. intros [H|(i & [] & _)]. exact H.
  - split.
    + intros H. apply (Permutation_in _ (Permutation_sym (sort_perm _ _))) in H. apply add_positions_in in H. exact H.
    + intros H. eapply Permutation_in; [apply sort_perm|]. apply add_positions_in. exact H.
Qed.

(* ---- replacing what the FST finds ---- *)
Lemma replace_each_app sz r : forall a b d, replace_each sz d (a ++ b) r = out_bind (replace_each sz d a r) (fun d1 _ => replace_each sz d1 b r).
Proof.
  induction a as [|h a IH]; intros b d; [reflexivity|]. cbn [app replace_each]. destruct (doc_replace sz d _ r) as [d1 ?|d1|]; cbn [out_bind]; [apply IH|reflexivity|reflexivity].
Qed.
Lemma replace_each_swapped sz x n o os s s' : swapped x n o os s s' -> forall d A hs, InfoCmdSpec.handled sz d -> text d = A ++ s -> blen A = o ->
  map (fun h => (h_start h, h_end h)) hs = map (fun p => (p, p + n)) os ->
  exists d', replace_each sz d (rev hs) x = OOk d' tt /\ text d' = A ++ s' /\ InfoCmdSpec.handled sz d'.
Proof.
  induction 1 as [o s|o s m r r' p os -> L S IH]; intros d A hs H E B M.
  - destruct hs; [|discriminate M]. exists d. now repeat split.
  - destruct hs as [|h hs]; [discriminate M|]. cbn [map] in M. injection M as M1 M2 M. cbn [rev]. rewrite replace_each_app.
    destruct (IH d (A ++ s ++ m) hs H) as (d1 & D1 & T1 & H1); [now rewrite E, <- !app_assoc|rewrite !blen_app; lia|exact M|]. rewrite D1. cbn [out_bind replace_each]. rewrite M1, M2.
    unfold range_new. replace (o + blen s <=? o + blen s + n) with true by (symmetry; apply Nat.leb_le; lia).
    destruct (InfoCmdProofs.handled_replace sz d1 (A ++ s) m r' x H1) as (d2 & D2 & T2 & H2); [now rewrite T1, <- !app_assoc|]. rewrite blen_app, B, L in D2. rewrite D2. cbn [out_bind].
    exists d2. split; [reflexivity|]. split; [now rewrite T2, <- !app_assoc|exact H2].
Qed.
Lemma sorted_snoc {A} (R : A -> A -> Prop) l x : StronglySorted R l -> Forall (fun y => R y x) l -> StronglySorted R (l ++ [x]).
Proof.
  induction 1 as [|y r S IH F]; intros Fx; cbn [app]; [repeat constructor|]. apply Forall_cons_iff in Fx as [F1 F2]. constructor; [now apply IH|]. apply Forall_app. split; [exact F|]. constructor; [exact F1|constructor].
Qed.
Lemma sorted_rev {A} (R : A -> A -> Prop) l : StronglySorted (fun a b => R b a) l -> StronglySorted R (rev l).
Proof.
  induction 1 as [|x l S IH F]; cbn [rev]; [constructor|]. apply sorted_snoc; [exact IH|]. rewrite Forall_forall in *. intros y Hy. apply F. now apply in_rev.
Qed.
