From Verif Require Import Base BaseLemmas DocModel DocSpec DocProofs ParseModel MapLib SearchModel SearchSpec.
From Verif Require InfoCmdSpec InfoCmdProofs.
From Verif Require Import StyleCmdProps.

(* ---- words ---- *)
Inductive dec (P : char -> bool) : nat -> str -> list (str * nat) -> Prop :=
| d_nil o : dec P o [] []
| d_gap o c t l : P c = false -> dec P (o + len_utf8 c) t l -> dec P o (c :: t) l
| d_word o w t l : w <> [] -> forallb P w = true -> edge P t -> dec P (o + blen w) t l -> dec P o (w ++ t) ((w, o) :: l).
Lemma words_dec u : forall t,
  (forall o, dec (word_char u) o t (words_loop u t o None)) /\
  (forall o w, w <> [] -> forallb (word_char u) w = true -> dec (word_char u) o (w ++ t) (words_loop u t (o + blen w) (Some (o, w)))).
Proof.
  induction t as [|c t [IH1 IH2]].
  - split; [constructor|]. intros o w N F. cbn [words_loop]. apply d_word; auto; [exact I|constructor].
  - split.
    + intros o. cbn [words_loop]. destruct (word_char u c) eqn:C; cbn [app]; [|now apply d_gap].
      specialize (IH2 o [c]). cbn [blen app forallb] in IH2. rewrite Nat.add_0_r in IH2. apply IH2; [discriminate|now rewrite C].
    + intros o w N F. cbn [words_loop]. destruct (word_char u c) eqn:C.
      * specialize (IH2 o (w ++ [c])). rewrite blen_app, forallb_app, F in IH2. cbn [blen forallb andb] in IH2. rewrite C, Nat.add_0_r, <- app_assoc in IH2. cbn [app] in IH2.
        rewrite <- Nat.add_assoc. apply IH2; [now destruct w|reflexivity].
      * cbn [app]. apply d_word; auto. now apply d_gap.
Qed.
Lemma run_unique P (w r w' r' : str) : forallb P w = true -> forallb P w' = true -> edge P r -> edge P r' -> w ++ r = w' ++ r' -> w = w' /\ r = r'.
Proof.
  revert w'. induction w as [|c w IH]; intros w' F F' R R' E; cbn [app] in E.
  - destruct w' as [|c' w']; [now split|]. subst r. cbn [app edge forallb] in *. rewrite R in F'. discriminate F'.
  - cbn [forallb] in F. apply andb_true_iff in F as [Fc F]. destruct w' as [|c' w'].
    + cbn [app] in E. subst r'. cbn [edge] in R'. congruence.
    + cbn [app forallb] in *. apply andb_true_iff in F' as [_ F']. injection E as -> E. destruct (IH w' F F' R R' E) as [-> ->]. now split.
Qed.
Lemma edge_last P a w : forallb P w = true -> w <> [] -> ~ edge P (rev (a ++ w)).
Proof.
  intros F N. destruct (exists_last N) as (w' & x & ->). rewrite app_assoc, rev_app_distr. cbn [rev app edge]. rewrite forallb_app in F. cbn [forallb] in F. apply andb_true_iff in F as [_ F]. rewrite andb_true_r in F. congruence.
Qed.
Lemma dec_words P o t l : dec P o t l -> forall pre, edge P (rev pre) \/ edge P t -> forall w p,
  In (w, p) l <-> exists a b, t = a ++ w ++ b /\ p = o + blen a /\ w <> [] /\ forallb P w = true /\ edge P (rev (pre ++ a)) /\ edge P b.
Proof.
  induction 1 as [o|o c t l C D IH|o w0 t l N0 F0 E0 D IH]; intros pre HP w p.
  - split; [intros []|]. intros (a & b & E & _ & N & _). destruct a; [|discriminate E]. destruct w; [congruence|discriminate E].
  - assert (HP' : edge P (rev (pre ++ [c])) \/ edge P t) by (left; rewrite rev_app_distr; exact C). rewrite (IH _ HP' w p). split.
    + intros (a & b & -> & -> & N & F & E1 & E2). exists (c :: a), b. rewrite <- app_assoc in E1. rewrite blen_cons. repeat split; auto; lia.
    + intros ([|c' a] & b & E & -> & N & F & E1 & E2).
      * destruct w as [|x w]; [congruence|]. cbn [app] in E. injection E as <- _. cbn [forallb] in F. rewrite C in F. discriminate F.
      * cbn [app] in E. injection E as <- ->. exists a, b. rewrite <- app_assoc. rewrite blen_cons. repeat split; auto; lia.
  - cbn [In]. rewrite (IH (pre ++ w0) (or_intror E0) w p). split.
    + intros [[= <- <-]|(a & b & -> & -> & N & F & E1 & E2)].
      * exists [], t. rewrite app_nil_r. cbn [app blen]. repeat split; auto; try lia. destruct HP as [HP|HP]; [exact HP|]. destruct w0 as [|x w0]; [congruence|]. cbn [app edge forallb] in *. rewrite HP in F0. discriminate F0.
      * exists (w0 ++ a), b. rewrite blen_app. rewrite <- app_assoc in E1. repeat split; auto; try lia. now rewrite <- app_assoc.
    + intros (a & b & E & -> & N & F & E1 & E2). destruct (app_eq_app _ _ _ _ E) as [z [[-> Q]|[-> Q]]].
      * rewrite forallb_app in F0. apply andb_true_iff in F0 as [Fa Fz]. destruct a as [|x a].
        -- left. cbn [app] in *. destruct (run_unique P w b z t F Fz E2 E0) as [-> ->]; [exact Q|]. cbn [blen]. f_equal. lia.
        -- exfalso. exact (edge_last P pre (x :: a) Fa ltac:(discriminate) E1).
      * right. exists z, b. rewrite blen_app, <- app_assoc. repeat split; auto; lia.
Qed.
Lemma dec_sorted P o t l : dec P o t l -> StronglySorted lt (map snd l) /\ Forall (fun p => o <= snd p) l.
Proof.
  induction 1 as [o|o c t l C D [IH1 IH2]|o w t l N F E D [IH1 IH2]]; [split; constructor| |].
  - split; [exact IH1|]. eapply Forall_impl; [|exact IH2]. cbn. intros; lia.
  - assert (1 <= blen w) by (destruct w as [|x w]; [congruence|]; rewrite blen_cons; pose proof (len_utf8_pos x); lia). cbn [map snd]. split.
    + constructor; [exact IH1|]. apply Forall_forall. intros p Hp. apply in_map_iff in Hp as ([w' q] & <- & Hp). rewrite Forall_forall in IH2. apply IH2 in Hp. cbn in *. lia.
    + constructor; [apply le_n|]. eapply Forall_impl; [|exact IH2]. cbn. intros; lia.
Qed.
(* ---- the index ---- *)
Lemma update_get {A} k k' (d : A) f m : sm_get k' (sm_update k d f m) = if str_eqb k' k then Some (f (match sm_get k m with Some v => v | None => d end)) else sm_get k' m.
Proof. unfold sm_update. apply get_insert. Qed.
Definition of_key {A} (k : str) (l : list (str * A)) : list A := map snd (filter (fun p => str_eqb k (fst p)) l).
Definition some_list {A} (l : list A) : option (list A) := match l with [] => None | _ => Some l end.
Lemma group_get {A} k (l : list (str * A)) : sm_get k (group l) = some_list (of_key k l).
Proof.
  unfold group. assert (G : forall (l : list (str * A)) (m : smap (list A)), sm_get k (fold_left (fun m p => sm_update (fst p) [] (fun v => v ++ [snd p]) m) l m) =
    match of_key k l with [] => sm_get k m | x => Some ((match sm_get k m with Some v => v | None => [] end) ++ x) end).
  { clear. induction l as [|[k' v] l IH]; intros m; [reflexivity|]. cbn [fold_left fst snd]. rewrite IH, update_get. unfold of_key. cbn [filter fst]. destruct (str_eqb k k') eqn:E; [|reflexivity].
    apply str_eqb_eq in E. subst k'. cbn [map snd]. destruct (map snd (filter _ l)) as [|y r]; [reflexivity|]. now rewrite <- app_assoc. }
  rewrite G. cbn [sm_get]. unfold some_list. now destruct (of_key k l).
Qed.
Lemma group_sorted {A} (l : list (str * A)) : sorted (group l).
Proof.
  unfold group. assert (G : forall m : smap (list A), sorted m -> sorted (fold_left (fun m p => sm_update (fst p) [] (fun v => v ++ [snd p]) m) l m)).
  { induction l as [|p l IH]; intros m S; [exact S|]. cbn [fold_left]. apply IH. now apply sorted_insert. }
  apply G. constructor.
Qed.
Lemma push_limited {A} max (l : list A) : push_hits max l [] = limited max l.
Proof.
  assert (G : forall l acc : list A, max = 0 \/ List.length acc < max -> push_hits max l acc = acc ++ match max with 0 => l | _ => firstn (max - List.length acc) l end).
  { clear. induction l as [|x l IH]; intros acc H; cbn [push_hits].
    - destruct max; [now rewrite app_nil_r|]. rewrite firstn_nil. now rewrite app_nil_r.
    - rewrite app_length. cbn [List.length]. destruct max as [|m].
      + cbn [Nat.ltb Nat.leb andb]. rewrite IH by now left. now rewrite <- app_assoc.
      + change (0 <? S m) with true. cbn [andb]. destruct (Nat.leb_spec (S m) (List.length acc + 1)) as [L|L].
        * replace (S m - List.length acc) with 1 by lia. reflexivity.
        * rewrite IH by (rewrite app_length; cbn [List.length]; lia). rewrite app_length. cbn [List.length]. replace (S m - List.length acc) with (S (S m - (List.length acc + 1))) by lia.
          cbn [firstn]. now rewrite <- app_assoc. }
  rewrite G by (destruct max; [now left|right; cbn; lia]). cbn [app List.length]. destruct max; [reflexivity|]. now rewrite Nat.sub_0_r.
Qed.
Definition found (u : unicode) (q : str) (l : list (str * nat)) : list nat := map snd (filter (fun p => str_eqb q (word_key u (fst p))) l).
Lemma index_get u t q : sm_get q (extract_words u t) = some_list (found u q (words_loop u t 0 None)).
Proof.
  unfold extract_words. rewrite group_get. f_equal. unfold of_key, found. induction (words_loop u t 0 None) as [|[w o] l IH]; [reflexivity|]. cbn [map filter fst]. destruct (str_eqb q (word_key u w)); cbn [map snd]; now rewrite IH.
Qed.
Lemma found_listing u q P o t l : dec P o t l -> forall pre, edge P (rev pre) \/ edge P t ->
  listing (fun p => exists w a b, t = a ++ w ++ b /\ p = o + blen a /\ w <> [] /\ forallb P w = true /\ edge P (rev (pre ++ a)) /\ edge P b /\ word_key u w = q) (found u q l).
Proof.
  intros D pre HP. split.
  - destruct (dec_sorted P o t l D) as [S _]. unfold found. clear D HP. induction l as [|[w p] l IH]; [constructor|]. cbn [map snd] in S. apply StronglySorted_inv in S as [S F]. cbn [filter fst]. destruct (str_eqb q (word_key u w)); [|now apply IH].
    cbn [map snd]. constructor; [now apply IH|]. rewrite Forall_forall in *. intros x Hx. apply F. apply in_map_iff in Hx as ([w' y] & <- & Hx). apply filter_In in Hx as [Hx _]. apply in_map_iff. now exists (w', y).
  - intros p. unfold found. rewrite in_map_iff. split.
    + intros ([w p'] & <- & H). apply filter_In in H as [H K]. cbn [fst snd] in *. apply str_eqb_eq in K. apply (dec_words P o t l D pre HP) in H as (a & b & H1 & H2 & H3 & H4 & H5 & H6). exists w, a, b. now repeat split.
    + intros (w & a & b & H1 & H2 & H3 & H4 & H5 & H6 & K). exists (w, p). split; [reflexivity|]. apply filter_In. split; [|cbn [fst]; now apply str_eqb_eq]. apply (dec_words P o t l D pre HP). exists a, b. now repeat split.
Qed.
Lemma listing_ext Q Q' os : (forall o, Q o <-> Q' o) -> listing Q os -> listing Q' os.
Proof. intros E [S L]. split; [exact S|]. intros o. now rewrite L. Qed.
Lemma search_listing u t q : listing (fun o => exists w, whole_word (word_char u) t w o /\ word_key u w = q) (found u q (words_loop u t 0 None)).
Proof.
  eapply listing_ext; [|apply (found_listing u q _ 0 t _ (proj1 (words_dec u t) 0) []); now left]. intros o. cbn [app]. split.
  - intros (w & a & b & -> & -> & N & F & E1 & E2 & K). exists w. split; [|exact K]. exists a, b. now repeat split.
  - intros (w & (a & b & -> & <- & N & F & E1 & E2) & K). exists w, a, b. now repeat split.
Qed.
Lemma search_some u t p o : search u (build_index true u t) p o = Done (map (index_hit p) (limited (max_results o) (found u (fold_case u o p) (words_loop u t 0 None)))).
Proof.
  unfold search, build_index. cbn [word_index]. rewrite index_get. f_equal. generalize (found u (fold_case u o p) (words_loop u t 0 None)) as l. intros l. unfold some_list. destruct l as [|x l]; [destruct (max_results o); reflexivity|].
  rewrite push_limited. unfold limited. destruct (max_results o); [reflexivity|]. now rewrite firstn_map.
Qed.

(* ---- replacing ---- *)
Lemma handled_insert sz d A B t : InfoCmdSpec.handled sz d -> text d = A ++ B ->
  exists d', doc_insert sz d (blen A) t = OOk d' tt /\ text d' = A ++ t ++ B /\ InfoCmdSpec.handled sz d'.
Proof.
  intros H E.
  destruct (edit_effect sz d (AInsert (blen A) t) (blen A) (blen A) t (A ++ t ++ B) (InfoCmdProofs.handled_inv _ _ H)) as (d' & D & T).
  - exists A, [], B. cbn [blen app]. repeat split; auto; lia.
  - now left.
  - exists d'. split; [exact D|]. split; [exact T|]. eapply InfoCmdSpec.hd_act; [exact H|]. cbn [do_all]. now rewrite D.
Qed.
Lemma replace_hits_app sz r : forall a b d, replace_hits sz d (a ++ b) r = out_bind (replace_hits sz d a r) (fun d1 _ => replace_hits sz d1 b r).
Proof.
  induction a as [|h a IH]; intros b d; [reflexivity|]. cbn [app replace_hits]. destruct (doc_delete sz d _) as [d1 ?|d1|]; cbn [out_bind]; [|reflexivity|reflexivity].
  destruct (doc_insert sz d1 _ r) as [d2 ?|d2|]; cbn [out_bind]; [apply IH|reflexivity|reflexivity].
Qed.
Lemma replace_swapped sz x n o os s s' : swapped x n o os s s' -> forall d A hs, InfoCmdSpec.handled sz d -> text d = A ++ s -> blen A = o ->
  map (fun h => (h_start h, h_end h)) hs = map (fun p => (p, p + n)) os ->
  exists d', replace_hits sz d (rev hs) x = OOk d' tt /\ text d' = A ++ s' /\ InfoCmdSpec.handled sz d'.
Proof.
  induction 1 as [o s|o s m r r' p os -> L S IH]; intros d A hs H E B M.
  - destruct hs; [|discriminate M]. exists d. now repeat split.
  - destruct hs as [|h hs]; [discriminate M|]. cbn [map] in M. injection M as M1 M2 M. cbn [rev]. rewrite replace_hits_app.
    destruct (IH d (A ++ s ++ m) hs H) as (d1 & D1 & T1 & H1); [now rewrite E, <- !app_assoc|rewrite !blen_app; lia|exact M|]. rewrite D1. cbn [out_bind replace_hits]. rewrite M1, M2.
    unfold range_new. replace (o + blen s <=? o + blen s + n) with true by (symmetry; apply Nat.leb_le; lia).
    destruct (InfoCmdProofs.handled_delete sz d1 (A ++ s) m r' H1) as (d2 & D2 & T2 & H2); [now rewrite T1, <- !app_assoc|]. rewrite blen_app, B, L in D2. rewrite D2. cbn [out_bind].
    destruct (handled_insert sz d2 (A ++ s) r' x H2 T2) as (d3 & D3 & T3 & H3). rewrite blen_app, B in D3. rewrite D3. cbn [out_bind]. exists d3. split; [reflexivity|]. split; [now rewrite T3, <- !app_assoc|exact H3].
Qed.
Lemma swapped_front x n g : forall os o s s', swapped x n (o + blen g) os s s' -> swapped x n o os (g ++ s) (g ++ s').
Proof.
  intros os o s s' H. inversion H as [o' s1|o' s1 m r r' p os' P L S]; subst; [constructor|]. rewrite !app_assoc. rewrite <- (app_assoc (g ++ s1)), <- (app_assoc (g ++ s1) x).
  apply sw_cons; auto. rewrite blen_app. lia.
Qed.
Lemma swapped_some x n P o t l (Q : nat -> str -> bool) : dec P o t l -> (forall w p, In (w, p) l -> Q p w = true -> blen w = n) ->
  exists t', swapped x n o (map snd (filter (fun p => Q (snd p) (fst p)) l)) t t'.
Proof.
  induction 1 as [o|o c t l C D IH|o w t l N F E D IH]; intros K.
  - exists []. constructor.
  - destruct (IH K) as (t' & S). exists (c :: t'). apply (swapped_front x n [c]). cbn [blen]. now rewrite Nat.add_0_r.
  - destruct IH as (t' & S); [intros w' p' H; exact (K w' p' (or_intror H))|]. cbn [filter fst snd]. destruct (Q o w) eqn:X.
    + exists (x ++ t'). cbn [map snd]. rewrite <- (app_nil_l (w ++ t)), <- (app_nil_l (x ++ t')). assert (LW : blen w = n) by (apply (K w o); [now left|exact X]). apply sw_cons; [cbn [blen]; lia|exact LW|]. rewrite LW in S. exact S.
    + exists (w ++ t'). now apply swapped_front.
Qed.
Lemma swapped_reworded x n P o t l (q : str -> bool) : dec P o t l -> (forall w p, In (w, p) l -> q w = true -> blen w = n) ->
  exists t', swapped x n o (map snd (filter (fun p => q (fst p)) l)) t t' /\ reworded P (fun w => if q w then x else w) t t'.
Proof.
  induction 1 as [o|o c t l C D IH|o w t l N F E D IH]; intros K.
  - exists []. split; constructor.
  - destruct (IH K) as (t' & S & R). exists (c :: t'). split; [|now constructor]. apply (swapped_front x n [c]). cbn [blen]. now rewrite Nat.add_0_r.
  - destruct IH as (t' & S & R); [intros w' p' H; exact (K w' p' (or_intror H))|]. exists ((if q w then x else w) ++ t'). split; [|apply (rw_word P (fun w => if q w then x else w)); auto].
    cbn [filter fst]. destruct (q w) eqn:X; [|now apply swapped_front].
    cbn [map snd]. rewrite <- (app_nil_l (w ++ t)), <- (app_nil_l (x ++ t')). assert (LW : blen w = n) by (apply (K w o); [now left|exact X]). apply sw_cons; [cbn [blen]; lia|exact LW|]. rewrite LW in S. exact S.
Qed.
Lemma swapped_firstn x n o os t t' : swapped x n o os t t' -> forall k, exists t'', swapped x n o (firstn k os) t t''.
Proof.
  induction 1 as [o s|o s m r r' p os P L S IH]; intros k; [destruct k; exists s; constructor|]. destruct k as [|k]; [eexists; constructor|]. destruct (IH k) as (t'' & S'). exists (s ++ x ++ t''). cbn [firstn]. now constructor.
Qed.
Lemma reworded_unique P f t a : reworded P f t a -> forall b, reworded P f t b -> a = b.
Proof.
  induction 1 as [|c t t' C R IH|w t t' N F E R IH]; intros b H; inversion H as [Q|c1 t1 t1' C1 R1 Q|w1 t1 t1' N1 F1 E1 R1 Q]; subst; try reflexivity.
  - destruct w1; [congruence|discriminate].
  - f_equal. now apply IH.
  - exfalso. destruct w1 as [|x w1]; [congruence|]. cbn [app forallb] in *. injection Q as -> _. rewrite C in F1. discriminate F1.
  - exfalso. destruct w; [congruence|discriminate].
  - exfalso. destruct w as [|x w]; [congruence|]. cbn [app forallb] in *. injection Q as -> _. rewrite C1 in F. discriminate F.
  - destruct (run_unique P w1 t1 w t F1 F E1 E Q) as [-> ->]. f_equal. now apply IH.
Qed.
