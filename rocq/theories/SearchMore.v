From Verif Require Import Base BaseLemmas DocModel ParseModel MapLib SearchModel SearchSpec SearchProofs.

(* ---- places ---- *)
Fixpoint places (p s : str) (o : nat) : list nat :=
  match s with
  | [] => []
  | c :: r => (if starts_with p s then [o] else []) ++ places p r (o + len_utf8 c)
  end.
Lemma find_str_some p s a b : find_str p s = Some (a, b) -> s = a ++ b /\ exists r, b = p ++ r.
Proof.
  revert a b. induction s as [|c s IH]; intros a b H; cbn [find_str] in H.
  - destruct (starts_with p []) eqn:E; [|discriminate H]. injection H as <- <-. split; [reflexivity|]. now apply starts_with_spec.
  - destruct (starts_with p (c :: s)) eqn:E; [injection H as <- <-; split; [reflexivity|now apply starts_with_spec]|].
    destruct (find_str p s) as [[a' b']|]; [|discriminate H]. injection H as <- <-. destruct (IH a' b' eq_refl) as [-> R]. now split.
Qed.
Lemma places_find c p s : forall o, places (c :: p) s o = match find_str (c :: p) s with
  | None => []
  | Some (x, y) => (o + blen x) :: places (c :: p) (tl y) (o + blen x + len_utf8 c) end.
Proof.
  induction s as [|d s IH]; intros o; [reflexivity|]. cbn [places find_str]. destruct (starts_with (c :: p) (d :: s)) eqn:E.
  - cbn [app blen tl]. apply starts_with_spec in E as (r & E). cbn [app] in E. injection E as -> _. now rewrite Nat.add_0_r.
  - cbn [app]. rewrite IH. destruct (find_str (c :: p) s) as [[x y]|]; [|reflexivity]. rewrite blen_cons. rewrite !Nat.add_assoc. reflexivity.
Qed.
Lemma places_in p s o n : p <> [] -> In n (places p s o) <-> exists a b, s = a ++ p ++ b /\ n = o + blen a.
Proof.
  intros N. revert o. induction s as [|c s IH]; intros o; cbn [places].
  - split; [intros []|]. intros (a & b & E & _). destruct a; [|discriminate E]. destruct p; [congruence|discriminate E].
  - rewrite in_app_iff, IH. split.
    + intros [H|(a & b & -> & ->)].
      * destruct (starts_with p (c :: s)) eqn:E; [|destruct H]. destruct H as [<-|[]]. apply starts_with_spec in E as (r & E). exists [], r. split; [exact E|cbn; lia].
      * exists (c :: a), b. split; [reflexivity|]. rewrite blen_cons. lia.
    + intros ([|c' a] & b & E & ->).
      * left. assert (X : starts_with p (c :: s) = true) by (apply starts_with_spec; now exists b). rewrite X. left. cbn; lia.
      * cbn [app] in E. injection E as <- ->. right. exists a, b. split; [reflexivity|]. rewrite blen_cons. lia.
Qed.
Lemma places_sorted p s : forall o, StronglySorted lt (places p s o) /\ Forall (fun n => o <= n) (places p s o).
Proof.
  induction s as [|c s IH]; intros o; cbn [places]; [split; constructor|]. destruct (IH (o + len_utf8 c)) as [I1 I2]. pose proof (len_utf8_pos c). destruct (starts_with p (c :: s)); cbn [app].
  - split; constructor; auto; [|]; (eapply Forall_impl; [|exact I2]); cbn; intros; lia.
  - split; [exact I1|]. eapply Forall_impl; [|exact I2]. cbn; intros; lia.
Qed.
(* ---- texts of the same layout ---- *)
Definition layout (s : str) : list nat := map len_utf8 s.
Lemma layout_blen s t : layout s = layout t -> blen s = blen t.
Proof. revert t. induction s as [|c s IH]; intros [|d t] E; try discriminate E; [reflexivity|]. cbn in E. injection E as E1 E2. rewrite !blen_cons, E1. now rewrite (IH t). Qed.
Lemma layout_app a b t : layout (a ++ b) = layout t -> exists a' b', t = a' ++ b' /\ layout a = layout a' /\ layout b = layout b'.
Proof.
  revert t. induction a as [|c a IH]; intros t E; [exists [], t; now repeat split|]. destruct t as [|d t]; [discriminate E|]. cbn in E. injection E as E1 E2. destruct (IH t E2) as (a' & b' & -> & L1 & L2).
  exists (d :: a'), b'. repeat split; [|exact L2]. cbn. unfold layout in L1. now rewrite E1, L1.
Qed.
(* ---- one hit ---- *)
Definition hit_at (t : str) (a b : nat) (h : hit) : Prop :=
  h_start h = a /\ h_end h = b /\ slice t a b = Some (h_text h) /\ exists start, line_at t a (h_line h) start (h_context h) /\ h_column h = a - start.
Lemma line_loop_ok s : forall a l, ~ In 10%N l -> (a = [] \/ exists x, a = x ++ [10%N]) ->
  exists a' l', a ++ l ++ s = a' ++ l' /\ ~ In 10%N l' /\ (a' = [] \/ exists x, a' = x ++ [10%N]) /\
    line_loop s (blen a + blen l) (count_occ N.eq_dec a 10%N) (blen a) = (count_occ N.eq_dec a' 10%N, blen a').
Proof.
  induction s as [|c s IH]; intros a l Hl Ha.
  - exists a, l. rewrite app_nil_r. now repeat split.
  - cbn [line_loop]. destruct (N.eqb_spec c 10) as [->|N].
    + destruct (IH (a ++ l ++ [10%N]) []) as (a' & l' & E & H1 & H2 & H3); [intros []|right; exists (a ++ l); now rewrite app_assoc|].
      exists a', l'. split; [rewrite <- E; cbn [app]; now rewrite <- !app_assoc|]. split; [exact H1|]. split; [exact H2|]. rewrite <- H3. rewrite !blen_app, !count_occ_app. cbn [blen]. change (len_utf8 10) with 1.
      replace (count_occ N.eq_dec l 10%N) with 0 by (symmetry; apply count_occ_not_In; exact Hl). change (count_occ N.eq_dec [10%N] 10%N) with 1. f_equal; lia.
    + destruct (IH a (l ++ [c])) as (a' & l' & E & H1 & H2 & H3); [intros Q; apply in_app_iff in Q as [Q|[Q|[]]]; [exact (Hl Q)|congruence]|exact Ha|].
      exists a', l'. split; [rewrite <- E; now rewrite <- !app_assoc|]. split; [exact H1|]. split; [exact H2|]. rewrite <- H3, blen_app. cbn [blen]. f_equal. lia.
Qed.
Lemma make_hit_ok X M Y : exists h, make_hit (X ++ M ++ Y) (blen X) (blen X + blen M) = Done h /\ hit_at (X ++ M ++ Y) (blen X) (blen X + blen M) h.
Proof.
  unfold make_hit. rewrite slice_to_app, slice_from_app. cbn [need bind]. destruct (line_loop_ok X [] []) as (a & l & E & Hl & Ha & L); [intros []|now left|]. cbn [app blen count_occ] in *. change (0 + 0) with 0 in L. rewrite L. cbn [bind].
  assert (F : exists z b, M ++ Y = z ++ b /\ ~ In 10%N z /\ (b = [] \/ exists r, b = 10%N :: r) /\ (match find_char is_nl (M ++ Y) with Some (x, _) => blen X + blen x | None => blen (X ++ M ++ Y) end) = blen X + blen z).
  { destruct (find_char is_nl (M ++ Y)) as [[x y]|] eqn:Q.
    - apply find_char_some in Q as (Q1 & Q2 & c & r & -> & Q3). exists x, (c :: r). unfold is_nl in Q3. apply N.eqb_eq in Q3 as ->. repeat split; auto; [|eauto]. intros I. rewrite forallb_forall in Q2. apply Q2 in I. discriminate I.
    - exists (M ++ Y), []. rewrite app_nil_r, blen_app. repeat split; auto. apply find_char_none in Q. intros I. rewrite forallb_forall in Q. apply Q in I. discriminate I. }
  destruct F as (z & b & Ez & Hz & Hb & ->). assert (S : slice (X ++ M ++ Y) (blen a) (blen X + blen z) = Some (l ++ z)).
  { rewrite Ez, E. replace (blen (a ++ l) + blen z) with (blen a + blen (l ++ z)) by (rewrite !blen_app; lia). pose proof (slice_app a (l ++ z) b) as Q. rewrite <- Q. f_equal. now rewrite <- !app_assoc. }
  rewrite S. cbn [need bind]. rewrite slice_app. cbn [need bind]. eexists. split; [reflexivity|]. repeat split; cbn [h_start h_end h_text h_line h_context h_column]; [apply slice_app|]. exists (blen a). split; [|reflexivity].
  destruct Ha as [Ha|[x Ha]]; [exists a, [], b|exists a, x, b]; (repeat split; auto; [rewrite Ez, E; now rewrite <- !app_assoc|rewrite E, blen_app; lia|rewrite E, !blen_app; lia|intros I; apply in_app_iff in I as [I|I]; auto]).
Qed.
(* ---- the loop ---- *)
Lemma basic_ok c p t A R B max : len_utf8 c = 1 -> (exists t0, layout (A ++ R ++ B) = layout t /\ t = t0) ->
  forall fuel P Q acc, R = P ++ Q -> List.length Q < fuel -> (max = 0 \/ List.length acc < max) ->
  exists hs, basic_loop fuel t R (c :: p) (blen A) max (blen P) acc = Done (acc ++ hs) /\
    Forall2 (fun o h => hit_at t o (o + blen (c :: p)) h) (match max with 0 => places (c :: p) Q (blen A + blen P) | _ => firstn (max - List.length acc) (places (c :: p) Q (blen A + blen P)) end) hs.
Proof.
  intros Hc [_ [LT _]]. induction fuel as [|f IH]; intros P Q acc E L M; [lia|]. cbn [basic_loop]. rewrite E, slice_from_app. cbn [need bind]. rewrite places_find.
  destruct (find_str (c :: p) Q) as [[x y]|] eqn:FS.
  2:{ exists []. rewrite app_nil_r. split; [reflexivity|]. destruct max; [constructor|]. rewrite firstn_nil. constructor. }
  apply find_str_some in FS as (EQ & r & ->). subst Q R. 
  assert (G : exists h, make_hit t (blen A + blen P + blen x) (blen A + blen P + blen x + blen (c :: p)) = Done h /\ hit_at t (blen A + blen P + blen x) (blen A + blen P + blen x + blen (c :: p)) h).
  { replace (A ++ (P ++ x ++ (c :: p) ++ r) ++ B) with ((A ++ P ++ x) ++ (c :: p) ++ r ++ B) in LT by now rewrite <- !app_assoc.
    apply layout_app in LT as (X & Z & -> & L1 & LT). apply layout_app in LT as (Mm & Y & -> & L2 & LT). apply layout_blen in L1, L2. rewrite !blen_app in L1. rewrite L2. replace (blen A + blen P + blen x) with (blen X) by lia. apply make_hit_ok. }
  destruct G as (h & -> & Hh). cbn [bind]. rewrite app_length. cbn [List.length app tl]. cbn [app] in L. rewrite app_length in L. cbn [List.length] in L.
  specialize (IH (P ++ x ++ [c]) (p ++ r) (acc ++ [h])). assert (BX : blen (P ++ x ++ [c]) = blen P + blen x + 1) by (rewrite !blen_app; cbn [blen]; lia). rewrite BX in IH. rewrite <- !Nat.add_assoc in IH.
  assert (IH' : max = 0 \/ List.length acc + 1 < max -> exists hs, basic_loop f t (P ++ x ++ c :: p ++ r) (c :: p) (blen A) max (blen P + blen x + 1) (acc ++ [h]) = Done ((acc ++ [h]) ++ hs) /\
    Forall2 (fun o h => hit_at t o (o + blen (c :: p)) h) (match max with 0 => places (c :: p) (p ++ r) (blen A + blen P + blen x + 1) | _ => firstn (max - (List.length acc + 1)) (places (c :: p) (p ++ r) (blen A + blen P + blen x + 1)) end) hs).
  { intros M'. replace (blen P + blen x + 1) with (blen P + (blen x + 1)) by lia. replace (blen A + blen P + blen x + 1) with (blen A + (blen P + (blen x + 1))) by lia.
    replace (List.length acc + 1) with (List.length (acc ++ [h])) by (now rewrite app_length). apply IH; [now rewrite <- !app_assoc|lia|rewrite app_length; cbn [List.length]; exact M']. }
  rewrite Hc. destruct max as [|m].
  - cbn [Nat.ltb Nat.leb andb]. destruct IH' as (hs & -> & F); [now left|]. exists (h :: hs). rewrite <- app_assoc. split; [reflexivity|]. constructor; [exact Hh|exact F].
  - change (0 <? S m) with true. cbn [andb]. destruct (Nat.leb_spec (S m) (List.length acc + 1)) as [Q|Q].
    + exists [h]. split; [reflexivity|]. replace (S m - List.length acc) with 1 by lia. cbn [firstn]. constructor; [exact Hh|constructor].
    + destruct IH' as (hs & -> & F); [now right|]. exists (h :: hs). rewrite <- app_assoc. split; [reflexivity|]. replace (S m - List.length acc) with (S (S m - (List.length acc + 1))) by lia. cbn [firstn]. constructor; [exact Hh|exact F].
Qed.
Lemma basic_found u t p o a b c q A R B : fold_case u o t = A ++ R ++ B -> layout (fold_case u o t) = layout t -> fold_case u o p = c :: q -> len_utf8 c = 1 ->
  bounds (o_scope o) (fold_case u o t) = (a, b) -> a = blen A -> b = blen A + blen R ->
  exists hs, basic_search u t p o = Done hs /\ Forall2 (fun o h => hit_at t o (o + blen (c :: q)) h) (limited (max_results o) (places (c :: q) R a)) hs.
Proof.
  intros E L Ep Hc Hb -> ->. unfold basic_search. rewrite Hb, E, slice_app. cbn [need bind]. rewrite Ep.
  destruct (basic_ok c q t A R B (max_results o) Hc (ex_intro _ t (conj (eq_trans (f_equal layout (eq_sym E)) L) eq_refl)) (2 + blen R) [] R [] eq_refl) as (hs & D & F).
  - pose proof (blen_length R). lia.
  - cbn [List.length]. destruct (max_results o); [now left|right; lia].
  - cbn [blen app List.length] in *. rewrite D. exists hs. split; [reflexivity|]. rewrite Nat.add_0_r in F. unfold limited. destruct (max_results o); [exact F|]. now rewrite Nat.sub_0_r in F.
Qed.
Lemma places_listing q A R B : q <> [] -> listing (fun o => blen A <= o /\ o + blen q <= blen A + blen R /\ place q (A ++ R ++ B) o) (places q R (blen A)).
Proof.
  intros N. split; [apply places_sorted|]. intros o. rewrite places_in by exact N. split.
  - intros (x & y & -> & ->). rewrite !blen_app. split; [lia|]. split; [lia|]. exists (A ++ x), (y ++ B). rewrite blen_app. split; [now rewrite <- !app_assoc|lia].
  - intros (L1 & L2 & x & y & E & <-). destruct (app_prefix_blen A (R ++ B) x (q ++ y) E L1) as (z & -> & E2). rewrite blen_app in L2. exists z.
    rewrite app_assoc in E2. destruct (app_prefix_blen (z ++ q) y R B (eq_sym E2)) as (w & -> & _); [rewrite blen_app; lia|]. exists w. split; [now rewrite <- app_assoc|]. now rewrite blen_app.
Qed.
(* a first character of several bytes, or none *)
Lemma cut_none_mid x c r : 1 < len_utf8 c -> slice_from (x ++ c :: r) (blen x + 1) = None.
Proof.
  intros H. unfold slice_from. destruct (cut (x ++ c :: r) (blen x + 1)) as [[a b]|] eqn:Q; [|reflexivity]. exfalso. apply cut_spec in Q as [Q1 Q2].
  destruct (app_prefix_blen x (c :: r) a b Q1) as (z & -> & Q3); [lia|]. rewrite blen_app in Q2. destruct z as [|d z]; [cbn in Q2; lia|]. cbn [app] in Q3. injection Q3 as -> _. rewrite blen_cons in Q2. lia.
Qed.
Lemma find_str_none p s : find_str p s = None -> forall a b, s <> a ++ p ++ b.
Proof.
  induction s as [|c s IH]; intros H a b E; cbn [find_str] in H.
  - destruct (starts_with p []) eqn:Q; [discriminate H|]. destruct a; [|discriminate E]. cbn [app] in E. assert (starts_with p [] = true) by (apply starts_with_spec; now exists b). congruence.
  - destruct (starts_with p (c :: s)) eqn:Q; [discriminate H|]. destruct (find_str p s) as [[x y]|]; [discriminate H|]. destruct a as [|d a].
    + cbn [app] in E. assert (starts_with p (c :: s) = true) by (apply starts_with_spec; now exists b). congruence.
    + cbn [app] in E. injection E as _ E. exact (IH eq_refl a b E).
Qed.
Lemma hit_made A R B t x m y : layout (A ++ R ++ B) = layout t -> R = x ++ m ++ y ->
  exists h, make_hit t (blen A + blen x) (blen A + blen x + blen m) = Done h.
Proof.
  intros L ->. replace (A ++ (x ++ m ++ y) ++ B) with ((A ++ x) ++ m ++ y ++ B) in L by now rewrite <- !app_assoc.
  apply layout_app in L as (X & Z & -> & L1 & L). apply layout_app in L as (M & Y & -> & L2 & _). apply layout_blen in L1, L2. rewrite blen_app in L1. rewrite L1, L2. destruct (make_hit_ok X M Y) as (h & H & _). now exists h.
Qed.
Lemma basic_wide u t p o a b c q A R B : fold_case u o t = A ++ R ++ B -> layout (fold_case u o t) = layout t -> fold_case u o p = c :: q -> 1 < len_utf8 c ->
  bounds (o_scope o) (fold_case u o t) = (a, b) -> a = blen A -> b = blen A + blen R -> max_results o <> 1 -> (exists x y, R = x ++ (c :: q) ++ y) ->
  basic_search u t p o = Crash.
Proof.
  intros E L Ep Hc Hb -> -> M (x0 & y0 & ER). unfold basic_search. rewrite Hb, E, slice_app. cbn [need bind]. rewrite Ep. cbn [Nat.add basic_loop]. unfold slice_from at 1. rewrite cut_0. cbn [option_map snd need bind].
  destruct (find_str (c :: q) R) as [[x y]|] eqn:F; [|exfalso; exact (find_str_none _ _ F x0 y0 ER)]. apply find_str_some in F as (F & r & ->). rewrite Nat.add_0_r.
  rewrite E in L. destruct (hit_made A R B t x (c :: q) r L F) as (h & ->). cbn [bind app List.length].
  replace ((0 <? max_results o) && (max_results o <=? 1)) with false by (destruct (max_results o) as [|[|k]]; [reflexivity|congruence|reflexivity]). cbn [Nat.add].
  rewrite F. cbn [app]. rewrite cut_none_mid by exact Hc. reflexivity.
Qed.
Lemma basic_empty u t p o a b A R B : fold_case u o t = A ++ R ++ B -> layout (fold_case u o t) = layout t -> fold_case u o p = [] ->
  bounds (o_scope o) (fold_case u o t) = (a, b) -> a = blen A -> b = blen A + blen R -> max_results o = 0 -> basic_search u t p o = Crash.
Proof.
  intros E L Ep Hb -> -> M. unfold basic_search. rewrite Hb, E, slice_app. cbn [need bind]. rewrite Ep, M. rewrite E in L.
  assert (FE : forall s, find_str [] s = Some ([], s)) by (intros [|? ?]; reflexivity).
  assert (G : forall Q fuel P acc, R = P ++ Q -> 1 + List.length Q < fuel -> basic_loop fuel t R [] (blen A) 0 (blen P) acc = Crash).
  { induction Q as [|c Q IH]; intros fuel P acc ER Hf; (destruct fuel as [|fuel]; [lia|]); cbn [basic_loop]; rewrite ER at 1; rewrite slice_from_app; cbn [need bind]; rewrite FE; cbn [blen];
      (destruct (hit_made A R B t P [] _ L ER) as (h & HH); cbn [blen] in HH; rewrite !Nat.add_0_r in *; rewrite HH; cbn [bind Nat.ltb Nat.leb andb]).
    - destruct fuel as [|fuel]; [cbn in Hf; lia|]. cbn [basic_loop]. unfold slice_from. rewrite ER, app_nil_r. rewrite cut_none_len by lia. reflexivity.
    - cbn [List.length] in Hf. destruct (Nat.eq_dec (len_utf8 c) 1) as [C|C].
      + specialize (IH fuel (P ++ [c]) (acc ++ [h])). rewrite blen_app in IH. cbn [blen] in IH. rewrite C in IH. apply IH; [now rewrite <- app_assoc|lia].
      + destruct fuel as [|fuel]; [lia|]. cbn [basic_loop]. rewrite ER, cut_none_mid; [reflexivity|]. pose proof (len_utf8_pos c). lia. }
  apply (G R (2 + blen R) [] []); [reflexivity|]. pose proof (blen_length R). lia.
Qed.
(* ---- line scopes ---- *)
Lemma loop_after e len : forall M B i so s n, s <> n \/ so <> 0 -> (so <> 0 \/ s < n) -> n <= e -> count_occ N.eq_dec M 10%N = e - n -> (B = [] \/ exists r, B = 10%N :: r) ->
  len = i + blen M + blen B -> lines_loop (M ++ B) i n so s e len = (so, i + blen M).
Proof.
  induction M as [|c M IH]; intros B i so s n Hs Hs2 Hn C HB HL.
  - cbn [app]. cbn [count_occ] in C. destruct HB as [->|[r ->]]; cbn [lines_loop blen]; [cbn [blen] in HL; f_equal; lia|].
    replace ((n =? s) && (so =? 0)) with false by (symmetry; apply andb_false_iff; rewrite !Nat.eqb_neq; lia). change (10 =? 10)%N with true. cbn iota.
    replace (e <? S n) with true by (symmetry; apply Nat.ltb_lt; lia). f_equal; lia.
  - cbn [app lines_loop]. replace ((n =? s) && (so =? 0)) with false by (symmetry; apply andb_false_iff; rewrite !Nat.eqb_neq; lia). cbn [count_occ] in C. rewrite !blen_cons in *.
    destruct (N.eq_dec c 10) as [->|Nc].
    + rewrite N.eqb_refl. replace (e <? S n) with false by (symmetry; apply Nat.ltb_ge; lia). rewrite IH; auto; try lia. f_equal; lia.
    + destruct (N.eqb_spec c 10) as [Q|_]; [congruence|]. rewrite IH; auto; try lia. f_equal; lia.
Qed.
Lemma loop_before e len s : forall A rest i n, count_occ N.eq_dec A 10%N = s - n -> n < s -> s <= e -> (exists x, A = x ++ [10%N]) -> 
  lines_loop (A ++ rest) i n 0 s e len = lines_loop rest (i + blen A) s 0 s e len.
Proof.
  induction A as [|c A IH]; intros rest i n C L1 L2 [x E]; [destruct x; discriminate E|]. cbn [app lines_loop]. replace (n =? s) with false by (symmetry; apply Nat.eqb_neq; lia). cbn [andb]. cbn [count_occ] in C. rewrite blen_cons.
  assert (T : A = [] \/ exists x, A = x ++ [10%N]) by (destruct x as [|d x]; cbn [app] in E; injection E as -> E; [now left|right; eauto]).
  destruct (N.eq_dec c 10) as [->|Nc].
  - rewrite N.eqb_refl. replace (e <? S n) with false by (symmetry; apply Nat.ltb_ge; lia). destruct T as [->|T].
    + cbn [count_occ app blen] in *. replace (S n) with s by lia. f_equal; lia.
    + destruct (Nat.eq_dec (S n) s) as [Q|Q].
      * exfalso. destruct T as [y ->]. rewrite count_occ_app in C. change (count_occ N.eq_dec [10%N] 10%N) with 1 in C. lia.
      * rewrite IH; auto; try lia. f_equal; lia.
  - destruct (N.eqb_spec c 10) as [Q|_]; [congruence|]. destruct T as [->|T]; [destruct x as [|d [|? ?]]; cbn [app] in E; congruence|]. rewrite IH; auto. f_equal; lia.
Qed.
Lemma lines_bounds s e A M B : s <> 0 -> s <= e -> (exists x, A = x ++ [10%N]) -> count_occ N.eq_dec A 10%N = s -> M ++ B <> [] ->
  count_occ N.eq_dec M 10%N = e - s -> (B = [] \/ exists r, B = 10%N :: r) -> bounds (Lines s e) (A ++ M ++ B) = (blen A, blen A + blen M).
Proof.
  intros Ns L HA CA NB CM HB. cbn [bounds]. rewrite loop_before; auto; try lia. cbn [Nat.add].
  assert (PA : 0 < blen A) by (destruct HA as [x ->]; rewrite blen_app; cbn [blen]; change (len_utf8 10) with 1; lia).
  destruct (M ++ B) as [|c r] eqn:E; [congruence|]. cbn [lines_loop]. rewrite Nat.eqb_refl. cbn [Nat.eqb andb].
  assert (G : lines_loop (M ++ B) (blen A) s (blen A) s e (blen (A ++ M ++ B)) = (blen A, blen A + blen M)). { apply loop_after; auto; try lia. rewrite !blen_app. lia. }
  rewrite E in G. cbn [lines_loop] in G. replace (blen A =? 0) with false in G by (symmetry; apply Nat.eqb_neq; lia). rewrite andb_false_r in G. exact G.
Qed.
