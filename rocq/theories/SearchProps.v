(* C105-C110: searching a document and replacing in it. *)
From Coq Require Import Permutation.
From Verif Require Import Base BaseLemmas DocModel ParseModel MapLib StreamModel FormatModel InfoCmdSpec SearchModel SearchSpec SearchProofs SearchMore SearchFst SearchUpdate.

(* ---- C105: searching with the word index ---- *)
(* Lower-casing leaves alone the words whose characters are all lower case. *)
Definition tidy (u : unicode) : Prop := forall w, forallb (lowercase u) w = true -> lower u w = w.
Lemma tidy_key u w : tidy u -> word_key u w = lower u w.
Proof. intros T. unfold word_key. destruct (forallb (lowercase u) w) eqn:E; [now rewrite T|reflexivity]. Qed.
Lemma tidy_ascii : tidy ascii.
Proof.
  intros w. induction w as [|c w IH]; [reflexivity|]. cbn [forallb lower ascii map lowercase] in *. intros H. apply andb_true_iff in H as [H1 H2]. rewrite (IH H2). f_equal. unfold ascii_lower. destruct (is_upper c) eqn:E; [|reflexivity].
  exfalso. unfold is_upper, is_lower in *. rewrite andb_true_iff in *. rewrite !N.leb_le in *. lia.
Qed.
(* What a whole-word search asks of a word. *)
Definition wanted (u : unicode) (o : options) (p w : str) : Prop := lower u w = if case_sensitive o then p else lower u p.
Theorem word_search_exact u t p o : tidy u ->
  exists os hs, search u (build_index true u t) p o = Done hs /\
    listing (fun n => exists w, whole_word (part_of_word (alnum u)) t w n /\ wanted u o p w) os /\
    map h_start hs = limited (max_results o) os /\
    Forall (fun h => h_end h = h_start h + blen p /\ h_text h = p /\ h_line h = 0 /\ h_column h = h_start h) hs.
Proof.
  intros T. exists (found u (fold_case u o p) (words_loop u t 0 None)). eexists. split; [apply search_some|]. split; [|split].
  - eapply listing_ext; [|apply search_listing]. intros n. split; intros (w & W & E); exists w; (split; [exact W|]); [rewrite tidy_key in E by exact T; exact E|rewrite tidy_key by exact T; exact E].
  - rewrite map_map. apply map_id.
  - apply Forall_forall. intros h H. apply in_map_iff in H as (n & <- & _). now repeat split.
Qed.
(* The scope is not looked at. *)
Theorem word_search_any_scope u t p cs max s s' :
  search u (build_index true u t) p (Options cs max s) = search u (build_index true u t) p (Options cs max s').
Proof. rewrite !search_some. reflexivity. Qed.
(* A case-sensitive search finds words by their lower-cased form, and nothing
   for a pattern that is not in lower case. *)
Theorem word_search_upper u t p max s : tidy u -> (forall w, lower u (lower u w) = lower u w) -> lower u p <> p -> search u (build_index true u t) p (Options true max s) = Done [].
Proof.
  intros T I N. destruct (word_search_exact u t p (Options true max s) T) as (os & hs & E & [_ L] & H & _). rewrite E. f_equal. destruct os as [|n os].
  - destruct hs; [reflexivity|]. destruct max; discriminate H.
  - exfalso. destruct (proj1 (L n) (or_introl eq_refl)) as (w & _ & W). unfold wanted in W. cbn [case_sensitive] in W. apply N. rewrite <- W. apply I.
Qed.
(* Nothing is found for a pattern with a character that is not part of words. *)
Theorem word_search_phrase u t p o : tidy u -> (forall w, forallb (part_of_word (alnum u)) w = true -> forallb (part_of_word (alnum u)) (lower u w) = true) ->
  forallb (part_of_word (alnum u)) (if case_sensitive o then p else lower u p) = false -> search u (build_index true u t) p o = Done [].
Proof.
  intros T K N. destruct (word_search_exact u t p o T) as (os & hs & E & [_ L] & H & _). rewrite E. f_equal. destruct os as [|n os].
  - destruct hs; [reflexivity|]. destruct (max_results o); discriminate H.
  - exfalso. destruct (proj1 (L n) (or_introl eq_refl)) as (w & (a & b & _ & _ & _ & F & _) & W). unfold wanted in W. rewrite <- W in N. rewrite K in N by exact F. discriminate N.
Qed.
Definition plain (cs : bool) : options := Options cs 0 All.
Definition greeting : str := lit "Hello world, hello Hello_world".
Example word_search_case : tidy ascii /\ search ascii (build_index true ascii greeting) (lit "WORLD") (plain false) = Done [index_hit (lit "WORLD") 6] /\
  search ascii (build_index true ascii greeting) (lit "hello") (Options false 1 All) = Done [index_hit (lit "hello") 0].
Proof. split; [exact tidy_ascii|]. split; vm_compute; reflexivity. Qed.
Example word_search_upper_case : (forall w, lower ascii (lower ascii w) = lower ascii w) /\ lower ascii (lit "Hello") <> lit "Hello".
Proof.
  split; [|discriminate]. intros w. cbn [lower ascii]. rewrite map_map. apply map_ext. intros c. unfold ascii_lower. destruct (is_upper c) eqn:E; [|now rewrite E].
  destruct (is_upper (c + 32)) eqn:F; [|reflexivity]. exfalso. unfold is_upper in *. rewrite andb_true_iff in *. rewrite !N.leb_le in *. lia.
Qed.
Example word_search_phrase_case : forallb (part_of_word (alnum ascii)) (lower ascii (lit "hello world")) = false.
Proof. reflexivity. Qed.
(* A case-sensitive search for "hello" reports "Hello"; one for "Hello" or for
   part of a word finds nothing, though the text has them. *)
Theorem case_search_refuted : (exists h, search ascii (build_index true ascii (lit "Hello")) (lit "hello") (plain true) = Done [h] /\ slice (lit "Hello") (h_start h) (h_end h) <> Some (lit "hello")) /\
  search ascii (build_index true ascii (lit "Hello")) (lit "Hello") (plain true) = Done [] /\ place (lit "Hello") (lit "Hello") 0 /\
  search ascii (build_index true ascii (lit "Hello")) (lit "ell") (plain true) = Done [] /\ place (lit "ell") (lit "Hello") 1.
Proof.
  split; [eexists; split; [vm_compute; reflexivity|vm_compute; discriminate]|]. split; [vm_compute; reflexivity|]. split; [now exists [], []|]. split; [vm_compute; reflexivity|]. now exists (lit "H"), (lit "o").
Qed.
(* A scope that excludes the word does not keep it from being found, and the
   line reported is always 0. *)
Theorem scope_search_refuted : exists h, search ascii (build_index true ascii (lit "one
two")) (lit "two") (Options false 0 (Lines 0 0)) = Done [h] /\ h_start h = 4 /\ h_line h = 0.
Proof. eexists. split; [vm_compute; reflexivity|]. now split. Qed.

(* ---- C106: searching without the index ---- *)
(* The bytes a scope covers.  Lines count from 0; the first line wanted must
   not be line 0 (see below). *)
Inductive zone (t : str) : scope -> nat -> nat -> Prop :=
| zo_all : zone t All 0 (blen t)
| zo_sections l : zone t (Sections l) 0 (blen t)
| zo_within A R B r : t = A ++ R ++ B -> r_start r = blen A -> Nat.min (r_end r) (blen t) = blen A + blen R -> zone t (Within r) (blen A) (blen A + blen R)
| zo_lines A M B s e : t = A ++ M ++ B -> s <> 0 -> s <= e -> (exists x, A = x ++ [10%N]) -> count_occ N.eq_dec A 10%N = s -> M ++ B <> [] ->
    count_occ N.eq_dec M 10%N = e - s -> (B = [] \/ exists r, B = 10%N :: r) -> zone t (Lines s e) (blen A) (blen A + blen M).
Lemma zone_bounds t s a b : zone t s a b -> bounds s t = (a, b) /\ exists A R B, t = A ++ R ++ B /\ a = blen A /\ b = blen A + blen R.
Proof.
  intros [|l|A R B r E H1 H2|A M B x e E H1 H2 H3 H4 H5 H6 H7].
  - split; [reflexivity|]. exists [], t, []. now rewrite app_nil_r.
  - split; [reflexivity|]. exists [], t, []. now rewrite app_nil_r.
  - split; [cbn [bounds]; now rewrite H1, H2|]. now exists A, R, B.
  - split; [rewrite E; now apply lines_bounds|]. now exists A, M, B.
Qed.
Theorem plain_search_exact u t p o c q a b : layout (fold_case u o t) = layout t -> fold_case u o p = c :: q -> len_utf8 c = 1 -> zone (fold_case u o t) (o_scope o) a b ->
  exists os hs, search u (build_index false u t) p o = Done hs /\
    listing (fun n => a <= n /\ n + blen (c :: q) <= b /\ place (c :: q) (fold_case u o t) n) os /\
    Forall2 (fun n h => h_start h = n /\ h_end h = n + blen (c :: q) /\ slice t n (n + blen (c :: q)) = Some (h_text h) /\
      exists start, line_at t n (h_line h) start (h_context h) /\ h_column h = n - start) (limited (max_results o) os) hs.
Proof.
  intros L Ep Hc Z. apply zone_bounds in Z as (Hb & A & R & B & E & -> & ->). destruct (basic_found u t p o _ _ c q A R B E L Ep Hc Hb eq_refl eq_refl) as (hs & H & F).
  exists (places (c :: q) R (blen A)), hs. split; [exact H|]. split; [|exact F]. rewrite E. apply places_listing. discriminate.
Qed.
(* A pattern that starts with a character of more than one byte makes the
   search panic once it occurs, unless one result was asked for. *)
Theorem plain_search_wide u t p o c q a b n : layout (fold_case u o t) = layout t -> fold_case u o p = c :: q -> 1 < len_utf8 c -> zone (fold_case u o t) (o_scope o) a b ->
  max_results o <> 1 -> a <= n -> n + blen (c :: q) <= b -> place (c :: q) (fold_case u o t) n -> search u (build_index false u t) p o = Crash.
Proof.
  intros L Ep Hc Z M H1 H2 P. apply zone_bounds in Z as (Hb & A & R & B & E & -> & ->). apply (basic_wide u t p o _ _ c q A R B E L Ep Hc Hb eq_refl eq_refl M).
  assert (Q : In n (places (c :: q) R (blen A))) by (apply (proj2 (places_listing (c :: q) A R B ltac:(discriminate))); rewrite <- E; auto). apply places_in in Q as (x & y & -> & _); [|discriminate]. now exists x, y.
Qed.
Theorem plain_search_empty u t p o a b : layout (fold_case u o t) = layout t -> fold_case u o p = [] -> zone (fold_case u o t) (o_scope o) a b -> max_results o = 0 ->
  search u (build_index false u t) p o = Crash.
Proof. intros L Ep Z M. apply zone_bounds in Z as (Hb & A & R & B & E & -> & ->). exact (basic_empty u t p o _ _ A R B E L Ep Hb eq_refl eq_refl M). Qed.
(* A line scope from line 0 leaves out the first character, and one from a line
   that is not there searches everything. *)
Theorem first_line_refuted : search ascii (build_index false ascii (lit "abc")) (lit "a") (Options true 0 (Lines 0 0)) = Done [] /\
  (exists h, search ascii (build_index false ascii (lit "abc")) (lit "a") (Options true 0 (Lines 5 9)) = Done [h]).
Proof. split; [vm_compute; reflexivity|]. eexists. vm_compute. reflexivity. Qed.
(* Lower-casing U+0130 gives three bytes for two, so the places found are not
   those of the text. *)
Definition dotted : unicode := Unicode (flat_map (fun c => if (c =? 304)%N then [105; 775]%N else [ascii_lower c])) is_ascii_alnum is_lower.
Theorem folded_search_refuted : exists h, search dotted (build_index false dotted ([304%N] ++ lit "abc ")) (lit "abc") (plain false) = Done [h] /\ h_text h = lit "bc ".
Proof. eexists. split; [vm_compute; reflexivity|]. reflexivity. Qed.
Example plain_search_case : layout (fold_case ascii (plain false) greeting) = layout greeting /\ zone (lower ascii greeting) All 0 30 /\
  exists h h', search ascii (build_index false ascii greeting) (lit "O W") (plain false) = Done [h] /\ h_start h = 4 /\
    search ascii (build_index false ascii (lit "ab
ab
ab")) (lit "ab") (Options true 0 (Lines 1 1)) = Done [h'] /\ h_start h' = 3 /\ h_line h' = 1.
Proof. split; [vm_compute; reflexivity|]. split; [exact (zo_all (lower ascii greeting))|]. eexists. eexists. split; [vm_compute; reflexivity|]. split; [reflexivity|]. split; [vm_compute; reflexivity|]. now split. Qed.
Example zone_lines_case : zone (lit "ab
ab
ab") (Lines 1 1) 3 5.
Proof. apply (zo_lines _ (lit "ab
") (lit "ab") (lit "
ab")); try reflexivity; try lia; try discriminate; [now exists (lit "ab")|right; now exists (lit "ab")]. Qed.
Example plain_search_wide_case : 1 < len_utf8 233 /\ search ascii (build_index false ascii [97%N; 233%N; 98%N]) [233%N] (plain true) = Crash /\
  search ascii (build_index false ascii (lit "abc")) [] (plain true) = Crash.
Proof. split; [vm_compute; lia|]. split; vm_compute; reflexivity. Qed.

(* ---- C107: replacing what was found ---- *)
(* With the index: the words asked for, and only these, become the replacement,
   for at most max_results of them. *)
Lemma wanted_dec u o p w : tidy u -> str_eqb (fold_case u o p) (word_key u w) = true <-> wanted u o p w.
Proof. intros T. rewrite tidy_key by exact T. rewrite str_eqb_eq. unfold wanted, fold_case. split; intros H; now symmetry. Qed.
Theorem word_replace_exact sz u d p x o : tidy u -> handled sz d -> (forall w n, whole_word (part_of_word (alnum u)) (text d) w n -> wanted u o p w -> blen w = blen p) ->
  exists d' os hs f, search u (build_index true u (text d)) p o = Done hs /\ find_replace sz u (build_index true u (text d)) d p x o = OOk d' hs /\
    listing (fun n => exists w, whole_word (part_of_word (alnum u)) (text d) w n /\ wanted u o p w) os /\
    swapped x (blen p) 0 (limited (max_results o) os) (text d) (text d') /\
    (forall w, (wanted u o p w -> f w = x) /\ (~ wanted u o p w -> f w = w)) /\ (max_results o = 0 -> reworded (part_of_word (alnum u)) f (text d) (text d')).
Proof.
  intros T H B. set (l := words_loop u (text d) 0 None). set (qb := fun w => str_eqb (fold_case u o p) (word_key u w)).
  destruct (swapped_reworded x (blen p) (word_char u) 0 (text d) l qb (proj1 (words_dec u (text d)) 0)) as (t1 & S1 & R1).
  { intros w n Hw Q. apply (B w n); [now apply word_at|]. now apply wanted_dec. }
  change (map snd (filter (fun p0 => qb (fst p0)) l)) with (found u (fold_case u o p) l) in S1. set (os := found u (fold_case u o p) l) in *.
  assert (S2 : exists t2, swapped x (blen p) 0 (limited (max_results o) os) (text d) t2 /\ (max_results o = 0 -> t2 = t1)).
  { unfold limited. destruct (max_results o) as [|k]; [exists t1; auto|]. destruct (swapped_firstn _ _ _ _ _ _ S1 (S k)) as [t2 S2]. exists t2. split; [exact S2|discriminate]. }
  destruct S2 as (t2 & S2 & E2). set (hs := map (index_hit p) (limited (max_results o) os)).
  destruct (replace_swapped sz x (blen p) 0 _ _ _ S2 d [] hs H eq_refl eq_refl) as (d' & D & TD & _). { unfold hs. rewrite map_map. reflexivity. }
  exists d', os, hs, (fun w => if qb w then x else w). split; [apply search_some|]. split.
  { unfold find_replace. rewrite search_some. fold l os hs. rewrite D. reflexivity. }
  split. { eapply listing_ext; [|apply search_listing]. intros n. split; intros (w & W & E); exists w; (split; [exact W|]); [rewrite tidy_key in E by exact T; exact E|rewrite tidy_key by exact T; exact E]. }
  cbn [app] in TD. rewrite TD. split; [exact S2|]. split.
  - intros w. unfold qb. pose proof (wanted_dec u o p w T) as W. destruct (str_eqb (fold_case u o p) (word_key u w)); split; intros Q; auto; [destruct Q; now apply W|apply W in Q; discriminate Q].
  - intros M. now rewrite (E2 M).
Qed.
(* Without it: where no two places overlap, all become the replacement. *)
Theorem plain_replace_exact sz u d p x o c q a b : handled sz d -> layout (fold_case u o (text d)) = layout (text d) -> fold_case u o p = c :: q -> len_utf8 c = 1 ->
  zone (fold_case u o (text d)) (o_scope o) a b ->
  (forall m n, place (c :: q) (fold_case u o (text d)) m -> place (c :: q) (fold_case u o (text d)) n -> m < n -> m + blen (c :: q) <= n) ->
  exists d' os hs, find_replace sz u (build_index false u (text d)) d p x o = OOk d' hs /\
    listing (fun n => a <= n /\ n + blen (c :: q) <= b /\ place (c :: q) (fold_case u o (text d)) n) os /\
    swapped x (blen (c :: q)) 0 (limited (max_results o) os) (text d) (text d').
Proof.
  intros H L Ep Hc Z N. destruct (plain_search_exact u (text d) p o c q a b L Ep Hc Z) as (os & hs & SE & Li & F). destruct Li as [LS LI].
  assert (PO : forall n, In n os -> exists A m B, text d = A ++ m ++ B /\ n = 0 + blen A /\ blen m = blen (c :: q)).
  { intros n Hn. apply LI in Hn as (_ & _ & A & B & E & <-). rewrite E in L. symmetry in L. pose proof (eq_sym L) as L'. apply layout_app in L' as (A' & Y & -> & L1 & L2). apply layout_app in L2 as (M' & B' & -> & L2 & _). exists A', M', B'. apply layout_blen in L1, L2. repeat split; [lia|auto]. }
  assert (SO : StronglySorted (fun m n => m + blen (c :: q) <= n) os).
  { clear -LS LI N. assert (P : forall n, In n os -> place (c :: q) (fold_case u o (text d)) n) by (intros n Hn; apply LI in Hn; tauto). clear LI. induction LS as [|n os S IH FA]; [constructor|]. constructor; [apply IH; intros m Hm; apply P; now right|]. rewrite Forall_forall in *. intros m Hm. apply N; [apply P; now left|apply P; now right|now apply FA]. }
  destruct (swapped_at x (blen (c :: q)) (text d) os 0 (text d) PO SO eq_refl) as [t1 S1].
  assert (S2 : exists t2, swapped x (blen (c :: q)) 0 (limited (max_results o) os) (text d) t2).
  { unfold limited. destruct (max_results o) as [|k]; [eauto|]. exact (swapped_firstn _ _ _ _ _ _ S1 (S k)). }
  destruct S2 as [t2 S2]. assert (HS : map (fun h => (h_start h, h_end h)) hs = map (fun n => (n, n + blen (c :: q))) (limited (max_results o) os)).
  { clear -F. induction F as [|n h ns hs (H1 & H2 & _) F IH]; [reflexivity|]. cbn [map]. now rewrite H1, H2, IH. }
  destruct (replace_swapped sz x _ 0 _ _ _ S2 d [] hs H eq_refl eq_refl HS) as (d' & D & TD & _). exists d', os, hs. split; [unfold find_replace; rewrite SE, D; reflexivity|]. split; [now split|]. cbn [app] in TD. now rewrite TD.
Qed.
Definition result (r : out (list hit)) : option str := match r with OOk d _ => Some (text d) | _ => None end.
Definition opened (t : str) : doc := DocSpec.fresh 10 1000 t.
Example word_replace_case : handled 64 (opened greeting) /\ result (find_replace 64 ascii (build_index true ascii greeting) (opened greeting) (lit "hello") (lit "Bye") (plain false)) = Some (lit "Bye world, Bye Hello_world") /\
  (forall w n, whole_word (part_of_word (alnum ascii)) greeting w n -> wanted ascii (plain false) (lit "hello") w -> blen w = blen (lit "hello")).
Proof.
  split; [apply hd_open|]. split; [vm_compute; reflexivity|]. intros w n W E. apply word_at in W. vm_compute in W. unfold wanted in E. repeat (destruct W as [W|W]; [injection W as <- <-; (vm_compute; reflexivity) || (vm_compute in E; discriminate E)|]). destruct W.
Qed.
Example plain_replace_case : result (find_replace 64 ascii (build_index false ascii greeting) (opened greeting) (lit "world") (lit "moon") (plain true)) = Some (lit "Hello moon, hello Hello_moon").
Proof. vm_compute. reflexivity. Qed.
(* Overlapping places are replaced one after the other: "aa" by "b" in "aaaX"
   gives "bX", not "baX". *)
Theorem overlap_replace_refuted : result (find_replace 64 ascii (build_index false ascii (lit "aaaX")) (opened (lit "aaaX")) (lit "aa") (lit "b") (plain true)) = Some (lit "bX").
Proof. vm_compute. reflexivity. Qed.

(* ---- C108: following edits ---- *)
(* Many or long changes: the index is built anew.  Without the feature only
   the text is kept.  No changes: nothing happens, whatever the text. *)
Theorem update_rebuilds u e t cs : 10 < List.length cs \/ 1000 < list_sum (map (fun r => r_end r - r_start r) cs) -> update_index true u e t cs = Done (build_index true u t).
Proof.
  intros H. unfold update_index. assert (NN : is_nil cs = false) by (destruct cs; [cbn in H; lia|reflexivity]). rewrite NN. cbn [negb].
  assert (E : fold_right (fun r n => r_end r - r_start r + n) 0 cs = list_sum (map (fun r => r_end r - r_start r) cs)) by (clear; induction cs as [|c cs IH]; [reflexivity|]; cbn; now rewrite IH). rewrite E.
  destruct H as [H|H]; apply Nat.ltb_lt in H; rewrite H; [reflexivity|]. now rewrite orb_true_r.
Qed.
Theorem update_unindexed u u' t0 t cs : cs <> [] -> update_index false u (build_index false u' t0) t cs = Done (build_index false u t).
Proof. intros H. unfold update_index. destruct cs; [congruence|]. reflexivity. Qed.
Theorem update_none f u e t : update_index f u e t [] = Done e.
Proof. reflexivity. Qed.
(* One change near the front of a short text: no word of the new text is
   missed (words that are gone may still be found). *)
Theorem update_finds_all u e t c w n p o : tidy u -> r_start c <= r_end c -> r_end c - r_start c <= 1000 -> r_start c <= 50 -> (exists a b, t = a ++ b /\ blen a = r_start c) -> blen t <= r_start c + 100 ->
  whole_word (part_of_word (alnum u)) t w n -> wanted u o p w -> max_results o = 0 ->
  exists e' hs h, update_index true u e t [c] = Done e' /\ search u e' p o = Done hs /\ In h hs /\ h_start h = n.
Proof.
  intros T H1 H2 H3 H4 H5 W Q M. assert (NE : t <> []) by (destruct W as (a & b & -> & _ & N & _); destruct a; [destruct w; [congruence|discriminate]|discriminate]).
  destruct (update_covers u e t c H1 H2 H3 H4 NE H5) as (m & E & G). destruct (G w n W) as (ps & G1 & G2). rewrite tidy_key in G1 by exact T. rewrite Q in G1.
  exists (Engine (Some m) t), (map (index_hit p) ps), (index_hit p n). destruct m as [|x m]; [discriminate G1|]. split; [exact E|]. split; [|split; [now apply in_map|reflexivity]].
  unfold search. cbn [word_index]. unfold fold_case. rewrite G1, push_limited, M. reflexivity.
Qed.
Example update_case : update_index true ascii (build_index true ascii (lit "abc def")) (lit "xyz def") [mkRange 0 7] = Done (build_index true ascii (lit "xyz def")).
Proof. vm_compute. reflexivity. Qed.
Example update_rebuilds_case : 10 < List.length (repeat (mkRange 0 1) 11) /\ 1000 < list_sum (map (fun r => r_end r - r_start r) [mkRange 5 1006]).
Proof. split; vm_compute; lia. Qed.
(* Otherwise the index is not that of the new text: after "x " is put in front
   of "abc def" (change [0,0)) abc is found at 0 and 2; after abc becomes xyz
   (change [0,3)) def is found at 4 and 7; with a second line and
   the change given as the new range [0,2), ghi is found at 10 and 15; with no
   change named the old text is searched; and a window can cut a character. *)
Definition starts (r : run (list hit)) : option (list nat) := match r with Done hs => Some (map h_start hs) | _ => None end.
Theorem update_index_refuted :
  starts (e <- update_index true ascii (build_index true ascii (lit "abc def")) (lit "x abc def") [mkRange 0 0] ;; search ascii e (lit "abc") (plain false)) = Some [0; 2] /\
  starts (e <- update_index true ascii (build_index true ascii (lit "abc def")) (lit "xyz def") [mkRange 0 3] ;; search ascii e (lit "def") (plain false)) = Some [4; 7] /\
  starts (e <- update_index true ascii (build_index true ascii (lit "abc def
ghi")) (lit "x abc def
ghi") [mkRange 0 2] ;; search ascii e (lit "ghi") (plain false)) = Some [10; 15] /\
  starts (e <- update_index true ascii (build_index true ascii (lit "abc")) (lit "xyz") [] ;; search ascii e (lit "xyz") (plain false)) = Some [] /\
  update_index true ascii new_engine (repeat 233%N 30 ++ lit "a b") [mkRange 61 61] = Crash.
Proof. repeat split; vm_compute; reflexivity. Qed.

(* One change, anywhere: what is found afterwards are the old words before it,
   the old words at or after its end moved by the guessed change of length, and
   the words of a window from 50 bytes before its start to 100 after. *)
Lemma guessed_find old b k : guessed old b k -> match find_char is_eol b with Some (x, _) => blen x | None => Nat.min (blen b) (old * 2) end = k.
Proof.
  intros [(x & e & y & -> & E & A & B & ->)|(A & B & ->)].
  - assert (F : find_char is_eol (x ++ e :: y) = Some (x, e :: y)); [|now rewrite F]. induction x as [|c x IH]; cbn [app find_char].
    + destruct E as [-> | ->]; reflexivity.
    + replace (is_eol c) with false; [rewrite IH; [reflexivity|intros H; apply A; now right|intros H; apply B; now right]|]. symmetry. unfold is_eol. apply orb_false_iff. split; apply N.eqb_neq; intros ->; [apply A|apply B]; now left.
  - assert (F : find_char is_eol b = None); [|rewrite F; f_equal; lia]. induction b as [|c b IH]; [reflexivity|]. cbn [find_char]. replace (is_eol c) with false; [rewrite IH; [reflexivity|intros H; apply A; now right|intros H; apply B; now right]|]. symmetry. unfold is_eol. apply orb_false_iff. split; apply N.eqb_neq; intros ->; [apply A|apply B]; now left.
Qed.
Theorem update_single_exact u t0 t c a b X R Y k p o : tidy u -> r_start c <= r_end c -> r_end c - r_start c <= 1000 -> t = a ++ b -> blen a = r_start c ->
  guessed (r_end c - r_start c) b k -> t = X ++ R ++ Y -> blen X = r_start c - 50 -> blen X + blen R = Nat.min (r_start c + 100) (blen t) ->
  (exists w i, whole_word (part_of_word (alnum u)) R w i) -> max_results o = 0 ->
  exists e hs, update_index true u (build_index true u t0) t [c] = Done e /\ search u e p o = Done hs /\ forall n, In n (map h_start hs) <->
    (exists w q, whole_word (part_of_word (alnum u)) t0 w q /\ wanted u o p w /\ ((q < r_start c /\ n = q) \/ (r_end c <= q /\ n = q - (r_end c - r_start c) + k))) \/
    (exists w i, whole_word (part_of_word (alnum u)) R w i /\ wanted u o p w /\ n = r_start c - 50 + i).
Proof.
  intros T H0 H1 E Ha G EX HX HR (w0 & i0 & W0) M. destruct (update_one u t0 t c a b X R Y H0 H1 E Ha EX HX HR) as (m & U & P). rewrite (guessed_find _ _ _ G) in P.
  assert (FW : forall s i, In i (found u (fold_case u o p) (words_loop u s 0 None)) -> exists w, whole_word (part_of_word (alnum u)) s w i /\ wanted u o p w).
  { intros s i H. apply (proj2 (search_listing u s (fold_case u o p))) in H as (v & V & K). exists v. split; [exact V|]. rewrite tidy_key in K by exact T. exact K. }
  assert (WF : forall s w i, whole_word (part_of_word (alnum u)) s w i -> wanted u o p w -> In i (found u (fold_case u o p) (words_loop u s 0 None))).
  { intros s w i V K. apply (proj2 (search_listing u s (fold_case u o p))). exists w. split; [exact V|]. rewrite tidy_key by exact T. exact K. }
  assert (NE : m <> []).
  { intros ->. assert (I : In (i0 + (r_start c - 50)) (positions (word_key u w0) [])) by (apply P; right; exists i0; split; [|reflexivity]; apply (proj2 (search_listing u R (word_key u w0))); exists w0; now split). destruct I. }
  eexists. exists (map (index_hit p) (positions (fold_case u o p) m)). split; [exact U|]. split.
  - unfold search. destruct m as [|x m]; [congruence|]. cbn [word_index]. unfold positions. destruct (sm_get (fold_case u o p) (x :: m)); [|reflexivity]. rewrite M, push_limited. reflexivity.
  - intros n. rewrite map_map. cbn [index_hit h_start]. rewrite map_id, P. split; (intros [H|H]; [left|right]).
    + destruct H as (q & I & Q). destruct (FW t0 q I) as (w & V & K). now exists w, q.
    + destruct H as (i & I & ->). destruct (FW R i I) as (w & V & K). exists w, i. repeat split; auto; lia.
    + destruct H as (w & q & V & K & Q). exists q. split; [now apply (WF t0 w)|exact Q].
    + destruct H as (w & i & V & K & ->). exists i. split; [now apply (WF R w)|lia].
Qed.
Example update_single_case : exists x, guessed 3 (lit "xyzzy def
ghi") x /\ x = 9 /\ starts (e <- update_index true ascii (build_index true ascii (lit "abc def
ghi")) (lit "xyzzy def
ghi") [mkRange 0 3] ;; search ascii e (lit "ghi") (plain false)) = Some [10; 14].
Proof.
  exists 9. split; [left; exists (lit "xyzzy def"), 10%N, (lit "ghi"); repeat split; [now left|vm_compute; intuition discriminate|vm_compute; intuition discriminate]|]. split; [reflexivity|vm_compute; reflexivity].
Qed.

(* ---- C109: the FST index ---- *)
(* The results are the words of two bytes or more, in scope, whose lower-cased
   form has the query as a subsequence of its bytes, by word and then by
   place, with the right line, column, context and section. *)
Theorem fst_search_exact u t p o : part_of_word (alnum u) 10 = false -> ~ In 13%N t ->
  exists W es, catalogue u t W /\
    (forall k e, In (k, e) es <-> In (k, e) W /\ within (encode (if case_sensitive o then p else lower u p)) (encode k) /\ scoped (o_scope o) e) /\
    StronglySorted (fun a b => str_lt (fst a) (fst b) \/ (fst a = fst b /\ e_pos (snd a) < e_pos (snd b))) es /\
    fst_search u (fst_build u t) p o = map (fun e => Hit (e_pos e) (e_pos e + blen p) p (e_context e) (e_line e) (e_column e)) (limited (max_results o) (map snd es)).
Proof.
  intros NL CR. pose proof (fst_catalogue u t NL CR) as C. exists (fst_words u (lines t) 0 0 None), (matched (o_scope o) (fold_case u o p) (fst_build u t)). split; [exact C|]. split; [|split].
  - intros k e. unfold fst_build. rewrite matched_in, subsequence_within, in_scope_iff. reflexivity.
  - apply matched_sorted. exact (proj1 (proj1 C)).
  - unfold fst_search. rewrite stream_ok by (destruct (max_results o); [now left|right; apply Nat.le_0_l]). cbn [app List.length]. unfold limited. destruct (max_results o); [reflexivity|]. rewrite Nat.sub_0_r. apply firstn_map.
Qed.
Example fst_search_case : part_of_word (alnum ascii) 10 = false /\ ~ In 13%N (lit "[Events]
the cat") /\ exists h, fst_search ascii (fst_build ascii (lit "[Events]
the cat")) (lit "cat") (Options false 0 (Sections [lit "Events"])) = [h] /\ h_start h = 13 /\ h_line h = 1 /\ h_column h = 4 /\ h_context h = lit "the cat".
Proof. split; [reflexivity|]. split; [vm_compute; intuition discriminate|]. eexists. split; [vm_compute; reflexivity|]. now repeat split. Qed.
Lemma nodup_firstn {A} (l : list A) : NoDup l -> forall k, NoDup (firstn k l).
Proof.
  induction 1 as [|x l H ND IH]; intros [|k]; cbn [firstn]; try apply NoDup_nil. apply NoDup_cons; [|apply IH]. intros Q. apply H. rewrite <- (firstn_skipn k l). apply in_or_app. now left.
Qed.
(* Replacing: where the places found do not overlap, each of them, and nothing
   else, becomes the replacement. *)
Theorem fst_replace_exact sz u d p x o : handled sz d -> part_of_word (alnum u) 10 = false -> ~ In 13%N (text d) ->
  let hs := fst_search u (fst_build u (text d)) p o in
  (forall h, In h hs -> exists a m b, text d = a ++ m ++ b /\ blen a = h_start h /\ blen m = blen p) ->
  (forall h h', In h hs -> In h' hs -> h_start h < h_start h' -> h_start h + blen p <= h_start h') ->
  exists d' os, fst_find_replace sz u (fst_build u (text d)) d p x o = OOk d' hs /\
    listing (fun n => exists h, In h hs /\ h_start h = n) os /\ swapped x (blen p) 0 os (text d) (text d').
Proof.
  intros H NL CR hs A B. assert (HE : Forall (fun h => h_end h = h_start h + blen p) hs /\ NoDup (map h_start hs)).
  { destruct (fst_search_exact u (text d) p o NL CR) as (W & es & C & I & SS & E). unfold hs. rewrite E. split; [apply Forall_forall; intros h Hh; apply in_map_iff in Hh as (e & <- & _); reflexivity|].
    rewrite map_map. cbn [h_start]. assert (ND : NoDup (map (fun p => e_pos (snd p)) es)).
    { assert (IW : forall q, In q es -> In q W) by (intros [k e] Q; now apply I in Q as [Q _]). destruct C as [[SW _] _]. clear -SS IW SW. induction SS as [|q es S' IH F]; [constructor|]. cbn [map]. constructor; [|apply IH; intros r Hr; apply IW; now right].
      intros Q. apply in_map_iff in Q as (r & Er & Hr). rewrite Forall_forall in F. pose proof (F r Hr) as O. assert (q = r); [|subst r; destruct O as [O|[_ O]]; [exact (str_lt_irrefl _ O)|lia]].
      pose proof (IW q (or_introl eq_refl)) as I1. pose proof (IW r (or_intror Hr)) as I2. clear -SW I1 I2 Er. induction W as [|y W IHW]; [destruct I1|]. cbn [map] in SW. apply StronglySorted_inv in SW as [SW FW]. rewrite Forall_forall in FW.
      destruct I1 as [->|I1], I2 as [->|I2]; [reflexivity| | |now apply IHW]; exfalso.
      - pose proof (FW (e_pos (snd r)) (in_map (fun p => e_pos (snd p)) _ _ I2)). lia.
      - pose proof (FW (e_pos (snd q)) (in_map (fun p => e_pos (snd p)) _ _ I1)). lia. }
    rewrite <- (map_map snd e_pos es) in ND. unfold limited. destruct (max_results o) as [|k]; [exact ND|]. rewrite <- firstn_map. now apply nodup_firstn. }
  destruct HE as [HE ND]. set (ds := rev (SortLib.stable_sort start_ge hs)). assert (PM : Permutation hs ds) by (etransitivity; [apply SortLib.sort_perm|apply Permutation_rev]).
  assert (SD : StronglySorted (fun a b => h_start a <= h_start b) ds).
  { apply sorted_rev. assert (Q : StronglySorted (fun a b => start_ge a b = true) (SortLib.stable_sort start_ge hs)) by (apply SortLib.sort_sorted; [intros y z; unfold start_ge; rewrite !Nat.leb_le; lia|intros y z v; unfold start_ge; rewrite !Nat.leb_le; lia]).
    clear -Q. induction Q as [|y l Q IH F]; constructor; [exact IH|]. eapply Forall_impl; [|exact F]. intros z. apply Nat.leb_le. }
  assert (ID : forall h, In h ds <-> In h hs) by (intros h; split; apply Permutation_in; [now apply Permutation_sym|exact PM]).
  assert (LT : StronglySorted lt (map h_start ds)).
  { assert (ND' : NoDup (map h_start ds)) by (eapply Permutation_NoDup; [apply Permutation_map; exact PM|exact ND]). clear -SD ND'. induction SD as [|y l S IH F]; cbn [map] in *; [constructor|]. apply NoDup_cons_iff in ND' as [N1 N2]. constructor; [now apply IH|]. rewrite Forall_forall in *. intros n Hn. apply in_map_iff in Hn as (z & <- & Hz). specialize (F z Hz). assert (h_start y <> h_start z) by (intros Q; apply N1; rewrite Q; now apply in_map). lia. }
  assert (SO : StronglySorted (fun m n => m + blen p <= n) (map h_start ds)).
  { assert (BD : forall m n, In m (map h_start ds) -> In n (map h_start ds) -> m < n -> m + blen p <= n) by (intros m n Hm Hn; apply in_map_iff in Hm as (h & <- & Hh); apply in_map_iff in Hn as (h' & <- & Hh'); apply B; now apply ID).
    clear -LT BD. induction LT as [|y l S IH F]; [constructor|]. constructor; [apply IH; intros m n Hm Hn; apply BD; now right|]. rewrite Forall_forall in *. intros z Hz. apply BD; [now left|now right|now apply F]. }
  destruct (swapped_at x (blen p) (text d) (map h_start ds) 0 (text d)) as [t' S'].
  { intros n Hn. apply in_map_iff in Hn as (h & <- & Hh). destruct (A h) as (a & m & b & E & E1 & E2); [now apply ID|]. exists a, m, b. repeat split; auto. }
  { exact SO. } { reflexivity. }
  destruct (replace_each_swapped sz x (blen p) 0 _ _ _ S' d [] ds H eq_refl eq_refl) as (d' & D & TD & _).
  { rewrite map_map. apply map_ext_in. intros h Hh. rewrite Forall_forall in HE. rewrite (HE h) by now apply ID. reflexivity. }
  exists d', (map h_start ds). split; [|split].
  - unfold fst_find_replace. fold hs. unfold ds in D. rewrite rev_involutive in D. rewrite D. reflexivity.
  - split; [exact LT|]. intros n. rewrite in_map_iff. split; intros (h & Q1 & Q2); exists h; [split; [now apply ID|exact Q1]|split; [exact Q2|now apply ID]].
  - cbn [app] in TD. now rewrite TD.
Qed.
Example fst_replace_case : result (fst_find_replace 64 ascii (fst_build ascii (lit "the cat saw a cat and a rat")) (opened (lit "the cat saw a cat and a rat")) (lit "cat") (lit "horse") (plain false)) = Some (lit "the horse saw a horse and a rat").
Proof. vm_compute. reflexivity. Qed.
(* "ct" is reported as found in "cat", and replacing it breaks the word; a
   carriage return shifts what follows; a one-byte word is never found. *)
Theorem fst_search_refuted :
  (exists h, fst_search ascii (fst_build ascii (lit "the cat")) (lit "ct") (plain false) = [h] /\ slice (lit "the cat") (h_start h) (h_end h) = Some (lit "ca")) /\
  result (fst_find_replace 64 ascii (fst_build ascii (lit "the cat")) (opened (lit "the cat")) (lit "ct") (lit "X") (plain false)) = Some (lit "the Xt") /\
  (exists h, fst_search ascii (fst_build ascii (lit "ab" ++ [13; 10]%N ++ lit "cd")) (lit "cd") (plain false) = [h] /\ h_start h = 3) /\ place (lit "cd") (lit "ab" ++ [13; 10]%N ++ lit "cd") 4 /\
  fst_search ascii (fst_build ascii (lit "a b")) (lit "b") (plain false) = [].
Proof.
  split; [eexists; split; [vm_compute; reflexivity|vm_compute; reflexivity]|]. split; [vm_compute; reflexivity|]. split; [eexists; split; [vm_compute; reflexivity|reflexivity]|]. split; [|vm_compute; reflexivity]. now exists (lit "ab" ++ [13; 10]%N), [].
Qed.

(* ---- C110: the linear index ---- *)
(* Whatever the order of the map, one result for each word, split at white
   space, whose lower-cased form contains that of the pattern.  Line and
   context are right, but the place is the start of the line (for lines that
   end in a single byte) plus the number of the word. *)
Definition line_start (ls : list str) (i : nat) : nat := list_sum (map (fun l => blen l + 1) (firstn i ls)).
Theorem linear_search_exact u m t p : Permutation m (linear_build u t) -> forall h, In h (linear_search u m p) <->
  exists i l j w, nth_error (lines t) i = Some l /\ nth_error (words l) j = Some w /\ (exists n, place (lower u p) (lower u w) n) /\
    h = Hit (line_start (lines t) i + j) (line_start (lines t) i + j + blen p) p l i j.
Proof.
  intros Pm h. assert (E : forall i, fold_right (fun l n => blen l + 1 + n) 0 (firstn i (lines t)) = line_start (lines t) i).
  { intros i. unfold line_start. induction (firstn i (lines t)) as [|l ls IH]; [reflexivity|]. cbn. now rewrite IH. }
  rewrite (linear_hits u m t p Pm h). split.
  - intros (i & l & j & w & a & b & H1 & H2 & H3 & ->). exists i, l, j, w. rewrite E. repeat split; auto. exists (blen a), a, b. auto.
  - intros (i & l & j & w & H1 & H2 & (n & a & b & H3 & _) & ->). exists i, l, j, w, a, b. rewrite E. repeat split; auto.
Qed.
Example linear_search_case : exists h, linear_search ascii (linear_build ascii (lit "the cat
Sat there")) (lit "sat") = [h] /\ h_start h = 8 /\ h_line h = 1 /\ h_context h = lit "Sat there".
Proof. eexists. split; [vm_compute; reflexivity|]. now repeat split. Qed.
(* So a word that is not the first of its line is misplaced, and replacing it
   changes other text. *)
Theorem linear_search_refuted : (exists h, linear_search ascii (linear_build ascii (lit "the cat")) (lit "cat") = [h] /\ slice (lit "the cat") (h_start h) (h_end h) = Some (lit "he ")) /\
  result (linear_find_replace 64 ascii (linear_build ascii (lit "the cat")) (opened (lit "the cat")) (lit "cat") (lit "dog")) = Some (lit "tdogcat").
Proof. split; [eexists; split; [vm_compute; reflexivity|vm_compute; reflexivity]|]. vm_compute. reflexivity. Qed.

Print Assumptions word_search_exact.
Print Assumptions word_search_any_scope.
Print Assumptions word_search_upper.
Print Assumptions word_search_phrase.
Print Assumptions plain_search_exact.
Print Assumptions plain_search_wide.
Print Assumptions plain_search_empty.
Print Assumptions word_replace_exact.
Print Assumptions plain_replace_exact.
Print Assumptions update_rebuilds.
Print Assumptions update_finds_all.
Print Assumptions fst_search_exact.
Print Assumptions linear_search_exact.
Print Assumptions update_single_exact.
Print Assumptions fst_replace_exact.
