From Verif Require Import Base BaseLemmas DocModel DocSpec DocProofs InfoCmdSpec InfoCmdProofs AtModel AtSpec.

(* ---- lines ---- *)
Lemma text_lines_rope s ls : text_lines s ls -> rope_lines s = ls.
Proof.
  induction 1 as [l H|l r ls E H IH].
  - destruct (rope_lines_plain l [] H) as (x & y & E1 & E2). rewrite app_nil_r in E2. rewrite E2. cbn in E1. injection E1 as <- <-. now rewrite app_nil_r.
  - destruct E as [l r Hl|l c r Hl Hc Hn].
    + rewrite <- app_assoc. cbn [app]. destruct (rope_lines_plain l (13%N :: 10%N :: r) Hl) as (x & y & E1 & E2). rewrite E2. rewrite rope_lines_crlf in E1. injection E1 as <- <-. now rewrite IH.
    + rewrite <- app_assoc. cbn [app]. destruct (rope_lines_plain l (c :: r) Hl) as (x & y & E1 & E2). rewrite E2. rewrite rope_lines_break in E1 by assumption. injection E1 as <- <-. now rewrite IH.
Qed.
Lemma text_lines_concat s ls : text_lines s ls -> concat ls = s.
Proof. induction 1 as [l H|l r ls E H IH]; cbn [concat]; [apply app_nil_r|now rewrite IH]. Qed.
Lemma text_lines_exists s : exists ls, text_lines s ls.
Proof.
  remember (List.length s) as m eqn:Em. revert s Em. induction m as [m IH] using lt_wf_ind. intros s Em.
  assert (G : forall l r, s = l ++ r -> r <> [] -> Forall (fun c => ~ break_char c) l -> break_char (hd 0%N r) -> exists ls, text_lines s ls).
  { intros l r E N Hl B. destruct r as [|c r]; [congruence|]. cbn [hd] in B. assert (Lr : List.length r < m) by (rewrite Em, E, app_length; cbn; lia).
    destruct (N.eq_dec c 13) as [->|Nc]; [destruct r as [|d r]; [|destruct (N.eq_dec d 10) as [->|Nd]]|].
    - exists ((l ++ [13%N]) :: [[]]). rewrite E. replace (l ++ [13%N]) with ((l ++ [13%N]) ++ []) by apply app_nil_r. rewrite app_nil_r at 2. apply tl_line; [apply el_one; auto; cbn; intros _; discriminate|constructor; constructor].
    - destruct (IH (List.length r) ltac:(cbn in Lr; lia) r eq_refl) as [ls H]. exists ((l ++ [13; 10]%N) :: ls). rewrite E. replace (l ++ 13%N :: 10%N :: r) with ((l ++ [13; 10]%N) ++ r) by (rewrite <- app_assoc; reflexivity). apply tl_line; [now apply el_crlf|exact H].
    - destruct (IH (List.length (d :: r)) Lr (d :: r) eq_refl) as [ls H]. exists ((l ++ [13%N]) :: ls). rewrite E. replace (l ++ 13%N :: d :: r) with ((l ++ [13%N]) ++ d :: r) by (rewrite <- app_assoc; reflexivity). apply tl_line; [apply el_one; auto|exact H].
    - destruct (IH (List.length r) Lr r eq_refl) as [ls H]. exists ((l ++ [c]) :: ls). rewrite E. replace (l ++ c :: r) with ((l ++ [c]) ++ r) by (rewrite <- app_assoc; reflexivity). apply tl_line; [apply el_one; auto; congruence|exact H]. }
  assert (K : forall s, Forall (fun c => ~ break_char c) s \/ exists l r, s = l ++ r /\ r <> [] /\ Forall (fun c => ~ break_char c) l /\ break_char (hd 0%N r)).
  { clear. induction s as [|c s IH]; [left; constructor|]. destruct (break_dec c) as [B|B]; [right; exists [], (c :: s); repeat split; [discriminate|constructor|exact B]|]. destruct IH as [H|(l & r & -> & H1 & H2 & H3)]; [left; now constructor|]. right. exists (c :: l), r. repeat split; auto. }
  destruct (K s) as [H|(l & r & E & H1 & H2 & H3)]; [exists [s]; now constructor|eauto].
Qed.
Lemma line_to_byte_concat ls i : line_to_byte ls i = blen (concat (firstn i ls)).
Proof. unfold line_to_byte. induction (firstn i ls) as [|l r IH]; cbn [fold_right concat]; [reflexivity|]. now rewrite blen_app, IH. Qed.
Lemma line_col_byte a b n k : line_col a b n k -> byte_to_line (rope_lines (a ++ b)) (blen a) = n - 1.
Proof. intros H. apply line_col_place in H. unfold place in H. injection H as H _. lia. Qed.
Lemma byte_to_line_cons l ls n : ls <> [] -> byte_to_line (l :: ls) n = if blen l <=? n then S (byte_to_line ls (n - blen l)) else 0.
Proof. destruct ls; [congruence|reflexivity]. Qed.
Lemma byte_to_line_bound ls : forall n, ls <> [] -> byte_to_line ls n < List.length ls.
Proof.
  induction ls as [|l ls IH]; intros n H; [congruence|]. destruct (list_eq_dec (list_eq_dec N.eq_dec) ls []) as [->|N]; [cbn; lia|]. rewrite byte_to_line_cons by exact N. cbn [List.length]. specialize (IH (n - blen l) N). destruct (blen l <=? n); lia.
Qed.
Lemma byte_to_line_mono ls : forall m n, m <= n -> byte_to_line ls m <= byte_to_line ls n.
Proof.
  induction ls as [|l ls IH]; intros m n H; [cbn; lia|]. destruct (list_eq_dec (list_eq_dec N.eq_dec) ls []) as [->|N]; [cbn; lia|]. rewrite !byte_to_line_cons by exact N. specialize (IH (m - blen l) (n - blen l) ltac:(lia)). destruct (Nat.leb_spec (blen l) m), (Nat.leb_spec (blen l) n); lia.
Qed.

(* ---- at_lines ---- *)
Lemma at_lines_single f l x : forall j, List.length l = j -> at_lines f j j (l ++ [x]) = l ++ [f x].
Proof. induction l as [|y l IH]; intros j <-; cbn [List.length app at_lines]; [reflexivity|]. cbn [Nat.eqb]. rewrite Nat.sub_succ, Nat.sub_0_r. now rewrite IH. Qed.
Lemma at_lines_snoc f l x : forall i j, List.length l = S j -> i <= j -> at_lines f i (S j) (l ++ [x]) = at_lines f i j l ++ [f x].
Proof.
  induction l as [|y l IH]; intros i j L H; [discriminate L|]. cbn [List.length] in L. injection L as L. cbn [app]. destruct j as [|j].
  - destruct l; [|discriminate L]. assert (i = 0) by lia. subst. reflexivity.
  - cbn [at_lines app]. f_equal. destruct i as [|i]; cbn [Nat.sub].
    + apply IH; [exact L|lia].
    + rewrite Nat.sub_0_r. apply IH; [exact L|lia].
Qed.
Lemma at_lines_tail f l r : forall i j, S j <= List.length l -> at_lines f i j (l ++ r) = at_lines f i j l ++ r.
Proof.
  induction l as [|y l IH]; intros i j L; cbn [List.length] in L; [lia|]. cbn [app]. destruct j as [|j]; cbn [at_lines app]; [reflexivity|]. f_equal. apply IH. lia.
Qed.
Lemma at_lines_comp f g ls : forall i j, at_lines f i j (at_lines g i j ls) = at_lines (fun l => f (g l)) i j ls.
Proof. induction ls as [|l ls IH]; intros i [|j]; cbn [at_lines]; try reflexivity; destruct (i =? 0); try reflexivity; f_equal; apply IH. Qed.
Lemma at_lines_id f ls : (forall l, f l = l) -> forall i j, at_lines f i j ls = ls.
Proof. intros F. induction ls as [|l ls IH]; intros i [|j]; cbn [at_lines]; try reflexivity; destruct (i =? 0); rewrite ?F, ?IH; reflexivity. Qed.
Lemma firstn_snoc {A} (ls : list A) j x : nth_error ls j = Some x -> firstn (S j) ls = firstn j ls ++ [x].
Proof. revert j. induction ls as [|l ls IH]; intros [|j] H; try discriminate H; cbn in *; [now injection H as ->|]. f_equal. now apply IH. Qed.

(* ---- a pass over the lines, the last first ---- *)
Section Pass.
  Context (sz : nat) (ls : list str) (f : str -> str) (loop : list nat -> doc -> out unit).
  Context (stop : forall d, loop [] d = OOk d tt).
  Context (step : forall k r d x rest, handled sz d -> nth_error ls k = Some x -> text d = concat (firstn k ls) ++ x ++ rest ->
    exists d1, loop (k :: r) d = loop r d1 /\ text d1 = concat (firstn k ls) ++ f x ++ rest /\ handled sz d1).
  Lemma lines_down_one i : lines_down i i = [i].
  Proof. unfold lines_down. replace (S i - i) with 1 by lia. reflexivity. Qed.
  Lemma lines_down_more i j : i <= j -> lines_down i (S j) = S j :: lines_down i j.
  Proof. intros H. unfold lines_down. replace (S (S j) - i) with (S (S j - i)) by lia. rewrite seq_S, rev_app_distr. cbn [rev app]. f_equal. lia. Qed.
  Lemma pass_down j : forall i d rest, i <= j -> j < List.length ls -> handled sz d -> text d = concat (firstn (S j) ls) ++ rest ->
    exists d', loop (lines_down i j) d = OOk d' tt /\ text d' = concat (at_lines f i j (firstn (S j) ls)) ++ rest /\ handled sz d'.
  Proof.
    induction j as [|j IH]; intros i d rest Hi Hj Hd T.
    - assert (i = 0) by lia. subst i. rewrite lines_down_one. destruct (nth_error ls 0) as [x|] eqn:E; [|apply nth_error_None in E; lia].
      rewrite (firstn_snoc ls 0 x E), concat_app in T. cbn [concat] in T. rewrite app_nil_r, <- app_assoc in T. destruct (step 0 [] d x rest Hd E T) as (d1 & -> & T1 & H1). rewrite stop. exists d1. split; [reflexivity|]. split; [|exact H1].
      rewrite T1, (firstn_snoc ls 0 x E). cbn. now rewrite app_nil_r.
    - destruct (nth_error ls (S j)) as [x|] eqn:E; [|apply nth_error_None in E; lia]. pose proof (firstn_snoc ls (S j) x E) as F.
      rewrite F, concat_app in T. cbn [concat] in T. rewrite app_nil_r, <- app_assoc in T. destruct (Nat.eq_dec i (S j)) as [->|N].
      + rewrite lines_down_one. destruct (step (S j) [] d x rest Hd E T) as (d1 & -> & T1 & H1). rewrite stop. exists d1. split; [reflexivity|]. split; [|exact H1].
        rewrite F, at_lines_single by (rewrite firstn_length; lia). rewrite concat_app. cbn [concat]. now rewrite app_nil_r, <- app_assoc.
      + rewrite lines_down_more by lia. destruct (step (S j) (lines_down i j) d x rest Hd E T) as (d1 & -> & T1 & H1).
        destruct (IH i d1 (f x ++ rest) ltac:(lia) ltac:(lia) H1 T1) as (d' & E' & T' & H'). exists d'. split; [exact E'|]. split; [|exact H'].
        rewrite F, at_lines_snoc by (try rewrite firstn_length; lia). rewrite T', concat_app. cbn [concat]. now rewrite app_nil_r, <- app_assoc.
  Qed.
  Lemma pass_all i j d : i <= j -> j < List.length ls -> handled sz d -> text d = concat ls ->
    exists d', loop (lines_down i j) d = OOk d' tt /\ text d' = concat (at_lines f i j ls) /\ handled sz d'.
  Proof.
    intros Hi Hj Hd T. destruct (pass_down j i d (concat (skipn (S j) ls)) Hi Hj Hd) as (d' & E & T' & H'); [rewrite <- concat_app, firstn_skipn; exact T|].
    exists d'. split; [exact E|]. split; [|exact H']. rewrite T', <- concat_app, <- at_lines_tail by (rewrite firstn_length; lia). now rewrite firstn_skipn.
  Qed.
End Pass.
Lemma handled_insert_at sz d A B t : handled sz d -> text d = A ++ B -> exists d', doc_replace sz d (range_empty (blen A)) t = OOk d' tt /\ text d' = A ++ t ++ B /\ handled sz d'.
Proof. intros H T. destruct (handled_replace sz d A [] B t H T) as (d' & E & R). exists d'. cbn [blen] in E. rewrite Nat.add_0_r in E. now split. Qed.
Lemma indent_pass sz d ls i j t : handled sz d -> text d = concat ls -> i <= j -> j < List.length ls ->
  exists d', indent_at sz d (map (line_to_byte ls) (lines_down i j)) t = OOk d' tt /\ text d' = concat (at_lines (app t) i j ls) /\ handled sz d'.
Proof.
  intros H T Hi Hj. apply (pass_all sz ls (app t) (fun ks d => indent_at sz d (map (line_to_byte ls) ks) t)); auto.
  intros k r d1 x rest Hd E T1. cbn [map indent_at]. rewrite line_to_byte_concat. destruct (handled_insert_at sz d1 _ _ t Hd T1) as (d2 & -> & T2 & H2). cbn [out_bind]. exists d2. split; [reflexivity|]. split; [|exact H2]. now rewrite T2, <- app_assoc.
Qed.
Lemma spaces_split l n : l = repeat 32%N (count_spaces l n) ++ skipn (count_spaces l n) l.
Proof. revert n. induction l as [|c l IH]; intros [|n]; cbn [count_spaces]; try reflexivity. destruct (N.eqb_spec c 32) as [->|]; [|reflexivity]. cbn [repeat skipn app]. f_equal. apply IH. Qed.
Lemma blen_spaces k : blen (repeat 32%N k) = k.
Proof. induction k as [|k IH]; [reflexivity|]. cbn [repeat blen]. rewrite IH. reflexivity. Qed.
Definition unindented (n : nat) (l : str) : str := skipn (count_spaces l n) l.
Lemma unindent_pass sz d ls i j n : handled sz d -> text d = concat ls -> i <= j -> j < List.length ls ->
  exists d', delete_at sz d (filter (fun p => 0 <? snd p) (map (fun i => (line_to_byte ls i, count_spaces (nth i ls []) n)) (lines_down i j))) = OOk d' tt /\ text d' = concat (at_lines (unindented n) i j ls) /\ handled sz d'.
Proof.
  intros H T Hi Hj. apply (pass_all sz ls (unindented n) (fun ks d => delete_at sz d (filter (fun p => 0 <? snd p) (map (fun i => (line_to_byte ls i, count_spaces (nth i ls []) n)) ks)))); auto.
  intros k r d1 x rest Hd E T1. cbn [map filter snd]. rewrite (nth_error_nth _ _ [] E), line_to_byte_concat. destruct (Nat.ltb_spec 0 (count_spaces x n)) as [L|L].
  - cbn [delete_at]. rewrite (spaces_split x n), <- app_assoc in T1. destruct (handled_delete sz d1 _ _ _ Hd T1) as (d2 & D & T2 & H2). rewrite blen_spaces in D. unfold range_new. destruct (Nat.leb_spec (blen (concat (firstn k ls))) (blen (concat (firstn k ls)) + count_spaces x n)); [|lia].
    rewrite D. cbn [out_bind]. exists d2. split; [reflexivity|]. split; [exact T2|exact H2].
  - exists d1. split; [reflexivity|]. split; [|exact Hd]. unfold unindented. assert (Z : count_spaces x n = 0) by lia. now rewrite Z.
Qed.
Lemma unindented_dropped n l : dropped n l (unindented n l).
Proof.
  unfold unindented. revert n. induction l as [|c l IH]; intros [|n]; cbn [count_spaces skipn]; try constructor; [discriminate|]. destruct (N.eqb_spec c 32) as [->|N]; [cbn [skipn]; constructor; apply IH|]. now apply dr_end.
Qed.
Lemma dropped_unique n l a : dropped n l a -> forall b, dropped n l b -> a = b.
Proof.
  induction 1 as [l|n l H|n l l' H IH]; intros b B.
  - inversion B; subst; auto.
  - inversion B; subst; auto. cbn in H. congruence.
  - inversion B; subst; auto. cbn in *. congruence.
Qed.
Lemma dropped_spaces n l : dropped n (repeat 32%N n ++ l) l.
Proof. induction n; cbn [repeat app]; constructor; auto. Qed.
(* spaces at the start of lines leave the lines as they are *)
Lemma spaces_free n : Forall (fun c => ~ break_char c) (repeat 32%N n).
Proof. apply Forall_forall. intros c H. apply repeat_spec in H. subst. unfold break_char. lia. Qed.
Lemma indented_lines n s ls : text_lines s ls -> forall i j, text_lines (concat (at_lines (app (repeat 32%N n)) i j ls)) (at_lines (app (repeat 32%N n)) i j ls) /\
  (hd 0%N (concat (at_lines (app (repeat 32%N n)) i j ls)) = hd 0%N s \/ hd 0%N (concat (at_lines (app (repeat 32%N n)) i j ls)) = 32%N).
Proof.
  assert (HD : forall s', hd 0%N (repeat 32%N n ++ s') = hd 0%N s' \/ hd 0%N (repeat 32%N n ++ s') = 32%N) by (destruct n; [now left|now right]).
  assert (EL : forall l r r', ends_line l r -> (hd 0%N r' = hd 0%N r \/ hd 0%N r' = 32%N) -> ends_line l r').
  { intros l r r' E Q. destruct E as [l r Hl|l c r Hl Hc Hn]; [now apply el_crlf|apply el_one; auto]. intros X. specialize (Hn X). destruct Q as [-> | ->]; [exact Hn|discriminate]. }
  assert (EA : forall l r, ends_line l r -> ends_line (repeat 32%N n ++ l) r).
  { intros l r E. destruct E as [l r Hl|l c r Hl Hc Hn]; rewrite app_assoc; [apply el_crlf|apply el_one]; auto; apply Forall_app; auto using spaces_free. }
  induction 1 as [l H|l r ls E H IH]; intros i j.
  - assert (G : forall b : bool, text_lines (concat [if b then repeat 32%N n ++ l else l]) [if b then repeat 32%N n ++ l else l] /\ (hd 0%N (concat [if b then repeat 32%N n ++ l else l]) = hd 0%N l \/ hd 0%N (concat [if b then repeat 32%N n ++ l else l]) = 32%N)).
    { intros b. cbn [concat]. rewrite app_nil_r. destruct b; split; auto; constructor; auto. apply Forall_app; auto using spaces_free. }
    destruct j as [|j]; cbn [at_lines]; apply (G (i =? 0)).
  - assert (G : forall (b : bool) ls', text_lines (concat ls') ls' -> (hd 0%N (concat ls') = hd 0%N r \/ hd 0%N (concat ls') = 32%N) ->
      text_lines (concat ((if b then repeat 32%N n ++ l else l) :: ls')) ((if b then repeat 32%N n ++ l else l) :: ls') /\ (hd 0%N (concat ((if b then repeat 32%N n ++ l else l) :: ls')) = hd 0%N (l ++ r) \/ hd 0%N (concat ((if b then repeat 32%N n ++ l else l) :: ls')) = 32%N)).
    { intros b ls' T Q. cbn [concat]. assert (L : l <> []) by (destruct E as [l0 ? ?|l0 ? ? ?]; destruct l0; discriminate). assert (HL : forall x y, hd 0%N (l ++ x) = hd 0%N (l ++ y)) by (intros; destruct l; [congruence|reflexivity]). split.
      - apply tl_line; [|exact T]. destruct b; [apply EA|]; exact (EL _ _ _ E Q).
      - destruct b; [rewrite <- app_assoc; destruct (HD (l ++ concat ls')) as [-> | ->]; auto; left; apply HL|left; apply HL]. }
    destruct j as [|j]; cbn [at_lines].
    + apply G; rewrite (text_lines_concat _ _ H); auto.
    + destruct (IH (i - 1) j) as [I1 I2]. apply G; assumption.
Qed.

(* ---- to the end of the line ---- *)
Lemma rope_split_in a c b k : k < len_utf8 c -> rope_split (a ++ c :: b) (blen a + k) = (a, c :: b).
Proof.
  intros K. induction a as [|x a IH]; cbn [app blen].
  - cbn [rope_split]. destruct (Nat.leb_spec (len_utf8 c) (0 + k)); [lia|reflexivity].
  - cbn [rope_split]. destruct (Nat.leb_spec (len_utf8 x) (len_utf8 x + blen a + k)); [|lia]. replace (len_utf8 x + blen a + k - len_utf8 x) with (blen a + k) by lia. now rewrite IH.
Qed.
Lemma handled_replace_in sz d A m c B k t : handled sz d -> text d = A ++ m ++ c :: B -> k < len_utf8 c ->
  exists d', doc_replace sz d (mkRange (blen A) (blen A + blen m + k)) t = OOk d' tt /\ text d' = A ++ t ++ c :: B /\ handled sz d'.
Proof.
  intros H T K. set (r := mkRange (blen A) (blen A + blen m + k)).
  assert (L : blen (text d) = blen A + blen m + (len_utf8 c + blen B)) by (rewrite T, !blen_app; cbn [blen]; lia).
  assert (S2 : rope_split (text d) (blen A + blen m + k) = (A ++ m, c :: B)) by (rewrite T, app_assoc, <- blen_app; now apply rope_split_in).
  assert (S1 : rope_split (text d) (blen A) = (A, m ++ c :: B)) by (rewrite T; apply rope_split_app).
  assert (D : exists d', doc_replace sz d r t = OOk d' tt /\ text d' = A ++ t ++ c :: B).
  { unfold doc_replace. assert (TR : exists old, text_range d r = Ok old).
    { unfold text_range. cbn [r r_start r_end]. rewrite L. destruct (Nat.ltb_spec (blen A + blen m + (len_utf8 c + blen B)) (blen A + blen m + k)); [lia|]. destruct (Nat.ltb_spec (blen A + blen m + (len_utf8 c + blen B)) (blen A)); [lia|].
      unfold byte_to_char. rewrite S1, S2. cbn [fst]. destruct (Nat.ltb_spec (List.length (A ++ m)) (List.length A)); [rewrite app_length in *; lia|eauto]. }
    destruct TR as [old ->]. unfold cmd_replace, replace_raw, delete_raw. cbn [r r_start r_end]. rewrite L. destruct (Nat.ltb_spec (blen A + blen m + (len_utf8 c + blen B)) (blen A + blen m + k)); [lia|]. destruct (Nat.ltb_spec (blen A + blen m + (len_utf8 c + blen B)) (blen A)); [lia|].
    rewrite S1, S2. cbn [fst]. destruct (Nat.ltb_spec (List.length (A ++ m)) (List.length A)); [rewrite app_length in *; lia|]. cbn [out_bind]. rewrite (insert_raw_app _ A (c :: B)) by reflexivity. cbn [out_bind].
    match goal with |- context [record_operation ?a ?b ?c ?e ?f] => destruct (hinv_push_ok a b c e f) as (d' & -> & T') end; [exact (handled_inv _ _ H)|]. eauto. }
  destruct D as (d' & D & T'). exists d'. split; [exact D|]. split; [exact T'|]. apply (hd_act sz d (AReplace r t)); [exact H|]. cbn [do_all do_act]. fold r; now rewrite D.
Qed.
Definition next_start (s : str) (n : nat) (e : nat) : Prop := n < List.length (rope_lines s) /\ line_to_byte (rope_lines s) n = e.
Lemma next_start_next l c r n e : Forall (fun c => ~ break_char c) l -> break_char c -> (c = 13%N -> hd 0%N r <> 10%N) -> next_start r n e -> next_start (l ++ c :: r) (S n) (blen l + len_utf8 c + e).
Proof.
  intros Hl Hc Hn [L E]. unfold next_start. destruct (rope_lines_plain l (c :: r) Hl) as (x & y & E1 & E2). rewrite E2. rewrite rope_lines_break in E1 by assumption. injection E1 as <- <-. cbn [List.length]. split; [lia|]. rewrite <- E. unfold line_to_byte. cbn [firstn fold_right]. rewrite blen_app. cbn [blen]. lia.
Qed.
Lemma next_start_crlf l r n e : Forall (fun c => ~ break_char c) l -> next_start r n e -> next_start (l ++ 13%N :: 10%N :: r) (S n) (blen l + 2 + e).
Proof.
  intros Hl [L E]. unfold next_start. destruct (rope_lines_plain l (13%N :: 10%N :: r) Hl) as (x & y & E1 & E2). rewrite E2. rewrite rope_lines_crlf in E1. injection E1 as <- <-. cbn [List.length]. split; [lia|]. rewrite <- E. unfold line_to_byte. cbn [firstn fold_right]. rewrite blen_app. change (blen [13; 10]%N) with 2. lia.
Qed.
Lemma next_start_0 r : next_start r 0 0.
Proof. split; [|reflexivity]. pose proof (rope_lines_nonempty r). destruct (rope_lines r); [congruence|cbn; lia]. Qed.
Lemma hd_app_same (a x y : str) : hd 0%N x = hd 0%N y -> hd 0%N (a ++ x) = hd 0%N (a ++ y).
Proof. destruct a; auto. Qed.
(* rest starts with l and then a line break of 1 or 2 characters e *)
Lemma line_col_next a rest n k : line_col a rest n k -> forall l e b, rest = l ++ e ++ b -> Forall (fun c => ~ break_char c) l ->
  (e = [13; 10]%N \/ exists c, e = [c] /\ break_char c /\ (c = 13%N -> hd 0%N b <> 10%N)) -> next_start (a ++ rest) n (blen a + blen l + blen e).
Proof.
  induction 1 as [a rest H|a b0 H|l0 a rest n k H G IH|l0 c a rest n k H Hc Hn G IH]; intros l e b E Hl He.
  - subst rest. destruct He as [->|(c & -> & Hc & Hn)]; cbn [app].
    + rewrite app_assoc. replace (blen a + blen l + blen [13; 10]%N) with (blen (a ++ l) + 2 + 0) by (rewrite blen_app; change (blen [13; 10]%N) with 2; lia). apply next_start_crlf; [now apply Forall_app|apply next_start_0].
    + rewrite app_assoc. replace (blen a + blen l + blen [c]) with (blen (a ++ l) + len_utf8 c + 0) by (rewrite blen_app; cbn [blen]; lia). apply next_start_next; auto; [now apply Forall_app|apply next_start_0].
  - assert (El : l = []). { destruct l as [|x l]; [reflexivity|]. cbn in E. injection E as <- _. apply Forall_inv in Hl. destruct Hl. unfold break_char. lia. } subst l. cbn [app] in E.
    destruct He as [->|(c & -> & Hc & Hn)]; cbn [app] in E; [discriminate E|]. injection E as <- <-. rewrite <- app_assoc. cbn [app]. replace (blen (a ++ [13%N]) + blen [] + blen [10%N]) with (blen a + 2 + 0) by (rewrite blen_app; change (blen [13%N]) with 1; change (blen [10%N]) with 1; cbn [blen]; lia). apply next_start_crlf; [exact H|apply next_start_0].
  - specialize (IH l e b E Hl He). cbn [app]. rewrite <- app_assoc. cbn [app]. replace (blen (l0 ++ 13%N :: 10%N :: a) + blen l + blen e) with (blen l0 + 2 + (blen a + blen l + blen e)) by (rewrite blen_app; change (blen (13%N :: 10%N :: a)) with (1 + (1 + blen a)); lia). now apply next_start_crlf.
  - specialize (IH l e b E Hl He). cbn [app]. rewrite <- app_assoc. cbn [app]. replace (blen (l0 ++ c :: a) + blen l + blen e) with (blen l0 + len_utf8 c + (blen a + blen l + blen e)) by (rewrite blen_app; cbn [blen]; lia). now apply next_start_next.
Qed.
Lemma line_col_last a l n k : line_col a l n k -> Forall (fun c => ~ break_char c) l -> List.length (rope_lines (a ++ l)) = n.
Proof.
  induction 1 as [a b H|a b H|l0 a b n k H G IH|l0 c a b n k H Hc Hn G IH]; intros Hl.
  - destruct (rope_lines_plain (a ++ b) []) as (x & y & E1 & E2); [now apply Forall_app|]. rewrite app_nil_r in E2. rewrite E2. cbn in E1. injection E1 as <- <-. reflexivity.
  - apply Forall_inv in Hl. destruct Hl. unfold break_char. lia.
  - rewrite <- !app_assoc. cbn [app]. destruct (rope_lines_plain l0 (13%N :: 10%N :: a ++ b) H) as (x & ls & E1 & E2). rewrite E2. rewrite rope_lines_crlf in E1. injection E1 as <- <-. cbn [List.length]. now rewrite IH.
  - rewrite <- !app_assoc. cbn [app]. destruct (rope_lines_plain l0 (c :: a ++ b) H) as (x & ls & E1 & E2). rewrite E2. rewrite rope_lines_break in E1 by assumption. injection E1 as <- <-. cbn [List.length]. now rewrite IH.
Qed.
