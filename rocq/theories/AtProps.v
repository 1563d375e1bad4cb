(* C113-C115: editing at a position, in a selection, and by lines. *)
From Verif Require Import Base BaseLemmas DocModel DocSpec DocProofs DocProps InfoCmdSpec InfoCmdProofs AtModel AtSpec AtProofs.

(* ---- C113: at a position ---- *)
Theorem at_insert_exact : forall sz d a b t, handled sz d -> text d = a ++ b ->
  exists d', at_insert sz d (blen a) t = OOk d' tt /\ text d' = a ++ t ++ b /\ handled sz d'.
Proof. intros sz d a b t H T. now apply handled_insert_at. Qed.
Theorem at_insert_line_exact : forall sz d a b, handled sz d -> text d = a ++ b ->
  exists d', at_insert_line sz d (blen a) = OOk d' tt /\ text d' = a ++ 10%N :: b /\ handled sz d'.
Proof. intros sz d a b H T. now apply (handled_insert_at sz d a b [10%N]). Qed.
(* deleting n bytes forwards or backwards, where they end between characters *)
Theorem at_delete_exact : forall mx sz d a m b, handled sz d -> text d = a ++ m ++ b -> blen (a ++ m) <= mx ->
  exists d', at_delete mx sz d (blen a) (blen m) = OOk d' tt /\ text d' = a ++ b /\ handled sz d'.
Proof.
  intros mx sz d a m b H T M. rewrite blen_app in M. unfold at_delete, pos_advance. rewrite Nat.min_r by lia. unfold range_new. destruct (Nat.leb_spec (blen a) (blen a + blen m)); [|lia]. now apply handled_delete.
Qed.
(* beyond the end nothing is deleted *)
Theorem at_delete_beyond : forall mx sz d p n, p <= blen (text d) < p + n -> blen (text d) < mx -> at_delete mx sz d p n = OErr d.
Proof.
  intros mx sz d p n [H1 H2] M. unfold at_delete, pos_advance. apply (out_of_bounds sz d (ADelete (range_new p (Nat.min mx (p + n))))). unfold range_new. destruct (Nat.leb_spec p (Nat.min mx (p + n))); cbn [r_end]; lia.
Qed.
Theorem at_backspace_exact : forall sz d a m b, handled sz d -> text d = a ++ m ++ b ->
  exists d', at_backspace sz d (blen (a ++ m)) (blen m) = OOk d' tt /\ text d' = a ++ b /\ handled sz d'.
Proof.
  intros sz d a m b H T. unfold at_backspace, pos_retreat. rewrite blen_app, Nat.add_sub. unfold range_new. destruct (Nat.leb_spec (blen a) (blen a + blen m)); [|lia]. now apply handled_delete.
Qed.
(* more than there is deletes all that is before *)
Theorem at_backspace_start : forall sz d a b n, handled sz d -> text d = a ++ b -> blen a <= n ->
  exists d', at_backspace sz d (blen a) n = OOk d' tt /\ text d' = b /\ handled sz d'.
Proof.
  intros sz d a b n H T L. unfold at_backspace, pos_retreat. replace (blen a - n) with 0 by lia. unfold range_new. cbn [Nat.leb]. exact (handled_delete sz d [] a b H T).
Qed.
Theorem insert_then_backspace : forall sz d d' a b t, handled sz d -> text d = a ++ b -> at_insert sz d (blen a) t = OOk d' tt ->
  exists d2, at_backspace sz d' (blen (a ++ t)) (blen t) = OOk d2 tt /\ text d2 = text d.
Proof.
  intros sz d d' a b t H T E. destruct (at_insert_exact sz d a b t H T) as (x & E' & T' & H'). rewrite E in E'. injection E' as <-. destruct (at_backspace_exact sz d' a t b H' T') as (d2 & E2 & T2 & _). exists d2. split; [exact E2|congruence].
Qed.
(* The place is the line and column, and beyond the end there is none: the call
   panics where the document's own function gives an error. *)
Theorem at_line_column_exact : forall d a b n k, text d = a ++ b -> line_col a b n k -> at_line_column d (blen a) = Ok (n, k).
Proof.
  intros d a b n k T H. unfold at_line_column. rewrite T. destruct (Nat.ltb_spec (blen (a ++ b)) (blen a)); [rewrite blen_app in *; lia|]. cbv zeta. apply line_col_place in H. unfold place in H. now rewrite <- H.
Qed.
Theorem at_line_column_beyond : forall d p, blen (text d) < p -> at_line_column d p = Panic /\ position_to_line_column (text d) p = Err.
Proof. intros d p H. unfold at_line_column, position_to_line_column. apply Nat.ltb_lt in H. rewrite H. auto. Qed.
(* Replacing the rest of a line, l: the break that ends it stays, except that of
   CR LF only the LF stays. *)
Theorem replace_line_end_exact : forall sz d a l c b t, handled sz d -> text d = a ++ l ++ c :: b -> Forall (fun c => ~ break_char c) l ->
  break_char c -> (c = 13%N -> hd 0%N b <> 10%N) ->
  exists d', at_replace_to_line_end sz d (blen a) t = OOk d' tt /\ text d' = a ++ t ++ c :: b /\ handled sz d'.
Proof.
  intros sz d a l c b t H T Hl Hc Hn. unfold at_replace_to_line_end. rewrite T. destruct (Nat.ltb_spec (blen (a ++ l ++ c :: b)) (blen a)); [rewrite blen_app in *; lia|]. cbv zeta.
  destruct (line_col_exists a (l ++ c :: b)) as (n & k & LC). rewrite (line_col_byte _ _ _ _ LC). pose proof (proj1 (line_col_pos _ _ _ _ LC)) as P. replace (n - 1 + 1) with n by lia.
  destruct (line_col_next _ _ _ _ LC l [c] b eq_refl Hl) as [L E]; [right; now exists c|]. apply Nat.ltb_lt in L. rewrite L, E. pose proof (len_utf8_pos c) as Lc. cbn [blen]. replace (blen a + blen l + (len_utf8 c + 0) - 1) with (blen a + blen l + (len_utf8 c - 1)) by lia.
  unfold range_new. destruct (Nat.leb_spec (blen a) (blen a + blen l + (len_utf8 c - 1))); [|lia]. apply (handled_replace_in sz d a l c b (len_utf8 c - 1) t H T). lia.
Qed.
Theorem replace_line_end_crlf : forall sz d a l b t, handled sz d -> text d = a ++ l ++ [13; 10]%N ++ b -> Forall (fun c => ~ break_char c) l ->
  exists d', at_replace_to_line_end sz d (blen a) t = OOk d' tt /\ text d' = a ++ t ++ 10%N :: b /\ handled sz d'.
Proof.
  intros sz d a l b t H T Hl. unfold at_replace_to_line_end. rewrite T. destruct (Nat.ltb_spec (blen (a ++ l ++ [13; 10]%N ++ b)) (blen a)); [rewrite blen_app in *; lia|]. cbv zeta.
  destruct (line_col_exists a (l ++ [13; 10]%N ++ b)) as (n & k & LC). rewrite (line_col_byte _ _ _ _ LC). pose proof (proj1 (line_col_pos _ _ _ _ LC)) as P. replace (n - 1 + 1) with n by lia.
  destruct (line_col_next _ _ _ _ LC l [13; 10]%N b eq_refl Hl) as [L E]; [now left|]. apply Nat.ltb_lt in L. rewrite L, E. change (blen [13; 10]%N) with 2. replace (blen a + blen l + 2 - 1) with (blen a + blen (l ++ [13%N])) by (rewrite blen_app; change (blen [13%N]) with 1; lia).
  unfold range_new. destruct (Nat.leb_spec (blen a) (blen a + blen (l ++ [13%N]))); [|lia]. apply handled_replace; [exact H|]. rewrite T, <- !app_assoc. reflexivity.
Qed.
Theorem replace_line_end_last : forall sz d a l t, handled sz d -> text d = a ++ l -> Forall (fun c => ~ break_char c) l ->
  exists d', at_replace_to_line_end sz d (blen a) t = OOk d' tt /\ text d' = a ++ t /\ handled sz d'.
Proof.
  intros sz d a l t H T Hl. unfold at_replace_to_line_end. rewrite T. destruct (Nat.ltb_spec (blen (a ++ l)) (blen a)); [rewrite blen_app in *; lia|]. cbv zeta.
  destruct (line_col_exists a l) as (n & k & LC). rewrite (line_col_byte _ _ _ _ LC), (line_col_last _ _ _ _ LC Hl). pose proof (proj1 (line_col_pos _ _ _ _ LC)) as P. replace (n - 1 + 1) with n by lia. rewrite Nat.ltb_irrefl.
  unfold range_new. destruct (Nat.leb_spec (blen a) (blen (a ++ l))); [|rewrite blen_app in *; lia]. rewrite blen_app. destruct (handled_replace sz d a l [] t H) as (d' & E & T' & H'); [now rewrite app_nil_r|]. exists d'. rewrite app_nil_r in T'. auto.
Qed.
Theorem replace_line_end_keeps_break_refuted : ~ forall sz d a l b t d', text d = a ++ l ++ [13; 10]%N ++ b -> at_replace_to_line_end sz d (blen a) t = OOk d' tt ->
  text d' = a ++ t ++ [13; 10]%N ++ b.
Proof.
  intros H. eassert (K : _); [apply (H 0 (fresh 5 0 [97; 13; 10; 98]%N) [] [97%N] [98%N] [120%N]); [reflexivity|vm_compute; reflexivity]|]. vm_compute in K. discriminate K.
Qed.
Theorem replace_line_end_beyond : forall sz d p t, blen (text d) < p -> at_replace_to_line_end sz d p t = OPanic.
Proof. intros sz d p t H. unfold at_replace_to_line_end. apply Nat.ltb_lt in H. now rewrite H. Qed.
Example replace_line_end_case : exists d', at_replace_to_line_end 0 (fresh 5 0 [97; 98; 8232; 99]%N) 1 [120%N] = OOk d' tt /\ text d' = [97; 120; 8232; 99]%N.
Proof. eexists. split; [vm_compute; reflexivity|reflexivity]. Qed.
Print Assumptions replace_line_end_exact.
Print Assumptions replace_line_end_crlf.
Print Assumptions replace_line_end_last.

(* ---- C114: in a selection ---- *)
Theorem sel_edits_exact : forall sz d a m b t, handled sz d -> text d = a ++ m ++ b -> let r := mkRange (blen a) (blen a + blen m) in
  sel_text d r = Ok m /\
  (exists d', sel_replace sz d r t = OOk d' tt /\ text d' = a ++ t ++ b /\ handled sz d') /\
  (exists d', sel_delete sz d r = OOk d' tt /\ text d' = a ++ b /\ handled sz d') /\
  (forall o c, exists d', sel_wrap sz d r o c = OOk d' tt /\ text d' = a ++ o ++ m ++ c ++ b /\ handled sz d').
Proof.
  intros sz d a m b t H T r. assert (S : sel_text d r = Ok m) by (unfold sel_text, r; cbn [r_start r_end]; now rewrite T, slice_app). split; [exact S|]. split; [now apply handled_replace|]. split; [now apply handled_delete|].
  intros o c. unfold sel_wrap. rewrite S. destruct (handled_replace sz d a m b (o ++ m ++ c) H T) as (d' & E & T' & H'). exists d'. split; [exact E|]. split; [|exact H']. now rewrite T', <- !app_assoc.
Qed.
(* Wrapping, and reading the text, panic for every other selection, also one
   that starts or ends within a character; replacing does not. *)
Theorem sel_wrap_panics : forall sz d r o c, (forall a m b, text d = a ++ m ++ b -> r_start r = blen a -> r_end r = blen a + blen m -> False) -> sel_text d r = Panic /\ sel_wrap sz d r o c = OPanic.
Proof.
  intros sz d r o c N. assert (S : sel_text d r = Panic); [|unfold sel_wrap; now rewrite S]. unfold sel_text. destruct (slice (text d) (r_start r) (r_end r)) as [m|] eqn:E; [|reflexivity]. exfalso. apply slice_spec in E as (a & b & E1 & E2 & E3). apply (N a m b); [exact E1|now symmetry|lia].
Qed.
Example sel_case : let d := fresh 5 0 (lit "one two") in
  (exists d', sel_wrap 0 d (mkRange 4 7) (lit "<") (lit ">") = OOk d' tt /\ text d' = lit "one <two>") /\ sel_wrap 0 (fresh 5 0 [233%N]) (mkRange 0 1) [] [] = OPanic /\
  exists d', sel_replace 0 (fresh 5 0 [233%N]) (mkRange 0 1) [120%N] = OOk d' tt /\ text d' = [120; 233]%N.
Proof. split; [eexists; split; [vm_compute; reflexivity|reflexivity]|]. split; [vm_compute; reflexivity|]. eexists; split; [vm_compute; reflexivity|reflexivity]. Qed.

(* ---- C115: by lines ---- *)
(* Every text has lines, and only one list of them. *)
Theorem text_lines_unique : forall s, exists ls, text_lines s ls /\ forall ls', text_lines s ls' -> ls' = ls.
Proof. intros s. destruct (text_lines_exists s) as [ls H]. exists ls. split; [exact H|]. intros ls' H'. apply text_lines_rope in H, H'. congruence. Qed.
Lemma selected_lines s ls a m b i j k k' : text_lines s ls -> s = a ++ m ++ b -> line_col a (m ++ b) (S i) k -> line_col (a ++ m) b (S j) k' ->
  byte_to_line ls (blen a) = i /\ byte_to_line ls (blen a + blen m) = j /\ i <= j /\ j < List.length ls.
Proof.
  intros H E L1 L2. apply text_lines_rope in H. subst ls. subst s. pose proof (line_col_byte _ _ _ _ L1) as B1. pose proof (line_col_byte _ _ _ _ L2) as B2. rewrite <- app_assoc, blen_app in B2. cbn in B1, B2. rewrite Nat.sub_0_r in *.
  rewrite B1, B2. split; [reflexivity|]. split; [reflexivity|]. rewrite <- B1 at 1. rewrite <- B2. split; [apply byte_to_line_mono; lia|apply byte_to_line_bound, rope_lines_nonempty].
Qed.
Theorem indent_exact : forall sz d ls a m b i j k k' n, handled sz d -> text_lines (text d) ls -> text d = a ++ m ++ b ->
  line_col a (m ++ b) (S i) k -> line_col (a ++ m) b (S j) k' ->
  exists d', sel_indent sz d (mkRange (blen a) (blen a + blen m)) n = OOk d' tt /\ text d' = concat (at_lines (app (repeat 32%N n)) i j ls) /\ handled sz d'.
Proof.
  intros sz d ls a m b i j k k' n H TL E L1 L2. destruct (selected_lines _ _ _ _ _ _ _ _ _ TL E L1 L2) as (B1 & B2 & Hi & Hj). pose proof (text_lines_concat _ _ TL) as C. unfold sel_indent. cbn [r_start r_end].
  assert (L : blen (text d) = blen a + blen m + blen b) by (rewrite E, !blen_app; lia). destruct (Nat.ltb_spec (blen (text d)) (blen a)); [lia|]. destruct (Nat.ltb_spec (blen (text d)) (blen a + blen m)); [lia|]. cbn [orb]. rewrite (text_lines_rope _ _ TL), B1, B2. now apply indent_pass.
Qed.
Theorem unindent_exact : forall sz d ls a m b i j k k' n, handled sz d -> text_lines (text d) ls -> text d = a ++ m ++ b ->
  line_col a (m ++ b) (S i) k -> line_col (a ++ m) b (S j) k' ->
  exists d' f, (forall l, dropped n l (f l)) /\ sel_unindent sz d (mkRange (blen a) (blen a + blen m)) n = OOk d' tt /\ text d' = concat (at_lines f i j ls) /\ handled sz d'.
Proof.
  intros sz d ls a m b i j k k' n H TL E L1 L2. destruct (selected_lines _ _ _ _ _ _ _ _ _ TL E L1 L2) as (B1 & B2 & Hi & Hj). pose proof (text_lines_concat _ _ TL) as C. unfold sel_unindent. cbn [r_start r_end].
  assert (L : blen (text d) = blen a + blen m + blen b) by (rewrite E, !blen_app; lia). destruct (Nat.ltb_spec (blen (text d)) (blen a)); [lia|]. destruct (Nat.ltb_spec (blen (text d)) (blen a + blen m)); [lia|]. cbn [orb]. rewrite (text_lines_rope _ _ TL), B1, B2.
  destruct (unindent_pass sz d ls i j n H (eq_sym C) Hi Hj) as (d' & E' & T' & H'). exists d', (unindented n). split; [apply unindented_dropped|]. auto.
Qed.
(* Unindenting the same lines gives the text back. *)
Theorem indent_unindent : forall sz d d1 ls a m b i j k k' n a' m' b' q q', handled sz d -> text_lines (text d) ls -> text d = a ++ m ++ b ->
  line_col a (m ++ b) (S i) k -> line_col (a ++ m) b (S j) k' -> sel_indent sz d (mkRange (blen a) (blen a + blen m)) n = OOk d1 tt ->
  text d1 = a' ++ m' ++ b' -> line_col a' (m' ++ b') (S i) q -> line_col (a' ++ m') b' (S j) q' ->
  exists d2, sel_unindent sz d1 (mkRange (blen a') (blen a' + blen m')) n = OOk d2 tt /\ text d2 = text d.
Proof.
  intros sz d d1 ls a m b i j k k' n a' m' b' q q' H TL E L1 L2 I E' L1' L2'. destruct (indent_exact sz d ls a m b i j k k' n H TL E L1 L2) as (x & I' & T1 & H1). rewrite I in I'. injection I' as <-.
  destruct (indented_lines n (text d) ls TL i j) as [TL1 _]. rewrite <- T1 in TL1. destruct (unindent_exact sz d1 _ a' m' b' i j q q' n H1 TL1 E' L1' L2') as (d2 & f & F & U & T2 & _). exists d2. split; [exact U|].
  rewrite T2, at_lines_comp, at_lines_id; [now apply text_lines_concat|]. intros l. exact (dropped_unique _ _ _ (F _) _ (dropped_spaces n l)).
Qed.
(* The other way round spaces come where none were. *)
Theorem unindent_indent_refuted : ~ forall sz d d1 d2 r n, sel_unindent sz d r n = OOk d1 tt -> sel_indent sz d1 r n = OOk d2 tt -> text d2 = text d.
Proof.
  intros H. eassert (K : _); [eapply (H 0 (fresh 5 0 (lit "a")) (fresh 5 0 (lit "a")) _ (mkRange 0 0) 2); vm_compute; reflexivity|]. vm_compute in K. discriminate K.
Qed.
(* A selection that ends at the start of a line counts that line. *)
Example indent_case : let d := fresh 5 0 [97; 10; 98; 10; 99]%N in
  (exists d1, sel_indent 0 d (mkRange 0 2) 2 = OOk d1 tt /\ text d1 = [32; 32; 97; 10; 32; 32; 98; 10; 99]%N) /\
  text_lines (text d) [[97; 10]; [98; 10]; [99]]%N /\ line_col [97; 10]%N [98; 10; 99]%N 2 1.
Proof.
  cbv zeta. split; [eexists; split; [vm_compute; reflexivity|reflexivity]|]. assert (F : forall c, (32 < c < 128)%N -> ~ break_char c) by (unfold break_char; lia). split.
  - apply (tl_line [97; 10]%N [98; 10; 99]%N); [apply (el_one [97%N]); [repeat constructor; apply F; lia|unfold break_char; lia|discriminate]|]. apply (tl_line [98; 10]%N [99%N]); [apply (el_one [98%N]); [repeat constructor; apply F; lia|unfold break_char; lia|discriminate]|].
    constructor. repeat constructor; apply F; lia.
  - apply (lc_break [97%N] 10%N [] [98; 10; 99]%N 1 1); [repeat constructor; apply F; lia|unfold break_char; lia|discriminate|]. apply (lc_first []). constructor.
Qed.
Print Assumptions indent_exact.
Print Assumptions unindent_exact.
Print Assumptions indent_unindent.
