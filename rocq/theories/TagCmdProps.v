(* C84-C87: the tag commands. *)
From Verif Require Import Base BaseLemmas DocModel DocSpec DocProofs ParseModel TagModel TagSpec TagProofs TagCmdModel TagCmdSpec TagCmdProofs.

(* Every text is plain characters, blocks of pieces and possibly an open
   block, in exactly one way. *)
Theorem text_has_parts s : exists l t, s = whole l t /\ Forall part_ok l /\ tail_ok t /\
  forall l' t', s = whole l' t' -> Forall part_ok l' -> tail_ok t' -> l' = l /\ t' = t.
Proof.
  destruct (text_parts (List.length s) s (le_n _)) as (l & t & E & F & T). exists l, t. split; [exact E|]. split; [exact F|]. split; [exact T|].
  intros l' t' E' F' T'. rewrite E in E'. destruct (parts_unique _ _ _ _ F T F' T' E') as [-> ->]. auto.
Qed.

(* ---- C84: inserting and wrapping ---- *)
(* A tag is inserted, in braces unless told otherwise, at the place named;
   nothing else changes, and the reported range is the inserted text. *)
Theorem insert_tag_exact c d a b t : text d = a ++ b -> it_position c = blen a -> trim (it_tag c) = 92%N :: t ->
  let w := if it_auto_wrap c then 123%N :: (92%N :: t) ++ [125%N] else 92%N :: t in
  exec_insert_tag c d = OOk (set_text d (a ++ w ++ b)) (success_with_change (mkRange (blen a) (blen a + blen w)) (blen a + blen w)).
Proof.
  intros T P E w. unfold exec_insert_tag, format_tag. rewrite E. change (starts_with [bslash] (92%N :: t)) with true. change (starts_with [open_brace] (92%N :: t)) with false.
  cbn [negb andb]. cbn iota. assert (F : (if it_auto_wrap c then Some (open_brace :: (92%N :: t) ++ [close_brace]) else Some (92%N :: t)) = Some w) by (unfold w; now destruct (it_auto_wrap c)).
  rewrite F, P, (insert_raw_app d a b w T). cbn [out_bind]. rewrite range_new_le by lia. reflexivity.
Qed.
(* Anything that does not start with a backslash, or a place past the end, is
   refused without a change. *)
Theorem insert_tag_refused c d : (forall t, trim (it_tag c) <> 92%N :: t) \/ blen (text d) < it_position c -> exec_insert_tag c d = OErr d.
Proof.
  intros H. unfold exec_insert_tag. destruct (format_tag c) as [t|] eqn:F; [|reflexivity]. destruct H as [H|H].
  - exfalso. unfold format_tag in F. destruct (trim (it_tag c)) as [|x r]; [discriminate F|]. destruct (N.eq_dec x 92) as [->|N]; [exact (H r eq_refl)|].
    assert (Z : starts_with [bslash] (x :: r) = false). { apply Bool.not_true_iff_false. rewrite starts_with_spec. intros (r' & E). injection E as E _. now apply N. }
    rewrite Z in F. discriminate F.
  - unfold insert_raw. replace (blen (text d) <? it_position c) with true by (symmetry; now apply Nat.ltb_lt). reflexivity.
Qed.
(* So a tag already in braces, which the documentation accepts, never is. *)
Theorem insert_braced_refuted d p t w : exec_insert_tag (InsertTag p (123%N :: t ++ [125%N]) w) d = OErr d.
Proof.
  apply insert_tag_refused. left. cbn [it_tag]. intros r E. unfold trim, trim_start in E. cbn [drop_while] in E. change (is_ws 123) with false in E. cbn iota in E.
  unfold trim_end in E. rewrite drop_end_id in E; [discriminate E|]. right. exists (123%N :: t), 125%N. split; reflexivity.
Qed.
(* Wrapping puts the opening tag before and the closing tag after the range
   and changes nothing else; the reported range is the wrapped text. *)
Theorem wrap_tag_exact c d a m b : text d = a ++ m ++ b -> r_start (wt_range c) = blen a -> r_end (wt_range c) = blen a + blen m ->
  exists close w, w = (123%N :: wt_opening c ++ [125%N]) ++ m ++ 123%N :: close ++ [125%N] /\
    (forall x, wt_closing c = Some x -> close = x) /\
    exec_wrap_tag c d = OOk (set_text d (a ++ w ++ b)) (success_with_change (mkRange (blen a) (blen a + blen w)) (blen a + blen w)).
Proof.
  intros T S E. exists (get_closing_tag c), ((123%N :: wt_opening c ++ [125%N]) ++ m ++ 123%N :: get_closing_tag c ++ [125%N]). split; [reflexivity|]. split.
  - intros x H. unfold get_closing_tag. now rewrite H.
  - exact (wrap_ok c d a m b T S E).
Qed.
(* Switches are switched off again. *)
Theorem wrap_switches n v r : In n ["b"; "i"; "u"; "s"]%string -> 
  get_closing_tag (WrapTag r (92%N :: lit n ++ v) None) = 92%N :: lit n ++ lit "0".
Proof.
  intros H. cbn [In] in H. unfold get_closing_tag. cbn [wt_closing wt_opening drop_while]. change (is_bs 92) with true. cbn iota.
  repeat (destruct H as [<-|H]; [cbn [lit app drop_while]; rewrite !prefixed_starts; reflexivity|]). destruct H.
Qed.
(* But only the first letter is looked at, so other tags are not. *)
Theorem wrap_other_refuted r :
  get_closing_tag (WrapTag r (lit "\blur5") None) = lit "\b0" /\ get_closing_tag (WrapTag r (lit "\shad3") None) = lit "\s0" /\
  get_closing_tag (WrapTag r (lit "\iclip(0,0,5,5)") None) = lit "\i0" /\ get_closing_tag (WrapTag r (lit "\2c&HFF&") None) = lit "\r".
Proof. repeat split. Qed.
Example insert_wrap_instance :
  let d := fresh 5 0 (lit "Hello world") in
  (exists d1 c1, exec_insert_tag (InsertTag 6 (lit " \i1") true) d = OOk d1 c1 /\ text d1 = lit "Hello {\i1}world") /\
  (exists d1 c1, exec_wrap_tag (WrapTag (mkRange 6 11) (lit "\b1") None) d = OOk d1 c1 /\ text d1 = lit "Hello {\b1}world{\b0}" /\ n_cursor c1 = Some 21).
Proof. cbn zeta. split; (eexists; eexists; split; [vm_compute; reflexivity|]; vm_compute; auto). Qed.

(* ---- C85: removing ---- *)
(* The text in the range becomes exactly: its plain characters, and each block
   with the tags kept; it panics exactly on the blocks named. *)
Theorem remove_tag_exact c d a m b l t : text d = a ++ m ++ b -> r_start (rt_range c) = blen a -> r_end (rt_range c) = blen a + blen m ->
  m = whole l t -> Forall part_ok l -> tail_ok t ->
  let m' := removed (rt_pattern c) (rt_clean c) l t in
  (Exists (remove_panics (rt_pattern c)) (blocks l t) /\ exec_remove_tag c d = OPanic) \/
  (Forall (fun ps => ~ remove_panics (rt_pattern c) ps) (blocks l t) /\
   exec_remove_tag c d = OOk (set_text d (a ++ m' ++ b)) (success_with_change (mkRange (blen a) (blen a + blen m')) (blen a + blen m'))).
Proof.
  intros T S E M F K m'. unfold exec_remove_tag. rewrite (rewrite_range_ok _ _ d a m b T S E). unfold remove_tags_from_text. subst m.
  destruct (remove_exact c t K l F (List.length (whole l t)) (le_n _)) as [[X R]|[X R]]; rewrite R; [left|right]; auto.
Qed.
(* Removing all tags: never panics, leaves exactly the plain characters, no
   opening brace remains, and doing it again changes nothing. *)
Theorem remove_all_exact r l t : Forall part_ok l -> tail_ok t ->
  remove_tags_from_text (RemoveTag r None true) (whole l t) = Done (visible_chars l) /\
  ~ In 123%N (visible_chars l) /\
  forall r', remove_tags_from_text (RemoveTag r' None true) (visible_chars l) = Done (visible_chars l).
Proof.
  intros F T. split; [|split].
  - unfold remove_tags_from_text. destruct (remove_exact (RemoveTag r None true) t T l F (List.length (whole l t)) (le_n _)) as [[X _]|[_ R]].
    + exfalso. apply Exists_exists in X as (ps & _ & []).
    + rewrite R. cbn [rt_pattern rt_clean]. now rewrite removed_all.
  - intros I. pose proof (visible_plain l F) as V. rewrite Forall_forall in V. exact (V _ I eq_refl).
  - intros r'. pose proof (visible_plain l F) as V. generalize dependent (visible_chars l). intros s V. unfold remove_tags_from_text.
    assert (W : s = whole (map Plain s) None). { unfold whole. cbn. rewrite app_nil_r. clear. induction s as [|c s IH]; [reflexivity|]. cbn. now rewrite <- IH. }
    assert (P : Forall part_ok (map Plain s)) by (clear W; induction V; constructor; auto).
    destruct (remove_exact (RemoveTag r' None true) None I (map Plain s) P (List.length s)) as [[X _]|[_ R]]; [now rewrite <- W| |].
    + exfalso. apply Exists_exists in X as (ps & _ & []).
    + rewrite <- W in R. rewrite R. cbn [rt_pattern rt_clean]. rewrite removed_all. f_equal. clear. induction s as [|c s IH]; [reflexivity|]. cbn. now f_equal.
Qed.
(* A pattern that no tag matches changes nothing, when the blocks are closed
   and consist of at least one tag and nothing else. *)
Theorem remove_nothing r p clean l : Forall part_ok l -> (exists c q, p = c :: q /\ (c < 128)%N) ->
  Forall (fun ps => only_tags ps /\ ps <> []) (blocks l None) ->
  (forall ps n a, In ps (blocks l None) -> In (n, a) (tags_in ps) -> prefixed (skipn 1 p) n = false) ->
  remove_tags_from_text (RemoveTag r (Some p) clean) (whole l None) = Done (whole l None).
Proof.
  intros F (c0 & q0 & -> & LT) O N. unfold remove_tags_from_text.
  destruct (remove_exact (RemoveTag r (Some (c0 :: q0)) clean) None I l F _ (le_n _)) as [[X _]|[_ R]].
  - exfalso. apply Exists_exists in X as (ps & Q & [X|[X _]]); [|cbn in X; lia]. rewrite Forall_forall in O. destruct (O _ Q) as [OT _].
    apply Exists_exists in X as (pc & I & X). unfold only_tags in OT. rewrite Forall_forall in OT. destruct (OT _ I) as (n & a & ->). exact X.
  - rewrite R. f_equal. cbn [rt_pattern rt_clean]. unfold removed, whole. cbn [tail_text]. rewrite !app_nil_r. unfold blocks in O, N. rewrite app_nil_r in O, N. clear -O N.
    induction l as [|[ch|ps] l IH]; [reflexivity| |].
    + cbn [flat_map]. rewrite IH; [reflexivity|exact O|exact N].
    + cbn [flat_map app] in *. inversion O as [|? ? [OT NE] O1]; subst. rewrite IH; [|exact O1|intros ps0 n a I; apply N; now right]. f_equal.
      assert (K : kept (Some (c0 :: q0)) ps = pieces_text ps).
      { cbn [kept]. rewrite <- (only_tags_text ps OT). f_equal. assert (A : forall t, In t (tags_in ps) -> negb (prefixed (skipn 1 (c0 :: q0)) (fst t)) = true).
        { intros [n a] I. cbn [fst]. rewrite (N ps n a); [reflexivity|now left|exact I]. }
        clear -A. induction (tags_in ps) as [|t ts IH]; [reflexivity|]. cbn [filter]. rewrite (A t (or_introl eq_refl)). f_equal. apply IH. intros x I. apply A. now right. }
      rewrite K. destruct ps as [|p ps]; [now destruct NE|]. cbn [part_text]. destruct (pieces_text (p :: ps)) eqn:Z; [|reflexivity].
      exfalso. inversion OT as [|? ? (n & a & ->) _]; subst. discriminate Z.
Qed.
(* As promised ("specific tags") it is false: the pattern \b also removes
   \bord and \blur, comments and backslashes in a block go, an empty or
   non-ASCII pattern panics, and an open block is closed. *)
Definition rm (p : string) (s : str) : run str := remove_tags_from_text (RemoveTag (mkRange 0 0) (Some (lit p)) true) s.
Theorem remove_prefix_refuted : rm "\b" (lit "{\bord2\i1}x") = Done (lit "{\i1}x").
Proof. vm_compute. reflexivity. Qed.
Theorem remove_comment_refuted : rm "\b" (lit "{note\i1}x{note}y") = Done (lit "{\i1}xy").
Proof. vm_compute. reflexivity. Qed.
Theorem remove_pattern_panics_refuted : rm "" (lit "{\i1}") = Crash /\ remove_tags_from_text (RemoveTag (mkRange 0 0) (Some [233; 98]%N) true) (lit "{\i1}") = Crash.
Proof. vm_compute. auto. Qed.
Theorem remove_open_refuted : rm "\b" (lit "a{\i1 text") = Done (lit "a{\i1 text}") /\
  remove_tags_from_text (RemoveTag (mkRange 0 0) None true) (lit "a{ text") = Done (lit "a").
Proof. vm_compute. auto. Qed.
Theorem remove_nested_refuted : rm "\b" (lit "{\b1{\i1}}x") = Done (lit "{\i1}}x").
Proof. vm_compute. reflexivity. Qed.
Definition ex_block : list piece := [PTag (lit "b") (lit "1"); PTag (lit "pos") (lit "(1,2)")].
Definition ex_parts : list part := [Plain 72; Blk ex_block; Plain 105]%N.
Lemma ex_block_ok : pieces_ok ex_block.
Proof.
  assert (L : forall c, is_alpha c = true -> letter c) by (intros c; apply letter_iff).
  split; [split|split; [split|exact I]].
  - apply plain_name; [apply L; reflexivity|constructor|discriminate|discriminate|]. intros (c & r & E & Q). apply letter_iff in Q. injection E as <- _. discriminate Q.
  - apply plain_args; [discriminate|cbn; intuition discriminate|]. right. eexists. reflexivity.
  - apply plain_name; [apply L; reflexivity|repeat (constructor; [apply L; reflexivity|]); constructor|discriminate|discriminate|]. intros (c & r & E & Q). apply letter_iff in Q. injection E as <- _. discriminate Q.
  - apply plain_args; [discriminate|cbn; intuition discriminate|now left].
Qed.
Lemma ex_parts_ok : Forall part_ok ex_parts.
Proof.
  constructor; [discriminate|]. constructor; [|constructor; [discriminate|constructor]]. split; [exact ex_block_ok|]. apply no_braces; cbn; intuition discriminate.
Qed.
Example remove_instance :
  Forall part_ok ex_parts /\ whole ex_parts None = lit "H{\b1\pos(1,2)}i" /\ Forall (fun ps => only_tags ps /\ ps <> []) (blocks ex_parts None) /\
  rm "\i" (whole ex_parts None) = Done (whole ex_parts None) /\ rm "\b" (whole ex_parts None) = Done (lit "H{\pos(1,2)}i").
Proof.
  split; [exact ex_parts_ok|]. split; [vm_compute; reflexivity|]. split; [|split; vm_compute; reflexivity].
  constructor; [|constructor]. split; [|discriminate]. repeat (constructor; [eexists; eexists; reflexivity|]). constructor.
Qed.

(* ---- C86: replacing ---- *)
(* The plain characters stay, every closed block becomes its tags with the
   replacement made, and nothing after the first replacement is touched unless
   all are asked for.  An open block is cut down to its brace. *)
Theorem replace_tag_exact c d a m b l t : text d = a ++ m ++ b -> r_start (pt_range c) = blen a -> r_end (pt_range c) = blen a + blen m ->
  m = whole l t -> Forall part_ok l -> tail_ok t -> Forall (fun ps => ~ Exists splits_char ps) (blocks l None) ->
  let m' := replaced (pt_find c) (pt_with c) (pt_all c) 0 l ++ match t with None => [] | Some _ => [123%N] end in
  exec_replace_tag c d = OOk (set_text d (a ++ m' ++ b)) (success_with_change (mkRange (blen a) (blen a + blen m')) (blen a + blen m')).
Proof.
  intros T S E M F K N m'. unfold exec_replace_tag. rewrite (rewrite_range_ok _ _ d a m b T S E). unfold replace_tags_in_text. subst m.
  destruct (replace_exact c t K l F (List.length (whole l t)) 0 (le_n _)) as [[X R]|[X R]]; rewrite R; [exfalso|reflexivity].
  unfold blocks in N. rewrite app_nil_r in N. clear -X N. revert X. generalize 0. induction l as [|[ch|ps] l IH]; intros made X; cbn [read_blocks flat_map app] in *.
  - inversion X.
  - exact (IH N made X).
  - inversion N as [|? ? N1 N2]; subst. destruct (negb (pt_all c) && (0 <? made)); [exact (IH N2 _ X)|]. inversion X; subst; [contradiction|]. eapply IH; eassumption.
Qed.
(* When no tag begins with the text sought, and the blocks are closed and hold
   tags only, nothing changes. *)
Theorem replace_nothing r find new all l : Forall part_ok l -> Forall only_tags (blocks l None) ->
  (forall ps t, In ps (blocks l None) -> In t (tags_in ps) -> prefixed find (written t) = false) ->
  replace_tags_in_text (ReplaceTag r find new all) (whole l None) = Done (whole l None).
Proof.
  intros F O N. unfold replace_tags_in_text. unfold blocks in O, N. rewrite app_nil_r in O, N.
  destruct (replace_exact (ReplaceTag r find new all) None I l F _ 0 (le_n _)) as [[X _]|[_ R]].
  - exfalso. cbn [pt_find pt_with pt_all] in X. clear -X O. revert X. generalize 0. induction l as [|[ch|ps] l IH]; intros made X; cbn [read_blocks flat_map app] in *.
    + inversion X.
    + exact (IH O made X).
    + inversion O as [|? ? O1 O2]; subst. destruct (negb all && (0 <? made)); [exact (IH O2 _ X)|]. inversion X as [? ? X1|? ? X1]; subst; [|eapply IH; eassumption].
      apply Exists_exists in X1 as (pc & I & X1). unfold only_tags in O1. rewrite Forall_forall in O1. destruct (O1 _ I) as (n & a & ->). exact X1.
  - rewrite R. f_equal. cbn [pt_find pt_with pt_all]. rewrite app_nil_r. unfold whole. cbn [tail_text]. rewrite app_nil_r. clear -O N.
    assert (Q : forall made, replaced find new all made l = flat_map part_text l); [|apply Q].
    induction l as [|[ch|ps] l IH]; intros made; cbn [replaced flat_map app part_text] in *; [reflexivity|f_equal; now apply IH|].
    inversion O as [|? ? O1 O2]; subst. rewrite replaced_tags_none by (intros t I; apply (N ps); [now left|exact I]). rewrite (only_tags_text ps O1).
    rewrite !IH by (exact O2 || (intros ps0 t I; apply N; now right)). rewrite <- app_assoc. now destruct (negb all && (0 <? made)).
Qed.
(* Every tag with the beginning sought gets the new one. *)
Theorem replace_every ps find new n : Forall (fun t => exists r, written t = find ++ r) (tags_in ps) ->
  fst (replaced_tags find new true n (tags_in ps)) = flat_map (fun t => new ++ skipn (List.length find) (written t)) (tags_in ps).
Proof.
  intros F. revert n. induction F as [|t l (r & E) F IH]; intros n; [reflexivity|]. cbn [replaced_tags flat_map]. rewrite (proj2 (prefixed_iff find (written t))) by eauto.
  cbn [andb orb]. specialize (IH (S n)). destruct (replaced_tags find new true (S n) l). cbn [fst] in *. now rewrite IH, <- app_assoc.
Qed.
(* Otherwise text is lost: comments and backslashes in a block even when
   nothing is replaced, and all that follows an open brace. *)
Definition rp (f w : string) (s : str) : run str := replace_tags_in_text (ReplaceTag (mkRange 0 0) (lit f) (lit w) true) s.
Theorem replace_comment_refuted : rp "\b" "\i" (lit "{note\u1}x{note}y") = Done (lit "{\u1}x{}y").
Proof. vm_compute. reflexivity. Qed.
Theorem replace_open_refuted f w x all : unclosed x -> 
  replace_tags_in_text (ReplaceTag (mkRange 0 0) f w all) (123%N :: x) = Done [123%N].
Proof.
  intros U. destruct (block_pieces x) as (ps & -> & K).
  destruct (replace_exact (ReplaceTag (mkRange 0 0) f w all) (Some ps) (conj K U) [] (Forall_nil _) _ 0 (le_n _)) as [[X _]|[_ R]]; [inversion X|exact R].
Qed.
Theorem replace_prefix_refuted : rp "\b" "\i" (lit "{\bord2}x") = Done (lit "{\iord2}x").
Proof. vm_compute. reflexivity. Qed.
Example replace_instance : rp "\b1" "\b0" (whole ex_parts None) = Done (lit "H{\b0\pos(1,2)}i") /\ rp "\c" "\i" (whole ex_parts None) = Done (whole ex_parts None) /\
  replace_tags_in_text (ReplaceTag (mkRange 0 0) (lit "\b") (lit "\i") false) (lit "{\b1\b2}a{\b3}") = Done (lit "{\i1\b2}a{\b3}") /\ unclosed (lit "\b1 Hello").
Proof. split; [vm_compute; reflexivity|]. split; [vm_compute; reflexivity|]. split; [vm_compute; reflexivity|]. apply no_braces; cbn; intuition discriminate. Qed.

(* ---- C87: listing ---- *)
(* Every tag of every block, the open one included, is listed once and in
   order, with its parameters; it panics exactly when a block does. *)
Theorem list_tags_exact ip start l t : Forall part_ok l -> tail_ok t ->
  (Exists (Exists splits_char) (blocks l t) /\ parse_tags_from_text ip start (whole l t) = Crash) \/
  (Forall (fun ps => ~ Exists splits_char ps) (blocks l t) /\ exists out, parse_tags_from_text ip start (whole l t) = Done out /\
    Forall2 (fun x p =>
      (exists inner, parenthesised (snd x) inner /\ pr_tag p = 92%N :: fst x /\ pr_parameters p = match inner with [] => [] | _ => map trim (split_on (N.eqb 44) inner) end) \/
      ((forall inner, ~ parenthesised (snd x) inner) /\ pr_tag p = written x /\ pr_parameters p = [])) (map snd (listed start l t)) out).
Proof.
  intros F T. unfold parse_tags_from_text. destruct (parse_exact ip start t T l F _ 0 (le_n _)) as [H|[N (out & E & S)]]; [now left|right].
  split; [exact N|]. exists out. split; [exact E|]. rewrite Nat.add_0_r in S.
  pose proof (positions_behind t l start start (le_n _)) as B. clear -S B. revert out S. induction B as [|x y lx ly [E _] B IH]; intros out S; inversion S as [|? p ? out' Q S']; subst; [constructor|].
  cbn [map]. constructor; [|now apply IH]. rewrite E. exact (proj2 Q).
Qed.
(* The positions given are never those of the tags: each is smaller. *)
Theorem list_positions_refuted start l t out : Forall part_ok l -> tail_ok t -> parse_tags_from_text true start (whole l t) = Done out ->
  Forall2 (fun x p => exists n, pr_position p = Some n /\ n < fst x) (listed start l t) out.
Proof.
  intros F T E. unfold parse_tags_from_text in E. destruct (parse_exact true start t T l F _ 0 (le_n _)) as [[_ H]|[N (o & E' & S)]]; [rewrite H in E; discriminate E|].
  rewrite E' in E. injection E as ->. rewrite Nat.add_0_r in S. pose proof (positions_behind t l start start (le_n _)) as B. clear -S B.
  revert out S. induction B as [|x y lx ly [_ L] B IH]; intros out S; inversion S as [|? p ? out' Q S']; subst; constructor; [|now apply IH]. exists (fst y). split; [exact (proj1 Q)|exact L].
Qed.
(* `listed` really is where the tags are. *)
Theorem listed_positions l t o x : In x (listed o l t) -> exists u v, whole l t = u ++ written (snd x) ++ v /\ fst x = o + blen u.
Proof.
  assert (B : forall ps o x, In x (tags_at o ps) -> exists u v, pieces_text ps = u ++ written (snd x) ++ v /\ fst x = o + blen u).
  { clear. intros ps. induction ps as [|p ps IH]; intros o x H; [destruct H|]. cbn [tags_at] in H. apply in_app_iff in H as [H|H].
    - destruct p; cbn [piece_tag map In] in H; try contradiction. destruct H as [<-|[]]. exists [], (pieces_text ps). cbn [fst snd written app pieces_text flat_map piece_text]. split; [reflexivity|cbn; lia].
    - destruct (IH _ _ H) as (u & v & E & P). exists (piece_text p ++ u), v. cbn [pieces_text flat_map]. fold (pieces_text ps). rewrite E, <- app_assoc, blen_app. split; [reflexivity|lia]. }
  revert o. induction l as [|[c|ps] l IH]; intros o H; cbn [listed] in H.
  - destruct t as [ps|]; [|destruct H]. destruct (B _ _ _ H) as (u & v & E & P). exists (123%N :: u), v. cbn [whole flat_map tail_text app]. rewrite E. split; [reflexivity|]. cbn [blen]. change (len_utf8 123) with 1. lia.
  - destruct (IH _ H) as (u & v & E & P). exists (c :: u), v. rewrite whole_cons, E. split; [reflexivity|]. cbn [blen]. lia.
  - rewrite whole_cons. apply in_app_iff in H as [H|H].
    + destruct (B _ _ _ H) as (u & v & E & P). exists (123%N :: u), (v ++ 125%N :: whole l t). rewrite blk_text, E. cbn [app]. rewrite <- !app_assoc. split; [reflexivity|]. cbn [blen]. change (len_utf8 123) with 1. lia.
    + destruct (IH _ H) as (u & v & E & P). exists (part_text (Blk ps) ++ u), v. rewrite E, <- app_assoc, blen_app. split; [reflexivity|lia].
Qed.
Example list_instance : parse_tags_from_text true 10 (whole ex_parts None) = Done [ParsedTag (lit "\b1") (Some 11) []; ParsedTag (lit "\pos") (Some 14) [lit "1"; lit "2"]] /\
  listed 10 ex_parts None = [(12, (lit "b", lit "1")); (15, (lit "pos", lit "(1,2)"))].
Proof. split; vm_compute; reflexivity. Qed.

(* ---- undo ---- *)
(* No tag command is recorded, so undo takes back whatever was done before it. *)
Theorem tag_commands_unrecorded_refuted d :
  (forall c, match exec_insert_tag c d with OOk d1 _ | OErr d1 => history d1 = history d | OPanic => True end) /\
  (forall c, match exec_remove_tag c d with OOk d1 _ | OErr d1 => history d1 = history d | OPanic => True end) /\
  (forall c, match exec_replace_tag c d with OOk d1 _ | OErr d1 => history d1 = history d | OPanic => True end) /\
  (forall c, match exec_wrap_tag c d with OOk d1 _ | OErr d1 => history d1 = history d | OPanic => True end).
Proof.
  assert (R : forall f r, match rewrite_range f r d with OOk d1 _ | OErr d1 => history d1 = history d | OPanic => True end).
  { intros f r. unfold rewrite_range. destruct (text_range d r) as [t| |]; [|reflexivity|exact I]. destruct (f t) as [t'| |]; [|exact I|exact I].
    pose proof (replace_raw_hist d r t') as H. destruct (replace_raw d r t'); cbn [out_bind]; exact H. }
  split; [|split; [|split]]; intros c; [|apply R|apply R|].
  - unfold exec_insert_tag. destruct (format_tag c) as [t|]; [|reflexivity]. pose proof (insert_raw_hist d (it_position c) t) as H. destruct (insert_raw d _ t); cbn [out_bind]; [exact H|exact H|exact I].
  - unfold exec_wrap_tag. cbn zeta. match goal with |- context [insert_raw d ?p ?t] => pose proof (insert_raw_hist d p t) as H; destruct (insert_raw d p t) as [d1 ?|d1|]; cbn [out_bind]; [|exact H|exact I] end.
    match goal with |- context [insert_raw d1 ?p ?t] => pose proof (insert_raw_hist d1 p t) as H1; destruct (insert_raw d1 p t) as [d2 ?|d2|]; cbn [out_bind]; [|congruence|exact I] end.
    destruct (usub _ _); [congruence|exact I].
Qed.

Print Assumptions text_has_parts.
Print Assumptions insert_tag_exact.
Print Assumptions insert_tag_refused.
Print Assumptions insert_braced_refuted.
Print Assumptions wrap_tag_exact.
Print Assumptions wrap_switches.
Print Assumptions wrap_other_refuted.
Print Assumptions remove_tag_exact.
Print Assumptions remove_all_exact.
Print Assumptions remove_nothing.
Print Assumptions replace_tag_exact.
Print Assumptions replace_nothing.
Print Assumptions replace_every.
Print Assumptions replace_open_refuted.
Print Assumptions list_tags_exact.
Print Assumptions list_positions_refuted.
Print Assumptions listed_positions.
Print Assumptions tag_commands_unrecorded_refuted.
