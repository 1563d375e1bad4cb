(* C30-C37, C54: editing, undo and redo, positions, ranges, batches. *)
From Verif Require Import Base BaseLemmas DocModel DocSpec DocProofs.

(* ---- C30: edits are splices ---- *)
(* From any document reached from a fresh one, an insert, delete or replace
   whose offsets are on character boundaries succeeds and splices the text. *)
Theorem edit_is_splice : forall sz me mm t0 l d a p q t s',
  do_all sz (fresh me mm t0) l = Some d ->
  spliced (text d) p q t s' ->
  (a = AInsert p t /\ p = q) \/ (a = ADelete (mkRange p q) /\ t = []) \/ a = AReplace (mkRange p q) t ->
  exists d', do_act sz d a = OOk d' tt /\ text d' = s'.
Proof.
  intros sz me mm t0 l d a p q t s' H. apply edit_effect. eapply do_all_inv; [apply fresh_inv|exact H].
Qed.
Print Assumptions edit_is_splice.
(* Offsets beyond the end are refused and change nothing at all. *)
Theorem edit_out_of_bounds : forall sz d a,
  match a with AInsert p _ => blen (text d) < p | ADelete r | AReplace r _ => blen (text d) < r_end r | _ => False end ->
  do_act sz d a = OErr d.
Proof. exact out_of_bounds. Qed.
Print Assumptions edit_out_of_bounds.
(* No sequence of edits, undos and redos panics, as long as the ranges given
   are ordered (Range::new orders them). *)
Theorem editing_never_panics : forall sz me mm t0 l, Forall act_ordered l ->
  exists d, do_all sz (fresh me mm t0) l = Some d.
Proof. intros. apply all_no_panic; [apply fresh_inv|split; constructor|assumption]. Qed.
Print Assumptions editing_never_panics.
Example splice_case : spliced [104; 233; 33]%N 1 3 (lit "ab") (lit "hab!") /\
  (exists d', do_act 0 (fresh 5 0 [104; 233; 33]%N) (AReplace (mkRange 1 3) (lit "ab")) = OOk d' tt /\ text d' = lit "hab!").
Proof.
  split; [exists [104%N], [233%N], [33%N]; repeat split|]. eexists. split; vm_compute; reflexivity.
Qed.
(* Finding: a replace whose start is inside a character can fail after having
   deleted: the error is reported but the text is changed. *)
Theorem failed_replace_unchanged_refuted : exists d r t d',
  doc_replace 0 d r t = OErr d' /\ text d' <> text d.
Proof.
  exists (fresh 5 0 [104; 233]%N), (mkRange 2 3), (lit "x"). eexists. split; [vm_compute; reflexivity|]. vm_compute. discriminate.
Qed.
Print Assumptions failed_replace_unchanged_refuted.

(* ---- C31, C32: undo and redo ---- *)
(* Whenever a sequence of edits (replacements keeping the byte length), undos
   and redos succeeds, the text is that of the reference editor. *)
Theorem undo_redo_refines : forall sz me mm t0 acts st d,
  Forall same_length acts ->
  ed_run true (mkEd [] t0 []) acts st ->
  do_acts sz (fresh me mm t0) acts = Some d -> text d = present st.
Proof.
  intros sz me mm t0 acts st d Hs Hr Hd. pose proof (run_refines sz acts _ _ _ (fresh_refines me mm t0) Hs Hr d Hd) as H. apply H.
Qed.
Print Assumptions undo_redo_refines.
(* With room in the history it does succeed, and every past text can be reached by undo. *)
Theorem undo_redo_available : forall sz me t0 acts st,
  Forall same_length acts ->
  ed_run true (mkEd [] t0 []) acts st -> List.length acts <= me ->
  exists d, do_acts sz (fresh me 0 t0) acts = Some d /\ text d = present st /\ undo_count d = List.length (past st).
Proof.
  intros sz me t0 acts st Hs Hr Hl.
  destruct (run_total sz acts (fresh me 0 t0) _ st (fresh_refines me 0 t0) Hs Hr eq_refl eq_refl Hl) as (d & E & H & C).
  exists d. split; [exact E|]. split; [apply H|exact C].
Qed.
Print Assumptions undo_redo_available.
(* After any such history, one undo followed by one redo is the identity on the text. *)
Theorem undo_then_redo : forall sz me mm t0 acts st d d1 d2,
  Forall same_length acts ->
  ed_run true (mkEd [] t0 []) acts st ->
  do_acts sz (fresh me mm t0) acts = Some d ->
  doc_undo d = OOk d1 tt -> doc_redo sz d1 = OOk d2 tt -> text d2 = text d.
Proof.
  intros sz me mm t0 acts st d d1 d2 Hs Hr Hd Hu Hre.
  pose proof (run_refines sz acts _ _ _ (fresh_refines me mm t0) Hs Hr d Hd) as H.
  assert (A : do_acts sz d [AUndo; ARedo] = Some d2) by (cbn [do_acts do_act]; rewrite Hu, Hre; reflexivity).
  destruct H as (Hi & Ht & Hc & Hrc).
  assert (Hne : past st <> []).
  { intros E. unfold doc_undo in Hu. rewrite pop_undo_spec in Hu by exact Hi. destruct (undo_stack (history d)) as [|e u]; [discriminate|].
    rewrite E in Hc. exact Hc. }
  destruct (past st) as [|p ps] eqn:Ep; [congruence|].
  assert (R : ed_run true st [AUndo; ARedo] (mkEd (p :: ps) (present st) [])).
  { eapply er_cons; [cbn; rewrite Ep; reflexivity|]. eapply er_cons; [cbn; reflexivity|]. apply er_nil. }
  assert (Hst : refines d st) by (split; [exact Hi|]; split; [exact Ht|]; rewrite Ep; split; assumption).
  pose proof (run_refines sz [AUndo; ARedo] d st _ Hst ltac:(repeat constructor) R d2 A) as H2.
  destruct H2 as (_ & H2 & _). cbn in H2. congruence.
Qed.
Print Assumptions undo_then_redo.
Example undo_redo_case :
  let acts := [AInsert 0 (lit "ab"); ADelete (mkRange 1 2); AInsert 1 [233%N]; AReplace (mkRange 0 1) (lit "z"); AUndo; AUndo; ARedo] in
  exists st, ed_run true (mkEd [] (lit "!") []) acts st /\ present st = [97; 233; 33]%N /\ Forall same_length acts /\
    exists d, do_acts 0 (fresh 50 500 (lit "!")) acts = Some d /\ text d = [97; 233; 33]%N.
Proof.
  eexists. split; [|split; [|split]].
  - eapply er_cons; [eexists; split; [exists [], [], (lit "!"); repeat split; reflexivity|reflexivity]|].
    eapply er_cons; [eexists; split; [exists (lit "a"), (lit "b"), (lit "!"); repeat split; reflexivity|reflexivity]|].
    eapply er_cons; [eexists; split; [exists (lit "a"), [], (lit "!"); repeat split; reflexivity|reflexivity]|].
    eapply er_cons; [eexists; split; [exists [], (lit "a"), [233; 33]%N; repeat split; reflexivity|reflexivity]|].
    eapply er_cons; [reflexivity|]. eapply er_cons; [reflexivity|]. eapply er_cons; [reflexivity|]. apply er_nil.
  - reflexivity.
  - repeat constructor.
  - eexists. split; vm_compute; reflexivity.
Qed.
(* Finding: undoing a replacement of a different length does not restore the text. *)
Theorem undo_replace_refuted : exists d d1 d2 r t,
  d = fresh 50 0 (lit "abc") /\ doc_replace 0 d r t = OOk d1 tt /\ doc_undo d1 = OOk d2 tt /\ text d2 = lit "aYZbc".
Proof.
  exists (fresh 50 0 (lit "abc")). do 2 eexists. exists (mkRange 0 1), (lit "XYZ").
  split; [reflexivity|]. split; [vm_compute; reflexivity|]. split; vm_compute; reflexivity.
Qed.
Print Assumptions undo_replace_refuted.
(* More precisely: undoing a replacement of the bytes p..q puts the old text
   over p..q of the new text, which is right only for equal lengths. *)
Theorem undo_replace_exact : forall a m b t d, text d = a ++ t ++ b ->
  forall t1 t2, t = t1 ++ t2 -> blen t1 = blen m ->
  undo_op d (OpReplace (mkRange (blen a) (blen a + blen m)) m t) = OOk (set_text d (a ++ m ++ t2 ++ b)) tt.
Proof.
  intros a m b t d E t1 t2 -> Hl. cbn [undo_op]. apply (replace_raw_app d a t1 (t2 ++ b)); [rewrite E, <- app_assoc; reflexivity|reflexivity|cbn; lia].
Qed.
Print Assumptions undo_replace_exact.
(* Finding: undoing an insertion made inside a character removes the wrong characters. *)
Theorem undo_insert_mid_char_refuted : exists d d1 d2 p t,
  doc_insert 0 d p t = OOk d1 tt /\ doc_undo d1 = OOk d2 tt /\ text d2 <> text d.
Proof.
  exists (fresh 50 0 [233%N]). do 2 eexists. exists 1, (lit "ab").
  split; [vm_compute; reflexivity|]. split; [vm_compute; reflexivity|]. vm_compute. discriminate.
Qed.
Print Assumptions undo_insert_mid_char_refuted.
(* Finding: two undos cannot be followed by two redos, because the first redo
   empties the redo history. *)
Theorem redo_all_refuted : exists acts st, Forall same_length acts /\
  ed_run false (mkEd [] [] []) acts st /\ do_acts 0 (fresh 50 0 []) acts = None.
Proof.
  exists [AInsert 0 (lit "a"); AInsert 1 (lit "b"); AUndo; AUndo; ARedo; ARedo]. eexists. split; [repeat constructor|].
  split; [|vm_compute; reflexivity].
  eapply er_cons; [eexists; split; [exists [], [], []; repeat split; reflexivity|reflexivity]|].
  eapply er_cons; [eexists; split; [exists (lit "a"), [], []; repeat split; reflexivity|reflexivity]|].
  eapply er_cons; [reflexivity|]. eapply er_cons; [reflexivity|]. eapply er_cons; [reflexivity|]. eapply er_cons; [reflexivity|]. apply er_nil.
Qed.
Print Assumptions redo_all_refuted.
(* Finding: an insertion made by edit_incremental (small edits take the fast
   path) is reported undone but stays in the text. *)
Theorem undo_incremental_insert_refuted : forall a b t sz,
  is_simple_edit (mkRange (blen a) (blen a)) t = true ->
  exists d1 d2, edit_fast_path sz (fresh 50 0 (a ++ b)) (mkRange (blen a) (blen a)) t = OOk d1 tt /\
  doc_undo d1 = OOk d2 tt /\ text d2 = a ++ t ++ b.
Proof.
  intros a b t sz _. unfold edit_fast_path. cbn [r_start r_end fresh text].
  assert (B : is_boundary (a ++ b) (blen a) = true) by (apply is_boundary_spec; eauto). rewrite B. cbn [negb orb].
  unfold range_is_empty. cbn [r_start r_end]. rewrite Nat.eqb_refl.
  rewrite (replace_raw_app _ a [] b) by (cbn; auto; lia). cbn [out_bind].
  match goal with |- context [record_operation sz ?d ?o ?desc ?r] => destruct (record_top sz d o desc r) as (d1 & e & u & E & Hi & Ht & Hu & Ho) end;
    [apply (fresh_inv 50 0 (a ++ b))|reflexivity|reflexivity|cbn; lia|].
  rewrite E. destruct (undo_top d1 e u (a ++ t ++ b) Hi Hu) as (d2 & E2 & T2); [|eauto].
  intros dd Hd. rewrite Ho. cbn [undo_op]. apply (replace_raw_app dd a [] (t ++ b)); [rewrite Hd, Ht; reflexivity|reflexivity|cbn; lia].
Qed.
Print Assumptions undo_incremental_insert_refuted.

(* ---- C33: history limits ---- *)
(* However the document is edited, undone and redone (failures included), the
   history never holds more than the configured number of entries or memory. *)
Theorem history_within_limits : forall sz me mm t0 l d,
  do_all sz (fresh me mm t0) l = Some d ->
  undo_count d + redo_count d <= me /\ (0 < mm -> memory (history d) <= mm) /\
  memory (history d) = total (undo_stack (history d)) + total (redo_stack (history d)).
Proof.
  intros sz me mm t0 l d H. destruct (do_all_inv sz l _ _ (fresh_inv me mm t0) H) as ((H1 & H2 & H3) & HL).
  unfold limits in HL. cbn in HL. injection HL as L1 L2. rewrite L1, L2 in *. unfold undo_count, redo_count. auto.
Qed.
Print Assumptions history_within_limits.
(* Recording an entry drops only the oldest ones, and only as many as needed. *)
Theorem history_keeps_newest : forall h e,
  memory h = total (undo_stack h) + total (redo_stack h) ->
  exists u w, hist_push h e = Some (with_stacks h u [] (total u)) /\ e :: undo_stack h = u ++ w /\
   (forall p q, e :: undo_stack h = p ++ q -> List.length p <= max_entries h -> (0 < max_memory h -> total p <= max_memory h) ->
      List.length p <= List.length u).
Proof. intros h e H. destruct (push_spec h e H) as (u & w & H1 & H2 & _ & _ & H3). eauto. Qed.
Print Assumptions history_keeps_newest.
Example limits_case : exists d, do_all 10 (fresh 2 0 []) [AInsert 0 (lit "a"); AInsert 0 (lit "b"); AInsert 0 (lit "c"); AUndo; AUndo; AUndo] = Some d /\
  text d = lit "a" /\ redo_count d = 2.
Proof. eexists. split; [vm_compute; reflexivity|]. split; reflexivity. Qed.

(* ---- C34: a new edit discards the redo history ---- *)
Theorem edit_discards_redo : forall sz d a d',
  (exists p t, a = AInsert p t) \/ (exists r, a = ADelete r) \/ (exists r t, a = AReplace r t) ->
  do_act sz d a = OOk d' tt -> can_redo (history d') = false /\ doc_redo sz d' = OErr d'.
Proof.
  intros sz d a d' Ha E. pose proof (edit_clears sz d a d' Ha E) as H. unfold can_redo, doc_redo, pop_redo. rewrite H. auto.
Qed.
Print Assumptions edit_discards_redo.
Example edit_discards_redo_case : exists d d', do_all 0 (fresh 5 0 []) [AInsert 0 (lit "a"); AUndo] = Some d /\
  can_redo (history d) = true /\ do_act 0 d (AInsert 0 (lit "b")) = OOk d' tt /\ can_redo (history d') = false.
Proof. do 2 eexists. split; [vm_compute; reflexivity|]. split; [reflexivity|]. split; [vm_compute; reflexivity|reflexivity]. Qed.

(* ---- C35: offsets and line/column ---- *)
Theorem offset_to_line_column : forall a b,
  (exists n k, line_col a b n k) /\
  forall n k, line_col a b n k -> position_to_line_column (a ++ b) (blen a) = Ok (n, k) /\
    build_position (a ++ b) (Some n) (Some k) None = Ok (blen a).
Proof. intros a b. split; [apply line_col_exists|]. intros n k H. split; [apply position_spec|apply build_spec]; exact H. Qed.
Print Assumptions offset_to_line_column.
Theorem line_column_round_trip : forall s p, is_boundary s p = true ->
  exists n k, position_to_line_column s p = Ok (n, k) /\ build_position s (Some n) (Some k) None = Ok p.
Proof.
  intros s p H. apply is_boundary_spec in H as (a & b & -> & <-). destruct (line_col_exists a b) as (n & k & H).
  exists n, k. split; [apply position_spec|apply build_spec]; exact H.
Qed.
Print Assumptions line_column_round_trip.
Example line_col_case : line_col [97; 13; 10; 233]%N [98%N] 2 2 /\
  position_to_line_column [97; 13; 10; 233; 98]%N 5 = Ok (2, 2).
Proof.
  split; [|vm_compute; reflexivity]. apply (lc_crlf [97%N] [233%N] [98%N] 1 2); [repeat constructor; unfold break_char; lia|].
  apply (lc_first [233%N]). repeat constructor; unfold break_char; lia.
Qed.
(* Finding: "end of line" of a line ended by CR LF is between the two. *)
Theorem line_end_crlf_refuted : exists s p, build_position s (Some 1) None None = Ok p /\
  exists a b, s = a ++ b /\ blen a = p /\ In 13%N a.
Proof. exists [97; 13; 10; 98]%N, 2. split; [vm_compute; reflexivity|]. exists [97; 13]%N, [10; 98]%N. cbn. auto. Qed.
Print Assumptions line_end_crlf_refuted.
(* Finding: for a line ended by U+2028 it is inside that character. *)
Theorem line_end_boundary_refuted : exists s p, build_position s (Some 1) None None = Ok p /\ is_boundary s p = false.
Proof. exists [97; 8232; 98]%N, 3. split; vm_compute; reflexivity. Qed.
Print Assumptions line_end_boundary_refuted.

(* ---- C36: range algebra ---- *)
Theorem range_algebra : forall r o p,
  (range_contains r p = true <-> in_range r p) /\
  (range_is_empty r = true -> ~ in_range r p) /\
  (range_overlaps r o = true /\ r_start r < r_end r /\ r_start o < r_end o <-> exists x, in_range r x /\ in_range o x) /\
  (match range_intersection r o with
   | Some i => in_range i p <-> in_range r p /\ in_range o p
   | None => ~ (in_range r p /\ in_range o p) end) /\
  (in_range r p \/ in_range o p -> in_range (range_union r o) p) /\
  (forall u, r_start r <= r_end r -> r_start o <= r_end o -> r_start u <= r_start r -> r_end r <= r_end u -> r_start u <= r_start o -> r_end o <= r_end u ->
     r_start u <= r_start (range_union r o) /\ r_end (range_union r o) <= r_end u).
Proof.
  intros r o p. unfold range_contains, range_is_empty, range_overlaps, range_intersection, range_union, in_range. cbn [r_start r_end].
  split; [lia|]. split; [rewrite Nat.eqb_eq; lia|]. split.
  { split.
    - intros (H & H1 & H2). apply andb_prop in H as [A B]. apply Nat.ltb_lt in A, B. exists (Nat.max (r_start r) (r_start o)). lia.
    - intros (x & H1 & H2). split; [|lia]. apply andb_true_intro. rewrite !Nat.ltb_lt. lia. }
  split.
  { cbv zeta. destruct (Nat.ltb_spec (Nat.max (r_start r) (r_start o)) (Nat.min (r_end r) (r_end o))).
    - unfold range_new. destruct (Nat.leb_spec (Nat.max (r_start r) (r_start o)) (Nat.min (r_end r) (r_end o))); cbn; lia.
    - lia. }
  split; lia.
Qed.
Print Assumptions range_algebra.
Theorem range_new_ordered : forall a b, let r := range_new a b in
  r_start r <= r_end r /\ range_len r = (if a <=? b then b - a else a - b) /\ range_new b a = r.
Proof.
  intros a b. unfold range_new, range_len. destruct (Nat.leb_spec a b), (Nat.leb_spec b a); cbn [r_start r_end]; repeat split; try lia; f_equal; lia.
Qed.
Print Assumptions range_new_ordered.
Example range_case : range_intersection (range_new 9 2) (mkRange 5 20) = Some (mkRange 5 9).
Proof. reflexivity. Qed.
(* Finding: an empty range strictly inside another counts as overlapping it. *)
Theorem range_overlaps_empty_refuted : exists r o, range_overlaps r o = true /\ ~ exists x, in_range r x /\ in_range o x.
Proof. exists (mkRange 1 1), (mkRange 0 2). split; [reflexivity|]. intros (x & H & _). unfold in_range in H. cbn in H. lia. Qed.
Print Assumptions range_overlaps_empty_refuted.

(* ---- C37: batch command ---- *)
(* A batch that succeeds has the effect of its commands one after another. *)
Fixpoint apply_seq (d : doc) (cs : list command) : out unit :=
  match cs with
  | [] => OOk d tt
  | c :: r => match run_command d c with OOk d1 _ => apply_seq d1 r | OErr d1 => OErr d1 | OPanic => OPanic end
  end.
Theorem batch_is_sequence : forall cs desc d,
  (forall c, In c cs -> match c with CBatch _ _ => False | _ => True end) ->
  match run_command d (CBatch cs desc), apply_seq d cs with
  | OOk d1 r, OOk d2 _ => d1 = d2 /\ success r = true
  | OErr d1, OErr d2 => d1 = d2
  | OPanic, OPanic => True
  | _, _ => False
  end.
Proof.
  intros cs desc d H. cbn [run_command]. generalize (@None range, @None nat, false) as st. revert d.
  induction cs as [|c cs IH]; intros d st.
  - destruct st as [[fr lc] ch]. cbn. auto.
  - cbn [apply_seq].
    assert (Hc : forall d1 r, run_command d c = OOk d1 r -> success r = true).
    { intros d1 r. specialize (H c (or_introl eq_refl)). destruct c; cbn [run_command]; try contradiction.
      - unfold cmd_insert. destruct (insert_raw d p t); cbn [out_bind]; intros E; inversion E; reflexivity.
      - unfold cmd_delete. destruct (delete_raw d r0); cbn [out_bind]; intros E; inversion E; reflexivity.
      - unfold cmd_replace. destruct (replace_raw d r0 t); cbn [out_bind]; intros E; inversion E; reflexivity. }
    destruct (run_command d c) as [d1 r|d1|] eqn:E; auto. rewrite (Hc d1 r eq_refl). apply IH. intros c' Hc'. apply H. right. exact Hc'.
Qed.
Print Assumptions batch_is_sequence.
Example batch_case : exists d r, run_command (fresh 5 0 (lit "abc")) (CBatch [CInsert 0 (lit "x"); CDelete (mkRange 1 3)] (lit "b")) = OOk d r /\ text d = lit "xc".
Proof. do 2 eexists. split; [vm_compute; reflexivity|reflexivity]. Qed.
(* Finding: a batch that fails keeps the effect of the commands before the failure. *)
Theorem batch_atomic_refuted : exists d cs desc d', run_command d (CBatch cs desc) = OErr d' /\ text d' <> text d.
Proof.
  exists (fresh 5 0 (lit "abc")), [CInsert 0 (lit "x"); CDelete (mkRange 90 91)], (lit "b"). eexists. split; [vm_compute; reflexivity|].
  vm_compute. discriminate.
Qed.
Print Assumptions batch_atomic_refuted.

(* ---- C54: commands run through execute_command ---- *)
(* An insertion run through execute_command is undone by undo. *)
Theorem execute_insert_undo : forall sz me mm t0 l d a b t d1 r d2,
  do_all sz (fresh me mm t0) l = Some d -> text d = a ++ b ->
  execute_command sz d (CInsert (blen a) t) = OOk d1 r -> doc_undo d1 = OOk d2 tt ->
  undo_count d1 <> 0 -> text d1 = a ++ t ++ b /\ text d2 = a ++ b.
Proof.
  intros sz me mm t0 l d a b t d1 r d2 Hl Ht E Hu Hn.
  pose proof (proj1 (do_all_inv sz l _ _ (fresh_inv me mm t0) Hl)) as Hi.
  unfold execute_command in E. cbn [run_command] in E. unfold cmd_insert in E. rewrite (insert_raw_app d a b) in E by exact Ht.
  cbn [out_bind changed success_with_change m_range n_cursor] in E. rewrite range_new_le in E by lia.
  set (d0 := set_text d (a ++ t ++ b)) in *.
  assert (Eop : exists o, (forall dd, text dd = a ++ t ++ b -> undo_op dd o = OOk (set_text dd (a ++ b)) tt) /\
     out_bind (record_operation sz (set_history d0 (set_cursor (history d0) (Some (blen a + blen t)))) o (lit "Insert text")
        (mkRes true (Some (mkRange (blen a) (blen a + blen t))) (Some (blen a + blen t)) true)) (fun d3 _ => OOk d3 (mkRes true (Some (mkRange (blen a) (blen a + blen t))) (Some (blen a + blen t)) true)) = OOk d1 r).
  { unfold range_is_empty in E. cbn [r_start r_end] in E. destruct (Nat.eqb_spec (blen a) (blen a + blen t)).
    - unfold usub in E. destruct (Nat.leb_spec (blen a) (blen a + blen t)); [|lia].
      replace (blen a + (blen a + blen t - blen a)) with (blen a + blen t) in E by lia. rewrite range_new_le in E by lia.
      rewrite (text_range_app d0 a t b) in E by (cbn; auto). cbn [res_bind] in E. eexists. split; [|exact E].
      intros dd Hd. apply mends_insert. exact Hd.
    - destruct (str_contains (lit "batch") (cmd_desc (CInsert (blen a) t)) || str_contains (lit "Multiple") (cmd_desc (CInsert (blen a) t))) eqn:Eb;
        [vm_compute in Eb; discriminate|].
      rewrite (text_range_app d0 a t b) in E by (cbn; auto). eexists. split; [|exact E].
      intros dd Hd. cbn [undo_op]. rewrite (replace_raw_app dd a t b) by (cbn; auto). reflexivity. }
  destruct Eop as (o & Ho & E').
  match type of E' with out_bind ?x _ = _ => destruct x as [d3 []|d3|] eqn:Er; cbn [out_bind] in E'; [|discriminate|discriminate] end.
  inversion E'; subst d3. clear E'.
  match type of Er with record_operation _ ?dd _ _ _ = _ => assert (Hi2 : hinv (history dd)) by exact Hi;
    pose proof (record_inv sz dd o (lit "Insert text") (mkRes true (Some (mkRange (blen a) (blen a + blen t))) (Some (blen a + blen t)) true) Hi2) as (d4 & Er' & Hi4 & Ht4 & _) end.
  rewrite Er in Er'. inversion Er'; subst d4. split; [rewrite Ht4; reflexivity|].
  assert (Hd1 : undo_stack (history d1) <> []) by (intros G; unfold undo_count in Hn; rewrite G in Hn; cbn in Hn; lia).
  unfold record_operation in Er. cbn [success changed andb n_cursor m_range] in Er.
  match type of Er with match hist_push ?h ?e with _ => _ end = _ => destruct (push_spec h e (proj1 Hi2)) as (u & w & Ep & Eu & _); rewrite Ep in Er end.
  inversion Er; subst d1. clear Er.
  unfold doc_undo in Hu. rewrite pop_undo_spec in Hu by exact Hi4. cbn [history set_history set_cursor undo_stack with_stacks] in *.
  destruct u as [|e u]; [congruence|]. cbn [app] in Eu. inversion Eu; subst e.
  cbn [e_op new_entry] in Hu. rewrite Ho in Hu by reflexivity. cbn [out_bind] in Hu. inversion Hu. reflexivity.
Qed.
Print Assumptions execute_insert_undo.
(* Finding: a deletion or a replacement run through execute_command is not:
   undo reports success and the deleted text stays lost. *)
Theorem execute_delete_undo_refuted : exists d d1 r d2,
  execute_command 0 d (CDelete (mkRange 0 1)) = OOk d1 r /\ doc_undo d1 = OOk d2 tt /\ text d = lit "abc" /\ text d2 = lit "bc".
Proof. exists (fresh 50 0 (lit "abc")). do 3 eexists. split; [vm_compute; reflexivity|]. split; [vm_compute; reflexivity|]. split; reflexivity. Qed.
Print Assumptions execute_delete_undo_refuted.
Theorem execute_replace_undo_refuted : exists d d1 r d2,
  execute_command 0 d (CReplace (mkRange 0 1) (lit "XY")) = OOk d1 r /\ doc_undo d1 = OOk d2 tt /\ text d = lit "abc" /\ text d2 = lit "bc".
Proof. exists (fresh 50 0 (lit "abc")). do 3 eexists. split; [vm_compute; reflexivity|]. split; [vm_compute; reflexivity|]. split; reflexivity. Qed.
Print Assumptions execute_replace_undo_refuted.
