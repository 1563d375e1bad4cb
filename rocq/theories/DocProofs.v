From Verif Require Import Base BaseLemmas DocModel DocSpec.

(* ---- rope ---- *)
Lemma rope_split_app a b : rope_split (a ++ b) (blen a) = (a, b).
Proof.
  induction a as [|c a IH]; cbn [app blen].
  - destruct b as [|c b]; [reflexivity|]. cbn [rope_split]. pose proof (len_utf8_pos c).
    destruct (Nat.leb_spec (len_utf8 c) 0); [lia|reflexivity].
  - cbn [rope_split]. destruct (Nat.leb_spec (len_utf8 c) (len_utf8 c + blen a)); [|lia].
    replace (len_utf8 c + blen a - len_utf8 c) with (blen a) by lia. rewrite IH. reflexivity.
Qed.
Lemma rope_split_spec s n : let (a, b) := rope_split s n in
  s = a ++ b /\ (n <= blen s -> blen a <= n) /\ (b <> [] -> blen a <= n < blen a + len_utf8 (hd 0%N b)).
Proof.
  revert n. induction s as [|c s IH]; intros n; cbn [rope_split].
  - split; [reflexivity|]. split; [cbn; lia|congruence].
  - destruct (Nat.leb_spec (len_utf8 c) n).
    + specialize (IH (n - len_utf8 c)). destruct (rope_split s (n - len_utf8 c)) as [a b].
      destruct IH as (E & H1 & H2). cbn [blen app]. split; [congruence|]. split; [intros; lia|intros G; specialize (H2 G); lia].
    + split; [reflexivity|]. cbn. split; [lia|]. intros _. lia.
Qed.
Lemma byte_to_char_app a b : byte_to_char (a ++ b) (blen a) = List.length a.
Proof. unfold byte_to_char. rewrite rope_split_app. reflexivity. Qed.

Lemma insert_raw_app d a b t : text d = a ++ b -> insert_raw d (blen a) t = OOk (set_text d (a ++ t ++ b)) tt.
Proof.
  intros E. unfold insert_raw. rewrite E. destruct (Nat.ltb_spec (blen (a ++ b)) (blen a)).
  - rewrite blen_app in *. lia.
  - rewrite rope_split_app. reflexivity.
Qed.
Lemma delete_raw_app d a m b r : text d = a ++ m ++ b -> r_start r = blen a -> r_end r = blen a + blen m ->
  delete_raw d r = OOk (set_text d (a ++ b)) tt.
Proof.
  intros E H1 H2. unfold delete_raw. rewrite E, H1, H2.
  destruct (Nat.ltb_spec (blen (a ++ m ++ b)) (blen a + blen m)); [rewrite !blen_app in *; lia|].
  destruct (Nat.ltb_spec (blen (a ++ m ++ b)) (blen a)); [rewrite !blen_app in *; lia|].
  rewrite rope_split_app. rewrite <- blen_app, app_assoc, rope_split_app. cbn [fst].
  destruct (Nat.ltb_spec (List.length (a ++ m)) (List.length a)); [rewrite app_length in *; lia|reflexivity].
Qed.
Lemma replace_raw_app d a m b r t : text d = a ++ m ++ b -> r_start r = blen a -> r_end r = blen a + blen m ->
  replace_raw d r t = OOk (set_text d (a ++ t ++ b)) tt.
Proof.
  intros E H1 H2. unfold replace_raw. rewrite (delete_raw_app d a m b) by assumption. cbn [out_bind].
  rewrite H1. rewrite (insert_raw_app _ a b); reflexivity.
Qed.
Lemma text_range_app d a m b r : text d = a ++ m ++ b -> r_start r = blen a -> r_end r = blen a + blen m ->
  text_range d r = Ok m.
Proof.
  intros E H1 H2. unfold text_range. rewrite E, H1, H2.
  destruct (Nat.ltb_spec (blen (a ++ m ++ b)) (blen a + blen m)); [rewrite !blen_app in *; lia|].
  destruct (Nat.ltb_spec (blen (a ++ m ++ b)) (blen a)); [rewrite !blen_app in *; lia|].
  rewrite byte_to_char_app. rewrite <- blen_app, (app_assoc a m b), byte_to_char_app.
  destruct (Nat.ltb_spec (List.length (a ++ m)) (List.length a)); [rewrite app_length in *; lia|].
  f_equal. rewrite <- app_assoc, skipn_app, skipn_all, Nat.sub_diag, app_length. cbn [skipn app].
  replace (List.length a + List.length m - List.length a) with (List.length m + 0) by lia.
  rewrite firstn_app_2. cbn. apply app_nil_r.
Qed.

(* ---- history ---- *)
Lemma total_cons e l : total (e :: l) = e_mem e + total l. Proof. reflexivity. Qed.
Lemma total_nil : total [] = 0. Proof. reflexivity. Qed.
Arguments total : simpl never.
Lemma total_app a b : total (a ++ b) = total a + total b.
Proof. induction a as [|x a IH]; [reflexivity|]. cbn [app]. rewrite !total_cons, IH. lia. Qed.
Lemma drain_spec l m : drain (m + total l) l = Some m.
Proof.
  revert m. induction l as [|e l IH]; intros m; cbn [drain]; [rewrite total_nil; f_equal; lia|].
  rewrite total_cons. unfold usub. destruct (Nat.leb_spec (e_mem e) (m + (e_mem e + total l))); [|lia].
  replace (m + (e_mem e + total l) - e_mem e) with (m + total l) by lia. apply IH.
Qed.
Lemma unsnoc_snoc {A} (l : list A) x : unsnoc (l ++ [x]) = Some (l, x).
Proof. induction l as [|y l IH]; [reflexivity|]. cbn [app unsnoc]. rewrite IH. reflexivity. Qed.

Lemma drop_back_spec cond : (forall m, cond [] m = false) ->
  forall u fuel, List.length u <= fuel ->
  exists u' w, drop_while_back fuel cond u (total u) = Some (u', total u') /\ u = u' ++ w /\
    cond u' (total u') = false /\
    (forall p q, u = p ++ q -> List.length u' < List.length p -> cond p (total p) = true).
Proof.
  intros H0. induction u as [|e u IH] using rev_ind; intros fuel Hf.
  - exists [], []. destruct fuel; cbn [drop_while_back]; rewrite H0; repeat split; auto;
    intros p q E; destruct p; [cbn; lia|discriminate| cbn; lia|discriminate].
  - rewrite app_length in Hf. cbn in Hf. destruct fuel as [|f]; [lia|]. cbn [drop_while_back].
    destruct (cond (u ++ [e]) (total (u ++ [e]))) eqn:E.
    + rewrite unsnoc_snoc, total_app, total_cons, total_nil. unfold usub.
      destruct (Nat.leb_spec (e_mem e) (total u + (e_mem e + 0))); [|lia].
      replace (total u + (e_mem e + 0) - e_mem e) with (total u) by lia.
      destruct (IH f ltac:(lia)) as (u' & w & Hd & Hu & Hc & Hp). exists u', (w ++ [e]).
      split; [exact Hd|]. split; [rewrite Hu at 1; rewrite <- app_assoc; reflexivity|]. split; [exact Hc|].
      intros p q Epq Hl. destruct q as [|y q] using rev_ind.
      * rewrite app_nil_r in Epq. rewrite <- Epq. exact E.
      * rewrite app_assoc in Epq. apply app_inj_tail in Epq as [Epq _]. eapply Hp; eauto.
    + exists (u ++ [e]), []. rewrite app_nil_r. repeat split; auto.
      intros p q Epq Hl. apply (f_equal (@List.length entry)) in Epq. rewrite !app_length in Epq. rewrite app_length in Hl. cbn in *. lia.
Qed.

Lemma enforce_spec me mm u : exists u' w, enforce_limits me mm u (total u) = Some (u', total u') /\ u = u' ++ w /\
  List.length u' <= me /\ (0 < mm -> total u' <= mm) /\
  (forall p q, u = p ++ q -> List.length p <= me -> (0 < mm -> total p <= mm) -> List.length p <= List.length u').
Proof.
  unfold enforce_limits.
  destruct (drop_back_spec (fun u _ => me <? List.length u) (fun _ => eq_refl) u _ (Nat.le_refl _)) as (u1 & w1 & -> & Hu1 & Hc1 & Hp1).
  destruct (drop_back_spec (fun u m => (0 <? mm) && (mm <? m) && negb (is_nil u)) (fun m => andb_false_r _) u1 _ (Nat.le_refl _))
    as (u2 & w2 & -> & Hu2 & Hc2 & Hp2).
  exists u2, (w2 ++ w1). split; [reflexivity|]. split; [rewrite Hu1, Hu2 at 1; rewrite <- app_assoc; reflexivity|].
  apply Nat.ltb_ge in Hc1.
  split; [rewrite Hu2 in Hc1; rewrite app_length in Hc1; lia|]. split.
  - intros Hm. destruct u2 as [|x u2]; [rewrite total_nil; lia|]. cbn [is_nil negb] in Hc2. rewrite andb_true_r in Hc2.
    apply andb_false_iff in Hc2 as [Hc2|Hc2]; [apply Nat.ltb_ge in Hc2; lia|apply Nat.ltb_ge in Hc2; lia].
  - intros p q Epq Hl Hm. destruct (Nat.le_gt_cases (List.length p) (List.length u2)) as [|G]; [assumption|exfalso].
    destruct (Nat.le_gt_cases (List.length p) (List.length u1)) as [G1|G1].
    + assert (exists q', u1 = p ++ q') as [q' Eq'].
      { exists (firstn (List.length u1 - List.length p) q). pose proof (f_equal (firstn (List.length u1)) Epq) as F.
        rewrite Hu1 in F. replace (List.length u1) with (List.length u1 + 0) in F at 1 by lia. rewrite firstn_app_2 in F. cbn in F.
        rewrite app_nil_r, firstn_app in F. rewrite (firstn_all2 p) in F by lia. exact F. }
      specialize (Hp2 p q' Eq' G). apply andb_prop in Hp2 as [Hp2 _]. apply andb_prop in Hp2 as [A B].
      apply Nat.ltb_lt in A, B. specialize (Hm A). lia.
    + specialize (Hp1 p q Epq G1). apply Nat.ltb_lt in Hp1. lia.
Qed.

(* The bookkeeping invariant. *)
Definition hinv (h : hist) : Prop :=
  memory h = total (undo_stack h) + total (redo_stack h) /\
  List.length (undo_stack h) + List.length (redo_stack h) <= max_entries h /\
  (0 < max_memory h -> memory h <= max_memory h).

Lemma push_spec h e : memory h = total (undo_stack h) + total (redo_stack h) ->
  exists u w, hist_push h e = Some (with_stacks h u [] (total u)) /\ e :: undo_stack h = u ++ w /\
   List.length u <= max_entries h /\ (0 < max_memory h -> total u <= max_memory h) /\
   (forall p q, e :: undo_stack h = p ++ q -> List.length p <= max_entries h -> (0 < max_memory h -> total p <= max_memory h) ->
      List.length p <= List.length u).
Proof.
  intros H. unfold hist_push. rewrite H, drain_spec.
  replace (total (undo_stack h) + e_mem e) with (total (e :: undo_stack h)) by (rewrite total_cons; lia).
  destruct (enforce_spec (max_entries h) (max_memory h) (e :: undo_stack h)) as (u & w & -> & H1 & H2 & H3 & H4).
  exists u, w. repeat split; auto.
Qed.
Lemma push_inv h e h' : hinv h -> hist_push h e = Some h' -> hinv h'.
Proof.
  intros (H & _ & _) E. destruct (push_spec h e H) as (u & w & E' & _ & H2 & H3 & _). rewrite E in E'. inversion E'; subst.
  unfold hinv. cbn. repeat split; auto; lia.
Qed.
Lemma push_some h e : hinv h -> exists h', hist_push h e = Some h'.
Proof. intros (H & _). destruct (push_spec h e H) as (u & w & E & _). eauto. Qed.

Lemma pop_undo_spec h : hinv h -> pop_undo h =
  Some (match undo_stack h with
        | e :: u => (Some e, with_stacks h u (redo_stack h) (total u + total (redo_stack h)))
        | [] => (None, h) end).
Proof.
  intros (H & _). unfold pop_undo. destruct (undo_stack h) as [|e u] eqn:E; [reflexivity|].
  rewrite H, total_cons. unfold usub.
  destruct (Nat.leb_spec (e_mem e) (e_mem e + total u + total (redo_stack h))); [|lia].
  replace (e_mem e + total u + total (redo_stack h) - e_mem e) with (total u + total (redo_stack h)) by lia. reflexivity.
Qed.
Lemma pop_redo_spec h : hinv h -> pop_redo h =
  Some (match redo_stack h with
        | e :: r => (Some e, with_stacks h (undo_stack h) r (total (undo_stack h) + total r))
        | [] => (None, h) end).
Proof.
  intros (H & _). unfold pop_redo. destruct (redo_stack h) as [|e r] eqn:E; [reflexivity|].
  rewrite H, total_cons. unfold usub.
  destruct (Nat.leb_spec (e_mem e) (total (undo_stack h) + (e_mem e + total r))); [|lia].
  replace (total (undo_stack h) + (e_mem e + total r) - e_mem e) with (total (undo_stack h) + total r) by lia. reflexivity.
Qed.
Lemma set_cursor_inv h c : hinv h -> hinv (set_cursor h c).
Proof. intros H. exact H. Qed.

(* text operations leave the history alone *)
Lemma insert_raw_hist d p t : match insert_raw d p t with OOk d1 _ | OErr d1 => history d1 = history d | OPanic => False end.
Proof. unfold insert_raw. destruct (_ <? _); [reflexivity|]. destruct (rope_split _ _). reflexivity. Qed.
Lemma delete_raw_hist d r : match delete_raw d r with OOk d1 _ | OErr d1 => history d1 = history d | OPanic => True end.
Proof.
  unfold delete_raw. destruct (_ <? _); [reflexivity|]. destruct (_ <? _); [reflexivity|].
  destruct (rope_split _ (r_end r)) as [b c]. destruct (_ <? _); reflexivity.
Qed.
Lemma replace_raw_hist d r t : match replace_raw d r t with OOk d1 _ | OErr d1 => history d1 = history d | OPanic => True end.
Proof.
  unfold replace_raw. pose proof (delete_raw_hist d r) as H. destruct (delete_raw d r) as [d1 []|d1|]; cbn [out_bind]; auto.
  pose proof (insert_raw_hist d1 (r_start r) t) as G. destruct (insert_raw d1 (r_start r) t); congruence || contradiction.
Qed.
Lemma undo_op_hist d o : match undo_op d o with OOk d1 _ | OErr d1 => history d1 = history d | OPanic => True end.
Proof.
  destruct o; cbn [undo_op]; [apply delete_raw_hist| |apply replace_raw_hist].
  pose proof (insert_raw_hist d (r_start r) deleted) as H. destruct (insert_raw d (r_start r) deleted); auto.
Qed.
Lemma redo_op_hist d o : match redo_op d o with OOk d1 _ | OErr d1 => history d1 = history d | OPanic => True end.
Proof.
  destruct o; cbn [redo_op]; [|apply delete_raw_hist|apply replace_raw_hist].
  pose proof (insert_raw_hist d pos text) as H. destruct (insert_raw d pos text); auto.
Qed.

Lemma record_inv sz d o desc r : hinv (history d) ->
  exists d', record_operation sz d o desc r = OOk d' tt /\ hinv (history d') /\ text d' = text d /\
   max_entries (history d') = max_entries (history d) /\ max_memory (history d') = max_memory (history d).
Proof.
  intros H. unfold record_operation. destruct (success r && changed r); [|eauto 10].
  destruct (push_spec (history d) (new_entry sz o desc (m_range r) (n_cursor r) (cursor (history d))) (proj1 H)) as (u & w & E & _).
  rewrite E. pose proof (push_inv _ _ _ H E) as Hi. eexists. split; [reflexivity|].
  destruct (n_cursor r); cbn; repeat split; try exact (proj1 Hi); try apply Hi.
Qed.
Lemma cmd_hist_ins d p t : match cmd_insert d p t with OOk d1 _ | OErr d1 => history d1 = history d | OPanic => False end.
Proof. unfold cmd_insert. pose proof (insert_raw_hist d p t). destruct (insert_raw d p t); cbn [out_bind]; auto. Qed.
Lemma cmd_hist_del d r : match cmd_delete d r with OOk d1 _ | OErr d1 => history d1 = history d | OPanic => True end.
Proof. unfold cmd_delete. pose proof (delete_raw_hist d r). destruct (delete_raw d r); cbn [out_bind]; auto. Qed.
Lemma cmd_hist_rep d r t : match cmd_replace d r t with OOk d1 _ | OErr d1 => history d1 = history d | OPanic => True end.
Proof. unfold cmd_replace. pose proof (replace_raw_hist d r t). destruct (replace_raw d r t); cbn [out_bind]; auto. Qed.

Definition limits (h : hist) := (max_entries h, max_memory h).
Lemma do_act_inv sz d a : hinv (history d) ->
  match do_act sz d a with
  | OOk d1 _ | OErr d1 => hinv (history d1) /\ limits (history d1) = limits (history d)
  | OPanic => True end.
Proof.
  intros H.
  assert (G : forall d1 o desc r, history d1 = history d ->
     match record_operation sz d1 o desc r with
     | OOk d2 _ | OErr d2 => hinv (history d2) /\ limits (history d2) = limits (history d)
     | OPanic => True end).
  { intros d1 o desc r E. destruct (record_inv sz d1 o desc r) as (d2 & -> & Hi & _ & L1 & L2); [congruence|].
    split; [exact Hi|]. unfold limits. congruence. }
  destruct a as [p t|r|r t| |]; cbn [do_act].
  - unfold doc_insert. pose proof (cmd_hist_ins d p t). destruct (cmd_insert d p t) as [d1 c|d1|]; cbn [out_bind]; [apply G; assumption|split; congruence|exact I].
  - unfold doc_delete. destruct (text_range d r); auto. pose proof (cmd_hist_del d r).
    destruct (cmd_delete d r) as [d1 c|d1|]; cbn [out_bind]; [apply G; assumption|split; congruence|exact I].
  - unfold doc_replace. destruct (text_range d r); auto. pose proof (cmd_hist_rep d r t).
    destruct (cmd_replace d r t) as [d1 c|d1|]; cbn [out_bind]; [apply G; assumption|split; congruence|exact I].
  - unfold doc_undo. rewrite (pop_undo_spec _ H). destruct (undo_stack (history d)) as [|e u] eqn:Eu; [auto|].
    set (h := with_stacks _ _ _ _). destruct H as (H1 & H2 & H3). rewrite Eu in H1, H2. rewrite total_cons in H1. cbn [List.length] in H2.
    assert (Hh : hinv h) by (subst h; unfold hinv; cbn; repeat split; [lia|intros; lia]).
    pose proof (undo_op_hist (set_history d h) (e_op e)) as K. destruct (undo_op (set_history d h) (e_op e)) as [d1 []|d1|]; cbn [out_bind]; auto.
    + cbn in K. rewrite K. cbn. split; [|reflexivity]. unfold hinv, push_redo. cbn. rewrite total_cons.
      repeat split; [lia|lia|intros; lia].
    + cbn in K. rewrite K. split; [exact Hh|reflexivity].
  - unfold doc_redo. rewrite (pop_redo_spec _ H). destruct (redo_stack (history d)) as [|e u] eqn:Eu; [auto|].
    set (h := with_stacks _ _ _ _). destruct H as (H1 & H2 & H3). rewrite Eu in H1, H2. rewrite total_cons in H1. cbn [List.length] in H2.
    assert (Hh : hinv h) by (subst h; unfold hinv; cbn; repeat split; [lia|intros; lia]).
    pose proof (redo_op_hist (set_history d h) (e_op e)) as K. destruct (redo_op (set_history d h) (e_op e)) as [d1 []|d1|]; cbn [out_bind]; auto.
    + cbn in K. rewrite K. set (h1 := match e_after e with Some c => set_cursor h (Some c) | None => h end).
      assert (Hh1 : hinv h1) by (subst h1; destruct (e_after e); exact Hh).
      assert (L1 : limits h1 = limits (history d)) by (subst h1; destruct (e_after e); reflexivity).
      match goal with |- context [hist_push ?a ?b] => destruct (hist_push a b) as [h2|] eqn:E2 end; [|exact I].
      pose proof (push_inv _ _ _ Hh1 E2). cbn. split; [assumption|]. rewrite <- L1.
      edestruct (push_spec h1) as (? & ? & E3 & _); [exact (proj1 Hh1)|]. rewrite E2 in E3. inversion E3. reflexivity.
    + cbn in K. rewrite K. split; [exact Hh|reflexivity].
Qed.
Lemma fresh_inv me mm t : hinv (history (fresh me mm t)).
Proof. unfold hinv. cbn. rewrite total_nil. lia. Qed.
Lemma do_all_inv sz l d d' : hinv (history d) -> do_all sz d l = Some d' -> hinv (history d') /\ limits (history d') = limits (history d).
Proof.
  revert d. induction l as [|a l IH]; intros d H E; cbn [do_all] in E; [inversion E; subst; auto|].
  pose proof (do_act_inv sz d a H) as G. destruct (do_act sz d a) as [d1 []|d1|]; [| |discriminate];
  destruct G as [G1 G2]; destruct (IH _ G1 E) as [K1 K2]; split; congruence || assumption.
Qed.

(* ---- refinement to the reference editor ---- *)
(* Applied to the text s, the entry leads back to s0 (undo), and from s0 to s (redo). *)
Definition mends (o : operation) (s0 s : str) : Prop :=
  (forall d, text d = s -> undo_op d o = OOk (set_text d s0) tt) /\
  (forall d, text d = s0 -> redo_op d o = OOk (set_text d s) tt).
Fixpoint undo_chain (l : list entry) (past : list str) (s : str) : Prop :=
  match l with
  | [] => True
  | e :: r => match past with p :: ps => mends (e_op e) p s /\ undo_chain r ps p | [] => False end
  end.
Fixpoint redo_chain (l : list entry) (fut : list str) (s : str) : Prop :=
  match l, fut with
  | [], [] => True
  | e :: r, f :: fs => mends (e_op e) s f /\ redo_chain r fs f
  | _, _ => False
  end.
Definition refines (d : doc) (st : editor) : Prop :=
  hinv (history d) /\ text d = present st /\ undo_chain (undo_stack (history d)) (past st) (text d) /\
  redo_chain (redo_stack (history d)) (future st) (text d).

Lemma range_new_le a b : a <= b -> range_new a b = mkRange a b.
Proof. intros H. unfold range_new. destruct (Nat.leb_spec a b); [reflexivity|lia]. Qed.
Lemma mends_insert a b t : mends (OpInsert (blen a) t) (a ++ b) (a ++ t ++ b).
Proof.
  split; intros d E; cbn [undo_op redo_op].
  - rewrite range_new_le by lia. apply (delete_raw_app d a t b); auto.
  - apply insert_raw_app. exact E.
Qed.
Lemma mends_delete a m b r : r_start r = blen a -> r_end r = blen a + blen m -> mends (OpDelete r m) (a ++ m ++ b) (a ++ b).
Proof.
  intros H1 H2. split; intros d E; cbn [undo_op redo_op].
  - rewrite H1. apply insert_raw_app. exact E.
  - apply (delete_raw_app d a m b); auto.
Qed.
Lemma mends_replace a m b t r : r_start r = blen a -> r_end r = blen a + blen m -> blen t = blen m ->
  mends (OpReplace r m t) (a ++ m ++ b) (a ++ t ++ b).
Proof.
  intros H1 H2 H3. split; intros d E; cbn [undo_op redo_op].
  - apply (replace_raw_app d a t b); auto. lia.
  - apply (replace_raw_app d a m b); auto.
Qed.
Lemma undo_chain_prefix u w ps s : undo_chain (u ++ w) ps s -> undo_chain u ps s.
Proof.
  revert ps s. induction u as [|e u IH]; intros ps s H; [exact I|]. cbn in *. destruct ps; [contradiction|]. destruct H. split; eauto.
Qed.
Lemma record_chain sz d o desc r ps s0 s' :
  hinv (history d) -> success r && changed r = true -> text d = s' -> mends o s0 s' ->
  undo_chain (undo_stack (history d)) ps s0 ->
  exists d', record_operation sz d o desc r = OOk d' tt /\ refines d' (mkEd (s0 :: ps) s' []) /\
   (List.length (undo_stack (history d')) <= S (List.length (undo_stack (history d)))) /\
   (max_memory (history d) = 0 -> S (List.length (undo_stack (history d))) <= max_entries (history d) ->
     List.length (undo_stack (history d')) = S (List.length (undo_stack (history d)))) /\
   redo_stack (history d') = [] /\ limits (history d') = limits (history d).
Proof.
  intros Hi Hr Ht Hm Hc. destruct (record_inv sz d o desc r Hi) as (d' & E & Hi' & Ht' & L1 & L2).
  exists d'. split; [exact E|]. unfold record_operation in E. rewrite Hr in E.
  destruct (push_spec (history d) (new_entry sz o desc (m_range r) (n_cursor r) (cursor (history d))) (proj1 Hi)) as (u & w & Ep & Eu & _ & _ & Hmax).
  rewrite Ep in E. inversion E. clear E. assert (Hd : undo_stack (history d') = u /\ redo_stack (history d') = []).
  { subst d'. destruct (n_cursor r); cbn; auto. }
  destruct Hd as [Hd1 Hd2].
  rewrite H0. split; [|split; [|split; [|split]]].
  - split; [exact Hi'|]. split; [cbn; congruence|]. cbn [past future]. rewrite Hd1, Hd2. split; [|exact I].
    apply undo_chain_prefix with (w := w). rewrite <- Eu. cbn [undo_chain]. split; [|assumption]. rewrite Ht', Ht. exact Hm.
  - rewrite Hd1. apply (f_equal (@List.length entry)) in Eu. rewrite app_length in Eu. cbn in Eu. lia.
  - intros Hz Hl. rewrite Hd1.
    pose proof (Hmax (_ :: undo_stack (history d)) [] (eq_sym (app_nil_r _))) as K. cbn [List.length] in K.
    specialize (K Hl ltac:(lia)). apply (f_equal (@List.length entry)) in Eu. rewrite app_length in Eu. cbn in Eu. lia.
  - exact Hd2.
  - unfold limits. congruence.
Qed.

Definition undo_count (d : doc) : nat := List.length (undo_stack (history d)).
Definition redo_count (d : doc) : nat := List.length (redo_stack (history d)).

Lemma set_text_hist d s : history (set_text d s) = history d. Proof. reflexivity. Qed.
Lemma act_refines sz d st a st' : refines d st -> same_length a -> ed_step true st a st' ->
  (a = AUndo -> undo_count d <> 0) ->
  exists d', do_act sz d a = OOk d' tt /\ refines d' st' /\ limits (history d') = limits (history d) /\
   (max_memory (history d) = 0 -> List.length (past st') <= max_entries (history d) -> undo_count d = List.length (past st) ->
     undo_count d' = List.length (past st')).
Proof.
  intros (Hi & Ht & Hu & Hr) Hs Hstep Hav.
  assert (Edit : forall s' o desc r d1, d1 = set_text d s' -> success r && changed r = true -> mends o (text d) s' ->
     st' = mkEd (present st :: past st) s' [] ->
     exists d', record_operation sz d1 o desc r = OOk d' tt /\ refines d' st' /\ limits (history d') = limits (history d) /\
     (max_memory (history d) = 0 -> List.length (past st') <= max_entries (history d) -> undo_count d = List.length (past st) ->
      undo_count d' = List.length (past st'))).
  { intros s' o desc r d1 -> Hrr Hm ->.
    destruct (record_chain sz (set_text d s') o desc r (past st) (text d) s' Hi Hrr eq_refl Hm Hu) as (d' & E & Href & _ & Hc & _ & HL).
    exists d'. split; [exact E|]. rewrite <- Ht. split; [exact Href|]. split; [exact HL|].
    intros Hz Hl Hn. cbn [past List.length] in *. unfold undo_count in *. rewrite Hc; cbn [history set_text]; lia. }
  destruct a as [p t|r|r t| |]; cbn [ed_step do_act] in *.
  - destruct Hstep as (s' & (a & m & b & E1 & E2 & E3 & E4) & ->).
    assert (m = []) by (destruct m as [|c m]; [reflexivity|]; cbn in E3; pose proof (len_utf8_pos c); lia). subst m. cbn [app] in E1.
    unfold doc_insert, cmd_insert. rewrite E2. rewrite (insert_raw_app d a b) by congruence. cbn [out_bind].
    eapply Edit; [reflexivity|reflexivity| |subst s'; reflexivity]. rewrite Ht, E1. apply mends_insert.
  - destruct Hstep as (s' & (a & m & b & E1 & E2 & E3 & E4) & ->). cbn [app] in E4.
    unfold doc_delete, cmd_delete. rewrite (text_range_app d a m b) by congruence. rewrite (delete_raw_app d a m b) by congruence. cbn [out_bind].
    eapply Edit; [reflexivity|reflexivity| |subst s'; reflexivity]. rewrite Ht, E1. apply mends_delete; congruence.
  - destruct Hstep as (s' & (a & m & b & E1 & E2 & E3 & E4) & ->). cbn in Hs.
    unfold doc_replace, cmd_replace. rewrite (text_range_app d a m b) by congruence. rewrite (replace_raw_app d a m b) by congruence. cbn [out_bind].
    eapply Edit; [reflexivity|reflexivity| |subst s'; reflexivity]. rewrite Ht, E1. apply mends_replace; lia.
  - destruct (past st) as [|p ps] eqn:Ep; [contradiction|]. subst st'.
    unfold doc_undo. rewrite (pop_undo_spec _ Hi). specialize (Hav eq_refl). unfold undo_count in *.
    destruct (undo_stack (history d)) as [|e u] eqn:Eu; [cbn in Hav; lia|]. cbn [undo_chain] in Hu. destruct Hu as [Hm Hu].
    set (h := with_stacks _ _ _ _).
    rewrite (proj1 Hm) by reflexivity. cbn [out_bind]. eexists. split; [reflexivity|]. cbn [set_history set_text history text].
    destruct Hi as (H1 & H2 & H3). rewrite Eu in H1, H2. rewrite total_cons in H1. cbn [List.length] in H2.
    split; [|split; [reflexivity|]].
    + split; [|split; [|split]]; cbn [present past future].
      * unfold hinv, push_redo. subst h. cbn. rewrite total_cons. repeat split; [lia|lia|intros; lia].
      * reflexivity.
      * subst h. cbn. exact Hu.
      * subst h. cbn. rewrite <- Ht. split; [exact Hm|exact Hr].
    + subst h. cbn. intros. lia.
  - destruct (future st) as [|f fs] eqn:Ef; [contradiction|]. subst st'.
    unfold doc_redo. rewrite (pop_redo_spec _ Hi). destruct (redo_stack (history d)) as [|e u] eqn:Eu; [cbn in Hr; contradiction|].
    cbn [redo_chain] in Hr. destruct Hr as [Hm Hr]. set (h := with_stacks _ _ _ _).
    rewrite (proj2 Hm) by reflexivity. cbn [out_bind set_text set_history history].
    assert (Hh : hinv h).
    { destruct Hi as (H1 & H2 & H3). rewrite Eu in H1, H2. rewrite total_cons in H1. cbn [List.length] in H2.
      subst h; unfold hinv; cbn; repeat split; [lia|intros; lia]. }
    set (h1 := match e_after e with Some c => set_cursor h (Some c) | None => h end).
    assert (Hh1 : hinv h1 /\ undo_stack h1 = undo_stack (history d) /\ limits h1 = limits (history d)) by (subst h1; destruct (e_after e); repeat split; apply Hh).
    destruct Hh1 as (Hh1 & Hus & HL).
    match goal with |- context [hist_push ?a ?b] => destruct (push_spec a b (proj1 Hh1)) as (u2 & w & Epush & Eu2 & _ & _ & Hmax); rewrite Epush end.
    eexists. split; [reflexivity|]. cbn [set_history set_text history text].
    split; [|split; [unfold limits in *; cbn; congruence|]].
    + split; [|split; [|split]]; cbn [present past future with_stacks undo_stack redo_stack].
      * eapply push_inv; [exact Hh1|exact Epush].
      * reflexivity.
      * apply (undo_chain_prefix u2 w). rewrite <- Eu2, Hus. cbn [undo_chain]. cbn [text]. rewrite <- Ht. split; [exact Hm|exact Hu].
      * exact I.
    + unfold undo_count. cbn. intros Hz Hl Hn. rewrite Hus in *. cbn [past] in *.
      pose proof (Hmax (_ :: undo_stack (history d)) [] (eq_sym (app_nil_r _))) as K. unfold limits in HL. injection HL as L1 L2.
      cbn [List.length] in K. rewrite L1, L2 in K. specialize (K ltac:(lia) ltac:(lia)).
      apply (f_equal (@List.length entry)) in Eu2. rewrite app_length in Eu2. cbn [List.length] in Eu2. lia.
Qed.

Lemma run_refines sz acts d st st' : refines d st -> Forall same_length acts -> ed_run true st acts st' ->
  forall d', do_acts sz d acts = Some d' -> refines d' st'.
Proof.
  intros H Hs Hr. revert d H Hs. induction Hr as [st|st a st1 l st2 Hstep Hr IH]; intros d H Hs d' E; cbn [do_acts] in E.
  - inversion E; subst. exact H.
  - inversion Hs; subst. destruct (do_act sz d a) as [d1 []|d1|] eqn:Ea; [|discriminate|discriminate].
    assert (Hav : a = AUndo -> undo_count d <> 0).
    { intros -> Hz. cbn [do_act] in Ea. unfold doc_undo in Ea. rewrite pop_undo_spec in Ea by apply H.
      unfold undo_count in Hz. destruct (undo_stack (history d)); [discriminate|discriminate Hz]. }
    destruct (act_refines sz d st a st1 H H2 Hstep Hav) as (d1' & E1 & Href & _). rewrite Ea in E1. inversion E1; subst. eapply IH; eauto.
Qed.
Lemma run_total sz acts d st st' : refines d st -> Forall same_length acts -> ed_run true st acts st' ->
  max_memory (history d) = 0 -> undo_count d = List.length (past st) ->
  List.length (past st) + List.length acts <= max_entries (history d) ->
  exists d', do_acts sz d acts = Some d' /\ refines d' st' /\ undo_count d' = List.length (past st').
Proof.
  intros H Hs Hr. revert d H Hs. induction Hr as [st|st a st1 l st2 Hstep Hr IH]; intros d H Hs Hz Hn Hl; cbn [do_acts].
  - eauto.
  - inversion Hs; subst.
    assert (Hp : List.length (past st1) <= S (List.length (past st))).
    { destruct a; cbn [ed_step] in Hstep; [destruct Hstep as (? & _ & ->); cbn; lia.. | |].
      - destruct (past st); [contradiction|]. subst. cbn. lia.
      - destruct (future st); [contradiction|]. subst. cbn. lia. }
    assert (Hav : a = AUndo -> undo_count d <> 0).
    { intros -> G. cbn [ed_step] in Hstep. destruct (past st); [contradiction|]. cbn in Hn. lia. }
    cbn [List.length] in Hl.
    destruct (act_refines sz d st a st1 H H2 Hstep Hav) as (d1' & E1 & Href & HL & Hcnt). rewrite E1.
    unfold limits in HL. injection HL as L1 L2. apply IH; auto; [congruence| |rewrite L1; lia]. apply Hcnt; auto. lia.
Qed.
Lemma fresh_refines me mm t : refines (fresh me mm t) (mkEd [] t []).
Proof. split; [apply fresh_inv|]. repeat split. Qed.

Lemma redo_after_push h e h' : hist_push h e = Some h' -> redo_stack h' = [].
Proof.
  unfold hist_push. destruct (drain _ _); [|discriminate]. destruct (enforce_limits _ _ _ _) as [[u m]|]; [|discriminate].
  intros E. inversion E. reflexivity.
Qed.
Lemma record_clears sz d o desc r d' : success r && changed r = true -> record_operation sz d o desc r = OOk d' tt ->
  redo_stack (history d') = [].
Proof.
  intros H. unfold record_operation. rewrite H. destruct (hist_push _ _) as [h|] eqn:E; [|discriminate].
  intros G. inversion G. destruct (n_cursor r); cbn; eapply redo_after_push; eauto.
Qed.
Lemma edit_clears sz d a d' : (exists p t, a = AInsert p t) \/ (exists r, a = ADelete r) \/ (exists r t, a = AReplace r t) ->
  do_act sz d a = OOk d' tt -> redo_stack (history d') = [].
Proof.
  intros [(p & t & ->)|[(r & ->)|(r & t & ->)]]; cbn [do_act].
  - unfold doc_insert, cmd_insert. destruct (insert_raw d p t); cbn [out_bind]; [|discriminate|discriminate]. apply record_clears. reflexivity.
  - unfold doc_delete, cmd_delete. destruct (text_range d r); try discriminate. destruct (delete_raw d r); cbn [out_bind]; try discriminate.
    apply record_clears. reflexivity.
  - unfold doc_replace, cmd_replace. destruct (text_range d r); try discriminate. destruct (replace_raw d r t); cbn [out_bind]; try discriminate.
    apply record_clears. reflexivity.
Qed.

(* ---- lines and columns ---- *)
Definition brk (c : N) := is_break c.
Lemma break_spec c : is_break c = true <-> break_char c.
Proof. unfold is_break, break_char. lia. Qed.
Lemma rope_lines_nonempty s : rope_lines s <> [].
Proof. destruct s; cbn [rope_lines]; [discriminate|]. destruct (is_break _ && _); [discriminate|]. destruct (rope_lines _); discriminate. Qed.
Lemma rope_lines_plain l r : Forall (fun c => ~ break_char c) l ->
  exists x ls, rope_lines r = x :: ls /\ rope_lines (l ++ r) = (l ++ x) :: ls.
Proof.
  intros H. induction H as [|c l Hc H IH]; cbn [app].
  - destruct (rope_lines r) as [|x ls] eqn:E; [exfalso; eapply rope_lines_nonempty; eauto|eauto].
  - destruct IH as (x & ls & E1 & E2). exists x, ls. split; [exact E1|]. cbn [rope_lines]. rewrite E2.
    destruct (is_break c) eqn:B; [apply break_spec in B; contradiction|]. reflexivity.
Qed.
Lemma rope_lines_break c r : break_char c -> (c = 13%N -> hd 0%N r <> 10%N) -> rope_lines (c :: r) = [c] :: rope_lines r.
Proof.
  intros B H. cbn [rope_lines]. apply break_spec in B. rewrite B. destruct (N.eqb_spec c 13); [|reflexivity].
  specialize (H e). destruct r as [|d r]; [reflexivity|]. cbn in H. destruct (N.eqb_spec d 10); [congruence|reflexivity].
Qed.
Lemma rope_lines_crlf r : rope_lines (13%N :: 10%N :: r) = [13; 10]%N :: rope_lines r.
Proof. reflexivity. Qed.

Definition place (ls : list str) (p : nat) : nat * nat :=
  let i := byte_to_line ls p in (i + 1, count_cols (nth i ls []) 0 (p - line_to_byte ls i) + 1).
Lemma place_next l ls p : ls <> [] -> place (l :: ls) (blen l + p) = let (i, c) := place ls p in (S i, c).
Proof.
  intros H. unfold place. destruct ls as [|x ls]; [congruence|]. cbn [byte_to_line].
  destruct (Nat.leb_spec (blen l) (blen l + p)); [|lia]. replace (blen l + p - blen l) with p by lia.
  set (i := byte_to_line (x :: ls) p). change (nth (S i) (l :: x :: ls) []) with (nth i (x :: ls) []).
  unfold line_to_byte. cbn [firstn fold_right]. f_equal. f_equal. f_equal. lia.
Qed.
Lemma count_cols_app a b k : count_cols (a ++ b) k (k + blen a) = List.length a.
Proof.
  revert k. induction a as [|c a IH]; intros k; cbn [app blen List.length].
  - destruct b; [reflexivity|]. cbn [count_cols]. destruct (Nat.leb_spec (k + 0) k); [reflexivity|lia].
  - cbn [count_cols]. pose proof (len_utf8_pos c). destruct (Nat.leb_spec (k + (len_utf8 c + blen a)) k); [lia|].
    f_equal. rewrite Nat.add_assoc. apply IH.
Qed.
Lemma place_first l rest ls x : x = l ++ rest -> (ls <> [] -> rest <> []) -> place (x :: ls) (blen l) = (1, 1 + List.length l).
Proof.
  intros -> H. unfold place. assert (E : byte_to_line ((l ++ rest) :: ls) (blen l) = 0).
  { destruct ls as [|y ls]; [reflexivity|]. cbn [byte_to_line]. destruct (Nat.leb_spec (blen (l ++ rest)) (blen l)); [|reflexivity].
    rewrite blen_app in *. destruct rest as [|c rest]; [exfalso; apply H; congruence|]. cbn in *. pose proof (len_utf8_pos c). lia. }
  rewrite E. cbn [nth line_to_byte firstn fold_right]. rewrite Nat.sub_0_r. pose proof (count_cols_app l rest 0) as G. cbn in G. rewrite G. f_equal. lia.
Qed.
Lemma rope_lines_first_nonempty s x ls : rope_lines s = x :: ls -> ls <> [] -> x <> [].
Proof.
  destruct s as [|c s]; cbn [rope_lines]; [intros E; inversion E; congruence|].
  destruct (is_break _ && _); [intros E; inversion E; congruence|]. destruct (rope_lines s) as [|y ys]; intros E; inversion E; congruence.
Qed.
Lemma line_col_place a b n k : line_col a b n k -> place (rope_lines (a ++ b)) (blen a) = (n, k).
Proof.
  induction 1 as [a b H|a b H|l a b n k H G IH|l c a b n k H Hc Hn G IH].
  - destruct (rope_lines_plain a b H) as (x & ls & E1 & E2). rewrite E2. apply place_first with (rest := x); [reflexivity|].
    eapply rope_lines_first_nonempty; eauto.
  - rewrite <- app_assoc. cbn [app]. destruct (rope_lines_plain a (13%N :: 10%N :: b) H) as (x & ls & E1 & E2). rewrite E2.
    rewrite rope_lines_crlf in E1. inversion E1; subst. rewrite (place_first (a ++ [13%N]) [10%N]).
    + rewrite app_length. cbn. f_equal. lia.
    + rewrite <- app_assoc. reflexivity.
    + discriminate.
  - rewrite <- !app_assoc. cbn [app]. destruct (rope_lines_plain l (13%N :: 10%N :: a ++ b) H) as (x & ls & E1 & E2). rewrite E2.
    rewrite rope_lines_crlf in E1. inversion E1; subst. change (l ++ 13%N :: 10%N :: a) with (l ++ [13; 10]%N ++ a).
    rewrite app_assoc, blen_app. rewrite place_next by apply rope_lines_nonempty. rewrite IH. reflexivity.
  - rewrite <- !app_assoc. cbn [app]. destruct (rope_lines_plain l (c :: a ++ b) H) as (x & ls & E1 & E2). rewrite E2.
    rewrite rope_lines_break in E1 by assumption. inversion E1; subst. change (l ++ c :: a) with (l ++ [c] ++ a).
    rewrite app_assoc, blen_app. rewrite place_next by apply rope_lines_nonempty. rewrite IH. reflexivity.
Qed.
Lemma line_col_cons c a b n k : ~ break_char c -> line_col a b n k -> exists k', line_col (c :: a) b n k'.
Proof.
  intros Hc H. destruct H as [a b H|a b H|l a b n k H G|l d a b n k H Hd Hn G].
  - eexists. apply (lc_first (c :: a)). constructor; assumption.
  - eexists. apply (lc_in_crlf (c :: a)). constructor; assumption.
  - eexists. apply (lc_crlf (c :: l)); [constructor; assumption|exact G].
  - eexists. apply (lc_break (c :: l)); [constructor; assumption|exact Hd|exact Hn|exact G].
Qed.
Lemma break_dec c : {break_char c} + {~ break_char c}.
Proof. destruct (is_break c) eqn:E; [left; apply break_spec; exact E|right; rewrite <- break_spec; congruence]. Qed.
Lemma line_col_exists a b : exists n k, line_col a b n k.
Proof.
  remember (List.length a) as m eqn:Em. revert a Em. induction m as [m IH] using lt_wf_ind. intros a Em.
  destruct a as [|c a]; [exists 1, (1 + 0); apply (lc_first []); constructor|]. cbn in Em.
  destruct (IH (List.length a) ltac:(lia) a eq_refl) as (n & k & H).
  destruct (break_dec c) as [Hc|Hc].
  - destruct (N.eq_dec c 13).
    + subst c. destruct (a ++ b) as [|d ab] eqn:Eab.
      * exists (S n), k. apply (lc_break [] 13%N a b); auto. intros _. rewrite Eab. cbn. lia.
      * destruct (N.eq_dec d 10).
        -- subst d. destruct a as [|d a].
           ++ cbn in Eab. subst b. exists 1, (2 + 0). apply (lc_in_crlf []). constructor.
           ++ cbn in Eab. injection Eab as Ed Eab. subst d. cbn in Em. destruct (IH (List.length a) ltac:(lia) a eq_refl) as (n' & k' & H').
              exists (S n'), k'. apply (lc_crlf [] a b); auto.
        -- exists (S n), k. apply (lc_break [] 13%N a b); auto. intros _. rewrite Eab. exact n0.
    + exists (S n), k. apply (lc_break [] c a b); auto; congruence.
  - exists n. eapply line_col_cons; eauto.
Qed.
Lemma position_spec a b n k : line_col a b n k -> position_to_line_column (a ++ b) (blen a) = Ok (n, k).
Proof.
  intros H. unfold position_to_line_column. destruct (Nat.ltb_spec (blen (a ++ b)) (blen a)); [rewrite blen_app in *; lia|].
  cbv zeta. apply line_col_place in H. unfold place in H. rewrite <- H. reflexivity.
Qed.

Lemma col_bytes_app a b : col_bytes (a ++ b) (List.length a) = (blen a, List.length a).
Proof.
  induction a as [|c a IH]; cbn [app List.length]; [destruct b; reflexivity|]. cbn [col_bytes]. rewrite IH. reflexivity.
Qed.
Definition built (ls : list str) (l c : nat) : option nat :=
  if List.length ls <=? l - 1 then None
  else let (b, n) := col_bytes (nth (l - 1) ls []) (c - 1) in if n <? c - 1 then None else Some (line_to_byte ls (l - 1) + b).
Lemma line_col_pos a b n k : line_col a b n k -> 1 <= n /\ 1 <= k.
Proof. induction 1; lia. Qed.
Lemma built_next l ls n c : 1 <= n -> built (l :: ls) (S n) c = option_map (fun p => blen l + p) (built ls n c).
Proof.
  intros H. unfold built. replace (S n - 1) with (S (n - 1)) by lia. cbn [List.length nth].
  change (S (List.length ls) <=? S (n - 1)) with (List.length ls <=? n - 1).
  destruct (List.length ls <=? n - 1); [reflexivity|]. destruct (col_bytes _ _) as [b m]. destruct (m <? c - 1); [reflexivity|].
  cbn. f_equal. unfold line_to_byte. cbn [firstn fold_right]. lia.
Qed.
Lemma line_col_built a b n k : line_col a b n k -> built (rope_lines (a ++ b)) n k = Some (blen a).
Proof.
  assert (F : forall l rest ls, built ((l ++ rest) :: ls) 1 (1 + List.length l) = Some (blen l)).
  { intros l rest ls. unfold built. replace (1 + List.length l - 1) with (List.length l) by lia.
    cbn [List.length Nat.sub nth Nat.leb]. rewrite col_bytes_app.
    destruct (Nat.ltb_spec (List.length l) (List.length l)); [lia|]. reflexivity. }
  induction 1 as [a b H|a b H|l a b n k H G IH|l c a b n k H Hc Hn G IH].
  - destruct (rope_lines_plain a b H) as (x & ls & E1 & E2). rewrite E2. apply F.
  - rewrite <- app_assoc. cbn [app]. destruct (rope_lines_plain a (13%N :: 10%N :: b) H) as (x & ls & E1 & E2). rewrite E2.
    rewrite rope_lines_crlf in E1. inversion E1; subst. change [13; 10]%N with ([13%N] ++ [10%N]). rewrite app_assoc.
    replace (2 + List.length a) with (1 + List.length (a ++ [13%N])) by (rewrite app_length; cbn; lia). apply F.
  - rewrite <- !app_assoc. cbn [app]. destruct (rope_lines_plain l (13%N :: 10%N :: a ++ b) H) as (x & ls & E1 & E2). rewrite E2.
    rewrite rope_lines_crlf in E1. inversion E1; subst. change (l ++ 13%N :: 10%N :: a) with (l ++ [13; 10]%N ++ a).
    rewrite (app_assoc l _ a), blen_app. rewrite built_next by (apply line_col_pos in G; lia). rewrite IH. reflexivity.
  - rewrite <- !app_assoc. cbn [app]. destruct (rope_lines_plain l (c :: a ++ b) H) as (x & ls & E1 & E2). rewrite E2.
    rewrite rope_lines_break in E1 by assumption. inversion E1; subst. change (l ++ c :: a) with (l ++ [c] ++ a).
    rewrite (app_assoc l _ a), blen_app. rewrite built_next by (apply line_col_pos in G; lia). rewrite IH. reflexivity.
Qed.
Lemma build_spec a b n k : line_col a b n k -> build_position (a ++ b) (Some n) (Some k) None = Ok (blen a).
Proof.
  intros H. destruct (line_col_pos _ _ _ _ H). apply line_col_built in H. unfold built in H. unfold build_position. cbv zeta.
  destruct (List.length (rope_lines (a ++ b)) <=? n - 1); [discriminate|].
  destruct (Nat.eqb_spec n 0); [lia|]. destruct (Nat.eqb_spec k 0); [lia|]. cbn [orb].
  destruct (col_bytes _ _) as [x y]. destruct (y <? k - 1); [discriminate|]. inversion H. reflexivity.
Qed.

(* ---- failures ---- *)
Lemma hinv_push_ok sz d o desc r : hinv (history d) -> exists d', record_operation sz d o desc r = OOk d' tt /\ text d' = text d.
Proof. intros H. destruct (record_inv sz d o desc r H) as (d' & E & _ & T & _). eauto. Qed.
Lemma insert_effect sz d p t a b : hinv (history d) -> text d = a ++ b -> p = blen a ->
  exists d', doc_insert sz d p t = OOk d' tt /\ text d' = a ++ t ++ b.
Proof.
  intros Hi E ->. unfold doc_insert, cmd_insert. rewrite (insert_raw_app d a b) by exact E. cbn [out_bind].
  match goal with |- context [record_operation ?a ?b ?c ?e ?f] => destruct (hinv_push_ok a b c e f) as (d' & -> & T) end; [exact Hi|].
  eauto.
Qed.
Lemma delete_effect sz d r a m b : hinv (history d) -> text d = a ++ m ++ b -> r_start r = blen a -> r_end r = blen a + blen m ->
  exists d', doc_delete sz d r = OOk d' tt /\ text d' = a ++ b.
Proof.
  intros Hi E H1 H2. unfold doc_delete, cmd_delete. rewrite (text_range_app d a m b), (delete_raw_app d a m b) by assumption. cbn [out_bind].
  match goal with |- context [record_operation ?a ?b ?c ?e ?f] => destruct (hinv_push_ok a b c e f) as (d' & -> & T) end; [exact Hi|].
  eauto.
Qed.
Lemma replace_effect sz d r t a m b : hinv (history d) -> text d = a ++ m ++ b -> r_start r = blen a -> r_end r = blen a + blen m ->
  exists d', doc_replace sz d r t = OOk d' tt /\ text d' = a ++ t ++ b.
Proof.
  intros Hi E H1 H2. unfold doc_replace, cmd_replace. rewrite (text_range_app d a m b), (replace_raw_app d a m b) by assumption. cbn [out_bind].
  match goal with |- context [record_operation ?a ?b ?c ?e ?f] => destruct (hinv_push_ok a b c e f) as (d' & -> & T) end; [exact Hi|].
  eauto.
Qed.
Lemma edit_effect sz d a p q t s' : hinv (history d) -> spliced (text d) p q t s' ->
  (a = AInsert p t /\ p = q) \/ (a = ADelete (mkRange p q) /\ t = []) \/ a = AReplace (mkRange p q) t ->
  exists d', do_act sz d a = OOk d' tt /\ text d' = s'.
Proof.
  intros Hi (x & m & b & E1 & E2 & E3 & E4) [[-> Epq]|[[-> ->]| ->]]; cbn [do_act].
  - assert (m = []) by (destruct m as [|c m]; [reflexivity|]; cbn in E3; pose proof (len_utf8_pos c); lia). subst m.
    destruct (insert_effect sz d p t x b) as (d' & H1 & H2); auto. exists d'. split; congruence.
  - destruct (delete_effect sz d (mkRange p q) x m b) as (d' & H1 & H2); auto. exists d'. split; [exact H1|]. rewrite H2, E4. reflexivity.
  - destruct (replace_effect sz d (mkRange p q) t x m b) as (d' & H1 & H2); auto. exists d'. split; congruence.
Qed.
Lemma out_of_bounds sz d a : 
  match a with AInsert p _ => blen (text d) < p | ADelete r | AReplace r _ => blen (text d) < r_end r | _ => False end ->
  do_act sz d a = OErr d.
Proof.
  destruct a as [p t|r|r t| |]; cbn [do_act]; intros H; try contradiction.
  - unfold doc_insert, cmd_insert, insert_raw. apply Nat.ltb_lt in H. rewrite H. reflexivity.
  - unfold doc_delete, text_range. apply Nat.ltb_lt in H. rewrite H. reflexivity.
  - unfold doc_replace, text_range. apply Nat.ltb_lt in H. rewrite H. reflexivity.
Qed.
Lemma rope_split_mono s p q : p <= q -> List.length (fst (rope_split s p)) <= List.length (fst (rope_split s q)).
Proof.
  revert p q. induction s as [|c s IH]; intros p q H; cbn [rope_split]; [cbn; lia|].
  destruct (Nat.leb_spec (len_utf8 c) p), (Nat.leb_spec (len_utf8 c) q); try lia.
  - specialize (IH (p - len_utf8 c) (q - len_utf8 c) ltac:(lia)). destruct (rope_split s (p - len_utf8 c)), (rope_split s (q - len_utf8 c)). cbn in *. lia.
  - destruct (rope_split s (q - len_utf8 c)). cbn. lia.
Qed.
Lemma delete_raw_no_panic d r : r_start r <= r_end r -> delete_raw d r <> OPanic.
Proof.
  intros H. unfold delete_raw. destruct (Nat.ltb_spec (blen (text d)) (r_end r)); [discriminate|].
  destruct (Nat.ltb_spec (blen (text d)) (r_start r)); [lia|].
  pose proof (rope_split_mono (text d) _ _ H) as M. destruct (rope_split (text d) (r_end r)) as [b c]. cbn [fst] in M.
  destruct (Nat.ltb_spec (List.length b) (List.length (fst (rope_split (text d) (r_start r))))); [lia|discriminate].
Qed.
Lemma insert_raw_no_panic d p t : insert_raw d p t <> OPanic.
Proof. unfold insert_raw. destruct (_ <? _); [discriminate|]. destruct (rope_split _ _); discriminate. Qed.
Lemma replace_raw_no_panic d r t : r_start r <= r_end r -> replace_raw d r t <> OPanic.
Proof.
  intros H. unfold replace_raw. pose proof (delete_raw_no_panic d r H). destruct (delete_raw d r) as [d1 []|d1|]; cbn [out_bind]; [apply insert_raw_no_panic|discriminate|congruence].
Qed.
Lemma text_range_no_panic d r : r_start r <= r_end r -> text_range d r <> Panic.
Proof.
  intros H. unfold text_range. destruct (Nat.ltb_spec (blen (text d)) (r_end r)); [discriminate|].
  destruct (Nat.ltb_spec (blen (text d)) (r_start r)); [lia|].
  pose proof (rope_split_mono (text d) _ _ H) as M. unfold byte_to_char.
  destruct (Nat.ltb_spec (List.length (fst (rope_split (text d) (r_end r)))) (List.length (fst (rope_split (text d) (r_start r))))); [lia|discriminate].
Qed.
Definition op_ordered (o : operation) : Prop :=
  match o with OpInsert _ _ => True | OpDelete r _ | OpReplace r _ _ => r_start r <= r_end r end.
Definition act_ordered (a : act) : Prop :=
  match a with ADelete r | AReplace r _ => r_start r <= r_end r | _ => True end.
Definition ordered (d : doc) : Prop :=
  Forall (fun e => op_ordered (e_op e)) (undo_stack (history d)) /\ Forall (fun e => op_ordered (e_op e)) (redo_stack (history d)).
Lemma undo_op_no_panic d o : op_ordered o -> undo_op d o <> OPanic.
Proof.
  destruct o as [p t|r t|r a b]; cbn [undo_op op_ordered]; intros H.
  - apply delete_raw_no_panic. rewrite range_new_le by lia. cbn. lia.
  - apply insert_raw_no_panic.
  - apply replace_raw_no_panic. exact H.
Qed.
Lemma redo_op_no_panic d o : op_ordered o -> redo_op d o <> OPanic.
Proof.
  destruct o as [p t|r t|r a b]; cbn [redo_op op_ordered]; intros H.
  - apply insert_raw_no_panic.
  - apply delete_raw_no_panic. exact H.
  - apply replace_raw_no_panic. exact H.
Qed.
Lemma push_ordered h e h' : hinv h -> hist_push h e = Some h' -> op_ordered (e_op e) ->
  Forall (fun e => op_ordered (e_op e)) (undo_stack h) -> Forall (fun e => op_ordered (e_op e)) (undo_stack h') /\ redo_stack h' = [].
Proof.
  intros Hi E Ho Hu. destruct (push_spec h e (proj1 Hi)) as (u & w & E' & Eu & _). rewrite E in E'. inversion E'. cbn. split; [|reflexivity].
  assert (G : Forall (fun e => op_ordered (e_op e)) (u ++ w)) by (rewrite <- Eu; constructor; assumption).
  apply Forall_app in G. apply G.
Qed.
Lemma record_ordered sz d o desc r : hinv (history d) -> op_ordered o -> ordered d ->
  exists d', record_operation sz d o desc r = OOk d' tt /\ ordered d'.
Proof.
  intros Hi Ho [Hu Hr]. unfold record_operation. destruct (success r && changed r); [|exists d; split; [reflexivity|split; assumption]].
  edestruct (push_some (history d)) as (h & E); [exact Hi|]. rewrite E. eexists. split; [reflexivity|].
  destruct (push_ordered _ _ _ Hi E Ho Hu) as [A B]. unfold ordered. destruct (n_cursor r); cbn; rewrite B; split; auto.
Qed.
Lemma act_no_panic sz d a : hinv (history d) -> ordered d -> act_ordered a ->
  match do_act sz d a with OOk d' _ | OErr d' => ordered d' | OPanic => False end.
Proof.
  intros Hi Ho Ha.
  assert (G : forall d1 o desc r, history d1 = history d -> op_ordered o ->
     match record_operation sz d1 o desc r with OOk d' _ | OErr d' => ordered d' | OPanic => False end).
  { intros d1 o desc r E Hop. destruct (record_ordered sz d1 o desc r) as (d2 & -> & H2); [congruence|exact Hop|unfold ordered in *; rewrite E; exact Ho|exact H2]. }
  assert (K : forall d1, history d1 = history d -> ordered d1) by (intros d1 E; unfold ordered in *; rewrite E; exact Ho).
  destruct a as [p t|r|r t| |]; cbn [do_act act_ordered] in *.
  - unfold doc_insert. pose proof (cmd_hist_ins d p t). destruct (cmd_insert d p t) as [d1 c|d1|]; cbn [out_bind]; [apply G; cbn; auto|auto|auto].
  - unfold doc_delete. pose proof (text_range_no_panic d r Ha). destruct (text_range d r) as [old| |]; [|exact Ho|congruence].
    pose proof (cmd_hist_del d r). pose proof (delete_raw_no_panic d r Ha). unfold cmd_delete in *.
    destruct (delete_raw d r) as [d1 c|d1|]; cbn [out_bind] in *; [apply G; cbn; auto|auto|congruence].
  - unfold doc_replace. pose proof (text_range_no_panic d r Ha). destruct (text_range d r) as [old| |]; [|exact Ho|congruence].
    pose proof (cmd_hist_rep d r t). pose proof (replace_raw_no_panic d r t Ha). unfold cmd_replace in *.
    destruct (replace_raw d r t) as [d1 c|d1|]; cbn [out_bind] in *; [apply G; cbn; auto|auto|congruence].
  - unfold doc_undo. rewrite (pop_undo_spec _ Hi). destruct Ho as [Hu Hr]. destruct (undo_stack (history d)) as [|e u] eqn:Eu; [split; [rewrite Eu; assumption|assumption]|].
    inversion Hu; subst. set (h := with_stacks _ _ _ _).
    pose proof (undo_op_hist (set_history d h) (e_op e)) as Q. pose proof (undo_op_no_panic (set_history d h) (e_op e) H1).
    destruct (undo_op (set_history d h) (e_op e)) as [d1 []|d1|]; cbn [out_bind]; [| |congruence].
    + unfold ordered. cbn. cbn in Q. rewrite Q. subst h. cbn. split; [assumption|constructor; assumption].
    + cbn in Q. unfold ordered. rewrite Q. subst h. cbn. split; assumption.
  - unfold doc_redo. rewrite (pop_redo_spec _ Hi). destruct Ho as [Hu Hr]. destruct (redo_stack (history d)) as [|e u] eqn:Eu; [split; [assumption|rewrite Eu; assumption]|].
    inversion Hr; subst. set (h := with_stacks _ _ _ _).
    assert (Hh : hinv h).
    { destruct Hi as (X1 & X2 & X3). rewrite Eu in X1, X2. rewrite total_cons in X1. cbn [List.length] in X2.
      subst h; unfold hinv; cbn; repeat split; [lia|intros; lia]. }
    pose proof (redo_op_hist (set_history d h) (e_op e)) as Q. pose proof (redo_op_no_panic (set_history d h) (e_op e) H1).
    destruct (redo_op (set_history d h) (e_op e)) as [d1 []|d1|]; cbn [out_bind]; [| |congruence].
    + cbn in Q. rewrite Q. set (h1 := match e_after e with Some c => set_cursor h (Some c) | None => h end).
      assert (Hh1 : hinv h1 /\ undo_stack h1 = undo_stack (history d)) by (subst h1; destruct (e_after e); split; try reflexivity; apply Hh).
      match goal with |- context [hist_push ?a ?b] => destruct (push_some a b (proj1 Hh1)) as (h2 & E2); rewrite E2 end.
      destruct (push_ordered _ _ _ (proj1 Hh1) E2) as [A B]; [exact H1|rewrite (proj2 Hh1); assumption|]. unfold ordered. cbn. rewrite B. split; auto.
    + cbn in Q. unfold ordered. rewrite Q. subst h. cbn. split; assumption.
Qed.
Lemma all_no_panic sz l d : hinv (history d) -> ordered d -> Forall act_ordered l -> exists d', do_all sz d l = Some d'.
Proof.
  revert d. induction l as [|a l IH]; intros d Hi Ho Hl; cbn [do_all]; [eauto|]. inversion Hl; subst.
  pose proof (act_no_panic sz d a Hi Ho H1) as P. pose proof (do_act_inv sz d a Hi) as Q.
  destruct (do_act sz d a) as [d1 []|d1|]; [| |contradiction]; apply IH; auto; apply Q.
Qed.
Lemma record_top sz d o desc r : hinv (history d) -> success r && changed r = true ->
  max_memory (history d) = 0 -> 1 <= max_entries (history d) ->
  exists d1 e u, record_operation sz d o desc r = OOk d1 tt /\ hinv (history d1) /\ text d1 = text d /\
    undo_stack (history d1) = e :: u /\ e_op e = o.
Proof.
  intros Hi Hr Hm He. destruct (record_inv sz d o desc r Hi) as (d1 & E & Hi1 & Ht & _).
  unfold record_operation in E |- *. rewrite Hr in E |- *.
  match type of E with match hist_push ?h ?e with _ => _ end = _ => destruct (push_spec h e (proj1 Hi)) as (u & w & Ep & Eu & _ & _ & Hx); rewrite Ep in E |- * end.
  exists d1. destruct u as [|x u].
  - exfalso. cbn [app] in Eu. specialize (Hx [_] _ eq_refl). cbn in Hx. specialize (Hx He ltac:(lia)). lia.
  - cbn [app] in Eu. injection Eu as Ex Ew. exists x, u. split; [exact E|]. split; [exact Hi1|]. split; [exact Ht|].
    inversion E. destruct (n_cursor r); cbn; split; auto; rewrite <- Ex; reflexivity.
Qed.
Lemma undo_top d e u s : hinv (history d) -> undo_stack (history d) = e :: u ->
  (forall dd, text dd = text d -> undo_op dd (e_op e) = OOk (set_text dd s) tt) ->
  exists d2, doc_undo d = OOk d2 tt /\ text d2 = s.
Proof.
  intros Hi Eu H. unfold doc_undo. rewrite (pop_undo_spec _ Hi), Eu. rewrite H by reflexivity. cbn [out_bind]. eexists. split; reflexivity.
Qed.
