(* C119-C121: incremental edits of a document, their undo, and script deltas. *)
From Verif Require Import Base BaseLemmas DocModel DocSpec DocProofs ParseModel ParseSpec ParseProofs IncrModel IncrBounds IncrProofs EventCmdSpec EventCmdProofs StyleCmdSpec StyleCmdProofs StyleCmdProps SortLib ScriptDeltaModel ScriptDeltaSpec ScriptDeltaProofs.

Local Definition lines (l : list string) : str := flat_map (fun s => lit s ++ [10%N]) l.
Local Definition at_ (a m : str) : range := mkRange (blen a) (blen a + blen m).

(* ---- C119: incremental edits ---- *)
(* The edit changes the text as an ordinary replacement does, if it is small or
   the text the parser remembers can be cut at the same bytes. *)
Theorem incremental_exact show d a m b x : it d = a ++ m ++ b -> is_simple_edit (at_ a m) x = true \/ usable d (blen a) (blen m) ->
  exists d' o, edit_incremental show d (at_ a m) x = IOk d' o /\ it d' = a ++ x ++ b.
Proof.
  intros T H. destruct (is_simple_edit (at_ a m) x) eqn:S.
  - unfold edit_incremental. rewrite S. destruct (fast_ok d a m b x T) as [o E]. unfold at_ in *. rewrite E. eauto.
  - destruct H as [H|H]; [discriminate H|]. destruct (delta_of_ok show d a m b x T H) as (c & n & p & o & D). destruct (slow_ok show d a m b x c n p o T S D) as (sc & _ & E). unfold at_. rewrite E. eauto.
Qed.
(* Otherwise it panics. *)
Theorem incremental_panics show d a m b x c : it d = a ++ m ++ b -> is_simple_edit (at_ a m) x = false -> ic d = Some c -> ichanged d < ithreshold d -> ~ fits c (blen a) (blen m) ->
  edit_incremental show d (at_ a m) x = IPanic.
Proof. intros. now apply (panics_ok show d a m b x c). Qed.
(* The remembered text follows the large edits only: not the small ones, nor
   ordinary edits. *)
Theorem remembered_large show d a m b x : it d = a ++ m ++ b -> is_simple_edit (at_ a m) x = false -> ic d = Some (it d) -> ichanged d < ithreshold d -> (1 + newlines (it d) <= u32_max)%N ->
  exists d' o, edit_incremental show d (at_ a m) x = IOk d' o /\ it d' = a ++ x ++ b /\ ic d' = Some (it d').
Proof.
  intros T S C L N. assert (D : exists n p o, delta_of show d (at_ a m) x = IOk (with_cache d (Some (a ++ x ++ b)) n p) o).
  { unfold delta_of, apply_change. rewrite C. destruct (Nat.leb_spec (ithreshold d) (ichanged d)); [lia|]. unfold at_ in *. cbn [r_start r_end].
    destruct (Nat.ltb_spec (blen (it d)) (blen a + blen m)) as [Q|_]; [rewrite T, !blen_app in Q; lia|]. destruct (Nat.ltb_spec (blen a + blen m) (blen a)); [lia|]. cbn [orb].
    rewrite (boundary_at (it d) (blen a) a (m ++ b)) by auto. rewrite (boundary_at (it d) (blen a + blen m) (a ++ m) b) by (rewrite ?blen_app, <- ?app_assoc; auto). cbn [negb orb].
    destruct (parse_done None (it d)) as [sc E]. unfold parse. rewrite E. destruct (partial_fits (it d) sc a m b x T N) as [dl ->]. rewrite T, slice_app. eauto. }
  destruct D as (n & p & o & D). destruct (slow_ok show d a m b x _ n p o T S D) as (sc & _ & E). do 2 eexists. split; [exact E|]. split; reflexivity.
Qed.
Theorem remembered_small show d a m b x : it d = a ++ m ++ b -> is_simple_edit (at_ a m) x = true -> exists d' o, edit_incremental show d (at_ a m) x = IOk d' o /\ ic d' = ic d.
Proof. intros T S. unfold edit_incremental. rewrite S. destruct (fast_ok d a m b x T) as [o E]. unfold at_. rewrite E. do 2 eexists. split; reflexivity. Qed.
Theorem remembered_insert d a b x : it d = a ++ b -> exists d', i_insert d (blen a) x = IOk d' tt /\ it d' = a ++ x ++ b /\ ic d' = ic d.
Proof. intros T. unfold i_insert. rewrite (raw_insert d a b x T). cbn [ibind]. eexists. split; [reflexivity|]. split; reflexivity. Qed.
(* So a document that was opened, then given a line, then edited at its end
   panics. *)
Lemma ok_inj (d d' : idoc) : IOk d tt = IOk d' tt -> d = d'.
Proof. congruence. Qed.
Theorem incremental_after_insert_refuted show : exists t x d1, i_insert (from_content t) (blen t) (lines ["Dialogue: 0,0:00:01.00,0:00:02.00,A,,0,0,0,,one"]%string) = IOk d1 tt /\
  edit_incremental show d1 (range_new (blen (it d1)) (blen (it d1))) x = IPanic.
Proof.
  set (t := lines ["[Events]"; "Format: Layer, Start, End, Style, Name, MarginL, MarginR, MarginV, Effect, Text"]%string). set (y := lines ["Dialogue: 0,0:00:01.00,0:00:02.00,A,,0,0,0,,one"]%string).
  exists t, (y ++ y ++ y). destruct (remembered_insert (from_content t) t [] y) as (d1 & E & T & C); [symmetry; apply app_nil_r|].
  exists d1. split; [exact E|]. assert (Hd : d1 = record (with_text (from_content t) (t ++ y)) (Simple (OpInsert (blen t) y))).
  { unfold i_insert in E. rewrite (raw_insert (from_content t) t [] y) in E by (symmetry; apply app_nil_r). cbn [ibind] in E. rewrite app_nil_r in E. symmetry. exact (ok_inj _ _ E). }
  replace (range_new (blen (it d1)) (blen (it d1))) with (at_ (it d1) []); [|unfold at_, range_new; rewrite Nat.leb_refl; cbn [blen]; now rewrite Nat.add_0_r].
  apply (incremental_panics show d1 (it d1) [] [] _ t); [now rewrite app_nil_r|subst d1; vm_compute; reflexivity|subst d1; reflexivity|subst d1; apply Nat.ltb_lt; vm_compute; reflexivity|].
  rewrite T, app_nil_r. intros (a & m & b & F & F1 & _). assert (Q : blen t = blen (a ++ m ++ b)) by now rewrite <- F. rewrite !blen_app in Q. rewrite blen_app in F1. assert (0 < blen y) by (apply Nat.ltb_lt; vm_compute; reflexivity). lia.
Qed.
(* The delta commands edit as the ordinary ones where they do not panic. *)
Definition edits (d : idoc) (a m b x : str) (c : delta_command) : Prop :=
  it d = a ++ m ++ b /\
  match c with
  | DInsert p y => p = blen a /\ m = [] /\ y = x
  | DReplace r y => r = at_ a m /\ y = x
  | DEventEdit old y => old = m /\ m <> [] /\ first_at m a /\ y = x
  end.
Theorem delta_command_exact show d a m b x c : edits d a m b x c -> is_simple_edit (at_ a m) x = true \/ usable d (blen a) (blen m) ->
  exists d', run_delta_command show d c = IOk d' tt /\ it d' = a ++ x ++ b.
Proof.
  intros [T E] H. destruct (incremental_exact show d a m b x T H) as (d' & o & I & T'). exists d'. split; [|exact T']. unfold run_delta_command.
  assert (R : range_new (blen a) (blen a + blen m) = at_ a m) by (unfold range_new; destruct (Nat.leb_spec (blen a) (blen a + blen m)); [reflexivity|lia]).
  destruct c as [p y|r y|old y].
  - destruct E as (-> & -> & ->). replace (range_new (blen a) (blen a)) with (at_ a []) by (rewrite <- R; cbn [blen]; now rewrite Nat.add_0_r). now rewrite I.
  - destruct E as (-> & ->). now rewrite I.
  - destruct E as (-> & N & F & ->). unfold edit_event_incremental. rewrite T at 1. rewrite find_first by assumption. rewrite R. now rewrite I.
Qed.
Theorem delta_command_absent show d old new : ~ has old (it d) -> run_delta_command show d (DEventEdit old new) = IOk d tt.
Proof. intros H. unfold run_delta_command, edit_event_incremental, i_edit_event_text. rewrite (find_missing _ _ H). now rewrite (find_missing _ _ H). Qed.
Theorem edit_safe_exact show d a m b x : it d = a ++ m ++ b -> is_simple_edit (at_ a m) x = true \/ usable d (blen a) (blen m) -> exists d', edit_safe show d (at_ a m) x = IOk d' tt /\ it d' = a ++ x ++ b.
Proof. intros T H. destruct (incremental_exact show d a m b x T H) as (d' & o & I & T'). exists d'. unfold edit_safe. rewrite I. now split. Qed.
Example incremental_instance : let t := lines ["[Events]"; "Dialogue: 0,0:00:01.00,0:00:02.00,A,,0,0,0,,one"]%string in
  let x := lines ["Dialogue: 0,0:00:01.00,0:00:02.00,A,,0,0,0,,two"; "Dialogue: 0,0:00:01.00,0:00:02.00,A,,0,0,0,,three"]%string in
  is_simple_edit (at_ t []) x = false /\ usable (from_content t) (blen t) (blen []) /\ (1 + newlines t <= u32_max)%N.
Proof.
  cbv zeta. split; [vm_compute; reflexivity|]. split; [|vm_compute; discriminate]. right. right. eexists. split; [reflexivity|]. split; [|vm_compute; discriminate].
  eexists _, [], []. rewrite app_nil_r. now repeat split.
Qed.

(* ---- C120: undoing incremental edits ---- *)
(* After a large edit that changed at most two sections and added none, undo
   says it succeeded and leaves the text as it is. *)
Theorem undo_incremental_nothing show d a m b x : it d = a ++ m ++ b -> is_simple_edit (at_ a m) x = false -> usable d (blen a) (blen m) ->
  exists d1 o, edit_incremental show d (at_ a m) x = IOk d1 o /\ it d1 = a ++ x ++ b /\
    (ow_added o = [] -> List.length (ow_removed o) + List.length (ow_modified o) <= 2 ->
     exists d2, i_undo d1 = IOk d2 tt /\ it d2 = it d1 /\ iu d2 = iu d).
Proof.
  intros T S U. destruct (delta_of_ok show d a m b x T U) as (c & n & p & o & D). destruct (slow_ok show d a m b x c n p o T S D) as (sc & _ & E). do 2 eexists. split; [exact E|]. split; [reflexivity|].
  intros A L. unfold i_undo. cbn [iu]. unfold capture. rewrite A. cbn [List.length Nat.add]. destruct (Nat.leb_spec (List.length (ow_removed o) + List.length (ow_modified o)) 2); [|lia].
  cbn [undo_dop ud_removed ud_modified each ibind]. rewrite A. cbn [each ibind]. eexists. split; [reflexivity|]. split; reflexivity.
Qed.
(* Redoing it then puts the debug form of the section in its place. *)
Theorem redo_incremental_debug d pre bs1 bs2 s body y f u i r sc : ir d = DeltaOp (Owned [] [(i, y)] []) (UndoData f u) :: r ->
  cut_into (it d) pre (bs1 ++ (section_type_of s, body) :: bs2) -> parse (it d) = Done sc -> nth_error (sc_sections sc) i = Some s ->
  exists d2, i_redo d = IOk d2 tt /\ it d2 = (pre ++ render bs1) ++ y ++ render bs2.
Proof.
  intros R (T & P & F & N) E I. unfold i_redo. rewrite R. cbn [redo_dop]. unfold apply_script_delta, apply_internal. set (k := with_history d (iu d) r). assert (TK : it k = it d) by reflexivity. rewrite !(iparse_ok k _ sc) by exact E. change (descending (ow_removed (Owned [] [(i, y)] []))) with (@nil nat). cbn [apply_removed ibind ow_modified ow_added apply_modified].
  rewrite I. rewrite TK, T, (section_range_at pre bs1 bs2 body s P F N). rewrite (raw_replace k (pre ++ render bs1) (block_text (section_type_of s, body)) (render bs2) _ y); [|rewrite TK, T, render_app, render_cons, app_assoc; reflexivity|reflexivity].
  cbn [ibind apply_added]. destruct (parse_done None ((pre ++ render bs1) ++ y ++ render bs2)) as [sc2 E2]. rewrite (iparse_ok _ _ sc2) by exact E2. cbn [ibind]. eexists. split; reflexivity.
Qed.
Local Definition old_line := lit "Dialogue: 0,0:00:01.00,0:00:02.00,A,,0,0,0,,one".
Local Definition long_line := lit "Dialogue: 0,0:00:01.00,0:00:02.00,A,,0,0,0,,a text that is so long that the edit is not taken for a small one, as it has more than 100 bytes".
Local Definition front := lines ["[Script Info]"; "Title: T"; "[Events]"; "Format: Layer, Start, End, Style, Name, MarginL, MarginR, MarginV, Effect, Text"]%string.
Theorem undo_redo_incremental_refuted : exists d1 o d2 d3, let debug := fun _ : section => lit "Events([..])" in
  edit_incremental debug (from_content (front ++ old_line ++ [10%N])) (at_ front old_line) long_line = IOk d1 o /\ it d1 = front ++ long_line ++ [10%N] /\
  i_undo d1 = IOk d2 tt /\ it d2 = front ++ long_line ++ [10%N] /\
  i_redo d2 = IOk d3 tt /\ it d3 = lines ["[Script Info]"; "Title: T"]%string ++ lit "Events([..])".
Proof. do 4 eexists. cbv zeta. split; [vm_compute; reflexivity|]. split; [vm_compute; reflexivity|]. split; [vm_compute; reflexivity|]. split; [vm_compute; reflexivity|]. split; vm_compute; reflexivity. Qed.
(* In a document that was created empty and then filled, undoing the first
   large edit removes all the sections. *)
Theorem undo_first_edit_refuted : exists d0 d1 o d2, let debug := fun _ : section => lit "Events([..])" in
  i_insert new_doc 0 (front ++ old_line ++ [10%N]) = IOk d0 tt /\ edit_incremental debug d0 (at_ front old_line) long_line = IOk d1 o /\ it d1 = front ++ long_line ++ [10%N] /\
  i_undo d1 = IOk d2 tt /\ it d2 = [].
Proof. do 4 eexists. cbv zeta. split; [vm_compute; reflexivity|]. split; [vm_compute; reflexivity|]. split; [vm_compute; reflexivity|]. split; vm_compute; reflexivity. Qed.
Example undo_incremental_instance : let t := front ++ old_line ++ [10%N] in is_simple_edit (at_ front old_line) long_line = false /\ usable (from_content t) (blen front) (blen old_line) /\
  cut_into (front ++ long_line ++ [10%N]) [] [(TInfo, lit "" ++ 10%N :: lines ["Title: T"]%string); (TEvents, 10%N :: lines ["Format: Layer, Start, End, Style, Name, MarginL, MarginR, MarginV, Effect, Text"]%string ++ long_line ++ [10%N])].
Proof.
  cbv zeta. split; [vm_compute; reflexivity|]. split; [right; right; eexists; split; [reflexivity|]; split; [eexists _, _, _; repeat split|vm_compute; discriminate]|].
  assert (NH : forall s, existsb (fun ty => match find_str (section_header ty) s with Some _ => true | None => false end) [TInfo; TStyles; TEvents; TFonts; TGraphics] = false -> headless s).
  { intros s H ty Q. apply has_find in Q as [r Q]. assert (existsb (fun ty => match find_str (section_header ty) s with Some _ => true | None => false end) [TInfo; TStyles; TEvents; TFonts; TGraphics] = true); [|congruence].
    apply existsb_exists. exists ty. split; [destruct ty; cbn [In]; tauto|]. now rewrite Q. }
  split; [vm_compute; reflexivity|]. split; [apply NH; vm_compute; reflexivity|]. split; [repeat constructor; apply NH; vm_compute; reflexivity|]. cbn [map fst]. repeat constructor; cbn [In]; intuition discriminate.
Qed.

(* ---- C121: script deltas ---- *)
(* In a text of sections of different kinds, with no other header text, a delta
   removes, rewrites and adds the sections it says, and nothing else. *)
Theorem script_delta_exact d pre bs sc removed modified added : cut_into (it d) pre bs -> parse (it d) = Done sc -> map section_type_of (sc_sections sc) = map fst bs ->
  NoDup removed -> NoDup (map fst modified) -> (forall i, In i removed -> ~ In i (map fst modified)) -> Forall (fun p => headless (snd p)) modified ->
  exists d', apply_script_delta d (Owned added (with_headers (map fst bs) modified) removed) = IOk d' tt /\
    it d' = fold_left add_section added (pre ++ render (map (rewritten (map fst bs) modified) (kept removed bs))).
Proof. intros C E K NR NM D H. rewrite (apply_delta_ok d pre bs sc removed modified added C E K NR NM D H). eexists. split; reflexivity. Qed.
(* It is not recorded: undo takes back the edit before it. *)
Theorem script_delta_not_recorded d o d' : apply_script_delta d o = IOk d' tt -> iu d' = iu d /\ ir d' = ir d.
Proof.
  assert (RW : forall d f d1, raw d f = IOk d1 tt -> iu d1 = iu d /\ ir d1 = ir d).
  { intros d0 f d1 H. unfold raw in H. destruct (f _); try discriminate H. injection H as <-. now split. }
  assert (R : forall l is d d1, apply_removed d l is = IOk d1 tt -> iu d1 = iu d /\ ir d1 = ir d).
  { intros l. induction is as [|i is IH]; intros d0 d1 H; cbn [apply_removed] in H; [injection H as <-; now split|]. destruct (nth_error l i); [|now apply IH]. destruct (section_range (it d0) s); [|discriminate H]. destruct (raw d0 _) as [k []| |] eqn:Q; try discriminate H. cbn [ibind] in H. apply RW in Q as [<- <-]. now apply IH. }
  assert (M : forall l ms d d1, apply_modified d l ms = IOk d1 tt -> iu d1 = iu d /\ ir d1 = ir d).
  { intros l. induction ms as [|[i x] ms IH]; intros d0 d1 H; cbn [apply_modified] in H; [injection H as <-; now split|]. destruct (nth_error l i); [|now apply IH]. destruct (section_range (it d0) s); [|discriminate H]. destruct (raw d0 _) as [k []| |] eqn:Q; try discriminate H. cbn [ibind] in H. apply RW in Q as [<- <-]. now apply IH. }
  unfold apply_script_delta, apply_internal, iparse. intros H. destruct (parse (it d)) as [sc| |]; try discriminate H.
  destruct (apply_removed d _ _) as [d1 []| |] eqn:E1; try discriminate H. cbn [ibind] in H. destruct (apply_modified d1 _ _) as [d2 []| |] eqn:E2; try discriminate H. cbn [ibind] in H. rewrite added_ok in H. cbn [ibind] in H. destruct (parse _); try discriminate H. injection H as <-. cbn [with_text iu ir]. apply R in E1 as [<- <-]. now apply M in E2.
Qed.
Local Definition two_events := lines ["[Events]"; "Format: Start, End, Text"; "[Fonts]"; "[Events]"; "Format: Start, End, Text"; "Dialogue: 0:00:01.00,0:00:02.00,one"]%string.
(* With two sections of a kind the first is changed, whichever index is given. *)
Theorem script_delta_kind_refuted : exists d d', it d = two_events /\ apply_script_delta d (Owned [] [] [2]) = IOk d' tt /\
  it d' = lines ["[Fonts]"; "[Events]"; "Format: Start, End, Text"; "Dialogue: 0:00:01.00,0:00:02.00,one"]%string /\
  exists sc, parse (it d) = Done sc /\ map section_type_of (sc_sections sc) = [TEvents; TFonts; TEvents].
Proof. exists (from_content two_events). eexists. split; [reflexivity|]. split; [vm_compute; reflexivity|]. split; [vm_compute; reflexivity|]. eexists. split; vm_compute; reflexivity. Qed.
(* Old style sections are not found: an error, after what came before it in the
   delta has been done. *)
Theorem script_delta_partly_refuted : exists d d', it d = lines ["[V4 Styles]"; "Format: Name"; "Style: A"; "[Fonts]"]%string /\
  apply_script_delta d (Owned [] [] [0; 1]) = IErr d' /\ it d' = lines ["[V4 Styles]"; "Format: Name"; "Style: A"]%string.
Proof. exists (from_content (lines ["[V4 Styles]"; "Format: Name"; "Style: A"; "[Fonts]"]%string)). eexists. split; [reflexivity|]. split; vm_compute; reflexivity. Qed.
(* Undo data, where there are any, reach to the end of the text. *)
Theorem extract_to_end t s a b c : t = a ++ header_of s ++ c :: b -> first_at (header_of s) a -> (forall ty r, c :: b <> section_header ty ++ r) -> extract t s = Some (header_of s ++ c :: b).
Proof.
  intros -> F N. unfold extract. rewrite find_first by (try apply header_ne; exact F). rewrite skipn_app, Nat.sub_diag, skipn_all. cbn [skipn app].
  destruct (existsb (fun h => starts_with h (c :: b)) all_headers) eqn:E; [|reflexivity]. exfalso. apply existsb_exists in E as (h & I & E). apply headers_inv in I as [ty ->]. apply starts_with_spec in E as [r E]. exact (N ty r E).
Qed.
Example script_delta_instance : let t := lines ["[Script Info]"; "Title: T"; "[Events]"; "Format: Start, End, Text"; "[Fonts]"]%string in
  let bs := [(TInfo, 10%N :: lines ["Title: T"]%string); (TEvents, 10%N :: lines ["Format: Start, End, Text"]%string); (TFonts, [10%N])] in
  (exists sc, parse t = Done sc /\ map section_type_of (sc_sections sc) = map fst bs) /\ t = render bs /\
  exists d', apply_script_delta (from_content t) (Owned [lit "[Graphics]"] (with_headers (map fst bs) [(0, 10%N :: lines ["Title: U"]%string)]) [1]) = IOk d' tt /\ it d' = lines ["[Script Info]"; "Title: U"; "[Fonts]"; "[Graphics]"]%string.
Proof. cbv zeta. split; [eexists; split; vm_compute; reflexivity|]. split; [reflexivity|]. eexists. split; vm_compute; reflexivity. Qed.
Print Assumptions incremental_exact.
Print Assumptions incremental_panics.
Print Assumptions remembered_large.
Print Assumptions remembered_small.
Print Assumptions remembered_insert.
Print Assumptions incremental_after_insert_refuted.
Print Assumptions delta_command_exact.
Print Assumptions delta_command_absent.
Print Assumptions edit_safe_exact.
Print Assumptions undo_incremental_nothing.
Print Assumptions redo_incremental_debug.
Print Assumptions undo_redo_incremental_refuted.
Print Assumptions undo_first_edit_refuted.
Print Assumptions script_delta_exact.
Print Assumptions script_delta_not_recorded.
Print Assumptions script_delta_kind_refuted.
Print Assumptions script_delta_partly_refuted.
Print Assumptions extract_to_end.
