(* Properties of editing a parsed script in place: C19, C20, C21. *)
From Verif Require Import Base BaseLemmas ParseModel ParseSpec ScriptModel ScriptSpec ScriptProofs ScriptMoreProofs ScriptLayout.
From Coq Require Import Lia.

Definition rows (l : list string) : str := join [10%N] (map lit l).
Definition film_text : str := rows ["[Script Info]"; "Title: a"; "[V4+ Styles]"; "Format: Name, Fontname"; "Style: A,Arial"; "Style: B,Courier";
  "[Events]"; "Format: Start, Text"; "Dialogue: 0:00:01.00,one"; "Dialogue: 0:00:02.00,two"]%string.
Definition film_script : script := Eval vm_compute in match parse film_text with Done s => s | _ => Script AssV4 [] [] None None end.
Definition film : escript := EScript film_script ct_default.
Definition tracked : escript := enable_change_tracking film.
Definition op_style : update_op := Op 61 (lit "Style: A,Times") 5%N.
Definition op_one : update_op := Op 130 (lit "Dialogue: 0:00:05.00,uno") 9%N.
Definition op_two : update_op := Op 160 (lit "Dialogue: 0:00:06.00,due") 10%N.
Definition op_wrong : update_op := Op 130 (lit "no colon here") 9%N.
Definition op_title : update_op := Op 16 (lit "Title: b") 2%N.
Definition op_note : update_op := Op 16 (lit "Note:") 2%N.
Definition op_note_again : update_op := Op 16 (lit "Note: x") 2%N.
Lemma film_laid_out : laid_out (sc_sections film_script).
Proof. unfold laid_out. split; cbn; repeat (constructor; cbn; try lia). Qed.
Lemma film_named : Forall (names_line film_script) [op_one; op_style; op_two].
Proof.
  repeat apply Forall_cons; [right|left|right|apply Forall_nil]; unfold names_line; cbn [sc_sections film_script]; do 3 eexists.
  - split; [right; right; left; reflexivity|]. split; [left; reflexivity|]. split; vm_compute; reflexivity.
  - split; [right; left; reflexivity|]. split; [left; reflexivity|]. split; vm_compute; reflexivity.
  - split; [right; right; left; reflexivity|]. split; [right; left; reflexivity|]. split; vm_compute; reflexivity.
Qed.
Lemma film_distinct : name_distinct film_script [op_one; op_style; op_two].
Proof.
  assert (K : forall a b, existsb (fun sp => covers sp (op_offset a) && covers sp (op_offset b)) (flat_map item_spans (sc_sections film_script)) = false ->
    forall sp, In sp (flat_map item_spans (sc_sections film_script)) -> covers sp (op_offset a) = true -> covers sp (op_offset b) = true -> False).
  { intros a b H sp I A B. assert (X : existsb (fun sp => covers sp (op_offset a) && covers sp (op_offset b)) (flat_map item_spans (sc_sections film_script)) = true).
    { apply existsb_exists. exists sp. rewrite A, B. auto. } congruence. }
  repeat (apply FOP_cons; [repeat (apply Forall_cons; [apply K; vm_compute; reflexivity|]); apply Forall_nil|]). apply FOP_nil.
Qed.

(* The lines of a parsed script lie in the order of the text. *)
Theorem parsed_laid_out : forall reg src sc, small src -> headers_closed (source_lines src) = true -> parse_with reg src = Done sc ->
  laid_out (sc_sections sc).
Proof. exact parse_laid_out. Qed.
Print Assumptions parsed_laid_out.
Example parsed_laid_out_instance : small film_text /\ headers_closed (source_lines film_text) = true /\ parse film_text = Done film_script.
Proof. split; [vm_compute; discriminate|]. split; vm_compute; reflexivity. Qed.

(* ---- C20: a batch changes exactly the lines it names ---- *)
Theorem batch_changes_named_lines : forall d ops, let sc := es_script d in
  laid_out (sc_sections sc) -> Forall (names_line sc) ops -> name_distinct sc ops ->
  exists d' u, batch_update_lines d ops = (d', Batch u []) /\
    es_script d' = set_sections sc (map (rewrite_section sc ops) (sc_sections sc)) /\ Permutation (map fst u) (map op_offset ops).
Proof. exact batch_exact. Qed.
Print Assumptions batch_changes_named_lines.
Theorem parsed_batch_changes_named_lines : forall reg src sc ct ops, small src -> headers_closed (source_lines src) = true -> parse_with reg src = Done sc ->
  Forall (names_line sc) ops -> name_distinct sc ops ->
  exists d' u, batch_update_lines (EScript sc ct) ops = (d', Batch u []) /\
    es_script d' = set_sections sc (map (rewrite_section sc ops) (sc_sections sc)) /\ Permutation (map fst u) (map op_offset ops).
Proof. intros reg src sc ct ops H1 H2 H3. apply (batch_exact (EScript sc ct) ops). exact (parse_laid_out reg src sc H1 H2 H3). Qed.
Print Assumptions parsed_batch_changes_named_lines.
(* Whatever the script and the batch: lines that no operation names are kept in
   their places, each operation has one outcome, and the old line reported for
   an operation is the line that stood there before the batch. *)
Theorem batch_touches_only_named : forall d ops d' b, batch_update_lines d ops = (d', b) ->
  es_script d' = set_sections (es_script d) (es_sections d') /\
  Forall2 (section_touched (es_script d) ops) (es_sections d) (es_sections d') /\
  Permutation (map fst (br_updated b) ++ map fst (br_failed b)) (map op_offset ops) /\ Forall (old_line (es_script d)) (br_updated b).
Proof. exact batch_any. Qed.
Print Assumptions batch_touches_only_named.
Theorem batch_add_styles_adds : forall d new d' ix, batch_add_styles d new = (d', ix) ->
  exists start, styles_added new (es_sections d) (es_sections d') start /\ ix = seq start (List.length new) /\
    es_script d' = set_sections (es_script d) (es_sections d') /\ es_tracker d' = es_tracker d.
Proof. exact add_styles_spec. Qed.
Print Assumptions batch_add_styles_adds.
Theorem batch_add_events_adds : forall d new d' ix, batch_add_events d new = (d', ix) ->
  exists start, events_added new (es_sections d) (es_sections d') start /\ ix = seq start (List.length new) /\
    es_script d' = set_sections (es_script d) (es_sections d') /\ es_tracker d' = es_tracker d.
Proof. exact add_events_spec. Qed.
Print Assumptions batch_add_events_adds.
Theorem add_one_style : forall d x, add_style d x = (fst (batch_add_styles d [x]), hd 0 (snd (batch_add_styles d [x]))).
Proof. exact add_style_is_batch. Qed.
Print Assumptions add_one_style.
Theorem add_one_event : forall d x, add_event d x = (fst (batch_add_events d [x]), hd 0 (snd (batch_add_events d [x]))).
Proof. exact add_event_is_batch. Qed.
Print Assumptions add_one_event.
Example batch_instance : laid_out (sc_sections film_script) /\ Forall (names_line film_script) [op_one; op_style; op_two] /\
  name_distinct film_script [op_one; op_style; op_two] /\
  map (fun s => match s with SEvents l => map e_text l | SStyles l => map s_fontname l | _ => [] end)
    (es_sections (fst (batch_update_lines film [op_one; op_style; op_two]))) = [[]; [lit "Times"; lit "Courier"]; [lit "uno"; lit "due"]].
Proof. split; [exact film_laid_out|]. split; [exact film_named|]. split; [exact film_distinct|]. vm_compute. reflexivity. Qed.
(* An updated line loses its place: once the last event has been updated, no
   other event can be. *)
Theorem update_after_update_refuted : exists d op op', laid_out (es_sections d) /\ Forall (names_line (es_script d)) [op'; op] /\ name_distinct (es_script d) [op'; op] /\
  snd (update_line (fst (update_line d op)) op') = Bad ENoSection.
Proof.
  exists film, op_two, op_one. split; [exact film_laid_out|]. pose proof film_named as N. pose proof film_distinct as D.
  inversion N as [|x1 l1 N1 N2]; subst. inversion N2 as [|x2 l2 N3 N4]; subst. split; [constructor; assumption|]. split; [|vm_compute; reflexivity].
  inversion D as [|x3 l3 D1 D2]; subst. inversion D2 as [|x4 l4 D3 D4]; subst. apply FOP_cons; [constructor; [|constructor]; exact (Forall_inv (Forall_inv_tail D1))|exact D4].
Qed.
Print Assumptions update_after_update_refuted.

(* ---- C19: all or nothing ---- *)
Theorem atomic_failure_keeps_script : forall d ops styles events d' e, atomic_batch_update d ops styles events = (d', Bad e) -> d' = d.
Proof. exact atomic_bad. Qed.
Print Assumptions atomic_failure_keeps_script.
(* On success every operation was applied, in the given order, and then the
   additions. *)
Theorem atomic_success_applies_all : forall d ops styles events d', atomic_batch_update d ops styles events = (d', Good tt) ->
  exists d1 u l, run_batch d ops = (d1, Batch u []) /\ map fst u = map op_offset ops /\
    Forall2 (section_touched (es_script d) ops) (es_sections d) (es_sections d1) /\
    with_styles styles (es_sections d1) l /\ with_events events l (es_sections d') /\ es_script d' = set_sections (es_script d) (es_sections d').
Proof. exact atomic_good_touched. Qed.
Print Assumptions atomic_success_applies_all.
Theorem atomic_applies_sorted : forall d ops, let sc := es_script d in laid_out (sc_sections sc) -> Forall (names_line sc) ops -> name_distinct sc ops ->
  StronglySorted (fun a b => op_offset a <= op_offset b) ops ->
  exists d', atomic_batch_update d ops None None = (d', Good tt) /\ es_script d' = set_sections sc (map (rewrite_section sc ops) (sc_sections sc)).
Proof. exact atomic_exact. Qed.
Print Assumptions atomic_applies_sorted.
Example atomic_instance : snd (atomic_batch_update film [op_style; op_wrong] None None) = Bad (EField 9) /\
  snd (atomic_batch_update film [op_style; op_one; op_one] None None) = Bad ENoLine /\
  snd (atomic_batch_update film [op_style; op_one; op_two] None (Some [])) = Good tt.
Proof. repeat split; vm_compute; reflexivity. Qed.
(* The operations are not sorted here, so naming the last line first fails. *)
Theorem atomic_order_refuted : exists d ops, laid_out (es_sections d) /\ snd (atomic_batch_update d ops None None) = Good tt /\
  snd (atomic_batch_update d (rev ops) None None) = Bad ENoSection.
Proof. exists film, [op_one; op_two]. split; [exact film_laid_out|]. split; vm_compute; reflexivity. Qed.
Print Assumptions atomic_order_refuted.

(* ---- C21: change tracking ---- *)
(* histories are newest call first *)
Theorem tracker_records_enabled : forall h, let t := fold_right do_track ct_default h in ct_enabled t = tracking h /\ ct_changes t = recorded h.
Proof. exact track_history. Qed.
Print Assumptions tracker_records_enabled.
Example tracker_instance : let a := CSectionRemoved TInfo 0 in let b := CSectionRemoved TInfo 1 in
  ct_changes (fold_right do_track ct_default [TRecord b; TDisable; TRecord b; TRecord a; TClear; TRecord b; TEnable; TRecord a]) = [a; b].
Proof. reflexivity. Qed.
(* Adding and removing sections while tracking is on records exactly what is
   needed to repeat it. *)
Theorem tracked_sections_replay : forall ops d, ct_enabled (es_tracker d) = true ->
  exists cs, ct_changes (es_tracker (fold_left (fun d o => do_section o d) ops d)) = ct_changes (es_tracker d) ++ cs /\
    fold_left replay cs (es_sections d) = es_sections (fold_left (fun d o => do_section o d) ops d).
Proof. exact replay_history. Qed.
Print Assumptions tracked_sections_replay.
Theorem tracked_update_recorded : forall d op d' old, update_line d op = (d', Good old) -> ct_enabled (es_tracker d) = true -> (forall k, old <> LField k []) ->
  exists t new, parse_line_auto (es_script d) (op_line op) (op_number op) = Good (t, new) /\
    ct_changes (es_tracker d') = ct_changes (es_tracker d) ++ [CModified (op_offset op) old new (op_number op)].
Proof. exact update_recorded. Qed.
Print Assumptions tracked_update_recorded.
Theorem tracked_field_added : forall d op d' k, update_line d op = (d', Good (LField k [])) -> ct_enabled (es_tracker d) = true ->
  (forall f sp v, In (SInfo f sp) (es_sections d) -> ~ In (k, v) f) ->
  exists t new, parse_line_auto (es_script d) (op_line op) (op_number op) = Good (t, new) /\
    ct_changes (es_tracker d') = ct_changes (es_tracker d) ++ [CAdded (op_offset op) new (op_number op)].
Proof. exact update_field_added. Qed.
Print Assumptions tracked_field_added.
Theorem untracked_update_silent : forall d op, ct_enabled (es_tracker d) = false -> es_tracker (fst (update_line d op)) = es_tracker d.
Proof. exact update_untracked. Qed.
Print Assumptions untracked_update_silent.
Theorem failed_update_silent : forall d op d' e, update_line d op = (d', Bad e) -> d' = d.
Proof. exact update_line_bad. Qed.
Print Assumptions failed_update_silent.
Example tracked_update_instance : ct_enabled (es_tracker tracked) = true /\
  snd (update_line tracked op_title) = Good (LField (lit "Title") (lit "a")) /\ snd (update_line tracked op_note) = Good (LField (lit "Note") []) /\
  ct_changes (es_tracker (fst (update_line tracked op_note))) = [CAdded 16 (LField (lit "Note") []) 2].
Proof. repeat split; vm_compute; reflexivity. Qed.
(* Giving a value to an empty field changes the script without being recorded, *)
Theorem field_update_unrecorded_refuted : exists d op old, ct_enabled (es_tracker d) = true /\ snd (update_line d op) = Good old /\
  ct_changes (es_tracker (fst (update_line d op))) = ct_changes (es_tracker d) /\ es_sections (fst (update_line d op)) <> es_sections d.
Proof.
  exists (fst (update_line tracked op_note)), op_note_again, (LField (lit "Note") []). repeat split; try (vm_compute; reflexivity). vm_compute. discriminate.
Qed.
Print Assumptions field_update_unrecorded_refuted.
(* and so do adding styles and events. *)
Theorem add_event_unrecorded_refuted : exists d x, ct_enabled (es_tracker d) = true /\
  ct_changes (es_tracker (fst (add_event d x))) = ct_changes (es_tracker d) /\ es_sections (fst (add_event d x)) <> es_sections d.
Proof.
  destruct (new_event film_script op_one) as [x|] eqn:E; [|vm_compute in E; discriminate]. exists (EScript (set_sections film_script []) (ct_enable ct_default)), x.
  repeat split; try reflexivity. discriminate.
Qed.
Print Assumptions add_event_unrecorded_refuted.
(* The difference of two scripts, read place by place, turns the second into
   the first, and is empty just when their sections are equal. *)
Theorem diff_patches : forall d other,
  patched (Nat.max (List.length (es_sections d)) (List.length (es_sections other))) (diff d other) (es_sections other) = es_sections d.
Proof. exact diff_rebuilds. Qed.
Print Assumptions diff_patches.
Theorem diff_empty : forall d other, diff d other = [] <-> es_sections d = es_sections other.
Proof. intros d other. split; [apply diff_nil|]. intros H. unfold diff. rewrite H. apply diff_self. Qed.
Print Assumptions diff_empty.
(* Replaying it in order, as the changes recorded by a tracker can be, goes
   wrong when several sections were removed. *)
Theorem diff_replay_refuted : exists d other, fold_left replay (diff d other) (es_sections other) <> es_sections d.
Proof. exists (with_sections film []), film. vm_compute. discriminate. Qed.
Print Assumptions diff_replay_refuted.
