(* Model of the script deltas of the document with features stream, rope and
   std: crates/ass-editor/core/document, delta_apply.rs, delta_sections.rs,
   delta_undo.rs, undo_redo.rs, incremental_edit.rs, incremental_fast.rs,
   incremental_parse.rs, core/incremental/*.rs and commands/delta_commands/*.rs.
   Simplified: the history is two lists without limits (the limits are in
   DocModel) and without cursors and descriptions; the issues of a delta are
   left out, as nothing reads them; the changes the parser keeps are counted. *)
From Verif Require Export Base DocModel ParseModel IncrModel.
From Verif Require Import SortLib.

(* ass-core parser/script/delta.rs:100-112 ScriptDeltaOwned *)
Record owned := Owned { ow_added : list str; ow_modified : list (nat * str); ow_removed : list nat }.
(* history/operation.rs:17-22 *)
Record undo_data := UndoData { ud_removed : list (nat * str); ud_modified : list (nat * str) }.
Inductive dop := Simple (o : operation) | DeltaOp (forward : owned) (data : undo_data).
Record idoc := IDoc {
  it : str; iu : list dop; ir : list dop;
  ic : option str; ichanged : nat; ithreshold : nat; ipending : nat }.
Definition with_text (d : idoc) (t : str) : idoc := IDoc t (iu d) (ir d) (ic d) (ichanged d) (ithreshold d) (ipending d).
Definition with_history (d : idoc) (u r : list dop) : idoc := IDoc (it d) u r (ic d) (ichanged d) (ithreshold d) (ipending d).
Definition with_cache (d : idoc) (c : option str) (n p : nat) : idoc := IDoc (it d) (iu d) (ir d) c n (ithreshold d) p.
(* stack.rs push: a new entry empties the redo list *)
Definition record (d : idoc) (o : dop) : idoc := with_history d (o :: iu d) [].
(* constructors.rs:22-40 new, 137-165 from_content *)
Definition new_doc : idoc := IDoc [] [] [] None 0 (100 * 100) 0.
Definition from_content (t : str) : idoc := IDoc t [] [] (Some t) 0 (100 * 100) 0.

Inductive iout (A : Type) := IOk (d : idoc) (a : A) | IErr (d : idoc) | IPanic.
Arguments IOk {A}. Arguments IErr {A}. Arguments IPanic {A}.
Definition ibind {A B} (o : iout A) (f : idoc -> A -> iout B) : iout B :=
  match o with IOk d a => f d a | IErr d => IErr d | IPanic => IPanic end.
(* an edit of the text alone (editing_raw.rs), as DocModel has it *)
Definition raw (d : idoc) (f : doc -> out unit) : iout unit :=
  match f (mkDoc (it d) true (mkHist 0 0 [] [] 0 None)) with
  | OOk x _ => IOk (with_text d (text x)) tt
  | OErr x => IErr (with_text d (text x))
  | OPanic => IPanic
  end.
Definition irange (d : idoc) (r : range) : res str := text_range (mkDoc (it d) true (mkHist 0 0 [] [] 0 None)) r.
Definition iparse {A} (d : idoc) (f : script -> iout A) : iout A :=
  match parse (it d) with Done sc => f sc | Crash | Stuck => IPanic end.
(* editing.rs:104-135 replace *)
Definition i_replace (d : idoc) (r : range) (x : str) : iout unit :=
  match irange d r with
  | Panic => IPanic | Err => IErr d
  | Ok old => ibind (raw d (fun k => replace_raw k r x)) (fun d1 _ => IOk (record d1 (Simple (OpReplace r old x))) tt)
  end.
(* editing.rs:42-69 insert *)
Definition i_insert (d : idoc) (p : nat) (x : str) : iout unit :=
  ibind (raw d (fun k => insert_raw k p x)) (fun d1 _ => IOk (record d1 (Simple (OpInsert p x))) tt).

(* ---- sections in the text ---- *)
Definition header_of (s : section) : str := section_header (section_type_of s).
(* delta_apply.rs:107-125 find_section_start *)
Definition section_start (t : str) (s : section) : option nat := match find_str (header_of s) t with Some (a, _) => Some (blen a) | None => None end.
(* delta_apply.rs:141-148: the first place of each header after the start *)
Definition end_step (content : str) (e : nat) (h : str) : nat :=
  match find_str h content with Some (a, _) => if 0 <? blen a then Nat.min e (blen a) else e | None => e end.
(* delta_apply.rs:128-151 find_section_end *)
Definition section_end (t : str) (s : section) : option nat :=
  match find_str (header_of s) t with
  | Some (a, content) => Some (blen a + fold_left (end_step content) all_headers (blen content))
  | None => None
  end.
Definition section_range (t : str) (s : section) : option range :=
  match section_start t s, section_end t s with Some a, Some b => Some (range_new a b) | _, _ => None end.
(* delta_apply.rs:49-64 *)
Fixpoint apply_removed (d : idoc) (l : list section) (is : list nat) : iout unit :=
  match is with
  | [] => IOk d tt
  | i :: r =>
    match nth_error l i with
    | None => apply_removed d l r
    | Some s =>
      match section_range (it d) s with
      | None => IErr d
      | Some rg => ibind (raw d (fun k => delete_raw k rg)) (fun d1 _ => apply_removed d1 l r)
      end
    end
  end.
(* delta_apply.rs:67-80 *)
Fixpoint apply_modified (d : idoc) (l : list section) (ms : list (nat * str)) : iout unit :=
  match ms with
  | [] => IOk d tt
  | (i, x) :: r =>
    match nth_error l i with
    | None => apply_modified d l r
    | Some s =>
      match section_range (it d) s with
      | None => IErr d
      | Some rg => ibind (raw d (fun k => replace_raw k rg x)) (fun d1 _ => apply_modified d1 l r)
      end
    end
  end.
Definition ends_nl (t : str) : bool := match unsnoc t with Some (_, c) => (c =? 10)%N | None => false end.
Definition append (d : idoc) (x : str) : iout unit := raw d (fun k => insert_raw k (blen (it d)) x).
(* delta_apply.rs:85-97, delta_sections.rs:25-37 *)
Definition append_section (d : idoc) (x : str) : iout unit :=
  ibind (if (0 <? blen (it d)) && negb (ends_nl (it d)) then append d [10%N] else IOk d tt) (fun d1 _ =>
  ibind (append d1 x) (fun d2 _ => if ends_nl x then IOk d2 tt else append d2 [10%N])).
Fixpoint apply_added (d : idoc) (l : list str) : iout unit :=
  match l with [] => IOk d tt | x :: r => ibind (append_section d x) (fun d1 _ => apply_added d1 r) end.
Definition descending (l : list nat) : list nat := stable_sort (fun a b => b <=? a) l.
(* delta_apply.rs:43-104 apply_script_delta_internal *)
Definition apply_internal (d : idoc) (o : owned) : iout unit :=
  iparse d (fun sc =>
  ibind (apply_removed d (sc_sections sc) (descending (ow_removed o))) (fun d1 _ =>
  ibind (apply_modified d1 (sc_sections sc) (ow_modified o)) (fun d2 _ =>
  ibind (apply_added d2 (ow_added o)) (fun d3 _ => iparse d3 (fun _ => IOk d3 tt))))).

(* ---- undo data ---- *)
(* delta_undo.rs:80-118 extract_section_text; the closure that looks for the end
   does not look at the place it is asked about *)
Definition extract (t : str) (s : section) : option str :=
  match find_str (header_of s) t with
  | None => None
  | Some (_, b) =>
    let after := skipn (List.length (header_of s)) b in
    match after with
    | _ :: _ => Some (if existsb (fun h => starts_with h after) all_headers then header_of s else b)
    | [] => Some b
    end
  end.
Definition captured (t : str) (l : list section) (i : nat) : list (nat * str) :=
  match nth_error l i with Some s => [(i, match extract t s with Some x => x | None => [] end)] | None => [] end.
(* delta_undo.rs:20-77 capture_delta_undo_data *)
Definition capture (t : str) (sc : script) (o : owned) : undo_data :=
  if List.length (ow_added o) + List.length (ow_removed o) + List.length (ow_modified o) <=? 2 then UndoData [] []
  else UndoData (flat_map (captured t (sc_sections sc)) (ow_removed o)) (flat_map (fun p => captured t (sc_sections sc) (fst p)) (ow_modified o)).
(* delta_apply.rs:20-40 apply_script_delta; CommandResult::success() says that
   nothing changed, so that record_operation does not record it *)
Definition apply_script_delta (d : idoc) (o : owned) : iout unit := iparse d (fun _ => apply_internal d o).

(* delta_sections.rs:159-180 find_section_end_from_start *)
Definition end_step_from (content : str) (start : nat) (rest : str) (e : nat) (h : str) : nat :=
  match find_str h rest with Some (a, _) => if start + 1 + blen a <? e then start + 1 + blen a else e | None => e end.
Definition section_span_from (t : str) (h : str) : option range :=
  match find_str h t with
  | None => None
  | Some (a, b) => Some (range_new (blen a) (fold_left (end_step_from t (blen a) (skipn 1 b)) all_headers (blen t)))
  end.
(* delta_sections.rs:19-84 insert_section_at *)
Definition insert_section_at (d : idoc) (index : nat) (x : str) : iout unit :=
  iparse d (fun sc =>
  match nth_error (sc_sections sc) index with
  | None => append_section d x
  | Some s =>
    match section_start (it d) s with
    | None => IErr d
    | Some p =>
      let x1 := if ends_nl x then x else x ++ [10%N] in
      let x2 := if p <? blen (it d) then x1 ++ [10%N] else x1 in
      raw d (fun k => insert_raw k p x2)
    end
  end).
(* delta_sections.rs:87-117 replace_section *)
Definition replace_section (d : idoc) (index : nat) (x : str) : iout unit :=
  iparse d (fun sc =>
  match nth_error (sc_sections sc) index with
  | None => IOk d tt
  | Some s => match section_span_from (it d) (header_of s) with None => IErr d | Some rg => raw d (fun k => replace_raw k rg x) end
  end).
(* delta_sections.rs:120-147 remove_last_section *)
Definition remove_last_section (d : idoc) : iout unit :=
  iparse d (fun sc =>
  match unsnoc (sc_sections sc) with
  | None => IOk d tt
  | Some (_, s) => match section_span_from (it d) (header_of s) with None => IErr d | Some rg => raw d (fun k => delete_raw k rg) end
  end).
Fixpoint each {A} (f : idoc -> A -> iout unit) (d : idoc) (l : list A) : iout unit :=
  match l with [] => IOk d tt | x :: r => ibind (f d x) (fun d1 _ => each f d1 r) end.
(* undo_redo.rs:30-77 *)
Definition undo_dop (d : idoc) (o : dop) : iout unit :=
  match o with
  | Simple o => raw d (fun k => undo_op k o)
  | DeltaOp f u =>
    ibind (each (fun d p => insert_section_at d (fst p) (snd p)) d (ud_removed u)) (fun d1 _ =>
    ibind (each (fun d p => replace_section d (fst p) (snd p)) d1 (ud_modified u)) (fun d2 _ =>
    each (fun d _ => remove_last_section d) d2 (ow_added f)))
  end.
(* undo_redo.rs:21-93 undo *)
Definition i_undo (d : idoc) : iout unit :=
  match iu d with
  | [] => IErr d
  | o :: u => ibind (undo_dop (with_history d u (ir d)) o) (fun d1 _ => IOk (with_history d1 (iu d1) (o :: ir d1)) tt)
  end.
(* undo_redo.rs:108-140 *)
Definition redo_dop (d : idoc) (o : dop) : iout unit :=
  match o with Simple o => raw d (fun k => redo_op k o) | DeltaOp f _ => apply_script_delta d f end.
(* undo_redo.rs:99-164 redo; pushing the entry again empties the redo list *)
Definition i_redo (d : idoc) : iout unit :=
  match ir d with
  | [] => IErr d
  | o :: r => ibind (redo_dop (with_history d (iu d) r) o) (fun d1 _ => IOk (record d1 o) tt)
  end.

(* ---- incremental edits ---- *)
Section Debug.
(* how Debug prints a section *)
Context (show : section -> str).
Definition shown_delta (dl : delta) : owned := Owned (map show (dl_added dl)) (map (fun p => (fst p, show (snd p))) (dl_modified dl)) (dl_removed dl).
(* reparse.rs:17-70 full_reparse; the text given is the one before the change *)
Definition full_reparse (d : idoc) (content : str) : iout owned :=
  match parse content with
  | Done new =>
    let d1 := with_cache d (Some content) 0 0 in
    match ic d with
    | Some c => match parse c with Done old => IOk d1 (shown_delta (calculate_delta old new)) | Crash | Stuck => IPanic end
    | None => IOk d1 (Owned (map show (sc_sections new)) [] [])
    end
  | Crash | Stuck => IPanic
  end.
(* ass-core partial.rs:43-86 parse_partial *)
Definition parse_partial (source : str) (sc : script) (r : range) (x : str) : run (str * delta) :=
  match build_modified_source source (r_start r) (r_end r) x with
  | Ok src =>
    match calculate_line_range source (r_start r) (r_end r) with
    | Ok _ => new <- parse_incremental sc src (Change (r_start r) (r_end r) x) ;; Done (src, calculate_delta sc new)
    | _ => Crash
    end
  | _ => Crash
  end.
Definition abs_diff (a b : nat) : nat := (a - b) + (b - a).
(* apply.rs:20-107 apply_change.  update_cached_script (reparse.rs:73-113) makes
   the source parse_partial has made, and its checks hold where that one did not
   panic; parse_incremental never fails. *)
Definition apply_change (d : idoc) (r : range) (x : str) : iout owned :=
  match ic d with
  | None => full_reparse d (it d)
  | Some c =>
    if ithreshold d <=? ichanged d then full_reparse d (it d) else
    if (blen (it d) <? r_end r) || (r_end r <? r_start r) then IErr d else
    if negb (is_boundary (it d) (r_start r)) || negb (is_boundary (it d) (r_end r)) then IErr d else
    match slice (it d) (r_start r) (r_end r) with
    | None => IPanic
    | Some old =>
      match parse c with
      | Done sc =>
        match parse_partial c sc r x with
        | Done (src, dl) => IOk (with_cache d (Some src) (ichanged d + abs_diff (blen x) (blen old)) (S (ipending d))) (shown_delta dl)
        | Crash | Stuck => IPanic
        end
      | Crash | Stuck => IPanic
      end
    end
  end.
Definition no_delta : owned := Owned [] [] [].
(* incremental_fast.rs:21-90 *)
Definition fast_path (d : idoc) (r : range) (x : str) : iout owned :=
  if negb (is_boundary (it d) (r_start r)) || negb (is_boundary (it d) (r_end r)) then ibind (i_replace d r x) (fun d1 _ => IOk d1 no_delta)
  else match (if range_is_empty r then Ok [] else irange d r) with
       | Panic => IPanic | Err => IErr d
       | Ok old => ibind (raw d (fun k => replace_raw k r x)) (fun d1 _ => IOk (record d1 (Simple (OpReplace r old x))) no_delta)
       end.
(* incremental_edit.rs:49-81 *)
Definition delta_of (d : idoc) (r : range) (x : str) : iout owned :=
  match apply_change d r x with
  | IErr d1 =>
    let d2 := if (ithreshold d1 <=? ichanged d1) || (50 <? ipending d1) then with_cache d1 None 0 0 else d1 in
    match apply_change d2 r x with
    | IErr d3 => IOk d3 (Owned [] [(0, lit "Script modified")] [])
    | o => o
    end
  | o => o
  end.
(* incremental_edit.rs:28-121 edit_incremental *)
Definition edit_incremental (d : idoc) (r : range) (x : str) : iout owned :=
  if is_simple_edit r x then fast_path d r x else
  match irange d r with
  | Panic => IPanic | Err => IErr d
  | Ok _ =>
    ibind (delta_of d r x) (fun d1 o =>
    iparse d1 (fun sc =>
    let d2 := record d1 (DeltaOp o (capture (it d1) sc o)) in
    ibind (raw d2 (fun k => replace_raw k r x)) (fun d3 _ => IOk d3 o)))
  end.
(* incremental_parse.rs:31-46 edit_safe *)
Definition edit_safe (d : idoc) (r : range) (x : str) : iout unit :=
  match edit_incremental d r x with
  | IOk d1 _ => IOk d1 tt
  | IErr d1 => i_replace d1 r x
  | IPanic => IPanic
  end.
(* incremental_parse.rs:50-64 edit_event_incremental *)
Definition edit_event_incremental (d : idoc) (old new : str) : iout owned :=
  match find_str old (it d) with
  | Some (a, _) => edit_incremental d (range_new (blen a) (blen a + blen old)) new
  | None => IErr d
  end.
(* ass_api.rs:106-115 *)
Definition i_edit_event_text (d : idoc) (old new : str) : iout unit :=
  match find_str old (it d) with
  | Some (a, _) => i_replace d (range_new (blen a) (blen a + blen old)) new
  | None => IOk d tt
  end.
(* delta_commands/insert.rs:24-64, replace.rs:24-66, event_edit.rs:24-66: the
   incremental edit, and where it is an error the ordinary one *)
Inductive delta_command := DInsert (p : nat) (x : str) | DReplace (r : range) (x : str) | DEventEdit (old new : str).
Definition run_delta_command (d : idoc) (c : delta_command) : iout unit :=
  let first := match c with
    | DInsert p x => edit_incremental d (range_new p p) x
    | DReplace r x => edit_incremental d r x
    | DEventEdit o n => edit_event_incremental d o n
    end in
  match first with
  | IOk d1 _ => IOk d1 tt
  | IErr d1 => match c with DInsert p x => i_insert d1 p x | DReplace r x => i_replace d1 r x | DEventEdit o n => i_edit_event_text d1 o n end
  | IPanic => IPanic
  end.
(* delta_commands/batch.rs:29-41 *)
Fixpoint run_delta_batch (d : idoc) (l : list delta_command) : iout unit :=
  match l with [] => IOk d tt | c :: r => ibind (run_delta_command d c) (fun d1 _ => run_delta_batch d1 r) end.
End Debug.
