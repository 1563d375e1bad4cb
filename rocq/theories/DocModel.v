(* Model of the editor document, its undo history and the text commands:
   crates/ass-editor/core/position, core/document, core/history, commands.
   The rope (feature "rope", on by default) is its character sequence; a
   byte offset inside a character stands for the character containing it
   (ropey's byte_to_char), an offset beyond the end panics. *)
From Verif Require Import Base.

(* ---- core/position/range.rs, points.rs ---- *)
Record range := mkRange { r_start : nat; r_end : nat }.
(* range.rs:50-59 *)
Definition range_new (a b : nat) : range := if a <=? b then mkRange a b else mkRange b a.
(* range.rs:63-123 *)
Definition range_empty (p : nat) : range := mkRange p p.
Definition range_is_empty (r : range) : bool := r_start r =? r_end r.
Definition range_len (r : range) : nat := r_end r - r_start r.
Definition range_contains (r : range) (p : nat) : bool := (r_start r <=? p) && (p <? r_end r).
Definition range_overlaps (r o : range) : bool := (r_start r <? r_end o) && (r_start o <? r_end r).
Definition range_extend_to (r : range) (p : nat) : range := mkRange (Nat.min (r_start r) p) (Nat.max (r_end r) p).
Definition range_union (r o : range) : range :=
  mkRange (Nat.min (r_start r) (r_start o)) (Nat.max (r_end r) (r_end o)).
Definition range_intersection (r o : range) : option range :=
  let s := Nat.max (r_start r) (r_start o) in
  let e := Nat.min (r_end r) (r_end o) in
  if s <? e then Some (range_new s e) else None.
(* points.rs:61-73; usize saturation *)
Definition pos_advance (mx p n : nat) : nat := Nat.min mx (p + n).
Definition pos_retreat (p n : nat) : nat := p - n.

(* ---- rope ---- *)
(* The characters before / from the character containing byte n. *)
Fixpoint rope_split (s : str) (n : nat) : str * str :=
  match s with
  | [] => ([], [])
  | c :: r => if len_utf8 c <=? n then let (a, b) := rope_split r (n - len_utf8 c) in (c :: a, b) else ([], s)
  end.
(* byte_to_char *)
Definition byte_to_char (s : str) (n : nat) : nat := List.length (fst (rope_split s n)).

(* ---- core/history ---- *)
Inductive operation :=
| OpInsert (pos : nat) (text : str)
| OpDelete (r : range) (deleted : str)
| OpReplace (r : range) (old new : str).
Record entry := mkEntry {
  e_op : operation; e_desc : str; e_range : option range;
  e_before : option nat; e_after : option nat; e_mem : nat }.
Record hist := mkHist {
  max_entries : nat; max_memory : nat;
  undo_stack : list entry; redo_stack : list entry; memory : nat; cursor : option nat }.
(* operation.rs:49-73; size_of::<Operation>() is the parameter op_size, whose
   value never matters. *)
Definition op_memory (op_size : nat) (o : operation) : nat :=
  match o with
  | OpInsert _ t => op_size + blen t
  | OpDelete _ t => op_size + blen t
  | OpReplace _ a b => op_size + blen a + blen b
  end.
(* entry.rs:51-71 *)
Definition new_entry (op_size : nat) (o : operation) (desc : str) (rg : option range) (cur_after cur_before : option nat) : entry :=
  mkEntry o desc rg cur_before cur_after (op_memory op_size o + blen desc).
(* usize subtraction: None is the overflow panic. *)
Definition usub (a b : nat) : option nat := if b <=? a then Some (a - b) else None.
Definition with_stacks (h : hist) (u r : list entry) (m : nat) : hist :=
  mkHist (max_entries h) (max_memory h) u r m (cursor h).
(* stack_impl.rs:151-155 clear_redo_stack *)
Fixpoint drain (m : nat) (l : list entry) : option nat :=
  match l with [] => Some m | e :: r => match usub m (e_mem e) with Some m' => drain m' r | None => None end end.
(* VecDeque::pop_back *)
Fixpoint unsnoc {A} (l : list A) : option (list A * A) :=
  match l with
  | [] => None
  | x :: r => match unsnoc r with Some (l', y) => Some (x :: l', y) | None => Some ([], x) end
  end.
(* stack_impl.rs:158-175 enforce_limits, with the loop bound made explicit:
   the number of entries (each round removes one). *)
Fixpoint drop_while_back (fuel : nat) (cond : list entry -> nat -> bool) (u : list entry) (m : nat) : option (list entry * nat) :=
  if cond u m then
    match fuel with
    | 0 => None
    | S f => match unsnoc u with
             | Some (u', e) => match usub m (e_mem e) with Some m' => drop_while_back f cond u' m' | None => None end
             | None => drop_while_back f cond u m
             end
    end
  else Some (u, m).
Definition is_nil {A} (l : list A) : bool := match l with [] => true | _ => false end.
Definition enforce_limits (me mm : nat) (u : list entry) (m : nat) : option (list entry * nat) :=
  match drop_while_back (List.length u) (fun u _ => me <? List.length u) u m with
  | Some (u1, m1) =>
    drop_while_back (List.length u1) (fun u m => (0 <? mm) && (mm <? m) && negb (is_nil u)) u1 m1
  | None => None
  end.
(* stack_impl.rs:41-64 push *)
Definition hist_push (h : hist) (e : entry) : option hist :=
  match drain (memory h) (redo_stack h) with
  | Some m0 =>
    match enforce_limits (max_entries h) (max_memory h) (e :: undo_stack h) (m0 + e_mem e) with
    | Some (u, m) => Some (with_stacks h u [] m)
    | None => None
    end
  | None => None
  end.
(* stack_impl.rs:67-90; the outer option is the panic *)
Definition pop_undo (h : hist) : option (option entry * hist) :=
  match undo_stack h with
  | e :: u => match usub (memory h) (e_mem e) with
              | Some m => Some (Some e, with_stacks h u (redo_stack h) m) | None => None end
  | [] => Some (None, h)
  end.
Definition push_redo (h : hist) (e : entry) : hist :=
  with_stacks h (undo_stack h) (e :: redo_stack h) (memory h + e_mem e).
Definition pop_redo (h : hist) : option (option entry * hist) :=
  match redo_stack h with
  | e :: r => match usub (memory h) (e_mem e) with
              | Some m => Some (Some e, with_stacks h (undo_stack h) r m) | None => None end
  | [] => Some (None, h)
  end.
Definition set_cursor (h : hist) (c : option nat) : hist :=
  mkHist (max_entries h) (max_memory h) (undo_stack h) (redo_stack h) (memory h) c.
(* stack_impl.rs:94-114 *)
Definition can_undo (h : hist) : bool := negb (is_nil (undo_stack h)).
Definition can_redo (h : hist) : bool := negb (is_nil (redo_stack h)).

(* ---- core/document ---- *)
Record doc := mkDoc { text : str; modified : bool; history : hist }.
(* Result of a &mut self method: the document as it is left, with Ok or Err. *)
Inductive out (A : Type) := OOk (d : doc) (a : A) | OErr (d : doc) | OPanic.
Arguments OOk {A}. Arguments OErr {A}. Arguments OPanic {A}.
Definition out_bind {A B} (o : out A) (f : doc -> A -> out B) : out B :=
  match o with OOk d a => f d a | OErr d => OErr d | OPanic => OPanic end.
Definition set_text (d : doc) (t : str) : doc := mkDoc t true (history d).
Definition set_history (d : doc) (h : hist) : doc := mkDoc (text d) (modified d) h.

(* editing_raw.rs:12-33 insert_raw *)
Definition insert_raw (d : doc) (pos : nat) (t : str) : out unit :=
  if blen (text d) <? pos then OErr d
  else let (a, b) := rope_split (text d) pos in OOk (set_text d (a ++ t ++ b)) tt.
(* editing_raw.rs:36-60 delete_raw; Rope::remove panics when the range is
   reversed, byte_to_char when an offset is beyond the end. *)
Definition delete_raw (d : doc) (r : range) : out unit :=
  if blen (text d) <? r_end r then OErr d
  else if blen (text d) <? r_start r then OPanic
  else let a := fst (rope_split (text d) (r_start r)) in
       let (b, c) := rope_split (text d) (r_end r) in
       if List.length b <? List.length a then OPanic else OOk (set_text d (a ++ c)) tt.
(* editing_raw.rs:63-67 *)
Definition replace_raw (d : doc) (r : range) (t : str) : out unit :=
  out_bind (delete_raw d r) (fun d1 _ => insert_raw d1 (r_start r) t).
(* text_access.rs:80-103 text_range *)
Definition text_range (d : doc) (r : range) : res str :=
  if blen (text d) <? r_end r then Err
  else if blen (text d) <? r_start r then Panic
  else let a := byte_to_char (text d) (r_start r) in
       let b := byte_to_char (text d) (r_end r) in
       if b <? a then Panic else Ok (firstn (b - a) (skipn a (text d))).

(* commands/command_result.rs *)
Record cresult := mkRes { success : bool; m_range : option range; n_cursor : option nat; changed : bool }.
Definition success_with_change (r : range) (c : nat) : cresult := mkRes true (Some r) (Some c) true.
(* manager.rs:62-92 record_operation *)
Definition record_operation (sz : nat) (d : doc) (o : operation) (desc : str) (r : cresult) : out unit :=
  if success r && changed r then
    match hist_push (history d) (new_entry sz o desc (m_range r) (n_cursor r) (cursor (history d))) with
    | Some h =>
      let h' := match n_cursor r with Some c => set_cursor h (Some c) | None => h end in
      OOk (set_history d h') tt
    | None => OPanic
    end
  else OOk d tt.

(* text_commands.rs:52-60, 99-107, 143-151 *)
Definition cmd_insert (d : doc) (p : nat) (t : str) : out cresult :=
  out_bind (insert_raw d p t) (fun d1 _ =>
    OOk d1 (success_with_change (range_new p (p + blen t)) (p + blen t))).
Definition cmd_delete (d : doc) (r : range) : out cresult :=
  out_bind (delete_raw d r) (fun d1 _ => OOk d1 (success_with_change (range_new (r_start r) (r_start r)) (r_start r))).
Definition cmd_replace (d : doc) (r : range) (t : str) : out cresult :=
  out_bind (replace_raw d r t) (fun d1 _ =>
    OOk d1 (success_with_change (range_new (r_start r) (r_start r + blen t)) (r_start r + blen t))).

(* editing.rs:42-69 insert, 72-101 delete, 104-135 replace (validator cache
   and event emission are not modelled) *)
Definition doc_insert (sz : nat) (d : doc) (p : nat) (t : str) : out unit :=
  out_bind (cmd_insert d p t) (fun d1 r => record_operation sz d1 (OpInsert p t) (lit "Insert text") r).
Definition doc_delete (sz : nat) (d : doc) (rg : range) : out unit :=
  match text_range d rg with
  | Panic => OPanic | Err => OErr d
  | Ok old => out_bind (cmd_delete d rg) (fun d1 r => record_operation sz d1 (OpDelete rg old) (lit "Delete text") r)
  end.
Definition doc_replace (sz : nat) (d : doc) (rg : range) (t : str) : out unit :=
  match text_range d rg with
  | Panic => OPanic | Err => OErr d
  | Ok old => out_bind (cmd_replace d rg t) (fun d1 r => record_operation sz d1 (OpReplace rg old t) (lit "Replace text") r)
  end.

(* undo_redo.rs:30-57: the text change of an undo *)
Definition undo_op (d : doc) (o : operation) : out unit :=
  match o with
  | OpInsert p t => delete_raw d (range_new p (p + blen t))
  | OpDelete r t => insert_raw d (r_start r) t
  | OpReplace r old _ => replace_raw d r old
  end.
(* undo_redo.rs:108-130: the text change of a redo, its range and cursor *)
Definition redo_op (d : doc) (o : operation) : out unit :=
  match o with
  | OpInsert p t => insert_raw d p t
  | OpDelete r _ => delete_raw d r
  | OpReplace r _ new => replace_raw d r new
  end.
Definition redo_range (o : operation) : range :=
  match o with
  | OpInsert p t => range_new p (p + blen t)
  | OpDelete r _ => range_new (r_start r) (r_start r)
  | OpReplace r _ new => range_new (r_start r) (r_start r + blen new)
  end.
(* undo_redo.rs:21-93 undo *)
Definition doc_undo (d : doc) : out unit :=
  match pop_undo (history d) with
  | None => OPanic
  | Some (None, h) => OErr d
  | Some (Some e, h) =>
    out_bind (undo_op (set_history d h) (e_op e)) (fun d1 _ =>
      OOk (set_history d1 (push_redo (history d1) e)) tt)
  end.
(* undo_redo.rs:99-164 redo *)
Definition doc_redo (sz : nat) (d : doc) : out unit :=
  match pop_redo (history d) with
  | None => OPanic
  | Some (None, h) => OErr d
  | Some (Some e, h) =>
    out_bind (redo_op (set_history d h) (e_op e)) (fun d1 _ =>
      let h1 := match e_after e with Some c => set_cursor (history d1) (Some c) | None => history d1 end in
      match hist_push h1 (new_entry sz (e_op e) (e_desc e) (Some (redo_range (e_op e))) (e_after e) (e_before e)) with
      | Some h2 => OOk (set_history d1 h2) tt
      | None => OPanic
      end)
  end.

(* incremental_fast.rs:21-72 edit_fast_path, taken by edit_incremental
   (incremental_edit.rs:32-39) for small edits *)
Definition is_simple_edit (rg : range) (t : str) : bool :=
  (blen t <=? 100) && negb (existsb (fun c => (c =? 91)%N) t) &&
  (List.length (filter is_nl t) <=? 1) && (range_len rg <=? 50).
Definition edit_fast_path (sz : nat) (d : doc) (rg : range) (t : str) : out unit :=
  if negb (is_boundary (text d) (r_start rg)) || negb (is_boundary (text d) (r_end rg)) then doc_replace sz d rg t
  else match (if range_is_empty rg then Ok [] else text_range d rg) with
       | Panic => OPanic | Err => OErr d
       | Ok old =>
         out_bind (replace_raw d rg t) (fun d1 _ =>
           record_operation sz d1 (OpReplace rg old t) (lit "Fast character insert")
             (success_with_change rg (r_start rg + blen t)))
       end.

(* ---- commands executed through execute_command ---- *)
Inductive command :=
| CInsert (p : nat) (t : str)
| CDelete (r : range)
| CReplace (r : range) (t : str)
| CBatch (cs : list command) (desc : str).
Definition cmd_desc (c : command) : str :=
  match c with
  | CInsert _ _ => lit "Insert text" | CDelete _ => lit "Delete text" | CReplace _ _ => lit "Replace text"
  | CBatch _ d => d
  end.
(* batch_command.rs:58-94; text commands never return success = false.  st is
   (first_range, last_cursor, content_changed). *)
Definition batch_step (st : option range * option nat * bool) (r : cresult) : option range * option nat * bool :=
  let '(fr, lc, ch) := st in
  ((match m_range r with
    | Some rg => Some (match fr with Some ex => range_union ex rg | None => rg end)
    | None => fr end),
   (match n_cursor r with Some c => Some c | None => lc end),
   ch || changed r).
Fixpoint run_command (d : doc) (c : command) {struct c} : out cresult :=
  match c with
  | CInsert p t => cmd_insert d p t
  | CDelete r => cmd_delete d r
  | CReplace r t => cmd_replace d r t
  | CBatch cs _ =>
    (fix go (d : doc) (cs : list command) (st : option range * option nat * bool) : out cresult :=
       match cs with
       | [] => let '(fr, lc, ch) := st in OOk d (mkRes true fr lc ch)
       | c :: rest =>
         match run_command d c with
         | OOk d1 r =>
           if success r then go d1 rest (batch_step st r) else OOk d1 (mkRes false None None false)
         | OErr d1 => OErr d1
         | OPanic => OPanic
         end
       end) d cs (None, None, false)
  end.
Definition str_contains (pat s : str) : bool := match find_str pat s with Some _ => true | None => false end.
(* validation.rs:45-119 execute_command *)
Definition execute_command (sz : nat) (d : doc) (c : command) : out cresult :=
  out_bind (run_command d c) (fun d1 r =>
    if changed r then
      let op : res operation :=
        match m_range r with
        | Some rg =>
          if range_is_empty rg then
            match (match n_cursor r with Some cu => usub cu (r_start rg) | None => Some 0 end) with
            | None => Panic
            | Some k =>
              res_bind (text_range d1 (range_new (r_start rg) (r_start rg + k))) (fun t => Ok (OpInsert (r_start rg) t))
            end
          else if str_contains (lit "batch") (cmd_desc c) || str_contains (lit "Multiple") (cmd_desc c)
          then Ok (OpInsert (r_start rg) [])
          else match text_range d1 rg with
               | Ok t => Ok (OpReplace rg [] t)
               | Err => Ok (OpReplace rg [] [])
               | Panic => Panic
               end
        | None => Ok (OpInsert 0 [])
        end in
      match op with
      | Panic => OPanic
      | Err => OErr d1
      | Ok o =>
        let d2 := match n_cursor r with Some cu => set_history d1 (set_cursor (history d1) (Some cu)) | None => d1 end in
        out_bind (record_operation sz d2 o (cmd_desc c) r) (fun d3 _ => OOk d3 r)
      end
    else OOk d1 r).

(* ---- positions ---- *)
(* ropey with its default features: line breaks are LF, CR, CRLF, VT, FF, NEL,
   LS and PS; rope_lines gives the lines with their terminators, the last one
   possibly empty. *)
Definition is_break (c : char) : bool :=
  ((10 <=? c) && (c <=? 13))%N || (c =? 133)%N || (c =? 8232)%N || (c =? 8233)%N.
Fixpoint rope_lines (s : str) : list str :=
  match s with
  | [] => [[]]
  | c :: r =>
    let rest := rope_lines r in
    if is_break c && negb ((c =? 13)%N && match r with d :: _ => (d =? 10)%N | [] => false end)
    then [c] :: rest
    else match rest with l :: ls => (c :: l) :: ls | [] => [[c]] end
  end.
Definition line_to_byte (ls : list str) (i : nat) : nat := fold_right (fun l n => blen l + n) 0 (firstn i ls).
(* byte_to_line: the number of line ends at or before the offset *)
Fixpoint byte_to_line (ls : list str) (n : nat) : nat :=
  match ls with
  | l :: ((_ :: _) as rest) => if blen l <=? n then S (byte_to_line rest (n - blen l)) else 0
  | _ => 0
  end.
(* text_access.rs:121-130 *)
Fixpoint count_cols (line : str) (bytes target : nat) : nat :=
  match line with
  | [] => 0
  | c :: r => if target <=? bytes then 0 else S (count_cols r (bytes + len_utf8 c) target)
  end.
(* text_access.rs:107-134 position_to_line_column (1-based) *)
Definition position_to_line_column (s : str) (p : nat) : res (nat * nat) :=
  if blen s <? p then Err
  else let ls := rope_lines s in
       let i := byte_to_line ls p in
       Ok (i + 1, count_cols (nth i ls []) 0 (p - line_to_byte ls i) + 1).
(* builder.rs:121-130: bytes up to the column, and how many characters that took *)
Fixpoint col_bytes (line : str) (col : nat) : nat * nat :=
  match line, col with
  | c :: r, S k => let (b, n) := col_bytes r k in (len_utf8 c + b, S n)
  | _, _ => (0, 0)
  end.
(* builder.rs:96-153 build *)
Definition build_position (s : str) (line column offset : option nat) : res nat :=
  match offset with
  | Some o => if blen s <? o then Err else Ok o
  | None =>
    match line with
    | None => Ok 0
    | Some l =>
      let ls := rope_lines s in
      let i := l - 1 in
      if List.length ls <=? i then Err
      else match column with
           | Some c =>
             if (l =? 0) || (c =? 0) then Err
             else let (b, n) := col_bytes (nth i ls []) (c - 1) in
                  if n <? c - 1 then Err else Ok (line_to_byte ls i + b)
           | None =>
             if i + 1 <? List.length ls then Ok (line_to_byte ls (i + 1) - 1) else Ok (blen s)
           end
    end
  end.
