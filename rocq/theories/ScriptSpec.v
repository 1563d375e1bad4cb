(* Specification vocabulary for editing scripts in place. *)
From Verif Require Export ScriptModel.
From Coq Require Export Sorting.Sorted Permutation.

(* ---- layout ---- *)
Definition item_spans (s : section) : list span :=
  match s with
  | SInfo _ sp => [sp]
  | SStyles l => map s_span l
  | SEvents l => map e_span l
  | SFonts l | SGraphics l => map m_span l
  end.
(* all lines of the script in the order of the text, without overlap *)
Definition laid_out (l : list section) : Prop :=
  StronglySorted (fun a b => sp_end a <= sp_start b) (flat_map item_spans l) /\
  Forall (fun sp => sp_start sp <= sp_end sp) (flat_map item_spans l).

(* ---- what a batch asks for ---- *)
(* the line an update writes, as the one-line readers of the script see it *)
Definition new_style (sc : script) (op : update_op) : option style :=
  match parse_line_auto sc (op_line op) (op_number op) with Good (_, LStyle x) => Some x | _ => None end.
Definition new_event (sc : script) (op : update_op) : option event :=
  match parse_line_auto sc (op_line op) (op_number op) with Good (_, LEvent x) => Some x | _ => None end.
Definition new_field (sc : script) (op : update_op) : option (str * str) :=
  match parse_line_auto sc (op_line op) (op_number op) with Good (_, LField k v) => Some (k, v) | _ => None end.
(* the operation names a style or event line and gives a new one of its kind *)
Definition names_line (sc : script) (op : update_op) : Prop :=
  (exists l x y, In (SStyles l) (sc_sections sc) /\ In x l /\ covers (s_span x) (op_offset op) = true /\ new_style sc op = Some y) \/
  (exists l x y, In (SEvents l) (sc_sections sc) /\ In x l /\ covers (e_span x) (op_offset op) = true /\ new_event sc op = Some y).
(* no two operations name the same line *)
Definition name_distinct (sc : script) (ops : list update_op) : Prop :=
  ForallOrdPairs (fun a b => forall sp, In sp (flat_map item_spans (sc_sections sc)) -> covers sp (op_offset a) = true -> covers sp (op_offset b) = true -> False) ops.
(* every line named by an operation replaced by the new line *)
Definition rewrite_items {A} (span_of : A -> span) (new : update_op -> option A) (ops : list update_op) (l : list A) : list A :=
  map (fun x => match find (fun op => covers (span_of x) (op_offset op)) ops with
                | Some op => match new op with Some y => y | None => x end
                | None => x
                end) l.
Definition rewrite_section (sc : script) (ops : list update_op) (s : section) : section :=
  match s with
  | SStyles l => SStyles (rewrite_items s_span (new_style sc) ops l)
  | SEvents l => SEvents (rewrite_items e_span (new_event sc) ops l)
  | _ => s
  end.

(* what any batch at all may do to a section: lines keep their places, a line
   differs only if an operation names it, and it is then what that operation
   wrote; fields keep their keys and places, new ones come last *)
Definition item_touched {A} (span_of : A -> span) (new : update_op -> option A) (ops : list update_op) (x y : A) : Prop :=
  x = y \/ exists op, In op ops /\ covers (span_of x) (op_offset op) = true /\ new op = Some y.
Definition section_touched (sc : script) (ops : list update_op) (s s' : section) : Prop :=
  match s, s' with
  | SStyles l, SStyles l' => Forall2 (item_touched s_span (new_style sc) ops) l l'
  | SEvents l, SEvents l' => Forall2 (item_touched e_span (new_event sc) ops) l l'
  | SInfo f sp, SInfo f' sp' => sp = sp' /\ exists g h, f' = g ++ h /\
      Forall2 (fun kv kv' => fst kv = fst kv' /\ (kv = kv' \/ exists op, In op ops /\ covers sp (op_offset op) = true /\ new_field sc op = Some kv')) f g /\
      Forall (fun kv => exists op, In op ops /\ covers sp (op_offset op) = true /\ new_field sc op = Some kv) h
  | SFonts l, SFonts l' | SGraphics l, SGraphics l' => l = l'
  | _, _ => False
  end.

(* old content reported for a style or event is the line that stood there *)
Definition old_line (sc : script) (p : nat * line_content) : Prop :=
  match snd p with
  | LStyle x => exists l, In (SStyles l) (sc_sections sc) /\ In x l /\ covers (s_span x) (fst p) = true
  | LEvent x => exists l, In (SEvents l) (sc_sections sc) /\ In x l /\ covers (e_span x) (fst p) = true
  | LField _ _ => True
  end.

(* ---- adding lines: to the first section of the kind, or in a new one at the end ---- *)
Definition is_styles_sec (s : section) : bool := match s with SStyles _ => true | _ => false end.
Definition is_events_sec (s : section) : bool := match s with SEvents _ => true | _ => false end.
Definition styles_added (new : list style) (l l' : list section) (start : nat) : Prop :=
  (exists pre old post, l = pre ++ SStyles old :: post /\ existsb is_styles_sec pre = false /\ l' = pre ++ SStyles (old ++ new) :: post /\ start = List.length old) \/
  (existsb is_styles_sec l = false /\ l' = l ++ [SStyles new] /\ start = 0).
Definition events_added (new : list event) (l l' : list section) (start : nat) : Prop :=
  (exists pre old post, l = pre ++ SEvents old :: post /\ existsb is_events_sec pre = false /\ l' = pre ++ SEvents (old ++ new) :: post /\ start = List.length old) \/
  (existsb is_events_sec l = false /\ l' = l ++ [SEvents new] /\ start = 0).
(* the optional additions of an atomic batch *)
Definition with_styles (o : option (list style)) (l l' : list section) : Prop :=
  match o with None => l' = l | Some new => exists start, styles_added new l l' start end.
Definition with_events (o : option (list event)) (l l' : list section) : Prop :=
  match o with None => l' = l | Some new => exists start, events_added new l l' start end.

(* ---- change tracking ---- *)
Inductive track_op := TEnable | TDisable | TClear | TRecord (c : change).
Definition do_track (o : track_op) (t : change_tracker) : change_tracker :=
  match o with TEnable => ct_enable t | TDisable => ct_disable t | TClear => ct_clear t | TRecord c => ct_record c t end.
(* is tracking on after a history, newest call first *)
Fixpoint tracking (h : list track_op) : bool :=
  match h with [] => false | TEnable :: _ => true | TDisable :: _ => false | _ :: r => tracking r end.
(* the recorded changes of a history, newest call first *)
Fixpoint recorded (h : list track_op) : list change :=
  match h with
  | [] => []
  | TClear :: _ => []
  | TRecord c :: r => if tracking r then recorded r ++ [c] else recorded r
  | _ :: r => recorded r
  end.

(* adding and removing whole sections, replayed from a list of changes *)
Inductive section_op := AddSection (s : section) | RemoveSection (i : nat).
Definition do_section (o : section_op) (d : escript) : escript :=
  match o with AddSection s => fst (add_section d s) | RemoveSection i => fst (remove_section d i) end.
Definition replay (l : list section) (c : change) : list section :=
  match c with
  | CSectionAdded s i => firstn i l ++ s :: skipn i l
  | CSectionRemoved _ i => firstn i l ++ skipn (S i) l
  | _ => l
  end.

(* a difference read position by position *)
Definition added_at (i : nat) (cs : list change) : option section :=
  match find (fun c => match c with CSectionAdded _ j => j =? i | _ => false end) cs with Some (CSectionAdded s _) => Some s | _ => None end.
Definition removed_at (i : nat) (cs : list change) : bool :=
  existsb (fun c => match c with CSectionRemoved _ j => j =? i | _ => false end) cs.
Definition patched_at (cs : list change) (l : list section) (i : nat) : list section :=
  match added_at i cs with
  | Some s => [s]
  | None => if removed_at i cs then [] else match nth_error l i with Some s => [s] | None => [] end
  end.
Definition patched (n : nat) (cs : list change) (l : list section) : list section := flat_map (patched_at cs l) (seq 0 n).
