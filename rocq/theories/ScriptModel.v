(* Model of editing a parsed script in place: parser/script/{auto,update,mutate,
   batch,tracking,types,lookup}.rs of ass-core. *)
From Verif Require Export Base ParseModel IncrModel.

(* types.rs:13-20 *)
Inductive line_content := LStyle (s : style) | LEvent (e : event) | LField (key value : str).
(* types.rs:24-31 *)
Record update_op := Op { op_offset : nat; op_line : str; op_number : N }.
(* The errors these functions return; ELine stands for the errors of the two
   one-line parsers (InsufficientFields, InvalidEventType). *)
Inductive edit_error := ENoSection | ENoLine | EField (line : N) | ELine.
Inductive answer (A : Type) := Good (a : A) | Bad (e : edit_error).
Arguments Good {A}. Arguments Bad {A}.
(* types.rs:58-102; Removed is never made *)
Inductive change :=
  | CAdded (offset : nat) (content : line_content) (number : N)
  | CRemoved (offset : nat) (ty : section_type) (number : N)
  | CModified (offset : nat) (old_content new_content : line_content) (number : N)
  | CSectionAdded (s : section) (index : nat)
  | CSectionRemoved (ty : section_type) (index : nat).
(* types.rs:106-111 *)
Record change_tracker := Changes { ct_changes : list change; ct_enabled : bool }.
(* types.rs:115-158; len and is_empty are those of the list *)
Definition ct_default : change_tracker := Changes [] false.
Definition ct_enable (t : change_tracker) : change_tracker := Changes (ct_changes t) true.
Definition ct_disable (t : change_tracker) : change_tracker := Changes (ct_changes t) false.
Definition ct_record (c : change) (t : change_tracker) : change_tracker :=
  if ct_enabled t then Changes (ct_changes t ++ [c]) (ct_enabled t) else t.
Definition ct_clear (t : change_tracker) : change_tracker := Changes [] (ct_enabled t).

(* container.rs:21-50  a script with its change tracker *)
Record escript := EScript { es_script : script; es_tracker : change_tracker }.
Definition es_sections (d : escript) : list section := sc_sections (es_script d).
Definition set_sections (sc : script) (l : list section) : script :=
  Script (sc_version sc) l (sc_issues sc) (sc_styles_format sc) (sc_events_format sc).
Definition with_sections (d : escript) (l : list section) : escript := EScript (set_sections (es_script d) l) (es_tracker d).
Definition record (c : change) (d : escript) : escript := EScript (es_script d) (ct_record c (es_tracker d)).

(* auto.rs:33-67 parse_line_auto, parse.rs:88-155 *)
Definition event_line (t : str) : bool :=
  existsb (fun p => starts_with (lit p) t) ["Dialogue:"; "Comment:"; "Picture:"; "Sound:"; "Movie:"; "Command:"]%string.
Definition format_or_default (o : option (list str)) (d : list str) : list str := match o with Some f => f | None => d end.
Definition parse_line_auto (sc : script) (line : str) (number : N) : answer (section_type * line_content) :=
  let t := trim line in
  match strip_prefix (lit "Style:") t with
  | Some data =>
    match parse_style_line (trim data) (format_or_default (sc_styles_format sc) default_styles_format) number with
    | Ok s => Good (TStyles, LStyle s)
    | _ => Bad ELine
    end
  | None =>
    if event_line t then
      match parse_event_line t (format_or_default (sc_events_format sc) default_events_format) number with
      | Ok e => Good (TEvents, LEvent e)
      | _ => Bad ELine
      end
    else
      match find_char is_colon t with
      | Some (k, _ :: v) =>
        if starts_with (lit "Format:") t then Bad (EField number) else Good (TInfo, LField (trim k) (trim v))
      | _ => Bad (EField number)
      end
  end.

(* span.start <= offset && offset < span.end *)
Definition covers (sp : span) (offset : nat) : bool := (sp_start sp <=? offset) && (offset <? sp_end sp).
Definition section_covers (offset : nat) (s : section) : bool :=
  match section_span s with Some sp => covers sp offset | None => false end.
(* lookup.rs:44-49 *)
Definition section_at_offset (sc : script) (offset : nat) : option section := find (section_covers offset) (sc_sections sc).

(* iter().position(p) followed by reading and overwriting that place *)
Fixpoint replace_first {A} (p : A -> bool) (f : A -> A) (l : list A) : option (A * list A) :=
  match l with
  | [] => None
  | x :: r =>
    if p x then Some (x, f x :: r)
    else match replace_first p f r with Some (old, r') => Some (old, x :: r') | None => None end
  end.

(* update.rs:54-98  the section after the update, the old content, and whether
   a field was added *)
Definition update_section (s : section) (offset : nat) (new : line_content) (number : N) : answer (section * line_content * bool) :=
  match s, new with
  | SStyles l, LStyle x =>
    match replace_first (fun y => covers (s_span y) offset) (fun _ => x) l with
    | Some (old, l') => Good (SStyles l', LStyle old, false)
    | None => Bad ENoLine
    end
  | SEvents l, LEvent x =>
    match replace_first (fun y => covers (e_span y) offset) (fun _ => x) l with
    | Some (old, l') => Good (SEvents l', LEvent old, false)
    | None => Bad ENoLine
    end
  | SInfo fields sp, LField k v =>
    match replace_first (fun kv => str_eqb (fst kv) k) (fun _ => (k, v)) fields with
    | Some (old, fields') => Good (SInfo fields' sp, LField k (snd old), false)
    | None => Good (SInfo (fields ++ [(k, v)]) sp, LField k [], true)
    end
  | _, _ => Bad (EField number)
  end.
(* iter().position(section_covers) and the rest of the function *)
Fixpoint update_sections (l : list section) (offset : nat) (new : line_content) (number : N) : answer (list section * line_content * bool) :=
  match l with
  | [] => Bad ENoSection
  | s :: r =>
    if section_covers offset s then
      match update_section s offset new number with
      | Good (s', old, added) => Good (s' :: r, old, added)
      | Bad e => Bad e
      end
    else match update_sections r offset new number with
         | Good (r', old, added) => Good (s :: r', old, added)
         | Bad e => Bad e
         end
  end.
(* update.rs:34-114 update_line_at_offset.  The section is looked up before the
   line is read. *)
Definition update_line (d : escript) (op : update_op) : escript * answer line_content :=
  if negb (existsb (section_covers (op_offset op)) (es_sections d)) then (d, Bad ENoSection) else
  match parse_line_auto (es_script d) (op_line op) (op_number op) with
  | Bad e => (d, Bad e)
  | Good (_, new) =>
    match update_sections (es_sections d) (op_offset op) new (op_number op) with
    | Bad e => (d, Bad e)
    | Good (l, old, added) =>
      let d1 := with_sections d l in
      let d2 := if added then record (CAdded (op_offset op) new (op_number op)) d1 else d1 in
      let d3 := match old with
                | LField _ [] => d2
                | _ => record (CModified (op_offset op) old new (op_number op)) d2
                end in
      (d3, Good old)
    end
  end.

(* batch.rs:38-39 sort_by_key, a stable sort *)
Fixpoint insert_op (op : update_op) (l : list update_op) : list update_op :=
  match l with
  | [] => [op]
  | x :: r => if op_offset op <=? op_offset x then op :: l else x :: insert_op op r
  end.
Definition sort_ops (l : list update_op) : list update_op := fold_right insert_op [] l.
(* batch.rs:28-53 batch_update_lines *)
Record batch_result := Batch { br_updated : list (nat * line_content); br_failed : list (nat * edit_error) }.
Fixpoint run_batch (d : escript) (ops : list update_op) : escript * batch_result :=
  match ops with
  | [] => (d, Batch [] [])
  | op :: r =>
    let (d1, a) := update_line d op in
    let (d2, b) := run_batch d1 r in
    (d2, match a with
         | Good old => Batch ((op_offset op, old) :: br_updated b) (br_failed b)
         | Bad e => Batch (br_updated b) ((op_offset op, e) :: br_failed b)
         end)
  end.
Definition batch_update_lines (d : escript) (ops : list update_op) : escript * batch_result := run_batch d (sort_ops ops).

(* batch.rs:66-125 batch_add_styles, batch_add_events *)
Fixpoint extend_first (add : section -> option (section * nat)) (l : list section) : option (list section * nat) :=
  match l with
  | [] => None
  | s :: r =>
    match add s with
    | Some (s', start) => Some (s' :: r, start)
    | None => match extend_first add r with Some (r', start) => Some (s :: r', start) | None => None end
    end
  end.
Definition add_styles_to (new : list style) (s : section) : option (section * nat) :=
  match s with SStyles l => Some (SStyles (l ++ new), List.length l) | _ => None end.
Definition add_events_to (new : list event) (s : section) : option (section * nat) :=
  match s with SEvents l => Some (SEvents (l ++ new), List.length l) | _ => None end.
Definition batch_add_styles (d : escript) (new : list style) : escript * list nat :=
  match extend_first (add_styles_to new) (es_sections d) with
  | Some (l, start) => (with_sections d l, seq start (List.length new))
  | None => (with_sections d (es_sections d ++ [SStyles new]), seq 0 (List.length new))
  end.
Definition batch_add_events (d : escript) (new : list event) : escript * list nat :=
  match extend_first (add_events_to new) (es_sections d) with
  | Some (l, start) => (with_sections d l, seq start (List.length new))
  | None => (with_sections d (es_sections d ++ [SEvents new]), seq 0 (List.length new))
  end.

(* batch.rs:152-164 *)
Fixpoint check_ops (d : escript) (ops : list update_op) : option edit_error :=
  match ops with
  | [] => None
  | op :: r =>
    if negb (existsb (section_covers (op_offset op)) (es_sections d)) then Some ENoSection else
    match parse_line_auto (es_script d) (op_line op) (op_number op) with
    | Bad e => Some e
    | Good _ => check_ops d r
    end
  end.
(* batch.rs:171-173 *)
Fixpoint run_ops (d : escript) (ops : list update_op) : answer escript :=
  match ops with
  | [] => Good d
  | op :: r =>
    match update_line d op with
    | (_, Bad e) => Bad e
    | (d1, Good _) => run_ops d1 r
    end
  end.
(* batch.rs:145-188 atomic_batch_update *)
Definition atomic_batch_update (d : escript) (ops : list update_op) (styles : option (list style)) (events : option (list event))
  : escript * answer unit :=
  match check_ops d ops with
  | Some e => (d, Bad e)
  | None =>
    match run_ops d ops with
    | Bad e => (d, Bad e)
    | Good d1 =>
      let d2 := match styles with Some l => fst (batch_add_styles d1 l) | None => d1 end in
      let d3 := match events with Some l => fst (batch_add_events d2 l) | None => d2 end in
      (d3, Good tt)
    end
  end.

(* mutate.rs:25-126 *)
Definition add_section (d : escript) (s : section) : escript * nat :=
  let index := List.length (es_sections d) in
  let d1 := record (CSectionAdded s index) d in
  (with_sections d1 (es_sections d1 ++ [s]), index).
Fixpoint remove_nth {A} (n : nat) (l : list A) : option (A * list A) :=
  match l, n with
  | [], _ => None
  | x :: r, 0 => Some (x, r)
  | x :: r, S k => match remove_nth k r with Some (y, r') => Some (y, x :: r') | None => None end
  end.
Definition remove_section (d : escript) (index : nat) : escript * answer section :=
  match remove_nth index (es_sections d) with
  | Some (s, l) => (record (CSectionRemoved (section_type_of s) index) (with_sections d l), Good s)
  | None => (d, Bad ENoLine)
  end.
Definition add_style (d : escript) (x : style) : escript * nat :=
  match extend_first (add_styles_to [x]) (es_sections d) with
  | Some (l, start) => (with_sections d l, start)
  | None => (with_sections d (es_sections d ++ [SStyles [x]]), 0)
  end.
Definition add_event (d : escript) (x : event) : escript * nat :=
  match extend_first (add_events_to [x]) (es_sections d) with
  | Some (l, start) => (with_sections d l, start)
  | None => (with_sections d (es_sections d ++ [SEvents [x]]), 0)
  end.
(* tracking.rs:17-48 *)
Definition enable_change_tracking (d : escript) : escript := EScript (es_script d) (ct_enable (es_tracker d)).
Definition disable_change_tracking (d : escript) : escript := EScript (es_script d) (ct_disable (es_tracker d)).
Definition clear_changes (d : escript) : escript := EScript (es_script d) (ct_clear (es_tracker d)).

(* derived PartialEq of Section *)
Definition span_eq_dec (a b : span) : {a = b} + {a <> b}.
Proof. decide equality; solve [apply N.eq_dec | apply Nat.eq_dec]. Defined.
Definition str_eq_dec (a b : str) : {a = b} + {a <> b}. Proof. apply (list_eq_dec N.eq_dec). Defined.
Definition ostr_eq_dec (a b : option str) : {a = b} + {a <> b}. Proof. decide equality; apply str_eq_dec. Defined.
Definition event_eq_dec (a b : event) : {a = b} + {a <> b}.
Proof. decide equality; solve [apply span_eq_dec | apply str_eq_dec | apply ostr_eq_dec | decide equality]. Defined.
Definition style_eq_dec (a b : style) : {a = b} + {a <> b}.
Proof. decide equality; solve [apply span_eq_dec | apply str_eq_dec | apply ostr_eq_dec]. Defined.
Definition media_eq_dec (a b : media) : {a = b} + {a <> b}.
Proof. decide equality; solve [apply span_eq_dec | apply str_eq_dec | apply (list_eq_dec str_eq_dec)]. Defined.
Definition section_eq_dec (a b : section) : {a = b} + {a <> b}.
Proof.
  decide equality; solve [apply span_eq_dec | apply (list_eq_dec style_eq_dec) | apply (list_eq_dec event_eq_dec)
    | apply (list_eq_dec media_eq_dec) | apply list_eq_dec; decide equality; apply str_eq_dec].
Defined.
(* tracking.rs:69-114 diff *)
Fixpoint removed_from (i : nat) (b : list section) : list change :=
  match b with
  | [] => []
  | y :: b' => CSectionRemoved (section_type_of y) i :: removed_from (S i) b'
  end.
Fixpoint diff_from (i : nat) (a b : list section) : list change :=
  match a with
  | [] => removed_from i b
  | x :: a' =>
    match b with
    | y :: b' =>
      (if section_eq_dec x y then [] else [CSectionRemoved (section_type_of y) i; CSectionAdded x i]) ++ diff_from (S i) a' b'
    | [] => CSectionAdded x i :: diff_from (S i) a' []
    end
  end.
Definition diff (d other : escript) : list change := diff_from 0 (es_sections d) (es_sections other).
