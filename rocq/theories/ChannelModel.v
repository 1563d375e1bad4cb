(* Model of the event channel: crates/ass-editor/events.
   Handlers are boxed trait objects: any function of the events they were
   given before (their state) and the event at hand.  Times and the log
   output of dispatch are left out. *)
From Verif Require Export Base BaseLemmas SortLib.

(* event.rs:19-157, data other than the type of a custom event as one string *)
Inductive event :=
| TextInserted (x : str) | TextDeleted (x : str) | TextReplaced (x : str) | SelectionChanged (x : str) | CursorMoved (x : str)
| DocumentSaved (x : str) | DocumentLoaded (x : str) | UndoPerformed (x : str) | RedoPerformed (x : str) | ValidationCompleted (x : str)
| SearchCompleted (x : str) | ParsingCompleted (x : str) | ExtensionChanged (x : str) | ConfigChanged (x : str) | CustomEvent (event_type x : str).
(* event_query.rs:131-149 *)
Definition event_type_name (e : event) : str :=
  match e with
  | TextInserted _ => lit "TextInserted" | TextDeleted _ => lit "TextDeleted" | TextReplaced _ => lit "TextReplaced"
  | SelectionChanged _ => lit "SelectionChanged" | CursorMoved _ => lit "CursorMoved" | DocumentSaved _ => lit "DocumentSaved"
  | DocumentLoaded _ => lit "DocumentLoaded" | UndoPerformed _ => lit "UndoPerformed" | RedoPerformed _ => lit "RedoPerformed"
  | ValidationCompleted _ => lit "ValidationCompleted" | SearchCompleted _ => lit "SearchCompleted" | ParsingCompleted _ => lit "ParsingCompleted"
  | ExtensionChanged _ => lit "ExtensionChanged" | ConfigChanged _ => lit "ConfigChanged" | CustomEvent t _ => t
  end.
(* event_query.rs:93-102 *)
Definition is_modification (e : event) : bool :=
  match e with TextInserted _ | TextDeleted _ | TextReplaced _ | UndoPerformed _ | RedoPerformed _ => true | _ => false end.
(* filter.rs:82-85 *)
Definition is_cursor_event (e : event) : bool := match e with CursorMoved _ | SelectionChanged _ => true | _ => false end.
(* filter.rs:13-22 *)
Record filter_of_events := EventFilter { include_types : list str; exclude_types : list str; include_modifications : option bool; include_cursor_events : option bool }.
Definition contains (l : list str) (s : str) : bool := existsb (str_eqb s) l.
(* filter.rs:60-92 *)
Definition matches (f : filter_of_events) (e : event) : bool :=
  let t := event_type_name e in
  if contains (exclude_types f) t then false
  else if negb (match include_types f with [] => true | _ => false end) && negb (contains (include_types f) t) then false
  else if match include_modifications f with Some b => negb (Bool.eqb (is_modification e) b) | None => false end then false
  else if match include_cursor_events f with Some b => negb (Bool.eqb (is_cursor_event e) b) | None => false end then false
  else true.

Inductive handled := HOk | HErr | HPanic.
(* handler.rs:10-23 *)
Record event_handler := Handler { eh_filter : filter_of_events; eh_priority : Z; eh_handle : list event -> event -> handled }.
(* channel.rs:56-67; `given` are the events it was called with, oldest first *)
Record handler_info := HandlerInfo { h_id : nat; h_handler : event_handler; h_processed : nat; h_given : list event }.
(* channel.rs:33-53, handler.rs:27-53.  `poisoned`: the lock of the feature
   multi-thread after a panic inside dispatch.  `queue`: the events sent and
   not yet received, None before setup_async; `listening`: the receiver is
   not dropped. *)
Record channel := Channel {
  max_handlers : nat; max_async_queue_size : nat; multi_thread : bool;
  handlers : list handler_info; dispatched : nat; handlers_count : nat; filtered : nat; queued : nat; next_handler_id : nat;
  poisoned : bool; queue : option (list event); listening : bool }.
Definition new_channel (max q : nat) (mt : bool) : channel := Channel max q mt [] 0 0 0 0 0 false None false.
Definition put (c : channel) (hs : list handler_info) (d n f : nat) (next : nat) (p : bool) : channel :=
  Channel (max_handlers c) (max_async_queue_size c) (multi_thread c) hs d n f (queued c) next p (queue c) (listening c).

(* What a call gives; Failed is Err. *)
Inductive reply := Registered (id : nat) | Removed (was : bool) | Ok_ | Failed | Panicked | Received (e : option event).
Definition by_priority (a b : handler_info) : bool := (eh_priority (h_handler b) <=? eh_priority (h_handler a))%Z.
(* registry.rs:16-68 *)
Definition register_handler (h : event_handler) (c : channel) : channel * reply :=
  let id := next_handler_id c in
  if poisoned c then (put c (handlers c) (dispatched c) (handlers_count c) (filtered c) (id + 1) true, Failed)
  else if max_handlers c <=? List.length (handlers c)
  then (put c (handlers c) (dispatched c) (handlers_count c) (filtered c) (id + 1) false, Failed)
  else (put c (stable_sort by_priority (handlers c ++ [HandlerInfo id h 0 []])) (dispatched c) (handlers_count c + 1) (filtered c) (id + 1) false,
        Registered id).
(* 71-102 *)
Fixpoint remove_first (id : nat) (l : list handler_info) : list handler_info :=
  match l with [] => [] | h :: r => if h_id h =? id then r else h :: remove_first id r end.
Definition unregister_handler (id : nat) (c : channel) : channel * reply :=
  if poisoned c then (c, Failed)
  else if existsb (fun h => h_id h =? id) (handlers c)
  then match handlers_count c with
       | 0 => (c, Panicked)
       | S n => (put c (remove_first id (handlers c)) (dispatched c) n (filtered c) (next_handler_id c) false, Removed true)
       end
  else (c, Removed false).
(* channel.rs:114-134 *)
Definition clear_handlers (c : channel) : channel * reply :=
  if poisoned c then (c, Failed) else (put c [] (dispatched c) 0 (filtered c) (next_handler_id c) false, Ok_).
(* dispatch.rs:38-49, 56-67: the handlers as they are left, the number that
   did not want the event, and how it ended *)
Fixpoint offer (e : event) (l : list handler_info) : list handler_info * nat * handled :=
  match l with
  | [] => ([], 0, HOk)
  | h :: r =>
    if matches (eh_filter (h_handler h)) e then
      match eh_handle (h_handler h) (h_given h) e with
      | HOk => let '(r', n, o) := offer e r in (HandlerInfo (h_id h) (h_handler h) (h_processed h + 1) (h_given h ++ [e]) :: r', n, o)
      | o => (HandlerInfo (h_id h) (h_handler h) (h_processed h) (h_given h ++ [e]) :: r, 0, o)
      end
    else let '(r', n, o) := offer e r in (h :: r', n + 1, o)
  end.
(* 19-95 *)
Definition dispatch (e : event) (c : channel) : channel * reply :=
  if poisoned c then (put c (handlers c) (dispatched c + 1) (handlers_count c) (filtered c) (next_handler_id c) true, Failed)
  else let '(hs, n, o) := offer e (handlers c) in
    match o with
    | HOk => (put c hs (dispatched c + 1) (handlers_count c) (filtered c + n) (next_handler_id c) false, Ok_)
    | HErr => (put c hs (dispatched c + 1) (handlers_count c) (filtered c) (next_handler_id c) false, Failed)
    | HPanic => (put c hs (dispatched c + 1) (handlers_count c) (filtered c) (next_handler_id c) (multi_thread c), Panicked)
    end.
(* 98-111; both branches are the same *)
Fixpoint dispatch_batch (l : list event) (c : channel) : channel * reply :=
  match l with
  | [] => (c, Ok_)
  | e :: r => match dispatch e c with (c1, Ok_) => dispatch_batch r c1 | x => x end
  end.
(* 115-119 *)
Definition with_queue (c : channel) (q : option (list event)) (l : bool) (n : nat) : channel :=
  Channel (max_handlers c) (max_async_queue_size c) (multi_thread c) (handlers c) (dispatched c) (handlers_count c) (filtered c) n (next_handler_id c) (poisoned c) q l.
Definition setup_async (c : channel) : channel := with_queue c (Some []) true (queued c).
(* 123-138 *)
Definition dispatch_async (e : event) (c : channel) : channel * reply :=
  match queue c with
  | Some q => if listening c then (with_queue c (Some (q ++ [e])) true (queued c + 1), Ok_) else (c, Failed)
  | None => (c, Failed)
  end.
(* the receiver: takes the oldest event *)
Definition receive (c : channel) : channel * reply :=
  match queue c with
  | Some (e :: q) => if listening c then (with_queue c (Some q) true (queued c), Received (Some e)) else (c, Received None)
  | _ => (c, Received None)
  end.

Inductive op := Register (h : event_handler) | Unregister (id : nat) | ClearHandlers | Dispatch (e : event)
  | SetupAsync | DispatchAsync (e : event) | Receive | DropReceiver.
Definition chan_step (c : channel) (o : op) : channel * reply :=
  match o with
  | Register h => register_handler h c
  | Unregister id => unregister_handler id c
  | ClearHandlers => clear_handlers c
  | Dispatch e => dispatch e c
  | SetupAsync => (setup_async c, Ok_)
  | DispatchAsync e => dispatch_async e c
  | Receive => receive c
  | DropReceiver => (with_queue c (queue c) false (queued c), Ok_)
  end.
Fixpoint chan_run (c : channel) (l : list op) : channel * list reply :=
  match l with
  | [] => (c, [])
  | o :: l' => let '(c1, a) := chan_step c o in let '(c2, out) := chan_run c1 l' in (c2, a :: out)
  end.
