(* What the event channel is for, from the calls made so far and their
   replies, the last one first. *)
From Coq Require Import Sorting.Sorted Sorting.Permutation.
From Verif Require Import Base ChannelModel.

(* The handlers registered and not removed, oldest first. *)
Fixpoint live (past : list (op * reply)) : list (nat * event_handler) :=
  match past with
  | [] => []
  | (Register h, Registered id) :: l => live l ++ [(id, h)]
  | (Unregister id, Removed true) :: l => filter (fun x => negb (fst x =? id)) (live l)
  | (ClearHandlers, Ok_) :: l => []
  | _ :: l => live l
  end.
(* Higher priority first, then the older one. *)
Definition before (a b : nat * event_handler) : Prop :=
  (eh_priority (snd b) < eh_priority (snd a))%Z \/ (eh_priority (snd a) = eh_priority (snd b) /\ fst a < fst b).
Definition ranked (l r : list (nat * event_handler)) : Prop := Permutation l r /\ StronglySorted before r.
(* The filter lets the event through. *)
Definition wants (f : filter_of_events) (e : event) : Prop :=
  ~ In (event_type_name e) (exclude_types f) /\
  (include_types f = [] \/ In (event_type_name e) (include_types f)) /\
  (forall b, include_modifications f = Some b -> is_modification e = b) /\
  (forall b, include_cursor_events f = Some b -> is_cursor_event e = b).
(* The events a handler is to see: those dispatched since it was registered
   that it wants, oldest first. *)
Fixpoint due (id : nat) (past : list (op * reply)) : list event :=
  match past with
  | [] => []
  | (Register _, Registered n) :: l => if n =? id then [] else due id l
  | (Dispatch e, _) :: l => due id l ++ [e]
  | _ :: l => due id l
  end.
(* No handler that was ever registered fails. *)
Definition reliable (ops : list op) : Prop := forall h, In (Register h) ops -> forall given e, eh_handle h given e = HOk.
(* There is a receiver: set up, and not dropped since. *)
Fixpoint receiver (past : list (op * reply)) : bool :=
  match past with
  | [] => false
  | (SetupAsync, _) :: _ => true
  | (DropReceiver, _) :: _ => false
  | _ :: l => receiver l
  end.
(* The events sent since and not received yet, oldest first. *)
Fixpoint waiting (past : list (op * reply)) : list event :=
  match past with
  | [] => []
  | (SetupAsync, _) :: _ => []
  | (DispatchAsync e, Ok_) :: l => waiting l ++ [e]
  | (Receive, Received (Some _)) :: l => tl (waiting l)
  | _ :: l => waiting l
  end.
