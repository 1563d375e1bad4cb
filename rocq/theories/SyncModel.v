(* Model of documents shared between threads: crates/ass-editor/core/
   thread_safety/{sync_document,scoped_lock,document_pool,async_document}.rs.
   The document is a value of any type D, an edit or a command any function on
   it that may fail or panic.  std::sync::RwLock and Mutex: exclusive, not
   reentrant, poisoned when a thread unwinds while it holds a write guard or
   the mutex; a poisoned lock is still taken and released, with an error in
   between.  A call that takes and releases a lock by itself is one step, so
   only guards handed out and the wait inside execute_command are visible. *)
From Verif Require Import Base.
From Verif Require Import PluginModel.

Inductive ending := Good | Bad | Panicked.
Definition edit (D : Type) := D -> D * ending.

(* what a thread does with one document *)
Inductive op (D : Type) :=
| TakeRead | TakeWrite                      (* sync_document.rs:53-68; scoped_lock.rs:21-24 *)
| TryRead | TryWrite                        (* 86-93 *)
| Look                                      (* through a guard *)
| Change (e : edit D)                       (* through a write guard, scoped_lock.rs:27-29 *)
| DropRead | DropWrite
| Unwind                                    (* a panic of the thread, caught outside its guards *)
| WithRead                                  (* 96-127, 138-147: text, len, is_empty, id, with_read, clone_document, validate *)
| WithWrite (e : edit D)                    (* 129-135, 150-155 *)
| Execute (e : edit D).                     (* 71-83 *)
Arguments TakeRead {D}. Arguments TakeWrite {D}. Arguments TryRead {D}. Arguments TryWrite {D}. Arguments Look {D}. Arguments Change {D}.
Arguments DropRead {D}. Arguments DropWrite {D}. Arguments Unwind {D}. Arguments WithRead {D}. Arguments WithWrite {D}. Arguments Execute {D}.

Section Sync.
  Context {D : Type}.
  (* 29-35 with the guards: how many each thread holds for reading, which one
     for writing, which one is inside execute_command *)
  Record shared := Shared { doc : D; readers : nat -> nat; reading : nat; writer : option nat; poisoned : bool; commander : option nat; command_poisoned : bool }.
  (* 40-45 *)
  Definition fresh (d : D) : shared := Shared d (fun _ => 0) 0 None false None false.
  Inductive event :=
  | GotRead (t : nat) (ok : bool) | GotWrite (t : nat) (ok : bool)
  | Saw (t : nat) (d : D)
  | Changed (t : nat) (e : edit D)                              (* through a guard *)
  | GaveRead (t : nat) | GaveWrite (t : nat)
  | Unwound (t : nat)
  | Edited (t : nat) (e : edit D)                               (* with_write, a whole turn *)
  | Refused (t : nat)                                           (* the error of a poisoned lock; None of a try *)
  | GotCommand (t : nat) | Commanded (t : nat) (e : edit D) | CommandFailed (t : nat)
  | Skipped (t : nat).                                          (* the guard was refused earlier *)
  Inductive outcome := Moved (s : shared) (e : event) | Blocked.

  Definition upd (f : nat -> nat) (t v : nat) : nat -> nat := fun u => if Nat.eqb u t then v else f u.
  Definition with_doc (d : D) (p : bool) (s : shared) : shared := Shared d (readers s) (reading s) (writer s) p (commander s) (command_poisoned s).
  Definition with_reader (t : nat) (s : shared) : shared := Shared (doc s) (upd (readers s) t (S (readers s t))) (S (reading s)) (writer s) (poisoned s) (commander s) (command_poisoned s).
  Definition without_reader (t : nat) (s : shared) : shared := Shared (doc s) (upd (readers s) t (readers s t - 1)) (reading s - 1) (writer s) (poisoned s) (commander s) (command_poisoned s).
  Definition with_writer (w : option nat) (p : bool) (s : shared) : shared := Shared (doc s) (readers s) (reading s) w p (commander s) (command_poisoned s).
  Definition with_commander (c : option nat) (p : bool) (s : shared) : shared := Shared (doc s) (readers s) (reading s) (writer s) (poisoned s) c p.
  Definition is_writer (t : nat) (s : shared) : bool := match writer s with Some w => Nat.eqb w t | None => false end.
  Definition is_commander (t : nat) (s : shared) : bool := match commander s with Some w => Nat.eqb w t | None => false end.
  Definition can_read (s : shared) : bool := match writer s with None => true | Some _ => false end.
  Definition can_write (s : shared) : bool := match writer s with None => Nat.eqb (reading s) 0 | Some _ => false end.
  (* an edit with the write lock held; a panic poisons it *)
  Definition edited (e : edit D) (s : shared) : shared := let '(d, r) := e (doc s) in with_doc d (match r with Panicked => true | _ => poisoned s end) s.
  (* all guards of a thread go; an edit in progress poisons *)
  Definition unwound (t : nat) (s : shared) : shared :=
    let s1 := Shared (doc s) (upd (readers s) t 0) (reading s - readers s t) (writer s) (poisoned s) (commander s) (command_poisoned s) in
    if is_writer t s then with_writer None true s1 else s1.

  (* a thread makes its next step; execute_command makes two *)
  Definition step (t : nat) (o : op D) (s : shared) : outcome :=
    match o with
    | TakeRead => if can_read s then (if poisoned s then Moved s (GotRead t false) else Moved (with_reader t s) (GotRead t true)) else Blocked
    | TakeWrite => if can_write s then (if poisoned s then Moved s (GotWrite t false) else Moved (with_writer (Some t) false s) (GotWrite t true)) else Blocked
    | TryRead => if can_read s && negb (poisoned s) then Moved (with_reader t s) (GotRead t true) else Moved s (Refused t)
    | TryWrite => if can_write s && negb (poisoned s) then Moved (with_writer (Some t) false s) (GotWrite t true) else Moved s (Refused t)
    | Look => if is_writer t s || negb (Nat.eqb (readers s t) 0) then Moved s (Saw t (doc s)) else Moved s (Skipped t)
    | Change e =>
      if is_writer t s then
        (let s' := with_doc (fst (e (doc s))) (poisoned s) s in
         match snd (e (doc s)) with Panicked => Moved (unwound t s') (Changed t e) | _ => Moved s' (Changed t e) end)
      else Moved s (Skipped t)
    | DropRead => if Nat.eqb (readers s t) 0 then Moved s (Skipped t) else Moved (without_reader t s) (GaveRead t)
    | DropWrite => if is_writer t s then Moved (with_writer None (poisoned s) s) (GaveWrite t) else Moved s (Skipped t)
    | Unwind => Moved (unwound t s) (Unwound t)
    | WithRead => if can_read s then (if poisoned s then Moved s (Refused t) else Moved s (Saw t (doc s))) else Blocked
    | WithWrite e => if can_write s then (if poisoned s then Moved s (Refused t) else Moved (edited e s) (Edited t e)) else Blocked
    | Execute e =>
      if is_commander t s then
        (* 81-82 *)
        if can_write s then
          (if poisoned s then Moved (with_commander None (command_poisoned s) s) (CommandFailed t)
           else Moved (with_commander None (match snd (e (doc s)) with Panicked => true | _ => command_poisoned s end) (edited e s)) (Commanded t e))
        else Blocked
      else
        (* 73-78 *)
        match commander s with
        | Some _ => Blocked
        | None => if command_poisoned s then Moved s (Refused t) else Moved (with_commander (Some t) false s) (GotCommand t)
        end
    end.
  Definition again (e : event) : bool := match e with GotCommand _ => true | _ => false end.

  (* threads with what they still have to do *)
  Record conf := Conf { now : shared; programs : nat -> list (op D); past : list event }.
  Definition start (d : D) (ps : nat -> list (op D)) : conf := Conf (fresh d) ps [].
  Definition set_program (t : nat) (p : list (op D)) (f : nat -> list (op D)) : nat -> list (op D) := fun u => if Nat.eqb u t then p else f u.
  (* None: the thread is finished or waits *)
  Definition move (t : nat) (g : conf) : option conf :=
    match programs g t with
    | [] => None
    | o :: p =>
      match step t o (now g) with
      | Moved s e => Some (Conf s (set_program t (if again e then o :: p else p) (programs g)) (e :: past g))
      | Blocked => None
      end
    end.
  Fixpoint run (g : conf) (sched : list nat) : option conf :=
    match sched with [] => Some g | t :: l => match move t g with Some g' => run g' l | None => None end end.
End Sync.

(* ---- document_pool.rs: identifiers to handles; a handle is shared ---- *)
Definition pool := hmap nat.
(* 34-47: the handle is a new one *)
Definition add_document (id : str) (handle : nat) (p : pool) : pool := hm_insert id handle p.
(* 50-63; None is the error *)
Definition get_document (id : str) (p : pool) : option nat := hm_get id p.
(* 66-76 *)
Definition remove_document (id : str) (p : pool) : pool := hm_without id p.
(* 79-88, 91-100 *)
Definition list_documents (p : pool) : list str := hm_keys p.
Definition document_count (p : pool) : nat := List.length p.
Inductive pool_call := Add (id : str) (handle : nat) | Remove (id : str).
Definition pool_step (p : pool) (c : pool_call) : pool := match c with Add id h => add_document id h p | Remove id => remove_document id p end.
Definition pool_run (l : list pool_call) : pool := fold_left pool_step l [].
