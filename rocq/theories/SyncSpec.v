(* A shared document as its users see it, told by what happened so far, the
   newest event first: no locks, only the past. *)
From Verif Require Import Base SyncModel.

Section Spec.
  Context {D : Type} (d0 : D).
  Notation event := (@event D).
  (* the document: the edits so far, in the order in which they happened *)
  Fixpoint value (l : list event) : D :=
    match l with
    | [] => d0
    | Changed _ e :: l' | Edited _ e :: l' | Commanded _ e :: l' => fst (e (value l'))
    | _ :: l' => value l'
    end.
  Definition panics (e : edit D) (d : D) : bool := match snd (e d) with Panicked => true | _ => false end.
  (* the thread with a write guard *)
  Fixpoint holder (l : list event) : option nat :=
    match l with
    | [] => None
    | GotWrite t true :: _ => Some t
    | GaveWrite _ :: _ => None
    | Changed t e :: l' => if panics e (value l') then None else holder l'
    | Unwound t :: l' => match holder l' with Some w => if Nat.eqb w t then None else Some w | None => None end
    | _ :: l' => holder l'
    end.
  (* how many read guards a thread has *)
  Fixpoint reads (t : nat) (l : list event) : nat :=
    match l with
    | [] => 0
    | GotRead u true :: l' => if Nat.eqb u t then S (reads t l') else reads t l'
    | GaveRead u :: l' => if Nat.eqb u t then pred (reads t l') else reads t l'
    | Unwound u :: l' => if Nat.eqb u t then 0 else reads t l'
    | _ :: l' => reads t l'
    end.
  (* an edit was left half way *)
  Fixpoint broken (l : list event) : bool :=
    match l with
    | [] => false
    | Changed _ e :: l' | Edited _ e :: l' | Commanded _ e :: l' => panics e (value l') || broken l'
    | Unwound t :: l' => match holder l' with Some w => Nat.eqb w t || broken l' | None => broken l' end
    | _ :: l' => broken l'
    end.
  (* the thread that executes a command *)
  Fixpoint commanding (l : list event) : option nat :=
    match l with
    | [] => None
    | GotCommand t :: _ => Some t
    | Commanded _ _ :: _ | CommandFailed _ :: _ => None
    | _ :: l' => commanding l'
    end.
  Fixpoint command_broken (l : list event) : bool :=
    match l with
    | [] => false
    | Commanded _ e :: l' => panics e (value l') || command_broken l'
    | _ :: l' => command_broken l'
    end.
  (* the document as the last finished edit left it *)
  Fixpoint settled (l : list event) : D :=
    match l with
    | [] => d0
    | GaveWrite _ :: l' => value l'
    | Edited _ e :: l' | Commanded _ e :: l' => if panics e (value l') then settled l' else fst (e (value l'))
    | _ :: l' => settled l'
    end.

  Definition no_writer (l : list event) : Prop := holder l = None.
  Definition no_guards (l : list event) : Prop := holder l = None /\ forall u, reads u l = 0.
  (* what an operation of a thread may come to, after a past *)
  Inductive allowed (t : nat) (l : list event) : op D -> event -> Prop :=
  | a_read : no_writer l -> allowed t l TakeRead (GotRead t (negb (broken l)))
  | a_write : no_guards l -> allowed t l TakeWrite (GotWrite t (negb (broken l)))
  | a_try_read : no_writer l -> broken l = false -> allowed t l TryRead (GotRead t true)
  | a_try_read_no : ~ (no_writer l /\ broken l = false) -> allowed t l TryRead (Refused t)
  | a_try_write : no_guards l -> broken l = false -> allowed t l TryWrite (GotWrite t true)
  | a_try_write_no : ~ (no_guards l /\ broken l = false) -> allowed t l TryWrite (Refused t)
  | a_look : holder l = Some t \/ 0 < reads t l -> allowed t l Look (Saw t (value l))
  | a_look_no : holder l <> Some t -> reads t l = 0 -> allowed t l Look (Skipped t)
  | a_change e : holder l = Some t -> allowed t l (Change e) (Changed t e)
  | a_change_no e : holder l <> Some t -> allowed t l (Change e) (Skipped t)
  | a_drop_read : 0 < reads t l -> allowed t l DropRead (GaveRead t)
  | a_drop_read_no : reads t l = 0 -> allowed t l DropRead (Skipped t)
  | a_drop_write : holder l = Some t -> allowed t l DropWrite (GaveWrite t)
  | a_drop_write_no : holder l <> Some t -> allowed t l DropWrite (Skipped t)
  | a_unwind : allowed t l Unwind (Unwound t)
  | a_with_read : no_writer l -> broken l = false -> allowed t l WithRead (Saw t (value l))
  | a_with_read_no : no_writer l -> broken l = true -> allowed t l WithRead (Refused t)
  | a_with_write e : no_guards l -> broken l = false -> allowed t l (WithWrite e) (Edited t e)
  | a_with_write_no e : no_guards l -> broken l = true -> allowed t l (WithWrite e) (Refused t)
  | a_command e : commanding l = None -> command_broken l = false -> allowed t l (Execute e) (GotCommand t)
  | a_command_no e : commanding l = None -> command_broken l = true -> allowed t l (Execute e) (Refused t)
  | a_execute e : commanding l = Some t -> no_guards l -> broken l = false -> allowed t l (Execute e) (Commanded t e)
  | a_execute_no e : commanding l = Some t -> no_guards l -> broken l = true -> allowed t l (Execute e) (CommandFailed t).

  Definition who (e : event) : nat :=
    match e with
    | GotRead t _ | GotWrite t _ | Saw t _ | Changed t _ | GaveRead t | GaveWrite t | Unwound t | Edited t _ | Refused t | GotCommand t | Commanded t _ | CommandFailed t | Skipped t => t
    end.
  (* every event of a past was allowed when it happened *)
  Fixpoint lawful (l : list event) : Prop := match l with [] => True | e :: l' => (exists o, allowed (who e) l' o e) /\ lawful l' end.
  (* the events of a thread answer its program in order: one event an
     operation, two for a command that is let in *)
  Inductive answers (t : nat) : list (op D) -> list event -> Prop :=
  | ans_nil : answers t [] []
  | ans_one p l o e : answers t p l -> who e = t -> allowed t l o e -> again e = false -> answers t (p ++ [o]) (e :: l)
  | ans_first p l e : answers t p l -> commanding l <> Some t -> allowed t l (Execute e) (GotCommand t) -> answers t p (GotCommand t :: l)
  | ans_other p l e : answers t p l -> who e <> t -> answers t p (e :: l).
End Spec.

(* ---- programs that take one guard at a time and give it back ---- *)
Inductive guard := ForReading | ForWriting.
Fixpoint tidy {D} (g : option guard) (p : list (op D)) : Prop :=
  match p with
  | [] => g = None
  | o :: p' =>
    match o, g with
    | (TakeRead | TryRead), None => tidy (Some ForReading) p'
    | (TakeWrite | TryWrite), None => tidy (Some ForWriting) p'
    | (WithRead | WithWrite _ | Execute _), None => tidy None p'
    | DropRead, Some ForReading | DropWrite, Some ForWriting => tidy None p'
    | (Look | Change _), _ => tidy g p'
    | Unwind, _ => tidy None p'
    | _, _ => False
    end
  end.

(* ---- the pool: the last document added under an identifier, unless removed since ---- *)
Fixpoint last_added (id : str) (past : list pool_call) : option nat :=
  match past with
  | [] => None
  | Add i h :: l => if str_eqb i id then Some h else last_added id l
  | Remove i :: l => if str_eqb i id then None else last_added id l
  end.
