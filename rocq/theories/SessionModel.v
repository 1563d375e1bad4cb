(* Model of the session manager: crates/ass-editor/sessions.
   D is the type of documents.  With the feature multi-thread the manager is
   shared, and each call holds the lock from beginning to end, so a call is
   one step; only cleanup_stale_sessions takes the lock several times, and is
   several steps, each thread having its own.  A history is the list of all
   threads' steps in the order in which they got the lock.  Time is that of
   a clock given with each call. *)
From Verif Require Export Base BaseLemmas PluginModel.

(* session.rs:20-39; metadata and memory_usage (always 0, nothing sets them
   while the session is held) are left out *)
Record session (D : Type) := Session { s_document : D; s_accessed : nat; s_operations : nat }.
Arguments Session {D}. Arguments s_document {D}. Arguments s_accessed {D}. Arguments s_operations {D}.
(* config.rs:9-27, the parts in use *)
Record session_config := SessionConfig { max_sessions : nat; auto_cleanup : bool }.
(* manager.rs:41-65; `cleanups`: the threads inside cleanup_stale_sessions, the
   sessions they have yet to remove and the number removed *)
Record manager (D : Type) := Manager {
  m_config : session_config; m_sessions : hmap (session D); m_active : option str; m_count : nat;
  m_cleanups : list (nat * (list str * nat)) }.
Arguments Manager {D}. Arguments m_config {D}. Arguments m_sessions {D}. Arguments m_active {D}. Arguments m_count {D}. Arguments m_cleanups {D}.
Definition new_manager {D} (c : session_config) : manager D := Manager c [] None 0 [].

(* lifecycle.rs:29-59 *)
Definition create_session {D} (id : str) (d : D) (now : nat) (m : manager D) : manager D * bool :=
  if max_sessions (m_config m) <=? List.length (m_sessions m) then (m, false)
  else (Manager (m_config m) (hm_insert id (Session d now 0) (m_sessions m))
          (match m_active m with None => Some id | a => a end) (m_count m + 1) (m_cleanups m), true).
(* 62-82, session.rs:57-59 *)
Definition switch_session {D} (id : str) (now : nat) (m : manager D) : manager D * bool :=
  match hm_get id (m_sessions m) with
  | None => (m, false)
  | Some s => (Manager (m_config m) (hm_insert id (Session (s_document s) now (s_operations s)) (m_sessions m))
                 (Some id) (m_count m) (m_cleanups m), true)
  end.
(* 90-111; None as a manager is the panic of a subtraction below zero *)
Definition remove_session {D} (id : str) (m : manager D) : option (manager D) * option (session D) :=
  match hm_get id (m_sessions m) with
  | None => (Some m, None)
  | Some s =>
    (match m_count m with
     | 0 => None
     | S n => Some (Manager (m_config m) (hm_without id (m_sessions m))
                (match m_active m with Some a => if str_eqb a id then None else Some a | None => None end) n (m_cleanups m))
     end, Some s)
  end.
(* access.rs:19-32 *)
Definition with_document {D R} (id : str) (f : D -> R) (m : manager D) : option R :=
  match hm_get id (m_sessions m) with Some s => Some (f (s_document s)) | None => None end.
(* 35-51; f gives the document as it leaves it, and whether it is Ok *)
Definition with_document_mut {D} (id : str) (f : D -> D * bool) (m : manager D) : manager D * option bool :=
  match hm_get id (m_sessions m) with
  | None => (m, None)
  | Some s =>
    let '(d, ok) := f (s_document s) in
    (Manager (m_config m) (hm_insert id (Session d (s_accessed s) (if ok then s_operations s + 1 else s_operations s)) (m_sessions m))
       (m_active m) (m_count m) (m_cleanups m), Some ok)
  end.
(* session.rs:63-65 *)
Definition is_stale {D} (now max_age : nat) (s : session D) : bool := max_age <? now - s_accessed s.
(* access.rs:62-73; the order is that of the hash map, given by shuffle *)
Definition stale_ids {D} (now max_age : nat) (shuffle : list str -> list str) (m : manager D) : list str :=
  if auto_cleanup (m_config m) then shuffle (map fst (filter (fun e => is_stale now max_age (snd e)) (m_sessions m))) else [].
Fixpoint cleanup_of (who : nat) (l : list (nat * (list str * nat))) : option (list str * nat) :=
  match l with [] => None | (w, x) :: r => if w =? who then Some x else cleanup_of who r end.
Definition other_cleanups (who : nat) (l : list (nat * (list str * nat))) := filter (fun e => negb (fst e =? who)) l.
Definition set_cleanups {D} (m : manager D) l : manager D := Manager (m_config m) (m_sessions m) (m_active m) (m_count m) l.

(* The calls, and what a caller sees. *)
Inductive call (D : Type) :=
| Create (id : str) (d : D) (now : nat)
| Switch (id : str) (now : nat)
| Remove (id : str)
| Edit (id : str) (f : D -> D * bool)
| CleanupBegin (who now max_age : nat) (shuffle : list str -> list str)
| CleanupNext (who : nat).
Arguments Create {D}. Arguments Switch {D}. Arguments Remove {D}. Arguments Edit {D}. Arguments CleanupBegin {D}. Arguments CleanupNext {D}.
Inductive reply (D : Type) :=
| Accepted (ok : bool)                       (* create, switch *)
| Gave (s : option (session D))              (* remove *)
| Edited (ok : option bool)                  (* None: no such session *)
| Begun (ids : list str)                     (* not seen by the caller *)
| Dropped (id : str) (was : bool)            (* not seen by the caller *)
| CleanedUp (n : nat)
| Idle                                       (* the thread is not cleaning up *)
| Panicked.
Arguments Accepted {D}. Arguments Gave {D}. Arguments Edited {D}. Arguments Begun {D}. Arguments Dropped {D}. Arguments CleanedUp {D}. Arguments Idle {D}. Arguments Panicked {D}.
(* access.rs:76-83 for CleanupNext *)
Definition step {D} (m : manager D) (c : call D) : manager D * reply D :=
  match c with
  | Create id d now => let '(m, ok) := create_session id d now m in (m, Accepted ok)
  | Switch id now => let '(m, ok) := switch_session id now m in (m, Accepted ok)
  | Remove id => match remove_session id m with (Some m1, s) => (m1, Gave s) | (None, _) => (m, Panicked) end
  | Edit id f => let '(m, ok) := with_document_mut id f m in (m, Edited ok)
  | CleanupBegin who now age shuffle =>
    let ids := stale_ids now age shuffle m in (set_cleanups m ((who, (ids, 0)) :: other_cleanups who (m_cleanups m)), Begun ids)
  | CleanupNext who =>
    match cleanup_of who (m_cleanups m) with
    | None => (m, Idle)
    | Some ([], n) => (set_cleanups m (other_cleanups who (m_cleanups m)), CleanedUp n)
    | Some (id :: ids, n) =>
      match remove_session id m with
      | (None, _) => (m, Panicked)
      | (Some m1, s) =>
        let was := match s with Some _ => true | None => false end in
        (set_cleanups m1 ((who, (ids, if was then n + 1 else n)) :: other_cleanups who (m_cleanups m1)), Dropped id was)
      end
    end
  end.
Fixpoint run_calls {D} (m : manager D) (l : list (call D)) : manager D * list (reply D) :=
  match l with
  | [] => (m, [])
  | c :: l' => let '(m1, a) := step m c in let '(m2, out) := run_calls m1 l' in (m2, a :: out)
  end.
