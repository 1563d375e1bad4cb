(* Model of the extension manager: crates/ass-editor/extensions/{manager,
   manager_access,manager_lifecycle,manager_loading,context,command}.rs, with
   feature multi-thread (on by default) unless said otherwise.
   Extensions are trait objects; here the values of any type X, with their
   methods in a record.  A method talks to its context by calls, so it is a
   script of calls.  The current document of a context belongs to the caller
   and takes no lock: what a method does with it is part of the script.
   HashMap: as in PluginModel.  The event sender and the message handler are
   stored and never used.  parking_lot::Mutex: not reentrant, not poisoned. *)
From Verif Require Export Base BaseLemmas.
From Verif Require Import PluginModel.

(* command.rs:17-32 *)
Inductive ext_state := Uninitialized | Initializing | Active | Paused | Faulty | ShuttingDown | Shutdown.
(* 36-48 *)
Definition is_active (s : ext_state) : bool := match s with Active => true | _ => false end.
Definition is_usable (s : ext_state) : bool := match s with Active | Paused => true | _ => false end.
Definition is_error (s : ext_state) : bool := match s with Faulty => true | _ => false end.
(* 53-66: the identifier, the name, and whether a document is required *)
Record command := Command { cmd_id : str; cmd_name : str; cmd_document : bool }.

(* context.rs:22-49, without the current document *)
Inductive call :=
| GetConfig (key : str) | SetConfig (key value : str) | GetData (extension key : str) | SetData (key value : str)
| SendEvent (event : str) | RegisterCommand (c : command) | ShowMessage (message : str).
(* setters answer None *)
Inductive script (R : Type) := Return (r : R) | Ask (c : call) (k : option str -> script R).
Arguments Return {R}. Arguments Ask {R}.
(* a context with state S; None: the call never returns *)
Definition handler (S : Type) := S -> call -> option (option str * S).
Fixpoint run_script {S R} (h : handler S) (s : S) (p : script R) : option (R * S) :=
  match p with
  | Return r => Some (r, s)
  | Ask c k => match h s c with Some (a, s') => run_script h s' (k a) | None => None end
  end.
(* any context in any state *)
Record context := Context { c_state : Type; c_handler : handler c_state; c_now : c_state }.

(* how a method ends: Ok, Err or a panic *)
Inductive ending := Good | Bad | Panicked.
(* extension.rs:20-45; V is what a command answers *)
Record methods (X V : Type) := Methods {
  x_name : X -> str; x_dependencies : X -> list str;
  x_initialize : X -> script (X * ending);
  x_shutdown : X -> script (X * ending);
  x_execute : X -> str -> list (str * str) -> script (X * V);   (* V holds Err and panic too *)
  x_commands : X -> list command }.
Arguments x_name {X V}. Arguments x_dependencies {X V}. Arguments x_initialize {X V}. Arguments x_shutdown {X V}. Arguments x_execute {X V}. Arguments x_commands {X V}.

(* manager.rs:45-69 *)
Record manager (X : Type) := Manager {
  extensions : hmap X; extension_states : hmap ext_state; commands : hmap (str * command);
  config : hmap str; extension_data : hmap (hmap str) }.
Arguments Manager {X}. Arguments extensions {X}. Arguments extension_states {X}. Arguments commands {X}. Arguments config {X}. Arguments extension_data {X}.
(* manager_lifecycle.rs:49-66 *)
Definition new_manager {X} : manager X := Manager [] [] [] [] [].

Section Manager.
  Context {X V : Type} (K : methods X V).
  Implicit Type m : manager X.

  Definition set_state (n : str) (s : ext_state) m : manager X :=
    Manager (extensions m) (hm_insert n s (extension_states m)) (commands m) (config m) (extension_data m).
  Definition set_extension (n : str) (x : X) m : manager X :=
    Manager (hm_insert n x (extensions m)) (extension_states m) (commands m) (config m) (extension_data m).
  Definition set_commands (l : hmap (str * command)) m : manager X :=
    Manager (extensions m) (extension_states m) l (config m) (extension_data m).

  (* ---- manager_access.rs ---- *)
  (* 47-49, 52-54, 57-59, 62-64 *)
  Definition list_extensions m : list str := hm_keys (extensions m).
  Definition get_extension_state (n : str) m : option ext_state := hm_get n (extension_states m).
  Definition list_commands m : list str := hm_keys (commands m).
  Definition get_config (k : str) m : option str := hm_get k (config m).
  (* 67-71 *)
  Definition set_config (k v : str) m : manager X :=
    Manager (extensions m) (extension_states m) (commands m) (hm_insert k v (config m)) (extension_data m).
  (* 74-82 *)
  Definition get_extension_data (n k : str) m : option str :=
    match hm_get n (extension_data m) with Some d => hm_get k d | None => None end.
  (* 85-93 *)
  Definition set_extension_data (n k v : str) m : manager X :=
    let d := match hm_get n (extension_data m) with Some d => d | None => [] end in
    Manager (extensions m) (extension_states m) (commands m) (config m) (hm_insert n (hm_insert k v d) (extension_data m)).

  (* ---- the contexts ---- *)
  (* context.rs:69-150 with the lock of its manager free *)
  Definition editor_context (name : str) : handler (manager X) := fun m c =>
    match c with
    | GetConfig k => Some (get_config k m, m)
    | SetConfig k v => Some (None, set_config k v m)
    | GetData n k => Some (get_extension_data n k m, m)
    | SetData k v => Some (None, set_extension_data name k v m)
    | SendEvent _ | RegisterCommand _ | ShowMessage _ => Some (None, m)
    end.
  (* the same while the caller holds that lock: manager.rs:126, 136 lock again *)
  Definition held_context : handler unit := fun _ c =>
    match c with
    | GetConfig _ | SetConfig _ _ | GetData _ _ | SetData _ _ => None
    | SendEvent _ | RegisterCommand _ | ShowMessage _ => Some (None, tt)
    end.
  (* without multi-thread, context.rs:95, 107: reads go to the manager, writes
     to the copy made in manager_lifecycle.rs:134-135 *)
  Definition editor_context_single (name : str) : handler (manager X * hmap str) := fun '(m, copy) c =>
    match c with
    | GetConfig k => Some (get_config k m, (m, copy))
    | SetConfig k v => Some (None, (m, hm_insert k v copy))
    | GetData n k => Some (get_extension_data n k m, (m, copy))
    | SetData k v => Some (None, (set_extension_data name k v m, copy))
    | SendEvent _ | RegisterCommand _ | ShowMessage _ => Some (None, (m, copy))
    end.
  (* a context made from a clone of the manager itself, manager_lifecycle.rs:122-129 *)
  Definition own_context : context := Context unit held_context tt.
  Definition other_context (m : manager X) (name : str) : context := Context (manager X) (editor_context name) m.

  (* ---- the critical sections; None: blocks with the lock held ---- *)
  (* manager_loading.rs:23-27 *)
  Definition load_check (x : X) m : bool := forallb (fun d => hm_has d (extension_states m)) (x_dependencies K x).
  (* 35-47 *)
  Definition load_insert (x : X) m : manager X * bool :=
    let n := x_name K x in
    if hm_has n (extensions m) then (m, false) else (set_state n Uninitialized (set_extension n x m), true).
  (* 69-73 *)
  Definition register_commands (n : str) (l : list command) m : manager X :=
    set_commands (fold_left (fun cs c => hm_insert (cmd_id c) (n, c) cs) l (commands m)) m.
  (* 56-89: the object afterwards and how the method ended, None without one *)
  Definition initialize_section (n : str) (c : context) m : option (manager X * option (X * ending)) :=
    let m1 := set_state n Initializing m in
    match hm_get n (extensions m1) with
    | None => Some (m1, None)
    | Some x =>
      match run_script (c_handler c) (c_now c) (x_initialize K x) with
      | None => None
      | Some ((x', e), _) =>
        let m2 := set_extension n x' m1 in
        Some (match e with Good => register_commands n (x_commands K x') (set_state n Active m2) | Bad => set_state n Faulty m2 | Panicked => m2 end, Some (x', e))
      end
    end.
  (* 124-136 *)
  Definition shutdown_section (n : str) (c : context) m : option (manager X * option (X * ending)) :=
    let m1 := set_state n ShuttingDown m in
    match hm_get n (extensions m1) with
    | None => Some (m1, None)
    | Some x =>
      match run_script (c_handler c) (c_now c) (x_shutdown K x) with
      | None => None
      | Some ((x', e), _) =>
        let m2 := set_extension n x' m1 in
        Some (match e with Good => set_state n Shutdown m2 | Bad | Panicked => m2 end, Some (x', e))
      end
    end.
  (* 101-113 *)
  Definition remove_section (n : str) m : manager X :=
    Manager (hm_without n (extensions m)) (hm_without n (extension_states m))
      (filter (fun e => negb (str_eqb (fst (snd e)) n)) (commands m)) (config m) (hm_without n (extension_data m)).
  (* manager_access.rs:30 *)
  Definition command_owner (id : str) m : option str := match hm_get id (commands m) with Some (n, _) => Some n | None => None end.
  (* 35-43 *)
  Definition execute_section (n id : str) (args : list (str * str)) (c : context) m : option (manager X * option (X * V)) :=
    match hm_get n (extensions m) with
    | None => Some (m, None)
    | Some x =>
      match run_script (c_handler c) (c_now c) (x_execute K x id args) with
      | None => None
      | Some ((x', v), _) => Some (set_extension n x' m, Some (x', v))
      end
    end.

  (* ---- whole calls, with nobody else about ---- *)
  Inductive answer := Fine | Unmet | AlreadyLoaded | NoExtension | NoCommand | Failed | Unwinds | Value (v : V).
  Definition after (e : ending) : answer := match e with Good => Fine | Bad => Failed | Panicked => Unwinds end.
  (* manager_loading.rs:18-48 *)
  Definition load_extension (x : X) m : manager X * answer :=
    if load_check x m then (let '(m', ok) := load_insert x m in (m', if ok then Fine else AlreadyLoaded)) else (m, Unmet).
  (* 51-90 *)
  Definition initialize_extension (n : str) (c : context) m : option (manager X * answer) :=
    match initialize_section n c m with
    | None => None
    | Some (m', None) => Some (m', NoExtension)
    | Some (m', Some (_, e)) => Some (m', after e)
    end.
  (* 93-116 *)
  Definition unload_extension (n : str) (c : context) m : option (manager X * answer) :=
    match shutdown_section n c m with
    | None => None
    | Some (m', None) | Some (m', Some (_, Good)) => Some (remove_section n m', Fine)
    | Some (m', Some (_, e)) => Some (m', after e)
    end.
  (* manager_access.rs:23-44 *)
  Definition execute_command (id : str) (args : list (str * str)) (c : context) m : option (manager X * answer) :=
    match command_owner id m with
    | None => Some (m, NoCommand)
    | Some n =>
      match execute_section n id args c m with
      | None => None
      | Some (m', None) => Some (m', NoExtension)
      | Some (m', Some (_, v)) => Some (m', Value v)
      end
    end.

  (* ---- clones on several threads: each critical section is one step ---- *)
  Inductive request :=
  | Load (x : X) | Initialize (n : str) (c : context) | Unload (n : str) (c : context) | Execute (id : str) (args : list (str * str)) (c : context)
  | PutConfig (k v : str) | PutData (n k v : str).
  (* what a thread still has to do *)
  Inductive pending := ToInsert (x : X) | ToRemove (n : str) | ToRun (n id : str) (args : list (str * str)) (c : context).
  Inductive event :=
  | Checked (t : nat) (x : X) (ok : bool)
  | Inserted (t : nat) (x : X) (ok : bool)
  | Initialized (t : nat) (n : str) (c : context) (out : option (X * ending))
  | Stopped (t : nat) (n : str) (c : context) (out : option (X * ending))
  | Removed (t : nat) (n : str)
  | Found (t : nat) (id : str) (args : list (str * str)) (c : context) (owner : option str)
  | Executed (t : nat) (n id : str) (args : list (str * str)) (c : context) (out : option (X * V))
  | ConfigPut (t : nat) (k v : str)
  | DataPut (t : nat) (n k v : str).
  (* newest event first *)
  Record conf := Conf { shared : manager X; todo : nat -> option pending; past : list event }.
  Definition start : conf := Conf new_manager (fun _ => None) [].
  Definition set_todo (t : nat) (p : option pending) (f : nat -> option pending) : nat -> option pending := fun u => if Nat.eqb u t then p else f u.
  (* a thread without open work starts a call, or the open one goes on *)
  Inductive move := Begin (r : request) | GoOn.
  Inductive outcome := Moved (c : conf) | Hung | NotPossible.
  Definition begin_step (t : nat) (r : request) (g : conf) : outcome :=
    let m := shared g in
    match r with
    | Load x => let ok := load_check x m in Moved (Conf m (set_todo t (if ok then Some (ToInsert x) else None) (todo g)) (Checked t x ok :: past g))
    | Initialize n c => match initialize_section n c m with None => Hung | Some (m', out) => Moved (Conf m' (todo g) (Initialized t n c out :: past g)) end
    | Unload n c =>
      match shutdown_section n c m with
      | None => Hung
      | Some (m', out) => Moved (Conf m' (set_todo t (match out with None | Some (_, Good) => Some (ToRemove n) | _ => None end) (todo g)) (Stopped t n c out :: past g))
      end
    | Execute id args c =>
      let o := command_owner id m in
      Moved (Conf m (set_todo t (match o with Some n => Some (ToRun n id args c) | None => None end) (todo g)) (Found t id args c o :: past g))
    | PutConfig k v => Moved (Conf (set_config k v m) (todo g) (ConfigPut t k v :: past g))
    | PutData n k v => Moved (Conf (set_extension_data n k v m) (todo g) (DataPut t n k v :: past g))
    end.
  Definition go_on (t : nat) (p : pending) (g : conf) : outcome :=
    let idle := set_todo t None (todo g) in
    match p with
    | ToInsert x => let '(m', ok) := load_insert x (shared g) in Moved (Conf m' idle (Inserted t x ok :: past g))
    | ToRemove n => Moved (Conf (remove_section n (shared g)) idle (Removed t n :: past g))
    | ToRun n id args c =>
      match execute_section n id args c (shared g) with None => Hung | Some (m', out) => Moved (Conf m' idle (Executed t n id args c out :: past g)) end
    end.
  Definition step (g : conf) (t : nat) (a : move) : outcome :=
    match a, todo g t with
    | Begin r, None => begin_step t r g
    | GoOn, Some p => go_on t p g
    | _, _ => NotPossible
    end.
  (* a schedule says which thread moves *)
  Fixpoint run (g : conf) (l : list (nat * move)) : outcome :=
    match l with
    | [] => Moved g
    | (t, a) :: l' => match step g t a with Moved g' => run g' l' | Hung => Hung | NotPossible => NotPossible end
    end.
End Manager.

(* ---- the initialize methods of the built-in extensions ---- *)
Definition is_true_text (s : str) : bool := str_eqb s (lit "true").
(* str::parse::<usize>, 64 bit *)
Definition parse_usize (s : str) : option N := parse_uint 18446744073709551615 10 s.
(* builtin/auto_complete/types.rs: the configuration; min_chars is never set *)
Record complete_config := CompleteConfig { cc_fields : bool; cc_styles : bool; cc_tags : bool; cc_values : bool; cc_max : N }.
(* builtin/syntax_highlight/extension.rs:27-47 *)
Record highlight_config := HighlightConfig { hc_semantic : bool; hc_tags : bool; hc_errors : bool; hc_max : N }.
Definition flag (v : option str) (old : bool) : bool := match v with Some s => is_true_text s | None => old end.
Definition number (v : option str) (old : N) : N := match v with Some s => match parse_usize s with Some n => n | None => old end | None => old end.
(* builtin/auto_complete/editor_ext.rs:29-53 *)
Definition complete_initialize (c : complete_config) : script (complete_config * ending) :=
  Ask (GetConfig (lit "autocomplete.complete_fields")) (fun f =>
  Ask (GetConfig (lit "autocomplete.complete_styles")) (fun s =>
  Ask (GetConfig (lit "autocomplete.complete_tags")) (fun t =>
  Ask (GetConfig (lit "autocomplete.complete_values")) (fun v =>
  Ask (GetConfig (lit "autocomplete.max_suggestions")) (fun m =>
  Ask (ShowMessage (lit "Auto-completion initialized")) (fun _ =>
  Return (CompleteConfig (flag f (cc_fields c)) (flag s (cc_styles c)) (flag t (cc_tags c)) (flag v (cc_values c)) (number m (cc_max c)), Good))))))).
(* builtin/syntax_highlight/editor_ext.rs:26-47 *)
Definition highlight_initialize (c : highlight_config) : script (highlight_config * ending) :=
  Ask (GetConfig (lit "syntax.semantic_highlighting")) (fun s =>
  Ask (GetConfig (lit "syntax.highlight_tags")) (fun t =>
  Ask (GetConfig (lit "syntax.highlight_errors")) (fun e =>
  Ask (GetConfig (lit "syntax.max_tokens")) (fun m =>
  Ask (ShowMessage (lit "Syntax highlighting initialized")) (fun _ =>
  Return (HighlightConfig (flag s (hc_semantic c)) (flag t (hc_tags c)) (flag e (hc_errors c)) (number m (hc_max c)), Good)))))).
