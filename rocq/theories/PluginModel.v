(* Model of the extension registry: crates/ass-core/plugin/registry.rs.
   Handlers are boxed trait objects; here any type with a name and a reply.
   HashMap: entries with distinct keys, newest first; the order in which it is
   listed is left open (a permutation chosen by the caller of `names`). *)
From Verif Require Export Base BaseLemmas.
From Coq Require Export Sorting.Permutation.

Definition hmap (A : Type) := list (str * A).
Fixpoint hm_get {A} (k : str) (m : hmap A) : option A :=
  match m with [] => None | (k', v) :: r => if str_eqb k k' then Some v else hm_get k r end.
Definition hm_has {A} (k : str) (m : hmap A) : bool := match hm_get k m with Some _ => true | None => false end.
Fixpoint hm_without {A} (k : str) (m : hmap A) : hmap A :=
  match m with [] => [] | (k', v) :: r => if str_eqb k k' then hm_without k r else (k', v) :: hm_without k r end.
(* HashMap::insert *)
Definition hm_insert {A} (k : str) (v : A) (m : hmap A) : hmap A := (k, v) :: hm_without k m.
Definition hm_keys {A} (m : hmap A) : list str := map fst m.

(* traits.rs:10-18, 21-29 *)
Inductive verdict := Processed | Ignored | Failed (message : str).
(* traits.rs:35-80 *)
Record tag_handler := TagHandler { th_name : str; th_process : str -> verdict }.
Record section_processor := SectionProcessor { sp_name : str; sp_process : str -> list str -> verdict }.
(* registry.rs:24-29 *)
Record registry := Registry { tag_handlers : hmap tag_handler; section_processors : hmap section_processor }.
Definition new_registry : registry := Registry [] [].
(* 48-57 *)
Definition register_tag_handler (h : tag_handler) (r : registry) : registry * bool :=
  if hm_has (th_name h) (tag_handlers r) then (r, false)
  else (Registry (hm_insert (th_name h) h (tag_handlers r)) (section_processors r), true).
(* 66-78 *)
Definition register_section_processor (p : section_processor) (r : registry) : registry * bool :=
  if hm_has (sp_name p) (section_processors r) then (r, false)
  else (Registry (tag_handlers r) (hm_insert (sp_name p) p (section_processors r)), true).
(* 90-94 *)
Definition process_tag (name args : str) (r : registry) : option verdict :=
  match hm_get name (tag_handlers r) with Some h => Some (th_process h args) | None => None end.
(* 107-116 *)
Definition process_section (name header : str) (lines : list str) (r : registry) : option verdict :=
  match hm_get name (section_processors r) with Some p => Some (sp_process p header lines) | None => None end.
(* 120-128 *)
Definition tag_handler_names (r : registry) : list str := hm_keys (tag_handlers r).
Definition section_processor_names (r : registry) : list str := hm_keys (section_processors r).
(* 132-140 *)
Definition has_tag_handler (name : str) (r : registry) : bool := hm_has name (tag_handlers r).
Definition has_section_processor (name : str) (r : registry) : bool := hm_has name (section_processors r).
(* 147-158 *)
Definition remove_tag_handler (name : str) (r : registry) : registry * option tag_handler :=
  (Registry (hm_without name (tag_handlers r)) (section_processors r), hm_get name (tag_handlers r)).
Definition remove_section_processor (name : str) (r : registry) : registry * option section_processor :=
  (Registry (tag_handlers r) (hm_without name (section_processors r)), hm_get name (section_processors r)).
(* 161-164 *)
Definition clear (r : registry) : registry := new_registry.
(* 168-170 *)
Definition extension_count (r : registry) : nat := List.length (tag_handlers r) + List.length (section_processors r).

(* Calls that change a registry, with what they answer. *)
Inductive reg_call := RegisterTag (h : tag_handler) | RegisterSection (p : section_processor) | RemoveTag (n : str) | RemoveSection (n : str) | Clear.
Inductive reg_answer := Registered | Refused | RemovedTag (h : option tag_handler) | RemovedSection (p : option section_processor) | Cleared.
Definition reg_step (r : registry) (c : reg_call) : registry * reg_answer :=
  match c with
  | RegisterTag h => let '(r, ok) := register_tag_handler h r in (r, if ok then Registered else Refused)
  | RegisterSection p => let '(r, ok) := register_section_processor p r in (r, if ok then Registered else Refused)
  | RemoveTag n => let '(r, h) := remove_tag_handler n r in (r, RemovedTag h)
  | RemoveSection n => let '(r, p) := remove_section_processor n r in (r, RemovedSection p)
  | Clear => (clear r, Cleared)
  end.
Fixpoint reg_run (r : registry) (l : list reg_call) : registry * list reg_answer :=
  match l with
  | [] => (r, [])
  | c :: l' => let '(r1, a) := reg_step r c in let '(r2, out) := reg_run r1 l' in (r2, a :: out)
  end.
