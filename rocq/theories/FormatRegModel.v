(* ass-editor/formats/registry.rs and the default methods of formats/traits.rs.
   A reader or writer is its name, its extensions and what it does (any type).
   A combined format is a reader and a writer under the reader's name
   (traits.rs 104-106).  A hash map is a list of entries with distinct keys, and
   the order of its iteration is an argument. *)
From Verif Require Import Base ParseModel SortLib.

Section Registry.
  Context {I E : Type}.
  (* types.rs FormatInfo, traits.rs 10-52 and 55-99 *)
  Record handler {A : Type} := Hd { h_name : str; h_exts : list str; h_do : A }.
  Arguments handler : clear implicits.
  (* traits.rs 18-23, 60-65 *)
  Definition can {A} (h : handler A) (ext : str) : bool := existsb (fun e => eq_nocase e ext) (h_exts h).
  Definition combined := (handler I * handler E)%type.
  (* registry.rs 13-17 *)
  Record registry := Rg { importers : list (str * handler I); exporters : list (str * handler E); formats : list (str * combined) }.
  (* 21-23 *)
  Definition registry_new : registry := Rg [] [] [].
  (* HashMap::insert *)
  Definition put {V} (k : str) (v : V) (m : list (str * V)) : list (str * V) := (k, v) :: filter (fun e => negb (str_eqb (fst e) k)) m.
  Inductive registration := RFormat (f : combined) | RImporter (h : handler I) | RExporter (h : handler E).
  (* 26-41 *)
  Definition register (r : registry) (o : registration) : registry :=
    match o with
    | RFormat f => Rg (importers r) (exporters r) (put (h_name (fst f)) f (formats r))
    | RImporter h => Rg (put (h_name h) h (importers r)) (exporters r) (formats r)
    | RExporter h => Rg (importers r) (put (h_name h) h (exporters r)) (formats r)
    end.
  (* 44-60, 63-79: the values of the two maps in the order they are visited *)
  Definition find_in {A} (formats others : list (handler A)) (ext : str) : option (handler A) :=
    match find (fun h => can h ext) formats with
    | Some h => Some h
    | None => find (fun h => can h ext) others
    end.
  (* str::cmp: bytewise, which for UTF-8 is by code point *)
  Fixpoint str_leb (a b : str) : bool :=
    match a, b with
    | [], _ => true
    | _ :: _, [] => false
    | x :: r, y :: s => if (x <? y)%N then true else if (y <? x)%N then false else str_leb r s
    end.
  (* Vec::dedup *)
  Fixpoint dedup (l : list str) : list str :=
    match l with
    | x :: ((y :: _) as r) => if str_eqb x y then dedup r else x :: dedup r
    | _ => l
    end.
  (* 82-100, 103-121 *)
  Definition supported {A} (formats others : list (handler A)) : list str :=
    dedup (stable_sort str_leb (flat_map h_exts formats ++ flat_map h_exts others)).
  (* 124-162, from the extension of the path on *)
  Inductive answer (A : Type) := NoExtension | Unsupported (ext : str) | Handled (h : handler A).
  Definition open_file {A} (formats others : list (handler A)) (ext : option str) : answer A :=
    match ext with
    | None => NoExtension A
    | Some e => match find_in formats others e with Some h => Handled A h | None => Unsupported A e end
    end.
End Registry.
