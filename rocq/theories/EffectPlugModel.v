(* ass-renderer/src/plugin/mod.rs: the parameters of an effect and the registry
   of effect plugins.  An AHashMap is a list of entries with distinct keys; the
   order in which it yields them is any permutation, an argument.  A plugin is
   its name, its shader text and an arbitrary value. *)
From Verif Require Import Base FloatModel.

Section Maps.
  Context {V : Type}.
  Definition map_of := list (str * V).
  Definition lookup (k : str) (m : map_of) : option V := option_map snd (find (fun e => str_eqb (fst e) k) m).
  Definition removed (k : str) (m : map_of) : map_of := filter (fun e => negb (str_eqb (fst e) k)) m.
  Definition inserted (k : str) (v : V) (m : map_of) : map_of := (k, v) :: removed k m.
End Maps.
Arguments map_of : clear implicits.

(* 59-71 *)
Inductive value := VFloat (f : float) | VInteger (z : Z) | VColor (c : list N) | VBoolean (b : bool) | VString (s : str).
(* 51-56 *)
Record params := Pa { strength : float; custom : map_of value }.
(* 75-80 *)
Definition new_params (s : float) : params := Pa s [].
(* 83-85 *)
Definition set_param (k : str) (v : value) (p : params) : params := Pa (strength p) (inserted k v (custom p)).
(* 88-90 *)
Definition get_param (k : str) (p : params) : option value := lookup k (custom p).
(* 93-101 *)
Definition get_float (k : str) (p : params) : option float := match lookup k (custom p) with Some (VFloat f) => Some f | _ => None end.
(* 104-112 *)
Definition get_int (k : str) (p : params) : option Z := match lookup k (custom p) with Some (VInteger z) => Some z | _ => None end.
(* 115-123 *)
Definition get_color (k : str) (p : params) : option (list N) := match lookup k (custom p) with Some (VColor c) => Some c | _ => None end.

Section Registry.
  Context {A : Type}.
  Record plugin := Pl { pl_name : str; pl_shader : option str; pl_code : A }.
  (* 44-46 *)
  Definition supports_gpu (p : plugin) : bool := match pl_shader p with Some _ => true | None => false end.
  (* 127-129 *)
  Definition registry := map_of plugin.
  (* 133-137 *)
  Definition new_registry : registry := [].
  (* 140-142 *)
  Definition register (p : plugin) (r : registry) : registry := inserted (pl_name p) p r.
  (* 145-147 *)
  Definition get_effect (n : str) (r : registry) : option plugin := lookup n r.
  (* 150-152; the order of the entries is the map's *)
  Definition list_effects (order : registry -> registry) (r : registry) : list str := map fst (order r).
  (* 155-157 *)
  Definition unregister (n : str) (r : registry) : option plugin * registry := (lookup n r, removed n r).
  (* 160-162 *)
  Definition clear (r : registry) : registry := [].
  Inductive op := Register (p : plugin) | Unregister (n : str) | Clear.
  Definition step (r : registry) (o : op) : registry := match o with Register p => register p r | Unregister n => snd (unregister n r) | Clear => clear r end.
  Definition run (l : list op) : registry := fold_left step l new_registry.
End Registry.
Arguments plugin : clear implicits. Arguments registry : clear implicits. Arguments op : clear implicits.
