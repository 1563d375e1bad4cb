(* ass-renderer/src/debug/color_diagnostic.rs (analysis; the printing and the
   sample scripts are left out), ass-core/utils/fields.rs validate_ass_name and
   ass-renderer/src/renderer/probing.rs. *)
From Verif Require Import Base ParseModel Utf8Model.

(* ---- color_diagnostic.rs ---- *)
Inductive label := White | Red | Green | Blue | Yellow | Cyan | Magenta | Black | Custom.
(* 107-116; None stands for the INVALID/ERROR record of 164-173 *)
Record color_info := Ci { ci_hex : str; ci_has_alpha : bool; ci_alpha : N; ci_red : N; ci_green : N; ci_blue : N; ci_label : label }.
(* 137-147 *)
Definition label_of (r g b : N) : label :=
  match r, g, b with
  | 255, 255, 255 => White
  | 255, 0, 0 => Red
  | 0, 255, 0 => Green
  | 0, 0, 255 => Blue
  | 255, 255, 0 => Yellow
  | 0, 255, 255 => Cyan
  | 255, 0, 255 => Magenta
  | 0, 0, 0 => Black
  | _, _, _ => Custom
  end%N.
Definition amp (c : char) : bool := (c =? 38)%N.
(* 118-174 *)
Definition parse_color_debug (color : str) : option color_info :=
  match strip_prefix (lit "&H") (drop_end amp color) with
  | None => None
  | Some hex =>
    let has := 8 <=? blen hex in
    match parse_uint u32_max 16 hex with
    | None => None
    | Some v =>
      let '(alpha, bgr) := if has then (N.land (N.shiftr v 24) 255, N.land v 16777215) else (0%N, v) in
      let r := N.land bgr 255 in
      let g := N.land (N.shiftr bgr 8) 255 in
      let b := N.land (N.shiftr bgr 16) 255 in
      Some (Ci hex has alpha r g b (label_of r g b))
    end
  end.
(* 35-41: the texts of the first events section *)
Definition has_color_overrides (texts : list str) : bool := existsb (fun t => contains (lit "\c") t || contains (lit "\1c") t) texts.

(* ---- fields.rs 46-53 ---- *)
Definition validate_ass_name (name : str) : bool :=
  negb (match name with [] => true | _ => false end) &&
  negb (existsb (N.eqb 44) name) && negb (existsb (N.eqb 58) name) && negb (existsb (N.eqb 123) name) && negb (existsb (N.eqb 125) name) &&
  forallb (fun c => negb (is_control c) || (c =? 9)%N) name.

(* ---- probing.rs ---- *)
Section Probe.
  (* the kinds of back end, those compiled in, and what creating one gives *)
  Context {kind backend : Type}.
  Variable compiled : kind -> bool.
  Variable create : kind -> option backend.
  (* 54-79 *)
  Definition try_create (k : kind) : option backend := if compiled k then create k else None.
  (* 37-51 *)
  Fixpoint probe_best (order : list kind) : option backend :=
    match order with
    | [] => None
    | k :: r => match try_create k with Some b => Some b | None => probe_best r end
    end.
  (* 95-101 *)
  Definition available (order : list kind) : list kind := filter compiled order.
End Probe.
