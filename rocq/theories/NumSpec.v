(* Specification vocabulary: the number a text spells. *)
From Verif Require Import Base.

(* Value of a decimal digit string, most significant digit first. *)
Definition dec_value (s : str) : N := fold_left (fun a c => (10 * a + (c - 48))%N) s 0%N.

(* A decimal numeral as Rust's integer parser reads it: an optional plus sign
   followed by at least one digit. *)
Definition numeral (s : str) (v : N) : Prop :=
  exists d, (s = d \/ s = 43%N :: d) /\ d <> [] /\ forallb is_digit d = true /\ dec_value d = v.

(* Value of a hexadecimal digit character. *)
Definition hex_digit_value (c : N) : N :=
  if (c <=? 57)%N then (c - 48)%N else if (c <=? 70)%N then (c - 55)%N else (c - 87)%N.
Definition hex_value (s : str) : N := fold_left (fun a c => (16 * a + hex_digit_value c)%N) s 0%N.
