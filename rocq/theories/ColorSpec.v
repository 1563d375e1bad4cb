(* What a colour text spells. *)
From Verif Require Import Base NumSpec.

(* The ways a hexadecimal part d may be dressed up. *)
Definition dressed (t d : str) : Prop :=
  t = lit "&H" ++ d ++ lit "&" \/ t = lit "&h" ++ d ++ lit "&" \/
  t = lit "&H" ++ d \/ t = lit "&h" ++ d \/ t = lit "0x" ++ d \/
  (t = d /\ forallb is_hex d = true).

(* d is a hexadecimal numeral of value v. *)
Definition hex_numeral (d : str) (v : N) : Prop :=
  d <> [] /\ forallb is_hex d = true /\ hex_value d = v.

(* The same with the optional plus sign that Rust's integer parser accepts. *)
Definition hex_numeral_plus (d : str) (v : N) : Prop :=
  hex_numeral d v \/ exists d', d = 43%N :: d' /\ hex_numeral d' v.

Definition byte_at (k v : N) : N := ((v / 2 ^ (8 * k)) mod 256)%N.
