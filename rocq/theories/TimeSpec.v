(* What a time text means, independently of the parser. *)
From Verif Require Import Base NumSpec.

(* "S" or "S.F" or "S.F.anything": S seconds, F (digits only) centiseconds. *)
Definition seconds_field (t : str) (s cs : N) : Prop :=
  (numeral t s /\ cs = 0%N) \/
  (exists S F rest, t = S ++ lit "." ++ F ++ rest /\ numeral S s /\
     F <> [] /\ forallb is_digit F = true /\ dec_value F = cs /\
     (rest = [] \/ exists r, rest = lit "." ++ r)).

(* The text is H:M:S with these four field values. *)
Definition time_fields (t : str) (h m s cs : N) : Prop :=
  exists H M S, t = H ++ lit ":" ++ M ++ lit ":" ++ S /\ ~ In 58%N S /\
    numeral H h /\ numeral M m /\ seconds_field S s cs.

Definition centis (h m s cs : N) : N := (h * 360000 + m * 6000 + s * 100 + cs)%N.
