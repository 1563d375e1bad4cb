(* Specification vocabulary for embedded data. *)
From Verif Require Import Base.

Definition bytes (l : list N) : Prop := Forall (fun b => (b < 256)%N) l.

(* Sizes/contents whose last encoded line is not mistaken for a comment. *)
Definition survives (data : list N) : Prop :=
  let r := List.length data mod 45 in
  r <> 1 /\ r <> 27 /\ (r = 3 -> (4 <= nth (List.length data - 3) data 0)%N).

(* The data without its incomplete last chunk of 45 bytes. *)
Definition without_last_chunk (data : list N) : list N :=
  firstn (List.length data - List.length data mod 45) data.
