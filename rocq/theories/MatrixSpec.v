(* Matrices of whole numbers, and the ranges of tag parameters. *)
From Coq Require Import QArith.
From Verif Require Import Base FloatModel FloatSpec LayoutSpec MatrixModel.
Local Open Scope Z_scope.

Definition entry (m : matrix) (i j : nat) : float :=
  let r := match i with 0%nat => m0 m | 1%nat => m1 m | _ => m2 m end in match j with 0%nat => r0 r | 1%nat => r1 r | _ => r2 r end.
Definition table := nat -> nat -> Z.
Definition stands (m : matrix) (t : table) : Prop := forall i j, (i < 3)%nat -> (j < 3)%nat -> whole (entry m i j) (t i j).
Definition within (n : Z) (t : table) : Prop := forall i j, (i < 3)%nat -> (j < 3)%nat -> Z.abs (t i j) <= n.
Definition product (a b : table) : table := fun i j => a i 0%nat * b 0%nat j + a i 1%nat * b 1%nat j + a i 2%nat * b 2%nat j.
Definition image (t : table) (i : nat) (x y : Z) : Z := t i 0%nat * x + t i 1%nat * y + t i 2%nat.
(* the last row 0 0 1 *)
Definition affine (t : table) : Prop := t 2%nat 0%nat = 0 /\ t 2%nat 1%nat = 0 /\ t 2%nat 2%nat = 1.

Definition number32 (x : float) (q : Q) : Prop := is x q /\ representable f32 q.
Definition fields (t : transform) : list float := [tx t; ty t; sx t; sy t; rotation t; shear_x t; shear_y t].

(* numbers in a range; infinities and NaN are in none *)
Definition inside (p : Q -> Prop) (v : float) : Prop := exists q, v = Fin q /\ p q.
Definition accepts {A} (p : A -> Prop) (f : A -> option A) : Prop := forall v, (p v -> f v = Some v) /\ (~ p v -> f v = None).
