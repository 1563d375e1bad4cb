(* What the comparison of two pictures should report. *)
From Coq Require Import QArith.
From Verif Require Import Base FloatModel CompareModel.

Definition byte_color (c : color) : Prop := let '(r, g, b, a) := c in (r < 256 /\ g < 256 /\ b < 256 /\ a < 256)%N.
Definition bytes_only (m : pixmap) : Prop := forall x y, byte_color (m_at m x y).
(* the four channels together *)
Definition gap (a b : N) : Z := Z.abs (Z.of_N a - Z.of_N b).
Definition off_by (p q : color) : Z :=
  let '(r1, g1, b1, a1) := p in let '(r2, g2, b2, a2) := q in (gap r1 r2 + gap g1 g2 + gap b1 b2 + gap a1 a2)%Z.
(* the places both have, in reading order *)
Definition common (a b : pixmap) : list (nat * nat) :=
  let w := Nat.min (m_w a) (m_w b) in map (fun i => (i mod w, i / w)) (seq 0 (w * Nat.min (m_h a) (m_h b))).
Definition off_at (a b : pixmap) (p : nat * nat) : Z := off_by (m_at a (fst p) (snd p)) (m_at b (fst p) (snd p)).
Definition sum (l : list Z) : Z := fold_right Z.add 0%Z l.
Definition number (x : float) (q : Q) : Prop := exists v, x = Fin v /\ (v == q)%Q.
