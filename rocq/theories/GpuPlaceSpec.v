(* Which pixels a quad in device coordinates covers, and which texels they show. *)
From Coq Require Import QArith Qround.
From Verif Require Import Base.
Local Open Scope Q_scope.

(* WebGPU's viewport: device x from -1 to 1 covers the columns, device y from 1 to -1 the rows *)
Definition column_at (fw : N) (v : Q) : Q := (v + 1) / 2 * inject_Z (Z.of_N fw).
Definition row_at (fh : N) (v : Q) : Q := (1 - v) / 2 * inject_Z (Z.of_N fh).
(* a pixel is drawn when its middle lies between the two edges *)
Definition covers (a b : Q) (p : Z) : Prop := a <= inject_Z p + (1 # 2) /\ inject_Z p + (1 # 2) < b.
(* the nearest texel of n over the edges *)
Definition texel (a b : Q) (n : N) (p : Z) : Z := Qfloor ((inject_Z p + (1 # 2) - a) / (b - a) * inject_Z (Z.of_N n)).
Definition in_reach (x : Z) (w fw : N) : Prop := (-65536 <= x /\ x + Z.of_N w <= 65536)%Z /\ (1 <= fw <= 16384)%N.

