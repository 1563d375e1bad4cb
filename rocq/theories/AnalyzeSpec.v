(* What the frame analyser should find. *)
From Verif Require Import Base FloatModel AnalyzeModel.

(* a frame with a byte for each channel of each pixel *)
Definition whole (f : frame) : Prop := List.length (f_px f) = 4 * (f_w f * f_h f) /\ Forall (fun b => (b < 256)%N) (f_px f).
(* channel k of a pixel *)
Definition channel (f : frame) (k : nat) (p : pixel) : N := nth (4 * (snd p * f_w f + fst p) + k) (f_px f) 0%N.
Definition visible (f : frame) (p : pixel) : Prop := fst p < f_w f /\ snd p < f_h f /\ (0 < channel f 3 p)%N.
(* side by side *)
Definition adjacent (p q : pixel) : Prop :=
  (fst p = fst q /\ (snd p = S (snd q) \/ snd q = S (snd p))) \/ (snd p = snd q /\ (fst p = S (fst q) \/ fst q = S (fst p))).
(* reached through visible pixels *)
Inductive connected (f : frame) (p : pixel) : pixel -> Prop :=
| C_self : visible f p -> connected f p p
| C_next q r : connected f p q -> adjacent q r -> visible f r -> connected f p r.

Definition least_of (n : nat) (l : list nat) : Prop := In n l /\ forall x, In x l -> n <= x.
Definition greatest_of (n : nat) (l : list nat) : Prop := In n l /\ forall x, In x l -> x <= n.
Definition total (l : list N) : N := fold_right N.add 0%N l.
(* the box, the size and the mean colour of the connected area of p *)
Definition describes (f : frame) (p : pixel) (r : region) : Prop :=
  exists area, NoDup area /\ (forall q, In q area <-> connected f p q) /\ r_count r = List.length area /\
    least_of (r_minx r) (map fst area) /\ least_of (r_miny r) (map snd area) /\ greatest_of (r_maxx r) (map fst area) /\ greatest_of (r_maxy r) (map snd area) /\
    r_color r = map (fun k => total (map (channel f k) area) / N.of_nat (List.length area))%N [0; 1; 2; 3].
(* the pixel of an area that comes first in reading order *)
Definition place (f : frame) (p : pixel) : nat := snd p * f_w f + fst p.
Definition first_of_area (f : frame) (p : pixel) : Prop := visible f p /\ forall q, connected f p q -> place f p <= place f q.

(* every pixel, in reading order, and how many of them pass a test *)
Definition every (f : frame) : list pixel := map (fun i => (i mod f_w f, i / f_w f)) (seq 0 (f_w f * f_h f)).
Definition tally (f : frame) (test : pixel -> bool) : nat := List.length (filter test (every f)).
Definition shown (f : frame) (p : pixel) : bool := (0 <? channel f 3 p)%N.
Definition grey (f : frame) (p : pixel) : bool := (channel f 0 p =? channel f 1 p)%N && (channel f 1 p =? channel f 2 p)%N.
(* the first value with the greatest count *)
Definition first_most (count : nat -> nat) (v : nat) : Prop := (forall u, u < 256 -> count u <= count v) /\ (forall u, u < v -> count u < count v).
(* the size of a region's box *)
Definition box_width (r : region) : nat := S (r_maxx r - r_minx r).
Definition box_height (r : region) : nat := S (r_maxy r - r_miny r).
Definition looks_like_text (r : region) : bool :=
  (3 * box_height r <? 2 * box_width r) && (15 <=? box_height r) && (box_height r <? 200) && existsb (fun k => 200 <? nth k (r_color r) 0)%N [0; 1; 2].
