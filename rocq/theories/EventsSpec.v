(* What overlaps, durations and orders of events mean. *)
From Verif Require Export Base EventsModel.

(* pair (i, j) of events: i starts first, or equally early and is listed first *)
Definition starts_first (times : list (N * N)) (i j : nat) : Prop :=
  exists si ei sj ej, nth_error times i = Some (si, ei) /\ nth_error times j = Some (sj, ej) /\ ((si < sj)%N \/ si = sj /\ i < j).
(* the instants of a half-open range *)
Definition instant (r : N * N) (t : N) : Prop := (fst r <= t < snd r)%N.
Definition common_instant (times : list (N * N)) (i j : nat) : Prop :=
  exists a b t, nth_error times i = Some a /\ nth_error times j = Some b /\ instant a t /\ instant b t.
(* i starts and does not end before j starts; an end at or before its own start never ends it *)
Definition still_running (times : list (N * N)) (i j : nat) : Prop :=
  exists si ei sj ej, nth_error times i = Some (si, ei) /\ nth_error times j = Some (sj, ej) /\ ((sj < ei)%N \/ (ei <= si)%N).
Definition range_of (d : dialogue_info) : N * N := (di_start d, di_end d).
(* what analyze guarantees *)
Definition analyzed (d : dialogue_info) : Prop := exists reg, analyze_with reg (di_event d) = Done (Some d).
Definition total_of (l : list N) : N := fold_right N.add 0%N l.
Definition length_of (d : dialogue_info) : N := (di_end d - di_start d)%N.
