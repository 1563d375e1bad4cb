(* Model of ass-core analysis/events: overlap/{detection,sweep}.rs,
   utils/{duration,ordering,overlaps}.rs and
   dialogue_info/{analyze,accessors}.rs. *)
From Verif Require Export Base ParseModel TimeModel TagModel SortLib.

(* ---- the overlap sweep ---- *)
(* overlap/sweep.rs:10-27 *)
Record sweep_item := Item { it_time : N; it_start : bool; it_index : nat }.
(* overlap/sweep.rs:43-54: not Greater; at one time End comes before Start *)
Definition sweep_le (a b : sweep_item) : bool :=
  match (it_time a ?= it_time b)%N with
  | Lt => true
  | Gt => false
  | Eq => negb (it_start a && negb (it_start b))
  end.
(* overlap/detection.rs:29-45 *)
Fixpoint sweep_items (i : nat) (times : list (N * N)) : list sweep_item :=
  match times with
  | [] => []
  | (s, e) :: r => Item s true i :: Item e false i :: sweep_items (S i) r
  end.
(* Vec::position and Vec::remove *)
Fixpoint remove_first (x : nat) (l : list nat) : list nat :=
  match l with
  | [] => []
  | y :: r => if y =? x then r else y :: remove_first x r
  end.
(* overlap/detection.rs:49-69 *)
Fixpoint sweep (active : list nat) (overlaps : list (nat * nat)) (l : list sweep_item) : list (nat * nat) :=
  match l with
  | [] => overlaps
  | x :: r =>
    if it_start x then sweep (active ++ [it_index x]) (overlaps ++ map (fun a => (a, it_index x)) active) r
    else sweep (remove_first (it_index x) active) overlaps r
  end.
Definition overlaps_of (times : list (N * N)) : list (nat * nat) := sweep [] [] (stable_sort sweep_le (sweep_items 0 times)).
(* overlap/detection.rs:31-32 with `?`: the first failure decides *)
Fixpoint all_times {A} (get : A -> res (N * N)) (l : list A) : res (list (N * N)) :=
  match l with
  | [] => Ok []
  | x :: r => res_bind (get x) (fun t => res_bind (all_times get r) (fun ts => Ok (t :: ts)))
  end.
Definition event_times (e : event) : res (N * N) :=
  res_bind (parse_ass_time (e_start e)) (fun s => res_bind (parse_ass_time (e_end e)) (fun t => Ok (s, t))).
(* overlap/detection.rs:20-28, 107-161 *)
Definition find_overlapping_events (l : list event) : res (list (nat * nat)) :=
  if Nat.ltb (List.length l) 2 then Ok []
  else res_bind (all_times event_times l) (fun ts => Ok (overlaps_of ts)).
Definition count_overlapping_events (l : list event) : res nat :=
  res_bind (find_overlapping_events l) (fun o => Ok (List.length o)).

(* ---- DialogueInfo ---- *)
(* dialogue_info/mod.rs *)
Record dialogue_info := Info { di_event : event; di_start : N; di_end : N; di_animation : N; di_complexity : N; di_text : text_analysis }.
(* dialogue_info/analyze.rs:93-130; None is Err *)
Definition lift {A B} (r : res A) (k : A -> run (option B)) : run (option B) :=
  match r with Ok a => k a | Err => Done None | Panic => Crash end.
Definition analyze_with (reg : registry) (e : event) : run (option dialogue_info) :=
  lift (parse_ass_time (e_start e)) (fun s =>
  lift (parse_ass_time (e_end e)) (fun t =>
  if (t <=? s)%N then Done None
  else
    o <- analyze_text_with reg (e_text e) ;;
    match o with
    | None => Done None
    | Some ta =>
      a <- animation_score (ta_tags ta) ;;
      Done (Some (Info e s t a (complexity_score a (ta_chars ta) (List.length (ta_tags ta))) ta))
    end)).
Definition analyze := analyze_with no_registry.
(* dialogue_info/accessors.rs:18-26; u32 subtraction panics below zero *)
Definition u32_sub (a b : N) : res N := if (a <? b)%N then Panic else Ok (a - b)%N.
Definition duration_cs (d : dialogue_info) : res N := u32_sub (di_end d) (di_start d).
Definition duration_ms (d : dialogue_info) : res N := res_bind (duration_cs d) (fun x => u32_mul x 10).
(* dialogue_info/accessors.rs:66-84 *)
Inductive timing_relation := NoOverlap | PartialOverlap | FullOverlap | Identical.
Definition relation_of (a b : dialogue_info) : timing_relation :=
  if ((di_start a =? di_start b) && (di_end a =? di_end b))%N then Identical
  else if ((di_end a <=? di_start b) || (di_end b <=? di_start a))%N then NoOverlap
  else if ((di_start a <=? di_start b) && (di_end b <=? di_end a) || (di_start b <=? di_start a) && (di_end a <=? di_end b))%N then FullOverlap
  else PartialOverlap.
Definition overlaps_time_range (d : dialogue_info) (s e : N) : bool := negb ((di_end d <=? s) || (e <=? di_start d))%N.

(* ---- utils ---- *)
(* utils/ordering.rs:48-53: sort_by with (start, end) *)
Definition time_le (a b : dialogue_info) : bool :=
  match (di_start a ?= di_start b)%N with
  | Eq => (di_end a <=? di_end b)%N
  | Lt => true
  | Gt => false
  end.
Definition sort_events_by_time (l : list dialogue_info) : list dialogue_info := stable_sort time_le l.
(* utils/ordering.rs:70-82 *)
Fixpoint indices_from {A} (i : nat) (p : A -> bool) (l : list A) : list nat :=
  match l with
  | [] => []
  | x :: r => (if p x then [i] else []) ++ indices_from (S i) p r
  end.
Definition find_events_in_range (l : list dialogue_info) (s e : N) : list nat := indices_from 0 (fun d => overlaps_time_range d s e) l.
(* utils/duration.rs:50-59 *)
Definition min_list (l : list N) : option N := match l with [] => None | x :: r => Some (fold_left N.min r x) end.
Definition max_list (l : list N) : option N := match l with [] => None | x :: r => Some (fold_left N.max r x) end.
Definition calculate_total_duration (l : list dialogue_info) : res (option N) :=
  match min_list (map di_start l), max_list (map di_end l) with
  | Some s, Some e => res_bind (u32_sub e s) (fun d => Ok (Some d))
  | _, _ => Ok None
  end.
(* utils/duration.rs:74-81: sum::<u32>() from the left *)
Fixpoint sum_durations (acc : N) (l : list dialogue_info) : res N :=
  match l with
  | [] => Ok acc
  | d :: r => res_bind (duration_cs d) (fun x => res_bind (u32_add acc x) (fun y => sum_durations y r))
  end.
Definition calculate_average_duration (l : list dialogue_info) : res (option N) :=
  match l with
  | [] => Ok None
  | _ => res_bind (sum_durations 0 l) (fun t => Ok (Some (t / N.min (N.of_nat (List.length l)) u32_max)%N))
  end.
(* utils/overlaps.rs:42-62 *)
Definition find_overlapping_dialogue_events (l : list dialogue_info) : res (list (nat * nat)) :=
  match find_overlapping_events (map di_event l) with
  | Ok o => Ok o
  | Err => Ok []
  | Panic => Panic
  end.
