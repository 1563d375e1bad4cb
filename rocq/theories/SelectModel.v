(* Model of the event selector of ass-renderer:
   crates/ass-renderer/src/renderer/{time_index,event_selector}.rs and the
   rectangles of crates/ass-renderer/src/utils/regions.rs.
   Paths below are relative to crates/ass-renderer/src. *)
From Verif Require Export Base ParseModel TimeModel SortLib.

(* ---- renderer/time_index.rs ---- *)
(* 17  (start_cs, end_cs, original_index) *)
Record entry := Entry { en_start : N; en_end : N; en_index : nat }.
(* 15-18; the key is (address of the events, their number, comment flag).
   Addresses are values of the model: a script carries its own. *)
Record time_index := TimeIndex { ti_address : N; ti_len : nat; ti_comments : bool; ti_by_start : list entry }.
(* 32-36 *)
Definition included (comments : bool) (ty : event_type) : bool :=
  match ty with Dialogue => true | Comment => comments | _ => false end.
(* 38-39  unwrap_or(0); the parser itself may panic *)
Definition time_or_zero (s : str) : run N :=
  match parse_ass_time s with Ok t => Done t | Err => Done 0%N | Panic => Crash end.
(* 31-42 *)
Fixpoint entries (comments : bool) (i : nat) (events : list event) : run (list entry) :=
  match events with
  | [] => Done []
  | e :: r =>
    if included comments (e_type e) then
      s <- time_or_zero (e_start e) ;; t <- time_or_zero (e_end e) ;; l <- entries comments (S i) r ;; Done (Entry s t i :: l)
    else entries comments (S i) r
  end.
(* 43  sort_unstable_by_key: the order of entries with equal starts is not
   specified, so the model sorts an arbitrary rearrangement, `shuffle`, of them. *)
Definition by_start_le (a b : entry) : bool := (en_start a <=? en_start b)%N.
Definition build_index (shuffle : list entry -> list entry) (address : N) (comments : bool) (events : list event) : run time_index :=
  l <- entries comments 0 events ;; Done (TimeIndex address (List.length events) comments (stable_sort by_start_le (shuffle l))).

(* ---- slice::partition_point: the standard library's binary search ---- *)
Fixpoint narrow (fuel : nat) (p : nat -> bool) (base size : nat) : run nat :=
  match fuel with
  | 0 => Stuck
  | S f => if size <=? 1 then Done base else let half := size / 2 in narrow f p (if p (base + half) then base + half else base) (size - half)
  end.
Definition partition_point {A} (p : A -> bool) (l : list A) : run nat :=
  match l with
  | [] => Done 0
  | _ =>
    let at_ := fun i => match nth_error l i with Some x => p x | None => false end in
    b <- narrow (List.length l) at_ 0 (List.length l) ;; Done (if at_ b then S b else b)
  end.

(* ---- renderer/event_selector.rs ---- *)
(* 39-48, and utils/regions.rs:5-14 *)
Record region := Region { rg_x : N; rg_y : N; rg_w : N; rg_h : N }.
(* 15-35; previous_active is a hash set, kept here as a list without repetition *)
Record selector := Selector { sl_previous : list nat; sl_last : option N; sl_regions : list region; sl_comments : bool; sl_index : option time_index }.
(* 52-61; the order of the two index lists is that of a hash set and therefore unspecified *)
Record active := Active { ac_events : list event; ac_new : list nat; ac_gone : list nat; ac_dirty : bool }.
(* 65-80 *)
Definition new_selector : selector := Selector [] None [] false None.
(* 83-85 *)
Definition set_comments (b : bool) (s : selector) : selector := Selector (sl_previous s) (sl_last s) (sl_regions s) b (sl_index s).
(* 177-188  ensure_index *)
Definition ensure_index (shuffle : list entry -> list entry) (s : selector) (address : N) (events : list event) : run time_index :=
  match sl_index s with
  | Some i =>
    if ((ti_address i =? address)%N && (ti_len i =? List.length events) && Bool.eqb (ti_comments i) (sl_comments s))
    then Done i else build_index shuffle address (sl_comments s) events
  | None => build_index shuffle address (sl_comments s) events
  end.
Definition contains (p s : str) : bool := match find_str p s with Some _ => true | None => false end.
(* 191-212 *)
Fixpoint has_animated (events : list event) (t : N) : run bool :=
  match events with
  | [] => Done false
  | e :: r =>
    if contains (lit "\t(") (e_text e) || contains (lit "\move(") (e_text e) || contains (lit "\fade(") (e_text e) || contains (lit "\fad(") (e_text e)
    then Done true
    else if contains (lit "\k") (e_text e) || contains (lit "\K") (e_text e) then
      match parse_ass_time (e_start e) with
      | Ok s => if (s <? t)%N then Done true else has_animated r t
      | Err => has_animated r t
      | Panic => Crash
      end
    else has_animated r t
  end.
(* u32 as i32 *)
Definition as_i32 (n : N) : Z := if (n <? 2147483648)%N then Z.of_N n else (Z.of_N n - 4294967296)%Z.
Definition i32_ok (z : Z) : bool := ((-2147483648 <=? z) && (z <=? 2147483647))%Z.
(* 157  (time_cs as i32 - last as i32).abs() > 100; both operations may overflow *)
Definition far_apart (t last : N) : run bool :=
  let d := (as_i32 t - as_i32 last)%Z in
  if i32_ok d then if i32_ok (Z.abs d) then Done (100 <? Z.abs d)%Z else Crash else Crash.
Definition memn (i : nat) (l : list nat) : bool := existsb (Nat.eqb i) l.
Definition is_nil {A} (l : list A) : bool := match l with [] => true | _ => false end.
(* 110-116 *)
Definition first_events (sections : list section) : option (list event) :=
  match find (fun s => match s with SEvents _ => true | _ => false end) sections with
  | Some (SEvents l) => Some l
  | _ => None
  end.
(* 117-134 *)
Definition active_indices (i : time_index) (t : N) : run (list nat) :=
  hi <- partition_point (fun x => (en_start x <=? t)%N) (ti_by_start i) ;;
  Done (stable_sort Nat.leb (map en_index (filter (fun x => (t <? en_end x)%N) (firstn hi (ti_by_start i))))).
Fixpoint pick (events : list event) (l : list nat) : run (list event) :=
  match l with
  | [] => Done []
  | i :: r => e <- need (nth_error events i) ;; es <- pick events r ;; Done (e :: es)
  end.
(* 95-169  select_active *)
Definition select_active (shuffle : list entry -> list entry) (s : selector) (address : N) (sections : list section) (t : N) : run (selector * active) :=
  found <- match first_events sections with
           | Some events =>
             i <- ensure_index shuffle s address events ;; l <- active_indices i t ;; es <- pick events l ;; Done (Some i, l, es)
           | None => Done (sl_index s, [], [])
           end ;;
  let '(index, current, events) := found in
  let new := filter (fun i => negb (memn i (sl_previous s))) current in
  let gone := filter (fun i => negb (memn i current)) (sl_previous s) in
  dirty <- (if negb (is_nil new) || negb (is_nil gone) then Done true
            else a <- has_animated events t ;;
                 if a then Done true else match sl_last s with None => Done true | Some last => far_apart t last end) ;;
  Done (Selector current (Some t) (sl_regions s) (sl_comments s) index, Active events new gone dirty).

(* 273-280  select_active_events; select_active never returns Err *)
Definition select_active_events (shuffle : list entry -> list entry) (address : N) (sections : list section) (t : N) : run (list event) :=
  r <- select_active shuffle new_selector address sections t ;; Done (ac_events (snd r)).

(* ---- dirty regions ---- *)
Definition add32 (a b : N) : run N := if (u32_max <? a + b)%N then Crash else Done (a + b)%N.
(* a || b with effects *)
Definition or_else (a b : run bool) : run bool := x <- a ;; if x then Done true else b.
(* 241-246 *)
Definition regions_overlap (r : region) (x y w h : N) : run bool :=
  outside <- or_else (a <- add32 (rg_x r) (rg_w r) ;; Done (a <=? x)%N)
            (or_else (a <- add32 x w ;; Done (a <=? rg_x r)%N)
            (or_else (a <- add32 (rg_y r) (rg_h r) ;; Done (a <=? y)%N)
                     (a <- add32 y h ;; Done (a <=? rg_y r)%N))) ;;
  Done (negb outside).
(* 220-227 and utils/regions.rs:49-61  merge *)
Definition merge (r q : region) : run region :=
  a <- add32 (rg_x r) (rg_w r) ;; b <- add32 (rg_x q) (rg_w q) ;;
  c <- add32 (rg_y r) (rg_h r) ;; d <- add32 (rg_y q) (rg_h q) ;;
  let x := N.min (rg_x r) (rg_x q) in let y := N.min (rg_y r) (rg_y q) in
  Done (Region x y (N.max a b - x) (N.max c d - y)).
(* 215-238 *)
Fixpoint add_region (l : list region) (q : region) : run (list region) :=
  match l with
  | [] => Done [q]
  | r :: l' =>
    o <- regions_overlap r (rg_x q) (rg_y q) (rg_w q) (rg_h q) ;;
    if o then m <- merge r q ;; Done (m :: l') else l'' <- add_region l' q ;; Done (r :: l'')
  end.
(* 249-263 *)
Definition with_regions (s : selector) (l : list region) : selector := Selector (sl_previous s) (sl_last s) l (sl_comments s) (sl_index s).
Definition reset (s : selector) : selector := Selector [] None [] (sl_comments s) (sl_index s).

(* ---- everything a caller can do with a selector ---- *)
Inductive selector_op :=
  | Query (address : N) (sections : list section) (t : N)
  | RenderComments (b : bool)
  | AddRegion (q : region)
  | ClearRegions
  | Reset.
Definition selector_step (shuffle : list entry -> list entry) (s : selector) (o : selector_op) : run (selector * list active) :=
  match o with
  | Query address sections t => r <- select_active shuffle s address sections t ;; Done (fst r, [snd r])
  | RenderComments b => Done (set_comments b s, [])
  | AddRegion q => l <- add_region (sl_regions s) q ;; Done (with_regions s l, [])
  | ClearRegions => Done (with_regions s [], [])
  | Reset => Done (reset s, [])
  end.
Fixpoint selector_run (shuffle : list entry -> list entry) (s : selector) (ops : list selector_op) : run (selector * list active) :=
  match ops with
  | [] => Done (s, [])
  | o :: r => a <- selector_step shuffle s o ;; b <- selector_run shuffle (fst a) r ;; Done (fst b, snd a ++ snd b)
  end.

(* ---- utils/regions.rs ---- *)
(* 28-35 *)
Definition full_screen : region := Region 0 0 u32_max u32_max.
(* 38-46  bounds is (x1, y1, x2, y2) *)
Definition sat_add (a b : N) : N := N.min (a + b) u32_max.
Definition intersects (r : region) (x1 y1 x2 y2 : N) : bool :=
  negb ((sat_add (rg_x r) (rg_w r) <? x1) || (x2 <? rg_x r) || (sat_add (rg_y r) (rg_h r) <? y1) || (y2 <? rg_y r))%N.
(* 64-66; && evaluates its operands in order *)
Definition contains_point (r : region) (x y : N) : run bool :=
  if (rg_x r <=? x)%N then
    a <- add32 (rg_x r) (rg_w r) ;;
    if (x <? a)%N && (rg_y r <=? y)%N then b <- add32 (rg_y r) (rg_h r) ;; Done (y <? b)%N else Done false
  else Done false.
(* 69-71  u64 arithmetic *)
Definition area (r : region) : N := (rg_w r * rg_h r)%N.
