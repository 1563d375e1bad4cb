(* Model of the event queries of the editor, crates/ass-editor/core/fluent/
   {event_query*,query_types,event_ops,event_accessor,event_deleter}.rs, and of
   the readers of core/document/ass_api.rs.  str::to_lowercase is a parameter. *)
From Verif Require Export Base DocModel ParseModel.
From Verif Require Import MapLib SortLib EventCmdModel.

(* ---- query_types.rs ---- *)
(* 14-23; find_line_number and find_event_range (event_query_exec.rs:154-164,
   event_ops.rs:174-184) give constants *)
Record info := Info { n_index : nat; n_event : event; n_line : nat; n_range : range }.
Definition info_of (i : nat) (e : event) : info := Info i e 1 (range_new 0 0).
Inductive criterion := ByStart | ByEnd | ByDuration | ByStyle | BySpeaker | ByLayer | ByIndex | ByText.
Record sorting := Sorting { by_ : criterion; then_by : option criterion; ascending : bool }.
(* use_regex has no effect: both branches of event_query_filter.rs:76-92 are
   the same *)
Record filter_ := Filter {
  f_type : option event_type; f_style : option str; f_speaker : option str; f_text : option str;
  f_time : option (N * N); f_layer : option N; f_effect : option str; f_case : bool }.
Record query := Query { q_filter : filter_; q_sort : option sorting; q_limit : option nat }.

(* the parsed events with their numbers: exec.rs:88-112, event_ops.rs:59-83 *)
Definition events_of (sc : script) : list event := flat_map (fun s => match s with SEvents l => l | _ => [] end) (sc_sections sc).
Fixpoint numbered (i : nat) (l : list event) : list info := match l with [] => [] | e :: r => info_of i e :: numbered (S i) r end.

(* ---- event_query_filter.rs ---- *)
Definition type_eqb (a b : event_type) : bool :=
  match a, b with
  | Dialogue, Dialogue | Comment, Comment | Picture, Picture | Sound, Sound | Movie, Movie | Command, Command => true
  | _, _ => false
  end.
(* 94-122 parse_time_to_cs *)
Definition u32_op (f : N -> N -> N) (a b : N) : run N := if (u32_max <? f a b)%N then Crash else Done (f a b).
Definition time_cs (s : str) : run (option N) :=
  match split_on is_colon s with
  | [h; m; r] =>
    match parse_u32 h, parse_u32 m, split_on (N.eqb 46) r with
    | Some h, Some m, [s; c] =>
      match parse_u32 s, parse_u32 c with
      | Some s, Some c =>
        a <- u32_op N.mul h 360000 ;; b <- u32_op N.mul m 6000 ;; x <- u32_op N.add a b ;;
        d <- u32_op N.mul s 100 ;; y <- u32_op N.add x d ;; z <- u32_op N.add y c ;; Done (Some z)
      | _, _ => Done None
      end
    | _, _, _ => Done None
    end
  | _ => Done None
  end.
Section Lower.
  Context (lower : str -> str).
  (* 76-92 *)
  Definition pattern_in (cs : bool) (text pattern : str) : bool :=
    if cs then contains pattern text else contains (lower pattern) (lower text).
  Definition pattern_ok (cs : bool) (o : option str) (text : str) : bool := match o with Some p => pattern_in cs text p | None => true end.
  (* 16-74 *)
  Definition matches_filter (f : filter_) (e : event) : run bool :=
    if match f_type f with Some t => negb (type_eqb (e_type e) t) | None => false end then Done false
    else if negb (pattern_ok (f_case f) (f_style f) (e_style e)) then Done false
    else if negb (pattern_ok (f_case f) (f_text f) (e_text e)) then Done false
    else if negb (pattern_ok (f_case f) (f_speaker f) (e_name e)) then Done false
    else if negb (pattern_ok (f_case f) (f_effect f) (e_effect e)) then Done false
    else if match f_layer f with Some n => match parse_u32 (e_layer e) with Some v => negb (v =? n)%N | None => true end | None => false end then Done false
    else match f_time f with
         | None => Done true
         | Some (lo, hi) =>
           a <- time_cs (e_start e) ;; b <- time_cs (e_end e) ;;
           Done (match a, b with Some a, Some b => negb ((a <? lo)%N || (hi <? b)%N) | _, _ => false end)
         end.
  (* exec.rs:114-124 *)
  Fixpoint apply_filters (f : filter_) (l : list info) : run (list info) :=
    match l with
    | [] => Done []
    | i :: r => b <- matches_filter f (n_event i) ;; rest <- apply_filters f r ;; Done (if b : bool then i :: rest else rest)
    end.
End Lower.
(* 124-160 compare_by_criteria: what is compared *)
Inductive key := Num (n : N) | Word (s : str).
Definition or_0 (o : option N) : N := match o with Some n => n | None => 0%N end.
Definition key_of (c : criterion) (i : info) : run key :=
  let e := n_event i in
  match c with
  | ByStart => a <- time_cs (e_start e) ;; Done (Num (or_0 a))
  | ByEnd => a <- time_cs (e_end e) ;; Done (Num (or_0 a))
  | ByDuration => a <- time_cs (e_start e) ;; b <- time_cs (e_end e) ;; Done (Num (or_0 b - or_0 a))
  | ByStyle => Done (Word (e_style e))
  | BySpeaker => Done (Word (e_name e))
  | ByLayer => Done (Num (or_0 (parse_u32 (e_layer e))))
  | ByIndex => Done (Num (N.of_nat (n_index i)))
  | ByText => Done (Word (e_text e))
  end.
Definition key_cmp (a b : key) : comparison :=
  match a, b with
  | Num x, Num y => (x ?= y)%N
  | Word x, Word y => str_cmp x y
  | Num _, Word _ => Lt
  | Word _, Num _ => Gt
  end.
Fixpoint map_run {A B} (f : A -> run B) (l : list A) : run (list B) :=
  match l with [] => Done [] | x :: r => y <- f x ;; ys <- map_run f r ;; Done (y :: ys) end.
(* exec.rs:126-152: the comparison of two entries with their keys *)
Definition entry : Type := info * key * key.
Definition entry_cmp (s : sorting) (a b : entry) : comparison :=
  let turn c := if ascending s then c else CompOpp c in
  match key_cmp (snd (fst a)) (snd (fst b)) with
  | Eq => turn (key_cmp (snd a) (snd b))
  | c => turn c
  end.
Definition entry_le (s : sorting) (a b : entry) : bool := match entry_cmp s a b with Gt => false | _ => true end.
(* slice::sort_by.  Every entry is compared, if there are two, and an entry is
   compared by the second criterion exactly if another one has the same first
   key: neighbours of a sorted result must have been compared. *)
Definition second_key (s : sorting) (ks : list key) (k : key) (i : info) : run key :=
  match then_by s with
  | None => Done (Num 0)
  | Some c =>
    if 1 <? List.length (filter (fun k' => match key_cmp k k' with Eq => true | _ => false end) ks) then key_of c i else Done (Num 0)
  end.
Definition apply_sort (s : sorting) (l : list info) : run (list info) :=
  match l with
  | [] | [_] => Done l
  | _ =>
    ks <- map_run (key_of (by_ s)) l ;;
    es <- map_run (fun p => k2 <- second_key s ks (snd p) (fst p) ;; Done (fst p, snd p, k2)) (combine l ks) ;;
    Done (map (fun e => fst (fst e)) (stable_sort (entry_le s) es))
  end.
(* exec.rs:16-33 execute *)
Definition run_query (lower : str -> str) (q : query) (sc : script) : run (list info) :=
  l <- apply_filters lower (q_filter q) (numbered 0 (events_of sc)) ;;
  l <- match q_sort q with Some s => apply_sort s l | None => Done l end ;;
  Done (match q_limit q with Some n => firstn n l | None => l end).
Definition execute (lower : str -> str) (q : query) (d : doc) : run (list info) := sc <- parse (text d) ;; run_query lower q sc.
(* 36-38 indices, 50-53 first, 56-58 count *)
Definition indices (lower : str -> str) (q : query) (d : doc) : run (list nat) := l <- execute lower q d ;; Done (map n_index l).
Definition first (lower : str -> str) (q : query) (d : doc) : run (option info) :=
  l <- execute lower (Query (q_filter q) (q_sort q) (Some 1)) d ;; Done (hd_error (rev l)).
Definition count (lower : str -> str) (q : query) (d : doc) : run nat := l <- execute lower q d ;; Done (List.length l).
(* event_ops.rs:59-83 get, 91-93 all, 96-108 count *)
Definition no_filter : filter_ := Filter None None None None None None None false.
Fixpoint get_loop (index i : nat) (l : list event) : option info :=
  match l with [] => None | e :: r => if i =? index then Some (info_of index e) else get_loop index (S i) r end.
Definition get (index : nat) (d : doc) : run (option info) := sc <- parse (text d) ;; Done (get_loop index 0 (events_of sc)).
Definition all (d : doc) : run (list info) := execute (fun s => s) (Query no_filter None None) d.
Definition count_all (d : doc) : run nat :=
  sc <- parse (text d) ;; Done (fold_left (fun n s => match s with SEvents l => n + List.length l | _ => n end) (sc_sections sc) 0).
(* event_deleter.rs:33-88: delete what a query finds *)
Definition delete_found (fuel sz : nat) (lower : str -> str) (f : filter_) (d : doc) : outcome (cresult * nat) :=
  l <- indices lower (Query f None None) d ;; delete_events fuel sz l d.

(* ---- core/document/ass_api.rs: the readers ---- *)
(* 23-33, 36-46 *)
Definition styles_count (d : doc) : run nat :=
  sc <- parse (text d) ;; Done (fold_left (fun n s => match s with SStyles l => n + List.length l | _ => n end) (sc_sections sc) 0).
(* 49-61 *)
Definition info_fields (d : doc) : run (list str) :=
  sc <- parse (text d) ;; Done (flat_map (fun s => match s with SInfo l _ => map fst l | _ => [] end) (sc_sections sc)).
(* 64-66, 69-76, 79-86 *)
Definition sections_count (d : doc) : run nat := sc <- parse (text d) ;; Done (List.length (sc_sections sc)).
Definition has_events (d : doc) : run bool := sc <- parse (text d) ;; Done (existsb (fun s => match s with SEvents _ => true | _ => false end) (sc_sections sc)).
Definition has_styles (d : doc) : run bool := sc <- parse (text d) ;; Done (existsb (fun s => match s with SStyles _ => true | _ => false end) (sc_sections sc)).
(* 89-103 *)
Definition find_event_text (pattern : str) (d : doc) : run (list str) :=
  sc <- parse (text d) ;; Done (map e_text (filter (fun e => contains pattern (e_text e)) (events_of sc))).
(* 118-131: the first section that has the key, and its first field with it *)
Fixpoint field_of (key : str) (l : list (str * str)) : option str :=
  match l with [] => None | (k, v) :: r => if str_eqb k key then Some v else field_of key r end.
Fixpoint find_field (key : str) (l : list section) : option str :=
  match l with
  | [] => None
  | SInfo f _ :: r => match field_of key f with Some v => Some v | None => find_field key r end
  | _ :: r => find_field key r
  end.
Definition get_field_value (key : str) (d : doc) : run (option str) := sc <- parse (text d) ;; Done (find_field key (sc_sections sc)).
