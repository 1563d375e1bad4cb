(* Model of the event commands of the editor:
   crates/ass-editor/commands/event_commands.  Paths below are relative to it.
   The document is the one of DocModel.  The messages of results are left out;
   the number of events they mention is returned instead. *)
From Verif Require Export Base TimeModel.
From Verif Require Export DocModel.
From Verif Require Import ParseModel SortLib.

(* Outcome of execute: Done (d, Some r) is Ok(r) with the document left as d,
   Done (d, None) is Err, Crash a panic and Stuck a loop that does not end. *)
Definition outcome (A : Type) := run (doc * option A).
Definition of_out {A} (o : out A) : outcome A :=
  match o with OOk d a => Done (d, Some a) | OErr d => Done (d, None) | OPanic => Crash end.
Definition and_then {A B} (o : outcome A) (f : doc -> A -> outcome B) : outcome B :=
  r <- o ;; match snd r with Some a => f (fst r) a | None => Done (fst r, None) end.

(* ---- helpers.rs:14-99  parse_event_line ---- *)
Record line_event := LineEvent {
  le_comment : bool; le_layer : str; le_start : str; le_end : str; le_style : str; le_name : str;
  le_left : str; le_right : str; le_vertical : str; le_effect : str; le_text : str }.
Definition is_comma (c : char) : bool := (c =? 44)%N.
(* 58-72  the characters are visited from the last one; `i` is one more than
   the index of the next one.  Parenthesis depth is an i32; its overflow
   (two billion parentheses) is not modelled. *)
Fixpoint last_comma (rev_chars : str) (i : nat) (depth : Z) : option nat :=
  match rev_chars with
  | [] => None
  | c :: r =>
    if (c =? 41)%N then last_comma r (i - 1) (depth + 1)%Z
    else if (c =? 40)%N then last_comma r (i - 1) (depth - 1)%Z
    else if is_comma c && (depth =? 0)%Z then Some (i - 1)
    else last_comma r (i - 1) depth
  end.
(* 74-81  the index counts characters but is used as a byte offset *)
Definition split_effect (remaining : str) : run (str * str) :=
  match last_comma (rev remaining) (List.length remaining) 0 with
  | Some i =>
    a <- need (slice_to remaining i) ;; b <- need (slice_from remaining (i + 1)) ;; Done (trim a, trim b)
  | None => Done (trim remaining, [])
  end.
(* None is Err *)
Definition parse_event_line (line : str) : run (option line_event) :=
  match find_char is_colon line with
  | None => Done None
  | Some (ty, rest) =>
    let fields := trim (tl rest) in
    let comment := str_eqb ty (lit "Comment") in
    if negb (str_eqb ty (lit "Dialogue") || comment) then Done None
    else match splitn 10 is_comma fields with
         | [layer; start; end_; style; name; margin_l; margin_r; margin_v; p8; p9] =>
           let prefix := list_sum (map blen [layer; start; end_; style; name; margin_l; margin_r; margin_v]) + 8 in
           remaining <- need (slice_from fields prefix) ;;
           et <- split_effect remaining ;;
           Done (Some (LineEvent comment (trim layer) (trim start) (trim end_) (trim style) (trim name)
                         (trim margin_l) (trim margin_r) (trim margin_v) (fst et) (snd et)))
         | _ => Done None
         end
  end.
(* The format! every command ends with (timing.rs:128-146, merge.rs:124-142,
   split.rs:99-132, effect_exec.rs:76-94). *)
Definition write_event (e : line_event) : str :=
  (if le_comment e then lit "Comment" else lit "Dialogue") ++ lit ": " ++
  join [44%N] [le_layer e; le_start e; le_end e; le_style e; le_name e; le_left e; le_right e; le_vertical e; le_effect e; le_text e].

(* ---- what all commands share ---- *)
(* toggle.rs:51-63 and the like: the offset after the format line *)
Definition format_line_end (content : str) : option nat :=
  match find_str (lit "[Events]") content with
  | None => None
  | Some (a, b) =>
    match find_str (lit "Format:") b with
    | None => None
    | Some (c, d) => match find_char is_nl d with Some (e, _) => Some (blen a + blen c + blen e + 1) | None => None end
    end
  end.
(* toggle.rs:82 and the like *)
Definition is_event_line (line : str) : bool := starts_with (lit "Dialogue:") line || starts_with (lit "Comment:") line.
(* toggle.rs:71-74 *)
Definition line_end (content rest : str) (start : nat) : nat :=
  match find_char is_nl rest with Some (l, _) => start + blen l | None => blen content end.
(* toggle.rs:83-84 *)
Definition selected (indices : list nat) (i : nat) : bool := is_nil indices || existsb (Nat.eqb i) indices.

(* The loop of toggle.rs:65-117, timing.rs:88-176 and effect_exec.rs:32-121,
   which differ only in how a line is rewritten (None: left alone).  `content`
   is the text of the document throughout; line_end is not adjusted after a
   replacement. *)
Fixpoint edit_events (fuel : nat) (sz : nat) (indices : list nat) (rewrite : str -> run (option str))
    (d : doc) (index start : nat) (total : option range) (changes : nat) : outcome (option range * nat) :=
  match fuel with
  | 0 => Stuck
  | S f =>
    if start <? blen (text d) then
      rest <- need (slice_from (text d) start) ;;
      let end_ := line_end (text d) rest start in
      if end_ <=? start then Done (d, Some (total, changes))
      else
        line <- need (slice (text d) start end_) ;;
        if is_event_line line then
          if selected indices index then
            new <- rewrite line ;;
            match new with
            | Some l =>
              and_then (of_out (doc_replace sz d (range_new start end_) l)) (fun d1 _ =>
                let change := range_new start (start + blen l) in
                edit_events f sz indices rewrite d1 (index + 1) (end_ + 1)
                  (Some (match total with Some r => range_union r change | None => change end)) (changes + 1))
            | None => edit_events f sz indices rewrite d (index + 1) (end_ + 1) total changes
            end
          else edit_events f sz indices rewrite d (index + 1) (end_ + 1) total changes
        else if starts_with (lit "[") line then Done (d, Some (total, changes))
        else edit_events f sz indices rewrite d index (end_ + 1) total changes
    else Done (d, Some (total, changes))
  end.
(* toggle.rs:49-63, 119-128 and the like; fuel is a bound on the rounds *)
Definition edit_command (fuel sz : nat) (indices : list nat) (rewrite : str -> run (option str)) (d : doc) : outcome (cresult * nat) :=
  match format_line_end (text d) with
  | None => Done (d, None)
  | Some start =>
    and_then (edit_events fuel sz indices rewrite d 0 start None 0) (fun d1 r =>
      let '(total, changes) := r in
      Done (d1, Some (if 0 <? changes
                      then success_with_change (match total with Some r => r | None => mkRange 0 0 end) (blen (text d1))
                      else mkRes true None None false, changes)))
  end.

(* ---- toggle.rs:87-91 ---- *)
Definition replacen1 (a b s : str) : str := match find_str a s with Some (p, q) => p ++ b ++ skipn (List.length a) q | None => s end.
Definition flip (line : str) : str :=
  if starts_with (lit "Dialogue:") line then replacen1 (lit "Dialogue:") (lit "Comment:") line
  else replacen1 (lit "Comment:") (lit "Dialogue:") line.
Definition toggle (fuel sz : nat) (indices : list nat) (d : doc) : outcome (cresult * nat) :=
  edit_command fuel sz indices (fun l => Done (Some (flip l))) d.

(* ---- timing.rs:109-168 ---- *)
Definition i32_min : Z := (-2147483648)%Z.
Definition i32_max : Z := 2147483647%Z.
(* u32 as i32 *)
Definition wrap_i32 (n : N) : Z := if (n <? 2147483648)%N then Z.of_N n else (Z.of_N n - 4294967296)%Z.
Definition i32_add (a b : Z) : run Z := let s := (a + b)%Z in if ((i32_min <=? s) && (s <=? i32_max))%Z then Done s else Crash.
(* 117-119  (cs as i32 + offset).max(0) as u32 *)
Definition moved (cs : N) (offset : Z) : run N := z <- i32_add (wrap_i32 cs) offset ;; Done (Z.to_N (Z.max z 0)).
(* parse_ass_time through Event::start_time_cs / end_time_cs; Err is None *)
Definition time_of (s : str) : run (option N) :=
  match parse_ass_time s with Ok t => Done (Some t) | Err => Done None | Panic => Crash end.
Definition with_times (e : line_event) (a b : str) : line_event :=
  LineEvent (le_comment e) (le_layer e) a b (le_style e) (le_name e) (le_left e) (le_right e) (le_vertical e) (le_effect e) (le_text e).
Definition shift (start_offset end_offset : Z) (line : str) : run (option str) :=
  e <- parse_event_line line ;;
  match e with
  | None => Done None
  | Some e =>
    a <- time_of (le_start e) ;; b <- time_of (le_end e) ;;
    match a, b with
    | Some a, Some b =>
      a' <- moved a start_offset ;; b' <- moved b end_offset ;;
      if (u32_max <? a' + 1)%N then Crash
      else Done (Some (write_event (with_times e (format_ass_time a') (format_ass_time (N.max b' (a' + 1))))))
    | _, _ => Done None
    end
  end.
Definition adjust_timing (fuel sz : nat) (indices : list nat) (start_offset end_offset : Z) (d : doc) : outcome (cresult * nat) :=
  edit_command fuel sz indices (shift start_offset end_offset) d.

(* ---- effect.rs:16-21, effect_exec.rs:55-95 ---- *)
Inductive effect_operation := EffectSet | EffectAppend | EffectPrepend | EffectClear.
Definition new_effect (op : effect_operation) (effect old : str) : str :=
  match op with
  | EffectSet => effect
  | EffectClear => []
  | EffectAppend => if is_nil old then effect else old ++ lit " " ++ effect
  | EffectPrepend => if is_nil old then effect else effect ++ lit " " ++ old
  end.
Definition with_effect (e : line_event) (x : str) : line_event :=
  LineEvent (le_comment e) (le_layer e) (le_start e) (le_end e) (le_style e) (le_name e) (le_left e) (le_right e) (le_vertical e) x (le_text e).
Definition put_effect (op : effect_operation) (effect line : str) : run (option str) :=
  e <- parse_event_line line ;;
  Done (match e with Some e => Some (write_event (with_effect e (new_effect op effect (le_effect e)))) | None => None end).
Definition change_effect (fuel sz : nat) (indices : list nat) (op : effect_operation) (effect : str) (d : doc) : outcome (cresult * nat) :=
  edit_command fuel sz indices (put_effect op effect) d.

(* ---- the lines as split.rs, merge.rs see them ---- *)
(* split.rs:63-156, merge.rs:74-102: the events from `start` on, each with its
   first and last byte offset and its line. *)
Fixpoint scan_events (fuel : nat) (content : str) (start : nat) : run (list (nat * nat * str)) :=
  match fuel with
  | 0 => Stuck
  | S f =>
    if start <? blen content then
      rest <- need (slice_from content start) ;;
      let end_ := line_end content rest start in
      if end_ <=? start then Done []
      else
        line <- need (slice content start end_) ;;
        if is_event_line line then l <- scan_events f content (end_ + 1) ;; Done ((start, end_, line) :: l)
        else if starts_with (lit "[") line then Done []
        else scan_events f content (end_ + 1)
    else Done []
  end.
(* Both commands look at the lines only until they have what they need; the
   loops cannot fail before that, so scanning to the end gives the same. *)

(* ---- split.rs:39-162 ---- *)
Definition split_event (fuel sz : nat) (index : nat) (time : str) (d : doc) : outcome cresult :=
  match parse_ass_time time with
  | Panic => Crash
  | Err => Done (d, None)
  | Ok t =>
    match format_line_end (text d) with
    | None => Done (d, None)
    | Some from =>
      events <- scan_events fuel (text d) from ;;
      match nth_error events index with
      | None => Done (d, None)
      | Some (start, end_, line) =>
        e <- parse_event_line line ;;
        match e with
        | None => Done (d, None)
        | Some e =>
          a <- time_of (le_start e) ;;
          match a with
          | None => Done (d, None)
          | Some a =>
            b <- time_of (le_end e) ;;
            match b with
            | None => Done (d, None)
            | Some b =>
              if ((t <=? a) || (b <=? t))%N then Done (d, None)
              else
                let new := write_event (with_times e (le_start e) time) ++ [10%N] ++ write_event (with_times e time (le_end e)) in
                and_then (of_out (doc_replace sz d (range_new start end_) new)) (fun d1 _ =>
                  Done (d1, Some (success_with_change (range_new start (start + blen new)) (start + blen new))))
            end
          end
        end
      end
    end
  end.

(* ---- merge.rs:50-161 ---- *)
Definition merge_events (fuel sz : nat) (first second : nat) (separator : str) (d : doc) : outcome cresult :=
  if second <=? first then Done (d, None)
  else match format_line_end (text d) with
  | None => Done (d, None)
  | Some from =>
    events <- scan_events fuel (text d) from ;;
    match nth_error events first, nth_error events second with
    | Some (start, _, line1), Some (_, end_, line2) =>
      e1 <- parse_event_line line1 ;;
      match e1 with
      | None => Done (d, None)
      | Some e1 =>
        e2 <- parse_event_line line2 ;;
        match e2 with
        | None => Done (d, None)
        | Some e2 =>
          let e := LineEvent (le_comment e1) (le_layer e1) (le_start e1) (le_end e2) (le_style e1) (le_name e1)
                     (le_left e1) (le_right e1) (le_vertical e1) (le_effect e1) (le_text e1 ++ separator ++ le_text e2) in
          let new := write_event e ++ [10%N] in
          and_then (of_out (doc_replace sz d (range_new start (end_ + 1)) new)) (fun d1 _ =>
            Done (d1, Some (success_with_change (range_new start (start + blen new)) (start + blen new))))
        end
      end
    | _, _ => Done (d, None)
    end
  end.

(* ---- delete.rs, batch_delete.rs ---- *)
(* delete.rs:45-73, batch_delete.rs:57-79: line ends include the newline, and
   the last byte of the line is cut off before it is looked at, newline or not.
   The scan goes on through later sections and empty lines. *)
Fixpoint scan_all (fuel : nat) (content : str) (start : nat) : run (list (nat * nat)) :=
  match fuel with
  | 0 => Stuck
  | S f =>
    if start <? blen content then
      rest <- need (slice_from content start) ;;
      let end_ := match find_char is_nl rest with Some (l, _) => start + blen l + 1 | None => blen content end in
      if end_ <=? start then Done []
      else
        line <- need (slice content start (end_ - 1)) ;;
        l <- scan_all f content end_ ;;
        Done (if is_event_line line then (start, end_) :: l else l)
    else Done []
  end.
(* delete.rs stops at the event it looks for *)
Fixpoint scan_until (fuel : nat) (content : str) (start index : nat) : run (option (nat * nat)) :=
  match fuel with
  | 0 => Stuck
  | S f =>
    if start <? blen content then
      rest <- need (slice_from content start) ;;
      let end_ := match find_char is_nl rest with Some (l, _) => start + blen l + 1 | None => blen content end in
      if end_ <=? start then Done None
      else
        line <- need (slice content start (end_ - 1)) ;;
        if is_event_line line then match index with 0 => Done (Some (start, end_)) | S i => scan_until f content end_ i end
        else scan_until f content end_ index
    else Done None
  end.
(* delete.rs:27-87 *)
Definition delete_event (fuel sz : nat) (index : nat) (d : doc) : outcome cresult :=
  match format_line_end (text d) with
  | None => Done (d, None)
  | Some from =>
    r <- scan_until fuel (text d) from index ;;
    match r with
    | None => Done (d, None)
    | Some (start, end_) =>
      and_then (of_out (doc_delete sz d (range_new start end_))) (fun d1 _ =>
        Done (d1, Some (success_with_change (range_new start start) start)))
    end
  end.
(* batch_delete.rs:35-37  sort_unstable_by descending, dedup *)
Fixpoint dedup (l : list nat) : list nat :=
  match l with
  | x :: ((y :: _) as r) => if x =? y then dedup r else x :: dedup r
  | _ => l
  end.
Definition down (l : list nat) : list nat := dedup (stable_sort (fun a b => b <=? a) l).
(* 85-96  for each index, the first position with that index; st is
   (total_deleted, first_delete_pos) *)
Fixpoint delete_each (sz : nat) (positions : list (nat * nat)) (indices : list nat) (d : doc) (deleted first : nat) : outcome (nat * nat) :=
  match indices with
  | [] => Done (d, Some (deleted, first))
  | i :: r =>
    match nth_error positions i with
    | Some (start, end_) =>
      and_then (of_out (doc_delete sz d (range_new start end_))) (fun d1 _ =>
        delete_each sz positions r d1 (deleted + 1) (if start <? first then start else first))
    | None => delete_each sz positions r d deleted first
    end
  end.
(* batch_delete.rs:28-106 *)
Definition delete_events (fuel sz : nat) (indices : list nat) (d : doc) : outcome (cresult * nat) :=
  if is_nil indices then Done (d, Some (mkRes true None None false, 0))
  else match format_line_end (text d) with
  | None => Done (d, None)
  | Some from =>
    positions <- scan_all fuel (text d) from ;;
    and_then (delete_each sz positions (down indices) d 0 (blen (text d))) (fun d1 r =>
      let '(n, first) := r in
      Done (d1, Some (if 0 <? n then success_with_change (range_new first first) first else mkRes true None None false, n)))
  end.
