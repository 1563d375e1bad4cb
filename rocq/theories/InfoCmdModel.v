(* Model of the script info commands of the editor,
   crates/ass-editor/commands/script_info_commands, and of the fluent calls
   that only build them, core/fluent/script_info.rs.  Messages are left out:
   a command that reports an error leaves the document as it was. *)
From Verif Require Export Base.
From Verif Require Export DocModel EventCmdModel ParseModel StyleCmdModel.

(* CommandResult::success() *)
Definition success_result : cresult := mkRes true None None false.
(* set.rs:36-44, delete.rs:34-42, get.rs:33-41 and 80-88: where the section
   starts and ends, and its text. *)
Definition section_span (header content : str) : option (nat * nat) :=
  match find_str header content with
  | None => None
  | Some (a, b) =>
    Some (blen a, match find_str [10%N; 91%N] b with Some (c, _) => blen a + blen c | None => blen content end)
  end.
Definition info_header : str := lit "[Script Info]".
(* format!("{}: ", self.property) *)
Definition property_pattern (p : str) : str := p ++ lit ": ".

(* ---- set.rs:32-89 ---- *)
Definition set_info (sz : nat) (property value : str) (d : doc) : outcome cresult :=
  let content := text d in
  match section_span info_header content with
  | None => Done (d, None)
  | Some (start, end_) =>
    search <- need (slice content start end_) ;;
    match find_str (property_pattern property) search with
    | Some (a, _) =>
      let line_start := start + blen a in
      from <- need (slice_from content line_start) ;;
      let line_end_ := line_end content from line_start in
      let new_line := property ++ lit ": " ++ value in
      and_then (of_out (doc_replace sz d (range_new line_start line_end_) new_line)) (fun d1 _ =>
        Done (d1, Some (success_with_change (range_new line_start (line_start + blen new_line)) (line_start + blen new_line))))
    | None =>
      from <- need (slice_from content start) ;;
      let insert_pos := match find_char is_nl from with Some (l, _) => start + blen l + 1 | None => start + 13 end in
      let new_line := property ++ lit ": " ++ value ++ [10%N] in
      and_then (of_out (insert_raw d insert_pos new_line)) (fun d1 _ =>
        Done (d1, Some (success_with_change (range_new insert_pos (insert_pos + blen new_line)) (insert_pos + blen new_line))))
    end
  end.

(* ---- delete.rs:30-65 ---- *)
Definition delete_info (sz : nat) (property : str) (d : doc) : outcome cresult :=
  let content := text d in
  match section_span info_header content with
  | None => Done (d, None)
  | Some (start, end_) =>
    search <- need (slice content start end_) ;;
    match find_str (property_pattern property) search with
    | Some (a, _) =>
      let at_ := start + blen a in
      from <- need (slice_from content at_) ;;
      let line_end_ := match find_char is_nl from with Some (l, _) => at_ + blen l + 1 | None => blen content end in
      and_then (of_out (doc_delete sz d (range_new at_ line_end_))) (fun d1 _ =>
        Done (d1, Some (success_with_change (range_new at_ at_) at_)))
    | None => Done (d, Some success_result)
    end
  end.

(* ---- get.rs:29-59; None is the error ---- *)
Definition get_info (property : str) (d : doc) : run (option (option str)) :=
  let content := text d in
  match section_span info_header content with
  | None => Done None
  | Some (start, end_) =>
    search <- need (slice content start end_) ;;
    match find_str (property_pattern property) search with
    | Some (a, _) =>
      let value_start := blen a + blen (property_pattern property) in
      from <- need (slice_from search value_start) ;;
      let value_end := match find_char is_nl from with Some (l, _) => value_start + blen l | None => blen search end in
      value <- need (slice search value_start value_end) ;;
      Done (Some (Some (trim value)))
    | None => Done (Some None)
    end
  end.

(* ---- get.rs:76-108 ---- *)
Definition info_entry (line : str) : run (list (str * str)) :=
  if starts_with [91%N] line || is_nil (trim line) then Done []
  else match find_char (N.eqb 58) line with
       | Some (a, _) =>
         k <- need (slice_to line (blen a)) ;;
         v <- need (slice_from line (blen a + 1)) ;;
         Done [(trim k, trim v)]
       | None => Done []
       end.
Fixpoint info_entries (l : list str) : run (list (str * str)) :=
  match l with
  | [] => Done []
  | x :: r => a <- info_entry x ;; b <- info_entries r ;; Done (a ++ b)
  end.
Definition get_all_info (d : doc) : run (option (list (str * str))) :=
  let content := text d in
  match section_span info_header content with
  | None => Done None
  | Some (start, end_) =>
    search <- need (slice content start end_) ;;
    l <- info_entries (lines search) ;;
    Done (Some l)
  end.

(* ---- core/fluent/script_info.rs ---- *)
(* 74-80 *)
Definition set_resolution (sz : nat) (w h : N) (d : doc) : outcome unit :=
  and_then (set_info sz (lit "PlayResX") (to_dec w) d) (fun d1 _ =>
    and_then (set_info sz (lit "PlayResY") (to_dec h) d1) (fun d2 _ => Done (d2, Some tt))).
(* 83-102 *)
Definition get_resolution (d : doc) : run (option (option (N * N))) :=
  x <- get_info (lit "PlayResX") d ;;
  match x with
  | None => Done None
  | Some w =>
    y <- get_info (lit "PlayResY") d ;;
    match y with
    | None => Done None
    | Some h =>
      match w, h with
      | Some w, Some h =>
        match parse_uint u32_max 10 w with
        | None => Done None
        | Some wv => match parse_uint u32_max 10 h with None => Done None | Some hv => Done (Some (Some (wv, hv))) end
        end
      | _, _ => Done (Some None)
      end
    end
  end.
(* 105-117 *)
Definition set_wrap_style (sz : nat) (style : N) (d : doc) : outcome cresult := set_info sz (lit "WrapStyle") (to_dec style) d.
Definition get_wrap_style (d : doc) : run (option (option N)) :=
  x <- get_info (lit "WrapStyle") d ;;
  Done (match x with
        | None => None
        | Some None => Some None
        | Some (Some s) => match parse_uint 255 10 s with Some v => Some (Some v) | None => None end
        end).
(* 120-130; to_lowercase matters on ASCII only: besides "yes" in any case no
   text has the lower case "yes" *)
Definition set_scaled (sz : nat) (scaled : bool) (d : doc) : outcome cresult :=
  set_info sz (lit "ScaledBorderAndShadow") (if scaled then lit "yes" else lit "no") d.
Definition lower (c : char) : char := if (65 <=? c)%N && (c <=? 90)%N then (c + 32)%N else c.
Definition get_scaled (d : doc) : run (option (option bool)) :=
  x <- get_info (lit "ScaledBorderAndShadow") d ;;
  Done (option_map (option_map (fun s => str_eqb (map lower s) (lit "yes") || str_eqb s (lit "1"))) x).
