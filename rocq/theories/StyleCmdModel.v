(* Model of the style commands of the editor:
   crates/ass-editor/commands/style_commands.  Paths below are relative to it.
   The document is the one of DocModel.  The messages of results are left out;
   the number of events ApplyStyleCommand mentions is returned instead. *)
From Verif Require Export Base.
From Verif Require Export DocModel EventCmdModel.
From Verif Require Import ParseModel IncrModel FloatModel BuilderModel.
From Verif Require Utf8Model.

(* delete.rs:39 and the like *)
Definition style_pattern (name : str) : str := lit "Style: " ++ name.
(* delete.rs:43-46, edit.rs:91-94, clone.rs:54-57 *)
Definition line_start (content : str) (at_ : nat) : run nat :=
  before <- need (slice_to content at_) ;;
  Done (match rfind_str [10%N] before with Some (a, _) => blen a + 1 | None => 0 end).

(* ---- delete.rs:37-66 ---- *)
Definition delete_style (sz : nat) (name : str) (d : doc) : outcome cresult :=
  let content := text d in
  match find_str (style_pattern name) content with
  | Some (a, b) =>
    start <- line_start content (blen a) ;;
    let end_ := match find_char is_nl b with Some (l, _) => blen a + blen l + 1 | None => blen content end in
    and_then (of_out (doc_delete sz d (range_new start end_))) (fun d1 _ =>
      Done (d1, Some (success_with_change (range_new start start) start)))
  | None => Done (d, None)
  end.

(* ---- edit.rs:84-162 ---- *)
(* str::split(", ") *)
Fixpoint split_str (fuel : nat) (pat s : str) : list str :=
  match fuel with
  | 0 => []
  | S f => match find_str pat s with Some (a, b) => a :: split_str f pat (skipn (List.length pat) b) | None => [s] end
  end.
(* position(|f| f == field_name), 138 *)
Fixpoint position_of (name : str) (l : list str) : option nat :=
  match l with
  | [] => None
  | x :: r => if str_eqb x name then Some 0 else option_map S (position_of name r)
  end.
(* updated_fields[i] = v *)
Fixpoint set_nth (i : nat) (v : str) (l : list str) : list str :=
  match l, i with
  | [], _ => []
  | _ :: r, 0 => v :: r
  | x :: r, S j => x :: set_nth j v r
  end.
(* 137-143; `updates` is the map in the order it is iterated in *)
Definition update_field (format : list str) (fields : list str) (u : str * str) : list str :=
  match position_of (fst u) format with
  | Some i => if i <? List.length fields then set_nth i (snd u) fields else fields
  | None => fields
  end.
(* 108-112 *)
Definition styles_header_before (before : str) : option nat :=
  match rfind_str (lit "[V4+ Styles]") before with
  | Some (a, _) => Some (blen a)
  | None =>
    match rfind_str (lit "[V4 Styles]") before with
    | Some (a, _) => Some (blen a)
    | None => match rfind_str (lit "[Styles]") before with Some (a, _) => Some (blen a) | None => None end
    end
  end.
(* 125-129 *)
Definition format_columns (format_line : str) : list str :=
  let s := match strip_prefix (lit "Format: ") format_line with Some r => r | None => format_line end in
  split_str (S (List.length s)) (lit ", ") s.
Definition edit_style (sz : nat) (name : str) (updates : list (str * str)) (d : doc) : outcome cresult :=
  let content := text d in
  match find_str (style_pattern name) content with
  | None => Done (d, None)
  | Some (a, b) =>
    start <- line_start content (blen a) ;;
    let end_ := line_end content b (blen a) in
    style_line <- need (slice content start end_) ;;
    let fields := split_on is_comma style_line in
    if List.length fields <? 2 then Done (d, None)
    else
      before <- need (slice_to content start) ;;
      match styles_header_before before with
      | None => Done (d, None)
      | Some section_start =>
        section <- need (slice_from content section_start) ;;
        match find_str (lit "Format:") section with
        | None => Done (d, None)
        | Some (c, e) =>
          let format_start := section_start + blen c in
          format_line <- need (slice content format_start (line_end content e format_start)) ;;
          let updated := fold_left (update_field (format_columns format_line)) updates fields in
          let new_line := join [44%N] updated in
          and_then (of_out (doc_replace sz d (range_new start end_) new_line)) (fun d1 _ =>
            Done (d1, Some (success_with_change (range_new start (start + blen new_line)) (start + blen new_line))))
        end
      end
  end.

(* ---- clone.rs:39-92 ---- *)
Definition clone_style (sz : nat) (source target : str) (d : doc) : outcome cresult :=
  let content := text d in
  match find_str (style_pattern target) content with
  | Some _ => Done (d, None)
  | None =>
    match find_str (style_pattern source) content with
    | None => Done (d, None)
    | Some (a, b) =>
      start <- line_start content (blen a) ;;
      let end_ := line_end content b (blen a) in
      source_line <- need (slice content start end_) ;;
      let insert_text := [10%N] ++ Utf8Model.replace (style_pattern source) (style_pattern target) source_line in
      and_then (of_out (doc_insert sz d end_ insert_text)) (fun d1 _ =>
        Done (d1, Some (success_with_change (range_new end_ (end_ + blen insert_text)) (end_ + blen insert_text))))
    end
  end.

(* ---- create.rs:39-102 ---- *)
Definition find_styles_header (content : str) : option (str * str) :=
  match find_str (lit "[V4+ Styles]") content with
  | Some p => Some p
  | None => match find_str (lit "[V4 Styles]") content with Some p => Some p | None => find_str (lit "[Styles]") content end
  end.
(* 80-82 *)
Definition new_styles_section (style_line : str) : str :=
  [10%N] ++ lit "[V4+ Styles]" ++ [10%N] ++
  lit "Format: Name, Fontname, Fontsize, PrimaryColour, SecondaryColour, OutlineColour, BackColour, Bold, Italic, Underline, StrikeOut, ScaleX, ScaleY, Spacing, Angle, BorderStyle, Outline, Shadow, Alignment, MarginL, MarginR, MarginV, Encoding" ++
  [10%N] ++ style_line ++ [10%N].
Definition insert_at (sz : nat) (d : doc) (pos : nat) (t : str) : outcome cresult :=
  and_then (of_out (doc_insert sz d pos t)) (fun d1 _ =>
    Done (d1, Some (success_with_change (range_new pos (pos + blen t)) (pos + blen t)))).
(* 46-102, with the line already built *)
Definition create_line (sz : nat) (style_line : str) (d : doc) : outcome cresult :=
  let content := text d in
  let own_section :=
    insert_at sz d (match find_str (lit "[Events]") content with Some (a, _) => blen a | None => blen content end)
      (new_styles_section style_line) in
  match find_styles_header content with
  | Some (a, b) =>
    match find_char is_nl b with
    | Some (l, _) =>
      let format_end := blen a + blen l + 1 in
      r <- need (slice_from content format_end) ;;
      let pos := match find_char is_nl r with Some (l2, _) => format_end + blen l2 + 1 | None => format_end end in
      insert_at sz d pos (style_line ++ [10%N])
    | None => own_section
    end
  | None => own_section
  end.
(* 39-43; `show` is the display of f32.  StyleBuilder::build never fails. *)
Definition create_style (show : float -> str) (sz : nat) (name : str) (b : style_builder) (d : doc) : outcome cresult :=
  create_line sz (build_style show (set_style b (SName name))) d.

(* ---- apply.rs:51-150 ---- *)
(* 57-71 *)
Definition first_event_start (content : str) : run (option nat) :=
  match find_str (lit "[Events]") content with
  | None => Done None
  | Some (a, b) =>
    match find_char is_nl b with
    | None => Done None
    | Some (l, _) =>
      let p := blen a + blen l + 1 in
      r <- need (slice_from content p) ;;
      Done (Some (match find_char is_nl r with Some (l2, _) => p + blen l2 + 1 | None => p end))
    end
  end.
(* 91-100 *)
Definition has_style (old : str) (line : str) : bool :=
  let parts := split_on is_comma line in
  (4 <? List.length parts) && str_eqb (trim (nth 3 parts [])) old.
Definition passes (filter : option str) (line : str) : bool :=
  match filter with None => true | Some f => match find_str f line with Some _ => true | None => false end end.
Definition swap_style (old new line : str) : str := Utf8Model.replace (lit "," ++ old ++ lit ",") (lit "," ++ new ++ lit ",") line.
(* 73-135; content is the text of the document throughout, and search_pos is
   not adjusted after a replacement *)
Fixpoint apply_loop (fuel sz : nat) (old new : str) (filter : option str) (d : doc) (start : nat) (total : option range) (changes : nat)
    : outcome (option range * nat) :=
  match fuel with
  | 0 => Stuck
  | S f =>
    if start <? blen (text d) then
      rest <- need (slice_from (text d) start) ;;
      let end_ := line_end (text d) rest start in
      if end_ <=? start then Done (d, Some (total, changes))
      else
        line <- need (slice (text d) start end_) ;;
        if is_event_line line then
          if has_style old line && passes filter line then
            let l := swap_style old new line in
            and_then (of_out (doc_replace sz d (range_new start end_) l)) (fun d1 _ =>
              let change := range_new start (start + blen l) in
              apply_loop f sz old new filter d1 (end_ + 1)
                (Some (match total with Some r => range_union r change | None => change end)) (changes + 1))
          else apply_loop f sz old new filter d (end_ + 1) total changes
        else if starts_with (lit "[") line && negb (str_eqb line (lit "[Events]")) then Done (d, Some (total, changes))
        else apply_loop f sz old new filter d (end_ + 1) total changes
    else Done (d, Some (total, changes))
  end.
Definition apply_style (fuel sz : nat) (old new : str) (filter : option str) (d : doc) : outcome (cresult * nat) :=
  s <- first_event_start (text d) ;;
  match s with
  | None => Done (d, None)
  | Some start =>
    and_then (apply_loop fuel sz old new filter d start None 0) (fun d1 r =>
      let '(total, changes) := r in
      Done (d1, Some (if 0 <? changes
                      then success_with_change (match total with Some r => r | None => mkRange 0 0 end) (blen (text d1))
                      else mkRes true None None false, changes)))
  end.
