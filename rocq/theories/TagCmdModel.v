(* Model of the tag commands: crates/ass-editor/commands/tag_commands and the
   fluent tag operations (core/fluent/tag.rs), which only build them.
   Messages and memory_usage are left out. *)
From Verif Require Export Base DocModel ParseModel TagModel.

Definition open_brace : char := 123%N.
Definition close_brace : char := 125%N.
(* the inner loops remove.rs:83-96, replace.rs:81-101, parse.rs:79-93: the
   content up to the closing brace, whether there was one, and the rest.
   The count is an i32 bounded by the text length. *)
Fixpoint scan_block (rest : str) (brace_count : Z) : str * bool * str :=
  match rest with
  | [] => ([], false, [])
  | c :: r =>
    if (c =? open_brace)%N then let '(x, b, t) := scan_block r (brace_count + 1) in (c :: x, b, t)
    else if (c =? close_brace)%N then
      if (brace_count - 1 =? 0)%Z then ([], true, r)
      else let '(x, b, t) := scan_block r (brace_count - 1) in (c :: x, b, t)
    else let '(x, b, t) := scan_block r brace_count in (c :: x, b, t)
  end.

(* ---- insert.rs ---- *)
Record insert_tag := InsertTag { it_position : nat; it_tag : str; it_auto_wrap : bool }.
(* 44-65 *)
Definition format_tag (c : insert_tag) : option str :=
  let t := trim (it_tag c) in
  if negb (starts_with [bslash] t) then None
  else if starts_with [open_brace] t && ends_with [close_brace] t then Some t
  else if it_auto_wrap c then Some (open_brace :: t ++ [close_brace]) else Some t.
(* 69-77 *)
Definition exec_insert_tag (c : insert_tag) (d : doc) : out cresult :=
  match format_tag c with
  | None => OErr d
  | Some t => out_bind (insert_raw d (it_position c) t) (fun d1 _ =>
      OOk d1 (success_with_change (range_new (it_position c) (it_position c + blen t)) (it_position c + blen t)))
  end.

(* ---- remove.rs ---- *)
Record remove_tag := RemoveTag { rt_range : range; rt_pattern : option str; rt_clean : bool }.
(* 130-136 *)
Fixpoint keep_tags (pattern : str) (l : list tag) : run (list tag) :=
  match l with
  | [] => Done []
  | t :: r =>
    p <- need (slice pattern 1 (blen pattern)) ;;
    k <- keep_tags pattern r ;;
    Done (if starts_with p (tg_name t) then k else t :: k)
  end.
(* 116-150 *)
Definition tag_full (t : tag) : str := bslash :: tg_name t ++ tg_args t.
Definition process_override_content (c : remove_tag) (content : str) : run str :=
  match rt_pattern c with
  | None => Done []
  | Some pattern =>
    p <- parse_override_block content 0 ;;
    k <- keep_tags pattern (fst p) ;;
    Done (flat_map tag_full k)
  end.
(* 76-113 *)
Fixpoint remove_loop (fuel : nat) (c : remove_tag) (rest : str) : run str :=
  match rest with
  | [] => Done []
  | ch :: r =>
    match fuel with
    | 0 => Stuck
    | S f =>
      if (ch =? open_brace)%N then
        let '(content, _, r') := scan_block r 1 in
        cleaned <- process_override_content c content ;;
        q <- remove_loop f c r' ;;
        Done ((if negb (is_nil cleaned) || negb (rt_clean c) then open_brace :: cleaned ++ [close_brace] else []) ++ q)
      else q <- remove_loop f c r ;; Done (ch :: q)
    end
  end.
Definition remove_tags_from_text (c : remove_tag) (t : str) : run str := remove_loop (List.length t) c t.

(* ---- replace.rs ---- *)
Record replace_tag := ReplaceTag { pt_range : range; pt_find : str; pt_with : str; pt_all : bool }.
(* 129-146: the text and the number of replacements made so far *)
Fixpoint replace_in_tags (c : replace_tag) (made : nat) (l : list tag) : run (str * nat) :=
  match l with
  | [] => Done ([], made)
  | t :: r =>
    if starts_with (pt_find c) (tag_full t) && (pt_all c || (made =? 0)) then
      suffix <- need (slice (tag_full t) (blen (pt_find c)) (blen (tag_full t))) ;;
      q <- replace_in_tags c (made + 1) r ;;
      Done (pt_with c ++ suffix ++ fst q, snd q)
    else q <- replace_in_tags c made r ;; Done (tag_full t ++ fst q, snd q)
  end.
(* 111-149 *)
Definition process_override_for_replacement (c : replace_tag) (content : str) (made : nat) : run (str * nat) :=
  if negb (pt_all c) && (0 <? made) then Done (content, made)
  else p <- parse_override_block content 0 ;; replace_in_tags c made (fst p).
(* 72-108 *)
Fixpoint replace_loop (fuel : nat) (c : replace_tag) (made : nat) (rest : str) : run str :=
  match rest with
  | [] => Done []
  | ch :: r =>
    match fuel with
    | 0 => Stuck
    | S f =>
      if (ch =? open_brace)%N then
        let '(content, closed, r') := scan_block r 1 in
        if closed then
          p <- process_override_for_replacement c content made ;;
          q <- replace_loop f c (snd p) r' ;;
          Done (ch :: fst p ++ close_brace :: q)
        else q <- replace_loop f c made r' ;; Done (ch :: q)
      else q <- replace_loop f c made r ;; Done (ch :: q)
    end
  end.
Definition replace_tags_in_text (c : replace_tag) (t : str) : run str := replace_loop (List.length t) c 0 t.

(* remove.rs:50-60, replace.rs:49-59 *)
Definition rewrite_range (f : str -> run str) (r : range) (d : doc) : out cresult :=
  match text_range d r with
  | Panic => OPanic
  | Err => OErr d
  | Ok t =>
    match f t with
    | Done t' => out_bind (replace_raw d r t') (fun d1 _ =>
        OOk d1 (success_with_change (range_new (r_start r) (r_start r + blen t')) (r_start r + blen t')))
    | Crash | Stuck => OPanic
    end
  end.
Definition exec_remove_tag (c : remove_tag) : doc -> out cresult := rewrite_range (remove_tags_from_text c) (rt_range c).
Definition exec_replace_tag (c : replace_tag) : doc -> out cresult := rewrite_range (replace_tags_in_text c) (pt_range c).

(* ---- wrap.rs ---- *)
Record wrap_tag := WrapTag { wt_range : range; wt_opening : str; wt_closing : option str }.
(* 54-75 *)
Definition get_closing_tag (c : wrap_tag) : str :=
  match wt_closing c with
  | Some x => x
  | None =>
    let tag := drop_while is_bs (wt_opening c) in
    if starts_with (lit "b") tag then lit "\b0"
    else if starts_with (lit "i") tag then lit "\i0"
    else if starts_with (lit "u") tag then lit "\u0"
    else if starts_with (lit "s") tag then lit "\s0"
    else if starts_with (lit "c&") tag || starts_with (lit "1c&") tag then lit "\c"
    else lit "\r"
  end.
(* 79-97 *)
Definition exec_wrap_tag (c : wrap_tag) (d : doc) : out cresult :=
  let closing := open_brace :: get_closing_tag c ++ [close_brace] in
  let opening := open_brace :: wt_opening c ++ [close_brace] in
  let s := r_start (wt_range c) in let e := r_end (wt_range c) in
  out_bind (insert_raw d e closing) (fun d1 _ =>
  out_bind (insert_raw d1 s opening) (fun d2 _ =>
    match usub e s with
    | None => OPanic
    | Some n => let endp := s + (blen opening + n + blen closing) in
                OOk d2 (success_with_change (range_new s endp) endp)
    end)).

(* ---- parse.rs ---- *)
Record parsed_tag := ParsedTag { pr_tag : str; pr_position : option nat; pr_parameters : list str }.
(* 120-153 *)
Definition parsed_of (include_positions : bool) (start base : nat) (t : tag) : run parsed_tag :=
  let args := tg_args t in
  let position := if include_positions then Some (start + base + tg_pos t) else None in
  if starts_with [40%N] args && ends_with [41%N] args then
    inner <- need (slice args 1 (blen args - 1)) ;;
    Done (ParsedTag (bslash :: tg_name t) position (if is_nil inner then [] else map trim (split_on (N.eqb 44) inner)))
  else Done (ParsedTag (tag_full t) position []).
Fixpoint map_run {A B} (f : A -> run B) (l : list A) : run (list B) :=
  match l with
  | [] => Done []
  | a :: r => b <- f a ;; q <- map_run f r ;; Done (b :: q)
  end.
(* 72-103; pos counts characters, as enumerate does *)
Fixpoint parse_loop (fuel : nat) (include_positions : bool) (start : nat) (pos : nat) (rest : str) : run (list parsed_tag) :=
  match rest with
  | [] => Done []
  | ch :: r =>
    match fuel with
    | 0 => Stuck
    | S f =>
      if (ch =? open_brace)%N then
        let '(content, closed, r') := scan_block r 1 in
        p <- parse_override_block content 0 ;;
        l <- map_run (parsed_of include_positions start pos) (fst p) ;;
        q <- parse_loop f include_positions start (pos + 1 + List.length content + (if closed then 1 else 0)) r' ;;
        Done (l ++ q)
      else parse_loop f include_positions start (pos + 1) r
    end
  end.
Definition parse_tags_from_text (include_positions : bool) (start : nat) (t : str) : run (list parsed_tag) :=
  parse_loop (List.length t) include_positions start 0 t.
(* fluent tag.rs:140-148 *)
Definition tags_of (r : range) (d : doc) : res (list parsed_tag) :=
  match text_range d r with
  | Panic => Panic | Err => Err
  | Ok t => match parse_tags_from_text true (r_start r) t with Done l => Ok l | _ => Panic end
  end.
