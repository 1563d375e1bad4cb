(* Model of the commands on embedded fonts and graphics,
   crates/ass-editor/commands/fonts_graphics_commands, and of the fluent calls
   that only build them, core/fluent/media.rs.  The two halves of the code
   differ in the header and in the key only; both are given as a `media`.
   Messages are left out. *)
From Verif Require Export Base DocModel EventCmdModel ParseModel InfoCmdModel.
From Verif Require Import UuModel.

Record media := Media { md_header : str; md_key : str }.
Definition fonts : media := Media (lit "[Fonts]") (lit "fontname:").
Definition graphics : media := Media (lit "[Graphics]") (lit "filename:").

(* ---- add.rs:46-91, 136-181 ---- *)
Definition add_media (k : media) (filename : str) (data : list str) (d : doc) : outcome cresult :=
  let content := text d in
  and_then
    (match section_span (md_header k) content with
     | Some (_, end_) => Done (d, Some end_)
     | None =>
       let pos := blen content in
       and_then (if ends_with [10%N] content then Done (d, Some pos)
                 else and_then (of_out (insert_raw d pos [10%N])) (fun d1 _ => Done (d1, Some (pos + 1))))
         (fun d1 pos1 =>
            and_then (of_out (insert_raw d1 pos1 (md_header k ++ [10%N]))) (fun d2 _ =>
              Done (d2, Some (pos1 + blen (md_header k ++ [10%N])))))
     end)
    (fun d1 pos =>
       let entry := md_key k ++ [32%N] ++ filename ++ [10%N] ++ flat_map (fun l => l ++ [10%N]) data in
       and_then (of_out (insert_raw d1 pos entry)) (fun d2 _ =>
         Done (d2, Some (success_with_change (range_new pos (pos + blen entry)) (pos + blen entry))))).
(* 36-42, 126-132 *)
Definition add_binary (k : media) (filename : str) (data : list N) (d : doc) : outcome cresult :=
  add_media k filename (uuencode_data filename data) d.

(* ---- clear.rs:29-56, 87-114 ---- *)
Definition clear_media (sz : nat) (k : media) (d : doc) : outcome cresult :=
  let content := text d in
  match section_span (md_header k) content with
  | None => Done (d, Some success_result)
  | Some (start, end_) =>
    from <- need (slice_from content start) ;;
    let header_end := match find_char is_nl from with Some (l, _) => start + blen l + 1 | None => start + blen (md_header k) end in
    if header_end <? end_ then
      and_then (of_out (doc_delete sz d (range_new header_end end_))) (fun d1 _ =>
        Done (d1, Some (success_with_change (range_new header_end header_end) header_end)))
    else Done (d, Some success_result)
  end.

(* ---- list.rs:24-49, 71-96 ---- *)
Definition list_media (k : media) (d : doc) : run (list str) :=
  let content := text d in
  match section_span (md_header k) content with
  | None => Done []
  | Some (start, end_) =>
    section <- need (slice content start end_) ;;
    Done (flat_map (fun l => match strip_prefix (md_key k ++ [32%N]) l with Some f => [trim f] | None => [] end) (lines section))
  end.
(* media.rs:54-56, 66-68 *)
Definition media_exists (k : media) (filename : str) (d : doc) : run bool :=
  l <- list_media k d ;; Done (existsb (str_eqb filename) l).
Definition media_count (k : media) (d : doc) : run nat := l <- list_media k d ;; Done (List.length l).

(* ---- remove.rs:29-67, 95-133 ---- *)
Definition remove_media (sz : nat) (k : media) (filename : str) (d : doc) : outcome cresult :=
  let content := text d in
  match section_span (md_header k) content with
  | None => Done (d, None)
  | Some (start, end_) =>
    section <- need (slice content start end_) ;;
    match find_str (md_key k ++ [32%N] ++ filename) section with
    | Some (a, _) =>
      let at_ := start + blen a in
      from <- need (slice_from content at_) ;;
      let font_end := match find_str (10%N :: md_key k) from with Some (b, _) => at_ + blen b | None => end_ end in
      and_then (of_out (doc_delete sz d (range_new at_ font_end))) (fun d1 _ =>
        Done (d1, Some (success_with_change (range_new at_ at_) at_)))
    | None => Done (d, Some success_result)
    end
  end.
