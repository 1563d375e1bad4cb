(* Model of crates/ass-editor/core/fluent/position.rs and selection.rs (feature
   "rope", on by default): editing at a position or in a selection. *)
From Verif Require Import Base DocModel.

(* position.rs:24-33 insert_text, insert_line *)
Definition at_insert (sz : nat) (d : doc) (p : nat) (t : str) : out unit := doc_replace sz d (range_empty p) t.
Definition at_insert_line (sz : nat) (d : doc) (p : nat) : out unit := at_insert sz d p [10%N].
(* 36-49 delete, backspace; mx is usize::MAX *)
Definition at_delete (mx sz : nat) (d : doc) (p n : nat) : out unit := doc_delete sz d (range_new p (pos_advance mx p n)).
Definition at_backspace (sz : nat) (d : doc) (p n : nat) : out unit := doc_delete sz d (range_new (pos_retreat p n) p).
(* 52-65 replace_to_line_end; ropey's byte_to_line panics beyond the end *)
Definition at_replace_to_line_end (sz : nat) (d : doc) (p : nat) (t : str) : out unit :=
  if blen (text d) <? p then OPanic
  else let ls := rope_lines (text d) in
       let i := byte_to_line ls p in
       let e := if i + 1 <? List.length ls then line_to_byte ls (i + 1) - 1 else blen (text d) in
       doc_replace sz d (range_new p e) t.
(* 83-103 to_line_column *)
Definition at_line_column (d : doc) (p : nat) : res (nat * nat) :=
  if blen (text d) <? p then Panic
  else let ls := rope_lines (text d) in
       let i := byte_to_line ls p in
       Ok (i + 1, count_cols (nth i ls []) 0 (p - line_to_byte ls i) + 1).

(* selection.rs:27-36 replace_with, delete *)
Definition sel_replace (sz : nat) (d : doc) (r : range) (t : str) : out unit := doc_replace sz d r t.
Definition sel_delete (sz : nat) (d : doc) (r : range) : out unit := doc_delete sz d r.
(* 121-126 text: ropey's byte_slice panics unless both ends are character
   boundaries of the text, in order *)
Definition sel_text (d : doc) (r : range) : res str := match slice (text d) (r_start r) (r_end r) with Some m => Ok m | None => Panic end.
(* 39-53 wrap_with_tag *)
Definition sel_wrap (sz : nat) (d : doc) (r : range) (open close : str) : out unit :=
  match sel_text d r with Ok m => doc_replace sz d r (open ++ m ++ close) | _ => OPanic end.
(* 56-78 indent: the starts of the lines, the last first, found before any edit *)
Fixpoint indent_at (sz : nat) (d : doc) (starts : list nat) (t : str) : out unit :=
  match starts with
  | [] => OOk d tt
  | s :: r => out_bind (doc_replace sz d (range_empty s) t) (fun d1 _ => indent_at sz d1 r t)
  end.
Definition lines_down (a b : nat) : list nat := rev (seq a (S b - a)).
Definition sel_indent (sz : nat) (d : doc) (r : range) (n : nat) : out unit :=
  if (blen (text d) <? r_start r) || (blen (text d) <? r_end r) then OPanic
  else let ls := rope_lines (text d) in
       indent_at sz d (map (line_to_byte ls) (lines_down (byte_to_line ls (r_start r)) (byte_to_line ls (r_end r)))) (repeat 32%N n).
(* 81-118 unindent *)
Fixpoint count_spaces (l : str) (n : nat) : nat :=
  match l, n with c :: r, S k => if (c =? 32)%N then S (count_spaces r k) else 0 | _, _ => 0 end.
Fixpoint delete_at (sz : nat) (d : doc) (ops : list (nat * nat)) : out unit :=
  match ops with
  | [] => OOk d tt
  | (s, k) :: r => out_bind (doc_delete sz d (range_new s (s + k))) (fun d1 _ => delete_at sz d1 r)
  end.
Definition sel_unindent (sz : nat) (d : doc) (r : range) (n : nat) : out unit :=
  if (blen (text d) <? r_start r) || (blen (text d) <? r_end r) then OPanic
  else let ls := rope_lines (text d) in
       delete_at sz d (filter (fun p => 0 <? snd p) (map (fun i => (line_to_byte ls i, count_spaces (nth i ls []) n))
         (lines_down (byte_to_line ls (r_start r)) (byte_to_line ls (r_end r))))).
