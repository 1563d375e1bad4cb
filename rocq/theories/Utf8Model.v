(* Model of crates/ass-core/utils/utf8 (bom.rs, normalization, validation)
   and utils/errors/encoding/validation.rs. *)
From Verif Require Import Base UuModel.

(* ---- bom.rs ---- *)
Inductive bom_type := Utf8 | Utf16Le | Utf16Be | Utf32Le | Utf32Be.
(* bom.rs:44-52 *)
Definition signature (t : bom_type) : list N :=
  match t with
  | Utf8 => [239; 187; 191]%N
  | Utf16Le => [255; 254]%N
  | Utf16Be => [254; 255]%N
  | Utf32Le => [255; 254; 0; 0]%N
  | Utf32Be => [0; 0; 254; 255]%N
  end.
(* bom.rs:111-141  strip_bom *)
Definition strip_bom (text : str) : res (str * bool) :=
  let b := as_bytes text in
  if starts_with [239; 187; 191]%N b then
    match slice_from text 3 with Some r => Ok (r, true) | None => Panic end
  else if starts_with [255; 254; 0; 0]%N b then Ok (text, false)
  else if starts_with [0; 0; 254; 255]%N b then Ok (text, false)
  else if starts_with [255; 254]%N b then Ok (text, false)
  else if starts_with [254; 255]%N b then Ok (text, false)
  else Ok (text, false).
(* bom.rs:157-172  detect_bom *)
Definition detect_bom (b : list N) : option (bom_type * nat) :=
  if starts_with [255; 254; 0; 0]%N b then Some (Utf32Le, 4)
  else if starts_with [0; 0; 254; 255]%N b then Some (Utf32Be, 4)
  else if starts_with [239; 187; 191]%N b then Some (Utf8, 3)
  else if starts_with [255; 254]%N b then Some (Utf16Le, 2)
  else if starts_with [254; 255]%N b then Some (Utf16Be, 2)
  else None.

(* errors/encoding/validation.rs:104-138  validate_bom_handling; the error is
   the family named in its message. *)
Inductive bom_error := NamesUtf16 | NamesUtf32 | PartialUtf8 | Suspicious.
Definition validate_bom_handling (b : list N) : option bom_error :=
  if (3 <=? List.length b) && str_eqb (firstn 3 b) [239; 187; 191]%N then None
  else if (2 <=? List.length b) && (str_eqb (firstn 2 b) [255; 254]%N || str_eqb (firstn 2 b) [254; 255]%N)
  then Some NamesUtf16
  else if (4 <=? List.length b) && (str_eqb (firstn 4 b) [255; 254; 0; 0]%N || str_eqb (firstn 4 b) [0; 0; 254; 255]%N)
  then Some NamesUtf32
  else if (2 <=? List.length b) && str_eqb (firstn 2 b) [239; 187]%N then Some PartialUtf8
  else match b with
       | [] => None
       | x :: r => if (x =? 239)%N && ((List.length b =? 1) || negb (nth 1 b 0 =? 187)%N) then Some Suspicious else None
       end.

(* ---- normalization ---- *)
(* str::replace for a non-empty pattern: leftmost, non-overlapping.  skip is
   the number of characters of the current match still to be dropped. *)
Fixpoint replace_go (pat rep : str) (s : str) (skip : nat) : str :=
  match s with
  | [] => []
  | c :: r =>
    match skip with
    | S k => replace_go pat rep r k
    | 0 => if starts_with pat s then rep ++ replace_go pat rep r (List.length pat - 1)
           else c :: replace_go pat rep r 0
    end
  end.
Definition replace (pat rep s : str) : str := replace_go pat rep s 0.

(* line_endings.rs:31-33  normalize_line_endings *)
Definition normalize_line_endings (text : str) : str :=
  replace [13%N] [10%N] (replace [13%N; 10%N] [10%N] text).

(* char::is_control: general category Cc *)
Definition is_control (c : char) : bool := (c <? 32)%N || ((127 <=? c) && (c <=? 159))%N.
(* control.rs:22-29  remove_control_chars *)
Definition remove_control_chars (text : str) : str :=
  filter (fun c => negb (is_control c) || (c =? 10)%N || (c =? 9)%N || (c =? 13)%N) text.

(* normalization/mod.rs:34-51  collapse_consecutive_spaces *)
Fixpoint collapse_go (prev : bool) (s : str) : str :=
  match s with
  | [] => []
  | c :: r =>
    if (c =? 32)%N then (if prev then collapse_go true r else c :: collapse_go true r)
    else c :: collapse_go false r
  end.
Definition collapse_consecutive_spaces (s : str) : str := collapse_go false s.
(* whitespace.rs:24-41  normalize_whitespace *)
Definition ws_to_space (c : char) : char :=
  if is_ws c && negb (c =? 10)%N && negb (c =? 9)%N then 32%N else c.
Definition normalize_whitespace (text : str) (collapse : bool) : str :=
  let r := map ws_to_space text in
  if collapse then collapse_consecutive_spaces r else r.
(* whitespace.rs:57-62  trim_lines *)
Definition trim_lines (text : str) : str := join [10%N] (map trim (lines text)).

(* ---- validation ---- *)
(* truncate.rs:36-47  truncate_at_char_boundary *)
Fixpoint back_to_boundary (text : str) (n : nat) : nat :=
  match n with
  | 0 => 0
  | S m => if is_boundary text n then n else back_to_boundary text m
  end.
Definition truncate_at_char_boundary (text : str) (max_bytes : nat) : res (str * bool) :=
  if blen text <=? max_bytes then Ok (text, false)
  else match slice_to text (back_to_boundary text max_bytes) with
       | Some p => Ok (p, true)
       | None => Panic
       end.
(* validate.rs:67-76  is_valid_ass_text *)
Definition is_ascii_graphic (c : char) : bool := ((33 <=? c) && (c <=? 126))%N.
Definition valid_ass_char (c : char) : bool :=
  is_ascii_graphic c || (c =? 32)%N || (c =? 9)%N || (c =? 10)%N || (c =? 13)%N
  || (negb (c <? 128)%N && negb (is_control c)).
Definition is_valid_ass_text (text : str) : bool := forallb valid_ass_char text.
(* errors/encoding/validation.rs:57-69  validate_ass_text_content: the byte
   position of the first invalid character, if any. *)
Fixpoint first_invalid (pos : nat) (text : str) : option nat :=
  match text with
  | [] => None
  | c :: r =>
    if is_ascii_graphic c || ((c =? 32)%N || (c =? 9)%N || (c =? 10)%N || (c =? 13)%N)
       || (negb (c <? 128)%N && negb (is_control c))
    then first_invalid (pos + len_utf8 c) r else Some pos
  end.
