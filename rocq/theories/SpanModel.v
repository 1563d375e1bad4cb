(* ass-core/utils/spans.rs, utils/utf8/validation/recovery.rs and the limit
   checks of utils/errors/resource.rs.
   A slice is the address of its first byte and its length in bytes; the source
   is a text at an address.  A usize is below 2^64 and the end of an allocation
   does not overflow it, so addresses are natural numbers. *)
From Verif Require Import Base StreamModel.

(* ---- spans.rs ---- *)
Inductive found := Panics | Nothing | Found (n : nat).
(* 32-40 *)
Definition validate_span (base : nat) (source : str) (a len : nat) : bool := (base <=? a) && (a + len <=? base + blen source).
(* 44-53 *)
Definition span_offset (base : nat) (source : str) (a len : nat) : option nat := if validate_span base source a len then Some (a - base) else None.
(* chars().filter(|&c| c == '\n').count() *)
Definition newlines (s : str) : nat := List.length (filter (fun c => (c =? 10)%N) s).
(* 57-60 *)
Definition span_line (base : nat) (source : str) (a len : nat) : found :=
  match span_offset base source a len with
  | None => Nothing
  | Some o => match slice_to source o with None => Panics | Some p => Found (newlines p + 1) end
  end.
(* rfind('\n').map_or(0, |pos| pos + 1): pos is the offset of what is left of s *)
Fixpoint line_start (pos start : nat) (s : str) : nat :=
  match s with
  | [] => start
  | c :: r => line_start (pos + len_utf8 c) (if (c =? 10)%N then pos + 1 else start) r
  end.
(* 64-69 *)
Definition span_column (base : nat) (source : str) (a len : nat) : found :=
  match span_offset base source a len with
  | None => Nothing
  | Some o =>
    match slice_to source o with
    | None => Panics
    | Some p => match slice source (line_start 0 0 p) o with None => Panics | Some q => Found (List.length q + 1) end
    end
  end.
(* 73-75: str::get with a range *)
Definition substring (source : str) (i j : nat) : option str := slice source i j.

(* ---- recovery.rs ---- *)
Definition replacement : char := 65533%N.
(* String::from_utf8_lossy (core/src/str/lossy.rs, Utf8Chunks::next): the bytes
   read before a byte that cannot follow them are replaced together *)
Fixpoint lossy (b : list N) : str :=
  match b with
  | [] => []
  | b0 :: r0 =>
    if (b0 <? 128)%N then b0 :: lossy r0
    else if within 194 223 b0 then
      match r0 with
      | b1 :: r1 => if cont b1 then ((b0 - 192) * 64 + (b1 - 128))%N :: lossy r1 else replacement :: lossy r0
      | [] => [replacement]
      end
    else if within 224 239 b0 then
      match r0 with
      | b1 :: r1 =>
        if second_of_three b0 b1 then
          match r1 with
          | b2 :: r2 => if cont b2 then ((b0 - 224) * 4096 + (b1 - 128) * 64 + (b2 - 128))%N :: lossy r2 else replacement :: lossy r1
          | [] => [replacement]
          end
        else replacement :: lossy r0
      | [] => [replacement]
      end
    else if within 240 244 b0 then
      match r0 with
      | b1 :: r1 =>
        if second_of_four b0 b1 then
          match r1 with
          | b2 :: r2 =>
            if cont b2 then
              match r2 with
              | b3 :: r3 => if cont b3 then ((b0 - 240) * 262144 + (b1 - 128) * 4096 + (b2 - 128) * 64 + (b3 - 128))%N :: lossy r3 else replacement :: lossy r2
              | [] => [replacement]
              end
            else replacement :: lossy r1
          | [] => [replacement]
          end
        else replacement :: lossy r0
      | [] => [replacement]
      end
    else replacement :: lossy r0
  end.
(* 63-65 *)
Definition count_replacement_chars (s : str) : nat := List.length (filter (fun c => (c =? replacement)%N) s).
(* 38-47 *)
Definition recover_utf8 (b : list N) : str * nat :=
  match from_utf8 b with
  | Some s => (s, 0)
  | None => let s := lossy b in (s, count_replacement_chars s)
  end.

(* ---- resource.rs ---- *)
Inductive limit_answer := Within | Overflows | Exceeds (current limit : N).
Definition usize_max : N := 18446744073709551615%N.
(* 82-97 *)
Definition check_memory_limit (current additional limit : N) : limit_answer :=
  let total := (current + additional)%N in
  if (usize_max <? total)%N then Overflows else if (limit <? total)%N then Exceeds total limit else Within.
(* 111-116, 131-141 *)
Definition check_limit (current limit : N) : limit_answer := if (limit <? current)%N then Exceeds current limit else Within.
