(* Model of the UU codec: crates/ass-core/utils/uu.rs (decoder) and
   crates/ass-editor/commands/fonts_graphics_commands/encoding.rs (encoder),
   and of the [Fonts]/[Graphics] section reader
   crates/ass-core/parser/binary_data/binary_parser.rs. *)
From Verif Require Import Base.

(* slice::chunks(k): consecutive pieces of k elements, the last possibly
   shorter.  Fuel = the length of the list, which always suffices. *)
Fixpoint chunks_fuel {A} (fuel k : nat) (l : list A) : list (list A) :=
  match fuel with
  | 0 => []
  | S f => match l with
           | [] => []
           | _ => firstn k l :: chunks_fuel f k (skipn k l)
           end
  end.
Definition chunks {A} (k : nat) (l : list A) : list (list A) := chunks_fuel (List.length l) k l.

(* u8 operations *)
Definition u8_shl (x k : N) : N := (N.shiftl x k mod 256)%N.
Definition u8_wsub (x y : N) : N := ((x + 256 - y) mod 256)%N.

(* encoding.rs:25-46  one group of at most three bytes *)
Definition uu_group (g : list N) : str :=
  let b0 := nth 0 g 0%N in
  let b1 := nth 1 g 0%N in
  let b2 := nth 2 g 0%N in
  [ (32 + N.shiftr b0 2)%N; (32 + N.lor (u8_shl (N.land b0 3) 4) (N.shiftr b1 4))%N ] ++
  (if 1 <? List.length g
   then [ (32 + N.lor (u8_shl (N.land b1 15) 2) (N.shiftr b2 6))%N ]
   else [ (32 + u8_shl (N.land b1 15) 2)%N ]) ++
  (if 2 <? List.length g then [ (32 + N.land b2 63)%N ]
   else if 1 <? List.length g then lit " " else []).

(* encoding.rs:18-49  one data line *)
Definition uu_line (chunk : list N) : str :=
  (32 + N.of_nat (List.length chunk))%N :: flat_map uu_group (chunks 3 chunk).

(* encoding.rs:11-56  uuencode_data *)
Definition uuencode_data (filename : str) (data : list N) : list str :=
  (lit "begin 644 " ++ filename) :: map uu_line (chunks 45 data) ++ [lit "`"; lit "end"].

(* str::as_bytes *)
Definition utf8_char (c : char) : list N :=
  if (c <? 128)%N then [c]
  else if (c <? 2048)%N then [(192 + c / 64)%N; (128 + c mod 64)%N]
  else if (c <? 65536)%N then [(224 + c / 4096)%N; (128 + (c / 64) mod 64)%N; (128 + c mod 64)%N]
  else [(240 + c / 262144)%N; (128 + (c / 4096) mod 64)%N; (128 + (c / 64) mod 64)%N; (128 + c mod 64)%N].
Definition as_bytes (s : str) : list N := flat_map utf8_char s.

(* uu.rs:81-99  one group of four characters, padded with spaces *)
Definition uu_ungroup (g : list N) : list N :=
  let c i := u8_wsub (nth i g 32%N) 32 in
  [ N.lor (u8_shl (c 0) 2) (N.shiftr (c 1) 4);
    N.lor (u8_shl (N.land (c 1) 15) 4) (N.shiftr (c 2) 2);
    N.lor (u8_shl (N.land (c 2) 3) 6) (c 3) ].

Definition is_crlf (c : char) : bool := (c =? 10)%N || (c =? 13)%N.

(* uu.rs:40-107  decode_uu_data; it never returns Err. *)
Fixpoint decode_uu_data (lines : list str) : list N :=
  match lines with
  | [] => []
  | raw :: rest =>
    let line := drop_end is_crlf (trim_start raw) in
    match line with
    | [] => decode_uu_data rest
    | _ =>
      if str_eqb line (lit "end") || starts_with (lit "end ") line then []
      else
        match as_bytes line with
        | [] => decode_uu_data rest
        | b0 :: data_part =>
          let n := N.to_nat (u8_wsub b0 32) in
          if 45 <? n then decode_uu_data rest
          else if n =? 0 then []
          else firstn n (flat_map uu_ungroup (chunks 4 data_part)) ++ decode_uu_data rest
        end
    end
  end.

(* ---- binary_parser.rs -------------------------------------------------
   The tracker is reduced to the remaining text (offset, line and column are
   dropped: PositionTracker::remaining is the text after the offset). *)

(* binary_parser.rs:126-130  current_line, and tracker.rs:102-109 skip_line *)
Definition current_line (rem : str) : str :=
  match find_char is_nl rem with Some (a, _) => a | None => rem end.
Definition skip_line (rem : str) : str :=
  match find_char is_nl rem with Some (_, _ :: b) => b | _ => [] end.
(* tracker.rs:91-99 *)
Definition is_blank (c : char) : bool := (c =? 32)%N || (c =? 9)%N || (c =? 13)%N.
(* binary_parser.rs:121-123 *)
Definition at_next_section (rem : str) : bool := starts_with (lit "[") (trim_start rem).

(* binary_parser.rs:90-118  collect_data_lines: the lines and the rest.
   None: out of fuel (excluded by a theorem). *)
Fixpoint collect_data_lines (fuel : nat) (rem : str) : option (list str * str) :=
  match fuel with
  | 0 => None
  | S f =>
    match rem with
    | [] => Some ([], rem)
    | _ =>
      if at_next_section rem then Some ([], rem) else
      let data_line := current_line rem in
      let t := trim data_line in
      if match t with [] => true | _ => false end || starts_with (lit "[") t then Some ([], rem)
      else if starts_with (lit ";") t || starts_with (lit "!") t then collect_data_lines f (skip_line rem)
      else if starts_with (lit "# ") t || str_eqb t (lit "#") then Some ([], rem)
      else match collect_data_lines f (skip_line rem) with
           | Some (ls, r) => Some (data_line :: ls, r)
           | None => None
           end
    end
  end.

(* binary_parser.rs:133-155  skip_whitespace_and_comments *)
Fixpoint skip_ws_comments (fuel : nat) (rem : str) : option str :=
  match fuel with
  | 0 => None
  | S f =>
    let r := drop_while is_blank rem in
    match r with
    | [] => Some r
    | c :: r' =>
      if starts_with (lit ";") r || starts_with (lit "!:") r then skip_ws_comments f (skip_line r)
      else if is_nl c then skip_ws_comments f r'
      else Some r
    end
  end.

(* binary_parser.rs:65-87  parse_entry *)
Definition parse_entry (key : str) (rem : str) : option (option (str * list str) * str) :=
  let line := current_line rem in
  match find_char (fun c => (c =? 58)%N) line with
  | Some (k, _ :: v) =>
    if str_eqb (trim k) key then
      match collect_data_lines (S (List.length rem)) (skip_line rem) with
      | Some (ls, r) => Some (Some (trim v, ls), r)
      | None => None
      end
    else Some (None, skip_line rem)
  | _ => Some (None, skip_line rem)
  end.

(* binary_parser.rs:44-62  parse: the entries and the remaining text *)
Fixpoint parse_binary (fuel : nat) (key : str) (rem : str) : option (list (str * list str) * str) :=
  match fuel with
  | 0 => None
  | S f =>
    match rem with
    | [] => Some ([], rem)
    | _ =>
      if at_next_section rem then Some ([], rem) else
      match skip_ws_comments (S (List.length rem)) rem with
      | None => None
      | Some r =>
        match r with
        | [] => Some ([], r)
        | _ =>
          if at_next_section r then Some ([], r) else
          match parse_entry key r with
          | None => None
          | Some (e, r') =>
            match parse_binary f key r' with
            | None => None
            | Some (es, r'') => Some (match e with Some x => x :: es | None => es end, r'')
            end
          end
        end
      end
    end
  end.
(* section_parsers.rs: the [Fonts] body is read with the key "fontname". *)
Definition parse_fonts (body : str) : option (list (str * list str) * str) :=
  parse_binary (S (List.length body)) (lit "fontname") body.
(* ast/media Font::decode_data: decode_uu_data over the data lines. *)
Definition font_data (f : str * list str) : list N := decode_uu_data (snd f).

(* ---- add.rs:46-80  AddFontCommand::execute on the document text --------
   insert_raw at a byte offset on a boundary is list insertion; the search
   results are boundaries, so the text is assembled directly. *)
Definition font_entry (filename : str) (data_lines : list str) : str :=
  lit "fontname: " ++ filename ++ lit "
" ++ flat_map (fun l => l ++ lit "
") data_lines.
Definition add_font (content : str) (filename : str) (data_lines : list str) : str :=
  match find_str (lit "[Fonts]") content with
  | Some (pre, sec) =>
    match find_str (lit "
[") sec with
    | Some (a, b) => pre ++ a ++ font_entry filename data_lines ++ b
    | None => content ++ font_entry filename data_lines
    end
  | None =>
    content ++ (if ends_with (lit "
") content then [] else lit "
") ++ lit "[Fonts]
" ++ font_entry filename data_lines
  end.
