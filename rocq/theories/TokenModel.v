(* Model of the tokenizer of ass-core: tokenizer/{ass_tokenizer,next_token}.rs,
   scanner/{navigator,token_scanner,text_scanner}.rs, state/context.rs and
   simd/{delimiters,hex,utf8}.rs.  Everything takes a flag [simd]: true is the
   build with the feature "simd" (part of "full"), false the one without.
   Simplifications: usize and the i32 brace depth are unbounded; a 16-byte
   vector is a list of 16 bytes, and a comparison mask is examined lane by lane;
   the cached peek_char and the [chars] iterator are the head of the text that
   remains.  The contexts DrawingCommands and UuEncodedData are left out, as no
   code enters them, and so is the issue list, to which nothing is ever added. *)
From Verif Require Export Base StreamModel.

(* ---- simd/delimiters.rs ---- *)
(* 94 *)
Definition delim_byte (b : N) : bool :=
  ((b =? 58) || (b =? 44) || (b =? 123) || (b =? 125) || (b =? 91) || (b =? 93) || (b =? 10) || (b =? 13))%N.
(* 91-99 *)
Fixpoint scan_delimiters_scalar (b : list N) : option nat :=
  match b with
  | [] => None
  | x :: r => if delim_byte x then Some 0 else option_map S (scan_delimiters_scalar r)
  end.
(* 64-74: the lanes that compare equal to one of the eight splats, and
   trailing_zeros of their move_mask *)
Definition delim_mask (chunk : list N) : list bool :=
  map (fun x => (x =? 58) || (x =? 44) || (x =? 123) || (x =? 125) || (x =? 91) || (x =? 93) || (x =? 10) || (x =? 13))%N chunk.
Fixpoint trailing_zeros (mask : list bool) : option nat :=
  match mask with
  | [] => None
  | true :: _ => Some 0
  | false :: r => option_map S (trailing_zeros r)
  end.
(* 46-88; [n] chunks of 16 bytes remain, [idx] were looked at *)
Fixpoint scan_chunks (n idx : nat) (b : list N) (total : nat) : option nat :=
  match n with
  | S m =>
    match trailing_zeros (delim_mask (firstn 16 b)) with
    | Some z => Some (idx * 16 + z)
    | None => scan_chunks m (S idx) (skipn 16 b) total
    end
  | O =>
    match b with
    | [] => None
    | _ => option_map (fun p => total - List.length b + p) (scan_delimiters_scalar b)
    end
  end.
(* 32-43 *)
Definition scan_delimiters (simd : bool) (text : str) : option nat :=
  let b := encode text in
  if simd && (16 <=? List.length b)
  then scan_chunks (List.length b / 16) 0 b (List.length b)
  else scan_delimiters_scalar b.

(* ---- simd/hex.rs ---- *)
(* 111-116 *)
Definition hex_digit (b : N) : option N :=
  if ((48 <=? b) && (b <=? 57))%N then Some (b - 48)%N
  else if ((65 <=? b) && (b <=? 70))%N then Some (b - 65 + 10)%N
  else if ((97 <=? b) && (b <=? 102))%N then Some (b - 97 + 10)%N
  else None.
(* 103-124 *)
Fixpoint hex_direct (acc : N) (b : list N) : option N :=
  match b with
  | [] => Some acc
  | x :: r =>
    match hex_digit x with
    | Some d =>
      if (u32_max <? acc * 16)%N then None
      else if (u32_max <? acc * 16 + d)%N then None
      else hex_direct (acc * 16 + d)%N r
    | None => None
    end
  end.
(* 31-44, 127-129; the vector code of 57-75 is dead, as the length is at most 8 *)
Definition parse_hex_u32 (simd : bool) (s : str) : option N :=
  if (blen s =? 0) || (8 <? blen s) then None
  else if simd && (4 <=? blen s) then hex_direct 0 (encode s)
  else parse_uint u32_max 16 s.

(* ---- simd/utf8.rs ---- *)
(* core::str::from_utf8: the text, or Utf8Error::valid_up_to, the length of the
   longest prefix that is the encoding of a text *)
Definition decodes (b : list N) : bool := match from_utf8 b with Some _ => true | None => false end.
Fixpoint longest_valid (n : nat) (b : list N) : nat :=
  match n with
  | O => 0
  | S m => if decodes (firstn n b) then n else longest_valid m b
  end.
(* 51-55: None is Ok, Some p is Err at position p *)
Definition validate_scalar (b : list N) : option nat :=
  if decodes b then None else Some (longest_valid (List.length b) b).
(* 32-48: the chunks before the remainder *)
Fixpoint ascii_chunks (n : nat) (b : list N) : bool :=
  match n with
  | O => true
  | S m => forallb (fun x => x <? 128)%N (firstn 16 b) && ascii_chunks m (skipn 16 b)
  end.
(* 19-28 *)
Definition validate_utf8_batch (simd : bool) (b : list N) : option nat :=
  if simd && (16 <=? List.length b) then
    let n := List.length b / 16 in
    if ascii_chunks n b then validate_scalar (skipn (n * 16) b) else validate_scalar b
  else validate_scalar b.

(* ---- scanner/navigator.rs ---- *)
(* 18-33 *)
Record nav := Nav { nv_rest : str; nv_pos : nat; nv_line : nat; nv_col : nat; nv_last : option char }.
(* 105-131; None is the error at the end of the input *)
Definition advance (n : nav) : option nav :=
  match nv_rest n with
  | [] => None
  | c :: r =>
    let pos := nv_pos n + len_utf8 c in
    Some (if (c =? 13)%N then Nav r pos (S (nv_line n)) 1 (Some c)
          else if (c =? 10)%N then
            Nav r pos (match nv_last n with Some l => if (l =? 13)%N then nv_line n else S (nv_line n) | None => S (nv_line n) end) 1 (Some c)
          else Nav r pos (nv_line n) (S (nv_col n)) (Some c))
  end.
(* A loop "while not at end, peek; if it stops, break; advance", which is what
   134-146 and all the scanners are; it recurses on the remaining text. *)
Fixpoint scan_rest (stop : char -> bool) (rest : str) (n : nav) : nav :=
  match rest with
  | [] => n
  | c :: r => if stop c then n else match advance n with Some n' => scan_rest stop r n' | None => n end
  end.
Definition scan_until (stop : char -> bool) (n : nav) : nav := scan_rest stop (nv_rest n) n.
(* 134-146 *)
Definition skip_whitespace (n : nav) : nav :=
  scan_until (fun c => negb (is_ws c && negb (c =? 10) && negb (c =? 13)))%N n.

(* ---- scanner/token_scanner.rs ---- *)
(* 64-82: from behind the opening brace, at the given depth *)
Fixpoint scan_braces (rest : str) (depth : nat) (n : nav) : nav :=
  match rest, depth with
  | [], _ => n
  | _, O => n
  | c :: r, S _ =>
    let depth' := if (c =? 123)%N then S depth else if (c =? 125)%N then depth - 1 else depth in
    match depth' with
    | O => n
    | S _ => match advance n with Some n' => scan_braces r depth' n' | None => n end
    end
  end.

(* ---- tokens and contexts ---- *)
(* tokens/token_type.rs, the kinds the tokenizer makes *)
Inductive tok_type := TkText | TkNumber | TkHex | TkColon | TkComma | TkNewline | TkSectionClose | TkSectionName
  | TkSectionHeader | TkOverrideClose | TkOverrideBlock | TkComment | TkWhitespace.
(* tokens/token.rs:15-27 *)
Record token := Token { tk_type : tok_type; tk_span : str; tk_line : nat; tk_col : nat }.
(* state/context.rs:13-48 *)
Inductive tok_ctx := CtxDocument | CtxHeader | CtxField | CtxOverride.
(* 53-55 *)
Definition skips_ws (c : tok_ctx) : bool := match c with CtxField => false | _ => true end.

(* ---- scanner/text_scanner.rs ---- *)
(* 53-58 *)
Definition text_stop (ctx : tok_ctx) (c : char) : bool :=
  match ctx with
  | CtxField => (c =? 44) || (c =? 123) || (c =? 125) || (c =? 91) || (c =? 93) || (c =? 10) || (c =? 13)
  | _ => (c =? 44) || (c =? 58) || (c =? 123) || (c =? 125) || (c =? 91) || (c =? 93) || (c =? 10) || (c =? 13)
         || ((c =? 59) && match ctx with CtxDocument => true | _ => false end)
  end%N.
(* 23-68; None is the panic of slicing inside a character.  With simd only the
   position moves: line, column and last_char stay. *)
Definition scan_text_nav (simd : bool) (ctx : tok_ctx) (n : nav) : option nav :=
  if simd && match ctx with CtxField => false | _ => true end then
    let off := match scan_delimiters simd (nv_rest n) with Some o => o | None => blen (nv_rest n) end in
    match slice_from (nv_rest n) off with
    | Some r => Some (Nav r (nv_pos n + off) (nv_line n) (nv_col n) (nv_last n))
    | None => None
    end
  else Some (scan_until (text_stop ctx) n).
(* 90-117 *)
Definition strip_amp (s : str) : str := match rev s with c :: r => if (c =? 38)%N then rev r else s | [] => s end.
Definition is_hex_value (simd : bool) (span : str) : bool :=
  match strip_prefix (lit "&H") span with
  | Some after =>
    let h := strip_amp after in
    if negb (blen h =? 0) && (blen h mod 2 =? 0) && (blen h <=? 8) && forallb is_hex h then
      if simd then match parse_hex_u32 simd h with Some _ => true | None => false end else true
    else false
  | None => false
  end.
(* 72-86 *)
Definition text_type (simd : bool) (ctx : tok_ctx) (span : str) : tok_type :=
  let nonempty := match span with [] => false | _ => true end in
  match ctx with
  | CtxHeader => TkSectionName
  | _ =>
    if is_hex_value simd span then TkHex
    else if nonempty && forallb (fun c => is_digit c || (c =? 46) || (c =? 45))%N span then TkNumber
    else if nonempty && forallb is_ws span then TkWhitespace
    else TkText
  end.
(* 155-165 *)
Definition value_type (span : str) : tok_type :=
  let nonempty := match span with [] => false | _ => true end in
  if nonempty && forallb (fun c => is_digit c || (c =? 46) || (c =? 45) || (c =? 58))%N span then TkNumber
  else if nonempty && forallb is_ws span then TkWhitespace
  else TkText.
(* 146 *)
Definition value_stop (c : char) : bool := ((c =? 44) || (c =? 10) || (c =? 13) || (c =? 123) || (c =? 91))%N.

(* ---- ass_tokenizer.rs ---- *)
(* 19-28 *)
Record tokenizer := Tokenizer { tz_source : str; tz_nav : nav; tz_ctx : tok_ctx }.
(* 35-48; 96-105 is the same; None is the panic of source[position..] *)
Definition new_tokenizer (source : str) : option tokenizer :=
  let pos := match source with c :: _ => if (c =? 65279)%N then 3 else 0 | [] => 0 end in
  match slice_from source pos with
  | Some r => Some (Tokenizer source (Nav r pos 1 1 None) CtxDocument)
  | None => None
  end.
Definition reset_tokenizer (k : tokenizer) : option tokenizer := new_tokenizer (tz_source k).

(* What one arm of the match of next_token.rs:33-98 yields. *)
Inductive arm := Arm (ty : tok_type) (n : nav) (c : tok_ctx) | ArmErr (n : nav) (c : tok_ctx) | ArmPanic.
Definition one (ty : tok_type) (n : nav) (c : tok_ctx) : arm :=
  match advance n with Some n' => Arm ty n' c | None => ArmErr n c end.
(* scan_text together with 70-86 of text_scanner.rs *)
Definition text_arm (simd : bool) (src : str) (ctx : tok_ctx) (n : nav) : arm :=
  match scan_text_nav simd ctx n with
  | Some n' =>
    match slice src (nv_pos n) (nv_pos n') with Some span => Arm (text_type simd ctx span) n' ctx | None => ArmPanic end
  | None => ArmPanic
  end.
Definition value_arm (src : str) (ctx : tok_ctx) (n : nav) : arm :=
  let n' := scan_until value_stop n in
  match slice src (nv_pos n) (nv_pos n') with Some span => Arm (value_type span) n' ctx | None => ArmPanic end.
Definition comment_arm (ctx : tok_ctx) (n : nav) : arm := Arm TkComment (scan_until (fun c => (c =? 10) || (c =? 13))%N n) ctx.
Definition second_is_colon (n : nav) : bool := match nv_rest n with _ :: d :: _ => (d =? 58)%N | _ => false end.
(* next_token.rs:33-98 *)
Definition match_arm (simd : bool) (src : str) (c : char) (ctx : tok_ctx) (n : nav) : arm :=
  if (c =? 91)%N then
    match advance n with Some n' => Arm TkSectionHeader (scan_until (fun x => x =? 93)%N n') CtxHeader | None => ArmErr n CtxHeader end
  else if (c =? 123)%N then
    match advance n with Some n' => Arm TkOverrideBlock (scan_braces (nv_rest n') 1 n') CtxOverride | None => ArmErr n CtxOverride end
  else if (c =? 44)%N then one TkComma n ctx
  else if (c =? 10)%N then one TkNewline n CtxDocument
  else if (c =? 13)%N then
    match advance n with
    | Some n' =>
      match nv_rest n' with
      | [] => ArmErr n' CtxDocument
      | d :: _ => if (d =? 10)%N then one TkNewline n' CtxDocument else Arm TkNewline n' CtxDocument
      end
    | None => ArmErr n CtxDocument
    end
  else match ctx with
  | CtxHeader =>
    if (c =? 93)%N then one TkSectionClose n CtxDocument
    else if (c =? 125)%N then one TkText n ctx
    else text_arm simd src ctx n
  | CtxOverride =>
    if (c =? 125)%N then one TkOverrideClose n CtxDocument
    else if (c =? 93)%N then one TkText n ctx
    else text_arm simd src ctx n
  | CtxDocument =>
    if (c =? 58)%N then one TkColon n CtxField
    else if (c =? 59)%N then comment_arm ctx n
    else if (c =? 33)%N then if second_is_colon n then comment_arm ctx n else text_arm simd src ctx n
    else if (c =? 125)%N then one TkText n ctx
    else if (c =? 93)%N then one TkText n ctx
    else text_arm simd src ctx n
  | CtxField =>
    if (c =? 125)%N then one TkText n ctx
    else if (c =? 93)%N then one TkText n ctx
    else value_arm src ctx n
  end.

(* next_token: a token, the end, an error (with the state it leaves) or a panic *)
Inductive stepped := Tok (t : token) (k : tokenizer) | End (k : tokenizer) | Fail (k : tokenizer) | Boom.
(* next_token.rs:18-116 *)
Definition next_token (simd : bool) (k : tokenizer) : stepped :=
  let n := if skips_ws (tz_ctx k) then skip_whitespace (tz_nav k) else tz_nav k in
  match nv_rest n with
  | [] => End (Tokenizer (tz_source k) n (tz_ctx k))
  | c :: _ =>
    match match_arm simd (tz_source k) c (tz_ctx k) n with
    | Arm ty n' ctx' =>
      let k' := Tokenizer (tz_source k) n' ctx' in
      match slice (tz_source k) (nv_pos n) (nv_pos n') with
      | None => Boom
      | Some span =>
        if (nv_pos n =? nv_pos n') && negb (blen (tz_source k) <=? nv_pos n') then Fail k'
        else Tok (Token ty span (nv_line n) (nv_col n)) k'
      end
    | ArmErr n' ctx' => Fail (Tokenizer (tz_source k) n' ctx')
    | ArmPanic => Boom
    end
  end.
(* ass_tokenizer.rs:55-69; [left] tokens may still come before the error *)
Fixpoint collect_tokens (simd : bool) (left : nat) (k : tokenizer) : res (list token) :=
  match next_token simd k with
  | Tok t k' =>
    match left with
    | O => Err
    | S l => match collect_tokens simd l k' with Ok ts => Ok (t :: ts) | Err => Err | Panic => Panic end
    end
  | End _ => Ok []
  | Fail _ => Err
  | Boom => Panic
  end.
Definition tokenize_all (simd : bool) (k : tokenizer) : res (list token) := collect_tokens simd 50 k.
Definition tokenize (simd : bool) (source : str) : res (list token) :=
  match new_tokenizer source with Some k => tokenize_all simd k | None => Panic end.
