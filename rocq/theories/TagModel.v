(* Model of ass-core analysis/events: tags/{parser,complexity}.rs,
   text_analysis/{parser,helpers}.rs, scoring/{calculators,impact}.rs and
   line_breaks.rs.  Plugin registries are modelled in the tag parser as a
   function from name and arguments to a verdict. *)
From Verif Require Export Base ParseModel.

Definition or_crash {A} (o : option A) : run A := match o with Some a => Done a | None => Crash end.
Definition is_alpha (c : char) : bool := is_upper c || is_lower c.
Definition bslash : char := 92%N.
Definition is_bs (c : char) : bool := (c =? 92)%N.

(* tags/types.rs:10-45.  A diagnostic's text and offset are both kept. *)
Inductive diag_kind := EmptyOverride | MalformedTag.
Record tag_diag := Diag { dg_span : str; dg_offset : nat; dg_kind : diag_kind }.
Record tag := Tag { tg_name : str; tg_args : str; tg_complexity : N; tg_pos : nat }.

(* tags/complexity.rs:38-49 *)
Definition one_of (l : list string) (s : str) : bool := existsb (fun x => str_eqb (lit x) s) l.
Definition tag_complexity (n : str) : N :=
  if one_of ["b"; "i"; "u"; "s"; "c"; "1c"; "2c"; "3c"; "4c"; "alpha"; "1a"; "2a"; "3a"; "4a"; "fn"; "fs"]%string n then 1%N
  else if one_of ["move"; "fad"; "fade"; "frx"; "fry"; "frz"; "fscx"; "fscy"; "fsp"; "clip"; "iclip"]%string n then 3%N
  else if one_of ["t"; "pbo"]%string n then 4%N
  else if one_of ["p"]%string n then 5%N
  else 2%N.

(* tags/parser.rs:40-67 scan_tag_name: rest is chars[char_pos..]; the name so
   far is taken from the block text with byte indices, as in the code.
   Returns the remaining characters and the byte position. *)
Fixpoint scan_tag_name (content : str) (rest : str) (bp name_start len : nat) : run (str * nat) :=
  match rest with
  | [] => Done (rest, bp)
  | c :: r =>
    if (len =? 0) && is_digit c then scan_tag_name content r (bp + 1) name_start (len + 1)
    else if is_alpha c then
      so_far <- or_crash (slice content name_start (bp + 1)) ;;
      if str_eqb so_far (lit "r") || str_eqb so_far (lit "fn") then Done (r, bp + 1)
      else scan_tag_name content r (bp + 1) name_start (len + 1)
    else Done (rest, bp)
  end.

(* tags/parser.rs:98-112 the parenthesised argument of \t.  The depth is an
   i32 in the code, bounded by the text length. *)
Fixpoint scan_parens (rest : str) (bp : nat) (depth : Z) : str * nat :=
  match rest with
  | [] => ([], bp)
  | c :: r =>
    if (c =? 40)%N then scan_parens r (bp + len_utf8 c) (depth + 1)%Z
    else if (c =? 41)%N then
      if (depth - 1 =? 0)%Z then (r, bp + 1) else scan_parens r (bp + len_utf8 c) (depth - 1)%Z
    else scan_parens r (bp + len_utf8 c) depth
  end.
(* tags/parser.rs:115-118 *)
Fixpoint scan_args (rest : str) (bp : nat) : str * nat :=
  match rest with
  | [] => ([], bp)
  | c :: r => if is_bs c then (rest, bp) else scan_args r (bp + len_utf8 c)
  end.
Definition starts_paren (s : str) : bool := match s with c :: _ => (c =? 40)%N | [] => false end.

(* plugin: ExtensionRegistry::process_tag (registry_parser.rs:84-113) *)
Inductive verdict := Processed | Failed | Ignored.
Definition registry := str -> str -> option verdict.
Definition no_registry : registry := fun _ _ => None.

(* tags/parser.rs:121-139 and registry_parser.rs:84-133: what is recorded for
   one tag.  With no_registry this is the plain parser. *)
Definition record_tag (reg : registry) (name args span : str) (pos : nat) : list tag * list tag_diag :=
  let std :=
    match trim name with
    | [] => ([], [Diag span pos EmptyOverride])
    | _ => ([Tag name args (tag_complexity name) pos], [])
    end in
  match reg name args with
  | Some Processed => ([Tag name args 2 pos], [])
  | Some Failed => (fst std, Diag span pos MalformedTag :: snd std)
  | Some Ignored | None => std
  end.

(* tags/parser.rs:69-157 parse_override_block (and registry_parser.rs:27-151):
   rest is chars[char_pos..], bp the byte position. *)
Fixpoint parse_block (fuel : nat) (reg : registry) (content : str) (start_pos : nat) (rest : str) (bp : nat) : run (list tag * list tag_diag) :=
  match rest with
  | [] => Done ([], [])
  | c :: r =>
    match fuel with
    | 0 => Stuck
    | S f =>
      if is_bs c then
        let tag_start := bp in
        p <- scan_tag_name content r (bp + 1) (bp + 1) 0 ;;
        let (rest1, bp1) := p in
        if Nat.ltb (List.length rest1) (List.length r) then
          preview <- or_crash (slice content (tag_start + 1) bp1) ;;
          let (rest2, bp2) := if str_eqb preview (lit "t") && starts_paren rest1 then scan_parens rest1 bp1 0 else scan_args rest1 bp1 in
          name <- or_crash (slice content (tag_start + 1) bp1) ;;
          args <- or_crash (slice content bp1 bp2) ;;
          span <- or_crash (slice content tag_start bp2) ;;
          q <- parse_block f reg content start_pos rest2 bp2 ;;
          let (ts, ds) := record_tag reg name args span (start_pos + tag_start) in
          Done (ts ++ fst q, ds ++ snd q)
        else
          span <- or_crash (slice content tag_start (Nat.min (tag_start + 2) (blen content))) ;;
          let (rest2, bp2) := match rest1 with [] => (rest1, bp1) | d :: r' => (r', bp1 + len_utf8 d) end in
          q <- parse_block f reg content start_pos rest2 bp2 ;;
          Done (fst q, Diag span (start_pos + tag_start) EmptyOverride :: snd q)
      else parse_block f reg content start_pos r (bp + len_utf8 c)
    end
  end.
Definition parse_override_block_with (reg : registry) (content : str) (start_pos : nat) : run (list tag * list tag_diag) :=
  parse_block (List.length content) reg content start_pos content 0.
Definition parse_override_block := parse_override_block_with no_registry.

(* ---- text_analysis ---- *)
(* str::parse::<i32>; the value is only compared with zero *)
Definition parse_i32 (s : str) : option Z :=
  match s with
  | [] => None
  | [c] => if (c =? 43)%N || (c =? 45)%N then None else option_map Z.of_N (digits_val 2147483647 10 0 s)
  | c :: r =>
    if (c =? 45)%N then option_map (fun v => (- Z.of_N v)%Z) (digits_val 2147483648 10 0 r)
    else if (c =? 43)%N then option_map Z.of_N (digits_val 2147483647 10 0 r)
    else option_map Z.of_N (digits_val 2147483647 10 0 s)
  end.
Definition is_num (c : char) : bool := is_digit c || (c =? 45)%N.
(* text_analysis/helpers.rs:55-79 update_drawing_mode *)
Fixpoint drawing_loop (fuel : nat) (cs : str) (mode : bool) : run bool :=
  match cs with
  | [] => Done mode
  | c :: r =>
    match fuel with
    | 0 => Stuck
    | S f =>
      match r with
      | d :: r' =>
        if is_bs c && (d =? 112)%N then
          drawing_loop f (drop_while is_num r')
            (match parse_i32 (take_while is_num r') with Some v => (0 <? v)%Z | None => mode end)
        else drawing_loop f r mode
      | [] => drawing_loop f r mode
      end
    end
  end.
Definition update_drawing_mode (s : str) (mode : bool) : run bool := drawing_loop (List.length s) s mode.

(* text_analysis/helpers.rs:82-101 count_lines *)
Definition count_lines (t : str) : nat :=
  match t with
  | [] => 1
  | _ =>
    let n := List.length (filter is_nl t) in
    if n =? 0 then 1
    else match drop_end is_nl t with
         | [] => n + 1
         | _ => Nat.max (List.length (lines t)) 1
         end
  end.
(* text_analysis/helpers.rs:104-114 *)
Definition in_range (lo hi c : N) : bool := ((lo <=? c) && (c <=? hi))%N.
Definition detect_bidi (t : str) : bool :=
  existsb (fun c => in_range 1424 1535 c || in_range 1536 1791 c || in_range 1872 1919 c || in_range 2208 2303 c) t.
Definition detect_complex (t : str) : bool :=
  existsb (fun c => (255 <? c)%N || (in_range 0 31 c || in_range 127 159 c || in_range 8204 8205 c || in_range 8288 8303 c)) t.

(* text_analysis/parser.rs:42-57: the characters of the block are consumed by
   the inner loop; None is the depth error. *)
Fixpoint scan_block (rest : str) (pos depth : nat) : option (str * nat) :=
  match rest with
  | [] => Some ([], pos)
  | c :: r =>
    let pos' := pos + len_utf8 c in
    if (c =? 123)%N then if Nat.ltb 100 (depth + 1) then None else scan_block r pos' (depth + 1)
    else if (c =? 125)%N then if depth - 1 =? 0 then Some (r, pos') else scan_block r pos' (depth - 1)
    else scan_block r pos' depth
  end.

Record text_analysis := TextAnalysis { ta_plain : str; ta_chars : nat; ta_lines : nat; ta_bidi : bool; ta_complex : bool;
                                       ta_tags : list tag; ta_diags : list tag_diag }.
(* accumulated by the main loop: plain text, tags, diagnostics *)
Record acc := Acc { ac_plain : str; ac_tags : list tag; ac_diags : list tag_diag }.

(* text_analysis/parser.rs:36-124; the option is None for Err *)
Fixpoint analyze_loop (fuel : nat) (reg : registry) (text rest : str) (pos : nat) (mode : bool) (a : acc) : run (option acc) :=
  match rest with
  | [] => Done (Some a)
  | c :: r =>
    match fuel with
    | 0 => Stuck
    | S f =>
      if (c =? 123)%N then
        let tag_start := pos + len_utf8 c in
        match scan_block r pos 1 with
        | None => Done None
        | Some (rest1, pos1) =>
          if Nat.ltb tag_start pos1 then
            content <- or_crash (slice text tag_start pos1) ;;
            q <- parse_override_block_with reg content tag_start ;;
            mode' <- update_drawing_mode content mode ;;
            analyze_loop f reg text rest1 (pos1 + len_utf8 c) mode' (Acc (ac_plain a) (ac_tags a ++ fst q) (ac_diags a ++ snd q))
          else
            span <- or_crash (slice text tag_start (Nat.max pos1 (tag_start + 1))) ;;
            analyze_loop f reg text rest1 (pos1 + len_utf8 c) mode (Acc (ac_plain a) (ac_tags a) (ac_diags a ++ [Diag span tag_start EmptyOverride]))
        end
      else if is_bs c then
        match r with
        | [] => analyze_loop f reg text r (pos + len_utf8 c) mode a
        | d :: r' =>
          let add := if mode then [] else if (d =? 110)%N || (d =? 78)%N then [10%N] else if (d =? 104)%N then [160%N] else [c; d] in
          analyze_loop f reg text r' (pos + len_utf8 d + len_utf8 c) mode (Acc (ac_plain a ++ add) (ac_tags a) (ac_diags a))
        end
      else analyze_loop f reg text r (pos + len_utf8 c) mode (Acc (ac_plain a ++ (if mode then [] else [c])) (ac_tags a) (ac_diags a))
    end
  end.
(* text_analysis/parser.rs:126-139, analysis.rs:66-102 *)
Definition analyze_text_with (reg : registry) (text : str) : run (option text_analysis) :=
  o <- analyze_loop (List.length text) reg text text 0 false (Acc [] [] []) ;;
  Done (option_map (fun a => TextAnalysis (ac_plain a) (List.length (ac_plain a)) (count_lines (ac_plain a))
                             (detect_bidi (ac_plain a)) (detect_complex (ac_plain a)) (ac_tags a) (ac_diags a)) o).
Definition analyze_text := analyze_text_with no_registry.

(* ---- scoring ---- *)
(* scoring/calculators.rs:43-53 *)
Definition tag_score (n : str) : N :=
  if one_of ["b"; "i"; "u"; "s"; "c"; "1c"; "2c"; "3c"; "4c"; "alpha"; "1a"; "2a"; "3a"; "4a"]%string n then 1%N
  else if one_of ["frx"; "fry"; "frz"; "fscx"; "fscy"; "fsp"; "fad"; "fade"; "clip"; "iclip"]%string n then 3%N
  else if one_of ["move"]%string n then 4%N
  else if one_of ["t"; "pbo"]%string n then 5%N
  else if one_of ["p"]%string n then 8%N
  else 2%N.
(* scoring/calculators.rs:41-56: sum::<u8>() adds from the left and overflows
   in a debug build *)
Fixpoint sum_u8 (acc : N) (l : list N) : option N :=
  match l with
  | [] => Some acc
  | x :: r => if (255 <? acc + x)%N then None else sum_u8 (acc + x) r
  end.
Definition animation_score (ts : list tag) : run N :=
  s <- or_crash (sum_u8 0 (map (fun t => tag_score (tg_name t)) ts)) ;; Done (N.min s 10).
(* scoring/calculators.rs:88-112 *)
Definition complexity_score (anim : N) (chars overrides : nat) : N :=
  let c := N.of_nat chars in
  let o := N.of_nat overrides in
  let a := (if c <=? 50 then 0 else if c <=? 200 then 5 else if c <=? 500 then 15 else if c <=? 1000 then 30 else 50)%N in
  let b := (if o =? 0 then 0 else if o <=? 5 then 5 else if o <=? 15 then 15 else if o <=? 30 then 25 else 35)%N in
  N.min (N.min (anim * 5 + a + b) 255) 100.
(* scoring/impact.rs:43-51 *)
Inductive impact := Minimal | Low | Medium | High | Critical.
Definition performance_impact (s : N) : impact :=
  if (s <=? 20)%N then Minimal else if (s <=? 40)%N then Low else if (s <=? 60)%N then Medium else if (s <=? 80)%N then High else Critical.

(* ---- line_breaks.rs:40-99 TextWithLineBreaks::from_text ---- *)
Inductive break_type := Hard | Soft.
Record with_breaks := WithBreaks { wb_text : str; wb_breaks : list (nat * break_type); wb_nbsp : list nat }.
Fixpoint from_text_loop (s : str) (drawing : bool) (w : with_breaks) : with_breaks :=
  match s with
  | [] => w
  | c :: r =>
    if is_bs c then
      match r with
      | [] => WithBreaks (wb_text w ++ [c]) (wb_breaks w) (wb_nbsp w)
      | d :: r' =>
        from_text_loop r' drawing
          (if (d =? 78)%N then if drawing then w else WithBreaks (wb_text w ++ [10%N]) (wb_breaks w ++ [(blen (wb_text w), Hard)]) (wb_nbsp w)
           else if (d =? 110)%N then if drawing then w else WithBreaks (wb_text w ++ [10%N]) (wb_breaks w ++ [(blen (wb_text w), Soft)]) (wb_nbsp w)
           else if (d =? 104)%N then if drawing then w else WithBreaks (wb_text w ++ [160%N]) (wb_breaks w) (wb_nbsp w ++ [blen (wb_text w)])
           else WithBreaks (wb_text w ++ [c; d]) (wb_breaks w) (wb_nbsp w))
      end
    else from_text_loop r drawing (WithBreaks (wb_text w ++ [c]) (wb_breaks w) (wb_nbsp w))
  end.
Definition from_text (s : str) (drawing : bool) : with_breaks := from_text_loop s drawing (WithBreaks [] [] []).
(* line_breaks.rs:103-114 *)
Definition break_type_at (w : with_breaks) (p : nat) : option break_type :=
  option_map snd (find (fun x => fst x =? p) (wb_breaks w)).
Definition is_nbsp_at (w : with_breaks) (p : nat) : bool := existsb (Nat.eqb p) (wb_nbsp w).
