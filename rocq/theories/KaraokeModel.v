(* Model of the karaoke commands, crates/ass-editor/commands/karaoke_commands.
   The fluent calls (core/fluent/{karaoke,karaoke_builders}.rs) only build
   them.  Messages and memory_usage are left out. *)
From Verif Require Export Base DocModel ParseModel TagModel TagCmdModel FloatModel.
From Verif Require Import FormatModel.

(* types.rs:4-25 *)
Inductive ktype := Standard | Fill | Outline | Transition.
Definition tag_string (k : ktype) : str :=
  match k with Standard => lit "k" | Fill => lit "kf" | Outline => lit "ko" | Transition => lit "kt" end.
(* format!("{{\\{tag}{duration}}}") *)
Definition mark (tag : str) (duration : N) : str := open_brace :: bslash :: tag ++ to_dec duration ++ [close_brace].

(* ---- generate.rs ---- *)
Record generate := Generate { ge_range : range; ge_duration : N; ge_type : ktype; ge_auto : bool }.
Definition is_vowel (c : char) : bool := existsb (N.eqb c) (lit "aeiouAEIOU").
(* chars[a..b] *)
Definition sub (chars : str) (a b : nat) : str := firstn (b - a) (skipn a chars).
(* 113-128; prev is chars[pos-1], None at pos 0 *)
Definition syllable_boundary (prev : option char) (curr : char) : bool :=
  match prev with None => false | Some p => is_vowel p && negb (is_vowel curr) && negb (is_ws curr) end.
(* 68-94: rest is chars[i..]; the syllables found and current_start *)
Fixpoint syl_loop (chars rest : str) (i start : nat) (prev : option char) (acc : list str) : list str * nat :=
  match rest with
  | [] => (acc, start)
  | c :: r =>
    if is_ws c || syllable_boundary prev c then
      let acc1 := if start <? i then let s := sub chars start i in if is_nil (trim s) then acc else acc ++ [s] else acc in
      if is_ws c then
        let end_ := i + 1 + List.length (take_while is_ws r) in
        if i + 1 <? end_ then syl_loop chars r (i + 1) end_ (Some c) (acc1 ++ [sub chars i end_])
        else syl_loop chars r (i + 1) i (Some c) acc1
      else syl_loop chars r (i + 1) i (Some c) acc1
    else syl_loop chars r (i + 1) start (Some c) acc
  end.
(* 54-110 *)
Definition split_into_syllables (auto : bool) (t : str) : list str :=
  if negb auto then [t]
  else if is_nil t then [t]
  else
    let (acc, start) := syl_loop t t 0 0 None [] in
    let acc1 := if start <? List.length t then
                  let s := skipn start t in if is_nil (trim s) then acc else acc ++ [s]
                else acc in
    if is_nil acc1 then [t] else acc1.
(* 145-155 *)
Definition karaoke_text (tag : str) (d : N) (syllables : list str) : str :=
  match syllables with
  | [] => []
  | s :: r => mark tag d ++ s ++ flat_map (fun x => (if is_nil (trim x) then [] else mark tag d) ++ x) r
  end.
(* 132-163 *)
Definition has_brace (t : str) : bool := existsb (N.eqb open_brace) t || existsb (N.eqb close_brace) t.
Definition generate_text (c : generate) (t : str) : str :=
  karaoke_text (tag_string (ge_type c)) (ge_duration c) (split_into_syllables (ge_auto c) t).
Definition exec_generate (c : generate) (d : doc) : out cresult :=
  match text_range d (ge_range c) with
  | Ok t => if has_brace t then OErr d else rewrite_range (fun t => Done (generate_text c t)) (ge_range c) d
  | _ => rewrite_range (fun t => Done (generate_text c t)) (ge_range c) d
  end.

(* ---- split.rs ---- *)
Record split_cmd := SplitCmd { sp_range : range; sp_positions : list nat; sp_duration : option N }.
Definition sp_dur (c : split_cmd) : N := match sp_duration c with Some x => x | None => 50%N end.
(* 68-79: the text made so far and last_pos *)
Fixpoint split_loop (dur : N) (t : str) (ps : list nat) (last : nat) (acc : str) : run (str * nat) :=
  match ps with
  | [] => Done (acc, last)
  | p :: r =>
    if (p <=? last) || (blen t <=? p) then split_loop dur t r last acc
    else
      seg <- need (slice t last p) ;;
      split_loop dur t r p (if is_nil seg then acc else acc ++ mark (lit "k") dur ++ seg)
  end.
(* 62-91 *)
Definition split_text (c : split_cmd) (t : str) : run str :=
  p <- split_loop (sp_dur c) t (sp_positions c) 0 [] ;;
  let (acc, last) := p in
  if last <? blen t then
    seg <- need (slice_from t last) ;;
    Done (if is_nil seg then acc else acc ++ mark (lit "k") (sp_dur c) ++ seg)
  else Done acc.
Definition exec_split (c : split_cmd) : doc -> out cresult := rewrite_range (split_text c) (sp_range c).

(* ---- apply_impl.rs ---- *)
Inductive template :=
| Equal (syllable_duration : N) (k : ktype)
| Beat (beats_per_minute : N) (beats_per_syllable : float) (k : ktype)
| Pattern (durations : list N) (k : ktype)
| ImportFrom (source_event_index : nat).
(* 84-108 *)
Fixpoint clean_loop (fuel : nat) (rest : str) : run str :=
  match rest with
  | [] => Done []
  | c :: r =>
    match fuel with
    | 0 => Stuck
    | S f =>
      if (c =? open_brace)%N then let '(_, _, r') := TagCmdModel.scan_block r 1 in clean_loop f r'
      else q <- clean_loop f r ;; Done (c :: q)
    end
  end.
Definition extract_clean_text (t : str) : run str := clean_loop (List.length t) t.
(* 132-137 *)
Definition apply_equal (syllables : list str) (duration : N) (k : ktype) : str :=
  join [32%N] (map (fun s => mark (tag_string k) duration ++ s) syllables).
(* 151 *)
Definition beat_duration (bpm : N) (bps : float) : N :=
  f_to_N u32_max (f_mul f32 (f_mul f32 (f_div f32 (f_of_N f32 60) (f_of_N f32 bpm)) bps) (f_of_N f32 100)).
(* 165-171: i % len panics when there are no durations *)
Fixpoint apply_pattern (i : nat) (syllables : list str) (durations : list N) (tag : str) : run str :=
  match syllables with
  | [] => Done []
  | s :: r =>
    j <- (if is_nil durations then Crash else Done (Nat.modulo i (List.length durations))) ;;
    let d := nth j durations 50%N in
    q <- apply_pattern (S i) r durations tag ;;
    Done ((if 0 <? i then [32%N] else []) ++ mark tag d ++ s ++ q)
  end.
(* 50-81 *)
Definition apply_template (k : template) (t : str) : run str :=
  c <- extract_clean_text t ;;
  match k with
  | Equal d ty => Done (apply_equal (words c) d ty)
  | Beat bpm bps ty => Done (apply_equal (words c) (beat_duration bpm bps) ty)
  | Pattern ds ty => apply_pattern 0 (words c) ds (tag_string ty)
  | ImportFrom _ => Done t
  end.
Definition exec_apply (r : range) (k : template) : doc -> out cresult := rewrite_range (apply_template k) r.

(* ---- adjust_impl.rs ---- *)
Inductive adjustment := Scale (factor : float) | Offset (offset : Z) | SetAll (duration : N) | Custom (timings : list N).
(* plugin/tags/karaoke/handlers.rs: the registry of lines 52-59 *)
Definition karaoke_registry : registry := fun name args =>
  if one_of ["k"; "kf"; "ko"; "kt"]%string name then
    Some (match parse_u32 (trim args) with Some _ => Processed | None => Failed end)
  else None.
(* str::replace, from is not empty *)
Fixpoint replace_go (from to s : str) (skip : nat) : str :=
  match s with
  | [] => []
  | c :: r =>
    match skip with
    | S k => replace_go from to r k
    | 0 => if starts_with from s then to ++ replace_go from to r (List.length from - 1) else c :: replace_go from to r 0
    end
  end.
Definition str_replace (from to s : str) : str := replace_go from to s 0.
(* u32 as i32 *)
Definition as_i32 (n : N) : Z := let z := Z.of_N n in if (z <? 2147483648)%Z then z else (z - 4294967296)%Z.
(* 132-149: the new duration and custom_index; the addition panics on overflow *)
Definition new_duration (a : adjustment) (current : N) (index : nat) : run (N * nat) :=
  match a with
  | Scale f => Done (N.max (f_to_N u32_max (f_mul f32 (f_of_N f32 current) f)) 1, index)
  | Offset o => let z := (as_i32 current + o)%Z in
                if ((z <? -2147483648) || (2147483647 <? z))%Z then Crash else Done (Z.to_N (Z.max z 1), index)
  | SetAll d => Done (d, index)
  | Custom l => Done (match nth_error l index with Some d => (d, S index) | None => (current, index) end)
  end.
(* 122-156 over the tags in reverse order *)
Fixpoint adjust_tags (a : adjustment) (tags : list tag) (index : nat) (content : str) : run (str * nat) :=
  match tags with
  | [] => Done (content, index)
  | t :: r =>
    if starts_with (lit "k") (tg_name t) then
      let current := match parse_u32 (trim (tg_args t)) with Some n => n | None => 0%N end in
      p <- new_duration a current index ;;
      adjust_tags a r (snd p) (str_replace (bslash :: tg_name t ++ to_dec current) (bslash :: tg_name t ++ to_dec (fst p)) content)
    else adjust_tags a r index content
  end.
(* 65-107 *)
Fixpoint adjust_loop (fuel : nat) (a : adjustment) (index : nat) (rest : str) : run str :=
  match rest with
  | [] => Done []
  | c :: r =>
    match fuel with
    | 0 => Stuck
    | S f =>
      if (c =? open_brace)%N then
        let '(content, _, r') := TagCmdModel.scan_block r 1 in
        p <- parse_override_block_with karaoke_registry content 0 ;;
        x <- adjust_tags a (rev (fst p)) index content ;;
        q <- adjust_loop f a (snd x) r' ;;
        Done (open_brace :: fst x ++ close_brace :: q)
      else q <- adjust_loop f a index r ;; Done (c :: q)
    end
  end.
Definition adjust_text (a : adjustment) (t : str) : run str := adjust_loop (List.length t) a 0 t.
Definition exec_adjust (r : range) (a : adjustment) : doc -> out cresult := rewrite_range (adjust_text a) r.
