(* Model of the document search, crates/ass-editor/utils/{search,indexing}.
   Paths are relative to crates/ass-editor/utils.  Regular expressions
   (search/regex_search.rs) are left out, as are times and sizes.  The result
   cache (search/engine.rs) is never filled by any function, so a lookup
   in it always misses; it is left out too. *)
From Verif Require Export Base DocModel ParseModel MapLib.
From Verif Require Import FormatModel SortLib StreamModel.

(* What the code asks of Unicode: str::to_lowercase, char::is_alphanumeric,
   char::is_lowercase.  The theorems hold for every choice. *)
Record unicode := Unicode { lower : str -> str; alnum : char -> bool; lowercase : char -> bool }.
Definition ascii_lower (c : char) : char := if is_upper c then (c + 32)%N else c.
Definition ascii : unicode := Unicode (map ascii_lower) is_ascii_alnum is_lower.

(* search/options.rs:19-84 *)
Inductive scope := All | Lines (start end_ : nat) | Sections (names : list str) | Within (r : range).
Record options := Options { case_sensitive : bool; max_results : nat; o_scope : scope }.
Record hit := Hit { h_start : nat; h_end : nat; h_text : str; h_context : str; h_line : nat; h_column : nat }.

(* ---- search/basic.rs ---- *)
(* 46-65 over char_indices: the start found so far *)
Fixpoint lines_loop (rest : str) (i line_num start_offset start end_ len : nat) : nat * nat :=
  match rest with
  | [] => (start_offset, len)
  | c :: r =>
    let so := if (line_num =? start) && (start_offset =? 0) then i else start_offset in
    if (c =? 10)%N then
      if end_ <? S line_num then (so, i) else lines_loop r (i + len_utf8 c) (S line_num) so start end_ len
    else lines_loop r (i + len_utf8 c) line_num so start end_ len
  end.
(* 41-71 *)
Definition bounds (s : scope) (t : str) : nat * nat :=
  match s with
  | All | Sections _ => (0, blen t)
  | Within r => (r_start r, Nat.min (r_end r) (blen t))
  | Lines a b => lines_loop t 0 0 0 a b (blen t)
  end.
(* 81-89 *)
Fixpoint line_loop (rest : str) (i line line_start : nat) : nat * nat :=
  match rest with
  | [] => (line, line_start)
  | c :: r => if (c =? 10)%N then line_loop r (i + 1) (S line) (i + 1) else line_loop r (i + len_utf8 c) line line_start
  end.
(* 81-111: line_start is also what rfind('\n') gives *)
Definition make_hit (t : str) (a b : nat) : run hit :=
  before <- need (slice_to t a) ;;
  let (line, line_start) := line_loop before 0 0 0 in
  after <- need (slice_from t a) ;;
  let context_end := match find_char is_nl after with Some (x, _) => a + blen x | None => blen t end in
  context <- need (slice t line_start context_end) ;;
  m <- need (slice t a b) ;;
  Done (Hit a b m context line (a - line_start)).
(* 76-118 *)
Fixpoint basic_loop (fuel : nat) (t region pattern : str) (from max offset : nat) (acc : list hit) : run (list hit) :=
  match fuel with
  | 0 => Stuck
  | S f =>
    rest <- need (slice_from region offset) ;;
    match find_str pattern rest with
    | None => Done acc
    | Some (x, _) =>
      let a := from + offset + blen x in
      h <- make_hit t a (a + blen pattern) ;;
      let acc := acc ++ [h] in
      if (0 <? max) && (max <=? List.length acc) then Done acc
      else basic_loop f t region pattern from max (offset + blen x + 1) acc
    end
  end.
(* 22-121 *)
Definition fold_case (u : unicode) (o : options) (s : str) : str := if case_sensitive o then s else lower u s.
Definition basic_search (u : unicode) (t pattern : str) (o : options) : run (list hit) :=
  let st := fold_case u o t in
  let (a, b) := bounds (o_scope o) st in
  region <- need (slice st a b) ;;
  basic_loop (2 + blen region) t region (fold_case u o pattern) a (max_results o) 0 [].

(* ---- search/index.rs ---- *)
Definition word_char (u : unicode) (c : char) : bool := alnum u c || (c =? 95)%N.
(* 39-83: the words with their offsets, in order; cur is the open word *)
Fixpoint words_loop (u : unicode) (rest : str) (i : nat) (cur : option (nat * str)) : list (str * nat) :=
  match rest with
  | [] => match cur with Some (s, w) => [(w, s)] | None => [] end
  | c :: r =>
    if word_char u c then
      words_loop u r (i + len_utf8 c) (match cur with Some (s, w) => Some (s, w ++ [c]) | None => Some (i, [c]) end)
    else (match cur with Some (s, w) => [(w, s)] | None => [] end) ++ words_loop u r (i + len_utf8 c) None
  end.
Definition word_key (u : unicode) (w : str) : str := if forallb (lowercase u) w then w else lower u w.
(* entry(k).or_default().push(v) for each *)
Definition group {A} (l : list (str * A)) : smap (list A) := fold_left (fun m p => sm_update (fst p) [] (fun v => v ++ [snd p]) m) l [].
Definition extract_words (u : unicode) (t : str) : smap (list nat) := group (map (fun p => (word_key u (fst p), snd p)) (words_loop u t 0 None)).

(* ---- search/engine.rs, trait_impl.rs ----
   The set word_index always holds the keys of word_positions, and
   word_positions is empty when there is none.  [indexed] is the feature
   search-index. *)
Record engine := Engine { word_index : option (smap (list nat)); cached_text : str }.
Definition new_engine : engine := Engine None [].
Definition build_index (indexed : bool) (u : unicode) (t : str) : engine := Engine (if indexed then Some (extract_words u t) else None) t.
Definition clear_index (e : engine) : engine := Engine None [].
(* query.rs:80-96; the context says only "Offset n" *)
Definition index_hit (pattern : str) (p : nat) : hit := Hit p (p + blen pattern) pattern (lit "Offset " ++ to_dec (N.of_nat p)) 0 p.
(* 78-96: pushing until the limit is reached *)
Fixpoint push_hits {A} (max : nat) (l acc : list A) : list A :=
  match l with
  | [] => acc
  | h :: r => let acc := acc ++ [h] in if (0 <? max) && (max <=? List.length acc) then acc else push_hits max r acc
  end.
(* query.rs:31-123; automaton::Str accepts the one key that is the pattern *)
Definition search (u : unicode) (e : engine) (pattern : str) (o : options) : run (list hit) :=
  match word_index e with
  | Some m =>
    Done (match sm_get (fold_case u o pattern) m with
          | Some ps => push_hits (max_results o) (map (index_hit pattern) ps) []
          | None => []
          end)
  | None => basic_search u (cached_text e) pattern o
  end.
(* trait_impl.rs:83-88 *)
Fixpoint replace_hits (sz : nat) (d : doc) (hits : list hit) (replacement : str) : out unit :=
  match hits with
  | [] => OOk d tt
  | h :: r =>
    out_bind (doc_delete sz d (range_new (h_start h) (h_end h))) (fun d1 _ =>
    out_bind (doc_insert sz d1 (h_start h) replacement) (fun d2 _ => replace_hits sz d2 r replacement))
  end.
(* 72-92 *)
Definition find_replace (sz : nat) (u : unicode) (e : engine) (d : doc) (pattern replacement : str) (o : options) : out (list hit) :=
  match search u e pattern o with
  | Done hits => out_bind (replace_hits sz d (rev hits) replacement) (fun d1 _ => OOk d1 hits)
  | _ => OPanic
  end.

(* ---- search/incremental.rs ---- *)
(* usize::saturating_add_signed, below the top *)
Definition sat_add (n : nat) (z : Z) : nat := Z.to_nat (Z.of_nat n + z).
Definition is_eol (c : char) : bool := (c =? 10)%N || (c =? 13)%N.
(* 74-99: the guessed adjustments *)
Fixpoint guess_loop (t : str) (sorted todo : list range) (cum : Z) : run (list Z) :=
  match todo with
  | [] => Done []
  | c :: r =>
    old_len <- need (usub (r_end c) (r_start c)) ;;
    region <- need (slice_from t (sat_add (r_start c) cum)) ;;
    let new_len :=
      match find (fun n => r_end c <? r_start n) sorted with
      | Some n => Nat.min (blen region) (r_start n - r_end c)
      | None => match find_char is_eol region with Some (x, _) => blen x | None => Nat.min (blen region) (old_len * 2) end
      end in
    let adj := (Z.of_nat new_len - Z.of_nat old_len)%Z in
    rest <- guess_loop t sorted r (cum + adj) ;;
    Done (adj :: rest)
  end.
(* 108-122 for one position: None when it is dropped *)
Fixpoint move_pos (changes : list (range * Z)) (p adjusted : nat) : option nat :=
  match changes with
  | [] => Some adjusted
  | (c, z) :: r =>
    if (r_start c <=? p) && (p <? r_end c) then None
    else move_pos r p (if r_end c <=? p then sat_add adjusted z else adjusted)
  end.
Fixpoint move_all (changes : list (range * Z)) (ps : list nat) : list nat :=
  match ps with
  | [] => []
  | p :: r => match move_pos changes p p with Some q => q :: move_all changes r | None => move_all changes r end
  end.
(* 104-132 *)
Fixpoint move_index (changes : list (range * Z)) (m : smap (list nat)) : smap (list nat) :=
  match m with
  | [] => []
  | (w, ps) :: r => match move_all changes ps with [] => move_index changes r | ps' => (w, ps') :: move_index changes r end
  end.
(* 149-158 *)
Fixpoint add_positions (base : nat) (ps entry : list nat) : list nat :=
  match ps with
  | [] => entry
  | p :: r => add_positions base r (if existsb (Nat.eqb (p + base)) entry then entry else entry ++ [p + base])
  end.
Fixpoint add_words (base : nat) (ws m : smap (list nat)) : smap (list nat) :=
  match ws with
  | [] => m
  | (w, ps) :: r => add_words base r (sm_update w [] (fun e => stable_sort Nat.leb (add_positions base ps e)) m)
  end.
(* 135-160 *)
Fixpoint rescan (u : unicode) (t : str) (changes : list (range * Z)) (shift : Z) (m : smap (list nat)) : run (smap (list nat)) :=
  match changes with
  | [] => Done m
  | (c, z) :: r =>
    let start := sat_add (r_start c) shift in
    let a := start - 50 in
    let b := Nat.min (start + 100) (blen t) in
    m' <- (if a <? b then region <- need (slice t a b) ;; Done (add_words a (extract_words u region) m) else Done m) ;;
    rescan u t r (shift + z) m'
  end.
Definition start_le (a b : range) : bool := r_start a <=? r_start b.
(* 32-184 *)
Definition update_index (indexed : bool) (u : unicode) (e : engine) (t : str) (changes : list range) : run engine :=
  if is_nil changes then Done e
  else if negb indexed then Done (Engine (word_index e) t)
  else
    let total := fold_right (fun r n => (r_end r - r_start r) + n) 0 changes in
    if (10 <? List.length changes) || (1000 <? total) then Done (build_index indexed u t)
    else
      let sorted := stable_sort start_le changes in
      zs <- guess_loop t sorted sorted 0 ;;
      let cs := combine sorted zs in
      m <- rescan u t cs 0 (move_index cs (match word_index e with Some m => m | None => [] end)) ;;
      Done (Engine (match m with [] => None | _ => Some m end) t).

(* ---- indexing/fst_build.rs ---- *)
Record ientry := Entry { e_pos : nat; e_context : str; e_line : nat; e_column : nat; e_section : option str }.
(* 19-72; the words of at least two bytes *)
Definition header (l : str) : option str :=
  if starts_with [91%N] l && ends_with [93%N] l then Some (removelast (tl l)) else None.
Definition line_entries (u : unicode) (l : str) (start n : nat) (section : option str) : list (str * ientry) :=
  map (fun p => (lower u (fst p), Entry (start + snd p) l n (snd p) section)) (filter (fun p => 2 <=? blen (fst p)) (words_loop u l 0 None)).
Fixpoint fst_words (u : unicode) (ls : list str) (start n : nat) (section : option str) : list (str * ientry) :=
  match ls with
  | [] => []
  | l :: r =>
    let section := match header l with Some s => Some s | None => section end in
    line_entries u l start n section ++ fst_words u r (start + blen l + 1) (S n) section
  end.
(* fst.rs:16-31: the keys of position_map are the set *)
Definition fst_build (u : unicode) (t : str) : smap (list ientry) := group (fst_words u (lines t) 0 0 None).
(* fst.rs:65-81 *)
Definition in_scope (s : scope) (e : ientry) : bool :=
  match s with
  | All => true
  | Lines a b => (a <=? e_line e) && (e_line e <=? b)
  | Sections l => match e_section e with Some x => existsb (str_eqb x) l | None => false end
  | Within r => (r_start r <=? e_pos e) && (e_pos e <=? r_end r)
  end.
(* automaton::Subsequence on the UTF-8 bytes *)
Fixpoint subsequence (q s : list N) : bool :=
  match q with
  | [] => true
  | x :: q' =>
    (fix go (s : list N) := match s with [] => false | y :: r => if (x =? y)%N then subsequence q' r else go r end) s
  end.
Definition entry_hit (pattern : str) (e : ientry) : hit := Hit (e_pos e) (e_pos e + blen pattern) pattern (e_context e) (e_line e) (e_column e).
(* fst_search.rs:69-86 *)
Fixpoint push_entries (max : nat) (s : scope) (pattern : str) (l : list ientry) (acc : list hit) : list hit :=
  match l with
  | [] => acc
  | e :: r =>
    if in_scope s e then
      let acc := acc ++ [entry_hit pattern e] in
      if (0 <? max) && (max <=? List.length acc) then acc else push_entries max s pattern r acc
    else push_entries max s pattern r acc
  end.
(* 62-88: the stream gives the keys in order *)
Fixpoint stream_loop (max : nat) (s : scope) (pattern query : str) (m : smap (list ientry)) (acc : list hit) : list hit :=
  match m with
  | [] => acc
  | (k, l) :: r =>
    if subsequence (encode query) (encode k) then
      if (0 <? max) && (max <=? List.length acc) then acc else stream_loop max s pattern query r (push_entries max s pattern l acc)
    else stream_loop max s pattern query r acc
  end.
Definition fst_search (u : unicode) (m : smap (list ientry)) (pattern : str) (o : options) : list hit :=
  stream_loop (max_results o) (o_scope o) pattern (fold_case u o pattern) m [].
(* 94-113 *)
Fixpoint replace_each (sz : nat) (d : doc) (hits : list hit) (replacement : str) : out unit :=
  match hits with
  | [] => OOk d tt
  | h :: r => out_bind (doc_replace sz d (range_new (h_start h) (h_end h)) replacement) (fun d1 _ => replace_each sz d1 r replacement)
  end.
Definition start_ge (a b : hit) : bool := h_start b <=? h_start a.
Definition fst_find_replace (sz : nat) (u : unicode) (m : smap (list ientry)) (d : doc) (pattern replacement : str) (o : options) : out (list hit) :=
  let hits := fst_search u m pattern o in
  out_bind (replace_each sz d (stable_sort start_ge hits) replacement) (fun d1 _ => OOk d1 hits).

(* ---- indexing/linear.rs ---- *)
(* 79-94: the number of the word stands for its offset *)
Fixpoint number {A} (n : nat) (l : list A) : list (nat * A) := match l with [] => [] | x :: r => (n, x) :: number (S n) r end.
Definition line_words (u : unicode) (l : str) (start n : nat) : list (str * ientry) :=
  map (fun p => (lower u (snd p), Entry (start + fst p) l n (fst p) None)) (number 0 (words l)).
Fixpoint linear_words (u : unicode) (ls : list str) (start n : nat) : list (str * ientry) :=
  match ls with
  | [] => []
  | l :: r => line_words u l start n ++ linear_words u r (start + blen l + 1) (S n)
  end.
Definition linear_build (u : unicode) (t : str) : smap (list ientry) := group (linear_words u (lines t) 0 0).
(* 103-124: m is the map in the order of its iteration *)
Definition linear_search (u : unicode) (m : smap (list ientry)) (pattern : str) : list hit :=
  flat_map (fun p => if str_contains (lower u pattern) (fst p) then map (entry_hit pattern) (snd p) else []) m.
(* 126-141 *)
Definition linear_find_replace (sz : nat) (u : unicode) (m : smap (list ientry)) (d : doc) (pattern replacement : str) : out (list hit) :=
  let hits := linear_search u m pattern in
  out_bind (replace_each sz d hits replacement) (fun d1 _ => OOk d1 hits).
