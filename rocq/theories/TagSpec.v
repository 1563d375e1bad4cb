(* What override blocks, event text and scores mean, without reference to the
   scanning code.  Positions are byte offsets. *)
From Verif Require Export Base TagModel NumSpec.

(* ---- override blocks ---- *)
(* A block is a sequence of pieces: ordinary characters, tags, and backslashes
   that start no tag (with the character after them, if any). *)
Inductive piece := PChar (c : char) | PTag (name args : str) | PBad (d : option char).
Definition piece_text (p : piece) : str :=
  match p with
  | PChar c => [c]
  | PTag n a => 92%N :: n ++ a
  | PBad None => [92%N]
  | PBad (Some d) => [92%N; d]
  end.
Definition pieces_text (ps : list piece) : str := flat_map piece_text ps.

Definition letter (c : char) : Prop := (65 <= c <= 90 \/ 97 <= c <= 122)%N.
Definition digit (c : char) : Prop := (48 <= c <= 57)%N.
Definition starts (P : char -> Prop) (s : str) : Prop := exists c r, s = c :: r /\ P c.
(* a tag name: at most one digit, then letters; reading stops after "r" and
   "fn", otherwise at the first character that cannot continue the name *)
Definition name_shape (n : str) : Prop := n <> [] /\ exists d w, n = d ++ w /\ (d = [] \/ exists c, d = [c] /\ digit c) /\ Forall letter w.
Definition stops (n : str) : Prop := n = lit "r" \/ n = lit "fn".
Definition name_of (n after : str) : Prop :=
  name_shape n /\ (forall p q, n = p ++ q -> q <> [] -> ~ stops p) /\ (stops n \/ ~ starts letter after).
(* arguments run to the next backslash, except that \t( ... ) runs to its
   matching parenthesis *)
Fixpoint parens (s : str) : Z :=
  match s with
  | [] => 0%Z
  | c :: r => ((if (c =? 40)%N then 1 else if (c =? 41)%N then -1 else 0) + parens r)%Z
  end.
Definition open_throughout (s : str) : Prop := forall p q, s = p ++ q -> p <> [] -> (0 < parens p)%Z.
Definition closes (s : str) : Prop := s <> [] /\ parens s = 0%Z /\ forall p q, s = p ++ q -> p <> [] -> q <> [] -> (0 < parens p)%Z.
Definition args_of (n a after : str) : Prop :=
  (n = lit "t" /\ starts (eq 40%N) (a ++ after) /\ (closes a \/ open_throughout a /\ after = [])) \/
  (~ (n = lit "t" /\ starts (eq 40%N) (a ++ after)) /\ ~ In 92%N a /\ (after = [] \/ starts (eq 92%N) after)).
Definition piece_ok (p : piece) (after : str) : Prop :=
  match p with
  | PChar c => c <> 92%N
  | PTag n a => name_of n (a ++ after) /\ args_of n a after
  | PBad None => after = []
  | PBad (Some d) => ~ letter d /\ ~ digit d
  end.
Fixpoint pieces_ok (ps : list piece) : Prop :=
  match ps with
  | [] => True
  | p :: r => piece_ok p (pieces_text r) /\ pieces_ok r
  end.

(* what is reported: every tag with the offset of its backslash, every
   backslash without a tag *)
Definition complexity_table : list (str * N) :=
  [(lit "b", 1); (lit "i", 1); (lit "u", 1); (lit "s", 1); (lit "c", 1); (lit "1c", 1); (lit "2c", 1); (lit "3c", 1); (lit "4c", 1);
   (lit "alpha", 1); (lit "1a", 1); (lit "2a", 1); (lit "3a", 1); (lit "4a", 1); (lit "fn", 1); (lit "fs", 1);
   (lit "move", 3); (lit "fad", 3); (lit "fade", 3); (lit "frx", 3); (lit "fry", 3); (lit "frz", 3); (lit "fscx", 3); (lit "fscy", 3);
   (lit "fsp", 3); (lit "clip", 3); (lit "iclip", 3); (lit "t", 4); (lit "pbo", 4); (lit "p", 5)]%N.
Definition score_table : list (str * N) :=
  [(lit "b", 1); (lit "i", 1); (lit "u", 1); (lit "s", 1); (lit "c", 1); (lit "1c", 1); (lit "2c", 1); (lit "3c", 1); (lit "4c", 1);
   (lit "alpha", 1); (lit "1a", 1); (lit "2a", 1); (lit "3a", 1); (lit "4a", 1); (lit "frx", 3); (lit "fry", 3); (lit "frz", 3);
   (lit "fscx", 3); (lit "fscy", 3); (lit "fsp", 3); (lit "fad", 3); (lit "fade", 3); (lit "clip", 3); (lit "iclip", 3);
   (lit "move", 4); (lit "t", 5); (lit "pbo", 5); (lit "p", 8)]%N.
Definition valued (table : list (str * N)) (n : str) (v : N) : Prop :=
  In (n, v) table \/ (v = 2%N /\ forall w, ~ In (n, w) table).

Inductive reported : nat -> list piece -> list tag -> list tag_diag -> Prop :=
| rep_nil o : reported o [] [] []
| rep_char o c r ts ds : reported (o + len_utf8 c) r ts ds -> reported o (PChar c :: r) ts ds
| rep_tag o n a v r ts ds : valued complexity_table n v -> reported (o + blen (piece_text (PTag n a))) r ts ds ->
    reported o (PTag n a :: r) (Tag n a v o :: ts) ds
| rep_bad o d r ts ds : reported (o + blen (piece_text (PBad d))) r ts ds ->
    reported o (PBad d :: r) ts (Diag (piece_text (PBad d)) o EmptyOverride :: ds).
(* a backslash directly before a character of several bytes, where no tag can start *)
Definition splits_char (p : piece) : Prop := match p with PBad (Some d) => (128 <= d)%N | _ => False end.

(* ---- event text ---- *)
Inductive seg := Chr (c : char) | Esc (d : char) | Block (x : str).
Definition seg_text (s : seg) : str := match s with Chr c => [c] | Esc d => [92%N; d] | Block x => 123%N :: x ++ [125%N] end.
Inductive ending := EndText | EndSlash | EndOpen (x : str).
Definition ending_text (e : ending) : str := match e with EndText => [] | EndSlash => [92%N] | EndOpen x => 123%N :: x end.
Definition event_text (l : list seg) (e : ending) : str := flat_map seg_text l ++ ending_text e.
Fixpoint braces (s : str) : Z :=
  match s with
  | [] => 0%Z
  | c :: r => ((if (c =? 123)%N then 1 else if (c =? 125)%N then -1 else 0) + braces r)%Z
  end.
(* inside one block: never closed, and at most 99 levels deeper *)
Definition inside (x : str) : Prop := forall p q, x = p ++ q -> (0 <= braces p <= 99)%Z.
Definition seg_ok (s : seg) : Prop :=
  match s with
  | Chr c => c <> 123%N /\ c <> 92%N
  | Esc _ => True
  | Block x => inside x /\ braces x = 0%Z
  end.
Definition ending_ok (e : ending) : Prop := match e with EndOpen x => inside x | _ => True end.

(* the drawing mode after a block: decided by the last \p with a number *)
Definition numeral_char (c : char) : Prop := digit c \/ c = 45%N.
(* s is the decimal numeral of the 32-bit integer z *)
Definition i32_numeral (s : str) (z : Z) : Prop :=
  (-2147483648 <= z <= 2147483647)%Z /\
  exists ds, ds <> [] /\ Forall digit ds /\ (s = ds /\ z = Z.of_N (dec_value ds) \/ s = 45%N :: ds /\ z = (- Z.of_N (dec_value ds))%Z).
(* x = u ++ "\p" ++ n ++ v where n is the whole run of digits and dashes *)
Definition p_tag (x u n v : str) : Prop :=
  x = u ++ [92%N; 112%N] ++ n ++ v /\ Forall numeral_char n /\ ~ starts numeral_char v.
Definition drawing_after (x : str) (before after : bool) : Prop :=
  (exists u n v z, p_tag x u n v /\ i32_numeral n z /\ after = (0 <? z)%Z /\
     forall u' n' v' z', p_tag x u' n' v' -> i32_numeral n' z' -> List.length u' <= List.length u) \/
  (after = before /\ forall u n v z, p_tag x u n v -> ~ i32_numeral n z).

(* what a segment shows outside and inside drawing mode *)
Definition shown (mode : bool) (s : seg) : str :=
  if mode then [] else
  match s with
  | Chr c => [c]
  | Esc d => if (d =? 110)%N || (d =? 78)%N then [10%N] else if (d =? 104)%N then [160%N] else [92%N; d]
  | Block _ => []
  end.
(* the visible text, drawing mode by drawing mode *)
Inductive visible : bool -> list seg -> str -> bool -> Prop :=
| vis_nil m : visible m [] [] m
| vis_block m m' m'' x r t : x <> [] -> drawing_after x m m' -> visible m' r t m'' -> visible m (Block x :: r) t m''
| vis_empty m m' r t : visible m r t m' -> visible m (Block [] :: r) t m'
| vis_other m m' s r t : (forall x, s <> Block x) -> visible m r t m' -> visible m (s :: r) (shown m s ++ t) m'.
(* the tags of all blocks with their offsets in the event text *)
Inductive tagged : nat -> list seg -> list tag -> list tag_diag -> Prop :=
| tgd_nil o : tagged o [] [] []
| tgd_block o x ps r ts ds ts' ds' : x <> [] -> x = pieces_text ps -> pieces_ok ps -> reported (o + 1) ps ts ds ->
    tagged (o + blen (seg_text (Block x))) r ts' ds' -> tagged o (Block x :: r) (ts ++ ts') (ds ++ ds')
| tgd_empty o r ts ds : tagged (o + 2) r ts ds -> tagged o (Block [] :: r) ts (Diag (lit "}") (o + 1) EmptyOverride :: ds)
| tgd_other o s r ts ds : (forall x, s <> Block x) -> tagged (o + blen (seg_text s)) r ts ds -> tagged o (s :: r) ts ds.
(* an unclosed block at the end of the text, read without its last character *)
Inductive tagged_end : nat -> ending -> list tag -> list tag_diag -> Prop :=
| tge_text o : tagged_end o EndText [] []
| tge_slash o : tagged_end o EndSlash [] []
| tge_one o c : (c < 128)%N -> tagged_end o (EndOpen [c]) [] [Diag [c] (o + 1) EmptyOverride]
| tge_open o x c ps ts ds : (c < 128)%N -> x <> [] -> x = pieces_text ps -> pieces_ok ps -> reported (o + 1) ps ts ds -> tagged_end o (EndOpen (x ++ [c])) ts ds.
(* the unclosed blocks that make the analysis panic *)
Definition open_ok (x : str) : Prop := exists x' c, x = x' ++ [c] /\ (c < 128)%N.
(* braces nested more than 100 deep *)
Definition too_deep (tail : str) : Prop := exists x y, tail = 123%N :: x ++ 123%N :: y /\ inside x /\ braces x = 99%Z.
(* no block has a backslash directly before a multi-byte character where no tag starts *)
Definition safe_block (x : str) : Prop := forall ps, x = pieces_text ps -> pieces_ok ps -> Forall (fun p => ~ splits_char p) ps.
Definition safe_end (e : ending) : Prop := match e with EndOpen x => open_ok x /\ safe_block (removelast x) | _ => True end.
Definition safe_seg (s : seg) : Prop := match s with Block x => safe_block x | _ => True end.

(* number of displayed lines as documented by the counting rule *)
Definition newlines_in (t : str) : nat := count_occ N.eq_dec t 10%N.

(* ---- line breaks ---- *)
(* the text made from a segment when only escapes are handled *)
Definition broken (drawing : bool) (s : seg) : str :=
  match s with
  | Chr c => [c]
  | Esc d => if (d =? 110)%N || (d =? 78)%N then (if drawing then [] else [10%N]) else if (d =? 104)%N then (if drawing then [] else [160%N]) else [92%N; d]
  | Block x => 123%N :: x ++ [125%N]
  end.
Definition line_seg (s : seg) : Prop := match s with Chr c => c <> 92%N | Esc _ => True | Block _ => False end.
Definition line_text (l : list seg) (slash : bool) : str := flat_map seg_text l ++ (if slash then [92%N] else []).
Definition total_score (ts : list tag) (n : N) : Prop := exists vs, Forall2 (fun t v => valued score_table (tg_name t) v) ts vs /\ n = fold_right N.add 0%N vs.
(* which escapes make which breaks *)
Definition brk_of (drawing : bool) (s : seg) : option break_type :=
  match s with Esc d => if drawing then None else if (d =? 78)%N then Some Hard else if (d =? 110)%N then Some Soft else None | _ => None end.
Definition nb_of (drawing : bool) (s : seg) : bool := match s with Esc d => negb drawing && (d =? 104)%N | _ => false end.
Definition rank (i : impact) : nat := match i with Minimal => 0 | Low => 1 | Medium => 2 | High => 3 | Critical => 4 end.
(* a plugin's verdict may add diagnostics, nothing else differs *)
Definition where_what (t : tag) : str * str * nat := (tg_name t, tg_args t, tg_pos t).
Definition is_empty_diag (d : tag_diag) : bool := match dg_kind d with EmptyOverride => true | MalformedTag => false end.
Definition agree (plain plug : run (list tag * list tag_diag)) : Prop :=
  match plain, plug with
  | Done (t1, d1), Done (t2, d2) => map where_what t1 = map where_what t2 /\ d1 = filter is_empty_diag d2
  | Crash, Crash => True
  | Stuck, Stuck => True
  | _, _ => False
  end.

(* points earned by exceeding thresholds: every threshold passed adds its points *)
Definition points_above (table : list (N * N)) (n : N) : N :=
  fold_right N.add 0%N (map snd (filter (fun tp => (fst tp <? n)%N) table)).
(* characters past 50, 200, 500 and 1000; tags past 0, 5, 15 and 30 *)
Definition length_points : list (N * N) := [(50, 5); (200, 10); (500, 15); (1000, 20)]%N.
Definition tag_points : list (N * N) := [(0, 5); (5, 10); (15, 10); (30, 10)]%N.
