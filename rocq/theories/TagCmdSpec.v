(* What the tag commands do to a text, in terms of its plain characters and
   the pieces of its override blocks (TagSpec). *)
From Verif Require Import Base TagSpec DocModel.

(* A text: plain characters and closed blocks, then possibly an open block. *)
Inductive part := Plain (c : char) | Blk (ps : list piece).
Definition part_text (p : part) : str := match p with Plain c => [c] | Blk ps => 123%N :: pieces_text ps ++ [125%N] end.
Definition tail_text (t : option (list piece)) : str := match t with None => [] | Some ps => 123%N :: pieces_text ps end.
Definition whole (l : list part) (t : option (list piece)) : str := flat_map part_text l ++ tail_text t.
(* braces inside a block are paired, and an open block is never closed *)
Definition unclosed (x : str) : Prop := forall p q, x = p ++ q -> (0 <= braces p)%Z.
Definition part_ok (p : part) : Prop :=
  match p with
  | Plain c => c <> 123%N
  | Blk ps => pieces_ok ps /\ unclosed (pieces_text ps) /\ braces (pieces_text ps) = 0%Z
  end.
Definition tail_ok (t : option (list piece)) : Prop :=
  match t with None => True | Some ps => pieces_ok ps /\ unclosed (pieces_text ps) end.

(* The tags of a block. *)
Definition piece_tag (p : piece) : list (str * str) := match p with PTag n a => [(n, a)] | _ => [] end.
Definition tags_in (ps : list piece) : list (str * str) := flat_map piece_tag ps.
Definition written (t : str * str) : str := 92%N :: fst t ++ snd t.
Definition prefixed (p s : str) : bool := str_eqb (firstn (List.length p) s) p.
Definition blocks (l : list part) (t : option (list piece)) : list (list piece) :=
  flat_map (fun p => match p with Plain _ => [] | Blk ps => [ps] end) l ++ match t with None => [] | Some ps => [ps] end.
Definition visible_chars (l : list part) : str := flat_map (fun p => match p with Plain c => [c] | Blk _ => [] end) l.

(* Removal: with a pattern (a backslash and a word), the tags whose name does
   not start with the word are kept. *)
Definition kept (pattern : option str) (ps : list piece) : str :=
  match pattern with
  | None => []
  | Some p => flat_map written (filter (fun t => negb (prefixed (skipn 1 p) (fst t))) (tags_in ps))
  end.
Definition embraced (clean : bool) (x : str) : str := match x with [] => if clean then [] else [123; 125]%N | _ => 123%N :: x ++ [125%N] end.
Definition removed (pattern : option str) (clean : bool) (l : list part) (t : option (list piece)) : str :=
  flat_map (fun p => match p with Plain c => [c] | Blk ps => embraced clean (kept pattern ps) end) l ++
  match t with None => [] | Some ps => embraced clean (kept pattern ps) end.
(* Blocks that cannot be processed. *)
Definition no_word (p : str) : Prop := match p with [] => True | c :: _ => (128 <= c)%N end.
Definition remove_panics (pattern : option str) (ps : list piece) : Prop :=
  match pattern with None => False | Some p => Exists splits_char ps \/ (no_word p /\ tags_in ps <> []) end.

(* Replacement: the beginning of a tag is exchanged, in every tag or in the
   first one that has it. *)
Fixpoint replaced_tags (find new : str) (all : bool) (made : nat) (l : list (str * str)) : str * nat :=
  match l with
  | [] => ([], made)
  | t :: r =>
    if prefixed find (written t) && (all || (made =? 0))
    then let (s, n) := replaced_tags find new all (S made) r in (new ++ skipn (List.length find) (written t) ++ s, n)
    else let (s, n) := replaced_tags find new all made r in (written t ++ s, n)
  end.
Fixpoint replaced (find new : str) (all : bool) (made : nat) (l : list part) : str :=
  match l with
  | [] => []
  | Plain c :: r => c :: replaced find new all made r
  | Blk ps :: r =>
    if negb all && (0 <? made) then 123%N :: pieces_text ps ++ 125%N :: replaced find new all made r
    else let (s, n) := replaced_tags find new all made (tags_in ps) in 123%N :: s ++ 125%N :: replaced find new all n r
  end.
(* Blocks made of tags only. *)
Definition only_tags (ps : list piece) : Prop := Forall (fun p => exists n a, p = PTag n a) ps.

(* Listing: every tag with the offset of its backslash in the text. *)
Fixpoint tags_at (o : nat) (ps : list piece) : list (nat * (str * str)) :=
  match ps with
  | [] => []
  | p :: r => map (fun t => (o, t)) (piece_tag p) ++ tags_at (o + blen (piece_text p)) r
  end.
Fixpoint listed (o : nat) (l : list part) (t : option (list piece)) : list (nat * (str * str)) :=
  match l with
  | [] => match t with None => [] | Some ps => tags_at (o + 1) ps end
  | Plain c :: r => listed (o + len_utf8 c) r t
  | Blk ps :: r => tags_at (o + 1) ps ++ listed (o + blen (part_text (Blk ps))) r t
  end.
(* Parameters between parentheses. *)
Definition parenthesised (a inner : str) : Prop := a = 40%N :: inner ++ [41%N].
