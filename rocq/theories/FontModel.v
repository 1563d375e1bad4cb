(* ass-renderer/src/pipeline/shaping/font_select.rs and font_loader.rs: which
   face a run of text is set in.  fontdb and ttf-parser are parameters: a
   database has its faces in order, each readable or not, and answers queries;
   a face knows which characters it has glyphs for. *)
From Verif Require Import Base.

Definition contains (p s : str) : bool := match find_str p s with Some _ => true | None => false end.

(* fontdb::Family, as far as it is used *)
Inductive family := Name (s : str) | SansSerif | Serif.
(* a face: its id, and the characters it has glyphs for, or None when its file cannot be read or parsed *)
Record face := Fc { f_id : N; f_glyphs : option (N -> bool) }.
Record database := Db { faces : list face; query : list family -> bool -> bool -> option N }.

Inductive error := NoFont | NoData | Unreadable.
Inductive result (A : Type) := Okay (a : A) | Err (e : error).
Arguments Okay {A} a. Arguments Err {A} e.
Notation "'ok' x <- e ; f" := (match e with Okay x => f | Err z => Err z end) (at level 200, x pattern, e at level 100, f at level 200, right associativity).

(* font_select.rs 39-45 *)
Definition is_japanese (family : str) : bool :=
  contains (lit "CJK") family || contains (lit "Noto Sans JP") family || contains (lit "Hiragino") family
  || contains (lit "Yu Gothic") family || contains (lit "MS Gothic") family || contains (lit "Meiryo") family.
(* 48-57 *)
Definition japanese_fallbacks : list str :=
  map lit ["Hiragino Sans"; "Hiragino Kaku Gothic Pro"; "Yu Gothic"; "MS Gothic"; "Meiryo"; "Noto Sans CJK JP"; "Noto Sans JP"]%string.
(* 59-79: the first name that is found *)
Fixpoint first_named (db : database) (bold italic : bool) (l : list str) : option N :=
  match l with
  | [] => None
  | n :: r => match query db [Name n] bold italic with Some i => Some i | None => first_named db bold italic r end
  end.
(* 13-112 *)
Definition find_font (db : database) (fam : str) (bold italic : bool) : result N :=
  match query db [Name fam; SansSerif] bold italic with
  | Some i => Okay i
  | None =>
    match (if is_japanese fam then first_named db bold italic japanese_fallbacks else None) with
    | Some i => Okay i
    | None =>
      match query db [SansSerif; Serif] bold italic with
      | Some i => Okay i
      | None => match faces db with f :: _ => Okay (f_id f) | [] => Err NoFont end
      end
    end
  end.

Definition between (lo hi u : N) : bool := (lo <=? u)%N && (u <=? hi)%N.
(* 115-130 *)
Definition cjk_char (u : N) : bool :=
  between 19968 40959 u || between 13312 19903 u || between 131072 173791 u
  || between 44032 55215 u || between 4352 4607 u || between 12352 12543 u.
Definition text_has_cjk_or_hangul (text : str) : bool := existsb cjk_char text.

(* Database::face_source *)
Fixpoint face_of (l : list face) (i : N) : option face :=
  match l with [] => None | f :: r => if (f_id f =? i)%N then Some f else face_of r i end.
(* 133-171 *)
Fixpoint count_glyphs (g : N -> bool) (text : str) (count : N) : N :=
  match text with [] => count | c :: r => count_glyphs g r (if g c then count + 1 else count)%N end.
Definition font_support_count (db : database) (i : N) (text : str) : result N :=
  match face_of (faces db) i with
  | None => Err NoData
  | Some f => match f_glyphs f with None => Err Unreadable | Some g => Okay (count_glyphs g text 0) end
  end.

(* 191-229 *)
Definition curated_lists : list (list str) :=
  [map lit ["Noto Sans CJK SC"; "Noto Sans SC"; "Source Han Sans CN"; "PingFang SC"; "Microsoft YaHei"; "SimHei"; "SimSun"]%string;
   map lit ["Noto Sans CJK TC"; "Noto Sans TC"; "Source Han Sans TW"; "PingFang TC"; "Heiti TC"]%string;
   map lit ["Noto Sans CJK JP"; "Noto Sans JP"; "Hiragino Sans"; "Hiragino Kaku Gothic Pro"; "Yu Gothic"; "MS Gothic"; "Meiryo"]%string;
   map lit ["Noto Sans CJK KR"; "Noto Sans KR"; "Apple SD Gothic Neo"; "Malgun Gothic"]%string;
   map lit ["Source Han Sans"; "Noto Sans CJK"]%string].
(* 234-264, one list: the face that covers everything, or the best so far *)
Fixpoint try_list (db : database) (bold italic : bool) (text : str) (len : N) (l : list str) (best : option N) (support : N) : result (N + option N * N) :=
  match l with
  | [] => Okay (inr (best, support))
  | n :: r =>
    match query db [Name n] bold italic with
    | None => try_list db bold italic text len r best support
    | Some i =>
      ok s <- font_support_count db i text;
      if (s =? len)%N then Okay (inl i) else
      if (support <? s)%N then try_list db bold italic text len r (Some i) s else try_list db bold italic text len r best support
    end
  end.
Fixpoint try_lists (db : database) (bold italic : bool) (text : str) (len : N) (ls : list (list str)) (best : option N) (support : N) : result (N + option N * N) :=
  match ls with
  | [] => Okay (inr (best, support))
  | l :: r =>
    ok x <- try_list db bold italic text len l best support;
    match x with inl i => Okay (inl i) | inr (b, s) => try_lists db bold italic text len r b s end
  end.
(* 272-291 *)
Fixpoint scan (db : database) (text : str) (len primary : N) (l : list face) (best support : N) : result N :=
  match l with
  | [] => Okay best
  | f :: r =>
    if (f_id f =? primary)%N then scan db text len primary r best support else
    ok s <- font_support_count db (f_id f) text;
    if (support <? s)%N then if (s =? len)%N then Okay (f_id f) else scan db text len primary r (f_id f) s
    else scan db text len primary r best support
  end.
(* 174-294 *)
Definition find_font_for_text (db : database) (fam : str) (bold italic : bool) (text : str) : result N :=
  ok primary <- find_font db fam bold italic;
  ok support <- font_support_count db primary text;
  let len := N.max (N.of_nat (List.length text)) 1 in
  if (support =? len)%N then Okay primary else
  ok curated <- (if text_has_cjk_or_hangul text then try_lists db bold italic text len curated_lists None support else Okay (inr (None, support)));
  match curated with
  | inl i => Okay i
  | inr (Some i, _) => Okay i
  | inr (None, _) => scan db text len primary (faces db) primary support
  end.
