(* What a cache promises, in terms of the history of calls. *)
From Verif Require Export CacheModel.

(* what was last stored under a key since the cache was last cleared *)
Fixpoint last_glyph {G} (k : glyph_key) (acc : option G) (ops : list (glyph_op G)) : option G :=
  match ops with
  | [] => acc
  | GInsert _ k' g :: r => last_glyph k (if glyph_key_eqb k k' then Some g else acc) r
  | GClear :: r => last_glyph k None r
  | _ :: r => last_glyph k acc r
  end.
Fixpoint last_text {T P} (k : text_key) (acc : option T) (ops : list (render_op T P)) : option T :=
  match ops with
  | [] => acc
  | StoreText _ k' t :: r => last_text k (if text_key_eqb k k' then Some t else acc) r
  | ClearCache :: r => last_text k None r
  | _ :: r => last_text k acc r
  end.
Fixpoint last_drawing {T P} (k : str) (acc : option (option P)) (ops : list (render_op T P)) : option (option P) :=
  match ops with
  | [] => acc
  | StoreDrawing _ k' p :: r => last_drawing k (if str_eqb k k' then Some p else acc) r
  | ClearCache :: r => last_drawing k None r
  | _ :: r => last_drawing k acc r
  end.
(* how many stores since the last clearing *)
Fixpoint glyph_stores {G} (acc : nat) (ops : list (glyph_op G)) : nat :=
  match ops with
  | [] => acc
  | GInsert _ _ _ :: r => glyph_stores (S acc) r
  | GClear :: r => glyph_stores 0 r
  | _ :: r => glyph_stores acc r
  end.
Fixpoint text_stores {T P} (acc : nat) (ops : list (render_op T P)) : nat :=
  match ops with
  | [] => acc
  | StoreText _ _ _ :: r => text_stores (S acc) r
  | ClearCache :: r => text_stores 0 r
  | _ :: r => text_stores acc r
  end.
Fixpoint drawing_stores {T P} (acc : nat) (ops : list (render_op T P)) : nat :=
  match ops with
  | [] => acc
  | StoreDrawing _ _ _ :: r => drawing_stores (S acc) r
  | ClearCache :: r => drawing_stores 0 r
  | _ :: r => drawing_stores acc r
  end.
(* calls and their results since the last clearing, counted *)
Definition counted {T P} (p : render_op T P -> render_out T P -> bool) : N -> list (render_op T P) -> list (render_out T P) -> N :=
  fix go acc ops outs :=
    match ops, outs with
    | ClearCache :: r, _ :: r' => go 0%N r r'
    | o :: r, x :: r' => go (if p o x then acc + 1 else acc)%N r r'
    | _, _ => acc
    end.
Definition text_hit {T P} (o : render_op T P) (x : render_out T P) : bool := match o, x with GetText _, OText (Some _) => true | _, _ => false end.
Definition text_miss {T P} (o : render_op T P) (x : render_out T P) : bool := match o, x with GetText _, OText None => true | _, _ => false end.
Definition drawing_hit {T P} (o : render_op T P) (x : render_out T P) : bool := match o, x with GetDrawing _, ODrawing (Some _) => true | _, _ => false end.
Definition drawing_miss {T P} (o : render_op T P) (x : render_out T P) : bool := match o, x with GetDrawing _, ODrawing None => true | _, _ => false end.
(* one store: the entry is there; nothing else changes unless the cache was
   full, and then at most one other entry is lost *)
Definition stored {K V} (get : K -> option V) (full : Prop) (k : K) (v : V) (get' : K -> option V) : Prop :=
  get' k = Some v /\
  ((~ full /\ forall k', k' <> k -> get' k' = get k') \/
   (full /\ exists victim, get victim <> None /\ (victim <> k -> get' victim = None) /\ forall k', k' <> k -> k' <> victim -> get' k' = get k')).
Definition glyph_lookup {G} (c : glyph_cache G) (k : glyph_key) : option G := match snd (glyph_step c (GGet k)) with OGlyph r => r | _ => None end.
Definition text_lookup {T P} (c : render_cache T P) (k : text_key) : option T := match snd (render_step c (GetText k)) with OText r => r | _ => None end.
Definition drawing_lookup {T P} (c : render_cache T P) (k : str) : option (option P) := match snd (render_step c (GetDrawing k)) with ODrawing r => r | _ => None end.
