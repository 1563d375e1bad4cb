(* Model of the caches of ass-renderer: src/utils/caches.rs:11-84 (GlyphCache)
   and src/cache/mod.rs (RenderCache).  A hash map is a list of entries without
   a repeated key.  keys().next() names an arbitrary entry: every operation that
   needs one carries the position it happens to find, so that theorems about all
   histories cover all hash orders.  Glyphs, shaped texts and paths are opaque. *)
From Verif Require Export Base.

Definition hmap (K V : Type) := list (K * V).
Fixpoint hm_get {K V} (eqb : K -> K -> bool) (k : K) (m : hmap K V) : option V :=
  match m with
  | [] => None
  | (k', v) :: r => if eqb k k' then Some v else hm_get eqb k r
  end.
Fixpoint hm_remove {K V} (eqb : K -> K -> bool) (k : K) (m : hmap K V) : hmap K V :=
  match m with
  | [] => []
  | (k', v) :: r => if eqb k k' then r else (k', v) :: hm_remove eqb k r
  end.
Fixpoint hm_insert {K V} (eqb : K -> K -> bool) (k : K) (v : V) (m : hmap K V) : hmap K V :=
  match m with
  | [] => [(k, v)]
  | (k', v') :: r => if eqb k k' then (k, v) :: r else (k', v') :: hm_insert eqb k v r
  end.
(* keys().next() *)
Definition some_key {K V} (n : nat) (m : hmap K V) : option K := option_map fst (nth_error m (n mod List.length m)).

(* utils/caches.rs:60-68, cache/mod.rs:104-113 and 131-138: the new map, and
   whether an entry was removed *)
Definition make_room {K V} (eqb : K -> K -> bool) (limit n : nat) (m : hmap K V) : hmap K V * bool :=
  if limit <=? List.length m then
    match some_key n m with Some k => (hm_remove eqb k m, true) | None => (m, false) end
  else (m, false).
Definition store {K V} (eqb : K -> K -> bool) (limit n : nat) (k : K) (v : V) (m : hmap K V) : hmap K V * bool :=
  let '(m', gone) := make_room eqb limit n m in (hm_insert eqb k v m', gone).

(* ---- utils/caches.rs ---- *)
(* 18-27; derived equality *)
Record glyph_key := GlyphKey { gk_family : str; gk_id : N; gk_size : N; gk_flags : N }.
Definition glyph_key_eqb (a b : glyph_key) : bool :=
  str_eqb (gk_family a) (gk_family b) && (gk_id a =? gk_id b)%N && (gk_size a =? gk_size b)%N && (gk_flags a =? gk_flags b)%N.
(* 11-14 *)
Record glyph_cache (G : Type) := GlyphCache { gc_map : hmap glyph_key G; gc_max : nat }.
Arguments GlyphCache {G} gc_map gc_max.
Arguments gc_map {G} g.
Arguments gc_max {G} g.
Inductive glyph_op (G : Type) := GGet (k : glyph_key) | GInsert (n : nat) (k : glyph_key) (g : G) | GClear | GLen.
Arguments GGet {G} k.
Arguments GInsert {G} n k g.
Arguments GClear {G}.
Arguments GLen {G}.
Inductive glyph_out (G : Type) := OGlyph (g : option G) | OLen (n : nat) | ODone.
Arguments OGlyph {G} g.
Arguments OLen {G} n.
Arguments ODone {G}.
(* 47-83 *)
Definition glyph_step {G} (c : glyph_cache G) (o : glyph_op G) : glyph_cache G * glyph_out G :=
  match o with
  | GGet k => (c, OGlyph (hm_get glyph_key_eqb k (gc_map c)))
  | GInsert n k g => (GlyphCache (fst (store glyph_key_eqb (gc_max c) n k g (gc_map c))) (gc_max c), ODone)
  | GClear => (GlyphCache [] (gc_max c), ODone)
  | GLen => (c, OLen (List.length (gc_map c)))
  end.
Fixpoint glyph_run {G} (c : glyph_cache G) (ops : list (glyph_op G)) : glyph_cache G * list (glyph_out G) :=
  match ops with
  | [] => (c, [])
  | o :: r => let '(c', x) := glyph_step c o in let '(c'', l) := glyph_run c' r in (c'', x :: l)
  end.

(* ---- cache/mod.rs ---- *)
(* 18-29 *)
Record text_key := TextKey { tk_text : str; tk_family : str; tk_size : N; tk_bold : bool; tk_italic : bool }.
Definition text_key_eqb (a b : text_key) : bool :=
  str_eqb (tk_text a) (tk_text b) && str_eqb (tk_family a) (tk_family b) && (tk_size a =? tk_size b)%N && Bool.eqb (tk_bold a) (tk_bold b) && Bool.eqb (tk_italic a) (tk_italic b).
(* 54-65; counters do not overflow 64 bits *)
Record cache_stats := Stats { st_text_hits : N; st_text_misses : N; st_drawing_hits : N; st_drawing_misses : N; st_evictions : N }.
Definition no_stats : cache_stats := Stats 0 0 0 0 0.
(* 39-50; a drawing's key is its command text *)
Record render_cache (T P : Type) := RenderCache {
  rc_text : hmap text_key T; rc_max_text : nat; rc_drawing : hmap str (option P); rc_max_drawing : nat; rc_stats : cache_stats }.
Arguments RenderCache {T P}.
Arguments rc_text {T P}.
Arguments rc_max_text {T P}.
Arguments rc_drawing {T P}.
Arguments rc_max_drawing {T P}.
Arguments rc_stats {T P}.
(* 69-88 *)
Definition with_limits {T P} (max_text max_drawing : nat) : render_cache T P := RenderCache [] max_text [] max_drawing no_stats.
Definition new_cache {T P} : render_cache T P := with_limits (N.to_nat 1000) (N.to_nat 500).
Inductive render_op (T P : Type) :=
  | GetText (k : text_key) | StoreText (n : nat) (k : text_key) (t : T)
  | GetDrawing (k : str) | StoreDrawing (n : nat) (k : str) (p : option P)
  | ClearCache.
Arguments GetText {T P} k.
Arguments StoreText {T P} n k t.
Arguments GetDrawing {T P} k.
Arguments StoreDrawing {T P} n k p.
Arguments ClearCache {T P}.
Inductive render_out (T P : Type) := OText (t : option T) | ODrawing (p : option (option P)) | ONone.
Arguments OText {T P} t.
Arguments ODrawing {T P} p.
Arguments ONone {T P}.
Definition evicted (gone : bool) (s : cache_stats) : cache_stats :=
  if gone then Stats (st_text_hits s) (st_text_misses s) (st_drawing_hits s) (st_drawing_misses s) (st_evictions s + 1) else s.
Definition found_text (hit : bool) (s : cache_stats) : cache_stats :=
  if hit then Stats (st_text_hits s + 1) (st_text_misses s) (st_drawing_hits s) (st_drawing_misses s) (st_evictions s)
  else Stats (st_text_hits s) (st_text_misses s + 1) (st_drawing_hits s) (st_drawing_misses s) (st_evictions s).
Definition found_drawing (hit : bool) (s : cache_stats) : cache_stats :=
  if hit then Stats (st_text_hits s) (st_text_misses s) (st_drawing_hits s + 1) (st_drawing_misses s) (st_evictions s)
  else Stats (st_text_hits s) (st_text_misses s) (st_drawing_hits s) (st_drawing_misses s + 1) (st_evictions s).
Definition is_some {A} (o : option A) : bool := match o with Some _ => true | None => false end.
(* 91-146 *)
Definition render_step {T P} (c : render_cache T P) (o : render_op T P) : render_cache T P * render_out T P :=
  match o with
  | GetText k =>
    let r := hm_get text_key_eqb k (rc_text c) in
    (RenderCache (rc_text c) (rc_max_text c) (rc_drawing c) (rc_max_drawing c) (found_text (is_some r) (rc_stats c)), OText r)
  | StoreText n k t =>
    let '(m, gone) := store text_key_eqb (rc_max_text c) n k t (rc_text c) in
    (RenderCache m (rc_max_text c) (rc_drawing c) (rc_max_drawing c) (evicted gone (rc_stats c)), OText (Some t))
  | GetDrawing k =>
    let r := hm_get str_eqb k (rc_drawing c) in
    (RenderCache (rc_text c) (rc_max_text c) (rc_drawing c) (rc_max_drawing c) (found_drawing (is_some r) (rc_stats c)), ODrawing r)
  | StoreDrawing n k p =>
    let '(m, gone) := store str_eqb (rc_max_drawing c) n k p (rc_drawing c) in
    (RenderCache (rc_text c) (rc_max_text c) m (rc_max_drawing c) (evicted gone (rc_stats c)), ONone)
  | ClearCache => (RenderCache [] (rc_max_text c) [] (rc_max_drawing c) no_stats, ONone)
  end.
Fixpoint render_run {T P} (c : render_cache T P) (ops : list (render_op T P)) : render_cache T P * list (render_out T P) :=
  match ops with
  | [] => (c, [])
  | o :: r => let '(c', x) := render_step c o in let '(c'', l) := render_run c' r in (c'', x :: l)
  end.
