(* ass-renderer/src/pipeline/shaping/{shape,glyph_renderer,font_metrics,mod}.rs:
   shaping a run of text, the thread's two caches, and the glyph outlines with
   theirs.  fontdb, ttf-parser, rustybuzz and tiny-skia are parameters: a
   database finds a font for a text and says where its data lies, data parses
   into a face, a face shapes a text and has boxes and outlines.  rustybuzz
   parses with ttf-parser, so both parses of shape.rs are one.  A font size is
   the 32 bits of the float it is; [value] reads them. *)
From Verif Require Import Base FloatModel.
Local Open Scope Z_scope.

(* what rustybuzz reports for one glyph: id, cluster, offset and advance in font units *)
Record placed := Pl { p_id : N; p_cluster : N; p_xo : Z; p_yo : Z; p_xa : Z; p_ya : Z }.
(* ttf_parser::OutlineBuilder's calls, in font units *)
Inductive segment := MoveTo (x y : float) | LineTo (x y : float) | QuadTo (x1 y1 x y : float) | CurveTo (x1 y1 x2 y2 x y : float) | Close.
Record face := Fa {
  f_em : N;                               (* units_per_em *)
  f_os2 : option (Z * Z);                 (* windows ascender and descender, i16 *)
  f_asc : Z; f_desc : Z; f_gap : Z;       (* hhea, i16 *)
  f_box : N -> option (Z * Z);            (* glyph_bounding_box: x_min and x_max, i16 *)
  f_lines : N -> list segment;            (* outline_glyph *)
  f_shape : str -> list placed            (* rustybuzz::shape *)
}.
(* font_metrics.rs 6-18 *)
Record metrics := Me { me_asc : float; me_desc : float; me_gap : float; me_em : float; me_os2 : bool }.
(* 25-60; abs of the least i16 overflows *)
Definition from_face (f : face) : option metrics :=
  let em := f_of_N f32 (f_em f) in
  let plain := Some (Me (f_of_Z f32 (f_asc f)) (f_of_Z f32 (f_desc f)) (f_of_Z f32 (f_gap f)) em false) in
  match f_os2 f with
  | Some (wa, wd) =>
    if wa =? 0 then plain
    else if (wa =? -32768) || (wd =? -32768) then None
    else Some (Me (f_of_Z f32 (Z.abs wa)) (f_opp (f_of_Z f32 (Z.abs wd))) (Fin 0) em true)
  | None => plain
  end.
(* 71-76 *)
Definition baseline (m : metrics) (size : float) : float := f_mul f32 (me_asc m) (f_div f32 size (me_em m)).

(* shaping/mod.rs 20-62 *)
Record glyph := Gl { g_id : N; g_x : float; g_y : float; g_xo : float; g_yo : float; g_xa : float; g_ya : float; g_cluster : N }.
Record shaped := Sh { s_glyphs : list glyph; s_width : float; s_height : float; s_baseline : float; s_size : float;
                      s_ascent : float; s_descent : float; s_ink_min : float; s_ink_max : float }.
(* 66-77 *)
Definition total_advance (s : shaped) : float := fold_left (fun t g => f_add f32 t (g_xa g)) (s_glyphs s) (Fin 0).

(* f32::min, f32::max *)
Definition f_min (a b : float) : float := match a, b with NaN, _ => b | _, NaN => a | _, _ => if f_le a b then a else b end.
Definition f_max (a b : float) : float := match a, b with NaN, _ => b | _, NaN => a | _, _ => if f_le b a then a else b end.
(* shape.rs 178-192: the glyphs and where the cursor ends *)
Fixpoint lay (scale cx cy : float) (l : list placed) : list glyph * float :=
  match l with
  | [] => ([], cx)
  | p :: r =>
    let by_ z := f_mul f32 (f_of_Z f32 z) scale in
    let g := Gl (p_id p) (f_add f32 cx (by_ (p_xo p))) (f_add f32 cy (by_ (p_yo p))) (by_ (p_xo p)) (by_ (p_yo p)) (by_ (p_xa p)) (by_ (p_ya p)) (p_cluster p) in
    let '(gs, w) := lay scale (f_add f32 cx (by_ (p_xa p))) (f_add f32 cy (by_ (p_ya p))) r in
    (g :: gs, w)
  end.
(* 206-213; a glyph id is cut to 16 bits *)
Fixpoint ink (f : face) (scale : float) (gs : list glyph) (lo hi : float) : float * float :=
  match gs with
  | [] => (lo, hi)
  | g :: r =>
    match f_box f (g_id g mod 65536)%N with
    | Some (a, b) => ink f scale r (f_min lo (f_add f32 (g_x g) (f_mul f32 (f_of_Z f32 a) scale))) (f_max hi (f_add f32 (g_x g) (f_mul f32 (f_of_Z f32 b) scale)))
    | None => ink f scale r lo hi
    end
  end.
(* 157-230 *)
Definition shape_face (f : face) (text : str) (size : float) : option shaped :=
  match from_face f with
  | None => None
  | Some m =>
    let scale := f_div f32 size (me_em m) in
    let '(gs, w) := lay scale (Fin 0) (Fin 0) (f_shape f text) in
    let ascent := f_mul f32 (me_asc m) scale in
    let descent := f_mul f32 (me_desc m) scale in
    let '(lo, hi) := ink f scale gs (Inf false) (Inf true) in
    let '(lo, hi) := if f_lt hi lo then (Fin 0, w) else (lo, hi) in
    Some (Sh gs w (f_sub f32 ascent descent) (baseline m size) size ascent descent lo hi)
  end.

Section World.
  Context {data : Type}.
  Variable parse : data -> N -> option face.
  Variable value : N -> float.

  (* fontdb::Source; a path is a text *)
  Inductive source := Binary (d : data) | File (path : str) | SharedFile (path : str) (d : data).
  Record database := Db { find_font : str -> bool -> bool -> str -> option N; face_source : N -> option (source * N) }.
  Definition files := str -> option data.

  Definition key := (str * str * N * bool * bool)%type.
  Definition key_eqb (a b : key) : bool :=
    let '(t, f, s, x, i) := a in
    let '(t', f', s', x', i') := b in
    str_eqb t t' && str_eqb f f' && (s =? s')%N && Bool.eqb x x' && Bool.eqb i i'.
  (* the thread's caches: shaped texts and font files *)
  Record thread := Th { t_shapes : list (key * shaped); t_files : list (str * data) }.
  Definition lookup_key (l : list (key * shaped)) (k : key) : option shaped :=
    match List.find (fun e => key_eqb (fst e) k) l with Some e => Some (snd e) | None => None end.
  Definition lookup_file (l : list (str * data)) (p : str) : option data :=
    match List.find (fun e => str_eqb (fst e) p) l with Some e => Some (snd e) | None => None end.

  (* shape.rs 82-109 *)
  Definition cached_file (fs : files) (t : thread) (p : str) : res data * thread :=
    match lookup_file (t_files t) p with
    | Some d => (Ok d, t)
    | None => match fs p with Some d => (Ok d, Th (t_shapes t) ((p, d) :: t_files t)) | None => (Err, t) end
    end.
  (* 112-231 *)
  Definition shape_with_style (fs : files) (db : database) (t : thread) (text family : str) (size : N) (bold italic : bool) : res shaped * thread :=
    match find_font db family bold italic text with
    | None => (Err, t)
    | Some id =>
      match face_source db id with
      | None => (Err, t)
      | Some (src, index) =>
        let '(got, t) := match src with Binary d | SharedFile _ d => (Ok d, t) | File p => cached_file fs t p end in
        match got with
        | Ok d =>
          match parse d index with
          | None => (Err, t)
          | Some f => (match shape_face f text (value size) with Some s => Ok s | None => Panic end, t)
          end
        | Err => (Err, t)
        | Panic => (Panic, t)
        end
      end
    end.
  (* 33-77 *)
  Definition shape_cached (fs : files) (db : database) (t : thread) (text family : str) (size : N) (bold italic : bool) : res shaped * thread :=
    let k := (text, family, size, bold, italic) in
    match lookup_key (t_shapes t) k with
    | Some s => (Ok s, t)
    | None =>
      let '(r, t) := shape_with_style fs db t text family size bold italic in
      match r with
      | Ok s => (Ok s, Th ((k, s) :: if 8192 <=? Z.of_nat (List.length (t_shapes t)) then [] else t_shapes t) (t_files t))
      | _ => (r, t)
      end
    end.

  (* ---- glyph_renderer.rs ---- *)
  Context {path : Type}.
  Variable finish : list segment -> option path.                (* PathBuilder::finish *)
  Variable move_by : float -> float -> path -> option path.     (* Path::transform by a translation *)
  (* 136-166 *)
  Definition scaled (k : float) (s : segment) : segment :=
    let x v := f_mul f32 v k in
    let y v := f_mul f32 (f_opp v) k in
    match s with
    | MoveTo a b => MoveTo (x a) (y b)
    | LineTo a b => LineTo (x a) (y b)
    | QuadTo a b c d => QuadTo (x a) (y b) (x c) (y d)
    | CurveTo a b c d e f => CurveTo (x a) (y b) (x c) (y d) (x e) (y f)
    | Close => Close
    end.
  (* 122-174 *)
  Definition outline (f : face) (size : float) (id : N) : option path :=
    match f_box f (id mod 65536)%N with
    | Some _ => finish (map (scaled (f_div f32 size (f_of_N f32 (f_em f)))) (f_lines f (id mod 65536)%N))
    | None => finish []
    end.
  Definition fixed (size : float) : N := f_to_N 4294967295 (f_mul f32 size (Fin 65536)).
  Definition gkey := (N * N * N)%type.
  Definition gkey_eqb (a b : gkey) : bool := let '(x, y, z) := a in let '(x', y', z') := b in (x =? x')%N && (y =? y')%N && (z =? z')%N.
  (* 16-21; both font maps are filled together *)
  Record renderer := Gr { r_glyphs : list (gkey * path); r_fonts : list (N * (data * N)) }.
  Definition no_glyphs : renderer := Gr [] [].
  Definition lookup_glyph (l : list (gkey * path)) (k : gkey) : option path :=
    match List.find (fun e => gkey_eqb (fst e) k) l with Some e => Some (snd e) | None => None end.
  Definition lookup_font (l : list (N * (data * N))) (i : N) : option (data * N) :=
    match List.find (fun e => (fst e =? i)%N) l with Some e => Some (snd e) | None => None end.
  (* 55-85 *)
  Definition font_data (fs : files) (db : database) (r : renderer) (id : N) : res (data * N) * renderer :=
    match lookup_font (r_fonts r) id with
    | Some d => (Ok d, r)
    | None =>
      match face_source db id with
      | None => (Err, r)
      | Some (src, index) =>
        match (match src with Binary d | SharedFile _ d => Some d | File p => fs p end) with
        | None => (Err, r)
        | Some d => (Ok (d, index), Gr (r_glyphs r) ((id, (d, index)) :: r_fonts r))
        end
      end
    end.
  (* 95-190: the glyphs left, the spacing so far *)
  Fixpoint draw (f : face) (id : N) (size spacing : float) (cache : list (gkey * path)) (gs : list glyph) (off : float) : list path * list (gkey * path) :=
    match gs with
    | [] => ([], cache)
    | g :: r =>
      let k := (id, g_id g, fixed size) in
      let x := f_add f32 (g_x g) off in
      let off' := match r with [] => off | _ => f_add f32 off spacing end in
      let put p l := match move_by x (g_y g) p with Some q => q :: l | None => l end in
      match lookup_glyph cache k with
      | Some p => let '(ps, c) := draw f id size spacing cache r off' in (put p ps, c)
      | None =>
        match outline f size (g_id g) with
        | Some p => let '(ps, c) := draw f id size spacing ((k, p) :: cache) r off' in (put p ps, c)
        | None => draw f id size spacing cache r off'
        end
      end
    end.
  (* 47-193 *)
  Definition render (fs : files) (db : database) (r : renderer) (s : shaped) (id : N) (spacing : float) : res (list path) * renderer :=
    let '(got, r) := font_data fs db r id in
    match got with
    | Ok (d, index) =>
      match parse d index with
      | None => (Err, r)
      | Some f => let '(ps, c) := draw f id (s_size s) spacing (r_glyphs r) (s_glyphs s) (Fin 0) in (Ok ps, Gr c (r_fonts r))
      end
    | Err => (Err, r)
    | Panic => (Panic, r)
    end.
End World.
