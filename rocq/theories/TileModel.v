(* Text layers of the software backend and the caches behind them.
   Sources (crates/ass-renderer/src): backends/software/text/mod.rs 59-91,
   text/{prepare,blur,decorations,fills}.rs, backends/software/cache/{mod,coverage,
   blur_tile}.rs, backends/software/mod.rs 84-152 and 169-189,
   backends/geometry.rs 109-114, pipeline/shaping/shape.rs 33-77,
   pipeline/shaping/glyph_renderer.rs 47-170.
   What the libraries do is a record of functions: the shaper, the font lookup,
   glyph outlines, transforms, merging, stroking and rasterising of paths, the
   drawing of one blurred bitmap, and the passes of the vector path.  A float
   is its bit pattern (a number) and the float operations are functions of the
   record.  A hash map is a list of entries.  The context has the size of the
   backend's pixmap, so no resize happens.  Reading a font file gives the same
   bytes each time. *)
From Verif Require Import Base PixelModel.

Definition bits := N.
Definition rgba := colour.
(* tiny_skia::Transform *)
Record tr := Tr { t_sx : bits; t_kx : bits; t_ky : bits; t_sy : bits; t_tx : bits; t_ty : bits }.
(* coverage/mod.rs 30-38, CoverageTile; cache/mod.rs 65-69, BlurTile *)
Record tile := Tile { tl_w : N; tl_h : N; tl_data : list N }.
(* pipeline/shaping: ShapedGlyph and ShapedText, the fields the backend reads *)
Record glyph := Glyph { g_id : N; g_x : bits; g_y : bits }.
Record shaped := Shaped { sh_width : bits; sh_height : bits; sh_baseline : bits; sh_ascent : bits; sh_size : bits; sh_glyphs : list glyph }.
(* pipeline/mod.rs 175-235, TextEffect *)
Inductive effect :=
| EBold | EItalic | EUnderline | EStrike
| EOutline (c : rgba) (wx wy : bits)
| EShadow (c : rgba) (x y : bits)
| EBlur (radius : bits)
| EEdgeBlur (radius : bits)
| EKaraoke (progress : bits) (style : N) (secondary : rgba)
| ERotation (x y z : bits) (origin : option (bits * bits))
| EShear (x y : bits)
| EScale (x y : bits)
| EClip (x1 y1 x2 y2 : bits) (inverse : bool)
| EBox (c : rgba) (px py : bits).
(* pipeline/mod.rs 154-172, TextData *)
Record text_data := TextData { td_text : str; td_font : str; td_size : bits; td_color : rgba; td_x : bits; td_y : bits; td_effects : list effect; td_spacing : bits }.

(* shape.rs 46: the key of the shape cache *)
Record skey := SKey { sk_text : str; sk_font : str; sk_size : bits; sk_bold : bool; sk_italic : bool }.
(* cache/mod.rs 29-39, RunCoverageKey *)
Record ckey := CKey { ck_text : str; ck_font : str; ck_size : bits; ck_spacing : bits; ck_bold : bool; ck_italic : bool;
                      ck_outline : option (bits * bits); ck_shadow : option (bits * bits); ck_tr : tr }.
(* cache/mod.rs 49-60, BlurTileKey *)
Record bkey := BKey { bk_text : str; bk_font : str; bk_size : bits; bk_spacing : bits; bk_bold : bool; bk_italic : bool;
                      bk_blur : bits; bk_fill : rgba; bk_outline : option (bits * bits * rgba); bk_shadow : option (rgba * bits * bits) }.
(* cache/mod.rs 77-80, CachedCoverage *)
Record cached := Cached { ca_fill : option (tile * Z * Z); ca_outline : option (tile * Z * Z) }.
(* glyph_renderer.rs 24-28, GlyphKey *)
Definition gkey := (N * N * N)%type.

Definition rgba_dec (a b : rgba) : {a = b} + {a <> b}. Proof. repeat decide equality. Defined.
Definition skey_dec (a b : skey) : {a = b} + {a <> b}. Proof. repeat decide equality. Defined.
Definition ckey_dec (a b : ckey) : {a = b} + {a <> b}. Proof. repeat decide equality. Defined.
Definition bkey_dec (a b : bkey) : {a = b} + {a <> b}. Proof. repeat decide equality. Defined.
Definition gkey_dec (a b : gkey) : {a = b} + {a <> b}. Proof. repeat decide equality. Defined.

(* HashMap::get, and the insertion of a new key behind "if map.len() >= max then
   map.clear()" *)
Fixpoint lookup {K V} (dec : forall a b : K, {a = b} + {a <> b}) (k : K) (m : list (K * V)) : option V :=
  match m with
  | [] => None
  | (k', v) :: r => if dec k k' then Some v else lookup dec k r
  end.
Definition bounded_insert {K V} (max : N) (k : K) (v : V) (m : list (K * V)) : list (K * V) :=
  (k, v) :: (if (max <=? N.of_nat (length m))%N then [] else m).

Inductive pass := PShadow | PBox | POutline | PKaraoke | PPlain | PDecorations.

(* text/mod.rs 27-57, TextRun; merged_base and text_paint are functions of the
   other fields and of the text data *)
Record run (P M : Type) := Run { r_paths : list P; r_tr : tr; r_baseline_y : bits; r_shaped : shaped; r_mask : option M;
  r_blur : option bits; r_outline : option (rgba * bits * bits); r_shadow : option (rgba * bits * bits); r_edge : option bits;
  r_karaoke : option (bits * N * rgba); r_bold : bool; r_italic : bool; r_underline : bool; r_strike : bool }.
Arguments Run {P M}. Arguments r_paths {P M}. Arguments r_tr {P M}. Arguments r_baseline_y {P M}. Arguments r_shaped {P M}.
Arguments r_mask {P M}. Arguments r_blur {P M}. Arguments r_outline {P M}. Arguments r_shadow {P M}. Arguments r_edge {P M}.
Arguments r_karaoke {P M}. Arguments r_bold {P M}. Arguments r_italic {P M}. Arguments r_underline {P M}. Arguments r_strike {P M}.

Record platform := Platform {
  DB : Type;      (* a font database *)
  PATH : Type;    (* tiny_skia::Path *)
  MASK : Type;    (* tiny_skia::Mask *)
  (* f32 *)
  f_add : bits -> bits -> bits; f_sub : bits -> bits -> bits; f_mul : bits -> bits -> bits; f_div : bits -> bits -> bits;
  f_neg : bits -> bits; f_abs : bits -> bits; f_eq : bits -> bits -> bool; f_lt : bits -> bits -> bool;
  f_lit : Z -> positive -> bits;  (* the literal n/d *)
  f_pi : bits;
  f_round : bits -> Z;            (* x.round() as i32 *)
  pl_size16 : bits -> N;          (* (size * 65536.0) as u32 *)
  pl_cols : bits -> N -> N;       (* blur_tile.rs 60-62, for progress and tile width *)
  pl_ceil : bits -> bits;         (* (radius * 3.0).ceil() *)
  pl_pad : bits -> bits;          (* (radius * 3.0).ceil() as u32 as f32 *)
  (* fonts *)
  pl_shape : DB -> skey -> res shaped;                          (* shape_text_with_style *)
  pl_font : DB -> str -> bool -> bool -> str -> res N;          (* find_font_for_text *)
  pl_face : DB -> N -> res unit;                                (* loading and parsing of the face *)
  pl_outline : DB -> N -> N -> bits -> option PATH;             (* outline of a glyph at a size *)
  pl_place : PATH -> bits -> bits -> option PATH;               (* path.transform(from_translate(x, y)) *)
  (* transforms *)
  t_translate : bits -> bits -> tr; t_pre_translate : tr -> bits -> bits -> tr; t_pre_rotate : tr -> bits -> tr;
  t_pre_scale : tr -> bits -> bits -> tr; t_pre_skew : tr -> bits -> bits -> tr; t_post_translate : tr -> bits -> bits -> tr;
  t_identity : tr; t_map : tr -> bits * bits -> bits * bits;
  pl_project : PATH -> tr -> bits -> bits -> bits -> bits -> option PATH;  (* transform, then project_path_3d with frx fry cx cy *)
  (* paths and pixels *)
  pl_merge : list PATH -> tr -> option PATH;
  pl_stroke : PATH -> bits -> bits -> option PATH;
  pl_raster : PATH -> option (tile * Z * Z);
  pl_bbox : text_data -> list PATH -> tr -> option bbox;        (* text_vector_dirty_bbox *)
  pl_mask : Z -> Z -> bits -> bits -> bits -> bits -> bool -> option MASK;
  pl_tile : shaped -> list PATH -> bits -> rgba -> option (rgba * bits * bits) -> option (rgba * bits * bits) -> option MASK -> option tile;  (* text/blur.rs 57-155 *)
  pl_draw_tile : tile -> bits -> bits -> list N -> list N;      (* draw_pixmap at a translation *)
  pl_pass : pass -> text_data -> run PATH MASK -> list N -> list N;
  pl_row : list N -> nat -> list N -> N -> N -> N -> N -> option (list N)  (* the row blender *)
}.

Section Code.
  Context (pl : platform).
  Notation "a +. b" := (f_add pl a b) (at level 50, left associativity).
  Notation "a -. b" := (f_sub pl a b) (at level 50, left associativity).
  Notation "a *. b" := (f_mul pl a b) (at level 40, left associativity).
  Notation "a /. b" := (f_div pl a b) (at level 40, left associativity).
  Let zero := f_lit pl 0 1.
  Let one := f_lit pl 1 1.
  Let two := f_lit pl 2 1.
  Let hundred := f_lit pl 100 1.

  (* the backend with its font database, and the caches of its thread *)
  Record state := State {
    st_shapes : list (skey * shaped);    (* shape.rs 48 *)
    st_glyphs : list (gkey * PATH pl);   (* glyph_renderer.rs 17 *)
    st_cover : list (ckey * cached);     (* cache/mod.rs 86 *)
    st_blurs : list (bkey * tile);       (* cache/mod.rs 91 *)
    st_sink : option (list bitmap);      (* cache/mod.rs 97 *)
    st_dirty : option bbox;              (* cache/mod.rs 103 *)
    st_w : Z; st_h : Z; st_pix : list N; (* self.pixmap *)
    st_scratch : list N                  (* self.scratch, of the same size *)
  }.
  Definition with_shapes m s := State m (st_glyphs s) (st_cover s) (st_blurs s) (st_sink s) (st_dirty s) (st_w s) (st_h s) (st_pix s) (st_scratch s).
  Definition with_glyphs m s := State (st_shapes s) m (st_cover s) (st_blurs s) (st_sink s) (st_dirty s) (st_w s) (st_h s) (st_pix s) (st_scratch s).
  Definition with_cover m s := State (st_shapes s) (st_glyphs s) m (st_blurs s) (st_sink s) (st_dirty s) (st_w s) (st_h s) (st_pix s) (st_scratch s).
  Definition with_blurs m s := State (st_shapes s) (st_glyphs s) (st_cover s) m (st_sink s) (st_dirty s) (st_w s) (st_h s) (st_pix s) (st_scratch s).
  Definition with_sink o s := State (st_shapes s) (st_glyphs s) (st_cover s) (st_blurs s) o (st_dirty s) (st_w s) (st_h s) (st_pix s) (st_scratch s).
  Definition with_dirty o s := State (st_shapes s) (st_glyphs s) (st_cover s) (st_blurs s) (st_sink s) o (st_w s) (st_h s) (st_pix s) (st_scratch s).
  Definition with_pix p s := State (st_shapes s) (st_glyphs s) (st_cover s) (st_blurs s) (st_sink s) (st_dirty s) (st_w s) (st_h s) p (st_scratch s).
  Definition with_scratch p s := State (st_shapes s) (st_glyphs s) (st_cover s) (st_blurs s) (st_sink s) (st_dirty s) (st_w s) (st_h s) (st_pix s) p.
  Definition swap_pix s := State (st_shapes s) (st_glyphs s) (st_cover s) (st_blurs s) (st_sink s) (st_dirty s) (st_w s) (st_h s) (st_scratch s) (st_pix s).

  (* shape.rs 33-77, shape_text_cached; errors are not cached *)
  Definition shape_text_cached (d : DB pl) (k : skey) (s : state) : res shaped * state :=
    match lookup skey_dec k (st_shapes s) with
    | Some sh => (Ok sh, s)
    | None =>
      match pl_shape pl d k with
      | Ok sh => (Ok sh, with_shapes (bounded_insert 8192 k sh (st_shapes s)) s)
      | Err => (Err, s)
      | Panic => (Panic, s)
      end
    end.

  (* glyph_renderer.rs 94-168: the glyphs from left to right; acc is the letter
     spacing so far *)
  Fixpoint render_glyphs (d : DB pl) (font : N) (size spacing : bits) (gs : list glyph) (acc : bits) (m : list (gkey * PATH pl))
    : list (PATH pl) * list (gkey * PATH pl) :=
    match gs with
    | [] => ([], m)
    | g :: rest =>
      let key := (font, g_id g, pl_size16 pl size) in
      let x := g_x g +. acc in
      let '(here, m1) :=
        match lookup gkey_dec key m with
        | Some p => (pl_place pl p x (g_y g), m)
        | None =>
          match pl_outline pl d font (g_id g) size with
          | Some p => (pl_place pl p x (g_y g), (key, p) :: m)
          | None => (None, m)
          end
        end in
      let acc1 := match rest with [] => acc | _ => acc +. spacing end in
      let '(more, m2) := render_glyphs d font size spacing rest acc1 m1 in
      (match here with Some p => p :: more | None => more end, m2)
    end.
  (* glyph_renderer.rs 47-175, render_shaped_text *)
  Definition render_shaped_text (d : DB pl) (sh : shaped) (font : N) (spacing : bits) (s : state) : res (list (PATH pl)) * state :=
    match pl_face pl d font with
    | Ok _ =>
      let '(ps, m) := render_glyphs d font (sh_size sh) spacing (sh_glyphs sh) zero (st_glyphs s) in
      (Ok ps, with_glyphs m s)
    | Err => (Err, s)
    | Panic => (Panic, s)
    end.

  (* prepare.rs 30-45 *)
  Definition has (p : effect -> bool) (d : text_data) : bool := existsb p (td_effects d).
  Definition is_bold e := match e with EBold => true | _ => false end.
  Definition is_italic e := match e with EItalic => true | _ => false end.
  Definition is_underline e := match e with EUnderline => true | _ => false end.
  Definition is_strike e := match e with EStrike => true | _ => false end.
  Definition shape_key (d : text_data) : skey := SKey (td_text d) (td_font d) (td_size d) (has is_bold d) (has is_italic d).
  Fixpoint find_map {A} (f : effect -> option A) (es : list effect) : option A :=
    match es with
    | [] => None
    | e :: r => match f e with Some a => Some a | None => find_map f r end
    end.
  Definition get_blur e := match e with EBlur r => Some r | _ => None end.
  Definition get_edge e := match e with EEdgeBlur r => Some r | _ => None end.
  Definition get_outline e := match e with EOutline c x y => Some (c, x, y) | _ => None end.
  Definition get_shadow e := match e with EShadow c x y => Some (c, x, y) | _ => None end.
  Definition get_karaoke e := match e with EKaraoke p k c => Some (p, k, c) | _ => None end.
  Definition get_mask (s : state) e := match e with EClip x1 y1 x2 y2 inv => pl_mask pl (st_w s) (st_h s) x1 y1 x2 y2 inv | _ => None end.

  (* prepare.rs 63-142: the transform of the run, and the 3D rotation if any *)
  Definition rot3 := (bits * bits * bits * bits)%type.
  Definition apply_effect (d : text_data) (sh : shaped) (by_ : bits) (acc : tr * option rot3) (e : effect) : tr * option rot3 :=
    let '(t, r) := acc in
    match e with
    | ERotation x y z origin =>
      let '(cx, cy) := match origin with
                       | Some (ox, oy) => (ox -. td_x d, oy -. by_)
                       | None => (sh_width sh /. two, (sh_height sh /. two) -. sh_baseline sh)
                       end in
      let t1 := if f_eq pl z zero then t
                else t_pre_translate pl (t_pre_rotate pl (t_pre_translate pl t cx cy) (f_neg pl z)) (f_neg pl cx) (f_neg pl cy) in
      let r1 := if f_eq pl x zero && f_eq pl y zero then r
                else Some ((x *. f_pi pl) /. f_lit pl 180 1, (y *. f_pi pl) /. f_lit pl 180 1, cx, cy) in
      (t1, r1)
    | EScale x y =>
      let k := if f_eq pl y zero then x /. hundred else x /. y in
      if f_lt pl (f_lit pl 1 100) (f_abs pl (k -. one))
      then let cx := sh_width sh /. two in
           (t_pre_translate pl (t_pre_scale pl (t_pre_translate pl t cx zero) k one) (f_neg pl cx) zero, r)
      else (t, r)
    | EShear x y =>
      let cx := sh_width sh /. two in
      let cy := sh_height sh /. two in
      (t_pre_translate pl (t_pre_skew pl (t_pre_translate pl t cx cy) x y) (f_neg pl cx) (f_neg pl cy), r)
    | _ => (t, r)
    end.
  Definition base_transform (d : text_data) (sh : shaped) (by_ : bits) : tr * option rot3 :=
    fold_left (apply_effect d sh by_) (td_effects d) (t_translate pl (td_x d) by_, None).

  (* cache/mod.rs 113-194, coverage_key: None is an effect the coverage path
     does not handle *)
  Record cover_args := CoverArgs { cv_key : ckey; cv_outline : option (rgba * bits * bits); cv_shadow : option (rgba * bits * bits);
                                   cv_local : tr; cv_fill : rgba; cv_sweep : option (bits * rgba) }.
  Record scan := Scan { sc_outline : option (rgba * bits * bits); sc_shadow : option (rgba * bits * bits); sc_bold : bool; sc_italic : bool;
                        sc_fill : rgba; sc_sweep : option (bits * rgba) }.
  Fixpoint scan_effects (color : rgba) (es : list effect) (a : scan) : option scan :=
    match es with
    | [] => Some a
    | e :: r =>
      match e with
      | EOutline c wx wy => scan_effects color r (Scan (Some (c, wx, wy)) (sc_shadow a) (sc_bold a) (sc_italic a) (sc_fill a) (sc_sweep a))
      | EShadow c x y => scan_effects color r (Scan (sc_outline a) (Some (c, x, y)) (sc_bold a) (sc_italic a) (sc_fill a) (sc_sweep a))
      | EBold => scan_effects color r (Scan (sc_outline a) (sc_shadow a) true (sc_italic a) (sc_fill a) (sc_sweep a))
      | EItalic => scan_effects color r (Scan (sc_outline a) (sc_shadow a) (sc_bold a) true (sc_fill a) (sc_sweep a))
      | ERotation _ _ _ _ | EScale _ _ | EShear _ _ => scan_effects color r a
      | EKaraoke p style second =>
        if (style =? 0)%N
        then scan_effects color r (Scan (sc_outline a) (sc_shadow a) (sc_bold a) (sc_italic a) (if f_lt pl zero p then color else second) (sc_sweep a))
        else scan_effects color r (Scan (sc_outline a) (sc_shadow a) (sc_bold a) (sc_italic a) (sc_fill a) (Some (p, second)))
      | _ => None
      end
    end.
  Definition widths (o : option (rgba * bits * bits)) : option (bits * bits) :=
    match o with Some (_, x, y) => Some (x, y) | None => None end.
  Definition coverage_key (d : text_data) (t : tr) (by_ : bits) : option cover_args :=
    do a <- scan_effects (td_color d) (td_effects d) (Scan None None false false (td_color d) None);
    let local := t_post_translate pl t (f_neg pl (td_x d)) (f_neg pl by_) in
    Some (CoverArgs
      (CKey (td_text d) (td_font d) (td_size d) (td_spacing d) (sc_bold a) (sc_italic a) (widths (sc_outline a)) (widths (sc_shadow a)) local)
      (sc_outline a) (sc_shadow a) local (sc_fill a) (sc_sweep a)).

  (* geometry.rs 109-114, shadow_delta *)
  Definition shadow_delta (t : tr) (x y : bits) : Z * Z :=
    (f_round pl ((x *. t_sx t) +. (y *. t_kx t)), f_round pl ((x *. t_ky t) +. (y *. t_sy t))).

  (* coverage.rs 10-30, rasterize_run_coverage *)
  Definition rasterize_run (paths : list (PATH pl)) (local : tr) (w : option (bits * bits)) : cached :=
    let merged := pl_merge pl paths local in
    Cached (do m <- merged; pl_raster pl m)
           (do (wx, wy) <- w; do m <- merged; do o <- pl_stroke pl m wx wy; pl_raster pl o).

  (* blur_tile.rs 83-96, crop_coverage_columns; None is a slice out of range *)
  Definition crop_columns (t : tile) (cols : N) : option (list N) :=
    let cols := N.to_nat (N.min cols (tl_w t)) in
    let width := N.to_nat (tl_w t) in
    each_row (fun y data =>
      let y := Z.to_nat y in
      do src <- sub_slice (y * width) cols (tl_data t);
      copy_at (y * cols) src data)
      (span_from 0 (Z.of_N (tl_h t))) (repeat 0%N (cols * N.to_nat (tl_h t))).

  (* blur_tile.rs 16-78, emit_cached; None is an overflow of i32 *)
  Definition bitmap_at (t : tile) (x y : Z) (c : rgba) : bitmap :=
    BCoverage (Z.of_N (tl_w t)) (Z.of_N (tl_h t)) (tl_data t) x y c.
  Definition emit_cached (ca : cached) (ax ay : Z) (outline : option rgba) (shadow : option (rgba * (Z * Z))) (fill : rgba)
    (sweep : option (bits * rgba)) : option (list bitmap) :=
    do s <- match shadow, ca_fill ca with
            | Some (c, (dx, dy)), Some (t, ox, oy) =>
              do x0 <- i32 (ax + ox)%Z; do x <- i32 (x0 + dx)%Z; do y0 <- i32 (ay + oy)%Z; do y <- i32 (y0 + dy)%Z;
              Some [bitmap_at t x y c]
            | _, _ => Some []
            end;
    do o <- match outline, ca_outline ca with
            | Some c, Some (t, ox, oy) => do x <- i32 (ax + ox)%Z; do y <- i32 (ay + oy)%Z; Some [bitmap_at t x y c]
            | _, _ => Some []
            end;
    do f <- match ca_fill ca with
            | Some (t, ox, oy) =>
              do x <- i32 (ax + ox)%Z; do y <- i32 (ay + oy)%Z;
              match sweep with
              | None => Some [bitmap_at t x y fill]
              | Some (p, second) =>
                if f_lt pl p zero || f_eq pl p zero then Some [bitmap_at t x y second]
                else if f_lt pl one p || f_eq pl p one then Some [bitmap_at t x y fill]
                else let cols := pl_cols pl p (tl_w t) in
                     if (cols =? 0)%N then Some [bitmap_at t x y second]
                     else do data <- crop_columns t cols;
                          Some [bitmap_at t x y second; BCoverage (Z.of_N cols) (Z.of_N (tl_h t)) data x y fill]
              end
            | None => Some []
            end;
    Some (s ++ o ++ f).

  (* composite_bitmap for each of the bitmaps *)
  Fixpoint blend_all (w h : Z) (bs : list bitmap) (dst : list N) : option (list N) :=
    match bs with
    | [] => Some dst
    | b :: r => do dst1 <- composite_bitmap (pl_row pl) dst w h b; blend_all w h r dst1
    end.
  (* blur_tile.rs 102-125, composite_cached *)
  Definition composite_cached (ca : cached) (d : text_data) (by_ : bits) (a : cover_args) (s : state) : res unit * state :=
    match emit_cached ca (f_round pl (td_x d)) (f_round pl by_)
            (match cv_outline a with Some (c, _, _) => Some c | None => None end)
            (match cv_shadow a with Some (c, x, y) => Some (c, shadow_delta (cv_local a) x y) | None => None end)
            (cv_fill a) (cv_sweep a) with
    | None => (Panic, s)
    | Some bs =>
      match st_sink s with
      | Some l => (Ok tt, with_sink (Some (l ++ bs)) s)
      | None => match blend_all (st_w s) (st_h s) bs (st_pix s) with
                | Some p => (Ok tt, with_pix p s)
                | None => (Panic, s)
                end
      end
    end.

  (* coverage.rs 49-82, coverage_hit: None is "not handled" *)
  Definition coverage_hit (d : text_data) (t : tr) (by_ : bits) (s : state) : option (res unit * state) :=
    do a <- coverage_key d t by_;
    do ca <- lookup ckey_dec (cv_key a) (st_cover s);
    Some (composite_cached ca d by_ a s).
  (* coverage.rs 88-137, rasterize_coverage_miss: the key is not in the cache,
     as coverage_hit has just looked *)
  Definition coverage_miss (d : text_data) (paths : list (PATH pl)) (t : tr) (by_ : bits) (s : state) : option (res unit * state) :=
    do a <- coverage_key d t by_;
    let s1 := match lookup ckey_dec (cv_key a) (st_cover s) with
              | Some _ => s
              | None => with_cover (bounded_insert 256 (cv_key a) (rasterize_run paths (cv_local a) (widths (cv_outline a))) (st_cover s)) s
              end in
    Some (match lookup ckey_dec (cv_key a) (st_cover s1) with
          | Some ca => composite_cached ca d by_ a s1
          | None => (Ok tt, s1)
          end).

  (* blur_tile.rs 189-200 and blur.rs 38-49: the same key in both places *)
  Definition blur_key (d : text_data) (radius : bits) : bkey :=
    BKey (td_text d) (td_font d) (td_size d) (td_spacing d) (has is_bold d) (has is_italic d) radius (td_color d)
      (match find_map get_outline (td_effects d) with Some (c, x, y) => Some (x, y, c) | None => None end)
      (find_map get_shadow (td_effects d)).
  (* blur_tile.rs 137-248, blur_tile_hit *)
  Definition blur_eligible (e : effect) : bool :=
    match e with
    | EBlur _ | EOutline _ _ _ | EShadow _ _ _ | EBold | EItalic | ERotation _ _ _ _ | EScale _ _ | EShear _ _ => true
    | _ => false
    end.
  Definition blur_tile_hit (d : text_data) (by_ ascent : bits) (s : state) : option (res unit * state) :=
    if negb (forallb blur_eligible (td_effects d)) then None else
    do radius <- find_map get_blur (td_effects d);
    do t <- lookup bkey_dec (blur_key d radius) (st_blurs s);
    let x := td_x d -. pl_ceil pl radius in
    let y := (by_ -. pl_ceil pl radius) -. ascent in
    Some (match st_sink s with
          | Some l => (Ok tt, with_sink (Some (l ++ [BRgba (Z.of_N (tl_w t)) (Z.of_N (tl_h t)) (tl_data t) (f_round pl x) (f_round pl y)])) s)
          | None => (Ok tt, with_pix (pl_draw_tile pl t x y (st_pix s)) s)
          end).

  (* text/blur.rs 18-194, draw_blurred_text *)
  Definition draw_blurred (d : text_data) (r : run (PATH pl) (MASK pl)) (radius : bits) (s : state) : state :=
    let key := match r_mask r with None => Some (blur_key d radius) | Some _ => None end in
    let found := do k <- key; lookup bkey_dec k (st_blurs s) in
    let '(t, s1) :=
      match found with
      | Some t => (Some t, s)
      | None =>
        match pl_tile pl (r_shaped r) (r_paths r) radius (td_color d) (r_outline r) (r_shadow r) (r_mask r) with
        | Some t => (Some t, match key with Some k => with_blurs (bounded_insert 512 k t (st_blurs s)) s | None => s end)
        | None => (None, s)
        end
      end in
    match t with
    | Some t => with_pix (pl_draw_tile pl t (td_x d -. pl_pad pl radius) ((r_baseline_y r -. pl_pad pl radius) -. sh_ascent (r_shaped r)) (st_pix s1)) s1
    | None => s1
    end.

  (* prepare.rs 163-360, after both fast paths: font, paths, projection, coverage
     or the run of the vector path *)
  Definition project_all (paths : list (PATH pl)) (t : tr) (r : option rot3) : list (PATH pl) * tr :=
    match r with
    | Some (frx, fry, lcx, lcy) =>
      let c := t_map pl t (lcx, lcy) in
      (flat_map (fun p => match pl_project pl p t frx fry (fst c) (snd c) with Some q => [q] | None => [] end) paths, t_identity pl)
    | None => (paths, t)
    end.
  (* decorations.rs 17-18, 58-59, 109-110 with 126 and 188, 219 and 245: when a
     pass draws at all *)
  Definition is_some {A} (o : option A) : bool := match o with Some _ => true | None => false end.
  Definition active (p : pass) (d : text_data) (r : run (PATH pl) (MASK pl)) : bool :=
    match p with
    | PShadow => negb (is_some (r_blur r)) && is_some (r_shadow r)
    | PBox => has (fun e => match e with EBox _ _ _ => true | _ => false end) d
    | POutline => has (fun e => match e with EOutline _ _ _ => true | _ => false end) d && (is_some (r_edge r) || negb (is_some (r_blur r)))
    | PKaraoke | PPlain => true
    | PDecorations => r_underline r || r_strike r
    end.
  Definition run_pass (p : pass) (d : text_data) (r : run (PATH pl) (MASK pl)) (s : state) : state :=
    if active p d r then with_pix (pl_pass pl p d r (st_pix s)) s else s.
  (* text/mod.rs 64-91: the passes in order *)
  Definition draw_run (d : text_data) (r : run (PATH pl) (MASK pl)) (s : state) : state :=
    let s1 := run_pass POutline d r (run_pass PBox d r (run_pass PShadow d r s)) in
    let s2 := match r_blur r with
              | Some radius => draw_blurred d r radius s1
              | None => match r_karaoke r with Some _ => run_pass PKaraoke d r s1 | None => run_pass PPlain d r s1 end
              end in
    run_pass PDecorations d r s2.
  Definition make_run (d : text_data) (sh : shaped) (by_ : bits) (paths : list (PATH pl)) (t : tr) (s : state) : run (PATH pl) (MASK pl) :=
    let es := td_effects d in
    Run paths t by_ sh (find_map (get_mask s) es) (find_map get_blur es) (find_map get_outline es) (find_map get_shadow es)
      (find_map get_edge es) (find_map get_karaoke es) (has is_bold d) (has is_italic d) (has is_underline d) (has is_strike d).
  (* text/mod.rs 60-91 with prepare.rs 23-360: draw_text_layer *)
  Definition draw_text_layer (db : DB pl) (d : text_data) (s : state) : res unit * state :=
    match shape_text_cached db (shape_key d) s with
    | (Err, s) => (Err, s)
    | (Panic, s) => (Panic, s)
    | (Ok sh, s) =>
      let by_ := td_y d +. sh_baseline sh in
      let '(t, r3) := base_transform d sh by_ in
      let flat := match r3 with None => true | Some _ => false end in
      match (if flat then coverage_hit d t by_ s else None) with
      | Some out => out
      | None =>
        match (if flat then blur_tile_hit d by_ (sh_ascent sh) s else None) with
        | Some out => out
        | None =>
          match pl_font pl db (td_font d) (has is_bold d) (has is_italic d) (td_text d) with
          | Err => (Err, s)
          | Panic => (Panic, s)
          | Ok font =>
            match render_shaped_text db sh font (td_spacing d) s with
            | (Err, s) => (Err, s)
            | (Panic, s) => (Panic, s)
            | (Ok paths0, s) =>
              let '(paths, t) := project_all paths0 t r3 in
              match (if flat then coverage_miss d paths t by_ s else None) with
              | Some out => out
              | None =>
                let s := match pl_bbox pl d paths t with Some b => with_dirty (note_dirty_bbox (st_dirty s) b) s | None => s end in
                (Ok tt, draw_run d (make_run d sh by_ paths t s) s)
              end
            end
          end
        end
      end
    end.

  (* mod.rs 135-152, composite_layer; a raster or vector layer draws on the
     pixmap, notes boxes and looks at nothing else *)
  Inductive layer := LText (d : text_data) | LOther (f : Z -> Z -> list N -> res (list N * list bbox)).
  Definition composite_layer (db : DB pl) (l : layer) (s : state) : res unit * state :=
    match l with
    | LText d => draw_text_layer db d s
    | LOther f =>
      match f (st_w s) (st_h s) (st_pix s) with
      | Ok (p, boxes) => (Ok tt, with_dirty (fold_left note_dirty_bbox boxes (st_dirty s)) (with_pix p s))
      | Err => (Err, s)
      | Panic => (Panic, s)
      end
    end.
  Definition blank (s : state) : list N := repeat 0%N (Z.to_nat (st_w s * st_h s) * 4).
  Fixpoint each_layer (db : DB pl) (ls : list layer) (s : state) : res unit * state :=
    match ls with
    | [] => (Ok tt, s)
    | l :: r => match composite_layer db l s with
                | (Ok _, s1) => each_layer db r s1
                | (Err, s1) => (Err, s1)
                | (Panic, s1) => (Panic, s1)
                end
    end.
  (* mod.rs 169-189, composite_layers: the bytes of the frame *)
  Definition composite_layers (db : DB pl) (ls : list layer) (s : state) : res (list N) * state :=
    match each_layer db ls (with_pix (blank s) s) with
    | (Ok _, s1) => (Ok (st_pix s1), s1)
    | (Err, s1) => (Err, s1)
    | (Panic, s1) => (Panic, s1)
    end.

  (* mod.rs 84-133, render_to_bitmaps *)
  Fixpoint bitmap_layers (db : DB pl) (ls : list layer) (out : list bitmap) (s : state) : res (list bitmap) * state :=
    match ls with
    | [] => (Ok out, with_sink None s)
    | l :: r =>
      match composite_layer db l (swap_pix (with_dirty None (with_sink (Some []) s))) with
      | (Err, s1) => (Err, swap_pix s1)
      | (Panic, s1) => (Panic, s1)
      | (Ok _, s1) =>
        let s1 := swap_pix s1 in
        let coverage := match st_sink s1 with Some l => l | None => [] end in
        let s2 := with_sink None s1 in
        match coverage with
        | [] =>
          match crop_pixmap (Pixmap (st_w s2) (st_h s2) (st_scratch s2)) (st_dirty s2) with
          | None => (Panic, s2)
          | Some None => bitmap_layers db r out s2
          | Some (Some b) =>
            match b with
            | BRgba w h _ x y =>
              match clear_region (Pixmap (st_w s2) (st_h s2) (st_scratch s2)) x y w h with
              | None => (Panic, s2)
              | Some p => bitmap_layers db r (out ++ [b]) (with_scratch (p_data p) s2)
              end
            | BCoverage _ _ _ _ _ _ => bitmap_layers db r (out ++ [b]) s2
            end
          end
        | _ => bitmap_layers db r (out ++ coverage) s2
        end
      end
    end.
  Definition render_to_bitmaps (db : DB pl) (ls : list layer) (s : state) : res (list bitmap) * state :=
    bitmap_layers db ls [] (with_scratch (blank s) s).

  (* one call on the thread: the pipeline shapes text with its own database, or
     the backend draws a frame or a bitmap list *)
  Inductive call := CShape (db : DB pl) (k : skey) | CFrame (ls : list layer) | CBitmaps (ls : list layer).
  Inductive answer := AShape (r : res shaped) | AFrame (r : res (list N)) | ABitmaps (r : res (list bitmap)).
  Definition step (db : DB pl) (c : call) (s : state) : answer * state :=
    match c with
    | CShape d k => let '(r, s1) := shape_text_cached d k s in (AShape r, s1)
    | CFrame ls => let '(r, s1) := composite_layers db ls s in (AFrame r, s1)
    | CBitmaps ls => let '(r, s1) := render_to_bitmaps db ls s in (ABitmaps r, s1)
    end.
  Fixpoint steps (db : DB pl) (cs : list call) (s : state) : list answer * state :=
    match cs with
    | [] => ([], s)
    | c :: r => let '(a, s1) := step db c s in let '(l, s2) := steps db r s1 in (a :: l, s2)
    end.
  (* a new backend on a new thread *)
  Definition fresh (w h : Z) : state :=
    State [] [] [] [] None None w h (repeat 0%N (Z.to_nat (w * h) * 4)) (repeat 0%N (Z.to_nat (w * h) * 4)).
End Code.
