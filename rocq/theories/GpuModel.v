(* The GPU compositor: textures and buffers it keeps between calls, the tile
   pool, the uniform buffer, drawing passes and reading back.
   Sources (crates/ass-renderer/src/backends/gpu): compositor/{mod,tiles,present}.rs,
   pool.rs, readback.rs, target.rs, layer.rs, mod.rs 85-127.
   The device is a record of its limits and of what a clear and the drawing of
   one quad do to a texture; these may be any functions (a quad keeps the size
   of what it is drawn on).  Queue writes and submitted passes take effect in
   the order they are issued, as WebGPU has it, so the model runs them at once.
   A call that breaks a WebGPU rule modelled here (sizes, ranges, alignment)
   gives None, as does a panic: wgpu's default handler panics too.  Textures
   and buffers are never freed in the model; their ids are positions in lists. *)
From Verif Require Import Base PixelModel FloatModel.
From Verif Require FrameModel.
Notation upd := FrameModel.upd.

Inductive tformat := R8 | RGBA8 | FOther (k : N).
Definition tformat_eqb (a b : tformat) : bool :=
  match a, b with R8, R8 | RGBA8, RGBA8 => true | FOther x, FOther y => (x =? y)%N | _, _ => false end.
Definition tbpp (f : tformat) : N := match f with R8 => 1 | RGBA8 => 4 | FOther _ => 4 end.
Record texture := Tex { t_fmt : tformat; t_w : N; t_h : N; t_px : list N }.
(* pool.rs 22-30 *)
Definition four := (float * float * float * float)%type.
Record quad := Quad { q_rect : four; q_color : four; q_mode : four }.
(* a colour to clear with: transparent, or given by the user *)
Inductive clear_to := Transparent | Colour (c : N).

Record device := Dev {
  d_align : N;                                   (* min_uniform_buffer_offset_alignment *)
  d_maxdim : N;                                  (* max_texture_dimension_2d *)
  d_maxbuf : N;                                  (* max_buffer_size *)
  d_clear : clear_to -> tformat -> N -> N -> list N;   (* LoadOp::Clear *)
  (* what drawing one quad makes of the pixels: format and size of the target, its pixels, 48 uniform bytes, the tile's texture *)
  d_draw : tformat -> N -> N -> list N -> list N -> texture -> list N;
  d_ubytes : quad -> list N }.                   (* bytemuck::bytes_of: twelve f32 *)

(* what lives on the device *)
Record store := St { textures : list texture; buffers : list (list N) }.

Definition mul32 (a b : N) : option N := if (a * b <? 4294967296)%N then Some (a * b)%N else None.
Definition add32 (a b : N) : option N := if (a + b <? 4294967296)%N then Some (a + b)%N else None.

(* rows [stride] apart, [rowb] bytes each, joined *)
Fixpoint rows_at (stride rowb y n : nat) (data : list N) : option (list N) :=
  match n with
  | 0 => Some []
  | S n' => do r <- sub_slice (y * stride) rowb data; do rest <- rows_at stride rowb (S y) n' data; Some (r ++ rest)
  end.
(* the reverse: rows of px put [stride] apart into buf *)
Fixpoint rows_to (stride rowb y n : nat) (px buf : list N) : option (list N) :=
  match n with
  | 0 => Some buf
  | S n' => do r <- sub_slice (y * rowb) rowb px; do b <- copy_at (y * stride) r buf; rows_to stride rowb (S y) n' px b
  end.

(* Device::create_texture: both sizes within the limits; contents are zero *)
Definition create_texture (dv : device) (s : store) (f : tformat) (w h : N) : option (store * nat) :=
  if (0 <? w)%N && (w <=? d_maxdim dv)%N && (0 <? h)%N && (h <=? d_maxdim dv)%N
  then Some (St (textures s ++ [Tex f w h (repeat 0%N (N.to_nat (w * h * tbpp f)))]) (buffers s), List.length (textures s))
  else None.
(* Device::create_buffer *)
Definition create_buffer (dv : device) (s : store) (size : N) : option (store * nat) :=
  if (size <=? d_maxbuf dv)%N then Some (St (textures s) (buffers s ++ [repeat 0%N (N.to_nat size)]), List.length (buffers s)) else None.
Definition set_tex (s : store) (i : nat) (t : texture) : store := St (upd i t (textures s)) (buffers s).
Definition set_buf (s : store) (i : nat) (b : list N) : store := St (textures s) (upd i b (buffers s)).
(* Queue::write_texture over the whole texture: rows are bytes_per_row apart *)
Definition write_texture (s : store) (i : nat) (data : list N) (bpr : N) : option store :=
  do t <- nth_error (textures s) i;
  let rowb := (t_w t * tbpp (t_fmt t))%N in
  if (bpr <? rowb)%N then None else
  do px <- rows_at (N.to_nat bpr) (N.to_nat rowb) 0 (N.to_nat (t_h t)) data;
  Some (set_tex s i (Tex (t_fmt t) (t_w t) (t_h t) px)).
(* Queue::write_buffer at offset 0: a multiple of four bytes, within the buffer *)
Definition write_buffer (s : store) (i : nat) (data : list N) : option store :=
  do b <- nth_error (buffers s) i;
  if negb (N.of_nat (List.length data) mod 4 =? 0)%N then None else
  do b1 <- copy_at 0 data b;
  Some (set_buf s i b1).

(* readback.rs 12-17, target.rs 14-20, layer.rs 17-24 *)
Record target := Tg { g_w : N; g_h : N; g_tex : nat; g_read : nat; g_padded : N }.
(* layer.rs 101-105 *)
Record screen := Sc { s_w : N; s_h : N; s_tex : nat }.
(* pool.rs 114-121; the key is the texture's format and size *)
Record tile := Tl { tl_key : tformat * N * N; tl_tex : nat }.
Definition key_eqb (a b : tformat * N * N) : bool :=
  let '(f, w, h) := a in let '(g, x, y) := b in tformat_eqb f g && (w =? x)%N && (h =? y)%N.
(* compositor/mod.rs 40-66; the pool's per-size stacks are one list, newest first *)
Record comp := Co {
  c_stride : N; c_target : option target; c_layer : option target; c_screen : option screen;
  c_uniforms : option (nat * N); c_pool : list tile; c_present : list tformat }.
Record world := Wd { w_st : store; w_comp : comp; w_user : list texture }.

(* pool.rs 18 *)
Definition UNIFORM_SIZE : N := 48.
Definition div_ceil (a b : N) : N := ((a + b - 1) / b)%N.
(* compositor/mod.rs 70-98, new *)
Definition comp_new (dv : device) : option comp :=
  do stride <- mul32 (div_ceil UNIFORM_SIZE (d_align dv)) (d_align dv);
  Some (Co stride None None None None [] []).

(* readback.rs 22-37 *)
Definition readback_new (dv : device) (s : store) (w h : N) : option (store * nat * N) :=
  do row <- mul32 w 4;
  do padded <- mul32 (div_ceil row 256) 256;
  do (s1, b) <- create_buffer dv s (padded * h);
  Some (s1, b, padded).
(* readback.rs 40-62, copy_from: rows of 256-byte multiples that fit the buffer *)
Definition copy_from (s : store) (g : target) : option store :=
  do t <- nth_error (textures s) (g_tex g);
  do b <- nth_error (buffers s) (g_read g);
  let rowb := (g_w g * tbpp (t_fmt t))%N in
  if negb ((g_padded g mod 256 =? 0)%N && (rowb <=? g_padded g)%N) then None else
  do b1 <- rows_to (N.to_nat (g_padded g)) (N.to_nat rowb) 0 (N.to_nat (g_h g)) (t_px t) b;
  Some (set_buf s (g_read g) b1).
(* readback.rs 83-93; a zero chunk size panics *)
Definition read_rows (s : store) (g : target) : option (list N) :=
  do b <- nth_error (buffers s) (g_read g);
  do row <- mul32 (g_w g) 4;
  if (row =? 0)%N then None else
  rows_at (N.to_nat (g_padded g)) (N.to_nat row) 0 (N.to_nat (g_h g)) b.

(* target.rs 25-50; layer.rs 30-70 is the same with one more usage *)
Definition target_new (dv : device) (s : store) (w h : N) : option (store * target) :=
  do (s1, t) <- create_texture dv s RGBA8 w h;
  do (s2, b, padded) <- readback_new dv s1 w h;
  Some (s2, Tg w h t b padded).
(* target.rs 53-55, layer.rs 73-75, 133-135 *)
Definition matches (g : option target) (w h : N) : bool :=
  match g with Some g => (g_w g =? w)%N && (g_h g =? h)%N | None => false end.

(* mod.rs 102-111 *)
Definition ensure_target (dv : device) (s : store) (c : comp) (w h : N) : option (store * comp) :=
  if matches (c_target c) w h then Some (s, c) else
  do (s1, g) <- target_new dv s w h;
  Some (s1, Co (c_stride c) (Some g) (c_layer c) (c_screen c) (c_uniforms c) (c_pool c) (c_present c)).
(* mod.rs 114-123 *)
Definition ensure_layer (dv : device) (s : store) (c : comp) (w h : N) : option (store * comp) :=
  if matches (c_layer c) w h then Some (s, c) else
  do (s1, g) <- target_new dv s w h;
  Some (s1, Co (c_stride c) (c_target c) (Some g) (c_screen c) (c_uniforms c) (c_pool c) (c_present c)).
(* mod.rs 126-135 *)
Definition ensure_screen (dv : device) (s : store) (c : comp) (w h : N) : option (store * comp) :=
  if match c_screen c with Some x => (s_w x =? w)%N && (s_h x =? h)%N | None => false end then Some (s, c) else
  do (s1, t) <- create_texture dv s RGBA8 w h;
  Some (s1, Co (c_stride c) (c_target c) (c_layer c) (Some (Sc w h t)) (c_uniforms c) (c_pool c) (c_present c)).
(* u32::next_power_of_two *)
Definition next_pow2 (n : N) : option N :=
  let p := (2 ^ N.log2_up n)%N in if (p <? 4294967296)%N then Some p else None.
(* mod.rs 139-173 *)
Definition ensure_uniforms (dv : device) (s : store) (c : comp) (count : N) : option (store * comp) :=
  if (count =? 0)%N || match c_uniforms c with Some (_, cap) => (count <=? cap)%N | None => false end then Some (s, c) else
  do cap <- next_pow2 count;
  do (s1, b) <- create_buffer dv s (c_stride c * cap);
  Some (s1, Co (c_stride c) (c_target c) (c_layer c) (c_screen c) (Some (b, cap)) (c_pool c) (c_present c)).

(* pool.rs 226-239 *)
Definition i32_cast (w : N) : Z := if (w <? 2147483648)%N then Z.of_N w else (Z.of_N w - 4294967296)%Z.
Definition add_i32 (a b : Z) : option Z := if ((-2147483648 <=? a + b) && (a + b <=? 2147483647))%Z then Some (a + b)%Z else None.
Definition tile_rect (x y : Z) (w h fw fh : N) : option four :=
  let fw := f_of_N f32 fw in
  let fh := f_of_N f32 fh in
  let one := Fin 1 in
  let two := Fin 2 in
  do r <- add_i32 x (i32_cast w);
  do b <- add_i32 y (i32_cast h);
  let left := f_of_Z f32 x in
  let right := f_of_Z f32 r in
  let top := f_of_Z f32 y in
  let bottom := f_of_Z f32 b in
  Some (f_sub f32 (f_mul f32 (f_div f32 left fw) two) one,
        f_sub f32 one (f_mul f32 (f_div f32 top fh) two),
        f_sub f32 (f_mul f32 (f_div f32 right fw) two) one,
        f_sub f32 one (f_mul f32 (f_div f32 bottom fh) two)).
Definition zero4 : four := (Fin 0, Fin 0, Fin 0, Fin 0).
Definition mode1 : four := (Fin 1, Fin 0, Fin 0, Fin 0).
(* pool.rs 35-41 *)
Definition full_frame : quad := Quad (Fin (-1), Fin 1, Fin 1, Fin (-1)) zero4 mode1.
(* coverage/mod.rs, RenderBitmap *)
Inductive bitmap :=
| BCov (w h : N) (cov : list N) (x y : Z) (r g b a : N)
| BRgba (w h : N) (px : list N) (x y : Z).
(* pool.rs 50-63 *)
Record desc := De { de_quad : quad; de_fmt : tformat; de_w : N; de_h : N; de_data : list N; de_bpr : N }.
Definition unit_of (c : N) : float := f_div f32 (f_of_N f32 c) (f_of_N f32 255).
(* pool.rs 66-111 *)
Definition describe (b : bitmap) (fw fh : N) : option desc :=
  match b with
  | BCov w h cov x y r g b a =>
    do rect <- tile_rect x y w h fw fh;
    Some (De (Quad rect (unit_of r, unit_of g, unit_of b, unit_of a) zero4) R8 w h cov w)
  | BRgba w h px x y =>
    do rect <- tile_rect x y w h fw fh;
    do bpr <- mul32 w 4;
    Some (De (Quad rect zero4 mode1) RGBA8 w h px bpr)
  end.

Fixpoint take_tile (k : tformat * N * N) (pool : list tile) : option (tile * list tile) :=
  match pool with
  | [] => None
  | t :: r => if key_eqb (tl_key t) k then Some (t, r) else do (u, r') <- take_tile k r; Some (u, t :: r')
  end.
(* pool.rs 164-177, 188-222 *)
Definition acquire (dv : device) (s : store) (pool : list tile) (f : tformat) (w h : N) : option (store * list tile * tile) :=
  match take_tile (f, w, h) pool with
  | Some (t, r) => Some (s, r, t)
  | None => do (s1, i) <- create_texture dv s f w h; Some (s1, pool, Tl (f, w, h) i)
  end.
(* pool.rs 180-184: each tile goes on top of its stack *)
Definition release (pool tiles : list tile) : list tile := rev tiles ++ pool.

(* tiles.rs 32-46 *)
Fixpoint prepare_loop (dv : device) (stride : nat) (fw fh : N) (bs : list bitmap) (i : nat)
    (s : store) (pool : list tile) (ub : list N) (tiles : list tile) : option (store * list tile * list N * list tile) :=
  match bs with
  | [] => Some (s, pool, ub, tiles)
  | b :: r =>
    do d <- describe b fw fh;
    do ub1 <- copy_at (i * stride) (d_ubytes dv (de_quad d)) ub;
    do (s1, pool1, t) <- acquire dv s pool (de_fmt d) (de_w d) (de_h d);
    do s2 <- write_texture s1 (tl_tex t) (de_data d) (de_bpr d);
    prepare_loop dv stride fw fh r (S i) s2 pool1 ub1 (tiles ++ [t])
  end.
(* tiles.rs 18-53 *)
Definition prepare_tiles (dv : device) (s : store) (c : comp) (bs : list bitmap) (fw fh : N) : option (store * comp * list tile) :=
  let n := N.of_nat (List.length bs) in
  let count := if (n <? 4294967296)%N then n else 4294967295%N in
  do (s0, c0) <- ensure_uniforms dv s c count;
  let stride := N.to_nat (c_stride c0) in
  do (s1, pool, ub, tiles) <- prepare_loop dv stride fw fh bs 0 s0 (c_pool c0) (repeat 0%N (stride * List.length bs)) [];
  let c1 := Co (c_stride c0) (c_target c0) (c_layer c0) (c_screen c0) (c_uniforms c0) pool (c_present c0) in
  match c_uniforms c0 with
  | Some (u, _) => if (List.length ub =? 0) then Some (s1, c1, tiles) else do s2 <- write_buffer s1 u ub; Some (s2, c1, tiles)
  | None => Some (s1, c1, tiles)
  end.

(* set_bind_group with a dynamic offset: aligned and within the buffer *)
Definition bound (dv : device) (buf : list N) (offset : N) : option (list N) :=
  if (offset mod d_align dv =? 0)%N then sub_slice (N.to_nat offset) 48 buf else None.
(* tiles.rs 82-87 *)
Fixpoint draw_loop (dv : device) (s : store) (buf : list N) (stride : N) (f : tformat) (w h : N) (tiles : list tile) (offset : N) (px : list N) : option (list N) :=
  match tiles with
  | [] => Some px
  | t :: r =>
    do u <- bound dv buf offset;
    do tx <- nth_error (textures s) (tl_tex t);
    do offset1 <- add32 offset stride;
    draw_loop dv s buf stride f w h r offset1 (d_draw dv f w h px u tx)
  end.
(* tiles.rs 57-89: a pass over a texture that is none of the tiles *)
Definition draw_tiles_pass (dv : device) (s : store) (c : comp) (tiles : list tile) (view : nat) : option store :=
  do t <- nth_error (textures s) view;
  if existsb (fun x => tl_tex x =? view) tiles then None else
  let px0 := d_clear dv Transparent (t_fmt t) (t_w t) (t_h t) in
  match c_uniforms c with
  | None => Some (set_tex s view (Tex (t_fmt t) (t_w t) (t_h t) px0))
  | Some (u, _) =>
    do buf <- nth_error (buffers s) u;
    do px <- draw_loop dv s buf (c_stride c) (t_fmt t) (t_w t) (t_h t) tiles 0 px0;
    Some (set_tex s view (Tex (t_fmt t) (t_w t) (t_h t) px))
  end.

Inductive error := InvalidDimensions | MapFailed | NoLayer | NoMatchingLayer | NoPipeline | NoUniforms.
Inductive answer := Bytes (b : list N) | Done | Failed (e : error).
Definition with_pool (c : comp) (p : list tile) : comp := Co (c_stride c) (c_target c) (c_layer c) (c_screen c) (c_uniforms c) p (c_present c).

(* mod.rs 178-210; [mapped] tells whether mapping the buffer works this time *)
Definition composite (dv : device) (s : store) (c : comp) (bs : list bitmap) (w h : N) (mapped : bool) : option (store * comp * answer) :=
  if (w =? 0)%N || (h =? 0)%N then Some (s, c, Failed InvalidDimensions) else
  do (s1, c1) <- ensure_target dv s c w h;
  do (s2, c2, tiles) <- prepare_tiles dv s1 c1 bs w h;
  do g <- c_target c2;
  do s3 <- draw_tiles_pass dv s2 c2 tiles (g_tex g);
  do s4 <- copy_from s3 g;
  if mapped then
    do out <- read_rows s4 g;
    Some (s4, with_pool c2 (release (c_pool c2) tiles), Bytes out)
  else Some (s4, c2, Failed MapFailed).
(* mod.rs 216-245 *)
Definition render_layer (dv : device) (s : store) (c : comp) (bs : list bitmap) (w h : N) : option (store * comp * answer) :=
  if (w =? 0)%N || (h =? 0)%N then Some (s, c, Failed InvalidDimensions) else
  do (s1, c1) <- ensure_layer dv s c w h;
  do (s2, c2, tiles) <- prepare_tiles dv s1 c1 bs w h;
  do g <- c_layer c2;
  do s3 <- draw_tiles_pass dv s2 c2 tiles (g_tex g);
  Some (s3, with_pool c2 (release (c_pool c2) tiles), Done).
(* mod.rs 339-353 *)
Definition layer_to_bytes (s : store) (c : comp) (mapped : bool) : option (store * answer) :=
  match c_layer c with
  | None => Some (s, Failed NoLayer)
  | Some g =>
    do s1 <- copy_from s g;
    if mapped then do out <- read_rows s1 g; Some (s1, Bytes out) else Some (s1, Failed MapFailed)
  end.

Inductive background := Clear (c : N) | Behind (t : texture).
Definition quads_of (b : background) : N := match b with Clear _ => 1 | Behind _ => 2 end.
(* present.rs 107-110 *)
Fixpoint full_uniforms (dv : device) (stride : nat) (slot n : nat) (bytes : list N) : option (list N) :=
  match n with
  | 0 => Some bytes
  | S n' => do b <- copy_at (slot * stride) (d_ubytes dv full_frame) bytes; full_uniforms dv stride (S slot) n' b
  end.
(* present.rs 95-170: what the target texture becomes *)
Definition encode (dv : device) (s : store) (c : comp) (bg : background) (tgt : texture) : option (store * (texture + error)) :=
  let stride := N.to_nat (c_stride c) in
  let n := N.to_nat (quads_of bg) in
  do bytes <- full_uniforms dv stride 0 n (repeat 0%N (stride * n));
  match c_uniforms c with
  | None => Some (s, inr NoUniforms)
  | Some (u, _) =>
    do s1 <- write_buffer s u bytes;
    do buf <- nth_error (buffers s1) u;
    do g <- c_layer c;
    do lt <- nth_error (textures s1) (g_tex g);
    let f := t_fmt tgt in
    let w := t_w tgt in
    let h := t_h tgt in
    let px0 := d_clear dv (match bg with Clear k => Colour k | Behind _ => Transparent end) f w h in
    do (off, px1) <- match bg with
                      | Clear _ => Some (0%N, px0)
                      | Behind bt => do u1 <- bound dv buf 0; do off <- add32 0 (c_stride c); Some (off, d_draw dv f w h px0 u1 bt)
                      end;
    do u2 <- bound dv buf off;
    Some (s1, inl (Tex f w h (d_draw dv f w h px1 u2 lt)))
  end.
(* mod.rs 251-279, present.rs 44-63 *)
Definition present_over (dv : device) (s : store) (c : comp) (bg : background) (w h : N) : option (store * comp * answer) :=
  if (w =? 0)%N || (h =? 0)%N then Some (s, c, Failed InvalidDimensions) else
  if negb (matches (c_layer c) w h) then Some (s, c, Failed NoMatchingLayer) else
  do (s1, c1) <- ensure_screen dv s c w h;
  do (s2, c2) <- ensure_uniforms dv s1 c1 (quads_of bg);
  do x <- c_screen c2;
  do t <- nth_error (textures s2) (s_tex x);
  do (s3, r) <- encode dv s2 c2 bg t;
  match r with
  | inl t1 => Some (set_tex s3 (s_tex x) t1, c2, Done)
  | inr e => Some (s3, c2, Failed e)
  end.
(* mod.rs 283-289 *)
Definition ensure_present_pipeline (c : comp) (f : tformat) : comp :=
  if existsb (tformat_eqb f) (c_present c) then c
  else Co (c_stride c) (c_target c) (c_layer c) (c_screen c) (c_uniforms c) (c_pool c) (f :: c_present c).
(* mod.rs 297-334, present.rs 69-90: the texture shown by the user's view *)
Definition present_to_view (dv : device) (s : store) (c : comp) (tgt : texture) (bg : background) (w h : N) : option (store * comp * answer * texture) :=
  if (w =? 0)%N || (h =? 0)%N then Some (s, c, Failed InvalidDimensions, tgt) else
  if negb (matches (c_layer c) w h) then Some (s, c, Failed NoMatchingLayer, tgt) else
  do (s1, c1) <- ensure_uniforms dv s c (quads_of bg);
  let c2 := ensure_present_pipeline c1 (t_fmt tgt) in
  if negb (existsb (tformat_eqb (t_fmt tgt)) (c_present c2)) then Some (s1, c2, Failed NoPipeline, tgt) else
  do (s2, r) <- encode dv s1 c2 bg tgt;
  match r with
  | inl t1 => Some (s2, c2, Done, t1)
  | inr e => Some (s2, c2, Failed e, tgt)
  end.

(* the calls a user can make; textures of their own are numbered *)
Inductive backdrop := BgColour (c : N) | BgTexture (i : nat).
Inductive call :=
| CComposite (bs : list bitmap) (w h : N) (mapped : bool)
| CRender (bs : list bitmap) (w h : N)
| CBytes (mapped : bool)
| CPresent (bg : backdrop) (w h : N)
| CView (i : nat) (bg : backdrop) (w h : N)
| CUser (t : texture).                      (* the user makes a texture *)

(* a background is not the texture drawn on: wgpu does not allow both uses in one pass *)
Definition user_bg (us : list texture) (bg : backdrop) (on : option nat) : option background :=
  match bg with
  | BgColour c => Some (Clear c)
  | BgTexture i => if match on with Some j => i =? j | None => false end then None else do t <- nth_error us i; Some (Behind t)
  end.
Definition do_call (dv : device) (w : world) (k : call) : option (world * answer) :=
  match k with
  | CComposite bs x y m => do (s, c, a) <- composite dv (w_st w) (w_comp w) bs x y m; Some (Wd s c (w_user w), a)
  | CRender bs x y => do (s, c, a) <- render_layer dv (w_st w) (w_comp w) bs x y; Some (Wd s c (w_user w), a)
  | CBytes m => do (s, a) <- layer_to_bytes (w_st w) (w_comp w) m; Some (Wd s (w_comp w) (w_user w), a)
  | CPresent bg x y =>
    do b <- user_bg (w_user w) bg None;
    do (s, c, a) <- present_over dv (w_st w) (w_comp w) b x y; Some (Wd s c (w_user w), a)
  | CView i bg x y =>
    do t <- nth_error (w_user w) i;
    do b <- user_bg (w_user w) bg (Some i);
    do (s, c, a, t1) <- present_to_view dv (w_st w) (w_comp w) t b x y; Some (Wd s c (upd i t1 (w_user w)), a)
  | CUser t => Some (Wd (w_st w) (w_comp w) (w_user w ++ [t]), Done)
  end.
Fixpoint calls (dv : device) (w : world) (l : list call) : option (world * list answer) :=
  match l with
  | [] => Some (w, [])
  | k :: r => do (w1, a) <- do_call dv w k; do (w2, t) <- calls dv w1 r; Some (w2, a :: t)
  end.
Definition gpu_run (dv : device) (l : list call) : option (world * list answer) :=
  do c <- comp_new dv; calls dv (Wd (St [] []) c []) l.
