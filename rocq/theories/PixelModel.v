(* Blending of coverage tiles and bitmaps into a pixel buffer, and the dirty
   rectangle handling of the software backend.
   Sources (crates/ass-renderer/src): backends/coverage/blend.rs,
   backends/coverage/composite.rs, backends/software/dirty.rs 58-148,
   backends/software/mod.rs 84-133, pipeline/compositing/mod.rs 57-85.
   A byte buffer is a list of numbers below 256; None is a panic (index out of
   range, arithmetic overflow in a checked build).  Indices and lengths as
   usize are naturals: buffers fit in memory, so usize sums do not overflow. *)
From Verif Require Import Base.

Notation "'do' x <- e ; f" := (match e with Some x => f | None => None end) (at level 100, x pattern, e at next level, f at level 200, right associativity).

(* buf[i] = f(buf[i]) *)
Definition modify (i : nat) (f : N -> N) (buf : list N) : option (list N) :=
  match nth_error buf i with
  | Some v => Some (firstn i buf ++ f v :: skipn (S i) buf)
  | None => None
  end.
(* &buf[i..i + n] *)
Definition sub_slice (i n : nat) (buf : list N) : option (list N) :=
  if i + n <=? List.length buf then Some (firstn n (skipn i buf)) else None.
(* buf[i..i + new.len()].copy_from_slice(new) *)
Definition copy_at (i : nat) (new buf : list N) : option (list N) :=
  if i + List.length new <=? List.length buf then Some (firstn i buf ++ new ++ skipn (i + List.length new) buf) else None.

(* u16 addition, multiplication and subtraction in a checked build *)
Definition add16 (a b : N) : option N := if (a + b <? 65536)%N then Some (a + b)%N else None.
Definition mul16 (a b : N) : option N := if (a * b <? 65536)%N then Some (a * b)%N else None.
Definition sub16 (a b : N) : option N := if (b <=? a)%N then Some (a - b)%N else None.
Definition u8 (a : N) : N := (a mod 256)%N.
(* blend.rs 14-17, mul255 *)
Definition mul255 (a b : N) : option N :=
  do p <- mul16 a b;
  do t <- add16 p 128;
  do u <- add16 t (t / 256);
  Some (u / 256)%N.
(* the lanes of wide::u16x16 wrap; blend.rs 21-24, mul255x16 on one lane *)
Definition mul255w (a b : N) : N :=
  (let t := ((a * b) mod 65536 + 128) mod 65536 in
   (t + t / 256) mod 65536 / 256)%N.

(* blend.rs 153-156: one channel *)
Definition channel (p cov d inv : N) : option N :=
  do s <- mul255 p cov;
  do m <- mul255 d inv;
  do o <- add16 s m;
  Some (u8 o).
Definition modify_opt (i : nat) (f : N -> option N) (buf : list N) : option (list N) :=
  do v <- nth_error buf i;
  do w <- f v;
  modify i (fun _ => w) buf.
(* blend.rs 148-157, blend_pixel *)
Definition blend_pixel (dst : list N) (di : nat) (cov pr pg pb pa : N) : option (list N) :=
  if (cov =? 0)%N then Some dst else
  do m <- mul255 pa cov;
  do inv <- sub16 255 m;
  do dst1 <- modify_opt di (fun d => channel pr cov d inv) dst;
  do dst2 <- modify_opt (di + 1) (fun d => channel pg cov d inv) dst1;
  do dst3 <- modify_opt (di + 2) (fun d => channel pb cov d inv) dst2;
  modify_opt (di + 3) (fun d => channel pa cov d inv) dst3.
(* blend.rs 130-144, blend_row without the simd feature (and the tail loop 115-126 with it) *)
Fixpoint blend_row (dst : list N) (di : nat) (row : list N) (pr pg pb pa : N) : option (list N) :=
  match row with
  | [] => Some dst
  | c :: row' =>
    do dst1 <- blend_pixel dst di c pr pg pb pa;
    blend_row dst1 (di + 4) row' pr pg pb pa
  end.
(* blend.rs 49-112: a group of four pixels, lane by lane *)
Definition quad {A} (a b c d : A) : list A := [a; a; a; a; b; b; b; b; c; c; c; c; d; d; d; d].
Fixpoint zip_with {A B C} (f : A -> B -> C) (a : list A) (b : list B) : list C :=
  match a, b with
  | x :: a', y :: b' => f x y :: zip_with f a' b'
  | _, _ => []
  end.
Definition blend_group (dst : list N) (di : nat) (c0 c1 c2 c3 pr pg pb pa : N) : option (list N) :=
  if (N.lor (N.lor (N.lor c0 c1) c2) c3 =? 0)%N then Some dst else
  let pcolor := [pr; pg; pb; pa; pr; pg; pb; pa; pr; pg; pb; pa; pr; pg; pb; pa] in
  let src := zip_with mul255w pcolor (quad c0 c1 c2 c3) in
  do i0 <- sub16 255 (nth 3 src 0%N);
  do i1 <- sub16 255 (nth 7 src 0%N);
  do i2 <- sub16 255 (nth 11 src 0%N);
  do i3 <- sub16 255 (nth 15 src 0%N);
  do d <- sub_slice di 16 dst;
  let out := zip_with (fun s m => (s + m) mod 65536)%N src (zip_with mul255w d (quad i0 i1 i2 i3)) in
  copy_at di (map u8 out) dst.
(* blend.rs 32-127, blend_row with the simd feature *)
Fixpoint blend_row_simd (dst : list N) (di : nat) (row : list N) (pr pg pb pa : N) : option (list N) :=
  match row with
  | c0 :: c1 :: c2 :: c3 :: row' =>
    do dst1 <- blend_group dst di c0 c1 c2 c3 pr pg pb pa;
    blend_row_simd dst1 (di + 16) row' pr pg pb pa
  | _ => blend_row dst di row pr pg pb pa
  end.

(* i32 arithmetic in a checked build; u32 as i32; i32 as usize (a negative
   value becomes an index no slice has) *)
Definition i32 (z : Z) : option Z := if ((-2147483648 <=? z) && (z <=? 2147483647))%Z then Some z else None.
Definition as_i32 (z : Z) : Z := if (z <? 2147483648)%Z then z else (z - 4294967296)%Z.
Definition as_usize (z : Z) : option nat := if (z <? 0)%Z then None else Some (Z.to_nat z).
(* lo..hi *)
Definition span_from (lo hi : Z) : list Z := map (fun k => (lo + Z.of_nat k)%Z) (seq 0 (Z.to_nat (hi - lo))).
Fixpoint each_row {S} (f : Z -> S -> option S) (ys : list Z) (s : S) : option S :=
  match ys with
  | [] => Some s
  | y :: ys' => do s1 <- f y s; each_row f ys' s1
  end.

Record colour := Colour { c_r : N; c_g : N; c_b : N; c_a : N }.
(* composite.rs 36-41 and 107-112: the part of the tile inside the target *)
Definition clip (tile dst pos : Z) : option (Z * Z) :=
  do n <- i32 (- pos)%Z;
  do r <- i32 (dst - pos)%Z;
  Some (Z.max n 0, Z.min tile r).
(* composite.rs 16-52, composite_coverage (the row function is the one compiled in) *)
Definition composite_coverage (row : list N -> nat -> list N -> N -> N -> N -> N -> option (list N))
    (dst : list N) (dst_w dst_h : Z) (cov : list N) (cov_w cov_h x y : Z) (c : colour) : option (list N) :=
  let pa := c_a c in
  if (pa =? 0)%N then Some dst else
  do pr <- mul255 (c_r c) pa;
  do pg <- mul255 (c_g c) pa;
  do pb <- mul255 (c_b c) pa;
  let tw := as_i32 cov_w in let th := as_i32 cov_h in
  let dw := as_i32 dst_w in let dh := as_i32 dst_h in
  do (ty0, ty1) <- clip th dh y;
  do (tx0, tx1) <- clip tw dw x;
  if ((ty1 <=? ty0) || (tx1 <=? tx0))%Z then Some dst else
  let run := Z.to_nat (tx1 - tx0) in
  each_row (fun ty dst =>
    do a <- i32 (ty * tw)%Z;
    do b <- i32 (a + tx0)%Z;
    do base <- as_usize b;
    do cov_row <- sub_slice base run cov;
    do e <- i32 (y + ty)%Z;
    do f <- i32 (e * dw)%Z;
    do g <- i32 (f + x)%Z;
    do h <- i32 (g + tx0)%Z;
    do start <- as_usize h;
    row dst (start * 4) cov_row pr pg pb pa) (span_from ty0 ty1) dst.
(* composite.rs 120-130: one pixel of composite_rgba *)
Definition rgba_channel (s d inv : N) : option N :=
  do m <- mul255 d inv;
  do o <- add16 s m;
  Some (u8 o).
Definition rgba_pixel (pixels dst : list N) (si di : nat) : option (list N) :=
  do sa <- nth_error pixels (si + 3);
  if (sa =? 0)%N then Some dst else
  do inv <- sub16 255 sa;
  do s0 <- nth_error pixels si;
  do dst1 <- modify_opt di (fun d => rgba_channel s0 d inv) dst;
  do s1 <- nth_error pixels (si + 1);
  do dst2 <- modify_opt (di + 1) (fun d => rgba_channel s1 d inv) dst1;
  do s2 <- nth_error pixels (si + 2);
  do dst3 <- modify_opt (di + 2) (fun d => rgba_channel s2 d inv) dst2;
  do s3 <- nth_error pixels (si + 3);
  modify_opt (di + 3) (fun d => rgba_channel s3 d inv) dst3.
(* composite.rs 119-133: the inner loop *)
Fixpoint rgba_row (pixels dst : list N) (si di n : nat) : option (list N) :=
  match n with
  | 0 => Some dst
  | S n' => do dst1 <- rgba_pixel pixels dst si di; rgba_row pixels dst1 (si + 4) (di + 4) n'
  end.
(* composite.rs 103-135, composite_rgba *)
Definition composite_rgba (dst : list N) (dst_w dst_h : Z) (pixels : list N) (sw sh x y : Z) : option (list N) :=
  let tw := as_i32 sw in let th := as_i32 sh in
  let dw := as_i32 dst_w in let dh := as_i32 dst_h in
  do (ty0, ty1) <- clip th dh y;
  do (tx0, tx1) <- clip tw dw x;
  if ((ty1 <=? ty0) || (tx1 <=? tx0))%Z then Some dst else
  each_row (fun ty dst =>
    do a <- i32 (ty * tw)%Z;
    do b <- i32 (a + tx0)%Z;
    do s <- as_usize b;
    do e <- i32 (y + ty)%Z;
    do f <- i32 (e * dw)%Z;
    do g <- i32 (f + x)%Z;
    do h <- i32 (g + tx0)%Z;
    do d <- as_usize h;
    rgba_row pixels dst (s * 4) (d * 4) (Z.to_nat (tx1 - tx0))) (span_from ty0 ty1) dst.

(* coverage/mod.rs 48-77, RenderBitmap *)
Inductive bitmap :=
| BCoverage (width height : Z) (cov : list N) (x y : Z) (c : colour)
| BRgba (width height : Z) (pixels : list N) (x y : Z).
(* composite.rs 76-100, composite_bitmap *)
Definition composite_bitmap row (dst : list N) (dst_w dst_h : Z) (b : bitmap) : option (list N) :=
  match b with
  | BCoverage w h cov x y c => composite_coverage row dst dst_w dst_h cov w h x y c
  | BRgba w h pixels x y => composite_rgba dst dst_w dst_h pixels w h x y
  end.

(* dirty.rs 58-71, note_dirty_bbox: the slot after one more box (x0, y0, x1, y1) *)
Record bbox := Bbox { b_x0 : Z; b_y0 : Z; b_x1 : Z; b_y1 : Z }.
Definition note_dirty_bbox (slot : option bbox) (b : bbox) : option bbox :=
  Some (match slot with
        | None => b
        | Some s => Bbox (Z.min (b_x0 s) (b_x0 b)) (Z.min (b_y0 s) (b_y0 b)) (Z.max (b_x1 s) (b_x1 b)) (Z.max (b_y1 s) (b_y1 b))
        end).
(* a tiny_skia pixmap: width, height and premultiplied RGBA bytes *)
Record pixmap := Pixmap { p_w : Z; p_h : Z; p_data : list N }.
(* dirty.rs 80-97, clear_region *)
Definition clear_region (p : pixmap) (rx ry rw rh : Z) : option pixmap :=
  let w := as_i32 (p_w p) in let h := as_i32 (p_h p) in
  let x0 := Z.max rx 0 in let y0 := Z.max ry 0 in
  do a <- i32 (rx + as_i32 rw)%Z;
  let x1 := Z.min a w in
  do b <- i32 (ry + as_i32 rh)%Z;
  let y1 := Z.min b h in
  if ((x1 <=? x0) || (y1 <=? y0))%Z then Some p else
  let row_bytes := Z.to_nat (x1 - x0) * 4 in
  do data <- each_row (fun y data =>
    do c <- i32 (y * w)%Z;
    do d <- i32 (c + x0)%Z;
    do start <- as_usize d;
    copy_at (start * 4) (repeat 0%N row_bytes) data) (span_from y0 y1) (p_data p);
  Some (Pixmap (p_w p) (p_h p) data).

(* dirty.rs 117-128: the scan, keeping (min_x, min_y, max_x, max_y) *)
Definition scan_pixel (data : list N) (row : nat) (y x : Z) (s : bbox) : option bbox :=
  do xi <- as_usize x;
  do a <- nth_error data (row + xi * 4 + 3);
  Some (if (a =? 0)%N then s else Bbox (Z.min (b_x0 s) x) (Z.min (b_y0 s) y) (Z.max (b_x1 s) x) (Z.max (b_y1 s) y)).
Definition scan_row (data : list N) (w sx0 sx1 y : Z) (s : bbox) : option bbox :=
  do a <- i32 (y * w)%Z;
  do r <- as_usize a;
  each_row (scan_pixel data (r * 4) y) (span_from sx0 sx1) s.
(* dirty.rs 100-148, crop_pixmap; the outer option is the panic *)
Definition crop_pixmap (p : pixmap) (hint : option bbox) : option (option bitmap) :=
  let w := as_i32 (p_w p) in let h := as_i32 (p_h p) in
  do (sx0, sy0, sx1, sy1) <-
    match hint with
    | Some b => do a <- i32 (b_x1 b + 1)%Z; do c <- i32 (b_y1 b + 1)%Z; Some (Z.max (b_x0 b) 0, Z.max (b_y0 b) 0, Z.min a w, Z.min c h)
    | None => Some (0, 0, w, h)%Z
    end;
  if ((sx1 <=? sx0) || (sy1 <=? sy0))%Z then Some None else
  do s <- each_row (scan_row (p_data p) w sx0 sx1) (span_from sy0 sy1) (Bbox sx1 sy1 (-1) (-1));
  if (b_x1 s <? b_x0 s)%Z then Some None else
  do bw0 <- i32 (b_x1 s - b_x0 s)%Z; do bw <- i32 (bw0 + 1)%Z;
  do bh0 <- i32 (b_y1 s - b_y0 s)%Z; do bh <- i32 (bh0 + 1)%Z;
  let row_bytes := Z.to_nat bw * 4 in
  do pixels <- each_row (fun ty pixels =>
    do a <- i32 (b_y0 s + ty)%Z;
    do b <- i32 (a * w)%Z;
    do c <- i32 (b + b_x0 s)%Z;
    do src <- as_usize c;
    do t <- as_usize ty;
    do bytes <- sub_slice (src * 4) row_bytes (p_data p);
    copy_at (t * row_bytes) bytes pixels) (span_from 0 bh) (repeat 0%N (row_bytes * Z.to_nat bh));
  Some (Some (BRgba bw bh pixels (b_x0 s) (b_y0 s))).

(* software/mod.rs 84-133, render_to_bitmaps, for a scratch pixmap of the right
   size.  A layer is what drawing it does: given the scratch pixmap, the
   bitmaps emitted, the boxes noted, and the pixmap left behind. *)
Definition layer := list N -> list bitmap * list bbox * list N.
Definition render_layer (w h : Z) (l : layer) (scratch : list N) : option (list bitmap * list N) :=
  let '(emitted, boxes, data) := l scratch in
  match emitted with
  | [] =>
    do c <- crop_pixmap (Pixmap w h data) (fold_left note_dirty_bbox boxes None);
    match c with
    | Some (BRgba bw bh pixels x y) =>
      do p <- clear_region (Pixmap w h data) x y bw bh;
      Some ([BRgba bw bh pixels x y], p_data p)
    | Some b => Some ([b], data)
    | None => Some ([], data)
    end
  | _ => Some (emitted, data)
  end.
Fixpoint render_layers (w h : Z) (ls : list layer) (scratch : list N) : option (list bitmap * list N) :=
  match ls with
  | [] => Some ([], scratch)
  | l :: ls' =>
    do (out, s1) <- render_layer w h l scratch;
    do (outs, s2) <- render_layers w h ls' s1;
    Some (out ++ outs, s2)
  end.
Definition render_to_bitmaps (w h : Z) (ls : list layer) (scratch : list N) : option (list bitmap) :=
  do (out, _) <- render_layers w h ls (map (fun _ => 0%N) scratch);
  Some out.

(* compositing/mod.rs 57-85, alpha_blend (u32 sums never reach 2^32) *)
Definition mix (s d sa : N) : N := u8 ((s * sa + d * (255 - sa) + 255) / 256)%N.
Definition alpha_blend (src dst : colour) : colour :=
  let sa := c_a src in
  if (sa =? 0)%N then dst
  else if ((sa =? 255) && (c_a dst =? 0))%N then src
  else Colour (mix (c_r src) (c_r dst) sa) (mix (c_g src) (c_g dst) sa) (mix (c_b src) (c_b dst) sa) (mix 255 (c_a dst) sa).
