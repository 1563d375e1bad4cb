(* Model of the effects of a run of text and of the look of a drawing:
   ass-renderer pipeline/build/text/effects.rs, pipeline/build/text/mod.rs 243-244
   and 276-311, pipeline/build/drawing.rs 102-209.  The bounds of a drawing's path,
   already scaled to the frame, are an argument (tiny-skia computes them). *)
From Verif Require Export Base FloatModel SegmentModel ShowModel PlaceModel RunModel.
From Verif Require Import CollideModel.

(* pipeline/mod.rs:175-235, TextEffect *)
Inductive text_effect :=
| XBold | XItalic | XUnderline | XStrike
| XBox (c : rgba) (pad_x pad_y : float)
| XOutline (c : rgba) (width_x width_y : float)
| XShadow (c : rgba) (dx dy : float)
| XBlur (radius : float)
| XEdgeBlur (radius : float)
| XRotation (x y z : float) (origin : option (float * float))
| XShear (x y : float)
| XScale (x y : float)
| XClip (x1 y1 x2 y2 : float) (inverse : bool)
| XKaraoke (progress : float) (style : N) (secondary : rgba).

Definition num_of (t : tags) (f : field) : option float := match tg_field t f with Some (VNum x) => Some x | _ => None end.
Definition or_num (a b : option float) : option float := match a with Some _ => a | None => b end.
Definition flag_or (t : tags) (f : field) (d : bool) : bool := match tg_field t f with Some (VFlag b) => b | _ => d end.
Definition when {A} (b : bool) (x : A) : list A := if b then [x] else [].
Definition f_ne (a b : float) : bool := negb (f_eq a b).
(* text/defaults.rs:26-29 *)
Definition style_flag (st : option style) (cell : style -> str) : bool := match st with Some s => str_eqb (cell s) (lit "-1") | None => false end.
(* ScaledBorderAndShadow *)
Definition sized_by (scaled : bool) (k x : float) : float := if scaled then mul32 x k else x.
(* text/defaults.rs:47-63 *)
Definition own_outline (scaled : bool) (g : stage) (st : option style) : float := sized_by scaled (scale_y g) (cell_num st s_outline (fl 2)).
Definition own_shadow (scaled : bool) (g : stage) (st : option style) : float := sized_by scaled (scale_y g) (cell_num st s_shadow (fl 2)).
(* effects.rs:52-77 *)
Definition outline_x (scaled : bool) (g : stage) (st : option style) (t : tags) : float :=
  num_or (or_num (option_map (sized_by scaled (scale_x g)) (num_of t FBorderX)) (option_map (sized_by scaled (scale_y g)) (num_of t FBorder))) (own_outline scaled g st).
Definition outline_y (scaled : bool) (g : stage) (st : option style) (t : tags) : float :=
  num_or (or_num (option_map (sized_by scaled (scale_y g)) (num_of t FBorderY)) (option_map (sized_by scaled (scale_y g)) (num_of t FBorder))) (own_outline scaled g st).
(* effects.rs:78-80 *)
Definition border_style (st : option style) : N := match obind st (fun s => byte (trim (s_border_style s))) with Some n => n | None => 1%N end.
(* effects.rs:101-126 *)
Definition shadow_x (scaled : bool) (g : stage) (st : option style) (t : tags) : float :=
  num_or (or_num (option_map (sized_by scaled (scale_x g)) (num_of t FShadowX)) (option_map (sized_by scaled (scale_x g)) (num_of t FShadow))) (own_shadow scaled g st).
Definition shadow_y (scaled : bool) (g : stage) (st : option style) (t : tags) : float :=
  num_or (or_num (option_map (sized_by scaled (scale_y g)) (num_of t FShadowY)) (option_map (sized_by scaled (scale_y g)) (num_of t FShadow))) (own_shadow scaled g st).
Definition zero_if_none (o : option float) : float := num_or o (fl 0).
(* effects.rs:149-166 *)
Definition rotation (g : stage) (t : tags) : list text_effect :=
  let x := zero_if_none (num_of t FRotX) in
  let y := zero_if_none (num_of t FRotY) in
  let z := zero_if_none (or_num (num_of t FRotZ) (num_of t FAngle)) in
  when (f_ne x (fl 0) || f_ne y (fl 0) || f_ne z (fl 0))
       (XRotation x y z (match tg_field t FOrigin with Some (VPoint ox oy) => Some (mul32 ox (scale_x g), mul32 oy (scale_y g)) | _ => None end)).
(* effects.rs:168-176 *)
Definition shear (t : tags) : list text_effect :=
  match num_of t FShearX with
  | Some x => when (f_ne x (fl 0) || f_ne (zero_if_none (num_of t FShearY)) (fl 0)) (XShear x (zero_if_none (num_of t FShearY)))
  | None => []
  end.
(* effects.rs:182-189; the 0.01 is the nearest f32 *)
Definition off_100 (x : float) : bool := f_lt (const32 (1 # 100)) (f_abs (sub32 x (fl 100))).
Definition stretch (st : option style) (t : tags) : list text_effect :=
  let x := num_field t FScaleX (cell_num st s_scale_x (fl 100)) in
  let y := num_field t FScaleY (cell_num st s_scale_y (fl 100)) in
  when (off_100 x || off_100 y) (XScale x y).
(* effects.rs:192-200 *)
Definition clip_of (g : stage) (t : tags) : option (float * float * float * float * bool) :=
  match tg_field t FClip with
  | Some (VClip x1 y1 x2 y2 inv) => Some (mul32 x1 (scale_x g), mul32 y1 (scale_y g), mul32 x2 (scale_x g), mul32 y2 (scale_y g), inv)
  | _ => None
  end.
(* effects.rs:11-205 *)
Definition effects_of (scaled : bool) (g : stage) (st : option style) (t : tags) (outline shadow : rgba) : list text_effect :=
  when (flag_or t FBold (style_flag st s_bold)) XBold ++
  when (flag_or t FItalic (style_flag st s_italic)) XItalic ++
  when (flag_or t FUnderline (style_flag st s_underline)) XUnderline ++
  when (flag_or t FStrikeout (style_flag st s_strikeout)) XStrike ++
  (let wx := outline_x scaled g st t in
   let wy := outline_y scaled g st t in
   if (border_style st =? 3)%N then [XBox outline wx wy] else when (f_lt (fl 0) wx || f_lt (fl 0) wy) (XOutline outline wx wy)) ++
  (let dx := shadow_x scaled g st t in
   let dy := shadow_y scaled g st t in
   when (f_ne dx (fl 0) || f_ne dy (fl 0)) (XShadow shadow dx dy)) ++
  (let r := zero_if_none (num_of t FBlur) in when (f_lt (fl 0) r) (XBlur (mul32 r (scale_y g)))) ++
  (let r := zero_if_none (num_of t FBlurEdges) in when (f_lt (fl 0) r) (XEdgeBlur r)) ++
  rotation g t ++ shear t ++ stretch st t ++
  match clip_of g t with Some (x1, y1, x2, y2, inv) => [XClip x1 y1 x2 y2 inv] | None => [] end.
(* text/mod.rs:295-308 *)
Definition k_number (k : k_style) : N := match k with KBasic => 0 | KFill => 1 | KOutline => 2 | KSweep => 3 end%N.
Definition sung_effect (k : option (float * k_style * rgba)) : list text_effect := match k with Some (p, s, c) => [XKaraoke p (k_number s) c] | None => [] end.
(* text/mod.rs:210, 244 *)
Definition font_of (st : option style) (t : tags) : str :=
  match tg_field t FName with Some (VText n) => n | _ => match st with Some s => s_fontname s | None => lit "Arial" end end.
Definition spacing_of (g : stage) (st : option style) (t : tags) : float := mul32 (num_field t FSpacing (cell_num st s_spacing (fl 0))) (scale_x g).

(* ---- drawings ---- *)
Record bounds := Bounds { bo_left : float; bo_top : float; bo_right : float; bo_bottom : float }.
(* drawing.rs:106-115 *)
Definition drawing_alignment (st : option style) (t : tags) : Z :=
  match tg_field t FAlignment with
  | Some (VByte a) => Z.of_N a
  | _ => match obind st (fun s => parse_i32 (s_alignment s)) with Some z => z | None => 5%Z end
  end.
Definition middle (a b : float) : float := f_div f32 (f_opp (add32 a b)) (fl 2).
(* drawing.rs:119-141; Z.rem is Rust's remainder *)
Definition drawing_offset (b : bounds) (a : Z) : float * float :=
  (if (Z.rem a 3 =? 1)%Z then f_opp (bo_left b)
   else if (Z.rem a 3 =? 0)%Z then f_opp (bo_right b)
   else middle (bo_left b) (bo_right b),
   if (1 <=? a)%Z && (a <=? 3)%Z then f_opp (bo_bottom b)
   else if (7 <=? a)%Z && (a <=? 9)%Z then f_opp (bo_top b)
   else middle (bo_top b) (bo_bottom b)).
(* drawing.rs:144-147: how far the path is moved *)
Definition drawing_shift (b : bounds) (a : Z) (x y : float) : float * float :=
  let '(ox, oy) := drawing_offset b a in (add32 x ox, add32 y oy).
(* drawing.rs:162-198 *)
Definition drawing_blur (g : stage) (t : tags) : float := mul32 (zero_if_none (num_of t FBlur)) (scale_y g).
Definition drawing_border (scaled : bool) (g : stage) (t : tags) : float :=
  num_or (option_map (sized_by scaled (scale_y g)) (or_num (num_of t FBorderX) (num_of t FBorder))) (fl 0).
Definition drawing_stroke (scaled : bool) (g : stage) (st : option style) (t : tags) : option (rgba * float) :=
  let w := drawing_border scaled g t in
  let own := match st with Some s => parse_ass_color (s_outlinec s) | None => (0, 0, 0, 255)%N end in
  if f_lt (fl 0) w
  then Some (override (or_byte (byte_of (tg_field t FAlpha3)) (byte_of (tg_field t FAlpha))) (with_alpha (color_or (tg_field t FOutline) own) (alpha_of own)), w)
  else None.
(* drawing.rs:20-209, VectorData without the path itself: its colour, the shift of the path, stroke, clip and blur *)
Record vector := Vector { ve_color : rgba; ve_shift : float * float; ve_stroke : option (rgba * float); ve_clip : option (float * float * float * float * bool); ve_blur : float }.
Definition drawing_of (scaled : bool) (g : stage) (w : shown) (st : option style) (now : N) (b : bounds) (t : tags) : run vector :=
  xy <- drawing_anchor g w now t ;;
  Done (Vector (drawing_color t st) (drawing_shift b (drawing_alignment st t) (fst xy) (snd xy)) (drawing_stroke scaled g st t) (clip_of g t) (drawing_blur g t)).
