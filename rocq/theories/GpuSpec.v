(* What a user of the GPU compositor relies on: a picture is the tiles drawn in
   order on a transparent frame, whatever was drawn before.  The only state is
   the last layer and the user's own textures. *)
From Verif Require Import Base FloatModel GpuModel.

(* where a tile is put, in device coordinates; x to the right from -1 to 1, y upwards from -1 to 1 *)
Definition across (x : Z) (fw : N) : float := f_sub f32 (f_mul f32 (f_div f32 (f_of_Z f32 x) (f_of_N f32 fw)) (Fin 2)) (Fin 1).
Definition down (y : Z) (fh : N) : float := f_sub f32 (Fin 1) (f_mul f32 (f_div f32 (f_of_Z f32 y) (f_of_N f32 fh)) (Fin 2)).
Definition rect_of (x y : Z) (w h fw fh : N) : four :=
  (across x fw, down y fh, across (x + Z.of_N w) fw, down (y + Z.of_N h) fh).
(* what the shader is told of a bitmap, and the texture with its bytes *)
Definition tile_of (b : bitmap) (fw fh : N) : quad * texture :=
  match b with
  | BCov w h cov x y r g b a => (Quad (rect_of x y w h fw fh) (unit_of r, unit_of g, unit_of b, unit_of a) zero4, Tex R8 w h cov)
  | BRgba w h px x y => (Quad (rect_of x y w h fw fh) zero4 mode1, Tex RGBA8 w h px)
  end.
(* the picture *)
Definition picture (dv : device) (bs : list bitmap) (w h : N) : list N :=
  fold_left (fun px b => d_draw dv RGBA8 w h px (d_ubytes dv (fst (tile_of b w h))) (snd (tile_of b w h)))
            bs (d_clear dv Transparent RGBA8 w h).

Record view := Vw { v_layer : option (N * N * list N); v_user : list texture }.
Definition bg_texture (us : list texture) (bg : backdrop) : option texture :=
  match bg with BgColour _ => None | BgTexture i => nth_error us i end.
(* a texture shows the layer over a background, both over the whole of it *)
Definition shown (dv : device) (us : list texture) (bg : backdrop) (w h : N) (layer : list N) (t : texture) : texture :=
  let d px u := d_draw dv (t_fmt t) (t_w t) (t_h t) px (d_ubytes dv full_frame) u in
  let back := match bg with BgColour c => d_clear dv (Colour c) (t_fmt t) (t_w t) (t_h t)
                          | BgTexture _ => d_clear dv Transparent (t_fmt t) (t_w t) (t_h t) end in
  let back1 := match bg_texture us bg with Some b => d back b | None => back end in
  Tex (t_fmt t) (t_w t) (t_h t) (d back1 (Tex RGBA8 w h layer)).
Definition zero_size (w h : N) : bool := (w =? 0)%N || (h =? 0)%N.
Definition fits_layer (v : view) (w h : N) : option (list N) :=
  match v_layer v with Some (x, y, px) => if ((x =? w) && (y =? h))%N then Some px else None | None => None end.

Definition meant (dv : device) (v : view) (k : call) : view * answer :=
  match k with
  | CComposite bs w h mapped =>
    (v, if zero_size w h then Failed InvalidDimensions else if mapped then Bytes (picture dv bs w h) else Failed MapFailed)
  | CRender bs w h =>
    if zero_size w h then (v, Failed InvalidDimensions) else (Vw (Some (w, h, picture dv bs w h)) (v_user v), Done)
  | CBytes mapped =>
    (v, match v_layer v with None => Failed NoLayer | Some (_, _, px) => if mapped then Bytes px else Failed MapFailed end)
  | CPresent bg w h =>
    (v, if zero_size w h then Failed InvalidDimensions else match fits_layer v w h with Some _ => Done | None => Failed NoMatchingLayer end)
  | CView i bg w h =>
    if zero_size w h then (v, Failed InvalidDimensions) else
    match fits_layer v w h, nth_error (v_user v) i with
    | Some px, Some t => (Vw (v_layer v) (firstn i (v_user v) ++ shown dv (v_user v) bg w h px t :: skipn (S i) (v_user v)), Done)
    | _, _ => (v, Failed NoMatchingLayer)
    end
  | CUser t => (Vw (v_layer v) (v_user v ++ [t]), Done)
  end.
Fixpoint all_meant (dv : device) (v : view) (l : list call) : view * list answer :=
  match l with
  | [] => (v, [])
  | k :: r => let '(v1, a) := meant dv v k in let '(v2, t) := all_meant dv v1 r in (v2, a :: t)
  end.

(* a device as WebGPU describes it: alignment of uniform offsets a multiple of four; clears and draws keep sizes; a
   uniform is twelve floats *)
Record device_ok (dv : device) : Prop := DevOk {
  o_align : (0 < d_align dv <= 65536 /\ d_align dv mod 4 = 0)%N;
  o_dim : (d_maxdim dv <= 16777216)%N;
  o_buf : (4 * (48 + d_align dv) <= d_maxbuf dv)%N;
  o_clear : forall k f w h, List.length (d_clear dv k f w h) = N.to_nat (w * h * tbpp f);
  o_draw : forall f w h px u t, List.length (d_draw dv f w h px u t) = List.length px;
  o_ubytes : forall q, List.length (d_ubytes dv q) = 48 }.

Definition size_ok (dv : device) (w h : N) : Prop := (0 < w <= d_maxdim dv /\ 0 < h <= d_maxdim dv)%N.
(* a bitmap has as many bytes as its size says and its corners are i32 numbers *)
Definition at_ok (x : Z) (w : N) : Prop := (-2147483648 <= x /\ x + Z.of_N w <= 2147483647)%Z.
Definition bitmap_ok (dv : device) (b : bitmap) : Prop :=
  match b with
  | BCov w h cov x y _ _ _ _ => size_ok dv w h /\ List.length cov = N.to_nat (w * h) /\ at_ok x w /\ at_ok y h
  | BRgba w h px x y => size_ok dv w h /\ List.length px = N.to_nat (w * h * 4) /\ at_ok x w /\ at_ok y h
  end.
(* the frame and the list of tiles fit the device *)
Definition frame_ok (dv : device) (bs : list bitmap) (w h : N) : Prop :=
  size_ok dv w h /\ ((4 * w + 256) * h <= d_maxbuf dv)%N /\ Forall (bitmap_ok dv) bs /\
  (N.of_nat (List.length bs) * (48 + d_align dv) < 4294967296)%N /\
  (2 * N.of_nat (List.length bs) * (48 + d_align dv) <= d_maxbuf dv)%N.
Definition bg_ok (v : view) (bg : backdrop) (on : option nat) : Prop :=
  match bg with BgColour _ => True | BgTexture i => i < List.length (v_user v) /\ on <> Some i end.
Definition call_ok (dv : device) (v : view) (k : call) : Prop :=
  match k with
  | CComposite bs w h _ | CRender bs w h => zero_size w h = true \/ frame_ok dv bs w h
  | CPresent bg w h => bg_ok v bg None
  | CView i bg w h => i < List.length (v_user v) /\ bg_ok v bg (Some i)
  | CBytes _ | CUser _ => True
  end.
Fixpoint all_ok (dv : device) (v : view) (l : list call) : Prop :=
  match l with
  | [] => True
  | k :: r => call_ok dv v k /\ all_ok dv (fst (meant dv v k)) r
  end.
