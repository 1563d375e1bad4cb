(* Properties of text layers and the caches behind them. *)
From Verif Require Import Base PixelModel TileModel TileSpec TileProofs TileHistory TileEmit.

(* C174: a frame does not depend on what the thread drew before *)
Theorem text_frame_history : forall pl db ok, sizes_apart pl ok -> size_kept pl db ->
  forall w h cs ls, Forall (calm_call pl db ok) cs -> Forall whole (fst (steps pl db cs (fresh pl w h))) -> Forall (calm_layer pl ok) ls ->
  fst (composite_layers pl db ls (snd (steps pl db cs (fresh pl w h)))) = fst (composite_layers pl db ls (fresh pl w h)).
Proof. exact frame_history. Qed.
Theorem text_bitmaps_history : forall pl db ok, sizes_apart pl ok -> size_kept pl db ->
  forall w h cs ls, Forall (calm_call pl db ok) cs -> Forall whole (fst (steps pl db cs (fresh pl w h))) -> Forall (calm_layer pl ok) ls -> Forall sharp_layer ls ->
  fst (render_to_bitmaps pl db ls (snd (steps pl db cs (fresh pl w h)))) = fst (render_to_bitmaps pl db ls (fresh pl w h)).
Proof. exact bitmaps_history. Qed.
Theorem text_shapes_history : forall pl db ok, sizes_apart pl ok -> size_kept pl db ->
  forall w h cs d k, Forall (calm_call pl db ok) cs -> Forall whole (fst (steps pl db cs (fresh pl w h))) -> pl_shape pl d k = pl_shape pl db k ->
  fst (shape_text_cached pl d k (snd (steps pl db cs (fresh pl w h)))) = pl_shape pl d k.
Proof. exact shapes_history. Qed.

(* C175: the caches stay within their limits, whatever is drawn *)
Theorem text_caches_bounded : forall pl db w h cs, within pl (snd (steps pl db cs (fresh pl w h))).
Proof. exact caches_bounded. Qed.

(* C176: the bitmaps of tiled layers make the frame *)
Theorem text_bitmaps_make_frame : forall pl db ok, sizes_apart pl ok -> size_kept pl db ->
  forall w h, (0 <= w < 2147483648)%Z -> (0 <= h < 2147483648)%Z -> (w * h < 2147483648)%Z ->
  forall ls l, Forall (calm_layer pl ok) ls -> Forall (tiled_layer pl) ls ->
  fst (render_to_bitmaps pl db ls (fresh pl w h)) = Ok l ->
  fst (composite_layers pl db ls (fresh pl w h)) =
    match blend_all pl w h l (repeat 0%N (Z.to_nat (w * h) * 4)) with Some p => Ok p | None => Panic end.
Proof. exact tiled_frame. Qed.

(* C177: a bordered text with a shadow gives three bitmaps, in this order and
   at these places *)
Theorem text_bordered_bitmaps : forall pl db w h d sh font u oc sc wx wy sx sy m o tf to_ fx fy ox oy,
  let base := f_add pl (td_y d) (sh_baseline sh) in
  let local := t_post_translate pl (t_translate pl (td_x d) base) (f_neg pl (td_x d)) (f_neg pl base) in
  let ax := f_round pl (td_x d) in
  let ay := f_round pl base in
  let dx := f_round pl (f_add pl (f_mul pl sx (t_sx local)) (f_mul pl sy (t_kx local))) in
  let dy := f_round pl (f_add pl (f_mul pl sx (t_ky local)) (f_mul pl sy (t_sy local))) in
  size_kept pl db ->
  td_effects d = [EOutline oc wx wy; EShadow sc sx sy] ->
  pl_shape pl db (SKey (td_text d) (td_font d) (td_size d) false false) = Ok sh ->
  pl_font pl db (td_font d) false false (td_text d) = Ok font -> pl_face pl db font = Ok u ->
  pl_merge pl (placed pl db font (td_size d) (td_spacing d) (sh_glyphs sh) (f_lit pl 0 1)) local = Some m ->
  pl_raster pl m = Some (tf, fx, fy) -> pl_stroke pl m wx wy = Some o -> pl_raster pl o = Some (to_, ox, oy) ->
  in_i32 (ax + fx) -> in_i32 (ay + fy) -> in_i32 (ax + ox) -> in_i32 (ay + oy) -> in_i32 (ax + fx + dx) -> in_i32 (ay + fy + dy) ->
  fst (render_to_bitmaps pl db [LText d] (fresh pl w h)) =
  Ok [BCoverage (Z.of_N (tl_w tf)) (Z.of_N (tl_h tf)) (tl_data tf) (ax + fx + dx) (ay + fy + dy) sc;
      BCoverage (Z.of_N (tl_w to_)) (Z.of_N (tl_h to_)) (tl_data to_) (ax + ox) (ay + oy) oc;
      BCoverage (Z.of_N (tl_w tf)) (Z.of_N (tl_h tf)) (tl_data tf) (ax + fx) (ay + fy) (td_color d)].
Proof. exact bordered_bitmaps. Qed.
Theorem karaoke_crop : forall t cols, (cols <= tl_w t)%N -> length (tl_data t) = N.to_nat (tl_w t) * N.to_nat (tl_h t) ->
  exists data, crop_columns t cols = Some data /\ length data = N.to_nat (tl_h t) * N.to_nat cols /\
    forall x y, x < N.to_nat cols -> y < N.to_nat (tl_h t) -> nth_error data (y * N.to_nat cols + x) = sample t x y.
Proof. exact crop_columns_ok. Qed.

(* A small platform: the glyph of a character in font database n is its code
   plus n, a path is a coverage byte of one pixel, projecting adds 100, the
   empty text cannot be shaped, and a blurred tile is two pixels wide with a
   transparent second one. *)
Local Open Scope N_scope.
Definition toy (size16 : N -> N) : platform :=
  Platform N N unit
    N.add N.sub N.mul N.div (fun x => x) (fun x => x) N.eqb N.ltb (fun n d => Z.to_N (n / Zpos d)) 3
    Z.of_N size16 (fun p w => N.min p w) (fun r => 3 * r)%N (fun r => 3 * r)%N
    (fun db k => match sk_text k with
                 | [] => Err
                 | t => Ok (Shaped 0 0 0 0 (sk_size k) (map (fun c => Glyph (c + db) 0 0) t))
                 end)
    (fun db _ _ _ _ => Ok db) (fun _ _ => Ok tt) (fun _ _ g size => Some (g + size)%N) (fun p _ _ => Some p)
    (fun x y => Tr 1 0 0 1 x y) (fun t _ _ => t) (fun t _ => t) (fun t _ _ => t) (fun t _ _ => t) (fun _ _ _ => Tr 1 0 0 1 0 0)
    (Tr 1 0 0 1 0 0) (fun _ p => p) (fun p _ _ _ _ _ => Some (p + 100)%N)
    (fun ps _ => match ps with [] => None | p :: _ => Some p end) (fun p _ _ => Some (p + 1)%N)
    (fun p => Some (Tile 1 1 [p], 0%Z, 0%Z)) (fun _ _ _ => None) (fun _ _ _ _ _ _ _ => None)
    (fun _ ps _ _ _ _ _ => match ps with [] => None | p :: _ => Some (Tile 2 1 [0; 0; 0; p; 0; 0; 0; 0]%N) end)
    (fun t _ _ pix => firstn (length pix) (tl_data t)) (fun _ _ _ pix => pix) blend_row.
Definition white := Colour 255 255 255 255.
Definition say (c : N) (size : bits) (es : list effect) : text_data := TextData [c] [70%N] size white 0 0 es 0.
Definition silent : text_data := TextData [] [70%N] 10 white 0 0 [] 0.
Notation plain := (toy (fun b => b)).

Lemma plain_apart : sizes_apart plain (fun _ => True).
Proof. intros a b _ _ H. exact H. Qed.
Lemma toy_kept f db : size_kept (toy f) db.
Proof. intros k sh H. cbn in H. destruct (sk_text k); [discriminate|]. injection H as <-. reflexivity. Qed.

Example text_history_case :
  let cs := [CShape plain 1%N (SKey [65%N] [70%N] 10 false false); CFrame plain [LText (say 65 10 [EBlur 2]); LText (say 66 10 [])];
             CBitmaps plain [LText (say 66 10 [EOutline white 1 1])]] in
  let ls := [LText (say 65 10 [EBlur 2]); LText (say 66 10 [EOutline white 1 1])] in
  Forall (calm_call plain 1%N (fun _ => True)) cs /\ Forall whole (fst (steps plain 1%N cs (fresh plain 1 1))) /\
  Forall (calm_layer plain (fun _ => True)) ls /\
  fst (composite_layers plain 1%N ls (snd (steps plain 1%N cs (fresh plain 1 1)))) = Ok [131; 131; 131; 168]%N /\
  fst (render_to_bitmaps plain 1%N [LText (say 66 10 [EOutline white 1 1])] (snd (steps plain 1%N cs (fresh plain 1 1)))) =
    Ok [BCoverage 1 1 [78%N] 0 0 white; BCoverage 1 1 [77%N] 0 0 white] /\
  length (st_cover plain (snd (steps plain 1%N cs (fresh plain 1 1)))) = 2%nat /\
  length (st_blurs plain (snd (steps plain 1%N cs (fresh plain 1 1)))) = 1%nat.
Proof.
  cbv zeta. split; [|split; [|split; [|vm_compute; repeat split]]].
  - repeat (apply Forall_cons || apply Forall_nil); cbn; try reflexivity;
      repeat (apply Forall_cons || apply Forall_nil); cbn; (split; [exact I|]); intros r Hr;
      (split; [reflexivity|]); repeat (apply Forall_cons || apply Forall_nil); exact I.
  - vm_compute. repeat (apply Forall_cons || apply Forall_nil); exact I.
  - repeat (apply Forall_cons || apply Forall_nil); cbn; (split; [exact I|]); intros r Hr;
      (split; [reflexivity|]); repeat (apply Forall_cons || apply Forall_nil); exact I.
Qed.
Example text_make_frame_case :
  let ls := [LText (say 65 10 [EShadow white 0 0]); LText (say 66 10 [EKaraoke 0 1 white])] in
  Forall (tiled_layer plain) ls /\
  fst (render_to_bitmaps plain 1%N ls (fresh plain 1 1)) =
    Ok [BCoverage 1 1 [76%N] 0 0 white; BCoverage 1 1 [76%N] 0 0 white; BCoverage 1 1 [77%N] 0 0 white] /\
  fst (composite_layers plain 1%N ls (fresh plain 1 1)) = Ok [167; 167; 167; 167]%N.
Proof. cbv zeta. split; [repeat (apply Forall_cons || apply Forall_nil); exact I|vm_compute; auto]. Qed.
Example karaoke_crop_case : crop_columns (Tile 3 2 [1; 2; 3; 4; 5; 6]%N) 2 = Some [1; 2; 4; 5]%N.
Proof. reflexivity. Qed.
(* the limit of the coverage cache is reached: the 257th new text empties it *)
Example caches_bounded_case :
  let cs := map (fun n => CFrame plain [LText (say (N.of_nat n) 10 [])]) (seq 1 257)%nat in
  length (st_cover plain (snd (steps plain 1%N (firstn 256%nat cs) (fresh plain 1 1)))) = 256%nat /\
  length (st_cover plain (snd (steps plain 1%N cs (fresh plain 1 1)))) = 1%nat /\
  length (st_shapes plain (snd (steps plain 1%N cs (fresh plain 1 1)))) = 257%nat.
Proof. vm_compute. auto. Qed.

(* Where history does show. *)

(* a blurred text turned about the x axis leaves its tile under the key
   of the unturned one *)
Theorem blur_rotation_refuted : exists pl db,
  sizes_apart pl (fun _ => True) /\ size_kept pl db /\ (forall r, pl_ceil pl r = pl_pad pl r) /\
  exists w h c ls, Forall whole (fst (steps pl db [c] (fresh pl w h))) /\
    fst (composite_layers pl db ls (snd (steps pl db [c] (fresh pl w h)))) <> fst (composite_layers pl db ls (fresh pl w h)).
Proof.
  exists plain, 1%N. split; [exact plain_apart|]. split; [apply toy_kept|]. split; [reflexivity|].
  exists 1%Z, 1%Z, (CFrame plain [LText (say 65 10 [EBlur 2; ERotation 45 0 0 None])]), [LText (say 65 10 [EBlur 2])].
  split; [vm_compute; repeat constructor|vm_compute; discriminate].
Qed.
(* a bitmap list cut short by an error leaves the next frame blank *)
Theorem sink_leak_refuted : exists pl db,
  sizes_apart pl (fun _ => True) /\ size_kept pl db /\
  exists w h c ls, calm_call pl db (fun _ => True) c /\ Forall (calm_layer pl (fun _ => True)) ls /\
    fst (step pl db c (fresh pl w h)) = ABitmaps Err /\
    fst (composite_layers pl db ls (snd (steps pl db [c] (fresh pl w h)))) = Ok (repeat 0%N (Z.to_nat (w * h) * 4)%nat) /\
    fst (composite_layers pl db ls (fresh pl w h)) <> Ok (repeat 0%N (Z.to_nat (w * h) * 4)%nat).
Proof.
  exists plain, 1%N. split; [exact plain_apart|]. split; [apply toy_kept|].
  exists 1%Z, 1%Z, (CBitmaps plain [LText (say 65 10 []); LText silent]), [LText (say 65 10 [])].
  split; [repeat (apply Forall_cons || apply Forall_nil); (split; [exact I|]); intros r []|].
  split; [repeat (apply Forall_cons || apply Forall_nil); (split; [exact I|]); intros r []|].
  split; [reflexivity|]. split; [reflexivity|vm_compute; discriminate].
Qed.
(* the shape cache does not know which database a text was shaped with *)
Theorem database_refuted : exists pl db,
  sizes_apart pl (fun _ => True) /\ size_kept pl db /\
  exists w h other k ls, Forall (calm_layer pl (fun _ => True)) ls /\
    fst (composite_layers pl db ls (snd (steps pl db [CShape pl other k] (fresh pl w h)))) <> fst (composite_layers pl db ls (fresh pl w h)).
Proof.
  exists plain, 1%N. split; [exact plain_apart|]. split; [apply toy_kept|].
  exists 1%Z, 1%Z, 9%N, (SKey [65%N] [70%N] 10 false false), [LText (say 65 10 [])].
  split; [repeat (apply Forall_cons || apply Forall_nil); (split; [exact I|]); intros r []|].
  vm_compute; discriminate.
Qed.
(* the second bitmap list of a blurred text is not the first *)
Theorem blur_bitmaps_refuted : exists pl db,
  sizes_apart pl (fun _ => True) /\ size_kept pl db /\
  exists w h ls, Forall (calm_layer pl (fun _ => True)) ls /\
    Forall whole (fst (steps pl db [CBitmaps pl ls] (fresh pl w h))) /\
    fst (render_to_bitmaps pl db ls (snd (steps pl db [CBitmaps pl ls] (fresh pl w h)))) <> fst (render_to_bitmaps pl db ls (fresh pl w h)).
Proof.
  exists plain, 1%N. split; [exact plain_apart|]. split; [apply toy_kept|].
  exists 1%Z, 1%Z, [LText (say 65 10 [EBlur 2])].
  split; [repeat (apply Forall_cons || apply Forall_nil); (split; [exact I|]); intros r _; split; [reflexivity|]; repeat (apply Forall_cons || apply Forall_nil); exact I|].
  split; [vm_compute; repeat constructor|vm_compute; discriminate].
Qed.
(* two sizes with one 16.16 number share the outline of the first *)
Theorem sizes_refuted : exists pl db,
  size_kept pl db /\
  exists w h c ls, calm_call pl db (fun _ => True) c /\ Forall (calm_layer pl (fun _ => True)) ls /\
    Forall whole (fst (steps pl db [c] (fresh pl w h))) /\
    fst (composite_layers pl db ls (snd (steps pl db [c] (fresh pl w h)))) <> fst (composite_layers pl db ls (fresh pl w h)).
Proof.
  exists (toy (fun b => b / 2)%N), 1%N. split; [apply toy_kept|].
  exists 1%Z, 1%Z, (CFrame (toy (fun b => b / 2)%N) [LText (say 65 10 [])]), [LText (say 65 11 [])].
  split; [repeat (apply Forall_cons || apply Forall_nil); (split; [exact I|]); intros r []|].
  split; [repeat (apply Forall_cons || apply Forall_nil); (split; [exact I|]); intros r []|].
  split; [vm_compute; repeat constructor|vm_compute; discriminate].
Qed.

Example text_bordered_case :
  fst (render_to_bitmaps plain 1%N [LText (TextData [65%N] [70%N] 10 white 5 7 [EOutline (Colour 1 0 0 255) 2 2; EShadow (Colour 0 1 0 255) 3 4] 0)] (fresh plain 1 1)) =
  Ok [BCoverage 1 1 [76%N] 8 11 (Colour 0 1 0 255); BCoverage 1 1 [77%N] 5 7 (Colour 1 0 0 255); BCoverage 1 1 [76%N] 5 7 white].
Proof. reflexivity. Qed.

Print Assumptions text_frame_history.
Print Assumptions text_bitmaps_history.
Print Assumptions text_shapes_history.
Print Assumptions text_caches_bounded.
Print Assumptions text_bitmaps_make_frame.
Print Assumptions text_bordered_bitmaps.
Print Assumptions karaoke_crop.
Print Assumptions blur_rotation_refuted.
Print Assumptions sink_leak_refuted.
Print Assumptions database_refuted.
Print Assumptions blur_bitmaps_refuted.
Print Assumptions sizes_refuted.
