(* The GPU compositor: textures, buffers and bind groups are kept and used
   again between calls, and none of that can be seen.  Where the GPU puts each
   pixel of a tile. *)
From Coq Require Import QArith.
From Verif Require Import Base FloatModel GpuModel GpuSpec GpuPlaceSpec GpuProofs GpuTiles GpuCalls GpuRun GpuGeom.
Local Open Scope nat_scope.

(* Any list of calls on one compositor: each answer, and every texture of the user, is what the calls say, with the last
   layer as the only memory; no device error and no panic. *)
Theorem gpu_exact dv l : device_ok dv -> all_ok dv (Vw None []) l ->
  exists w, gpu_run dv l = Some (w, snd (all_meant dv (Vw None []) l)) /\ w_user w = v_user (fst (all_meant dv (Vw None []) l)).
Proof. exact (run_ok dv l). Qed.
Print Assumptions gpu_exact.

Lemma meant_app dv l v k : snd (all_meant dv v (l ++ [k])) = snd (all_meant dv v l) ++ [snd (meant dv (fst (all_meant dv v l)) k)].
Proof.
  revert v. induction l as [|a l IH]; intros v; cbn [all_meant app].
  - cbn [fst snd]. destruct (meant dv v k). reflexivity.
  - destruct (meant dv v a) as [v1 r]. specialize (IH v1). destruct (all_meant dv v1 (l ++ [k])), (all_meant dv v1 l). cbn [fst snd] in *. rewrite IH. reflexivity.
Qed.
(* whatever was composited, rendered and presented before, in whatever sizes, a picture is the same bytes *)
Theorem composite_no_history dv l bs w h : device_ok dv -> all_ok dv (Vw None []) (l ++ [CComposite bs w h true]) -> zero_size w h = false ->
  exists u t, gpu_run dv (l ++ [CComposite bs w h true]) = Some (u, t ++ [Bytes (picture dv bs w h)]).
Proof.
  intros D A Z. destruct (gpu_exact dv _ D A) as (u & E & _). rewrite meant_app in E. cbn [meant snd] in E. rewrite Z in E. eauto.
Qed.
Print Assumptions composite_no_history.
(* a layer read back is the picture that composite gives *)
Theorem layer_is_picture dv l bs w h : device_ok dv -> all_ok dv (Vw None []) ((l ++ [CRender bs w h]) ++ [CBytes true]) -> zero_size w h = false ->
  exists u t, gpu_run dv ((l ++ [CRender bs w h]) ++ [CBytes true]) = Some (u, t ++ [Bytes (picture dv bs w h)]).
Proof.
  intros D A Z. destruct (gpu_exact dv _ D A) as (u & E & _). rewrite meant_app in E.
  assert (X : v_layer (fst (all_meant dv (Vw None []) (l ++ [CRender bs w h]))) = Some (w, h, picture dv bs w h)).
  { clear E A. generalize (Vw None []). induction l as [|a l IH]; intros v; cbn [all_meant app].
    - cbn [meant]. rewrite Z. reflexivity.
    - destruct (meant dv v a) as [v1 r]. specialize (IH v1). destruct (all_meant dv v1 (l ++ [CRender bs w h])). exact IH. }
  cbn [meant snd] in E. rewrite X in E. eauto.
Qed.
Print Assumptions layer_is_picture.

(* The pixels drawn are the tile's own, one texel each, despite the rounding of the coordinates. *)
Theorem tile_pixels x y w h fw fh : (1 <= w)%N -> (1 <= h)%N -> in_reach x w fw -> in_reach y h fh ->
  exists l t r b, tile_rect x y w h fw fh = Some (Fin l, Fin t, Fin r, Fin b) /\
    (forall p, (covers (column_at fw l) (column_at fw r) p <-> (x <= p < x + Z.of_N w)%Z) /\
               ((x <= p < x + Z.of_N w)%Z -> texel (column_at fw l) (column_at fw r) w p = (p - x)%Z)) /\
    (forall p, (covers (row_at fh t) (row_at fh b) p <-> (y <= p < y + Z.of_N h)%Z) /\
               ((y <= p < y + Z.of_N h)%Z -> texel (row_at fh t) (row_at fh b) h p = (p - y)%Z)).
Proof. exact (placed x y w h fw fh). Qed.
Print Assumptions tile_pixels.
(* a tile at the far end of i32 stops the program, and one without area is an error of the device *)
Theorem far_tile_refuted : (forall fw fh, tile_rect 2147483647 0 1 1 fw fh = None) /\
  (forall dv s f h, create_texture dv s f 0 h = None).
Proof. split; intros; reflexivity. Qed.
Print Assumptions far_tile_refuted.

(* a small device: draws add the first byte of the texture and of the uniform, modulo 256 *)
Definition toy : device :=
  Dev 64 4096 1048576 (fun k f w h => repeat (match k with Transparent => 0 | Colour c => c end)%N (N.to_nat (w * h * tbpp f)))
    (fun _ _ _ px u t => map (fun p => (p + hd 0 (t_px t) + hd 0 u) mod 256)%N px)
    (fun q => (match q_color q with (Fin r, _, _, _) => Z.to_N (Qnum r) mod 256 | _ => 9 end)%N :: repeat 0%N 47).
Lemma toy_ok : device_ok toy.
Proof.
  split; cbn [d_align d_maxdim d_maxbuf d_clear d_draw d_ubytes toy]; try (repeat split; lia); intros.
  - apply repeat_length.
  - apply map_length.
Qed.
Definition spot : bitmap := BCov 2 1 [7; 200]%N 1 0 255 0 0 255.
Definition patch : bitmap := BRgba 1 1 [3; 4; 5; 6]%N (-1) 2.
Definition history : list call :=
  [CBytes true; CComposite [spot; patch; spot] 3 2 true; CRender [patch; spot] 2 2; CComposite [patch] 1 1 false; CComposite [] 0 5 true;
   CUser (Tex (FOther 1) 2 2 (repeat 50%N 16)); CUser (Tex RGBA8 1 1 [60; 61; 62; 63]%N); CPresent (BgColour 8) 2 2; CPresent (BgColour 8) 3 2;
   CView 0 (BgTexture 1) 2 2; CView 1 (BgColour 30) 2 2; CBytes true].
Ltac fits := cbv [call_ok frame_ok size_ok bitmap_ok at_ok spot patch zero_size bg_ok d_maxdim d_maxbuf d_align toy]; repeat match goal with |- _ /\ _ => split | |- Forall _ _ => constructor end; try reflexivity; try lia; try discriminate.
Lemma history_ok : all_ok toy (Vw None []) (history ++ [CComposite [patch; patch; spot] 2 1 true]).
Proof.
  cbv [history app all_ok]. repeat split; try exact I; try (right; fits; fail); try (left; reflexivity); try (vm_compute; lia); try (vm_compute; discriminate).
Qed.
Example history_answers : match gpu_run toy (history ++ [CComposite [patch; patch; spot] 2 1 true]) with
  | Some (w, a) => Some (map (fun x => match x with Bytes p => inl p | Done => inr None | Failed e => inr (Some e) end) a, map t_px (w_user w)) | None => None end =
  Some ([inr (Some NoLayer); inl (repeat 19%N 24); inr None; inr (Some MapFailed); inr (Some InvalidDimensions); inr None; inr None; inr None; inr (Some NoMatchingLayer);
         inr None; inr None; inl (repeat 11%N 16); inl (repeat 14%N 8)], [repeat 71%N 16; repeat 41%N 4]).
Proof. vm_compute. reflexivity. Qed.
Example reach_met : in_reach (-3) 500 1920 /\ in_reach 700 400 1080.
Proof. unfold in_reach. lia. Qed.
