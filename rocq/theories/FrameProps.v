(* Frames: theorems for C186 and C187. *)
From Verif Require Import Base FrameModel FrameSpec FrameProofs.

(* C186: every program over frames sees the same whether buffers are shared or
   each frame owns its bytes; no freed buffer is ever used. *)
Theorem frames_are_values l :
  match run l, vrun l with
  | Next w o, Next s t => o = t
  | Stuck, Stuck | Panicked, Panicked => True
  | _, _ => False
  end.
Proof.
  pose proof (run_agrees l start [] rel_start) as A. unfold run, vrun.
  destruct (run_from step start l), (run_from vstep [] l); try exact A. exact (proj2 A).
Qed.
(* C186: a buffer is kept exactly while some frame uses it *)
Theorem frames_no_leak l w o p : run l = Next w o ->
  match get (w_heap w) p with Some c => c_strong c = users p (w_vars w) /\ 0 < c_strong c | None => users p (w_vars w) = 0 end.
Proof. exact (no_leak_lemma l w o p). Qed.
(* C186: cloning and retiming a frame make no new buffer *)
Theorem frames_share l w o i t w' x : run l = Next w o ->
  step w (OClone i) = Next w' x \/ step w (ORetime i t) = Next w' x -> List.length (w_heap w') = List.length (w_heap w).
Proof. exact (share_lemma l w o i t w' x). Qed.
(* C186: the only user of a buffer writes to it in place *)
Theorem frames_write_in_place l w o i f ws w' x : run l = Next w o -> var w i = Some f -> users (f_ptr f) (w_vars w) = 1 ->
  step w (OWrite i ws) = Next w' x -> List.length (w_heap w') = List.length (w_heap w) /\ var w' i = Some f.
Proof. exact (in_place_lemma l w o i f ws w' x). Qed.
(* a frame is cloned with a new time, the clone is written to: the first is as before; a second write copies nothing *)
Definition p1 : list op :=
  [ONew [1; 2; 3; 4]%N 1 1 7 Bgra8; ORetime 0 9; OWrite 1 [(0, 50%N)]; OWrite 1 [(3, 60%N)]; OToRgba 0; OLook 0; OLook 1; OInto 1; ODrop 0].
Example p1_runs : match run p1 with
  | Next w o => o = [Nothing; Nothing; Nothing; Nothing; Nothing; Saw (mkView [3; 2; 1; 4]%N 1 1 7 Rgba8 4 4 false);
      Saw (mkView [50; 2; 3; 60]%N 1 1 9 Bgra8 4 4 false); Buffer [50; 2; 3; 60]%N; Nothing] /\ w_heap w = [None; None]
  | _ => False end.
Proof. vm_compute. split; reflexivity. Qed.
Example p1_alone : match run [ONew [1; 2; 3; 4]%N 1 1 7 Bgra8] with
  | Next w _ => exists f, var w 0 = Some f /\ users (f_ptr f) (w_vars w) = 1 /\ (exists w' x, step w (OWrite 0 [(2, 9%N)]) = Next w' x) | _ => False end.
Proof. vm_compute. eexists. split; [reflexivity|]. split; [reflexivity|]. eexists. eexists. reflexivity. Qed.

(* C187: turning a frame into RGBA keeps the picture *)
Theorem to_rgba_keeps_picture l w o i a w1 x : run l = Next w o ->
  step w (OLook i) = Next w (Saw a) -> step w (OToRgba i) = Next w1 x ->
  exists b, step w1 (OLook i) = Next w1 (Saw b) /\
    (forall k, pixel Rgba8 (s_data b) k = pixel (s_format a) (s_data a) k) /\
    s_format b = Rgba8 /\ s_width b = s_width a /\ s_height b = s_height a /\ s_time b = s_time a /\
    (N.of_nat (List.length (s_data a)) = s_stride a * s_height a -> N.of_nat (List.length (s_data b)) = s_width a * s_height a * 4)%N.
Proof.
  intros E A B. destruct (reach_rel _ _ _ E) as (s & _ & R).
  pose proof (step_agrees w s (OLook i) R) as HA. pose proof (step_agrees w s (OToRgba i) R) as HB.
  rewrite A in HA. rewrite B in HB.
  pose proof (rel_var _ _ i R) as V. cbn [step] in A. destruct (var w i) as [f|]; [|discriminate].
  destruct V as (Ei & c & Eg & Ec & Es & En & V). rewrite Eg in A. injection A as <-.
  cbn [s_data s_width s_height s_time s_format s_stride].
  assert (Li : i < List.length s) by (apply nth_error_Some; congruence).
  cbn [vstep] in HB. rewrite V in HB. cbn [v_format v_bytes v_width v_height v_time] in HB.
  assert (Hlook : forall s1 v, rel w1 s1 -> nth_error s1 i = Some (Some v) ->
    step w1 (OLook i) = Next w1 (Saw (mkView (v_bytes v) (v_width v) (v_height v) (v_time v) (v_format v)
        (N.of_nat (bpp (v_format v))) (v_width v * N.of_nat (bpp (v_format v))) (clear (v_format v) (v_bytes v))))).
  { intros s1 v R1 E1. pose proof (step_agrees w1 s1 (OLook i) R1) as H1. cbn [vstep] in H1.
    rewrite (nth_error_nth _ _ None E1) in H1. cbn [step] in *. destruct (var w1 i) as [g|]; [|contradiction].
    destruct (get (w_heap w1) (f_ptr g)); [|contradiction]. cbn [agrees] in H1. destruct H1 as [_ ->]. reflexivity. }
  destruct (f_format f) eqn:Ef.
  - cbn [agrees] in HB. destruct HB as [R1 ->]. eexists. split; [exact (Hlook _ _ R1 En)|]. cbn [s_data s_width s_height s_time s_format v_format v_bytes v_width v_height v_time].
    repeat (split; [auto; fail|]). unfold stride, bytes_per_pixel. lia.
  - cbn [agrees] in HB. destruct HB as [R1 ->]. rewrite set_upd in R1 by exact Li.
    eexists. split; [exact (Hlook _ _ R1 (upd_same _ _ _ Li))|]. cbn [s_data s_width s_height s_time s_format v_format v_bytes v_width v_height v_time].
    split; [intros k; apply pixel_rgba|]. repeat (split; [auto; fail|]). rewrite <- swap02_spec, swap02_length. unfold stride, bytes_per_pixel. lia.
  - destruct (fits (f_width f) (f_height f)); cbn [agrees] in HB; [|contradiction]. destruct HB as [R1 ->]. rewrite set_upd in R1 by exact Li.
    eexists. split; [exact (Hlook _ _ R1 (upd_same _ _ _ Li))|]. cbn [s_data s_width s_height s_time s_format v_format v_bytes v_width v_height v_time].
    split; [intros k; apply pixel_rgb|]. repeat (split; [auto; fail|]). rewrite <- add_alpha_spec, add_alpha_length. unfold stride, bytes_per_pixel.
    intros L. replace (List.length (c_bytes c)) with (N.to_nat (f_width f * f_height f) * 3) by lia. rewrite Nat.div_mul by lia. lia.
Qed.
Example to_rgba_case : match run [ONew [1; 2; 3; 4; 5; 6]%N 2 1 7 Rgb8; OToRgba 0; OLook 0] with
  | Next _ o => o = [Nothing; Nothing; Saw (mkView [1; 2; 3; 255; 4; 5; 6; 255]%N 2 1 7 Rgba8 4 8 false)] | _ => False end.
Proof. reflexivity. Qed.
(* C187: the conversion is always done, except that an RGB frame needs its RGBA size to fit in 32 bits *)
Theorem to_rgba_total l w o i f : run l = Next w o -> var w i = Some f ->
  (exists w1, step w (OToRgba i) = Next w1 Nothing) \/
  (step w (OToRgba i) = Panicked /\ f_format f = Rgb8 /\ (4294967296 <= f_width f * f_height f * 4)%N).
Proof.
  intros E Vf. destruct (reach_rel _ _ _ E) as (s & _ & R).
  pose proof (step_agrees w s (OToRgba i) R) as HB. pose proof (rel_var _ _ i R) as V. rewrite Vf in V.
  destruct V as (Ei & c & Eg & Ec & Es & En & V). cbn [vstep] in HB. rewrite V in HB. cbn [v_format v_bytes v_width v_height v_time] in HB.
  destruct (f_format f).
  1-2: left; cbn [agrees] in HB; destruct (step w (OToRgba i)); try contradiction; destruct HB as [_ ->]; eexists; reflexivity.
  destruct (fits (f_width f) (f_height f)) eqn:F; cbn [agrees] in HB; destruct (step w (OToRgba i)); try contradiction.
  - left. destruct HB as [_ ->]. eexists. reflexivity.
  - right. split; [reflexivity|]. split; [reflexivity|]. unfold fits in F. apply N.ltb_ge in F. exact F.
Qed.
(* C187: is_empty says whether every pixel is transparent; an RGB frame never is *)
Theorem is_empty_exact l w o i a : run l = Next w o -> step w (OLook i) = Next w (Saw a) ->
  s_empty a = true <-> s_format a <> Rgb8 /\ forall k x y z t, pixel (s_format a) (s_data a) k = Some (x, y, z, t) -> t = 0%N.
Proof.
  intros E A. cbn [step] in A. destruct (var w i) as [f|]; [|discriminate].
  destruct (get (w_heap w) (f_ptr f)) as [c|]; [|discriminate]. injection A as <-. cbn [s_empty s_format s_data].
  rewrite is_empty_spec. unfold clear. destruct (f_format f) eqn:Ef; [| |split; [discriminate|intros [H _]; congruence]].
  1-2: rewrite forallb_forall; split;
  [ intros H; split; [discriminate|]; intros k x y z t Ek; specialize (H (x, y, z, t)); cbn [snd] in H; apply N.eqb_eq, H;
    unfold pixels_of; apply in_flat_map; exists k; rewrite Ek; split; [|left; reflexivity];
    apply in_seq; split; [lia|]; cbn [bpp plus]; unfold pixel in Ek; cbn [bpp] in Ek;
    assert (L : 4 <= List.length (skipn (k * 4) (c_bytes c)));
    [ destruct (skipn (k * 4) (c_bytes c)) as [|? [|? [|? [|? ?]]]]; cbn [firstn] in Ek; try discriminate; cbn [List.length]; lia
    | rewrite skipn_length in L; apply Nat.div_le_lower_bound; lia ]
  | intros [_ H] [[[x y] z] t] I; unfold pixels_of in I; apply in_flat_map in I; destruct I as (k & _ & I);
    match type of I with In _ (match ?e with _ => _ end) => destruct e as [q|] eqn:Ek; [|contradiction] end;
    destruct I as [->|[]]; cbn [snd]; apply N.eqb_eq; eapply H; exact Ek ].
Qed.
Example is_empty_case : match run [OEmpty 2 1 0; OLook 0; OWrite 0 [(0, 9%N)]; OLook 0; OWrite 0 [(7, 1%N)]; OLook 0] with
  | Next _ o => map (fun s => match s with Saw v => s_empty v | _ => false end) o = [false; true; false; true; false; false] | _ => False end.
Proof. reflexivity. Qed.
(* C187: a large empty frame cannot be made: the size is computed in 32 bits *)
Theorem empty_frame_refuted : exists width height, (width <= 65535 /\ height <= 65535)%N /\ run [OEmpty width height 0] = Panicked.
Proof. exists 65535%N, 65535%N. split; [lia|reflexivity]. Qed.

Print Assumptions frames_are_values.
Print Assumptions frames_no_leak.
Print Assumptions frames_share.
Print Assumptions frames_write_in_place.
Print Assumptions to_rgba_keeps_picture.
Print Assumptions to_rgba_total.
Print Assumptions is_empty_exact.
Print Assumptions empty_frame_refuted.
