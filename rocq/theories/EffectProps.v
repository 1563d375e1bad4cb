(* C182-C185: the effects of a text, what plays no part in them, what the size of the
   frame does to them, and where a drawing goes. *)
From Verif Require Import WrapProps AnimProps RunProps Base EffectModel EffectSpec EffectProofs EffectLines.
From Verif Require Import CollideModel.
From Coq Require Import Sorted Lia.

(* ---- C182: the effects of a run ---- *)
(* an effect is listed exactly if the tags and the style ask for it *)
Theorem effects_exact scaled g st t outline shadow e : In e (effects_of scaled g st t outline shadow) <-> wants scaled g st t outline shadow e.
Proof. exact (effects_in scaled g st t outline shadow e). Qed.
Print Assumptions effects_exact.
(* in a fixed order, each kind once; no other list does that *)
Theorem effects_in_order scaled g st t outline shadow l :
  l = effects_of scaled g st t outline shadow <-> StronglySorted (fun a b => (rank a < rank b)%nat) l /\ forall e, In e l <-> wants scaled g st t outline shadow e.
Proof.
  split.
  - intros ->. split; [apply effects_sorted|intros; apply effects_exact].
  - intros [S H]. apply sorted_same; [exact S|apply effects_sorted|]. intros e. rewrite H. symmetry. apply effects_exact.
Qed.
Print Assumptions effects_in_order.
(* every text layer of an event has the size, the colour and the effects that a run
   of its text asks for: the tags of the run, animated, and the style of the event *)
Theorem event_text_layers {P} (pf : platform (list text_effect) P) p c now e start fin segs out text size x y co k more :
  (forall t st g scaled o s, pf_effects pf t st g scaled o s = effects_of scaled g st t o s) ->
  time_or 0 (e_start e) = Done start -> time_or u32_max (e_end e) = Done fin -> segment_text (e_text e) = Done (Some segs) ->
  process_event pf p c now e = Done (Some out) -> In (LText text size x y co k more) out ->
  exists s t o sh, In s segs /\ apply_transform_animations (pf_math pf) (look_of (style_of p e)) start fin now (sg_tags s) = Done t /\
    resolve_run_colors t (look_of (style_of p e)) start fin now = Done (co, o, sh) /\ size = font_size p (stage_of p c) (style_of p e) t /\
    forall ef, In ef more <-> wants (pi_scaled p) (stage_of p c) (style_of p e) t o sh ef.
Proof.
  intros H S F G E I. pose proof (event_made pf p c now e start fin segs out S F G E) as M. rewrite Forall_forall in M. destruct (M _ I) as (t0 & t & o & sh & (s & Is & <-) & A & R & Z & K).
  exists s, t, o, sh. repeat split; try assumption; rewrite K, H; apply effects_exact.
Qed.
Print Assumptions event_text_layers.
Definition tags_in (text : string) : tags := match segment_text (lit text) with Done (Some (s :: _)) => sg_tags s | _ => no_tags end.
Definition shot (w h : N) : stage := Stage w h (fl 640) (fl 480) None.
Definition black : rgba := (0, 0, 0, 255)%N.
Definition grey : rgba := (9, 9, 9, 128)%N.
Definition heavy : style :=
  Style (lit "Heavy") None (lit "Arial") (lit "20") (lit "&H00FFFFFF") (lit "&H000000FF") (lit "&H00000000") (lit "&H00000000") (lit "-1") (lit "0") (lit "0") (lit "-1")
        (lit "100") (lit "50") (lit "0") (lit "30") (lit "1") (lit "1.5") (lit "0") (lit "2") (lit "10") (lit "10") (lit "10") None None (lit "1") None (at_line 0).
Example effects_ex : effects_of true (shot 1280 480) (Some heavy) (tags_in "{\i1\s0\xbord3\shad2\blur1\be1\fr30\org(10,20)\fax2\clip(1,2,3,4)}x") black grey =
  [XBold; XItalic; XOutline black (Fin 6) (Fin (3 # 2)); XShadow grey (Fin 4) (Fin 2); XBlur (Fin 1); XEdgeBlur (Fin 1);
   XRotation (fl 0) (fl 0) (Fin 30) (Some (Fin 20, Fin 20)); XShear (Fin 2) (fl 0); XScale (Fin 100) (Fin 50); XClip (Fin 2) (Fin 2) (Fin 6) (Fin 4) false].
Proof. vm_compute. reflexivity. Qed.
Definition seer : platform (list text_effect) (list (layer (list text_effect))) :=
  Platform _ _ plain_math (fun _ => lit "7") (fun l => option_map snd (hd_error l))
    (fun text _ _ _ => let w := fl (10 * Z.of_nat (List.length text)) in Some (w, fl 20, Some w))
    (fun segs _ _ => fl (10 * Z.of_nat (List.length (flat_map sg_text segs))))
    (fun _ _ _ => mono) (fun t st g scaled o s => effects_of scaled g st t o s) (fun s => negb (Nat.eqb (List.length s) 0)) (fun _ _ _ _ => [])
    (fun prev ls _ => Some (prev ++ ls)) (fun _ _ => []).
Example event_layers_ex : match process_event seer small_ready (screen 640 480) 100 (says_line 1 "0:00:00.00" "0:00:05.00" "Default" "a{\b1\bord0\shad0} b") with
  | Done (Some ls) => map (fun l => match l with LText x _ _ _ _ _ m => (x, m) | LShape _ _ _ m => ([], m) end) ls | _ => [] end =
  [(lit "a", [XOutline black (Fin 2) (Fin 2); XShadow black (Fin 2) (Fin 2)]); (lit " b", [XBold])].
Proof. vm_compute. reflexivity. Qed.

(* ---- C183: what plays no part ---- *)
(* tags that differ in other fields give the same effects *)
Theorem effects_read_tags scaled g st t t' o s : (forall f, In f text_fields -> tg_field t f = tg_field t' f) -> effects_of scaled g st t o s = effects_of scaled g st t' o s.
Proof. exact (text_reads scaled g st t t' o s). Qed.
Print Assumptions effects_read_tags.
(* styles that differ in other cells give the same effects *)
Theorem effects_read_style scaled g a b t o s : s_bold a = s_bold b -> s_italic a = s_italic b -> s_underline a = s_underline b -> s_strikeout a = s_strikeout b ->
  s_border_style a = s_border_style b -> s_outline a = s_outline b -> s_shadow a = s_shadow b -> s_scale_x a = s_scale_x b -> s_scale_y a = s_scale_y b ->
  effects_of scaled g (Some a) t o s = effects_of scaled g (Some b) t o s.
Proof.
  intros H1 H2 H3 H4 H5 H6 H7 H8 H9. unfold effects_of, outline_x, outline_y, shadow_x, shadow_y, own_outline, own_shadow, stretch, style_flag, border_style, cell_num, obind.
  now rewrite H1, H2, H3, H4, H5, H6, H7, H8, H9.
Qed.
Print Assumptions effects_read_style.
(* the style has no say where the tags speak *)
Theorem effects_tags_win scaled g a b t o s : (forall f, In f [FBold; FItalic; FUnderline; FStrikeout] -> exists v, tg_field t f = Some (VFlag v)) ->
  (forall f, In f [FBorder; FShadow; FScaleX; FScaleY] -> exists x, tg_field t f = Some (VNum x)) -> (boxed a <-> boxed b) ->
  effects_of scaled g a t o s = effects_of scaled g b t o s.
Proof.
  intros F N B. assert (BB : (border_style a =? 3)%N = (border_style b =? 3)%N).
  { rewrite !boxed_iff in B. destruct (N.eqb_spec (border_style a) 3) as [E|E], (N.eqb_spec (border_style b) 3) as [E'|E']; tauto. }
  destruct (F FBold) as [v1 E1]; [cbn; auto|]. destruct (F FItalic) as [v2 E2]; [cbn; auto|]. destruct (F FUnderline) as [v3 E3]; [cbn; auto|]. destruct (F FStrikeout) as [v4 E4]; [cbn; auto|].
  destruct (N FBorder) as [x1 G1]; [cbn; auto|]. destruct (N FShadow) as [x2 G2]; [cbn; auto|]. destruct (N FScaleX) as [x3 G3]; [cbn; auto|]. destruct (N FScaleY) as [x4 G4]; [cbn; auto|].
  assert (K : forall f x, tg_field t f = Some (VNum x) -> num_of t f = Some x) by (intros f x E; unfold num_of; now rewrite E).
  apply K in G1 as H1. apply K in G2 as H2.
  unfold effects_of, outline_x, outline_y, shadow_x, shadow_y, stretch, flag_or, num_field. rewrite BB, E1, E2, E3, E4, G3, G4, H1, H2.
  destruct (num_of t FBorderX), (num_of t FBorderY), (num_of t FShadowX), (num_of t FShadowY); reflexivity.
Qed.
Print Assumptions effects_tags_win.
Example tags_win_ex : let t := tags_in "{\b0\i1\u0\s0\bord3\shad0\fscx100\fscy100}x" in
  effects_of true (shot 640 480) (Some heavy) t black grey = [XItalic; XOutline black (Fin 3) (Fin 3)] /\ effects_of true (shot 640 480) None t black grey = [XItalic; XOutline black (Fin 3) (Fin 3)].
Proof. split; vm_compute; reflexivity. Qed.
(* so the angle of a style turns nothing *)
Theorem style_angle_refuted : ~ forall scaled g s t o sh x, t = no_tags -> number_text f32 (s_angle s) x -> nonzero x -> exists a b c d, In (XRotation a b c d) (effects_of scaled g (Some s) t o sh).
Proof.
  intros H. destruct (H true (shot 640 480) heavy no_tags black grey (Fin 30) eq_refl) as (a & b & c & d & I).
  - apply (FloatTextProofs.parse_iff f32 _ _ CollideProofs.f32_valid). vm_compute. reflexivity.
  - reflexivity.
  - vm_compute in I. repeat (destruct I as [I|I]; [discriminate I|]). destruct I.
Qed.
Print Assumptions style_angle_refuted.
(* nor does a vertical shear alone do anything *)
Theorem vertical_shear_refuted : ~ forall scaled g st t o sh y, given t FShearY y -> nonzero y -> exists x, In (XShear x y) (effects_of scaled g st t o sh).
Proof.
  intros H. destruct (H true (shot 640 480) None (tags_in "{\fay1}x") black grey (Fin 1)) as [x I]; [vm_compute; reflexivity|reflexivity|].
  vm_compute in I. repeat (destruct I as [I|I]; [discriminate I|]). destruct I.
Qed.
Print Assumptions vertical_shear_refuted.
(* a drawing's colour, place, stroke, clip and blur depend on few tags: it is not
   turned, sheared, stretched, faded or given a shadow *)
Theorem drawing_reads scaled g w st now b t t' : (forall f, In f drawing_fields -> tg_field t f = tg_field t' f) -> drawing_of scaled g w st now b t = drawing_of scaled g w st now b t'.
Proof. exact (drawing_reads_fields scaled g w st now b t t'). Qed.
Print Assumptions drawing_reads.
Definition quiet_event : shown := Shown [] [] [] None 0 500.
Definition square : bounds := Bounds (fl 0) (fl 0) (fl 10) (fl 20).
Example drawing_reads_ex : drawing_of true (shot 640 480) quiet_event None 100 square (tags_in "{\an7\pos(100,50)\bord2\p1\frz45\fscx300\fad(100,100)\shad4\ybord9}m 0 0 l 9 9") =
  Done (Vector (255, 255, 255, 255)%N (Fin 100, Fin 50) (Some (black, Fin 2)) None (Fin 0)) /\
  drawing_of true (shot 640 480) quiet_event None 100 square (tags_in "{\an7\pos(100,50)\bord2\p1}m 0 0 l 9 9") =
  Done (Vector (255, 255, 255, 255)%N (Fin 100, Fin 50) (Some (black, Fin 2)) None (Fin 0)).
Proof. split; vm_compute; reflexivity. Qed.

(* ---- C184: the size of the frame ---- *)
Definition frame_bound (e : text_effect) : bool := match e with XBlur _ | XRotation _ _ _ _ | XClip _ _ _ _ _ => true | _ => false end.
Lemma both {A} (a a' b b' : list A) : a = a' -> b = b' -> a ++ b = a' ++ b'. Proof. now intros -> ->. Qed.
(* without ScaledBorderAndShadow, only \blur, \org and \clip depend on the frame *)
Theorem unscaled_frame g g' st t o s :
  filter (fun e => negb (frame_bound e)) (effects_of false g st t o s) = filter (fun e => negb (frame_bound e)) (effects_of false g' st t o s).
Proof.
  unfold effects_of, rotation, shear, stretch, clip_of, outline_x, outline_y, shadow_x, shadow_y, own_outline, own_shadow. cbv zeta. cbn [sized_by]. rewrite !filter_app. repeat (apply both; [try reflexivity|]).
  - unfold when. match goal with |- context [if ?b then _ else _] => destruct b end; reflexivity.
  - unfold when. match goal with |- context [if ?b then _ else _] => destruct b end; reflexivity.
  - destruct (tg_field t FClip) as [[]|]; reflexivity.
Qed.
Print Assumptions unscaled_frame.
(* whether an effect of these is there at all does not depend on the frame either *)
Theorem frame_bound_kinds scaled g g' st t o s : map rank (filter frame_bound (effects_of scaled g st t o s)) = map rank (filter frame_bound (effects_of scaled g' st t o s)).
Proof.
  unfold effects_of, rotation, shear, stretch, clip_of. cbv zeta. rewrite !filter_app, !map_app.
  repeat (apply both; [unfold when; repeat match goal with |- context [if ?b then _ else _] => destruct b end; try reflexivity|]).
  destruct (tg_field t FClip) as [[]|]; reflexivity.
Qed.
Print Assumptions frame_bound_kinds.
Example unscaled_ex : effects_of false (shot 1280 960) None (tags_in "{\bord3\blur2}x") black grey = [XOutline black (Fin 3) (Fin 3); XShadow grey (Fin 2) (Fin 2); XBlur (Fin 4)] /\
  effects_of true (shot 1280 960) None (tags_in "{\bord3\blur2}x") black grey = [XOutline black (Fin 6) (Fin 6); XShadow grey (Fin 4) (Fin 4); XBlur (Fin 4)].
Proof. split; vm_compute; reflexivity. Qed.
(* on a frame twice as large blurred edges are no wider *)
Theorem edge_blur_grows_refuted : ~ forall scaled w h st t o s r, In (XEdgeBlur r) (effects_of scaled (shot w h) st t o s) -> In (XEdgeBlur (f_mul f32 r (fl 2))) (effects_of scaled (shot (2 * w) (2 * h)) st t o s).
Proof.
  intros H. specialize (H true 640%N 480%N None (tags_in "{\be1}x") black grey (Fin 1)). vm_compute in H.
  destruct H as [H|[H|[H|[]]]]; [right; right; now left|discriminate H..].
Qed.
Print Assumptions edge_blur_grows_refuted.

(* ---- C185: where a drawing goes ---- *)
(* the corner, edge or centre that the alignment names is put on the position of
   the drawing, within 1/512 of a pixel *)
Theorem drawing_on_anchor b l t r d a x y : box_is b l t r d -> on_screen l -> on_screen t -> on_screen r -> on_screen d -> on_screen x -> on_screen y -> (1 <= a <= 9)%Z ->
  exists dx dy, drawing_shift b a (Fin x) (Fin y) = (Fin dx, Fin dy) /\
  (Qabs (l + share_x a * (r - l) + dx - x) <= 1 # 512)%Q /\ (Qabs (t + share_y a * (d - t) + dy - y) <= 1 # 512)%Q.
Proof. exact (on_anchor b l t r d a x y). Qed.
Print Assumptions drawing_on_anchor.
Example drawing_on_anchor_ex : map (fun a => drawing_shift square a (fl 100) (fl 50)) [1; 5; 9]%Z = [(Fin 100, Fin 30); (Fin 95, Fin 40); (Fin 90, Fin 50)] /\
  drawing_of true (shot 1280 480) quiet_event None 100 square (tags_in "{\an3\pos(100,50)\p1\xbord3\3c&H0000FF&\blur2\clip(0,0,5,5)}m 0 0 l 9 9") =
  Done (Vector (255, 255, 255, 255)%N (Fin 190, Fin 30) (Some ((255, 0, 0, 255)%N, Fin 3)) (Some (Fin 0, Fin 0, Fin 10, Fin 5, false)) (Fin 2)).
Proof. split; vm_compute; reflexivity. Qed.
(* the width of a stroke given for the horizontal axis is scaled by the vertical one *)
Theorem drawing_xbord_refuted : ~ forall g st t w x, tg_field t FBorderX = Some (VNum x) -> drawing_stroke true g st t = Some w -> snd w = f_mul f32 x (per_x g).
Proof.
  intros H. specialize (H (shot 1280 480) None (tags_in "{\xbord3}x") (black, Fin 3) (Fin 3) ltac:(vm_compute; reflexivity) ltac:(vm_compute; reflexivity)). vm_compute in H. discriminate H.
Qed.
Print Assumptions drawing_xbord_refuted.
