(* What a frame shows, stated without the renderer's helpers. *)
From Verif Require Import CollideModel.
From Verif Require Export RunModel TagSpec SelectSpec.
From Coq Require Export Permutation Sorted.

(* ---- text that looks the same at every moment ---- *)
Definition timed_names : list str := map lit ["t"; "move"; "fad"; "fade"; "k"; "kf"; "ko"; "K"]%string.
Definition time_marks : list str := map lit ["\t"; "\move"; "\fad"; "\k"; "\K"]%string.
(* an animating tag nowhere: neither after a backslash nor as the first word of a block *)
Definition timeless (text : str) : Prop :=
  (forall m, In m time_marks -> ~ SelectSpec.occurs m text) /\
  (forall a w c b, text = a ++ 123%N :: w ++ c :: b -> Forall letter w -> ~ letter c -> ~ In w timed_names).
(* a text that says whether it changes with time *)
Definition honest (text : str) : Prop := (exists m, In m time_marks /\ SelectSpec.occurs m text) \/ timeless text.

(* ---- the order of events ---- *)
(* layer first, start second; what cannot be read counts as zero *)
Definition start_of (e : event) : N := match parse_ass_time (e_start e) with Ok t => t | _ => 0%N end.
Definition not_after (a b : event) : Prop := (layer_of a < layer_of b)%Z \/ (layer_of a = layer_of b /\ (start_of a <= start_of b)%N).
Definition alike (a b : event) : bool := (layer_of a =? layer_of b)%Z && (start_of a =? start_of b)%N.
Definition in_turn (events order : list event) : Prop :=
  Permutation events order /\ StronglySorted not_after order /\ forall e, filter (alike e) order = filter (alike e) events.
Definition placed_by_tag (e : event) : Prop := SelectSpec.occurs (lit "\pos") (e_text e) \/ SelectSpec.occurs (lit "\move") (e_text e).

(* ---- layers ---- *)
Section Layers.
  Context {D : Type}.
  (* a layer and the same one moved down, drawings staying where they are *)
  Inductive moved (dy : float) : layer D -> layer D -> Prop :=
  | moved_text text size x y c k m : moved dy (LText text size x y c k m) (LText text size x (f_add f32 y dy) c k m)
  | moved_shape c x y m : moved dy (LShape c x y m) (LShape c x y m).
  Definition is_text (l : layer D) : Prop := match l with LText _ _ _ _ _ _ _ => True | _ => False end.
End Layers.

(* ---- scripts ---- *)
(* no script info after the first styles *)
Definition info_first (sections : list section) : Prop :=
  exists a b, sections = a ++ b /\ (forall l, ~ In (SStyles l) a) /\ (forall f sp, ~ In (SInfo f sp) b).
(* the lines of a script have texts at different places *)
Definition texts_apart (s : loaded) : Prop :=
  forall lines e1 e2, script_lines (ld_sections s) lines -> In e1 lines -> In e2 lines -> ld_text_at s e1 = ld_text_at s e2 -> e1 = e2.

(* something is said by some script info of a group of sections *)
Definition says {A} (get : list (str * str) -> option A) (a : list section) : Prop := exists f sp, In (SInfo f sp) a /\ get f <> None.
(* a script that gives all its settings before its styles *)
Definition says_all (sections : list section) : Prop :=
  exists a b, sections = a ++ b /\ (forall l, ~ In (SStyles l) a) /\ says play_resolution a /\ says layout_resolution a /\ says (fun f => field_of f "ScaledBorderAndShadow") a.
Definition infos (sections : list section) : list (list (str * str)) := flat_map (fun s => match s with SInfo f _ => [f] | _ => [] end) sections.
Definition all_styles (sections : list section) : list style := flat_map (fun s => match s with SStyles l => l | _ => [] end) sections.
(* the last member with a property *)
Definition last_such {A} (Q : A -> Prop) (l : list A) (o : option A) : Prop :=
  match o with
  | Some s => Q s /\ exists l1 l2, l = l1 ++ s :: l2 /\ forall x, In x l2 -> ~ Q x
  | None => forall x, In x l -> ~ Q x
  end.
Definition is_default (s : style) : Prop := s_name s = lit "Default" \/ s_name s = lit "*Default".
(* a length of the layout, in script pixels: multiplied, and written again *)
Definition times (show : float -> str) (k : float) (a b : str) : Prop :=
  (forall x, parse_float f32 a = Some x -> b = show (f_mul f32 x k)) /\ (parse_float f32 a = None -> b = a).
Record converted (show : float -> str) (kx ky : float) (scaled : bool) (s s' : style) : Prop := {
  co_size : times show ky (s_fontsize s) (s_fontsize s');
  co_spacing : times show kx (s_spacing s) (s_spacing s');
  co_outline : if scaled then times show ky (s_outline s) (s_outline s') else s_outline s' = s_outline s;
  co_shadow : if scaled then times show ky (s_shadow s) (s_shadow s') else s_shadow s' = s_shadow s;
  co_left : times show kx (s_margin_l s) (s_margin_l s');
  co_right : times show kx (s_margin_r s) (s_margin_r s');
  co_vert : times show ky (s_margin_v s) (s_margin_v s');
  co_rest : s_name s' = s_name s /\ s_fontname s' = s_fontname s /\ s_primary s' = s_primary s /\ s_secondary s' = s_secondary s /\ s_outlinec s' = s_outlinec s /\ s_back s' = s_back s /\
    s_bold s' = s_bold s /\ s_italic s' = s_italic s /\ s_underline s' = s_underline s /\ s_strikeout s' = s_strikeout s /\ s_scale_x s' = s_scale_x s /\ s_scale_y s' = s_scale_y s /\
    s_angle s' = s_angle s /\ s_border_style s' = s_border_style s /\ s_alignment s' = s_alignment s /\ s_margin_t s' = s_margin_t s /\ s_margin_b s' = s_margin_b s /\ s_encoding s' = s_encoding s }.
(* the factor of one axis *)
Definition factor_of (play : float) (layout : option float) (k : float) : Prop :=
  match layout with None => k = fl 1 | Some l => (f_eq l play = true /\ k = fl 1) \/ (f_eq l play = false /\ k = f_div f32 play l) end.
(* the style a script's style becomes *)
Definition becomes (show : float -> str) (px py : float) (layout : option (float * float)) (scaled : bool) (s s' : style) : Prop :=
  exists kx ky, factor_of px (option_map fst layout) kx /\ factor_of py (option_map snd layout) ky /\
  ((f_eq kx (fl 1) = true /\ f_eq ky (fl 1) = true /\ s' = s) \/ ((f_eq kx (fl 1) = false \/ f_eq ky (fl 1) = false) /\ converted show kx ky scaled s s')).
(* on screen, an end that cannot be read meaning the last moment *)
Definition showing (t : N) (e : event) : Prop :=
  exists u, (parse_ass_time (e_end e) = Ok u \/ parse_ass_time (e_end e) = Err /\ u = 4294967295%N) /\ (start_of e <= t < u)%N.
