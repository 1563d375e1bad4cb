(* Which effects a run of text has and where a drawing goes, stated without the
   renderer's helpers. *)
From Verif Require Import CollideModel.
From Verif Require Export EffectModel FloatSpec NumSpec.

Section Wants.
  Context (scaled : bool) (g : stage) (st : option style) (t : tags) (outline shadow : rgba).
  (* pixels of the frame for one pixel of the script *)
  Definition per_x : float := f_div f32 (f_of_N f32 (st_width g)) (st_play_x g).
  Definition per_y : float := f_div f32 (f_of_N f32 (st_height g)) (st_play_y g).
  (* the last tag of a kind gave this number; no tag gave one *)
  Definition given (f : field) (x : float) : Prop := tg_field t f = Some (VNum x).
  Definition silent (f : field) : Prop := forall x, ~ given f x.
  (* the number in a cell of the style, or what stands for it *)
  Inductive cell_is (cell : style -> str) (d : float) : float -> Prop :=
  | cell_number s x : st = Some s -> number_text f32 (cell s) x -> cell_is cell d x
  | cell_junk s : st = Some s -> (forall x, ~ number_text f32 (cell s) x) -> cell_is cell d d
  | cell_none : st = None -> cell_is cell d d.
  (* on by a tag, or on in the style and not touched by a tag *)
  Definition on (f : field) (cell : style -> str) : Prop :=
    tg_field t f = Some (VFlag true) \/ ((forall b, tg_field t f <> Some (VFlag b)) /\ exists s, st = Some s /\ cell s = lit "-1").
  Definition grown (k x : float) : float := if scaled then f_mul f32 x k else x.
  (* a length along one axis: by the tag of the axis, else by the tag of both axes, else by the style *)
  Inductive length_is (axis both : field) (k_axis k_both : float) (cell : style -> str) : float -> Prop :=
  | by_axis x : given axis x -> length_is axis both k_axis k_both cell (grown k_axis x)
  | by_both x : silent axis -> given both x -> length_is axis both k_axis k_both cell (grown k_both x)
  | by_style x : silent axis -> silent both -> cell_is cell (fl 2) x -> length_is axis both k_axis k_both cell (grown per_y x).
  Definition width_x := length_is FBorderX FBorder per_x per_y s_outline.
  Definition width_y := length_is FBorderY FBorder per_y per_y s_outline.
  Definition far_x := length_is FShadowX FShadow per_x per_x s_shadow.
  Definition far_y := length_is FShadowY FShadow per_y per_y s_shadow.
  Definition boxed : Prop := exists s, st = Some s /\ numeral (trim (s_border_style s)) 3.
  Definition positive (x : float) : Prop := f_lt (fl 0) x = true.
  Definition nonzero (x : float) : Prop := f_eq x (fl 0) = false.
  (* a number with zero for none *)
  Inductive amount (f : field) : float -> Prop :=
  | some_amount x : given f x -> amount f x
  | no_amount : silent f -> amount f (fl 0).
  Inductive turn : float -> Prop :=
  | turn_z x : given FRotZ x -> turn x
  | turn_angle x : silent FRotZ -> amount FAngle x -> turn x.
  Inductive pivot : option (float * float) -> Prop :=
  | pivot_at x y : tg_field t FOrigin = Some (VPoint x y) -> pivot (Some (f_mul f32 x per_x, f_mul f32 y per_y))
  | pivot_none : (forall x y, tg_field t FOrigin <> Some (VPoint x y)) -> pivot None.
  Inductive percent (f : field) (cell : style -> str) : float -> Prop :=
  | percent_tag x : given f x -> percent f cell x
  | percent_style x : silent f -> cell_is cell (fl 100) x -> percent f cell x.
  (* more than a hundredth off 100 *)
  Definition stretched (x : float) : Prop := f_lt (round_to f32 (1 # 100)) (f_abs (f_sub f32 x (fl 100))) = true.

  Inductive wants : text_effect -> Prop :=
  | w_bold : on FBold s_bold -> wants XBold
  | w_italic : on FItalic s_italic -> wants XItalic
  | w_underline : on FUnderline s_underline -> wants XUnderline
  | w_strike : on FStrikeout s_strikeout -> wants XStrike
  | w_box x y : boxed -> width_x x -> width_y y -> wants (XBox outline x y)
  | w_outline x y : ~ boxed -> width_x x -> width_y y -> positive x \/ positive y -> wants (XOutline outline x y)
  | w_shadow x y : far_x x -> far_y y -> nonzero x \/ nonzero y -> wants (XShadow shadow x y)
  | w_blur r : given FBlur r -> positive r -> wants (XBlur (f_mul f32 r per_y))
  | w_edge r : given FBlurEdges r -> positive r -> wants (XEdgeBlur r)
  | w_rotation x y z o : amount FRotX x -> amount FRotY y -> turn z -> pivot o -> nonzero x \/ nonzero y \/ nonzero z -> wants (XRotation x y z o)
  | w_shear x y : given FShearX x -> amount FShearY y -> nonzero x \/ nonzero y -> wants (XShear x y)
  | w_scale x y : percent FScaleX s_scale_x x -> percent FScaleY s_scale_y y -> stretched x \/ stretched y -> wants (XScale x y)
  | w_clip x1 y1 x2 y2 inv : tg_field t FClip = Some (VClip x1 y1 x2 y2 inv) ->
      wants (XClip (f_mul f32 x1 per_x) (f_mul f32 y1 per_y) (f_mul f32 x2 per_x) (f_mul f32 y2 per_y) inv).
End Wants.

(* the order in which effects are listed *)
Definition rank (e : text_effect) : nat :=
  match e with
  | XBold => 0 | XItalic => 1 | XUnderline => 2 | XStrike => 3 | XBox _ _ _ => 4 | XOutline _ _ _ => 5 | XShadow _ _ _ => 6 | XBlur _ => 7 | XEdgeBlur _ => 8
  | XRotation _ _ _ _ => 9 | XShear _ _ => 10 | XScale _ _ => 11 | XClip _ _ _ _ _ => 12 | XKaraoke _ _ _ => 13
  end.
(* the fields that have a say in a text's effects, and in a drawing's look *)
Definition text_fields : list field :=
  [FBold; FItalic; FUnderline; FStrikeout; FBorder; FBorderX; FBorderY; FShadow; FShadowX; FShadowY; FBlur; FBlurEdges; FRotX; FRotY; FRotZ; FAngle; FOrigin;
   FShearX; FShearY; FScaleX; FScaleY; FClip].
Definition drawing_fields : list field :=
  [FPosition; FMovement; FAlignment; FPrimary; FAlpha; FAlpha1; FAlpha3; FOutline; FBorder; FBorderX; FBlur; FClip].

(* ---- drawings ---- *)
(* the point of a box that an alignment names: shares from the left and from the top *)
Definition share_x (a : Z) : Q := if (a mod 3 =? 1)%Z then 0%Q else if (a mod 3 =? 0)%Z then 1%Q else 1 # 2.
Definition share_y (a : Z) : Q := if (a <=? 3)%Z then 1%Q else if (a <=? 6)%Z then 1 # 2 else 0%Q.
Definition box_is (b : bounds) (l t r d : Q) : Prop := b = Bounds (Fin l) (Fin t) (Fin r) (Fin d).
Definition on_screen (q : Q) : Prop := (Qabs q <= 10000 # 1)%Q.
