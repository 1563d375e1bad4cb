(* What a caller expects of animation tracks and their controller. *)
From Verif Require Export AnimSpec TrackModel.
From Verif Require Import NumSpec.
From Coq Require Export Qminmax.
Open Scope Q_scope.

Definition Zq (z : Z) : Q := inject_Z z.
(* the share of its time that has passed *)
Definition passed (t : timing) (now : N) : Q := Zq (Z.of_N now - Z.of_N (ti_start t)) / Zq (Z.of_N (ti_end t) - Z.of_N (ti_start t)).
(* the curves in exact arithmetic *)
Definition curve (e : easing) (x : Q) : Q :=
  match e with Linear => x | Smooth => x * x * (3 - 2 * x) | Smoother => x * x * x * (x * (x * 6 - 15) + 10) end.
Definition is_i32 (z : Z) : Prop := (-2147483648 <= z <= 2147483647)%Z.
Definition num_between (a b : Q) (x : float) : Prop := exists q, x = Fin q /\ Qmin a b <= q <= Qmax a b.
(* two numbers whose difference is a number of the format *)
Definition apart (a b : Q) : Prop := representable f32 a /\ representable f32 b /\ representable f32 (b - a).
(* values that can be animated without loss *)
Inductive sound_value : anim_value -> Prop :=
| sv_int a b : is_i32 a -> is_i32 b -> (Z.abs (b - a) <= 16777216)%Z -> sound_value (AInteger a b)
| sv_float a b : apart a b -> sound_value (AFloat (Fin a) (Fin b))
| sv_color a b : color_bytes a -> color_bytes b -> sound_value (AColor a b)
| sv_pos a b c d : apart a c -> apart b d -> sound_value (APosition (Fin a, Fin b) (Fin c, Fin d))
| sv_scale a b c d : apart a c -> apart b d -> sound_value (AScale (Fin a, Fin b) (Fin c, Fin d)).
(* a result is the first, or the second, of an animation's two values *)
Inductive first_value : anim_value -> anim_result -> Prop :=
| fv_int a b : first_value (AInteger a b) (RInteger a)
| fv_float a b x : num_is x a -> first_value (AFloat (Fin a) b) (RFloat x)
| fv_color a b : first_value (AColor a b) (RColor a)
| fv_pos a b c d x y : num_is x a -> num_is y b -> first_value (APosition (Fin a, Fin b) (c, d)) (RPosition (x, y))
| fv_scale a b c d x y : num_is x a -> num_is y b -> first_value (AScale (Fin a, Fin b) (c, d)) (RScale (x, y)).
Definition turned (v : anim_value) : anim_value :=
  match v with AInteger a b => AInteger b a | AFloat a b => AFloat b a | AColor a b => AColor b a | APosition a b => APosition b a | AScale a b => AScale b a end.
Definition last_value (v : anim_value) (r : anim_result) : Prop := first_value (turned v) r.
Inductive value_between : anim_value -> anim_result -> Prop :=
| vb_int a b z : (Z.min a b <= z <= Z.max a b)%Z -> value_between (AInteger a b) (RInteger z)
| vb_float a b x : num_between a b x -> value_between (AFloat (Fin a) (Fin b)) (RFloat x)
| vb_color a b c : color_between a b c -> value_between (AColor a b) (RColor c)
| vb_pos a b c d x y : num_between a c x -> num_between b d y -> value_between (APosition (Fin a, Fin b) (Fin c, Fin d)) (RPosition (x, y))
| vb_scale a b c d x y : num_between a c x -> num_between b d y -> value_between (AScale (Fin a, Fin b) (Fin c, Fin d)) (RScale (x, y)).

(* ---- modifiers ---- *)
Inductive kind := KScaleX | KScaleY | KSize | KRotation | KColor | KAlpha.
(* the kind of a modifier: by its first letters alone *)
Inductive kind_is : str -> kind -> Prop :=
| ki_x r : kind_is (lit "\fscx" ++ r) KScaleX
| ki_y r : kind_is (lit "\fscy" ++ r) KScaleY
| ki_s r : starts_with (lit "cx") r = false -> starts_with (lit "cy") r = false -> kind_is (lit "\fs" ++ r) KSize
| ki_r r : kind_is (lit "\fr" ++ r) KRotation
| ki_c r : kind_is (lit "\c" ++ r) KColor
| ki_1c r : kind_is (lit "\1c" ++ r) KColor
| ki_a r : kind_is (lit "\alpha" ++ r) KAlpha.
Definition kind_name (k : kind) : str :=
  lit (match k with KScaleX => "fscx" | KScaleY => "fscy" | KSize => "fs" | KRotation => "frz" | KColor => "c" | KAlpha => "alpha" end).
Definition kind_default (k : kind) : Q := match k with KSize => 20 | KRotation => 0 | _ => 100 end.
Definition number_or (d : Q) (s : str) : float := match parse_float f32 s with Some x => x | None => Fin d end.
Definition kind_value (k : kind) (a b : str) : anim_value :=
  match k with
  | KColor => AColor (match track_color a with Some c => c | None => (255, 255, 255, 255)%N end) (match track_color b with Some c => c | None => (255, 255, 255, 255)%N end)
  | KAlpha => AInteger (match track_alpha a with Some c => Z.of_N c | None => 255%Z end) (match track_alpha b with Some c => Z.of_N c | None => 255%Z end)
  | _ => AFloat (number_or (kind_default k) a) (number_or (kind_default k) b)
  end.
Definition without (c : char) (s : str) : Prop := ~ In c s.
(* the text between the first '(' and the first ')', which comes after it *)
Definition inner (s i : str) : Prop := exists u r, s = u ++ 40%N :: i ++ 41%N :: r /\ without 40 u /\ without 41 u /\ without 41 i.
(* the first ')' comes before the first '(' *)
Definition crossed (s : str) : Prop := exists u r, s = u ++ 41%N :: r /\ without 40 u /\ without 41 u /\ In 40%N r.
Definition two_values (s a b : str) : Prop := inner s (a ++ 44%N :: b) /\ without 44 a /\ without 44 b.
(* the tracks a modifier gives: one or none *)
Inductive modifier_gives (t : timing) (s : str) : list track -> Prop :=
| mg_one k a b : kind_is s k -> two_values s a b -> modifier_gives t s [Track (kind_name k) t (kind_value k a b) Linear]
| mg_none : (forall k, kind_is s k -> ~ crossed s /\ forall a b, ~ two_values s a b) -> modifier_gives t s [].
(* the span of a tag's animation, in the unit of the event's times *)
Definition tag_span (g : anim_tag) (start fin a b : N) : Prop :=
  (start <= fin)%N /\ a = (start + match at_t1 g with Some t => t | None => 0 end)%N /\ b = (match at_t2 g with Some t => start + t | None => fin end)%N /\
  (a < 2 ^ 32)%N /\ (b < 2 ^ 32)%N.
Close Scope Q_scope.
