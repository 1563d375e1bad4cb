(* What a viewer expects of an animation, in rational numbers. *)
From Verif Require Export AnimModel FloatSpec.
Open Scope Q_scope.

(* a finite number *)
Definition finite (a : float) : Prop := exists q, a = Fin q.
Definition num_le (a b : float) : Prop := match a, b with Fin p, Fin q => p <= q | _, _ => False end.
Definition unit_num (a : float) : Prop := exists q, a = Fin q /\ 0 <= q <= 1.
Definition num_is (a : float) (q : Q) : Prop := exists p, a = Fin p /\ p == q.
Definition close_to (e : Q) (a : float) (q : Q) : Prop := exists p, a = Fin p /\ Qabs (p - q) <= e.
(* the time an animation ends, in milliseconds after the start of its event *)
Definition ends (tr : transform) (full : N) : N := if (tr_end tr =? 0)%N then full else tr_end tr.
(* the share of its time that has passed *)
Definition share (tr : transform) (now full : N) : Q :=
  inject_Z (Z.of_N now - Z.of_N (tr_start tr)) / inject_Z (Z.of_N (ends tr full) - Z.of_N (tr_start tr)).
(* accelerations that are treated by name *)
Definition near (a : float) (q : Q) : Prop := exists x, a = Fin x /\ Qabs (x - q) < 9 # 10000.
(* an acceleration that is not *)
Definition far (a : float) (q : Q) : Prop := exists x, a = Fin x /\ 11 # 10000 <= Qabs (x - q).
(* an acceleration that is not negative, with a powf that keeps the unit
   interval and its order: true of every libm for accelerations from 0 on *)
Definition tame (m : math) (a : float) : Prop :=
  f_lt a (Fin 0) = false /\
  (forall t, unit_num t -> unit_num (m_pow m t a)) /\
  (forall t u, unit_num t -> unit_num u -> num_le t u -> num_le (m_pow m t a) (m_pow m u a)).
(* between two bytes, whichever is greater *)
Definition byte_between (a b x : N) : Prop := (N.min a b <= x <= N.max a b)%N.
Definition color_between (a b x : rgba) : Prop :=
  let '(r1, g1, b1, a1) := a in let '(r2, g2, b2, a2) := b in let '(r, g, b', a') := x in
  byte_between r1 r2 r /\ byte_between g1 g2 g /\ byte_between b1 b2 b' /\ byte_between a1 a2 a'.
Definition color_bytes (c : rgba) : Prop := let '(r, g, b, a) := c in (r < 256 /\ g < 256 /\ b < 256 /\ a < 256)%N.

Definition hex_digit (c : char) : Prop := (48 <= c <= 57 \/ 65 <= c <= 70 \/ 97 <= c <= 102)%N.

(* ---- fields ---- *)
(* the targets a list of tags gives a field, in order *)
Definition targets_of (f : field) (l : list (field * value)) : list value :=
  map snd (filter (fun x => if field_eq (fst x) f then true else false) l).
Definition touches (tr : transform) (f : field) : Prop := exists v, In (f, v) (tr_targets tr).
(* the numbers of f32 that are not NaN *)
Definition positive_num (p : float) : Prop := f_lt (Fin 0) p = true.
Definition complete (p : float) : Prop := f_le (Fin 1) p = true.
(* what a viewer sees of a field no tag has set: the style's colours and size, full scale, nothing else *)
Inductive unset (d : look) : field -> value -> Prop :=
| un_size : unset d FSize (VNum (lk_size d))
| un_x : unset d FScaleX (VNum (Fin 100))
| un_y : unset d FScaleY (VNum (Fin 100))
| un_1 : unset d FPrimary (VColor (lk_primary d))
| un_2 : unset d FSecondary (VColor (lk_secondary d))
| un_3 : unset d FOutline (VColor (lk_outline d))
| un_4 : unset d FBack (VColor (lk_back d))
| un_alpha : unset d FAlpha (VByte 0)
| un_other f : ~ In f [FSize; FScaleX; FScaleY; FPrimary; FSecondary; FOutline; FBack; FAlpha] -> unset d f (VNum (Fin 0)).
(* what one animation that has come to p makes of a field *)
Inductive field_step (d : look) (f : field) (p : float) : list value -> option value -> option value -> Prop :=
| fs_none cur : field_step d f p [] cur cur
| fs_waits vs cur : ~ positive_num p -> field_step d f p vs cur cur
| fs_done vs v cur : complete p -> field_step d f p (vs ++ [v]) cur (Some v)
| fs_first v vs a out : positive_num p -> ~ complete p -> unset d f a -> field_step d f p vs (Some (blend a v p)) out -> field_step d f p (v :: vs) None out
| fs_next v vs u out : positive_num p -> ~ complete p -> field_step d f p vs (Some (blend u v p)) out -> field_step d f p (v :: vs) (Some u) out.
(* the animations of an event one after the other, each at its own progress *)
Inductive field_run (d : look) (f : field) (progress : transform -> float) : list transform -> option value -> option value -> Prop :=
| fr_nil cur : field_run d f progress [] cur cur
| fr_cons tr l cur mid out : field_step d f (progress tr) (targets_of f (tr_targets tr)) cur mid -> field_run d f progress l mid out ->
    field_run d f progress (tr :: l) cur out.
Close Scope Q_scope.
