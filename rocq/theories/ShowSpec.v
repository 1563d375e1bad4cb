(* What is expected of lines, fades and syllables. *)
From Verif Require Export ShowModel AnimSpec.

(* ---- lines ---- *)
(* a character with the place and tags of its run *)
Definition mark : Type := (char * (nat * nat * tags))%type.
Definition marks (s : segment) : list mark := map (fun c => (c, (sg_start s, sg_end s, sg_tags s))) (sg_text s).
Definition line_marks (l : list segment) : list mark := flat_map marks l.
Definition newline (x : mark) : Prop := fst x = 10%N.
(* marks divided at the newlines *)
Inductive divided : list mark -> list (list mark) -> Prop :=
| dv_last g : Forall (fun x => ~ newline x) g -> divided g [g]
| dv_cons g x r gs : Forall (fun x => ~ newline x) g -> newline x -> divided r gs -> divided (g ++ x :: r) (g :: gs).
Definition not_empty {A} (l : list A) : bool := match l with [] => false | _ => true end.

(* ---- fades ---- *)
Open Scope Q_scope.
Definition Qn (n : N) : Q := inject_Z (Z.of_N n).
(* the opacity an ASS alpha stands for *)
Definition opaque (a : N) : Q := 1 - Qn a / 255.
(* the way from a to b when n of d have passed *)
Definition on_the_way (a b : Q) (n d : N) : Q := a + (b - a) * (Qn n / Qn d).
(* how opaque a fading event is, from 0 to 1; for \fade the fields are the
   alphas at both ends, when it starts and is over, the alpha in the middle and
   how long both ramps take *)
Inductive opacity (start fin now : N) : value -> Q -> Prop :=
| op_in a b i o : (now < start + i)%N -> opacity start fin now (VFade a b i o None) (on_the_way 0 1 (now - start) i)
| op_out a b i o : (start + i <= now)%N -> (0 < o)%N -> (0 < fin <= now + o)%N -> opacity start fin now (VFade a b i o None) (on_the_way 0 1 (fin - now) o)
| op_full a b i o : (start + i <= now)%N -> (now + o < fin \/ o = 0 \/ fin = 0)%N -> opacity start fin now (VFade a b i o None) 1
| op_first a1 a2 a3 s e i o : (now <= start + s)%N -> opacity start fin now (VFade a1 a3 s e (Some (a2, i, o))) (opaque a1)
| op_to_middle a1 a2 a3 s e i o : (start + s < now)%N -> (now < start + s + i)%N ->
    opacity start fin now (VFade a1 a3 s e (Some (a2, i, o))) (on_the_way (opaque a1) (opaque a2) (now - (start + s)) i)
| op_middle a1 a2 a3 s e i o : (start + s < now)%N -> (start + s + i <= now)%N -> (now <= start + e - o)%N ->
    opacity start fin now (VFade a1 a3 s e (Some (a2, i, o))) (opaque a2)
| op_to_last a1 a2 a3 s e i o : (start + s < now)%N -> (start + s + i <= now)%N -> (start + e - o < now)%N -> (now < start + e)%N ->
    opacity start fin now (VFade a1 a3 s e (Some (a2, i, o))) (on_the_way (opaque a2) (opaque a3) (now - (start + e - o)) (start + e - (start + e - o)))
| op_last a1 a2 a3 s e i o : (start + s < now)%N -> (start + s + i <= now)%N -> (start + e - o < now)%N -> (start + e <= now)%N ->
    opacity start fin now (VFade a1 a3 s e (Some (a2, i, o))) (opaque a3).
(* ramps of up to 65536 centiseconds, alphas that are bytes *)
Definition modest_fade (v : value) : Prop :=
  match v with
  | VFade a b i o None => (i <= 65536 /\ o <= 65536)%N
  | VFade a b s e (Some (c, i, o)) => (a < 256 /\ b < 256 /\ c < 256 /\ i <= 65536 /\ o <= 65536)%N
  | _ => False
  end.
(* the moments of a fade fit into 32 bits *)
Definition fade_fits (start : N) (v : value) : Prop :=
  match v with
  | VFade _ _ i _ None => (start + i < 2 ^ 32)%N
  | VFade _ _ s e (Some (_, i, _)) => (start + s + i < 2 ^ 32 /\ start + e < 2 ^ 32)%N
  | _ => True
  end.
(* c seen at opacity q *)
Definition seen_at (q : Q) (c c' : rgba) : Prop :=
  let '(r, g, b, a) := c in let '(r', g', b', a') := c' in
  r' = r /\ g' = g /\ b' = b /\ (a' <= a)%N /\ Qabs (Qn a' - Qn a * q) <= 1 + 2 ^ (-14) /\ (q == 1 -> a' = a) /\ (q == 0 -> a' = 0%N).
(* the colour of a part: its colour tag over its style, with the style's alpha
   unless a tag gives one *)
Definition part_color (tag : option value) (style : rgba) (alpha : option N) : rgba :=
  let '(r, g, b, _) := match tag with Some (VColor c) => c | _ => style end in
  (r, g, b, match alpha with Some a => a | None => let '(_, _, _, a) := style in a end).
Close Scope Q_scope.

(* ---- karaoke ---- *)
(* the length of a run that is a syllable *)
Definition syllable (t : tags) : option N :=
  match tg_field t FDrawing with
  | Some (VByte (Npos _)) => None
  | _ => match tg_field t FKaraoke with Some (VKaraoke d _ _) => Some d | _ => None end
  end.
Fixpoint total_length (l : list tags) : N :=
  match l with [] => 0 | t :: r => (match syllable t with Some d => d | None => 0 end + total_length r)%N end.
(* how far a syllable from s on for d has been sung *)
Definition sung (s d now : N) (p : float) : Prop :=
  unit_num p /\ ((now < s)%N -> p = Fin 0) /\ ((s + d <= now)%N -> p = Fin 1) /\
  ((s <= now < s + d)%N -> (d <= 16777216)%N -> close_to (2 ^ (-25)) p (Qn (now - s) / Qn d)%Q).
(* the runs of a line and how far each has been sung *)
Definition line_sung (start now : N) (line : list tags) (ps : list (option float)) : Prop :=
  length ps = length line /\
  forall before t after, line = before ++ t :: after ->
    match syllable t with
    | Some d => exists p, nth_error ps (length before) = Some (Some p) /\ sung (start + total_length before) d now p
    | None => nth_error ps (length before) = Some None
    end.
(* b is at least as far as a *)
Definition further (a b : option float) : Prop :=
  match a, b with Some p, Some q => num_le p q | None, None => True | _, _ => False end.
