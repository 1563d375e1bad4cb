(* What a user expects of text layers: what is drawn does not depend on what
   the thread has drawn before. *)
From Verif Require Import Base PixelModel TileModel.

Section Spec.
  Context (pl : platform) (db : DB pl).

  (* no rotation out of the plane *)
  Definition flat (e : effect) : Prop :=
    match e with ERotation x y _ _ => f_eq pl x (f_lit pl 0 1) = true /\ f_eq pl y (f_lit pl 0 1) = true | _ => True end.
  Definition blurred (d : text_data) : Prop := exists r, In (EBlur r) (td_effects d).

  (* a text whose size is one of a set, and which, if it is blurred, has a
     radius whose padding fits 32 bits and is not rotated out of the plane *)
  Definition calm (ok : bits -> Prop) (d : text_data) : Prop :=
    ok (td_size d) /\ forall r, In (EBlur r) (td_effects d) -> pl_ceil pl r = pl_pad pl r /\ Forall flat (td_effects d).
  Definition calm_layer (ok : bits -> Prop) (l : layer) : Prop := match l with LText d => calm ok d | LOther _ => True end.
  Definition sharp_layer (l : layer) : Prop := match l with LText d => ~ blurred d | LOther _ => True end.

  (* no two font sizes of the set share their 16.16 number *)
  Definition sizes_apart (ok : bits -> Prop) : Prop := forall a b, ok a -> ok b -> pl_size16 pl a = pl_size16 pl b -> a = b.
  (* the shaper hands the size back *)
  Definition size_kept : Prop := forall k sh, pl_shape pl db k = Ok sh -> sh_size sh = sk_size k.

  (* calls that keep to calm layers; the pipeline's own database shapes as the backend's does *)
  Definition calm_call (ok : bits -> Prop) (c : call pl) : Prop :=
    match c with
    | CShape _ d k => pl_shape pl d k = pl_shape pl db k
    | CFrame _ ls => Forall (calm_layer ok) ls
    | CBitmaps _ ls => Forall (calm_layer ok) ls
    end.
  (* no bitmap list was cut short *)
  Definition whole (a : answer) : Prop := match a with ABitmaps (Ok _) => True | ABitmaps _ => False | _ => True end.

  (* the sizes of the caches *)
  Definition within (s : state pl) : Prop :=
    (N.of_nat (length (st_shapes pl s)) <= 8192)%N /\ (N.of_nat (length (st_cover pl s)) <= 256)%N /\ (N.of_nat (length (st_blurs pl s)) <= 512)%N.
End Spec.

(* the byte of a tile at column x and row y *)
Definition sample (t : tile) (x y : nat) : option N := nth_error (tl_data t) (y * N.to_nat (tl_w t) + x).

(* a layer drawn from coverage tiles: upright or turned in the plane, with any
   of bold, italic, outline, shadow, scale, shear and karaoke *)
Definition tiled (pl : platform) (d : text_data) : Prop :=
  Forall (fun e => match e with
                   | EBold | EItalic | EOutline _ _ _ | EShadow _ _ _ | EKaraoke _ _ _ | EScale _ _ | EShear _ _ => True
                   | ERotation _ _ _ _ => flat pl e
                   | _ => False
                   end) (td_effects d).
Definition tiled_layer (pl : platform) (l : layer) : Prop := match l with LText d => tiled pl d | LOther _ => False end.

(* the glyphs of a text, outlined and placed from left to right; the spacing
   grows by one letter's worth between two glyphs *)
Fixpoint placed (pl : platform) (db : DB pl) (font : N) (size spacing : bits) (gs : list glyph) (acc : bits) : list (PATH pl) :=
  match gs with
  | [] => []
  | [g] => match pl_outline pl db font (g_id g) size with
           | Some p => match pl_place pl p (f_add pl (g_x g) acc) (g_y g) with Some q => [q] | None => [] end
           | None => []
           end
  | g :: rest => (match pl_outline pl db font (g_id g) size with
                  | Some p => match pl_place pl p (f_add pl (g_x g) acc) (g_y g) with Some q => [q] | None => [] end
                  | None => []
                  end) ++ placed pl db font size spacing rest (f_add pl acc spacing)
  end.
Definition in_i32 (z : Z) : Prop := (-2147483648 <= z <= 2147483647)%Z.
