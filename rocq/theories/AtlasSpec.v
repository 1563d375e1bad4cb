(* What the atlas promises. *)
From Verif Require Import Base PixelModel PixelSpec AtlasModel.

Definition in_region (r : region) (x y : Z) : Prop := (g_x r <= x < g_x r + g_w r /\ g_y r <= y < g_y r + g_h r)%Z.
Definition apart (r s : region) : Prop := forall x y, in_region r x y -> in_region s x y -> False.
(* the regions handed out since the last clear, in order *)
Fixpoint live (acc : list region) (ops : list atlas_op) (outs : list (option region)) : list region :=
  match ops, outs with
  | AAlloc _ _ :: ops', Some r :: outs' => live (acc ++ [r]) ops' outs'
  | AClear :: ops', _ :: outs' => live [] ops' outs'
  | _ :: ops', _ :: outs' => live acc ops' outs'
  | _, _ => acc
  end.
Definition size_ok (o : atlas_op) : Prop := match o with AAlloc w h => (0 <= w /\ 0 <= h)%Z | _ => True end.
Definition fits_width (W : Z) (o : atlas_op) : Prop := match o with AAlloc w _ => (w <= W)%Z | _ => True end.
Definition within (W H : Z) (r : region) : Prop := (0 <= g_x r /\ 0 <= g_w r /\ g_x r + g_w r <= W /\ 0 <= g_y r /\ 0 <= g_h r /\ g_y r + g_h r <= H)%Z.
(* requests that keep the arithmetic in range *)
Definition modest (W H : Z) (o : atlas_op) : Prop :=
  match o with
  | AAlloc w h => (0 <= w <= W /\ 0 <= h < 4294967296 - H)%Z
  | AWrite r _ => within W H r
  | AClear => True
  end.
(* the row of the region that y falls in was supplied in full *)
Definition supplied (r : region) (new : list N) (y : Z) : Prop := (4 * ((y - g_y r + 1) * g_w r) <= Z.of_nat (List.length new))%Z.
