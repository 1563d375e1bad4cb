(* The texture atlas.  Source: crates/ass-renderer/src/utils/caches.rs 87-184.
   None is a panic; u32 arithmetic is that of a checked build. *)
From Verif Require Import Base PixelModel.

Definition u32 (z : Z) : option Z := if ((0 <=? z) && (z <? 4294967296))%Z then Some z else None.
Record region := Region { g_id : Z; g_x : Z; g_y : Z; g_w : Z; g_h : Z }.
Record atlas := Atlas { at_w : Z; at_h : Z; at_data : list N; at_allocs : list region; at_next_x : Z; at_next_y : Z; at_row : Z }.
(* caches.rs 114-124, new *)
Definition new_atlas (w h : Z) : option atlas :=
  do a <- u32 (w * h)%Z;
  do b <- u32 (a * 4)%Z;
  Some (Atlas w h (repeat 0%N (Z.to_nat b)) [] 0 0 0).
(* caches.rs 127-154, allocate *)
Definition allocate (a : atlas) (w h : Z) : option (atlas * option region) :=
  do edge <- u32 (at_next_x a + w)%Z;
  do a1 <-
    (if (at_w a <? edge)%Z then
       do ny <- u32 (at_next_y a + at_row a)%Z;
       Some (Atlas (at_w a) (at_h a) (at_data a) (at_allocs a) 0 ny 0)
     else Some a);
  do bottom <- u32 (at_next_y a1 + h)%Z;
  if (at_h a1 <? bottom)%Z then Some (a1, None) else
  let r := Region (Z.of_nat (List.length (at_allocs a1)) mod 4294967296) (at_next_x a1) (at_next_y a1) w h in
  do nx <- u32 (at_next_x a1 + w)%Z;
  Some (Atlas (at_w a1) (at_h a1) (at_data a1) (at_allocs a1 ++ [r]) nx (at_next_y a1) (Z.max (at_row a1) h), Some r).
(* caches.rs 157-169, write_region *)
Definition write_row (a : atlas) (r : region) (stride : Z) (new : list N) (y : Z) (data : list N) : option (list N) :=
  do p <- u32 (y * g_w r)%Z;
  do src <- u32 (p * 4)%Z;
  do q <- u32 (g_y r + y)%Z;
  do s <- u32 (q * stride)%Z;
  do t <- u32 (g_x r * 4)%Z;
  do dst <- u32 (s + t)%Z;
  do len <- u32 (g_w r * 4)%Z;
  let src := Z.to_nat src in let dst := Z.to_nat dst in let len := Z.to_nat len in
  if (src + len <=? List.length new) && (dst + len <=? List.length data) then
    do bytes <- sub_slice src len new;
    copy_at dst bytes data
  else Some data.
Definition write_region (a : atlas) (r : region) (new : list N) : option atlas :=
  do stride <- u32 (at_w a * 4)%Z;
  do data <- each_row (write_row a r stride new) (span_from 0 (g_h r)) (at_data a);
  Some (Atlas (at_w a) (at_h a) data (at_allocs a) (at_next_x a) (at_next_y a) (at_row a)).
(* caches.rs 177-183, clear *)
Definition clear_atlas (a : atlas) : atlas := Atlas (at_w a) (at_h a) (map (fun _ => 0%N) (at_data a)) [] 0 0 0.

Inductive atlas_op := AAlloc (w h : Z) | AWrite (r : region) (new : list N) | AClear.
Definition atlas_step (a : atlas) (o : atlas_op) : option (atlas * option region) :=
  match o with
  | AAlloc w h => allocate a w h
  | AWrite r new => do b <- write_region a r new; Some (b, None)
  | AClear => Some (clear_atlas a, None)
  end.
Fixpoint atlas_run (a : atlas) (ops : list atlas_op) : option (atlas * list (option region)) :=
  match ops with
  | [] => Some (a, [])
  | o :: ops' =>
    do (a1, x) <- atlas_step a o;
    do (a2, xs) <- atlas_run a1 ops';
    Some (a2, x :: xs)
  end.
