(* Model of the Gaussian blur of the software backend:
   crates/ass-renderer/src/backends/blur.rs, apply_gaussian_blur.
   As in RasterModel the code is written once over a record of arithmetic
   operations, and used with IEEE binary32 and with the rational numbers; exp is
   any function.  None stands for a panic: an i32 overflow or a slice out of
   range. *)
From Coq Require Import Qround.
From Verif Require Import Base PixelModel FloatModel.

(* what the code does with an f32 *)
Record ops := Ops {
  num : Type;
  lit_ : Z -> num;                (* a whole literal, x as f32, f32::from(v) *)
  add : num -> num -> num; mul : num -> num -> num; div : num -> num -> num; neg : num -> num;
  exp_ : num -> num;
  le0 : num -> bool;              (* x <= 0.0 *)
  ceil_i32 : num -> Z;            (* x.ceil() as i32 *)
  byte : num -> N                 (* x.round().clamp(0.0, 255.0) as u8 *)
}.
(* f32::round: halves away from zero *)
Definition round_away (q : Q) : Z := (if Qnum q <? 0 then - Qfloor (- q + (1 # 2)) else Qfloor (q + (1 # 2)))%Z%Q.
Definition clamp_byte (z : Z) : N := Z.to_N (Z.max 0 (Z.min 255 z)).
Definition clamp_i32 (z : Z) : Z := Z.max (-2147483648) (Z.min 2147483647 z).
Definition single (ex : float -> float) : ops := {|
  num := float; lit_ := f_of_Z f32; add := f_add f32; mul := f_mul f32; div := f_div f32; neg := f_opp; exp_ := ex;
  le0 := fun a => f_le a (Fin 0);
  ceil_i32 := fun a => match a with NaN => 0%Z | Inf n => clamp_i32 (if n then -2147483648 else 2147483647)%Z | Fin q => clamp_i32 (Qceiling q) end;
  byte := fun a => match a with NaN => 0%N | Inf n => if n then 0%N else 255%N | Fin q => clamp_byte (round_away q) end |}.
Definition exact (ex : Q -> Q) : ops := {|
  num := Q; lit_ := inject_Z; add := Qplus; mul := Qmult; div := Qdiv; neg := Qopp; exp_ := ex;
  le0 := fun a => Qle_bool a 0;
  ceil_i32 := fun q => clamp_i32 (Qceiling q);
  byte := fun q => clamp_byte (round_away q) |}.

Section Blur.
  Context (A : ops).

  (* lines 35-40: the kernel before it is normalised, and its sum *)
  Fixpoint kernel_raw (inv : num A) (radius : Z) (is_ : list Z) (sum : num A) : option (list (num A) * num A) :=
    match is_ with
    | [] => Some ([], sum)
    | i :: r =>
      do x <- i32 (i - radius)%Z;
      do xx <- i32 (x * x)%Z;
      let v := exp_ A (mul A (neg A (lit_ A xx)) inv) in
      do (l, s) <- kernel_raw inv radius r (add A sum v);
      Some (v :: l, s)
    end.
  (* lines 32-43 *)
  Definition kernel (sigma : num A) (radius : Z) : option (list (num A)) :=
    let inv := div A (lit_ A 1) (mul A (mul A (lit_ A 2) sigma) sigma) in
    do d <- i32 (2 * radius)%Z;
    do n <- i32 (d + 1)%Z;
    do len <- as_usize n;
    do (raw, sum) <- kernel_raw inv radius (span_from 0 (Z.of_nat len)) (lit_ A 0);
    Some (map (fun v => div A v sum) raw).

  (* lines 53-58 *)
  Definition premul (c a : N) : N := u8 ((c * a + 127) / 255).
  Fixpoint premultiply (data : list N) : list N :=
    match data with
    | r :: g :: b :: a :: rest => premul r a :: premul g a :: premul b a :: a :: premultiply rest
    | l => l
    end.
  (* lines 102-107 *)
  Definition unmul (c a : N) : N := if (a =? 0)%N then 0%N else u8 (N.min (c * 255 / a) 255).
  Fixpoint unpremultiply (data : list N) : list N :=
    match data with
    | r :: g :: b :: a :: rest => unmul r a :: unmul g a :: unmul b a :: a :: unpremultiply rest
    | l => l
    end.

  (* lines 66-73 and 85-92: four sums over the taps; at_ gives the byte offset of a tap *)
  Fixpoint taps (ks : list (num A)) (ki : Z) (at_ : Z -> option nat) (src : list N) (acc : list (num A)) : option (list (num A)) :=
    match ks with
    | [] => Some acc
    | k :: r =>
      do i <- at_ ki;
      do vs <- sub_slice i 4 src;
      taps r (ki + 1) at_ src (map (fun av => add A (fst av) (mul A k (lit_ A (Z.of_N (snd av))))) (combine acc vs))
    end.
  (* (p + ki as i32 - radius).clamp(0, size - 1) *)
  Definition tap (p ki radius size : Z) : option nat :=
    do a <- i32 (p + ki)%Z;
    do b <- i32 (a - radius)%Z;
    do m <- i32 (size - 1)%Z;
    as_usize (Z.max 0 (Z.min m b)).
  Definition zeros : list (num A) := repeat (lit_ A 0) 4.
  (* lines 63-79 *)
  Definition horizontal (ks : list (num A)) (radius w h : Z) (data temp : list N) : option (list N) :=
    let stride := Z.to_nat w * 4 in
    each_row (fun y temp =>
      let row := Z.to_nat y * stride in
      each_row (fun x temp =>
        do acc <- taps ks 0 (fun ki => do sx <- tap x ki radius w; Some (row + sx * 4)) data zeros;
        copy_at (row + Z.to_nat x * 4) (map (byte A) acc) temp) (span_from 0 w) temp) (span_from 0 h) temp.
  (* lines 82-98 *)
  Definition vertical (ks : list (num A)) (radius w h : Z) (temp data : list N) : option (list N) :=
    let stride := Z.to_nat w * 4 in
    each_row (fun x data =>
      let col := Z.to_nat x * 4 in
      each_row (fun y data =>
        do acc <- taps ks 0 (fun ki => do sy <- tap y ki radius h; Some (sy * stride + col)) temp zeros;
        copy_at (Z.to_nat y * stride + col) (map (byte A) acc) data) (span_from 0 h) data) (span_from 0 w) data.

  (* lines 20-108, apply_gaussian_blur *)
  Definition apply_gaussian_blur (sigma : num A) (p : pixmap) : option pixmap :=
    if le0 A sigma then Some p else
    let radius := ceil_i32 A (mul A sigma (lit_ A 3)) in
    let w := as_i32 (p_w p) in let h := as_i32 (p_h p) in
    if ((radius <? 1) || (w =? 0) || (h =? 0))%Z then Some p else
    do ks <- kernel sigma radius;
    let data := premultiply (p_data p) in
    do temp <- horizontal ks radius w h data (repeat 0%N (length data));
    do data <- vertical ks radius w h temp data;
    Some (Pixmap (p_w p) (p_h p) (unpremultiply data)).
End Blur.
