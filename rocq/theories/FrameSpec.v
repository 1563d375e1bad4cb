(* What frames are to a user: each is a value of its own - a picture with its
   bytes, size, time and format.  No pointers, no counts. *)
From Verif Require Import Base FrameModel.

Record value := mkV { v_bytes : list N; v_width : N; v_height : N; v_time : N; v_format : pixel_format }.

(* the colour of the pixel number k: red, green, blue, alpha; a pixel without alpha is opaque *)
Definition bpp (p : pixel_format) : nat := match p with Rgb8 => 3 | _ => 4 end.
Definition pixel (p : pixel_format) (b : list N) (k : nat) : option (N * N * N * N) :=
  match p, firstn (bpp p) (skipn (k * bpp p) b) with
  | Rgba8, [x; y; z; a] => Some (x, y, z, a)
  | Bgra8, [x; y; z; a] => Some (z, y, x, a)
  | Rgb8, [x; y; z] => Some (x, y, z, 255%N)
  | _, _ => None
  end.
Definition pixels_of (p : pixel_format) (b : list N) : list (N * N * N * N) :=
  flat_map (fun k => match pixel p b k with Some q => [q] | None => [] end) (seq 0 (List.length b / bpp p)).
Definition bytes_of (q : N * N * N * N) : list N := let '(x, y, z, a) := q in [x; y; z; a].
(* the same picture as RGBA bytes; bytes after the last whole pixel stay for four-byte formats *)
Definition rgba_bytes (p : pixel_format) (b : list N) : list N :=
  flat_map bytes_of (pixels_of p b) ++ match p with Rgb8 => [] | _ => skipn (List.length b / 4 * 4) b end.
(* every pixel is fully transparent *)
Definition clear (p : pixel_format) (b : list N) : bool :=
  match p with Rgb8 => false | _ => forallb (fun q => (snd q =? 0)%N) (pixels_of p b) end.
(* the size of an RGBA picture fits in 32 bits *)
Definition fits (width height : N) : bool := (width * height * 4 <? 4294967296)%N.

Definition set (i : nat) (x : option value) (s : list (option value)) : list (option value) := firstn i s ++ x :: skipn (S i) s.
Fixpoint poke (l : list (nat * N)) (b : list N) : option (list N) :=
  match l with
  | [] => Some b
  | (k, v) :: r => if k <? List.length b then poke r (firstn k b ++ v :: skipn (S k) b) else None
  end.

Definition vstep (s : list (option value)) (o : op) : outcome (list (option value)) seen :=
  let with_var i k := match nth i s None with Some x => k x | None => Stuck end in
  match o with
  | ONew b width height time p => Next (s ++ [Some (mkV b width height time p)]) Nothing
  | OEmpty width height time =>
    if fits width height then Next (s ++ [Some (mkV (repeat 0%N (N.to_nat (width * height * 4))) width height time Rgba8)]) Nothing
    else Panicked
  | OClone i => with_var i (fun x => Next (s ++ [Some x]) Nothing)
  | ORetime i time => with_var i (fun x => Next (s ++ [Some (mkV (v_bytes x) (v_width x) (v_height x) time (v_format x))]) Nothing)
  | OWrite i l => with_var i (fun x =>
      match poke l (v_bytes x) with
      | Some b => Next (set i (Some (mkV b (v_width x) (v_height x) (v_time x) (v_format x))) s) Nothing
      | None => Panicked
      end)
  | OToRgba i => with_var i (fun x =>
      match v_format x with
      | Rgba8 => Next s Nothing
      | p => if match p with Rgb8 => fits (v_width x) (v_height x) | _ => true end
             then Next (set i (Some (mkV (rgba_bytes p (v_bytes x)) (v_width x) (v_height x) (v_time x) Rgba8)) s) Nothing
             else Panicked
      end)
  | OInto i => with_var i (fun x => Next (set i None s) (Buffer (v_bytes x)))
  | ODrop i => with_var i (fun _ => Next (set i None s) Nothing)
  | OLook i => with_var i (fun x =>
      Next s (Saw (mkView (v_bytes x) (v_width x) (v_height x) (v_time x) (v_format x)
        (N.of_nat (bpp (v_format x))) (v_width x * N.of_nat (bpp (v_format x))) (clear (v_format x) (v_bytes x)))))
  end.
Definition vrun (l : list op) : outcome (list (option value)) (list seen) := run_from vstep [] l.

(* how many of a program's frames use the cell p *)
Definition users (p : nat) (vars : list (option frame)) : nat :=
  List.length (filter (fun o => match o with Some f => f_ptr f =? p | None => false end) vars).
