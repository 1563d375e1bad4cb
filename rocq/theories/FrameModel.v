(* Rendered frames: a pixel buffer behind a counted pointer, with copy on write.
   Source: crates/ass-renderer/src/renderer/frame.rs (whole file).
   The counted pointer is std's Arc: a heap of cells, each with its count, or
   nothing where a cell has been freed.  A program's frames are its variables;
   a variable whose frame was moved or dropped holds None.  Each operation is
   one step: std's atomic counters are taken to make it so.  Arithmetic is that
   of a checked build; usize has 64 bits. *)
From Verif Require Import Base.

(* frame.rs 23-32 *)
Inductive pixel_format := Rgba8 | Bgra8 | Rgb8.

(* frame.rs 14-21; the buffer is an address in the heap *)
Record frame := mkF { f_ptr : nat; f_width : N; f_height : N; f_time : N; f_format : pixel_format }.
(* the allocation behind an Arc<Vec<u8>>: strong count and vector (no weak pointers are made) *)
Record cell := mkC { c_strong : nat; c_bytes : list N }.
Definition heap := list (option cell).
Record world := mkW { w_heap : heap; w_vars : list (option frame) }.

Fixpoint upd {A} (i : nat) (x : A) (l : list A) : list A :=
  match l, i with
  | [], _ => []
  | _ :: r, 0 => x :: r
  | y :: r, S i' => y :: upd i' x r
  end.

Definition u32_mul (a b : N) : option N := if (a * b <? 4294967296)%N then Some (a * b)%N else None.

(* what a step can do *)
Inductive outcome (W O : Type) :=
| Next (w : W) (o : O)      (* the step is done; what the caller sees *)
| Stuck                     (* not a program: the variable holds no frame *)
| Fault                     (* a freed cell would be used *)
| Panicked.
Arguments Next {W O}. Arguments Stuck {W O}. Arguments Fault {W O}. Arguments Panicked {W O}.

(* what a caller can see of a frame: frame.rs 85-135, 161-168 *)
Record view := mkView { s_data : list N; s_width : N; s_height : N; s_time : N; s_format : pixel_format; s_bpp : N; s_stride : N; s_empty : bool }.
Inductive seen := Nothing | Saw (v : view) | Buffer (b : list N).

(* frame.rs 125-130 *)
Definition bytes_per_pixel (p : pixel_format) : N := match p with Rgba8 | Bgra8 => 4 | Rgb8 => 3 end.
(* frame.rs 133-135 *)
Definition stride (width : N) (p : pixel_format) : N := (width * bytes_per_pixel p)%N.
(* frame.rs 164: chunks_exact(4).all *)
Fixpoint all_clear (b : list N) : bool :=
  match b with
  | _ :: _ :: _ :: a :: r => (a =? 0)%N && all_clear r
  | _ => true
  end.
(* frame.rs 161-168 *)
Definition is_empty (p : pixel_format) (b : list N) : bool :=
  match p with Rgba8 | Bgra8 => all_clear b | Rgb8 => false end.
(* frame.rs 142-144: chunks_exact_mut(4), chunk.swap(0, 2) *)
Fixpoint swap02 (b : list N) : list N :=
  match b with
  | x :: y :: z :: a :: r => z :: y :: x :: a :: swap02 r
  | _ => b
  end.
(* frame.rs 150-152: chunks_exact(3) *)
Fixpoint add_alpha (b : list N) : list N :=
  match b with
  | x :: y :: z :: r => x :: y :: z :: 255%N :: add_alpha r
  | _ => []
  end.

(* Arc::new *)
Definition alloc (h : heap) (b : list N) : heap * nat := (h ++ [Some (mkC 1 b)], List.length h).
Definition get (h : heap) (p : nat) : option cell := match nth_error h p with Some (Some c) => Some c | _ => None end.
(* Arc::clone *)
Definition retain (h : heap) (p : nat) : option heap :=
  match get h p with Some c => Some (upd p (Some (mkC (S (c_strong c)) (c_bytes c))) h) | None => None end.
(* dropping an Arc *)
Definition release (h : heap) (p : nat) : option heap :=
  match get h p with
  | Some c => match c_strong c with
              | S (S n) => Some (upd p (Some (mkC (S n) (c_bytes c))) h)
              | _ => Some (upd p None h)
              end
  | None => None
  end.
(* Arc::make_mut: in place when this is the only pointer, else a copy replaces it *)
Definition make_mut (h : heap) (p : nat) : option (heap * nat) :=
  match get h p with
  | Some c =>
    if c_strong c =? 1 then Some (h, p)
    else let '(h1, q) := alloc h (c_bytes c) in
         match release h1 p with Some h2 => Some (h2, q) | None => None end
  | None => None
  end.
Definition set_bytes (h : heap) (p : nat) (b : list N) : option heap :=
  match get h p with Some c => Some (upd p (Some (mkC (c_strong c) b)) h) | None => None end.

(* writes through the &mut [u8] that data_mut returns: slice[k] = v, in order *)
Fixpoint writes (l : list (nat * N)) (b : list N) : option (list N) :=
  match l with
  | [] => Some b
  | (k, v) :: r => if k <? List.length b then writes r (upd k v b) else None
  end.

Inductive op :=
| ONew (b : list N) (width height time : N) (p : pixel_format)   (* new, from_rgba, with_format: 36-66 *)
| OEmpty (width height time : N)                                 (* empty: 69-72 *)
| OClone (i : nat)                                               (* the derived Clone: 14 *)
| ORetime (i : nat) (time : N)                                   (* with_timestamp: 76-82 *)
| OWrite (i : nat) (l : list (nat * N))                          (* data_mut: 95-97 *)
| OToRgba (i : nat)                                              (* i = i.to_rgba(): 138-158 *)
| OInto (i : nat)                                                (* into_buffer: 100-102 *)
| ODrop (i : nat)
| OLook (i : nat).                                               (* the readers: 85-135, 161-168 *)

Definition var (w : world) (i : nat) : option frame := match nth_error (w_vars w) i with Some (Some f) => Some f | _ => None end.
Definition push (w : world) (h : heap) (f : frame) : world := mkW h (w_vars w ++ [Some f]).
Definition with_ptr (f : frame) (p : nat) : frame := mkF p (f_width f) (f_height f) (f_time f) (f_format f).
Definition as_rgba8 (f : frame) (p : nat) : frame := mkF p (f_width f) (f_height f) (f_time f) Rgba8.

Definition step (w : world) (o : op) : outcome world seen :=
  let h := w_heap w in
  match o with
  | ONew b width height time p =>
    let '(h1, q) := alloc h b in Next (push w h1 (mkF q width height time p)) Nothing
  | OEmpty width height time =>
    (* 70: width * height * 4 in u32 *)
    match u32_mul width height with
    | None => Panicked
    | Some a => match u32_mul a 4 with
                | None => Panicked
                | Some size => let '(h1, q) := alloc h (repeat 0%N (N.to_nat size)) in
                               Next (push w h1 (mkF q width height time Rgba8)) Nothing
                end
    end
  | OClone i =>
    match var w i with
    | None => Stuck
    | Some f => match retain h (f_ptr f) with None => Fault | Some h1 => Next (push w h1 f) Nothing end
    end
  | ORetime i time =>
    match var w i with
    | None => Stuck
    | Some f => match retain h (f_ptr f) with
                | None => Fault
                | Some h1 => Next (push w h1 (mkF (f_ptr f) (f_width f) (f_height f) time (f_format f))) Nothing
                end
    end
  | OWrite i l =>
    match var w i with
    | None => Stuck
    | Some f =>
      match make_mut h (f_ptr f) with
      | None => Fault
      | Some (h1, q) =>
        match get h1 q with
        | None => Fault
        | Some c => match writes l (c_bytes c) with
                    | None => Panicked
                    | Some b => match set_bytes h1 q b with
                                | None => Fault
                                | Some h2 => Next (mkW h2 (upd i (Some (with_ptr f q)) (w_vars w))) Nothing
                                end
                    end
        end
      end
    end
  | OToRgba i =>
    match var w i with
    | None => Stuck
    | Some f =>
      match f_format f with
      | Rgba8 => Next w Nothing
      | Bgra8 =>
        match make_mut h (f_ptr f) with
        | None => Fault
        | Some (h1, q) =>
          match get h1 q with
          | None => Fault
          | Some c => match set_bytes h1 q (swap02 (c_bytes c)) with
                      | None => Fault
                      | Some h2 => Next (mkW h2 (upd i (Some (as_rgba8 f q)) (w_vars w))) Nothing
                      end
          end
        end
      | Rgb8 =>
        (* 149: the capacity is computed in u32 *)
        match u32_mul (f_width f) (f_height f) with
        | None => Panicked
        | Some a =>
          match u32_mul a 4 with
          | None => Panicked
          | Some _ =>
            match get h (f_ptr f) with
            | None => Fault
            | Some c =>
              (* 153: the assignment drops the old pointer *)
              let '(h1, q) := alloc h (add_alpha (c_bytes c)) in
              match release h1 (f_ptr f) with
              | None => Fault
              | Some h2 => Next (mkW h2 (upd i (Some (as_rgba8 f q)) (w_vars w))) Nothing
              end
            end
          end
        end
      end
    end
  | OInto i =>
    match var w i with
    | None => Stuck
    | Some f =>
      match get h (f_ptr f) with
      | None => Fault
      (* try_unwrap takes the vector of an only pointer, else the vector is cloned; the pointer goes away *)
      | Some c => match release h (f_ptr f) with
                  | None => Fault
                  | Some h1 => Next (mkW h1 (upd i None (w_vars w))) (Buffer (c_bytes c))
                  end
      end
    end
  | ODrop i =>
    match var w i with
    | None => Stuck
    | Some f => match release h (f_ptr f) with
                | None => Fault
                | Some h1 => Next (mkW h1 (upd i None (w_vars w))) Nothing
                end
    end
  | OLook i =>
    match var w i with
    | None => Stuck
    | Some f =>
      match get h (f_ptr f) with
      | None => Fault
      | Some c => Next w (Saw (mkView (c_bytes c) (f_width f) (f_height f) (f_time f) (f_format f)
                     (bytes_per_pixel (f_format f)) (stride (f_width f) (f_format f)) (is_empty (f_format f) (c_bytes c))))
      end
    end
  end.

(* a program: its steps and all it sees *)
Fixpoint run_from {W} (stp : W -> op -> outcome W seen) (w : W) (l : list op) : outcome W (list seen) :=
  match l with
  | [] => Next w []
  | o :: r =>
    match stp w o with
    | Next w1 s => match run_from stp w1 r with
                   | Next w2 t => Next w2 (s :: t)
                   | Stuck => Stuck
                   | Fault => Fault
                   | Panicked => Panicked
                   end
    | Stuck => Stuck
    | Fault => Fault
    | Panicked => Panicked
    end
  end.
Definition start : world := mkW [] [].
Definition run (l : list op) : outcome world (list seen) := run_from step start l.
