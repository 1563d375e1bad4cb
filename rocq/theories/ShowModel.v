(* Model of what the renderer makes of a run of text at a moment: ass-renderer
   pipeline/build/text/colors.rs (lines, colours, fades) and the karaoke part of
   pipeline/build/text/mod.rs.  Overflow of u32 arithmetic is a panic. *)
From Verif Require Export Base FloatModel SegmentModel AnimModel.
From Verif Require Import CollideModel.

(* ---- lines: colors.rs:15-54 ---- *)
Definition is_break (c : char) : bool := (c =? 10)%N.
Definition piece (s : segment) (t : str) : segment := Segment t (sg_start s) (sg_end s) (sg_tags s).
(* the loop over the parts of a segment; first says that i = 0 *)
Fixpoint add_parts (s : segment) (first : bool) (parts : list str) (st : list (list segment) * list segment) : list (list segment) * list segment :=
  match parts with
  | [] => st
  | p :: r =>
    let '(lines, cur) := st in
    let '(lines, cur) := match cur with
      | [] => (lines, cur)
      | _ => if first then (lines, cur) else (lines ++ [cur], []) end in
    let cur := match p with [] => cur | _ => cur ++ [piece s p] end in
    add_parts s false r (lines, cur)
  end.
Definition add_segment (st : list (list segment) * list segment) (s : segment) : list (list segment) * list segment :=
  match sg_text s with
  | [] => st
  | _ => if existsb is_break (sg_text s) then add_parts s true (split_on is_break (sg_text s)) st else (fst st, snd st ++ [s])
  end.
Definition split_into_lines (segs : list segment) : list (list segment) :=
  let '(lines, cur) := fold_left add_segment segs ([], []) in
  match cur with [] => lines | _ => lines ++ [cur] end.

(* ---- colours: colors.rs:58-160 ---- *)
Definition add_time (a b : N) : option N := if (u32_max <? a + b)%N then None else Some (a + b)%N.
Definition with_alpha (c : rgba) (a : N) : rgba := let '(r, g, b, _) := c in (r, g, b, a).
Definition alpha_of (c : rgba) : N := let '(_, _, _, a) := c in a.
Definition f_min1 (x : float) : float := f_min x (fl 1).
Definition ratio (n d : N) : float := f_div f32 (f_of_N f32 n) (f_of_N f32 d).
(* colors.rs:103-130, with alpha_middle: the a1..a3 are ASS alphas *)
Definition fade_complex (a1 a2 a3 t1 t2 t3 t4 now : N) : float :=
  let ramp a b from to := add32 (f_of_N f32 a) (f_div f32 (mul32 (sub32 (f_of_N f32 b) (f_of_N f32 a)) (f_of_N f32 (now - from))) (f_of_N f32 (N.max (to - from) 1))) in
  let ass := if (now <=? t1)%N then f_of_N f32 a1
             else if (now <? t2)%N then ramp a1 a2 t1 t2
             else if (now <=? t3)%N then f_of_N f32 a2
             else if (now <? t4)%N then ramp a2 a3 t3 t4
             else f_of_N f32 a3 in
  sub32 (fl 255) ass.
(* colors.rs:130-149 *)
Definition fade_simple (fade_in fade_out start fin fade_in_end now : N) : float :=
  let fade_out_start := (fin - fade_out)%N in
  if (now <? fade_in_end)%N then mul32 (fl 255) (f_min1 (ratio (now - start) (N.max fade_in 1)))
  else if (fade_out_start <=? now)%N && (fade_out_start <? fin)%N then mul32 (fl 255) (f_min1 (ratio (fin - now) (N.max fade_out 1)))
  else fl 255.
Definition fade_alpha (v : value) (start fin now : N) : option float :=
  match v with
  | VFade a1 a3 ts te (Some (a2, i, o)) =>
    match add_time start ts with
    | Some t1 => match add_time t1 i with
      | Some t2 => match add_time start te with
        | Some t4 => Some (fade_complex a1 a2 a3 t1 t2 (t4 - o)%N t4 now)
        | None => None end
      | None => None end
    | None => None end
  | VFade _ _ ts te None =>
    match add_time start ts with
    | Some e => Some (fade_simple ts te start fin e now)
    | None => None end
  | _ => Some (fl 255)
  end.
(* colors.rs:152-156 *)
Definition dim (fa : float) (c : rgba) : rgba := with_alpha c (f_to_N 255 (mul32 (f_of_N f32 (alpha_of c)) (f_div f32 fa (fl 255)))).
Definition color_or (o : option value) (d : rgba) : rgba := match o with Some (VColor c) => c | _ => d end.
Definition byte_of (o : option value) : option N := match o with Some (VByte n) => Some n | _ => None end.
Definition or_byte (a b : option N) : option N := match a with Some _ => a | None => b end.
Definition override (o : option N) (c : rgba) : rgba := match o with Some a => with_alpha c a | None => c end.
(* colors.rs:67-94: fill, outline and shadow before the fade; the alpha of a colour tag is never used *)
Definition run_colors (t : tags) (d : look) : rgba * rgba * rgba :=
  (override (or_byte (byte_of (tg_field t FAlpha1)) (byte_of (tg_field t FAlpha))) (with_alpha (color_or (tg_field t FPrimary) (lk_primary d)) (alpha_of (lk_primary d))),
   override (byte_of (tg_field t FAlpha3)) (with_alpha (color_or (tg_field t FOutline) (lk_outline d)) (alpha_of (lk_outline d))),
   override (byte_of (tg_field t FAlpha4)) (with_alpha (color_or (tg_field t FBack) (lk_back d)) (alpha_of (lk_back d)))).
(* start and fin are event.start_time_cs().unwrap_or(0) and event.end_time_cs().unwrap_or(u32::MAX) *)
Definition resolve_run_colors (t : tags) (d : look) (start fin now : N) : run (rgba * rgba * rgba) :=
  let '(c, o, s) := run_colors t d in
  match tg_field t FFade with
  | None => Done (c, o, s)
  | Some v => match fade_alpha v start fin now with
              | Some fa => Done (dim fa c, dim fa o, dim fa s)
              | None => Crash
              end
  end.

(* ---- karaoke: text/mod.rs:157, 175-183 and 275-312 ---- *)
Definition is_drawing (t : tags) : bool := match tg_field t FDrawing with Some (VByte n) => (0 <? n)%N | _ => false end.
(* one line: the progress of each of its runs that is a syllable *)
Fixpoint sing (start now acc : N) (line : list tags) : run (list (option float)) :=
  match line with
  | [] => Done []
  | t :: r =>
    match (if is_drawing t then None else tg_field t FKaraoke) with
    | Some (VKaraoke dur _ _) =>
      match add_time start acc with
      | None => Crash
      | Some s => match add_time s dur with
        | None => Crash
        | Some e =>
          let p := if (now <? s)%N then fl 0 else if (e <=? now)%N then fl 1 else ratio (now - s) dur in
          match add_time acc dur with
          | None => Crash
          | Some acc => rest <- sing start now acc r ;; Done (Some p :: rest)
          end
        end
      end
    | _ => rest <- sing start now acc r ;; Done (None :: rest)
    end
  end.
(* text/mod.rs:120-157: every line starts afresh *)
Fixpoint sing_lines (start now : N) (lines : list (list tags)) : run (list (list (option float))) :=
  match lines with
  | [] => Done []
  | l :: r => p <- sing start now 0 l ;; rest <- sing_lines start now r ;; Done (p :: rest)
  end.
