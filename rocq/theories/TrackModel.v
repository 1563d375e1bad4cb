(* Model of ass-renderer animation/{controller,state,timing,track,value}.rs.
   powf is the argument m_pow.  The modifiers of a tag, the names of properties
   and error values have no further structure. *)
From Verif Require Export Base FloatModel ParseModel SegmentModel AnimModel ShowModel.
From Verif Require Import CollideModel.

(* timing.rs:8-16, 18-29, 35-43 *)
Inductive easing := Linear | Smooth | Smoother.
Record anim_tag := AnimTag { at_t1 : option N; at_t2 : option N; at_accel : option float; at_modifiers : list str }.
Record timing := Timing { ti_start : N; ti_end : N; ti_accel : float }.
(* value.rs:5-42, 80-91 *)
Inductive anim_value :=
| AInteger (from to : Z)
| AFloat (from to : float)
| AColor (from to : rgba)
| APosition (from to : float * float)
| AScale (from to : float * float).
Inductive anim_result := RInteger (z : Z) | RFloat (x : float) | RColor (c : rgba) | RPosition (p : float * float) | RScale (p : float * float).
(* track.rs:12-22 *)
Record track := Track { tk_property : str; tk_timing : timing; tk_value : anim_value; tk_easing : easing }.

Definition i32_ok (z : Z) : bool := (-2147483648 <=? z)%Z && (z <=? 2147483647)%Z.
(* timing.rs:56-75 *)
Definition progress (m : math) (t : timing) (now : N) : float :=
  if (now <=? ti_start t)%N then fl 0
  else if (ti_end t <=? now)%N then fl 1
  else let p := ratio (now - ti_start t) (ti_end t - ti_start t) in
       if about (ti_accel t) (fl 1) then p else m_pow m p (ti_accel t).
(* track.rs:57-65; Rust multiplies from left to right *)
Definition smooth_step (t : float) : float := mul32 (mul32 t t) (sub32 (fl 3) (mul32 (fl 2) t)).
Definition smoother_step (t : float) : float :=
  mul32 (mul32 (mul32 t t) t) (add32 (mul32 t (sub32 (mul32 t (fl 6)) (fl 15))) (fl 10)).
(* track.rs:47-53 *)
Definition ease (e : easing) (p : float) : float := match e with Linear => p | Smooth => smooth_step p | Smoother => smoother_step p end.
(* value.rs:46-77; integers are i32, and their difference and sum may overflow *)
Definition blend_int (a b : Z) (t : float) : run Z :=
  if i32_ok (b - a) then
    let v := (a + f_to_Z (-2147483648) 2147483647 (mul32 (f_of_Z f32 (b - a)) t))%Z in
    if i32_ok v then Done v else Crash
  else Crash.
Definition blend_pair (a b : float * float) (t : float) : float * float := (blend_num (fst a) (fst b) t, blend_num (snd a) (snd b) t).
Definition interpolate (v : anim_value) (p : float) : run anim_result :=
  let t := clamp01 p in
  match v with
  | AInteger a b => z <- blend_int a b t ;; Done (RInteger z)
  | AFloat a b => Done (RFloat (blend_num a b t))
  | AColor a b => Done (RColor (blend_color a b t))
  | APosition a b => Done (RPosition (blend_pair a b t))
  | AScale a b => Done (RScale (blend_pair a b t))
  end.
(* track.rs:40-44 *)
Definition evaluate (m : math) (t : track) (now : N) : run anim_result := interpolate (tk_value t) (ease (tk_easing t) (progress m (tk_timing t) now)).

(* state.rs:25-40 *)
Definition state := list (str * anim_result).
Fixpoint set_property (name : str) (v : anim_result) (s : state) : state :=
  match s with
  | [] => [(name, v)]
  | (n, w) :: r => if str_eqb n name then (n, v) :: r else (n, w) :: set_property name v r
  end.
Definition get_property (s : state) (name : str) : option anim_result := option_map snd (find (fun e => str_eqb (fst e) name) s).
(* state.rs:43-98 *)
Definition float_of (o : option anim_result) : option float := match o with Some (RFloat x) => Some x | _ => None end.
Definition state_font_size (s : state) : option float := float_of (get_property s (lit "fs")).
Definition state_rotation (s : state) : option float := float_of (get_property s (lit "frz")).
Definition state_color (s : state) : option rgba := match get_property s (lit "c") with Some (RColor c) => Some c | _ => None end.
Definition state_scale (s : state) : option (float * float) :=
  match float_of (get_property s (lit "fscx")), float_of (get_property s (lit "fscy")) with
  | Some x, Some y => Some (x, y)
  | Some x, None => Some (x, fl 100)
  | None, Some y => Some (fl 100, y)
  | None, None => None
  end.

(* controller.rs:155-180 *)
Fixpoint evaluate_all (m : math) (ts : list track) (now : N) (s : state) : run state :=
  match ts with
  | [] => Done s
  | t :: r => v <- evaluate m t now ;; evaluate_all m r now (set_property (tk_property t) v s)
  end.
Definition controller_evaluate (m : math) (ts : list track) (now : N) : run state := evaluate_all m ts now [].
Definition in_span (now : N) (t : track) : bool := (ti_start (tk_timing t) <=? now)%N && (now <=? ti_end (tk_timing t))%N.
Definition is_active (ts : list track) (now : N) : bool := existsb (in_span now) ts.
Definition active_tracks (ts : list track) (now : N) : list track := filter (in_span now) ts.

(* controller.rs:192-198: the inner option is the absence of parentheses *)
Definition extract_values (s : str) : run (option (list str)) :=
  match find_char (fun c => (c =? 40)%N) s, find_char (fun c => (c =? 41)%N) s with
  | Some (a, _), Some (b, _) => v <- need (slice s (blen a + 1) (blen b)) ;; Done (Some (split_on is_comma v))
  | _, _ => Done None
  end.
(* controller.rs:201-224 *)
Definition track_color (s : str) : option rgba :=
  let h := drop_end is_amp (trim_matches (lit "&H") s) in
  if blen h =? 6 then option_map (fun v => ((v mod 256)%N, (v / 256 mod 256)%N, (v / 65536 mod 256)%N, 255%N)) (parse_uint u32_max 16 h)
  else if blen h =? 8 then option_map (fun v => ((v mod 256)%N, (v / 256 mod 256)%N, (v / 65536 mod 256)%N, (255 - v / 16777216 mod 256)%N)) (parse_uint u32_max 16 h)
  else None.
(* controller.rs:227-232 *)
Definition track_alpha (s : str) : option N := option_map (fun a => (255 - a)%N) (parse_uint 255 16 (drop_end is_amp (trim_matches (lit "&H") s))).
Definition or_else {A} (o : option A) (d : A) : A := match o with Some a => a | None => d end.
Definition float_pair (d : float) (a b : str) : anim_value := AFloat (or_else (parse_float f32 a) d) (or_else (parse_float f32 b) d).
Definition white : rgba := (255, 255, 255, 255)%N.
(* controller.rs:59-152: the property and how its two values are read *)
Definition modifier_kind (s : str) : option (string * (str -> str -> anim_value)) :=
  if starts_with (lit "\fscx") s then Some ("fscx"%string, float_pair (fl 100))
  else if starts_with (lit "\fscy") s then Some ("fscy"%string, float_pair (fl 100))
  else if starts_with (lit "\fs") s then Some ("fs"%string, float_pair (fl 20))
  else if starts_with (lit "\frz") s || starts_with (lit "\fr") s then Some ("frz"%string, float_pair (fl 0))
  else if starts_with (lit "\c") s || starts_with (lit "\1c") s then Some ("c"%string, fun a b => AColor (or_else (track_color a) white) (or_else (track_color b) white))
  else if starts_with (lit "\alpha") s then
    Some ("alpha"%string, fun a b => AInteger (Z.of_N (or_else (track_alpha a) 255%N)) (Z.of_N (or_else (track_alpha b) 255%N)))
  else None.
Definition parse_modifier (s : str) (t : timing) : run (option track) :=
  match modifier_kind s with
  | None => Done None
  | Some (name, read) =>
    v <- extract_values s ;;
    match v with
    | Some [a; b] => Done (Some (Track (lit name) t (read a b) Linear))
    | _ => Done None
    end
  end.
(* controller.rs:35-56: the lengths are computed whether or not t2 is given *)
Fixpoint add_modifiers (ts : list track) (t : timing) (l : list str) : run (list track) :=
  match l with
  | [] => Done ts
  | s :: r => o <- parse_modifier s t ;; add_modifiers (match o with Some k => ts ++ [k] | None => ts end) t r
  end.
Definition add_from_tag (ts : list track) (g : anim_tag) (start fin : N) : run (list track) :=
  match add_time start (or_else (at_t1 g) 0%N) with
  | None => Crash
  | Some a =>
    if (fin <? start)%N then Crash
    else match add_time start (or_else (at_t2 g) (fin - start)%N) with
         | None => Crash
         | Some b => add_modifiers ts (Timing a b (or_else (at_accel g) (fl 1))) (at_modifiers g)
         end
  end.
