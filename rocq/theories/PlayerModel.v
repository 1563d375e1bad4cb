(* ass-renderer/src/debug/player/{mod,playback,render}.rs: the player of the
   debug tools.  The renderer and the parser are parameters: a frame is a
   function of the script and the centisecond.  The clock is given with each
   call, in nanoseconds.  Printing and the saving of frames are left out.  A
   panic is None. *)
From Verif Require Import Base FloatModel.

Record outside := Out {
  o_frame : Type;
  o_ends : str -> option (list (option N));            (* the end of each event in centiseconds where it parses; None when the script does not *)
  o_draw : str -> N -> option o_frame }.               (* Renderer::render_frame *)

Definition u32_max : N := 4294967295.
Definition mul_u32 (a b : N) : option N := if (a * b <=? u32_max)%N then Some (a * b)%N else None.
Definition add_u32 (a b : N) : option N := if (a + b <=? u32_max)%N then Some (a + b)%N else None.
(* Duration::as_secs_f32 *)
Definition as_secs_f32 (ns : N) : float :=
  f_add f32 (f_of_N f32 (ns / 1000000000)) (f_div f32 (f_of_N f32 (ns mod 1000000000)) (f_of_N f32 1000000000)).
Definition tenth : float := round_to f32 (1 # 10).
(* f32::clamp *)
Definition clamp_speed (s : float) : float :=
  let s1 := if f_lt s tenth then tenth else s in if f_lt (Fin 10) s1 then Fin 10 else s1.
(* f32::min and f32::max *)
Definition f_min (a b : float) : float := match a, b with NaN, _ => b | _, NaN => a | _, _ => if f_le a b then a else b end.
Definition f_max (a b : float) : float := match a, b with NaN, _ => b | _, NaN => a | _, _ => if f_le a b then b else a end.

Section Player.
  Variable X : outside.
  Definition interval : N := 40.                       (* mod.rs 62 *)
  (* mod.rs 22-46; the start time is always 0 *)
  Record player := Pl {
    p_script : option str; p_now : N; p_speed : float; p_playing : bool; p_loop : bool; p_end : N;
    p_cache : list (N * o_frame X); p_caching : bool; p_max : nat;
    p_since : option N; p_from : N; p_acc : float }.
  (* mod.rs 49-78 *)
  Definition fresh : player := Pl None 0 (Fin 1) false false 0 [] true 100 None 0 (Fin 0).

  Fixpoint latest (l : list (option N)) (best : N) : option N :=
    match l with
    | [] => Some best
    | None :: r => latest r best
    | Some e :: r => match mul_u32 e 10 with Some ms => latest r (N.max best ms) | None => None end
    end.
  Inductive outcome := Shown (f : o_frame X) (at_ms number : N) | Fine | Nothing | NoScript | ParseError | RenderError.
  (* mod.rs 98-141 *)
  Definition load_script (p : player) (s : str) : option (player * outcome) :=
    match o_ends X s with
    | None => Some (p, ParseError)
    | Some es =>
      match latest es 0 with
      | None => None
      | Some m =>
        Some (Pl (Some s) (p_now p) (p_speed p) (p_playing p) (p_loop p) (if (0 <? m)%N then m else 10000) [] (p_caching p) (p_max p) (p_since p) (p_from p) (p_acc p), Fine)
      end
    end.

  Fixpoint least (l : list (N * o_frame X)) (m : N) : N := match l with [] => m | (k, _) :: r => least r (N.min m k) end.
  Fixpoint cache_get (l : list (N * o_frame X)) (k : N) : option (o_frame X) :=
    match l with [] => None | (j, f) :: r => if (j =? k)%N then Some f else cache_get r k end.
  Definition cache_remove (l : list (N * o_frame X)) (k : N) := filter (fun e => negb (fst e =? k)%N) l.
  Definition drop_least (l : list (N * o_frame X)) := match l with [] => [] | (k, _) :: r => cache_remove l (least r k) end.
  Fixpoint trim (fuel : nat) (size : nat) (l : list (N * o_frame X)) :=
    match fuel with O => l | S n => if size <? List.length l then trim n size (drop_least l) else l end.

  Definition with_cache (p : player) (on : bool) (max : nat) (l : list (N * o_frame X)) : player :=
    Pl (p_script p) (p_now p) (p_speed p) (p_playing p) (p_loop p) (p_end p) l on max (p_since p) (p_from p) (p_acc p).
  (* playback.rs 5-10 *)
  Definition set_cache_enabled (p : player) (on : bool) : player := with_cache p on (p_max p) (if on then p_cache p else []).
  (* playback.rs 12-21; each turn of the loop removes an entry *)
  Definition set_max_cache_size (p : player) (size : nat) : player := with_cache p (p_caching p) size (trim (List.length (p_cache p)) size (p_cache p)).

  Definition moved (p : player) (t : N) (playing loop : bool) (speed : float) (since : option N) (from : N) (acc : float) : player :=
    Pl (p_script p) t speed playing loop (p_end p) (p_cache p) (p_caching p) (p_max p) since from acc.
  Definition elapsed (clock since : N) (speed : float) : float := f_mul f32 (f_mul f32 (as_secs_f32 (clock - since)) (Fin 1000)) speed.
  (* playback.rs 23-32 *)
  Definition play (p : player) (clock : N) : player := moved p (p_now p) true (p_loop p) (p_speed p) (Some clock) (p_now p) (Fin 0).
  (* playback.rs 34-48 *)
  Definition pause (p : player) (clock : N) : player :=
    let acc := if p_playing p then match p_since p with Some s => f_add f32 (p_acc p) (elapsed clock s (p_speed p)) | None => p_acc p end else p_acc p in
    moved p (p_now p) false (p_loop p) (p_speed p) None (p_from p) acc.
  (* playback.rs 50-56 *)
  Definition stop (p : player) : player := moved p 0 false (p_loop p) (p_speed p) None (p_from p) (Fin 0).
  Definition jump (p : player) (clock t : N) : player :=
    if p_playing p then moved p t true (p_loop p) (p_speed p) (Some clock) t (Fin 0)
    else moved p t false (p_loop p) (p_speed p) (p_since p) (p_from p) (p_acc p).
  (* playback.rs 58-69 *)
  Definition seek (p : player) (clock t : N) : player := jump p clock (N.min t (p_end p)).
  (* playback.rs 85-97 *)
  Definition step_forward (p : player) (clock : N) : option player :=
    match add_u32 (p_now p) interval with Some t => Some (jump p clock (N.min t (p_end p))) | None => None end.
  (* playback.rs 99-110 *)
  Definition step_backward (p : player) (clock : N) : player := jump p clock (p_now p - interval)%N.
  (* playback.rs 71-83 *)
  Definition set_speed (p : player) (clock : N) (speed : float) : player :=
    match (if p_playing p then p_since p else None) with
    | Some s => moved p (p_now p) true (p_loop p) (clamp_speed speed) (Some clock) (p_now p) (f_add f32 (p_acc p) (elapsed clock s (p_speed p)))
    | None => moved p (p_now p) (p_playing p) (p_loop p) (clamp_speed speed) (p_since p) (p_from p) (p_acc p)
    end.
  (* playback.rs 161-164, 166-169 *)
  Definition increase_speed (p : player) (clock : N) : player := set_speed p clock (f_min (f_mul f32 (p_speed p) (Fin (3 # 2))) (Fin 10)).
  Definition decrease_speed (p : player) (clock : N) : player := set_speed p clock (f_max (f_div f32 (p_speed p) (Fin (3 # 2))) tenth).
  (* playback.rs 134-140, 155-159 *)
  Definition set_loop (p : player) (on : bool) : player := moved p (p_now p) (p_playing p) on (p_speed p) (p_since p) (p_from p) (p_acc p).

  (* render.rs 12-81 *)
  Definition render_current_frame (p : player) : player * outcome :=
    let key := (p_now p / interval * interval)%N in
    let number := (p_now p / interval)%N in
    match (if p_caching p then cache_get (p_cache p) key else None) with
    | Some f => (p, Shown f (p_now p) number)
    | None =>
      match p_script p with
      | None => (p, NoScript)
      | Some s =>
        match o_ends X s with
        | None => (p, ParseError)
        | Some _ =>
          match o_draw X s (p_now p / 10) with
          | None => (p, RenderError)
          | Some f =>
            if p_caching p then
              let l := if p_max p <=? List.length (p_cache p) then drop_least (p_cache p) else p_cache p in
              (with_cache p (p_caching p) (p_max p) ((key, f) :: cache_remove l key), Shown f (p_now p) number)
            else (p, Shown f (p_now p) number)
          end
        end
      end
    end.
  (* render.rs 83-112 *)
  Definition update (p : player) (clock : N) : option (player * outcome) :=
    if negb (p_playing p) then Some (p, Nothing) else
    match p_since p with
    | None => Some (render_current_frame p)
    | Some s =>
      match add_u32 (p_from p) (f_to_N u32_max (f_add f32 (elapsed clock s (p_speed p)) (p_acc p))) with
      | None => None
      | Some t =>
        if (p_end p <=? t)%N then
          if p_loop p then Some (render_current_frame (moved p 0 true true (p_speed p) (Some clock) 0 (Fin 0)))
          else Some (moved p (p_end p) false false (p_speed p) None (p_from p) (p_acc p), Nothing)
        else Some (render_current_frame (moved p t true (p_loop p) (p_speed p) (Some s) (p_from p) (p_acc p)))
      end
    end.

  Inductive op :=
  | Load (s : str) | Play | Pause | Stop | Seek (t : N) | Speed (v : float) | Faster | Slower | Forward | Backward
  | Loop (on : bool) | ToggleLoop | Caching (on : bool) | CacheSize (n : nat) | Render | Update.
  Definition step (p : player) (clock : N) (o : op) : option (player * outcome) :=
    match o with
    | Load s => load_script p s
    | Play => Some (play p clock, Fine)
    | Pause => Some (pause p clock, Fine)
    | Stop => Some (stop p, Fine)
    | Seek t => Some (seek p clock t, Fine)
    | Speed v => Some (set_speed p clock v, Fine)
    | Faster => Some (increase_speed p clock, Fine)
    | Slower => Some (decrease_speed p clock, Fine)
    | Forward => match step_forward p clock with Some q => Some (q, Fine) | None => None end
    | Backward => Some (step_backward p clock, Fine)
    | Loop b => Some (set_loop p b, Fine)
    | ToggleLoop => Some (set_loop p (negb (p_loop p)), Fine)
    | Caching b => Some (set_cache_enabled p b, Fine)
    | CacheSize n => Some (set_max_cache_size p n, Fine)
    | Render => Some (render_current_frame p)
    | Update => update p clock
    end.
  Fixpoint run (p : player) (l : list (N * op)) : option (player * list outcome) :=
    match l with
    | [] => Some (p, [])
    | (c, o) :: r =>
      match step p c o with
      | None => None
      | Some (q, a) => match run q r with Some (z, t) => Some (z, a :: t) | None => None end
      end
    end.
End Player.
