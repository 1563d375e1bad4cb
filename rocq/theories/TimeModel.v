(* Model of crates/ass-core/utils/time.rs. *)
From Verif Require Import Base.

Definition is_colon (c : char) : bool := (c =? 58)%N.
Definition is_dot (c : char) : bool := (c =? 46)%N.

(* utils/time.rs:86  hours * 360_000 + minutes * 6_000 + seconds * 100 + centiseconds,
   u32 arithmetic, evaluated left to right. *)
Definition time_sum (h m s cs : N) : res N :=
  res_bind (u32_mul h 360000) (fun a =>
  res_bind (u32_mul m 6000) (fun b =>
  res_bind (u32_add a b) (fun ab =>
  res_bind (u32_mul s 100) (fun c =>
  res_bind (u32_add ab c) (fun abc => u32_add abc cs))))).

(* utils/time.rs:54-73  the fractional part; only the piece between the first
   and a possible second '.' is looked at. *)
Definition frac_part (sparts : list str) : option N :=
  match sparts with
  | _ :: f :: _ =>
    if match f with [] => true | _ => false end || negb (forallb is_digit f) then None
    else parse_u32 f
  | _ => Some 0%N
  end.

(* utils/time.rs:33-87  parse_ass_time *)
Definition parse_ass_time (t : str) : res N :=
  match split_on is_colon t with
  | [ph; pm; ps] =>
    res_bind (of_opt (parse_u32 ph)) (fun h =>
    res_bind (of_opt (parse_u32 pm)) (fun m =>
    let sparts := split_on is_dot ps in
    res_bind (of_opt (parse_u32 (hd [] sparts))) (fun s =>
    res_bind (of_opt (frac_part sparts)) (fun cs =>
    if (60 <=? m)%N then Err
    else if (60 <=? s)%N then Err
    else time_sum h m s cs))))
  | _ => Err
  end.

(* utils/time.rs:93-102  format_ass_time *)
Definition format_ass_time (t : N) : str :=
  let hours := (t / 360000)%N in
  let r1 := (t mod 360000)%N in
  let minutes := (r1 / 6000)%N in
  let r2 := (r1 mod 6000)%N in
  let seconds := (r2 / 100)%N in
  let cs := (r2 mod 100)%N in
  to_dec hours ++ lit ":" ++ dec_pad 2 minutes ++ lit ":" ++ dec_pad 2 seconds ++ lit "." ++ dec_pad 2 cs.
