(* Model of crates/ass-core/utils/color.rs. *)
From Verif Require Import Base.

Definition rgba := (N * N * N * N)%type.

(* utils/color.rs:42-57  which part of the trimmed text is taken as hex *)
Definition color_hex_part (t : str) : res str :=
  if (starts_with (lit "&H") t || starts_with (lit "&h") t) && ends_with (lit "&") t
  then or_panic (slice t 2 (blen t - 1))
  else match strip_prefix (lit "&H") t with
  | Some h => Ok h
  | None =>
    match strip_prefix (lit "&h") t with
    | Some h => Ok h
    | None =>
      match strip_prefix (lit "0x") t with
      | Some h => Ok h
      | None => if forallb is_hex t then Ok t else Err
      end
    end
  end.

(* utils/color.rs:39-87  parse_bgr_color; the result is [r, g, b, a]. *)
Definition parse_bgr_color (s : str) : res rgba :=
  res_bind (color_hex_part (trim s)) (fun h =>
  res_bind (of_opt (parse_uint u32_max 16 h)) (fun v =>
  let red := N.land v 255 in
  let green := N.land (N.shiftr v 8) 255 in
  let blue := N.land (N.shiftr v 16) 255 in
  let alpha := N.land (N.shiftr v 24) 255 in
  if Nat.eqb (blen h) 6 then Ok (red, green, blue, 0%N)
  else if Nat.eqb (blen h) 8 then Ok (red, green, blue, alpha)
  else Err)).
