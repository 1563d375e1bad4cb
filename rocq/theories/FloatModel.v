(* Binary floating point as Rust defines it: IEEE 754 binary32 and binary64,
   round to nearest, ties to even.  A finite value is the rational number it
   denotes.  Simplification: the sign of zero is not kept, so a quotient with a
   negative zero as divisor is not modelled faithfully; nothing else sees it. *)
From Coq Require Export ZArith QArith Qabs Lqa.
From Verif Require Export Base.
Open Scope Q_scope.

(* precision in bits, exponent of the least positive value, and the exponent at
   which values overflow *)
Record format := Format { fm_prec : Z; fm_emin : Z; fm_emax : Z }.
Definition f32 : format := Format 24 (-149) 128.
Definition f64 : format := Format 53 (-1074) 1024.

Inductive float := NaN | Inf (neg : bool) | Fin (q : Q).

(* 2^e as a rational number *)
Definition pow2 (e : Z) : Q :=
  match e with
  | Z0 => 1
  | Zpos p => inject_Z (2 ^ Zpos p)
  | Zneg p => 1 # Pos.pow 2 p
  end.
(* the floor of the binary logarithm of a positive rational number *)
Definition ilog2 (q : Q) : Z :=
  let n := Z.abs (Qnum q) in
  let d := Zpos (Qden q) in
  if (d <=? n)%Z then Z.log2 (n / d) else (- Z.log2_up ((d + n - 1) / n))%Z.
(* nearest integer, ties to even *)
Definition nearest_even (q : Q) : Z :=
  let d := Zpos (Qden q) in
  let f := (Qnum q / d)%Z in
  let r := (Qnum q mod d)%Z in
  match (2 * r ?= d)%Z with
  | Lt => f
  | Gt => (f + 1)%Z
  | Eq => if Z.even f then f else (f + 1)%Z
  end.
Definition qneg (q : Q) : bool := (Qnum q <? 0)%Z.
Definition round_to (fm : format) (q : Q) : float :=
  if (Qnum q =? 0)%Z then Fin 0
  else
    let e := Z.max (ilog2 q - (fm_prec fm - 1)) (fm_emin fm) in
    let v := Qred (inject_Z (nearest_even (q * pow2 (- e))) * pow2 e) in
    if Qle_bool (pow2 (fm_emax fm)) (Qabs v) then Inf (qneg q) else Fin v.

(* ---- operations ---- *)
Definition f_opp (a : float) : float :=
  match a with NaN => NaN | Inf s => Inf (negb s) | Fin q => Fin (- q) end.
Definition f_abs (a : float) : float :=
  match a with NaN => NaN | Inf _ => Inf false | Fin q => Fin (Qabs q) end.
Definition f_add (fm : format) (a b : float) : float :=
  match a, b with
  | NaN, _ | _, NaN => NaN
  | Inf s, Inf t => if Bool.eqb s t then Inf s else NaN
  | Inf s, _ => Inf s
  | _, Inf t => Inf t
  | Fin p, Fin q => round_to fm (p + q)
  end.
Definition f_sub (fm : format) (a b : float) : float := f_add fm a (f_opp b).
Definition qzero (q : Q) : bool := (Qnum q =? 0)%Z.
Definition f_mul (fm : format) (a b : float) : float :=
  match a, b with
  | NaN, _ | _, NaN => NaN
  | Inf s, Inf t => Inf (xorb s t)
  | Inf s, Fin q => if qzero q then NaN else Inf (xorb s (qneg q))
  | Fin p, Inf t => if qzero p then NaN else Inf (xorb (qneg p) t)
  | Fin p, Fin q => round_to fm (p * q)
  end.
(* the divisor zero counts as positive *)
Definition f_div (fm : format) (a b : float) : float :=
  match a, b with
  | NaN, _ | _, NaN => NaN
  | Inf _, Inf _ => NaN
  | Inf s, Fin q => Inf (xorb s (qneg q))
  | Fin _, Inf _ => Fin 0
  | Fin p, Fin q => if qzero q then if qzero p then NaN else Inf (qneg p) else round_to fm (p / q)
  end.
(* the comparisons of PartialOrd: false for a NaN *)
Definition f_le (a b : float) : bool :=
  match a, b with
  | NaN, _ | _, NaN => false
  | Inf true, _ | _, Inf false => true
  | Inf false, _ | _, Inf true => false
  | Fin p, Fin q => Qle_bool p q
  end.
Definition f_eq (a b : float) : bool := f_le a b && f_le b a.
Definition f_lt (a b : float) : bool := f_le a b && negb (f_le b a).

(* ---- conversions ---- *)
(* u32 as f32 and the like *)
Definition f_of_Z (fm : format) (z : Z) : float := round_to fm (inject_Z z).
Definition f_of_N (fm : format) (n : N) : float := f_of_Z fm (Z.of_N n).
(* f32 as u16 and the like: towards zero, clamped to [lo, hi]; NaN gives 0 *)
Definition f_to_Z (lo hi : Z) (a : float) : Z :=
  match a with
  | NaN => 0
  | Inf true => lo
  | Inf false => hi
  | Fin q => Z.max lo (Z.min hi (Z.quot (Qnum q) (Zpos (Qden q))))
  end.
Definition f_to_N (hi : N) (a : float) : N := Z.to_N (f_to_Z 0 (Z.of_N hi) a).

(* ---- core::num::dec2flt: str::parse::<f32> ---- *)
Definition digit_run (s : str) : str * str :=
  (fix go (s : str) : str * str := match s with
   | c :: r => if is_digit c then (c :: fst (go r), snd (go r)) else ([], s)
   | [] => ([], []) end) s.
Definition dec_Z (s : str) : Z := fold_left (fun a c => (10 * a + Z.of_N (c - 48))%Z) s 0%Z.
Definition pow10 (e : Z) : Q :=
  match e with
  | Z0 => 1
  | Zpos p => inject_Z (10 ^ Zpos p)
  | Zneg p => 1 # Pos.pow 10 p
  end.
Definition lower_ascii (c : char) : char := if (65 <=? c)%N && (c <=? 90)%N then (c + 32)%N else c.
Definition is_word (w : string) (s : str) : bool := str_eqb (map lower_ascii s) (lit w).
(* the exponent at the end of a number: "", "e5", "E-5" *)
Definition parse_exponent (s : str) : option Z :=
  match s with
  | [] => Some 0%Z
  | c :: r =>
    if (c =? 101)%N || (c =? 69)%N then
      let '(neg, t) := match r with
        | d :: t => if (d =? 45)%N then (true, t) else if (d =? 43)%N then (false, t) else (false, r)
        | [] => (false, r) end in
      match digit_run t with
      | (ds, []) => match ds with [] => None | _ => Some (if neg then - dec_Z ds else dec_Z ds)%Z end
      | _ => None
      end
    else None
  end.
(* digits, a point with digits, an exponent *)
Definition parse_decimal (s : str) : option Q :=
  let (i, r) := digit_run s in
  let '(f, r) := match r with c :: t => if (c =? 46)%N then digit_run t else ([], r) | [] => ([], r) end in
  match i ++ f with
  | [] => None
  | ds => match parse_exponent r with
          | Some e => Some (inject_Z (dec_Z ds) * pow10 (e - Z.of_nat (List.length f)))
          | None => None
          end
  end.
Definition parse_float (fm : format) (s : str) : option float :=
  let '(neg, t) := match s with
    | c :: t => if (c =? 45)%N then (true, t) else if (c =? 43)%N then (false, t) else (false, s)
    | [] => (false, s) end in
  match parse_decimal t with
  | Some q => Some (round_to fm (if neg : bool then - q else q))
  | None =>
    if is_word "inf" t || is_word "infinity" t then Some (Inf neg)
    else if is_word "nan" t then Some NaN
    else None
  end.
Close Scope Q_scope.
