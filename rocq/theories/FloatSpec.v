(* What rounding means, independently of how it is computed. *)
From Verif Require Export FloatModel.
Open Scope Q_scope.

Definition valid_format (fm : format) : Prop := (2 <= fm_prec fm)%Z /\ (fm_emin fm + fm_prec fm <= fm_emax fm)%Z.
(* the finite values of a format: m * 2^e with |m| < 2^prec *)
Definition representable (fm : format) (q : Q) : Prop :=
  Qabs q < 2 ^ fm_emax fm /\
  exists m e, (fm_emin fm <= e)%Z /\ (Z.abs m < 2 ^ fm_prec fm)%Z /\ q == inject_Z m * 2 ^ e.
(* no value is nearer *)
Definition nearest (fm : format) (q v : Q) : Prop :=
  representable fm v /\ forall w, representable fm w -> Qabs (q - v) <= Qabs (q - w).
(* of two neighbours, v is the even one *)
Definition evener (v w : Q) : Prop :=
  exists m e, v == inject_Z (2 * m) * 2 ^ e /\ (w == inject_Z (2 * m + 1) * 2 ^ e \/ w == inject_Z (2 * m - 1) * 2 ^ e).
(* the least number that overflows: halfway from the greatest value to 2^emax *)
Definition overflow_at (fm : format) : Q := 2 ^ fm_emax fm - 2 ^ (fm_emax fm - fm_prec fm - 1).
Definition same_float (a b : float) : Prop :=
  match a, b with
  | Fin p, Fin q => p == q
  | Inf s, Inf t => s = t
  | NaN, NaN => True
  | _, _ => False
  end.

(* ---- numbers in text ---- *)
Definition decimal_digit (c : char) : Prop := (48 <= c <= 57)%N.
Fixpoint digits_number (s : str) : Z :=
  match s with
  | [] => 0
  | c :: r => (Z.of_N (c - 48) * 10 ^ Z.of_nat (List.length r) + digits_number r)%Z
  end.
Inductive exponent : str -> Z -> Prop :=
| exp_none : exponent [] 0
| exp_some c sign ds z : (c = 101 \/ c = 69)%N -> ds <> [] -> Forall decimal_digit ds ->
    ((sign = [] \/ sign = [43%N]) /\ z = digits_number ds \/ sign = [45%N] /\ z = (- digits_number ds)%Z) -> exponent (c :: sign ++ ds) z.
(* digits, with a point anywhere among them, and an exponent *)
Inductive decimal : str -> Q -> Prop :=
| dec_plain i ex z : i <> [] -> Forall decimal_digit i -> exponent ex z -> decimal (i ++ ex) (inject_Z (digits_number i) * 10 ^ z)
| dec_point i f ex z : i ++ f <> [] -> Forall decimal_digit (i ++ f) -> exponent ex z ->
    decimal (i ++ [46%N] ++ f ++ ex) ((inject_Z (digits_number i) + inject_Z (digits_number f) * 10 ^ (- Z.of_nat (List.length f))) * 10 ^ z).
Inductive sign_of : str -> bool -> Prop :=
| sign_none : sign_of [] false
| sign_plus : sign_of [43%N] false
| sign_minus : sign_of [45%N] true.
(* a word in any case of letters *)
Definition spelled (w : string) (s : str) : Prop :=
  Forall2 (fun c d => c = d \/ (c + 32 = d /\ 97 <= d <= 122))%N s (lit w).
(* the number a text denotes in a format *)
Inductive number_text (fm : format) : str -> float -> Prop :=
| num_decimal sg neg s q : sign_of sg neg -> decimal s q -> number_text fm (sg ++ s) (round_to fm (if neg : bool then - q else q))
| num_inf sg neg s : sign_of sg neg -> spelled "inf" s \/ spelled "infinity" s -> number_text fm (sg ++ s) (Inf neg)
| num_nan sg neg s : sign_of sg neg -> spelled "nan" s -> number_text fm (sg ++ s) NaN.
Close Scope Q_scope.
