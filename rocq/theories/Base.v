(* Strings as lists of Unicode scalar values, UTF-8 byte offsets, and the
   pieces of Rust's core string API that the modelled code uses.
   This file models the Rust standard library, not /repo; each definition
   names the library function it stands for. *)
From Coq Require Export Ascii String.
From Coq Require Export List Arith NArith ZArith Lia Bool.
From Coq Require Export ZifyBool ZifyNat ZifyN.
Export ListNotations.
Open Scope nat_scope.
Open Scope list_scope.

Arguments N.add : simpl never.
Arguments N.sub : simpl never.
Arguments N.mul : simpl never.
Arguments N.div : simpl never.
Arguments N.modulo : simpl never.
Arguments N.ltb : simpl never.
Arguments N.leb : simpl never.
Arguments N.eqb : simpl never.

(* A Rust char / &str / String: scalar values, in order. *)
Notation char := N (only parsing).
Notation str := (list N) (only parsing).

(* ASCII literal. *)
Fixpoint lit (s : string) : str :=
  match s with
  | EmptyString => []
  | String a r => N_of_ascii a :: lit r
  end.

Definition ch (s : string) : char := hd 0%N (lit s).

(* char::len_utf8 *)
Definition len_utf8 (c : char) : nat :=
  if (c <? 128)%N then 1
  else if (c <? 2048)%N then 2
  else if (c <? 65536)%N then 3
  else 4.

(* str::len *)
Fixpoint blen (s : str) : nat :=
  match s with
  | [] => 0
  | c :: r => len_utf8 c + blen r
  end.

Fixpoint str_eqb (a b : str) : bool :=
  match a, b with
  | [], [] => true
  | x :: a', y :: b' => (x =? y)%N && str_eqb a' b'
  | _, _ => false
  end.

(* str::split_at, i.e. (&s[..n], &s[n..]); None stands for the panic raised
   when n is past the end or not on a character boundary. *)
Fixpoint cut (s : str) (n : nat) : option (str * str) :=
  match n with
  | 0 => Some ([], s)
  | _ =>
    match s with
    | [] => None
    | c :: r =>
      if len_utf8 c <=? n then
        match cut r (n - len_utf8 c) with
        | Some (a, b) => Some (c :: a, b)
        | None => None
        end
      else None
    end
  end.

(* &s[n..] and &s[..n] *)
Definition slice_from (s : str) (n : nat) : option str := option_map snd (cut s n).
Definition slice_to (s : str) (n : nat) : option str := option_map fst (cut s n).
(* &s[a..b] *)
Definition slice (s : str) (a b : nat) : option str :=
  if b <? a then None else
  match cut s b with
  | None => None
  | Some (p, _) => slice_from p a
  end.

(* str::is_char_boundary *)
Definition is_boundary (s : str) (n : nat) : bool :=
  match cut s n with Some _ => true | None => false end.

(* char::is_whitespace: Unicode White_Space *)
Definition is_ws (c : char) : bool :=
  ((9 <=? c) && (c <=? 13))%N || (c =? 32)%N || (c =? 133)%N || (c =? 160)%N
  || (c =? 5760)%N || ((8192 <=? c) && (c <=? 8202))%N
  || (c =? 8232)%N || (c =? 8233)%N || (c =? 8239)%N || (c =? 8287)%N
  || (c =? 12288)%N.

(* str::trim_start_matches / trim_end_matches / trim with a predicate *)
Fixpoint drop_while (p : char -> bool) (s : str) : str :=
  match s with
  | [] => []
  | c :: r => if p c then drop_while p r else s
  end.
Fixpoint take_while (p : char -> bool) (s : str) : str :=
  match s with
  | [] => []
  | c :: r => if p c then c :: take_while p r else []
  end.
Fixpoint drop_end (p : char -> bool) (s : str) : str :=
  match s with
  | [] => []
  | c :: r =>
    match drop_end p r with
    | [] => if p c then [] else [c]
    | r' => c :: r'
    end
  end.
Definition trim_start (s : str) : str := drop_while is_ws s.
Definition trim_end (s : str) : str := drop_end is_ws s.
Definition trim (s : str) : str := trim_end (trim_start s).

(* str::starts_with / strip_prefix / ends_with *)
Fixpoint strip_prefix (p s : str) : option str :=
  match p, s with
  | [], _ => Some s
  | x :: p', y :: s' => if (x =? y)%N then strip_prefix p' s' else None
  | _ :: _, [] => None
  end.
Definition starts_with (p s : str) : bool :=
  match strip_prefix p s with Some _ => true | None => false end.
Definition ends_with (p s : str) : bool := starts_with (rev p) (rev s).

(* str::find of one character, as the pair (before, from-the-match-on). *)
Fixpoint find_char (p : char -> bool) (s : str) : option (str * str) :=
  match s with
  | [] => None
  | c :: r =>
    if p c then Some ([], s)
    else match find_char p r with
         | Some (a, b) => Some (c :: a, b)
         | None => None
         end
  end.

(* str::find of a substring, as the pair (before, from-the-match-on). *)
Fixpoint find_str (p s : str) : option (str * str) :=
  if starts_with p s then Some ([], s) else
  match s with
  | [] => None
  | c :: r =>
    match find_str p r with
    | Some (a, b) => Some (c :: a, b)
    | None => None
    end
  end.

(* str::split with one-character separator: never empty. *)
Fixpoint split_on (p : char -> bool) (s : str) : list str :=
  match s with
  | [] => [[]]
  | c :: r =>
    if p c then [] :: split_on p r
    else match split_on p r with
         | [] => [[c]]
         | w :: ws => (c :: w) :: ws
         end
  end.

(* str::splitn(n, sep) *)
Fixpoint splitn (n : nat) (p : char -> bool) (s : str) : list str :=
  match n with
  | 0 => []
  | 1 => [s]
  | S m =>
    match find_char p s with
    | Some (a, _ :: b) => a :: splitn m p b
    | _ => [s]
    end
  end.

(* slice::join / [&str]::join *)
Fixpoint join (sep : str) (l : list str) : str :=
  match l with
  | [] => []
  | [x] => x
  | x :: r => x ++ sep ++ join sep r
  end.

(* one trailing '\r' removed *)
Definition strip_cr (l : str) : str :=
  match rev l with
  | c :: r => if (c =? 13)%N then rev r else l
  | [] => l
  end.

Definition is_nl (c : char) : bool := (c =? 10)%N.

(* str::lines: split at '\n', a final empty piece is dropped, and one '\r'
   before each '\n' is removed.  (A final line without '\n' keeps its '\r'
   since Rust 1.77 strips "\r\n" terminators only.) *)
Fixpoint lines_raw (s : str) : list (str * bool) :=
  match s with
  | [] => []
  | c :: r =>
    if is_nl c then ([], true) :: lines_raw r
    else match lines_raw r with
         | [] => [([c], false)]
         | (w, t) :: ws =>
           (c :: w, t) :: ws
         end
  end.
Definition lines (s : str) : list str :=
  map (fun wt : str * bool => let (w, t) := wt in if t then strip_cr w else w) (lines_raw s).

(* ASCII classes *)
Definition is_digit (c : char) : bool := ((48 <=? c) && (c <=? 57))%N.
Definition is_upper (c : char) : bool := ((65 <=? c) && (c <=? 90))%N.
Definition is_lower (c : char) : bool := ((97 <=? c) && (c <=? 122))%N.
Definition is_hex (c : char) : bool :=
  is_digit c || ((65 <=? c) && (c <=? 70))%N || ((97 <=? c) && (c <=? 102))%N.
Definition is_ascii_alnum (c : char) : bool := is_digit c || is_upper c || is_lower c.

(* char::to_digit *)
Definition to_digit (radix : N) (c : char) : option N :=
  let d :=
    if is_digit c then Some (c - 48)%N
    else if is_lower c then Some (c - 87)%N
    else if is_upper c then Some (c - 55)%N
    else None in
  match d with
  | Some v => if (v <? radix)%N then Some v else None
  | None => None
  end.

Definition u32_max : N := 4294967295.
Definition two32 : N := 4294967296.

(* The digit loop of from_str_radix for an unsigned type with maximum mx:
   checked_mul then checked_add. *)
Fixpoint digits_val (mx radix : N) (acc : N) (s : str) : option N :=
  match s with
  | [] => Some acc
  | c :: r =>
    match to_digit radix c with
    | None => None
    | Some d =>
      if (mx <? acc * radix + d)%N then None
      else digits_val mx radix (acc * radix + d) r
    end
  end.

(* uN::from_str_radix / str::parse::<uN>: one leading '+' is accepted, the
   empty string and a lone sign are rejected. *)
Definition parse_uint (mx radix : N) (s : str) : option N :=
  match s with
  | [] => None
  | [c] => if (c =? 43)%N || (c =? 45)%N then None else digits_val mx radix 0 s
  | c :: r => if (c =? 43)%N then digits_val mx radix 0 r else digits_val mx radix 0 s
  end.
Definition parse_u32 (s : str) : option N := parse_uint u32_max 10 s.

(* Display for unsigned integers *)
Fixpoint dec_digits (fuel : nat) (n : N) : str :=
  match fuel with
  | 0 => []
  | S f => if (n <? 10)%N then [(48 + n)%N]
           else dec_digits f (n / 10) ++ [(48 + n mod 10)%N]
  end.
Definition to_dec (n : N) : str := dec_digits (S (N.size_nat n)) n.

(* format!("{:0w$}") for unsigned integers *)
Definition pad_left (w : nat) (c : char) (s : str) : str :=
  repeat c (w - List.length s) ++ s.
Definition dec_pad (w : nat) (n : N) : str := pad_left w 48%N (to_dec n).

(* Outcome of a Rust function returning Result: Ok, Err (payload dropped), or
   a panic (slice out of bounds, arithmetic overflow in a debug build, ...). *)
Inductive res (A : Type) : Type := Ok (a : A) | Err | Panic.
Arguments Ok {A} a.
Arguments Err {A}.
Arguments Panic {A}.

Definition res_bind {A B} (r : res A) (f : A -> res B) : res B :=
  match r with Ok a => f a | Err => Err | Panic => Panic end.
Definition of_opt {A} (o : option A) : res A := match o with Some a => Ok a | None => Err end.
Definition or_panic {A} (o : option A) : res A := match o with Some a => Ok a | None => Panic end.

(* checked u32 arithmetic: overflow panics in a debug build (and wraps in a
   release build, which the model does not use). *)
Definition u32_add (a b : N) : res N := if (u32_max <? a + b)%N then Panic else Ok (a + b)%N.
Definition u32_mul (a b : N) : res N := if (u32_max <? a * b)%N then Panic else Ok (a * b)%N.
