(* What searching is meant to do, in terms of the text only. *)
From Coq Require Export Sorted.
From Verif Require Import Base.

(* o is a place of p in t *)
Definition place (p t : str) (o : nat) : Prop := exists a b, t = a ++ p ++ b /\ blen a = o.
(* w is a whole word of t at o: a longest run of word characters *)
Definition edge (P : char -> bool) (s : str) : Prop := match s with [] => True | c :: _ => P c = false end.
Definition whole_word (P : char -> bool) (t w : str) (o : nat) : Prop :=
  exists a b, t = a ++ w ++ b /\ blen a = o /\ w <> [] /\ forallb P w = true /\ edge P (rev a) /\ edge P b.
(* The characters of words: letters and digits, and the underscore. *)
Definition part_of_word (alnum : char -> bool) (c : char) : bool := alnum c || (c =? 95)%N.
(* os are the numbers with Q, in order, and l the first max of them (all if
   max is 0) *)
Definition listing (Q : nat -> Prop) (os : list nat) : Prop := StronglySorted lt os /\ forall o, In o os <-> Q o.
Definition limited {A} (max : nat) (l : list A) : list A := match max with 0 => l | _ => firstn max l end.

(* The line around o: its number, its start and its text. *)
Definition line_at (t : str) (o n start : nat) (l : str) : Prop :=
  exists a x b, t = a ++ l ++ b /\ blen a = start /\ start <= o <= start + blen l /\ ~ In 10%N l /\
    (a = [] \/ a = x ++ [10%N]) /\ (b = [] \/ exists r, b = 10%N :: r) /\ n = count_occ N.eq_dec a 10%N.

(* t' is t with f applied to its words *)
Inductive reworded (P : char -> bool) (f : str -> str) : str -> str -> Prop :=
| rw_nil : reworded P f [] []
| rw_gap c t t' : P c = false -> reworded P f t t' -> reworded P f (c :: t) (c :: t')
| rw_word w t t' : w <> [] -> forallb P w = true -> edge P t -> reworded P f t t' -> reworded P f (w ++ t) (f w ++ t').

(* x is put for the pieces at the places os, each n bytes long *)
Inductive swapped (x : str) (n : nat) : nat -> list nat -> str -> str -> Prop :=
| sw_nil o s : swapped x n o [] s s
| sw_cons o s m r r' p os : p = o + blen s -> blen m = n -> swapped x n (p + n) os r r' -> swapped x n o (p :: os) (s ++ m ++ r) (s ++ x ++ r').

(* q is left when some characters of s are struck out *)
Inductive within {A} : list A -> list A -> Prop :=
| wi_nil s : within [] s
| wi_take x q s : within q s -> within (x :: q) (x :: s)
| wi_skip x q s : within q s -> within q (x :: s).

(* The name in the last line of the form [name] up to line n. *)
Definition bracketed (l s : str) : Prop := l = 91%N :: s ++ [93%N].
Definition heading (ls : list str) (n : nat) (o : option str) : Prop :=
  match o with
  | Some s => exists i l, i <= n /\ nth_error ls i = Some l /\ bracketed l s /\ forall j l' s', i < j <= n -> nth_error ls j = Some l' -> ~ bracketed l' s'
  | None => forall j l' s', j <= n -> nth_error ls j = Some l' -> ~ bracketed l' s'
  end.

(* How long the new text of a change is taken to be, when the text from its
   start on is b and the old text was old bytes long: up to the end of the
   line, or else at most twice the old length. *)
Definition guessed (old : nat) (b : str) (k : nat) : Prop :=
  (exists x e y, b = x ++ e :: y /\ (e = 10 \/ e = 13)%N /\ ~ In 10%N x /\ ~ In 13%N x /\ k = blen x) \/
  (~ In 10%N b /\ ~ In 13%N b /\ k = Nat.min (blen b) (2 * old)).
