(* Specification vocabulary for document editing. *)
From Verif Require Import Base DocModel.

(* s' is s with the bytes p..q replaced by t; p and q are on character
   boundaries. *)
Definition spliced (s : str) (p q : nat) (t s' : str) : Prop :=
  exists a m b, s = a ++ m ++ b /\ p = blen a /\ q = blen a + blen m /\ s' = a ++ t ++ b.

(* The reference editor: the texts before, the text, the texts undone. *)
Inductive act :=
| AInsert (p : nat) (t : str)
| ADelete (r : range)
| AReplace (r : range) (t : str)
| AUndo
| ARedo.
Record editor := mkEd { past : list str; present : str; future : list str }.
Definition edited (st st' : editor) (p q : nat) (t : str) : Prop :=
  exists s', spliced (present st) p q t s' /\ st' = mkEd (present st :: past st) s' [].
(* redo_forgets: the behaviour of the code (a redo drops the remaining redo
   texts) instead of the customary one. *)
Definition ed_step (redo_forgets : bool) (st : editor) (a : act) (st' : editor) : Prop :=
  match a with
  | AInsert p t => edited st st' p p t
  | ADelete r => edited st st' (r_start r) (r_end r) []
  | AReplace r t => edited st st' (r_start r) (r_end r) t
  | AUndo => match past st with
             | p :: ps => st' = mkEd ps p (present st :: future st)
             | [] => False end
  | ARedo => match future st with
             | f :: fs => st' = mkEd (present st :: past st) f (if redo_forgets then [] else fs)
             | [] => False end
  end.
Inductive ed_run (rf : bool) : editor -> list act -> editor -> Prop :=
| er_nil st : ed_run rf st [] st
| er_cons st a st1 l st2 : ed_step rf st a st1 -> ed_run rf st1 l st2 -> ed_run rf st (a :: l) st2.
(* A replacement of the same byte length (the only ones undo handles). *)
Definition same_length (a : act) : Prop :=
  match a with AReplace r t => blen t = r_end r - r_start r | _ => True end.

(* The document under the same actions; None as soon as one fails. *)
Definition do_act (sz : nat) (d : doc) (a : act) : out unit :=
  match a with
  | AInsert p t => doc_insert sz d p t
  | ADelete r => doc_delete sz d r
  | AReplace r t => doc_replace sz d r t
  | AUndo => doc_undo d
  | ARedo => doc_redo sz d
  end.
Fixpoint do_acts (sz : nat) (d : doc) (l : list act) : option doc :=
  match l with
  | [] => Some d
  | a :: r => match do_act sz d a with OOk d1 _ => do_acts sz d1 r | _ => None end
  end.
(* Any actions, failed ones (which may leave changes behind) included. *)
Fixpoint do_all (sz : nat) (d : doc) (l : list act) : option doc :=
  match l with
  | [] => Some d
  | a :: r => match do_act sz d a with OOk d1 _ | OErr d1 => do_all sz d1 r | OPanic => None end
  end.
(* A freshly opened document with the given history limits. *)
Definition fresh (me mm : nat) (t : str) : doc := mkDoc t false (mkHist me mm [] [] 0 None).

Definition total (l : list entry) : nat := fold_right (fun e n => e_mem e + n) 0 l.
(* Range algebra is about sets of offsets. *)
Definition in_range (r : range) (p : nat) : Prop := r_start r <= p < r_end r.

(* Line breaks: LF, CR LF, CR, VT, FF, NEL, LS, PS.  line_col a b n k: the
   place between a and b is on line n, before its k-th character. *)
Definition break_char (c : N) : Prop :=
  c = 10%N \/ c = 11%N \/ c = 12%N \/ c = 13%N \/ c = 133%N \/ c = 8232%N \/ c = 8233%N.
Inductive line_col : str -> str -> nat -> nat -> Prop :=
| lc_first a b : Forall (fun c => ~ break_char c) a -> line_col a b 1 (1 + List.length a)
| lc_in_crlf a b : Forall (fun c => ~ break_char c) a -> line_col (a ++ [13%N]) (10%N :: b) 1 (2 + List.length a)
| lc_crlf l a b n k : Forall (fun c => ~ break_char c) l -> line_col a b n k ->
    line_col (l ++ [13%N; 10%N] ++ a) b (S n) k
| lc_break l c a b n k : Forall (fun c => ~ break_char c) l -> break_char c ->
    (c = 13%N -> hd 0%N (a ++ b) <> 10%N) -> line_col a b n k -> line_col (l ++ [c] ++ a) b (S n) k.
