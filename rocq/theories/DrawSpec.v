(* What vector drawings mean: words, blocks of commands, splines. *)
From Verif Require Export DrawModel AnimSpec.

(* ---- words: spaces separate, a letter stands alone (in lower case), a backslash ends the drawing ---- *)
Definition capital (c : char) : Prop := (65 <= c <= 90)%N.
Definition small (c : char) : Prop := (97 <= c <= 122)%N.
Definition numeric (c : char) : Prop := c <> 92%N /\ is_ws c = false /\ ~ capital c /\ ~ small c.
Inductive words : str -> list str -> Prop :=
| words_none : words [] []
| words_stop r : words (92%N :: r) []
| words_blank c r l : is_ws c = true -> words r l -> words (c :: r) l
| words_capital c r l : capital c -> words r l -> words (c :: r) ([(c + 32)%N] :: l)
| words_small c r l : small c -> words r l -> words (c :: r) ([c] :: l)
| words_run w r l : w <> [] -> Forall numeric w -> (forall c t, r = c :: t -> ~ numeric c) -> words r l -> words (w ++ r) (w :: l).

(* ---- blocks: a command letter with the words up to the next command letter ---- *)
Definition command_word (t : str) : Prop := In t (map lit ["m"; "n"; "l"; "b"; "s"; "p"; "c"]%string).
Record block := Block { b_letter : str; b_args : list str }.
Definition block_ok (b : block) : Prop := command_word (b_letter b) /\ Forall (fun t => ~ command_word t) (b_args b).
Definition block_words (b : block) : list str := b_letter b :: b_args b.
Definition written (bs : list block) : list str := flat_map block_words bs.

(* `args` holds whole groups of `k` words, each a number, then fewer than k words more.  The words more
   are passed over only where they and all the words after them would still not make a group. *)
Definition number_word (t : str) (x : float) : Prop := parse_float f32 t = Some x.
Definition groups (k : nat) (args : list str) (following : nat) (gs : list (list float)) : Prop :=
  exists whole extra, args = whole ++ extra /\ (List.length extra < k)%nat /\ (extra = [] \/ (List.length extra + following < k)%nat) /\
    Forall (fun g => List.length g = k) gs /\ Forall2 number_word whole (List.concat gs).
Definition coords (ps : list point) : list (list float) := map (fun p => [fst p; snd p]) ps.
Definition hexes (cs : list (point * point * point)) : list (list float) :=
  map (fun c => let '(p, q, r) := c in [fst p; snd p; fst q; snd q; fst r; snd r]) cs.

(* the last command so far *)
Definition ends_with (P : draw_command -> Prop) (cs : list draw_command) : Prop := exists a c, cs = a ++ [c] /\ P c.
(* more than a hundredth apart in either direction *)
Definition apart (p q : point) : Prop := f_lt hundredth (f_abs (f_sub f32 (fst p) (fst q))) = true \/ f_lt hundredth (f_abs (f_sub f32 (snd p) (snd q))) = true.

(* block_gives cs n b out: after the commands cs, with n words still to follow, b adds out *)
Inductive block_gives (cs : list draw_command) (n : nat) : block -> list draw_command -> Prop :=
| gives_move args p ps : groups 2 args n (coords (p :: ps)) -> block_gives cs n (Block (lit "m") args) (MoveTo p :: map LineTo ps)
| gives_nodraw args ps : groups 2 args n (coords ps) -> ps <> [] \/ ends_with (fun c => exists p, c = MoveToNoDraw p) cs ->
    block_gives cs n (Block (lit "n") args) (map MoveToNoDraw ps)
| gives_line args ps : groups 2 args n (coords ps) -> ps <> [] \/ ends_with (fun c => exists p, c = LineTo p) cs ->
    block_gives cs n (Block (lit "l") args) (map LineTo ps)
| gives_bezier args bs : groups 6 args n (hexes bs) -> bs <> [] \/ ends_with (fun c => exists p q r, c = BezierTo p q r) cs ->
    block_gives cs n (Block (lit "b") args) (map (fun b => let '(p, q, r) := b in BezierTo p q r) bs)
| gives_spline_open args p mid q : groups 2 args n (coords (p :: mid ++ [q])) -> mid <> [] -> apart p q ->
    block_gives cs n (Block (lit "s") args) [Spline (p :: mid ++ [q; p])]
| gives_spline_shut args p mid q : groups 2 args n (coords (p :: mid ++ [q])) -> mid <> [] -> ~ apart p q ->
    block_gives cs n (Block (lit "s") args) [Spline (p :: mid ++ [q])]
| gives_extend args ps : groups 2 args n (coords ps) -> (3 <= List.length ps)%nat -> block_gives cs n (Block (lit "p") args) [ExtendSpline ps]
| gives_nothing l args : l = lit "s" \/ l = lit "p" -> groups 2 args n [] -> block_gives cs n (Block l args) []
| gives_close args : block_gives cs n (Block (lit "c") args) [ClosePath].
Inductive blocks_give : list draw_command -> list block -> list draw_command -> Prop :=
| give_none cs : blocks_give cs [] cs
| give_block cs b bs out all : block_gives cs (List.length (written bs)) b out -> blocks_give (cs ++ out) bs all -> blocks_give cs (b :: bs) all.

(* a drawing and its commands: words before the first command letter count for nothing *)
Definition drawing (text : str) (cs : list draw_command) : Prop :=
  exists pre bs, words text (pre ++ written bs) /\ Forall (fun t => ~ command_word t) pre /\ Forall block_ok bs /\ blocks_give [] bs cs.

(* ---- paths ---- *)
Open Scope Q_scope.
Definition moderate (x : float) (q : Q) : Prop := x = Fin q /\ -16384 <= q <= 16384.
Definition at_point (p : point) (x y : Q) : Prop := moderate (fst p) x /\ moderate (snd p) y.
(* p lies within 1/256 of (x, y) in both directions *)
Definition near_point (p : point) (x y : Q) : Prop := exists a b, p = (Fin a, Fin b) /\ Qabs (a - x) <= 1 # 256 /\ Qabs (b - y) <= 1 # 256.
(* the curve from point i to point i+1: it bends by a sixth of the line between the points on either side,
   the first and the last point standing in for the missing neighbours *)
Definition smooth (ps : list point) (i : nat) (call : path_call) : Prop :=
  exists c1 c2 p0 p1 p2 p3, call = PCubic c1 c2 p2 /\ nth_error ps (pred i) = Some p0 /\ nth_error ps i = Some p1 /\ nth_error ps (S i) = Some p2 /\
    nth_error ps (Nat.min (i + 2)%nat (List.length ps - 1)%nat) = Some p3 /\
    forall x0 y0 x1 y1 x2 y2 x3 y3, at_point p0 x0 y0 -> at_point p1 x1 y1 -> at_point p2 x2 y2 -> at_point p3 x3 y3 ->
      near_point c1 (x1 + (x2 - x0) / 6) (y1 + (y2 - y0) / 6) /\ near_point c2 (x2 - (x3 - x1) / 6) (y2 - (y3 - y1) / 6).
Definition smoothed (ps : list point) (calls : list path_call) : Prop :=
  (3 <= List.length ps)%nat /\ List.length ps = S (List.length calls) /\ forall i call, nth_error calls i = Some call -> smooth ps i call.
Inductive command_calls : draw_command -> list path_call -> Prop :=
| calls_move p : command_calls (MoveTo p) [PMove p]
| calls_nodraw p : command_calls (MoveToNoDraw p) [PMove p]
| calls_line p : command_calls (LineTo p) [PLine p]
| calls_bezier a b c : command_calls (BezierTo a b c) [PCubic a b c]
| calls_spline ps out : smoothed ps out -> command_calls (Spline ps) out
| calls_extend ps out : smoothed ps out -> command_calls (ExtendSpline ps) out
| calls_close : command_calls ClosePath [PClose].
(* whole coordinates *)
Definition whole_point (p : point) (x y : Z) : Prop := num_is (fst p) (inject_Z x) /\ num_is (snd p) (inject_Z y) /\ (-8192 <= x <= 8192)%Z /\ (-8192 <= y <= 8192)%Z.
