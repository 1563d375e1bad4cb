(* What the selector answers, without an index and without binary search. *)
From Coq Require Export Permutation.
From Verif Require Export SelectModel.

(* ---- which lines are on screen ---- *)
Definition shown (comments : bool) (e : event) : Prop := e_type e = Dialogue \/ (comments = true /\ e_type e = Comment).
(* from the start, inclusive, to the end, exclusive; a start that cannot be
   read counts as zero and an end that cannot be read as never shown *)
Definition on_screen (comments : bool) (t : N) (e : event) : Prop :=
  shown comments e /\ exists s u, (parse_ass_time (e_start e) = Ok s \/ (parse_ass_time (e_start e) = Err /\ s = 0%N)) /\
  parse_ass_time (e_end e) = Ok u /\ (s <= t < u)%N.
(* the events of a script: those of its first events section, if any *)
Definition script_lines (sections : list section) (l : list event) : Prop :=
  (exists l1 l2, sections = l1 ++ SEvents l :: l2 /\ forall l', ~ In (SEvents l') l1) \/ (l = [] /\ forall l', ~ In (SEvents l') sections).
(* the members with a property, in order, with their positions *)
Inductive chosen {A} (P : A -> Prop) : nat -> list A -> list (nat * A) -> Prop :=
| chosen_nil i : chosen P i [] []
| chosen_in i x l r : P x -> chosen P (S i) l r -> chosen P i (x :: l) ((i, x) :: r)
| chosen_out i x l r : ~ P x -> chosen P (S i) l r -> chosen P i (x :: l) r.

(* ---- what needs drawing again ---- *)
Definition occurs (p s : str) : Prop := exists a b, s = a ++ p ++ b.
Definition moving (t : N) (e : event) : Prop :=
  (exists p, In p [lit "\t("; lit "\move("; lit "\fade("; lit "\fad("] /\ occurs p (e_text e)) \/
  ((occurs (lit "\k") (e_text e) \/ occurs (lit "\K") (e_text e)) /\ exists s, parse_ass_time (e_start e) = Ok s /\ (s < t)%N).
(* what is remembered between two queries *)
Record memory := Memory { me_comments : bool; me_shown : list nat; me_last : option N }.
Definition same_members (a b : list nat) : Prop := forall i, In i a <-> In i b.
Record answer_to (m : memory) (sections : list section) (t : N) (a : active) (m' : memory) : Prop := {
  an_lines : exists lines found, script_lines sections lines /\ chosen (on_screen (me_comments m) t) 0 lines found /\
    ac_events a = map snd found /\ me_shown m' = map fst found;
  an_new : NoDup (ac_new a) /\ forall i, In i (ac_new a) <-> In i (me_shown m') /\ ~ In i (me_shown m);
  an_gone : NoDup (ac_gone a) /\ forall i, In i (ac_gone a) <-> In i (me_shown m) /\ ~ In i (me_shown m');
  an_dirty : ac_dirty a = true <-> ~ same_members (me_shown m) (me_shown m') \/ (exists e, In e (ac_events a) /\ moving t e) \/
    match me_last m with None => True | Some last => (100 < t - last \/ 100 < last - t)%N end;
  an_comments : me_comments m' = me_comments m;
  an_last : me_last m' = Some t }.
(* the answers to the queries of a history *)
Inductive answers : memory -> list selector_op -> list active -> Prop :=
| ans_nil m : answers m [] []
| ans_query m address sections t a m' ops l : answer_to m sections t a m' -> answers m' ops l -> answers m (Query address sections t :: ops) (a :: l)
| ans_comments m b ops l : answers (Memory b (me_shown m) (me_last m)) ops l -> answers m (RenderComments b :: ops) l
| ans_add m q ops l : answers m ops l -> answers m (AddRegion q :: ops) l
| ans_clear m ops l : answers m ops l -> answers m (ClearRegions :: ops) l
| ans_reset m ops l : answers (Memory (me_comments m) [] None) ops l -> answers m (Reset :: ops) l.
Definition blank : memory := Memory false [] None.

(* a query's address stands for one list of lines: scripts that are alive or
   unchanged do not share memory *)
Definition addresses_stable (ops : list selector_op) : Prop :=
  forall a s1 t1 s2 t2 l1 l2, In (Query a s1 t1) ops -> In (Query a s2 t2) ops -> In (SEvents l1) s1 -> In (SEvents l2) s2 ->
  script_lines s1 l1 -> script_lines s2 l2 -> List.length l1 = List.length l2 -> l1 = l2.
(* times that do not make the parser overflow, and fit 31 bits *)
Definition readable (e : event) : Prop := parse_ass_time (e_start e) <> Panic /\ parse_ass_time (e_end e) <> Panic.
Definition op_safe (o : selector_op) : Prop :=
  match o with
  | Query _ sections t => (t < 2147483648)%N /\ forall l, script_lines sections l -> Forall readable l
  | AddRegion q => (rg_x q + rg_w q <= u32_max /\ rg_y q + rg_h q <= u32_max)%N
  | _ => True
  end.

(* ---- rectangles ---- *)
Definition covers (r : region) (x y : N) : Prop := (rg_x r <= x < rg_x r + rg_w r /\ rg_y r <= y < rg_y r + rg_h r)%N.
Definition right (r : region) : N := (rg_x r + rg_w r)%N.
Definition bottom (r : region) : N := (rg_y r + rg_h r)%N.
(* the smallest rectangle around a group *)
Record hull (g : list region) (r : region) : Prop := {
  hu_in : forall q, In q g -> (rg_x r <= rg_x q /\ right q <= right r /\ rg_y r <= rg_y q /\ bottom q <= bottom r)%N;
  hu_left : exists q, In q g /\ rg_x q = rg_x r;
  hu_right : exists q, In q g /\ right q = right r;
  hu_top : exists q, In q g /\ rg_y q = rg_y r;
  hu_bottom : exists q, In q g /\ bottom q = bottom r }.
(* the two ranges of either coordinate meet in their interiors *)
Definition meets (r q : region) : Prop := (rg_x q < right r /\ rg_x r < right q /\ rg_y q < bottom r /\ rg_y r < bottom q)%N.
(* adding a region: it widens the first stored one that it meets, or joins the end *)
Definition added (l : list region) (q : region) (l' : list region) : Prop :=
  (Forall (fun r => ~ meets r q) l /\ l' = l ++ [q]) \/
  (exists a r b m, l = a ++ r :: b /\ Forall (fun r => ~ meets r q) a /\ meets r q /\ hull [r; q] m /\ l' = a ++ m :: b).
(* the stored regions are the hulls of groups of the pending ones *)
Definition grouped (pend stored : list region) : Prop := exists groups, Permutation (concat groups) pend /\ Forall2 hull groups stored.
(* the regions added since the last clearing, oldest first *)
Fixpoint pending (acc : list region) (ops : list selector_op) : list region :=
  match ops with
  | [] => acc
  | AddRegion q :: r => pending (acc ++ [q]) r
  | (ClearRegions | Reset) :: r => pending [] r
  | _ :: r => pending acc r
  end.
Definition in_range (r : region) : Prop := (right r <= u32_max /\ bottom r <= u32_max)%N.
