From Coq Require Import QArith.
From Verif Require Import Base FloatModel ShapeModel ShapeSpec ShapeCache ShapeProofs.
Local Open Scope Z_scope.

(* C197: shaping *)
Theorem shape_any : forall f text size s, shape_face f text size = Some s ->
  map (fun g => (g_id g, g_cluster g)) (s_glyphs s) = map (fun p => (p_id p, p_cluster p)) (f_shape f text) /\
  total_advance s = s_width s /\ s_baseline s = s_ascent s /\ s_size s = size.
Proof. exact shape_shape. Qed.
Print Assumptions shape_any.

Theorem shape_exact : forall f k size text, sound_face f -> 0 <= k <= 14 -> Z.of_N (f_em f) = 2 ^ k -> 1 <= size < 16777216 -> small_run f size (f_shape f text) ->
  exists s, shape_face f text (Fin (inject_Z size)) = Some s /\ well_set f size (f_shape f text) s.
Proof. exact shape_set. Qed.
Print Assumptions shape_exact.

Theorem shape_panics : forall f text size, shape_face f text size = None <-> exists wa wd, f_os2 f = Some (wa, wd) /\ wa <> 0 /\ (wa = -32768 \/ wd = -32768).
Proof. exact shape_ends. Qed.
Print Assumptions shape_panics.

(* C198: the thread's caches *)
Theorem shape_cached_exact : forall (data : Type) parse value (fs : @files data) db cs l t,
  (forall b db' k, In (b, db', k) cs -> db' = db) -> asks parse value fs (Th [] []) cs = (l, t) ->
  l = map (fun c => straight parse value fs db (snd c)) cs.
Proof. exact (fun data parse value => @asks_same data parse value). Qed.
Print Assumptions shape_cached_exact.

Theorem shape_cached_foreign : forall (data : Type) parse value (fs : @files data) cs l t, asks parse value fs (Th [] []) cs = (l, t) ->
  Z.of_nat (List.length (t_shapes t)) <= 8192 /\ List.length l = List.length cs /\
  forall i b db k a, nth_error cs i = Some (b, db, k) -> nth_error l i = Some a ->
    a = straight parse value fs db k \/
    b = true /\ exists s b' db', a = Ok s /\ In (b', db', k) (firstn i cs) /\ straight parse value fs db' k = Ok s.
Proof.
  intros data parse value fs cs l t E. destruct (asks_right parse value fs cs l t E) as (L & N & H). split; [exact L|]. split; [exact N|].
  intros i b db k a H1 H2. exact (H i (b, db, k) a H1 H2).
Qed.
Print Assumptions shape_cached_foreign.

(* C199: the glyph cache *)
Theorem glyphs_exact : forall (data path : Type) parse finish move_by (fs : @files data) db cs l (r : renderer (path := path)),
  (forall s id sp s' id' sp', In (s, id, sp) cs -> In (s', id', sp') cs -> fixed (s_size s) = fixed (s_size s') -> s_size s = s_size s') ->
  renders parse finish move_by fs db no_glyphs cs = (l, r) ->
  l = map (fun c => drawn_at parse finish move_by fs db c (fun _ => s_size (fst (fst c)))) cs.
Proof. exact (fun data path parse => @sharp_exact data path parse). Qed.
Print Assumptions glyphs_exact.

Theorem glyphs_near : forall (data path : Type) parse finish move_by (fs : @files data) db cs l (r : renderer (path := path)),
  renders parse finish move_by fs db no_glyphs cs = (l, r) ->
  List.length l = List.length cs /\
  forall i s id sp a, nth_error cs i = Some (s, id, sp) -> nth_error l i = Some a ->
    exists size, a = drawn_at parse finish move_by fs db (s, id, sp) size /\
      forall j, fixed (size j) = fixed (s_size s) /\ exists s' sp', In (s', id, sp') (firstn (S i) cs) /\ s_size s' = size j.
Proof.
  intros data path parse finish move_by fs db cs l r E. destruct (renders_sharp parse finish move_by fs db cs l r E) as (N & H). split; [exact N|].
  intros i s id sp a H1 H2. destruct (H i _ _ H1 H2) as (size & -> & Q). exists size. split; [reflexivity|]. intros j. destruct (Q j) as [I X]. cbn [fst snd] in *. split; [exact X|].
  apply in_map_iff in I. destruct I as ([[s' id'] sp'] & [= -> EQ] & I). exists s', sp'. split; assumption.
Qed.
Print Assumptions glyphs_near.

(* ---- a font of 2048 units with two glyphs ---- *)
Definition demo_face : face := {|
  f_em := 2048; f_os2 := Some (1900, 500); f_asc := 1800; f_desc := -400; f_gap := 0;
  f_box := fun i => if (i =? 1)%N then Some (100, 900) else if (i =? 2)%N then Some (-50, 1300) else None;
  f_lines := fun i => [MoveTo (Fin 100) (Fin 0); LineTo (Fin 900) (Fin 700); Close];
  f_shape := fun text => map (fun c => Pl (c - 64) 0 10 (-20) 1024 0) text |}.
Example shape_meets : sound_face demo_face /\ Z.of_N (f_em demo_face) = 2 ^ 11 /\ small_run demo_face 48 (f_shape demo_face (lit "AB")).
Proof.
  split; [|split; [reflexivity|]].
  - unfold sound_face, i16. cbn. split; [lia|]. split; [lia|]. split; [intros wa wd [= <- <-]; lia|]. intros i a b. destruct (i =? 1)%N; [intros [= <- <-]; lia|]. destruct (i =? 2)%N; [intros [= <- <-]; lia|discriminate].
  - unfold small_run, fits. split; [|split; [|vm_compute; repeat split]].
    + intros [|[|[|i]]]; vm_compute; repeat split.
    + intros [|[|[|i]]] p; try discriminate; intros [= <-]; (repeat split; try reflexivity); intros; repeat match goal with H : f_box _ _ = Some _ |- _ => vm_compute in H; injection H as <- <- end; reflexivity.
Qed.
Example shape_demo : match shape_face demo_face (lit "AB") (Fin 48) with Some s => map g_x (s_glyphs s) = [Fin (15 # 64); Fin (1551 # 64)] /\ s_width s = Fin 48 /\ s_ink_max s = Fin (3501 # 64) | None => False end.
Proof. vm_compute. repeat split. Qed.

(* ---- what does not hold ---- *)
(* a thread that works with two databases gets the first one's shapes *)
Definition wide_face : face := {| f_em := 2048; f_os2 := None; f_asc := 1800; f_desc := -400; f_gap := 0; f_box := fun _ => None; f_lines := fun _ => []; f_shape := fun text => map (fun c => Pl 7 0 0 0 2048 0) text |}.
Definition one_font (d : N) : @database N := Db (fun _ _ _ _ => Some 0%N) (fun _ => Some (Binary d, 0%N)).
Definition demo_parse (d i : N) : option face := Some (if (d =? 0)%N then demo_face else wide_face).
Definition demo_value (n : N) : float := f_of_N f32 n.
Theorem own_database_refuted : ~ (forall (data : Type) parse value (fs : @files data) cs l t i b db k a, asks parse value fs (Th [] []) cs = (l, t) ->
  nth_error cs i = Some (b, db, k) -> nth_error l i = Some a -> a = straight parse value fs db k).
Proof.
  intros H. set (k := (lit "AB", lit "Arial", 48, false, false)%N). pose (cs := [(true, one_font 0, k); (true, one_font 1, k)]).
  pose (X := asks demo_parse demo_value (fun _ => None) (Th [] []) cs).
  assert (E : nth_error (fst X) 1 = Some (nth 1 (fst X) Err)) by (vm_compute; reflexivity).
  specialize (H N demo_parse demo_value (fun _ => None) cs (fst X) (snd X) 1%nat true (one_font 1) k (nth 1 (fst X) Err) (surjective_pairing X) eq_refl E).
  apply (f_equal (fun o => match o with Ok s => s_width s | _ => NaN end)) in H. vm_compute in H. discriminate H.
Qed.
Print Assumptions own_database_refuted.

(* sizes that agree in their first sixteen binary places share outlines *)
Definition a_run (size : float) : shaped := Sh [Gl 1 (Fin 0) (Fin 0) (Fin 0) (Fin 0) (Fin 0) (Fin 0) 0] (Fin 0) (Fin 0) (Fin 0) size (Fin 0) (Fin 0) (Fin 0) (Fin 0).
Definition keep_lines (l : list segment) : option (list segment) := match l with [] => None | _ => Some l end.
Theorem own_size_refuted : ~ (forall (data path : Type) parse finish move_by (fs : @files data) db cs l (r : renderer (path := path)), renders parse finish move_by fs db no_glyphs cs = (l, r) ->
  l = map (fun c => drawn_at parse finish move_by fs db c (fun _ => s_size (fst (fst c)))) cs).
Proof.
  intros H. specialize (H N (list segment) demo_parse keep_lines (fun _ _ p => Some p) (fun _ => None) (one_font 0) [(a_run (Fin 20), 0%N, Fin 0); (a_run (Fin (10485761 # 524288)), 0%N, Fin 0)] _ _ (surjective_pairing _)).
  vm_compute in H. discriminate H.
Qed.
Print Assumptions own_size_refuted.

(* a renderer that is handed another database keeps the first one's font data *)
Theorem own_font_refuted : ~ (forall (data path : Type) parse finish move_by (fs : @files data) db db' s id sp, 
  fst (render (path := path) parse finish move_by fs db' (snd (render parse finish move_by fs db no_glyphs s id sp)) s id sp) = drawn_at parse finish move_by fs db' (s, id, sp) (fun _ => s_size s)).
Proof.
  intros H. specialize (H N (list segment) demo_parse keep_lines (fun _ _ p => Some p) (fun _ => None) (one_font 0) (one_font 1) (a_run (Fin 20)) 0%N (Fin 0)). vm_compute in H. discriminate H.
Qed.
Print Assumptions own_font_refuted.

Example glyphs_meet : let cs := [(a_run (Fin 20), 0%N, Fin 0); (a_run (Fin (41 # 2)), 0%N, Fin 0)] in
  forall s id sp s' id' sp', In (s, id, sp) cs -> In (s', id', sp') cs -> fixed (s_size s) = fixed (s_size s') -> s_size s = s_size s'.
Proof. intros cs s id sp s' id' sp' [[= <- <- <-]|[[= <- <- <-]|[]]] [[= <- <- <-]|[[= <- <- <-]|[]]] E; try reflexivity; vm_compute in E; discriminate E. Qed.
