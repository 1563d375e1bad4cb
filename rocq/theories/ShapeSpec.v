(* What shaping and glyph drawing should give, with no caches in sight. *)
From Verif Require Import Base FloatModel ShapeModel.
Local Open Scope Q_scope.

Definition number (x : float) (q : Q) : Prop := exists v, x = Fin v /\ v == q.

(* ---- geometry: font units turned into pixels ---- *)
Definition before (l : list placed) (i : nat) : Z := fold_right Z.add 0%Z (map p_xa (firstn i l)).
Definition above (l : list placed) (i : nat) : Z := fold_right Z.add 0%Z (map p_ya (firstn i l)).
Definition pixels (f : face) (size : Z) (units : Z) : Q := inject_Z (units * size) / inject_Z (Z.of_N (f_em f)).
(* what the font says of its height: the Windows metrics when they are there *)
Definition rise (f : face) : Z := match f_os2 f with Some (wa, _) => if (wa =? 0)%Z then f_asc f else Z.abs wa | None => f_asc f end.
Definition drop (f : face) : Z := match f_os2 f with Some (wa, wd) => if (wa =? 0)%Z then f_desc f else (- Z.abs wd)%Z | None => f_desc f end.
(* the font's numbers are 16-bit, but for the one whose absolute value is not *)
Definition i16 (z : Z) : Prop := (-32768 <= z <= 32767)%Z.
Definition sound_face (f : face) : Prop :=
  i16 (f_asc f) /\ i16 (f_desc f) /\ (forall wa wd, f_os2 f = Some (wa, wd) -> i16 wa /\ i16 wd /\ (wa <> 0 -> wa <> -32768 /\ wd <> -32768)%Z) /\ (forall i a b, f_box f i = Some (a, b) -> i16 a /\ i16 b /\ (a <= b)%Z).
(* every number met on the way, times the size, fits the 24 bits of a float *)
Definition fits (size z : Z) : Prop := (Z.abs (z * size) < 16777216)%Z.
Definition small_run (f : face) (size : Z) (l : list placed) : Prop :=
  (forall i, fits size (before l i) /\ fits size (above l i)) /\
  (forall i p, nth_error l i = Some p -> fits size (p_xo p) /\ fits size (p_yo p) /\ fits size (p_xa p) /\ fits size (p_ya p) /\ fits size (before l i + p_xo p) /\ fits size (above l i + p_yo p) /\
     forall a b, f_box f (p_id p mod 65536)%N = Some (a, b) -> fits size a /\ fits size b /\ fits size (before l i + p_xo p + a) /\ fits size (before l i + p_xo p + b)) /\
  fits size (rise f) /\ fits size (drop f) /\ fits size (rise f - drop f).
(* the ink: left and right edges of the glyphs that have a box *)
Definition edges (f : face) (l : list placed) : list (Z * Z) :=
  flat_map (fun i => match nth_error l i with
    | Some p => match f_box f (p_id p mod 65536)%N with Some (a, b) => [(before l i + p_xo p + a, before l i + p_xo p + b)%Z] | None => [] end
    | None => [] end) (seq 0 (List.length l)).

Section World.
  Context {data : Type}.
  Variable parse : data -> N -> option face.
  Variable value : N -> float.
  (* a font's data, from where it lies *)
  Definition data_of (fs : @files data) (db : @database data) (id : N) : option (data * N) :=
    match face_source db id with
    | Some (Binary d, i) | Some (SharedFile _ d, i) => Some (d, i)
    | Some (File p, i) => match fs p with Some d => Some (d, i) | None => None end
    | None => None
    end.
  Definition face_of (fs : files) (db : database) (id : N) : option face :=
    match data_of fs db id with Some (d, i) => parse d i | None => None end.
  Definition straight (fs : files) (db : database) (k : key) : res shaped :=
    let '(text, family, size, bold, italic) := k in
    match find_font db family bold italic text with
    | Some id => match face_of fs db id with
      | Some f => match shape_face f text (value size) with Some s => Ok s | None => Panic end
      | None => Err end
    | None => Err
    end.
  (* a thread shapes texts one after another, with or without the cache, each for some database *)
  Definition call := (bool * database (data := data) * key)%type.
  Definition ask (fs : files) (t : thread) (c : call) : res shaped * thread :=
    let '(cached, db, (text, family, size, bold, italic)) := c in
    if cached then shape_cached parse value fs db t text family size bold italic else shape_with_style parse value fs db t text family size bold italic.
  Fixpoint asks (fs : files) (t : thread) (cs : list call) : list (res shaped) * thread :=
    match cs with [] => ([], t) | c :: r => let '(a, t) := ask fs t c in let '(l, t) := asks fs t r in (a :: l, t) end.

  Context {path : Type}.
  Variable finish : list segment -> option path.
  Variable move_by : float -> float -> path -> option path.
  (* the i-th glyph of a text with spacing, its outline taken at some size *)
  Definition piece (f : face) (size spacing : float) (i : nat) (g : glyph) : list path :=
    match outline finish f size (g_id g) with
    | Some p => match move_by (f_add f32 (g_x g) (Nat.iter i (fun o => f_add f32 o spacing) (Fin 0))) (g_y g) p with Some q => [q] | None => [] end
    | None => []
    end.
  Definition pieces (f : face) (size : nat -> float) (spacing : float) (gs : list glyph) : list path :=
    concat (map (fun '(i, g) => piece f (size i) spacing i g) (combine (seq 0 (List.length gs)) gs)).
  Definition gcall := (shaped * N * float)%type.
  Fixpoint renders (fs : files) (db : database) (r : renderer) (cs : list gcall) : list (res (list path)) * renderer :=
    match cs with [] => ([], r) | (s, id, sp) :: l => let '(a, r) := render parse finish move_by fs db r s id sp in let '(x, r) := renders fs db r l in (a :: x, r) end.
  Definition drawn_at (fs : files) (db : database) (c : gcall) (size : nat -> float) : res (list path) :=
    let '(s, id, sp) := c in match face_of fs db id with Some f => Ok (pieces f size sp (s_glyphs s)) | None => Err end.
End World.

(* a shaped text of a size in whole pixels, in a font with 2^k units *)
Definition well_set (f : face) (size : Z) (l : list placed) (s : shaped) : Prop :=
  List.length (s_glyphs s) = List.length l /\
  (forall i p g, nth_error l i = Some p -> nth_error (s_glyphs s) i = Some g ->
     g_id g = p_id p /\ g_cluster g = p_cluster p /\
     number (g_x g) (pixels f size (before l i + p_xo p)) /\ number (g_y g) (pixels f size (above l i + p_yo p)) /\
     number (g_xo g) (pixels f size (p_xo p)) /\ number (g_yo g) (pixels f size (p_yo p)) /\
     number (g_xa g) (pixels f size (p_xa p)) /\ number (g_ya g) (pixels f size (p_ya p))) /\
  number (s_width s) (pixels f size (before l (List.length l))) /\
  number (s_ascent s) (pixels f size (rise f)) /\ number (s_descent s) (pixels f size (drop f)) /\
  number (s_baseline s) (pixels f size (rise f)) /\ number (s_height s) (pixels f size (rise f - drop f)) /\
  match edges f l with
  | [] => s_ink_min s = Fin 0 /\ s_ink_max s = s_width s
  | (a, b) :: r => number (s_ink_min s) (pixels f size (fold_left Z.min (map fst r) a)) /\ number (s_ink_max s) (pixels f size (fold_left Z.max (map snd r) b))
  end.
