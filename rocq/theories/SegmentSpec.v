(* What the renderer should make of the text of an event, without reference to
   its scanning code.  Event texts are taken apart as in TagSpec: characters,
   escapes, closed blocks and an ending. *)
From Coq Require Sorting.Sorted.
From Verif Require Export Base SegmentModel TagSpec.

(* ---- one tag ---- *)
(* arguments in parentheses: the outer parentheses are dropped, the rest is
   divided at the commas *)
Definition ends (c : char) (s : str) : Prop := exists r, s = r ++ [c].
Definition args_are (args : str) (l : list str) : Prop :=
  exists o body c, args = o ++ body ++ c /\ Forall (eq 40%N) o /\ Forall (eq 41%N) c /\
    ~ starts (eq 40%N) body /\ ~ ends 41%N body /\
    l <> [] /\ Forall (fun s => ~ In 44%N s) l /\ body = join [44%N] l.
Definition number (s : str) (x : float) : Prop := parse_float f32 s = Some x.
Definition u8_of (s : str) (n : N) : Prop := parse_uint 255 10 s = Some n.
Definition u32_of (s : str) (n : N) : Prop := parse_uint u32_max 10 s = Some n.
(* a time in milliseconds that may be missing or unreadable, then it is 0 *)
Definition time_arg (l : list str) (i : nat) (n : N) : Prop :=
  (exists s, nth_error l i = Some s /\ u32_of (trim s) n) \/
  (n = 0%N /\ forall s, nth_error l i = Some s -> forall m, ~ u32_of (trim s) m).
(* the text from the first "&H" or "&h" on, or all of it *)
Definition hex_start (s : str) : Prop := exists b r, s = 38%N :: b :: r /\ (b = 72%N \/ b = 104%N).
Definition from_hex (s r : str) : Prop :=
  (hex_start r /\ exists u, s = u ++ r /\ forall u' r', s = u' ++ r' -> hex_start r' -> List.length u <= List.length u') \/
  (r = s /\ forall u' r', s = u' ++ r' -> ~ hex_start r').

Definition num_names : list (field * string) :=
  [(FSize, "fs"); (FScaleX, "fscx"); (FScaleY, "fscy"); (FSpacing, "fsp"); (FBlur, "blur"); (FBlurEdges, "be");
   (FShearX, "fax"); (FShearY, "fay"); (FRotZ, "frz"); (FRotZ, "fr"); (FRotX, "frx"); (FRotY, "fry");
   (FBorder, "bord"); (FBorderX, "xbord"); (FBorderY, "ybord"); (FShadow, "shad"); (FShadowX, "xshad"); (FShadowY, "yshad")]%string.
Definition byte_names : list (field * string) := [(FWrap, "q"); (FAlignment, "a"); (FAlignment, "an"); (FDrawing, "p")]%string.
Definition flag_names : list (field * string) := [(FBold, "b"); (FItalic, "i"); (FUnderline, "u"); (FStrikeout, "s")]%string.
Definition color_names : list (field * string) := [(FPrimary, "c"); (FPrimary, "1c"); (FSecondary, "2c"); (FOutline, "3c"); (FBack, "4c")]%string.
Definition alpha_names : list (field * string) := [(FAlpha, "alpha"); (FAlpha1, "1a"); (FAlpha2, "2a"); (FAlpha3, "3a"); (FAlpha4, "4a")]%string.
Definition point_names : list (field * string) := [(FPosition, "pos"); (FOrigin, "org")]%string.
Definition kara_names : list (k_style * string) := [(KBasic, "k"); (KFill, "kf"); (KOutline, "ko"); (KSweep, "K")]%string.
Definition calls {A} (table : list (A * string)) (f : A) (n : str) : Prop := exists s, In (f, s) table /\ n = lit s.

(* the seven arguments of \fade, times in centiseconds *)
Definition fade_args (args : str) (a1 a2 a3 t1 t2 t3 t4 : N) : Prop :=
  exists s1 s2 s3 s4 s5 s6 s7 rest m1 m2 m3 m4, args_are args (s1 :: s2 :: s3 :: s4 :: s5 :: s6 :: s7 :: rest) /\
    u8_of (trim s1) a1 /\ u8_of (trim s2) a2 /\ u8_of (trim s3) a3 /\
    u32_of (trim s4) m1 /\ u32_of (trim s5) m2 /\ u32_of (trim s6) m3 /\ u32_of (trim s7) m4 /\
    (t1 = m1 / 10 /\ t2 = m2 / 10 /\ t3 = m3 / 10 /\ t4 = m4 / 10)%N.
(* the tag \n with these arguments gives the field this value *)
Inductive gives : str -> str -> field -> value -> Prop :=
| g_num n a f x : calls num_names f n -> number a x -> gives n a f (VNum x)
| g_byte n a f x : calls byte_names f n -> u8_of a x -> gives n a f (VByte x)
| g_flag n a f : calls flag_names f n -> gives n a f (VFlag (if list_eq_dec N.eq_dec a (lit "0") then false else true))
| g_color n a f r c : calls color_names f n -> from_hex a r -> parse_bgr_color r = Ok c -> gives n a f (VColor c)
| g_alpha n a f r h x : calls alpha_names f n -> from_hex a r -> h = drop_end is_amp (trim_matches (lit "&h") (trim_matches (lit "&H") r)) ->
    parse_uint 255 16 h = Some x -> gives n a f (VByte (255 - x))
| g_point n a f s1 s2 x y : calls point_names f n -> args_are a [s1; s2] -> number (trim s1) x -> number (trim s2) y -> gives n a f (VPoint x y)
| g_move a s1 s2 s3 s4 rest x1 y1 x2 y2 m1 m2 : args_are a (s1 :: s2 :: s3 :: s4 :: rest) ->
    number (trim s1) x1 -> number (trim s2) y1 -> number (trim s3) x2 -> number (trim s4) y2 -> time_arg rest 0 m1 -> time_arg rest 1 m2 ->
    gives (lit "move") a FMovement (VMove x1 y1 x2 y2 (m1 / 10) (m2 / 10))
| g_clip n a s1 s2 s3 s4 x1 y1 x2 y2 inv : (n = lit "clip" /\ inv = false \/ n = lit "iclip" /\ inv = true) -> args_are a [s1; s2; s3; s4] ->
    number (trim s1) x1 -> number (trim s2) y1 -> number (trim s3) x2 -> number (trim s4) y2 -> gives n a FClip (VClip x1 y1 x2 y2 inv)
| g_fad n a s1 s2 m1 m2 : (n = lit "fad" \/ n = lit "fade") -> args_are a [s1; s2] -> u32_of (trim s1) m1 -> u32_of (trim s2) m2 ->
    gives n a FFade (VFade 0 0 (m1 / 10) (m2 / 10) None)
| g_fade n a a1 a2 a3 t1 t2 t3 t4 : (n = lit "fad" \/ n = lit "fade") -> fade_args a a1 a2 a3 t1 t2 t3 t4 -> (t1 <= t2)%N -> (t3 <= t4)%N ->
    gives n a FFade (VFade a1 a3 t1 t4 (Some (a2, t2 - t1, t4 - t3)%N))
| g_kara n a st x : calls kara_names st n -> u32_of a x -> gives n a FKaraoke (VKaraoke x st None)
| g_name a : a <> [] -> gives (lit "fn") a FName (VText a).
(* \fn without a name takes the font name back *)
Definition takes_back (n a : str) (f : field) : Prop := n = lit "fn" /\ a = [] /\ f = FName.
Definition touches (n a : str) (f : field) : Prop := takes_back n a f \/ exists v, gives n a f v.
(* the times of a \fade that run backwards *)
Definition backward_fade (n a : str) : Prop :=
  (n = lit "fad" \/ n = lit "fade") /\ exists a1 a2 a3 t1 t2 t3 t4, fade_args a a1 a2 a3 t1 t2 t3 t4 /\ (t2 < t1 \/ t4 < t3)%N.

(* ---- blocks ---- *)
(* the pieces between the backslashes outside parentheses; d is the depth at
   the start *)
Definition no_top_slash (d : Z) (p : str) : Prop := forall u v, p = u ++ 92%N :: v -> (d + parens u <> 0)%Z.
Inductive divided : Z -> str -> list str -> Prop :=
| div_last d p : no_top_slash d p -> divided d p [p]
| div_cons d p r ps : no_top_slash d p -> (d + parens p = 0)%Z -> divided 0 r ps -> divided d (p ++ 92%N :: r) (p :: ps).
(* name and arguments of a piece *)
Inductive piece_is : str -> str -> str -> Prop :=
| pi_fn a : piece_is (lit "fn" ++ a) (lit "fn") a
| pi_digit d x a : digit d -> (x < 128)%N -> piece_is (d :: x :: a) [d; x] a
| pi_alone d : digit d -> piece_is [d] [d] []
| pi_word n a : Forall letter n -> ~ starts letter a -> ~ starts digit (n ++ a) -> (forall b, n ++ a <> lit "fn" ++ b) -> piece_is (n ++ a) n a.
(* a digit before a character of several bytes *)
Definition splits_digit (p : str) : Prop := exists d x a, p = d :: x :: a /\ digit d /\ (128 <= x)%N.
Definition fatal (p : str) : Prop := splits_digit p \/ exists n a, piece_is p n a /\ backward_fade n a.
Definition resets (p : str) : Prop := exists a, piece_is p (lit "r") a.
Definition quiet (f : field) (p : str) : Prop := ~ resets p /\ forall n a, piece_is p n a -> ~ touches n a f.
(* the value of a field after the pieces: that of the last piece which touches
   it or resets everything *)
Definition in_force (f : field) (before : option value) (ps : list str) (after : option value) : Prop :=
  (exists u p w n a v, ps = u ++ p :: w /\ piece_is p n a /\ gives n a f v /\ after = Some v /\ Forall (quiet f) w) \/
  (exists u p w n a, ps = u ++ p :: w /\ piece_is p n a /\ takes_back n a f /\ after = None /\ Forall (quiet f) w) \/
  (exists u p w, ps = u ++ p :: w /\ resets p /\ after = None /\ Forall (quiet f) w) \/
  (Forall (quiet f) ps /\ after = before).

(* ---- \t ---- *)
(* the fields before the first backslash: trailing commas dropped, divided at
   the commas, without blanks around *)
Definition fields_are (params : str) (l : list str) : Prop :=
  exists body c parts, params = body ++ c /\ Forall (eq 44%N) c /\ ~ ends 44%N body /\
    parts <> [] /\ Forall (fun s => ~ In 44%N s) parts /\ body = join [44%N] parts /\ l = map trim parts.
Definition time_field (s : str) (n : N) : Prop := u32_of s n \/ (n = 0%N /\ forall m, ~ u32_of s m).
Definition accel_field (s : str) (x : float) : Prop := number s x \/ (x = Fin 1 /\ forall y, ~ number s y).
(* start, end, acceleration *)
Inductive timed : list str -> N -> N -> float -> Prop :=
| tm_accel s x : number s x -> f_lt x (Fin 10) = true -> timed [s] 0 0 x
| tm_length s x : number s x -> f_lt x (Fin 10) = false -> timed [s] 0 (f_to_N u32_max x) (Fin 1)
| tm_none s : (forall x, ~ number s x) -> timed [s] 0 0 (Fin 1)
| tm_times a b n m : time_field a n -> time_field b m -> timed [a; b] n m (Fin 1)
| tm_full a b c r n m x : time_field a n -> time_field b m -> accel_field c x -> timed (a :: b :: c :: r) n m x.
Definition anim_nums : list (field * string) :=
  [(FSize, "fs"); (FScaleX, "fscx"); (FScaleY, "fscy"); (FSpacing, "fsp"); (FRotZ, "frz"); (FRotZ, "fr"); (FRotX, "frx"); (FRotY, "fry");
   (FBorder, "bord"); (FShadow, "shad"); (FBlur, "blur"); (FBlur, "be")]%string.
(* what a tag inside \t(...) animates and where to *)
Inductive aims : str -> str -> field -> value -> Prop :=
| am_num n a f x : calls anim_nums f n -> number a x -> aims n a f (VNum x)
| am_color n a f c : calls color_names f n -> parse_bgr_color a = Ok c -> aims n a f (VColor c)
| am_alpha a x : parse_uint 255 16 (trim_matches (lit "&h") (trim_matches (lit "&H") a)) = Some x -> aims (lit "alpha") a FAlpha (VByte (255 - x)).
(* its name: one digit at most, then letters *)
Definition anim_piece (p n a : str) : Prop :=
  p = n ++ a /\ exists d w, n = d ++ w /\ Forall letter w /\ ~ starts letter a /\ (d = [] /\ ~ starts digit p \/ exists x, d = [x] /\ digit x).
Inductive targets : list str -> list (field * value) -> Prop :=
| tgt_nil : targets [] []
| tgt_some p n a f v ps l : anim_piece p n a -> aims n a f v -> targets ps l -> targets (p :: ps) ((f, v) :: l)
| tgt_none p ps l : (forall n a f v, anim_piece p n a -> ~ aims n a f v) -> targets ps l -> targets (p :: ps) l.
(* blanks (params \piece \piece ...) blanks; inside, every backslash starts a piece *)
Definition is_transform (args : str) (tr : transform) : Prop :=
  exists params ps fs, trim args = lit "(" ++ params ++ flat_map (cons 92%N) ps ++ lit ")" /\ ~ In 92%N params /\
    ps <> [] /\ Forall (fun p => ~ In 92%N p) ps /\ fields_are params fs /\ timed fs (tr_start tr) (tr_end tr) (tr_accel tr) /\
    targets ps (tr_targets tr) /\ tr_targets tr <> [].
(* the transforms of the pieces, in order *)
Definition moves (p : str) (tr : transform) : Prop := exists a, piece_is p (lit "t") a /\ is_transform a tr.
Inductive gathered : list str -> list transform -> Prop :=
| ga_nil : gathered [] []
| ga_yes p ps tr l : moves p tr -> gathered ps l -> gathered (p :: ps) (tr :: l)
| ga_no p ps l : (forall tr, ~ moves p tr) -> gathered ps l -> gathered (p :: ps) l.
(* those since the last reset *)
Definition transforms_after (before : list transform) (ps : list str) (after : list transform) : Prop :=
  (Forall (fun p => ~ resets p) ps /\ exists l, gathered ps l /\ after = before ++ l) \/
  (exists u p w, ps = u ++ p :: w /\ resets p /\ Forall (fun p => ~ resets p) w /\ gathered w after).
(* a block turns the tags t into t' *)
Definition block_does (x : str) (t t' : tags) : Prop :=
  exists ps, divided 0 x ps /\ Forall (fun p => ~ fatal p) ps /\ (forall f, in_force f (tg_field t f) ps (tg_field t' f)) /\
    transforms_after (tg_transforms t) ps (tg_transforms t').
Definition fatal_block (x : str) : Prop := exists ps, divided 0 x ps /\ Exists fatal ps.

(* ---- the text ---- *)
(* the segments before the first block, and each block with those after it *)
Fixpoint runs (l : list seg) : list seg * list (str * list seg) :=
  match l with
  | [] => ([], [])
  | Block x :: r => ([], (x, fst (runs r)) :: snd (runs r))
  | s :: r => (s :: fst (runs r), snd (runs r))
  end.
Definition source (l : list seg) : str := flat_map seg_text l.
Definition seen (l : list seg) : str := flat_map (shown false) l.
Definition slash (e : ending) : str := match e with EndSlash => [92%N] | _ => [] end.
(* the non-empty runs with their places and the tags of the blocks before them;
   o is the offset of the run, t the tags in force *)
Inductive cut_up (e : ending) : nat -> tags -> list seg -> list (str * list seg) -> list segment -> tags -> Prop :=
| cu_last o t l : cut_up e o t l [] (match seen l ++ slash e with [] => [] | s => [Segment s o (o + blen (source l ++ slash e)) t] end) t
| cu_block o t l x m rest t' segs last : block_does x t t' ->
    cut_up e (o + blen (source l) + blen (seg_text (Block x))) t' m rest segs last ->
    cut_up e o t l ((x, m) :: rest) (match seen l with [] => segs | s => Segment s o (o + blen (source l)) t :: segs end) last.
(* some block, or the unclosed one at the end, has a tag *)
Definition has_tag (x : str) : Prop := exists ps n a, x = pieces_text ps /\ pieces_ok ps /\ In (PTag n a) ps.
Definition tagged_text (l : list seg) (e : ending) : Prop :=
  Exists (fun s => match s with Block x => has_tag x | _ => False end) l \/ match e with EndOpen x => has_tag (removelast x) | _ => False end.
Definition fatal_seg (s : seg) : Prop := match s with Block x => fatal_block x | _ => False end.

(* a text made of blocks only still has one segment, an empty one *)
Definition all_segments (l : list seg) (e : ending) (segs : list segment) (last : tags) : list segment :=
  match segs with [] => [Segment [] (blen (source l)) (blen (event_text l e)) last] | _ => segs end.
Definition not_block (s : seg) : Prop := forall x, s <> Block x.
(* places: non-empty, in order, inside the text *)
Inductive placed (n : nat) : nat -> list segment -> Prop :=
| pl_nil o : o <= n -> placed n o []
| pl_cons o s r : o <= sg_start s -> sg_start s < sg_end s -> sg_text s <> [] -> placed n (sg_end s) r -> placed n o (s :: r).
(* each segment shows the text at its place *)
Definition shows (text : str) (s : segment) : Prop := exists u m v, text = u ++ m ++ v /\ sg_start s = blen u /\ sg_end s = blen u + blen m /\
  exists l (b : bool), Forall (fun x => seg_ok x /\ not_block x) l /\ m = source l ++ (if b then [92%N] else []) /\ sg_text s = seen l ++ (if b then [92%N] else []).

(* ---- tags of the whole event ---- *)
(* the tag processor reads most tags as above; those it reads differently *)
Inductive sets : str -> str -> field -> value -> Prop :=
| st_same n a f v : f <> FName -> gives n a f v -> sets n a f v
| st_name a : sets (lit "fn") a FName (VText (trim a))
| st_angle n a x : (n = lit "frz" \/ n = lit "fr") -> number a x -> sets n a FAngle (VNum x)
| st_encoding a x : u8_of a x -> sets (lit "fe") a FEncoding (VByte x)
| st_baseline a x : number a x -> sets (lit "pbo") a FBaseline (VNum x)
| st_reset a : sets (lit "r") a FReset (VText (trim a)).
(* \kt adds a start time to the karaoke so far *)
Definition starts_karaoke (n a : str) (m : N) : Prop := n = lit "kt" /\ u32_of a m.
Definition with_start (m : N) (before : option value) : option value :=
  Some (match before with Some (VKaraoke d s _) => VKaraoke d s (Some m) | _ => VKaraoke 0 KBasic (Some m) end).
(* the value of a field after the tags *)
Inductive after_tags (f : field) (before : option value) : list tag -> option value -> Prop :=
| at_nil : after_tags f before [] before
| at_sets l t v b : after_tags f before l b -> sets (tg_name t) (tg_args t) f v -> after_tags f before (l ++ [t]) (Some v)
| at_start l t m b : f = FKaraoke -> after_tags f before l b -> starts_karaoke (tg_name t) (tg_args t) m -> after_tags f before (l ++ [t]) (with_start m b)
| at_other l t b : after_tags f before l b -> (forall v, ~ sets (tg_name t) (tg_args t) f v) ->
    (f = FKaraoke -> forall m, ~ starts_karaoke (tg_name t) (tg_args t) m) -> after_tags f before (l ++ [t]) b.
Inductive all_transforms : list tag -> list transform -> Prop :=
| al_nil : all_transforms [] []
| al_yes t r tr l : tg_name t = lit "t" -> is_transform (tg_args t) tr -> all_transforms r l -> all_transforms (t :: r) (tr :: l)
| al_no t r l : (tg_name t = lit "t" -> forall tr, ~ is_transform (tg_args t) tr) -> all_transforms r l -> all_transforms (t :: r) l.
(* the byte offsets of a character *)
Definition offsets (c : char) (s : str) (o : list nat) : Prop :=
  Coq.Sorting.Sorted.StronglySorted lt o /\ forall i, In i o <-> exists u v, s = u ++ c :: v /\ i = blen u.
(* a tag that makes the processor panic *)
Definition fatal_tag (t : tag) : Prop := backward_fade (tg_name t) (tg_args t).
