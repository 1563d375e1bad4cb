(* Model of the renderer's reading of event text: ass-renderer
   pipeline/tag_processor/{mod,parse,types}.rs, pipeline/text_segmenter/{mod,
   apply,split}.rs and pipeline/transform/{mod,parse}.rs.  The record
   ProcessedTags with its nested records is a function from the name of a field
   to its value; the list of transforms is kept beside it. *)
From Verif Require Export Base TagModel ColorModel FloatModel.

(* tag_processor/types.rs:11-105 *)
Inductive field :=
| FPosition | FMovement | FOrigin
| FPrimary | FSecondary | FOutline | FBack | FAlpha | FAlpha1 | FAlpha2 | FAlpha3 | FAlpha4
| FName | FSize | FScaleX | FScaleY | FSpacing | FAngle | FRotX | FRotY | FRotZ | FEncoding
| FBold | FItalic | FUnderline | FStrikeout
| FBorder | FBorderX | FBorderY | FShadow | FShadowX | FShadowY | FBlur | FBlurEdges | FAlignment | FWrap
| FDrawing | FClip | FFade | FKaraoke | FReset | FBaseline | FShearX | FShearY.
Definition field_eq (a b : field) : {a = b} + {a <> b}.
Proof. decide equality. Defined.
(* tag_processor/types.rs:144-155 *)
Inductive k_style := KBasic | KFill | KOutline | KSweep.
(* tag_processor/types.rs:112-142; FadeData's last three fields are all None or
   all Some: middle alpha, length of fade-in, length of fade-out *)
Inductive value :=
| VPoint (x y : float)
| VMove (x1 y1 x2 y2 : float) (t1 t2 : N)
| VColor (c : rgba)
| VByte (n : N)
| VNum (x : float)
| VFlag (b : bool)
| VText (s : str)
| VClip (x1 y1 x2 y2 : float) (inverse : bool)
| VFade (alpha_start alpha_end time_start time_end : N) (complex : option (N * N * N))
| VKaraoke (duration : N) (style : k_style) (start : option N).
(* transform/mod.rs:13-58; an AnimatableTag is the field it animates with its target *)
Record transform := Transform { tr_start : N; tr_end : N; tr_accel : float; tr_targets : list (field * value) }.
Record tags := Tags { tg_field : field -> option value; tg_transforms : list transform }.
Definition no_tags : tags := Tags (fun _ => None) [].
Definition set_field (f : field) (v : option value) (t : tags) : tags :=
  Tags (fun g => if field_eq f g then v else tg_field t g) (tg_transforms t).

(* ---- tag_processor/parse.rs ---- *)
Definition is_open (c : char) : bool := (c =? 40)%N.
Definition is_close (c : char) : bool := (c =? 41)%N.
Definition comma (c : char) : bool := (c =? 44)%N.
Definition arg_list (args : str) : list str := split_on comma (drop_end is_close (drop_while is_open args)).
Definition num (s : str) : option float := parse_float f32 s.
Definition byte (s : str) : option N := parse_uint 255 10 s.
Definition obind {A B} (o : option A) (f : A -> option B) : option B := match o with Some a => f a | None => None end.
(* parse.rs:10-22 *)
Definition parse_pos_args (args : str) : option value :=
  match arg_list args with
  | [a; b] => obind (num (trim a)) (fun x => obind (num (trim b)) (fun y => Some (VPoint x y)))
  | _ => None
  end.
(* parse.rs:25-56: further arguments are ignored, times are in milliseconds *)
Definition time_or_0 (l : list str) : N :=
  match l with s :: _ => match parse_u32 (trim s) with Some n => n | None => 0 end | [] => 0 end%N.
Definition parse_move_args (args : str) : option value :=
  match arg_list args with
  | a :: b :: c :: d :: rest =>
    obind (num (trim a)) (fun x1 => obind (num (trim b)) (fun y1 =>
    obind (num (trim c)) (fun x2 => obind (num (trim d)) (fun y2 =>
    Some (VMove x1 y1 x2 y2 (time_or_0 rest / 10) (time_or_0 (tl rest) / 10))))))
  | _ => None
  end.
(* parse.rs:65-73: the part from the first "&H" or "&h" on; both bytes are ASCII *)
Fixpoint strip_to_hex (s all : str) : str :=
  match s with
  | a :: (b :: _) as r => if (a =? 38)%N && ((b =? 72)%N || (b =? 104)%N) then s else strip_to_hex r all
  | _ => all
  end.
(* str::trim_start_matches of a string *)
Fixpoint drop_prefixes (fuel : nat) (p s : str) : str :=
  match fuel with
  | 0 => s
  | S f => match strip_prefix p s with Some r => drop_prefixes f p r | None => s end
  end.
Definition trim_matches (p s : str) : str := drop_prefixes (List.length s) p s.
(* parse.rs:76-79 *)
Definition parse_color (args : str) : res (option value) :=
  match parse_bgr_color (strip_to_hex args args) with
  | Ok c => Ok (Some (VColor c))
  | Err => Ok None
  | Panic => Panic
  end.
(* parse.rs:82-92 *)
Definition is_amp (c : char) : bool := (c =? 38)%N.
Definition parse_alpha (args : str) : option value :=
  let hex := drop_end is_amp (trim_matches (lit "&h") (trim_matches (lit "&H") (strip_to_hex args args))) in
  option_map (fun a => VByte (255 - a)) (parse_uint 255 16 hex).
(* parse.rs:96-116 *)
Definition parse_clip_args (args : str) (inverse : bool) : option value :=
  match arg_list args with
  | [a; b; c; d] =>
    obind (num (trim a)) (fun x1 => obind (num (trim b)) (fun y1 =>
    obind (num (trim c)) (fun x2 => obind (num (trim d)) (fun y2 => Some (VClip x1 y1 x2 y2 inverse)))))
  | _ => None
  end.
(* checked u32 subtraction *)
Definition u32_sub (a b : N) : res N := if (a <? b)%N then Panic else Ok (a - b)%N.
(* parse.rs:119-184 *)
Definition parse_fade_args (args : str) : res (option value) :=
  match arg_list args with
  | [a; b] =>
    Ok (obind (parse_u32 (trim a)) (fun i => obind (parse_u32 (trim b)) (fun o => Some (VFade 0 0 (i / 10) (o / 10) None))))
  | a1 :: a2 :: a3 :: m1 :: m2 :: m3 :: m4 :: _ =>
    match obind (byte (trim a1)) (fun a1 => obind (byte (trim a2)) (fun a2 => obind (byte (trim a3)) (fun a3 =>
          obind (parse_u32 (trim m1)) (fun t1 => obind (parse_u32 (trim m2)) (fun t2 =>
          obind (parse_u32 (trim m3)) (fun t3 => obind (parse_u32 (trim m4)) (fun t4 =>
          Some (a1, a2, a3, (t1 / 10)%N, (t2 / 10)%N, (t3 / 10)%N, (t4 / 10)%N)))))))) with
    | Some (a1, a2, a3, t1, t2, t3, t4) =>
      res_bind (u32_sub t2 t1) (fun i => res_bind (u32_sub t4 t3) (fun o => Ok (Some (VFade a1 a3 t1 t4 (Some (a2, i, o))))))
    | None => Ok None
    end
  | _ => Ok None
  end.

(* ---- transform ---- *)
(* transform/parse.rs:125-132 *)
Definition parse_alpha_arg (args : str) : option value :=
  option_map (fun a => VByte (255 - a)) (parse_uint 255 16 (trim_matches (lit "&h") (trim_matches (lit "&H") args))).
(* transform/parse.rs:121-123 *)
Definition parse_color_arg (args : str) : res (option value) :=
  match parse_bgr_color args with Ok c => Ok (Some (VColor c)) | Err => Ok None | Panic => Panic end.
Definition vnum (s : str) : option value := option_map VNum (num s).
Definition named (n : str) (l : list string) : bool := one_of l n.
Definition target (f : field) (o : option value) : res (option (field * value)) := Ok (option_map (pair f) o).
Definition target_res (f : field) (o : res (option value)) : res (option (field * value)) :=
  res_bind o (target f).
(* transform/parse.rs:100-119 *)
Definition create_animatable_tag (n args : str) : res (option (field * value)) :=
  if named n ["fs"]%string then target FSize (vnum args)
  else if named n ["fscx"]%string then target FScaleX (vnum args)
  else if named n ["fscy"]%string then target FScaleY (vnum args)
  else if named n ["fsp"]%string then target FSpacing (vnum args)
  else if named n ["frz"; "fr"]%string then target FRotZ (vnum args)
  else if named n ["frx"]%string then target FRotX (vnum args)
  else if named n ["fry"]%string then target FRotY (vnum args)
  else if named n ["c"; "1c"]%string then target_res FPrimary (parse_color_arg args)
  else if named n ["2c"]%string then target_res FSecondary (parse_color_arg args)
  else if named n ["3c"]%string then target_res FOutline (parse_color_arg args)
  else if named n ["4c"]%string then target_res FBack (parse_color_arg args)
  else if named n ["alpha"]%string then target FAlpha (parse_alpha_arg args)
  else if named n ["bord"]%string then target FBorder (vnum args)
  else if named n ["shad"]%string then target FShadow (vnum args)
  else if named n ["blur"; "be"]%string then target FBlur (vnum args)
  else Ok None.
(* transform/parse.rs:46-98; the list is chars[pos..] *)
Fixpoint animatable (fuel : nat) (cs : str) : run (res (list (field * value))) :=
  match fuel with
  | 0 => match cs with [] => Done (Ok []) | _ => Stuck end
  | S k =>
    match cs with
    | [] => Done (Ok [])
    | c :: r =>
      if is_bs c then
        let d := match r with x :: _ => if is_digit x then [x] else [] | [] => [] end in
        let after_digit := match d with [] => r | _ => tl r end in
        let name := d ++ take_while is_alpha after_digit in
        let after_name := drop_while is_alpha after_digit in
        match name with
        | [] => animatable k after_name
        | _ =>
          let not_bs x := negb (is_bs x) in
          rest <- animatable k (drop_while not_bs after_name) ;;
          Done (res_bind (create_animatable_tag name (take_while not_bs after_name)) (fun o =>
                res_bind rest (fun l => Ok (match o with Some x => x :: l | None => l end))))
        end
      else animatable k r
    end
  end.
Definition parse_animatable_tags (s : str) : run (res (list (field * value))) := animatable (List.length s) s.
Definition one : float := Fin 1.
Definition zero : float := Fin 0.
(* transform/mod.rs:86-121: start, end and acceleration *)
Definition u32_or_0 (s : str) : N := match parse_u32 s with Some n => n | None => 0%N end.
Definition timing (params : str) : N * N * float :=
  match map trim (split_on comma (drop_end comma params)) with
  | [] => (0%N, 0%N, one)
  | [s] =>
    match s with
    | [] => (0%N, 0%N, one)
    | _ => match num s with
           | Some v => if f_lt v (Fin 10) then (0%N, 0%N, v) else (0%N, f_to_N u32_max v, one)
           | None => (0%N, 0%N, one)
           end
    end
  | [a; b] => (u32_or_0 a, u32_or_0 b, one)
  | a :: b :: c :: _ => (u32_or_0 a, u32_or_0 b, match num c with Some v => v | None => one end)
  end.
(* transform/mod.rs:62-136 *)
Definition parse_transform (args : str) : run (res (option transform)) :=
  let args := trim args in
  if negb (starts_with (lit "(") args) || negb (ends_with (lit ")") args) then Done (Ok None)
  else
    inner <- or_crash (slice args 1 (blen args - 1)) ;;
    match find_char is_bs inner with
    | None => Done (Ok None)
    | Some (params, rest) =>
      let '(a, b, accel) := timing params in
      ts <- parse_animatable_tags rest ;;
      Done (res_bind ts (fun l => Ok (match l with [] => None | _ => Some (Transform a b accel l) end)))
    end.

(* ---- text_segmenter/split.rs ---- *)
(* split.rs:9-48; the depth may become negative *)
Fixpoint split_loop (cs cur : str) (depth : Z) : list str :=
  match cs with
  | [] => match cur with [] => [] | _ => [cur] end
  | c :: r =>
    if is_bs c && (depth =? 0)%Z then
      match cur with [] => split_loop r [] depth | _ => cur :: split_loop r [] depth end
    else
      let cur := cur ++ [c] in
      if is_open c then split_loop r cur (depth + 1)
      else if is_close c then
        let depth := (depth - 1)%Z in
        if (depth =? 0)%Z && match r with d :: _ => is_bs d | [] => false end then cur :: split_loop r [] depth
        else split_loop r cur depth
      else split_loop r cur depth
  end.
Definition split_tags (content : str) : list str := split_loop content [] 0.
(* split.rs:51-75 *)
Definition extract_tag (part : str) : res (str * str) :=
  if starts_with (lit "fn") part && (2 <? blen part) then
    res_bind (or_panic (cut part 2)) (fun p => Ok (lit "fn", snd p))
  else
    match part with
    | c :: _ =>
      if is_digit c then
        if 2 <=? blen part then or_panic (cut part 2) else Ok (part, [])
      else match find_char (fun x => negb (is_alpha x)) part with
           | Some p => Ok p
           | None => Ok (part, [])
           end
    | [] => Ok (part, [])
    end.

(* ---- text_segmenter/apply.rs ---- *)
(* if let Some(v) = … { current.field = Some(v) } *)
Definition put (f : field) (o : option value) (t : tags) : tags :=
  match o with Some v => set_field f (Some v) t | None => t end.
Definition put_res (f : field) (o : res (option value)) (t : tags) : run tags :=
  match o with Ok o => Done (put f o t) | _ => Crash end.
Definition vbyte (s : str) : option value := option_map VByte (byte s).
Definition vflag (s : str) : option value := Some (VFlag (negb (str_eqb s (lit "0")))).
Definition vkara (style : k_style) (s : str) : option value := option_map (fun n => VKaraoke n style None) (parse_u32 s).
Definition push_transform (args : str) (t : tags) : run tags :=
  r <- parse_transform args ;;
  match r with
  | Ok (Some x) => Done (Tags (tg_field t) (tg_transforms t ++ [x]))
  | Ok None => Done t
  | _ => Crash
  end.
(* apply.rs:33-299 *)
Definition apply_tag (n args : str) (t : tags) : run tags :=
  if named n ["c"; "1c"]%string then put_res FPrimary (parse_color args) t
  else if named n ["2c"]%string then put_res FSecondary (parse_color args) t
  else if named n ["3c"]%string then put_res FOutline (parse_color args) t
  else if named n ["4c"]%string then put_res FBack (parse_color args) t
  else if named n ["alpha"]%string then Done (put FAlpha (parse_alpha args) t)
  else if named n ["1a"]%string then Done (put FAlpha1 (parse_alpha args) t)
  else if named n ["2a"]%string then Done (put FAlpha2 (parse_alpha args) t)
  else if named n ["3a"]%string then Done (put FAlpha3 (parse_alpha args) t)
  else if named n ["4a"]%string then Done (put FAlpha4 (parse_alpha args) t)
  else if named n ["fn"]%string then Done (set_field FName (match args with [] => None | _ => Some (VText args) end) t)
  else if named n ["fs"]%string then Done (put FSize (vnum args) t)
  else if named n ["b"]%string then Done (put FBold (vflag args) t)
  else if named n ["i"]%string then Done (put FItalic (vflag args) t)
  else if named n ["u"]%string then Done (put FUnderline (vflag args) t)
  else if named n ["s"]%string then Done (put FStrikeout (vflag args) t)
  else if named n ["fscx"]%string then Done (put FScaleX (vnum args) t)
  else if named n ["fscy"]%string then Done (put FScaleY (vnum args) t)
  else if named n ["fsp"]%string then Done (put FSpacing (vnum args) t)
  else if named n ["blur"]%string then Done (put FBlur (vnum args) t)
  else if named n ["be"]%string then Done (put FBlurEdges (vnum args) t)
  else if named n ["clip"; "iclip"]%string then Done (put FClip (parse_clip_args args (str_eqb n (lit "iclip"))) t)
  else if named n ["fax"]%string then Done (put FShearX (vnum args) t)
  else if named n ["fay"]%string then Done (put FShearY (vnum args) t)
  else if named n ["org"]%string then Done (put FOrigin (parse_pos_args args) t)
  else if named n ["frz"; "fr"]%string then Done (put FRotZ (vnum args) t)
  else if named n ["frx"]%string then Done (put FRotX (vnum args) t)
  else if named n ["fry"]%string then Done (put FRotY (vnum args) t)
  else if named n ["bord"]%string then Done (put FBorder (vnum args) t)
  else if named n ["xbord"]%string then Done (put FBorderX (vnum args) t)
  else if named n ["ybord"]%string then Done (put FBorderY (vnum args) t)
  else if named n ["shad"]%string then Done (put FShadow (vnum args) t)
  else if named n ["xshad"]%string then Done (put FShadowX (vnum args) t)
  else if named n ["yshad"]%string then Done (put FShadowY (vnum args) t)
  else if named n ["q"]%string then Done (put FWrap (vbyte args) t)
  else if named n ["r"]%string then Done no_tags
  else if named n ["a"; "an"]%string then Done (put FAlignment (vbyte args) t)
  else if named n ["pos"]%string then Done (put FPosition (parse_pos_args args) t)
  else if named n ["move"]%string then Done (put FMovement (parse_move_args args) t)
  else if named n ["fad"; "fade"]%string then put_res FFade (parse_fade_args args) t
  else if named n ["p"]%string then Done (put FDrawing (vbyte args) t)
  else if named n ["t"]%string then push_transform args t
  else if named n ["k"]%string then Done (put FKaraoke (vkara KBasic args) t)
  else if named n ["kf"]%string then Done (put FKaraoke (vkara KFill args) t)
  else if named n ["ko"]%string then Done (put FKaraoke (vkara KOutline args) t)
  else if named n ["K"]%string then Done (put FKaraoke (vkara KSweep args) t)
  else Done t.
(* apply.rs:18-303; no part of split_tags is empty *)
Definition apply_part (part : str) (t : tags) : run tags :=
  match part with
  | [] => Done t
  | _ => match extract_tag part with
         | Ok (n, args) => apply_tag n args t
         | _ => Crash
         end
  end.
Fixpoint apply_parts (parts : list str) (t : tags) : run tags :=
  match parts with
  | [] => Done t
  | p :: r => t1 <- apply_part p t ;; apply_parts r t1
  end.
Definition process_tag_block (content : str) (t : tags) : run tags := apply_parts (split_tags content) t.

(* ---- text_segmenter/mod.rs ---- *)
(* text_segmenter/mod.rs:25-35 *)
Record segment := Segment { sg_text : str; sg_start : nat; sg_end : nat; sg_tags : tags }.
(* mod.rs:63-73 the variables of the loop *)
Record walk := Walk { wk_segments : list segment; wk_tags : tags; wk_last : nat; wk_text : str; wk_pos : nat;
                      wk_in : bool; wk_tag_start : nat; wk_depth : nat }.
Definition contains_str (p s : str) : bool := match find_str p s with Some _ => true | None => false end.
(* mod.rs:75-143 *)
Fixpoint walk_text (all cs : str) (w : walk) {struct cs} : run walk :=
  let '(Walk segs t last cur pos inside ts depth) := w in
  match cs with
  | [] => Done w
  | c :: r =>
    if (c =? 123)%N then
      if negb inside then
        match cur with
        | [] => walk_text all r (Walk segs t last [] (pos + len_utf8 c) true pos 1)
        | _ => walk_text all r (Walk (segs ++ [Segment cur last pos t]) t pos [] (pos + len_utf8 c) true pos 1)
        end
      else walk_text all r (Walk segs t last cur (pos + len_utf8 c) true ts (depth + 1))
    else if (c =? 125)%N && inside then
      if depth - 1 =? 0 then
        content <- or_crash (slice all (ts + 1) pos) ;;
        let karaoke := contains_str (lit "\k") content || contains_str (lit "\K") content in
        let (segs1, cur1) := match cur with
          | [] => (segs, cur)
          | _ => if karaoke then (segs ++ [Segment cur last ts t], []) else (segs, cur) end in
        t1 <- process_tag_block content t ;;
        walk_text all r (Walk segs1 t1 (pos + 1) cur1 (pos + len_utf8 c) false ts 0)
      else walk_text all r (Walk segs t last cur (pos + len_utf8 c) true ts (depth - 1))
    else if negb inside then
      if is_bs c then
        match r with
        | d :: r' =>
          let add := if (d =? 78)%N || (d =? 110)%N then [10%N] else if (d =? 104)%N then [160%N] else [c; d] in
          walk_text all r' (Walk segs t last (cur ++ add) (pos + len_utf8 d + len_utf8 c) inside ts depth)
        | [] => walk_text all r (Walk segs t last (cur ++ [c]) (pos + len_utf8 c) inside ts depth)
        end
      else walk_text all r (Walk segs t last (cur ++ [c]) (pos + len_utf8 c) inside ts depth)
    else walk_text all r (Walk segs t last cur (pos + len_utf8 c) inside ts depth)
  end.
(* mod.rs:38-156, without a registry; the option is None for Err *)
Definition segment_text (text : str) : run (option (list segment)) :=
  o <- analyze_text text ;;
  match o with
  | None => Done None
  | Some a =>
    match ta_tags a with
    | [] => Done (Some [Segment (ta_plain a) 0 (blen text) no_tags])
    | _ =>
      w <- walk_text text text (Walk [] no_tags 0 [] 0 false 0 0) ;;
      Done (Some (match wk_text w, wk_segments w with
                  | [], _ :: _ => wk_segments w
                  | cur, l => l ++ [Segment cur (wk_last w) (blen text) (wk_tags w)]
                  end))
    end
  end.

(* ---- tag_processor/mod.rs ---- *)
(* mod.rs:331-344 *)
Definition set_start (args : str) (t : tags) : tags :=
  match parse_u32 args with
  | None => t
  | Some n => set_field FKaraoke (Some (match tg_field t FKaraoke with
                                        | Some (VKaraoke d s _) => VKaraoke d s (Some n)
                                        | _ => VKaraoke 0 KBasic (Some n) end)) t
  end.
(* mod.rs:74-363 *)
Definition process_single_tag (n args : str) (t : tags) : run tags :=
  if named n ["pos"]%string then Done (put FPosition (parse_pos_args args) t)
  else if named n ["move"]%string then Done (put FMovement (parse_move_args args) t)
  else if named n ["org"]%string then Done (put FOrigin (parse_pos_args args) t)
  else if named n ["c"; "1c"]%string then put_res FPrimary (parse_color args) t
  else if named n ["2c"]%string then put_res FSecondary (parse_color args) t
  else if named n ["3c"]%string then put_res FOutline (parse_color args) t
  else if named n ["4c"]%string then put_res FBack (parse_color args) t
  else if named n ["alpha"]%string then Done (put FAlpha (parse_alpha args) t)
  else if named n ["1a"]%string then Done (put FAlpha1 (parse_alpha args) t)
  else if named n ["2a"]%string then Done (put FAlpha2 (parse_alpha args) t)
  else if named n ["3a"]%string then Done (put FAlpha3 (parse_alpha args) t)
  else if named n ["4a"]%string then Done (put FAlpha4 (parse_alpha args) t)
  else if named n ["fn"]%string then Done (put FName (Some (VText (trim args))) t)
  else if named n ["fs"]%string then Done (put FSize (vnum args) t)
  else if named n ["fscx"]%string then Done (put FScaleX (vnum args) t)
  else if named n ["fscy"]%string then Done (put FScaleY (vnum args) t)
  else if named n ["fsp"]%string then Done (put FSpacing (vnum args) t)
  else if named n ["frz"; "fr"]%string then Done (put FRotZ (vnum args) (put FAngle (vnum args) t))
  else if named n ["frx"]%string then Done (put FRotX (vnum args) t)
  else if named n ["fry"]%string then Done (put FRotY (vnum args) t)
  else if named n ["fax"]%string then Done (put FShearX (vnum args) t)
  else if named n ["fay"]%string then Done (put FShearY (vnum args) t)
  else if named n ["fe"]%string then Done (put FEncoding (vbyte args) t)
  else if named n ["b"]%string then Done (put FBold (vflag args) t)
  else if named n ["i"]%string then Done (put FItalic (vflag args) t)
  else if named n ["u"]%string then Done (put FUnderline (vflag args) t)
  else if named n ["s"]%string then Done (put FStrikeout (vflag args) t)
  else if named n ["bord"]%string then Done (put FBorder (vnum args) t)
  else if named n ["xbord"]%string then Done (put FBorderX (vnum args) t)
  else if named n ["ybord"]%string then Done (put FBorderY (vnum args) t)
  else if named n ["shad"]%string then Done (put FShadow (vnum args) t)
  else if named n ["xshad"]%string then Done (put FShadowX (vnum args) t)
  else if named n ["yshad"]%string then Done (put FShadowY (vnum args) t)
  else if named n ["be"]%string then Done (put FBlurEdges (vnum args) t)
  else if named n ["blur"]%string then Done (put FBlur (vnum args) t)
  else if named n ["a"; "an"]%string then Done (put FAlignment (vbyte args) t)
  else if named n ["q"]%string then Done (put FWrap (vbyte args) t)
  else if named n ["r"]%string then Done (put FReset (Some (VText (trim args))) t)
  else if named n ["pbo"]%string then Done (put FBaseline (vnum args) t)
  else if named n ["p"]%string then Done (put FDrawing (vbyte args) t)
  else if named n ["clip"; "iclip"]%string then Done (put FClip (parse_clip_args args (str_eqb n (lit "iclip"))) t)
  else if named n ["fad"; "fade"]%string then put_res FFade (parse_fade_args args) t
  else if named n ["k"]%string then Done (put FKaraoke (vkara KBasic args) t)
  else if named n ["kf"]%string then Done (put FKaraoke (vkara KFill args) t)
  else if named n ["ko"]%string then Done (put FKaraoke (vkara KOutline args) t)
  else if named n ["K"]%string then Done (put FKaraoke (vkara KSweep args) t)
  else if named n ["kt"]%string then Done (set_start args t)
  else if named n ["t"]%string then push_transform args t
  else Done t.
Fixpoint process_tags (l : list tag) (t : tags) : run tags :=
  match l with
  | [] => Done t
  | x :: r => t1 <- process_single_tag (tg_name x) (tg_args x) t ;; process_tags r t1
  end.
(* mod.rs:46-69: the text is the plain text; the positions of its newlines and
   of its no-break spaces are recorded *)
Fixpoint positions (p : char -> bool) (o : nat) (s : str) : list nat :=
  match s with
  | [] => []
  | c :: r => (if p c then [o] else []) ++ positions p (o + len_utf8 c) r
  end.
Record processed := Processed_ { pr_tags : tags; pr_breaks : list nat; pr_nbsp : list nat; pr_text : str }.
(* mod.rs:24-72 *)
Definition process_event_tags (text : str) : run (option processed) :=
  o <- analyze_text text ;;
  match o with
  | None => Done None
  | Some a =>
    t <- process_tags (ta_tags a) no_tags ;;
    let p := ta_plain a in
    Done (Some (Processed_ t (positions (fun c => (c =? 10)%N) 0 p) (positions (fun c => (c =? 160)%N) 0 p) p))
  end.
