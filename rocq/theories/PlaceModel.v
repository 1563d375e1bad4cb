(* Model of where text is put: ass-renderer pipeline/build/position.rs,
   pipeline/animation.rs and pipeline/build/text/{mod,position}.rs.  The size of
   a shaped run is an argument. *)
From Verif Require Export Base FloatModel SegmentModel ShowModel WrapModel.
From Verif Require Import CollideModel AnimModel.

(* the frame in pixels, PlayRes, and LayoutRes if the script has one *)
Record stage := Stage { st_width : N; st_height : N; st_play_x : float; st_play_y : float; st_layout : option (float * float) }.
(* the margins of an event and of its style, as written, and when it is shown *)
Record shown := Shown { sw_left : str; sw_right : str; sw_vert : str; sw_style : option (str * str * str); sw_start : N; sw_end : N }.
Definition scale_x (g : stage) : float := f_div f32 (f_of_N f32 (st_width g)) (st_play_x g).
Definition scale_y (g : stage) : float := f_div f32 (f_of_N f32 (st_height g)) (st_play_y g).

(* animation.rs:4-12 *)
Definition move_progress (now t1 t2 : N) : float :=
  if (now <=? t1)%N then fl 0 else if (t2 <=? now)%N then fl 1
  else f_div f32 (f_of_N f32 (now - t1)) (f_of_N f32 (t2 - t1)).

(* position.rs:46-50, 90-99, 193-207 *)
Definition zero_margin (m : str) : bool := match m with [] => true | _ => str_eqb m (lit "0") end.
Definition num_or (o : option float) (d : float) : float := match o with Some x => x | None => d end.
Definition margin_or_style (event_margin : str) (style_margin : option str) : float :=
  let style := match style_margin with Some m => num_or (parse_float f32 m) (fl 0) | None => fl 0 end in
  if zero_margin event_margin then style else num_or (parse_float f32 event_margin) style.
Definition margin_left (w : shown) : float := margin_or_style (sw_left w) (option_map (fun m => fst (fst m)) (sw_style w)).
Definition margin_right (w : shown) : float := margin_or_style (sw_right w) (option_map (fun m => snd (fst m)) (sw_style w)).
Definition margin_vert (w : shown) : float := margin_or_style (sw_vert w) (option_map snd (sw_style w)).

(* position.rs:221-231, 270-279 *)
Definition mapped (a : N) : N := if (a =? 10)%N then 4 else if (a =? 11)%N then 5 else if (a =? 12)%N then 6 else a.
Definition one_of_N (a : N) (l : list N) : bool := existsb (N.eqb a) l.
Definition within (a lo hi : N) : bool := (lo <=? a)%N && (a <=? hi)%N.
(* position.rs:161-257 *)
Definition position_from_alignment (g : stage) (w : shown) (alignment : N) : float * float :=
  let width := f_of_N f32 (st_width g) in
  let a := mapped alignment in
  let x := if one_of_N a [1; 4; 7]%N then mul32 (margin_left w) (scale_x g)
           else if one_of_N a [2; 5; 8]%N then f_div f32 width (fl 2)
           else if one_of_N a [3; 6; 9]%N then sub32 width (mul32 (margin_right w) (scale_x g))
           else f_div f32 width (fl 2) in
  let y_script := if within a 1 3 then sub32 (st_play_y g) (margin_vert w)
                  else if within a 4 6 then f_div f32 (st_play_y g) (fl 2)
                  else if within a 7 9 then margin_vert w
                  else sub32 (st_play_y g) (margin_vert w) in
  (x, mul32 y_script (scale_y g)).
(* position.rs:117-120, 128-133 *)
Definition laid_x (g : stage) (x : float) : float := match st_layout g with Some (lx, _) => mul32 x (f_div f32 (st_play_x g) lx) | None => x end.
Definition laid_y (g : stage) (y : float) : float := match st_layout g with Some (_, ly) => mul32 y (f_div f32 (st_play_y g) ly) | None => y end.
Definition alignment_of (t : tags) (default : N) : N := match tg_field t FAlignment with Some (VByte a) => a | _ => default end.
(* position.rs:142-146: the sums are u32 additions *)
Definition move_span (start fin t1 t2 : N) : option (N * N) :=
  if (t1 =? 0)%N && (t2 =? 0)%N then Some (start, fin)
  else match add_time start t1, add_time start t2 with Some a, Some b => Some (a, b) | _, _ => None end.
(* position.rs:101-159 *)
Definition position_from_tags (g : stage) (w : shown) (now : N) (default : N) (t : tags) : run (float * float) :=
  match tg_field t FPosition with
  | Some (VPoint px py) => Done (mul32 (laid_x g px) (scale_x g), mul32 (laid_y g py) (scale_y g))
  | _ =>
    match tg_field t FMovement with
    | Some (VMove x1 y1 x2 y2 t1 t2) =>
      match move_span (sw_start w) (sw_end w) t1 t2 with
      | None => Crash
      | Some (a, b) =>
        let p := move_progress now a b in
        Done (mul32 (blend_num (laid_x g x1) (laid_x g x2) p) (scale_x g), mul32 (blend_num (laid_y g y1) (laid_y g y2) p) (scale_y g))
      end
    | _ => Done (position_from_alignment g w (alignment_of t default))
    end
  end.
(* position.rs:261-309 *)
Definition alignment_offset (ax ay width height : float) (alignment : N) : float * float :=
  let a := mapped alignment in
  let x := if one_of_N a [1; 4; 7]%N then ax
           else if one_of_N a [2; 5; 8]%N then sub32 ax (f_div f32 width (fl 2))
           else if one_of_N a [3; 6; 9]%N then sub32 ax width
           else sub32 ax (f_div f32 width (fl 2)) in
  let y := if within a 1 3 then sub32 ay height
           else if within a 4 6 then sub32 ay (f_div f32 height (fl 2))
           else if within a 7 9 then ay
           else sub32 ay height in
  (x, y).

(* text/types.rs, text/mod.rs:150-164: the line a run is on; the line spacing
   multiplier is 1.0, and multiplying by it changes nothing *)
Record layout := Layout { ly_multi : bool; ly_total : float; ly_lines : N; ly_index : N; ly_height : float; ly_offset : float }.
(* a shaped run: width, height, advance and horizontal scale *)
Record shaped := Shaped { sp_tags : tags; sp_width : float; sp_height : float; sp_advance : option float; sp_scale : float }.
(* text/position.rs:76-101, 140-164 *)
Definition stacked_y (l : layout) (alignment : N) (ay : float) : float :=
  if (1 <? ly_lines l)%N then
    if within alignment 1 3 then sub32 ay (mul32 (f_of_N f32 (ly_lines l - 1 - ly_index l)) (ly_height l))
    else if within alignment 7 9 then add32 ay (ly_offset l)
    else add32 (add32 ay (f_opp (f_div f32 (mul32 (sub32 (f_of_N f32 (ly_lines l)) (fl 1)) (ly_height l)) (fl 2)))) (ly_offset l)
  else ay.
Definition is_placed (t : tags) : bool := match tg_field t FPosition, tg_field t FMovement with None, None => false | _, _ => true end.
(* text/position.rs:11-182; the pen is None until the line has started *)
Definition position_run (g : stage) (w : shown) (now default : N) (l : layout) (pen : option float) (s : shaped) : run (float * float) :=
  let a := alignment_of (sp_tags s) default in
  let width := match pen with None => if ly_multi l then ly_total l else sp_width s | Some _ => sp_width s end in
  anchor <- (if is_placed (sp_tags s) then position_from_tags g w now default (sp_tags s) else Done (position_from_alignment g w a)) ;;
  let '(ax, ay) := anchor in
  let '(x, y) := if is_placed (sp_tags s) then alignment_offset ax ay width (sp_height s) a
                 else alignment_offset ax (stacked_y l a ay) width (if (1 <? ly_lines l)%N then ly_height l else sp_height s) a in
  Done (match pen with None => x | Some p => p end, y).
(* text/mod.rs:166-323: the runs of a line, drawings left out *)
Definition advanced (x : float) (s : shaped) : float := match sp_advance s with Some adv => add32 x (mul32 adv (sp_scale s)) | None => x end.
Fixpoint position_line (g : stage) (w : shown) (now default : N) (l : layout) (pen : option float) (runs : list shaped) : run (list (float * float)) :=
  match runs with
  | [] => Done []
  | s :: r =>
    p <- position_run g w now default l pen s ;;
    rest <- position_line g w now default l (Some (advanced (fst p) s)) r ;;
    Done (p :: rest)
  end.
(* text/mod.rs:115, 325-330: where the line with a number starts *)
Fixpoint line_offset (h : float) (i : nat) : float := match i with O => fl 0 | S i => add32 (line_offset h i) h end.

(* text/mod.rs:53-57 *)
Definition wrap_style_of (segs : list segment) (script : N) : N :=
  match first_some (fun s => match tg_field (sg_tags s) FWrap with Some (VByte q) => Some q | _ => None end) segs with
  | Some q => if (q <=? 3)%N then q else script
  | None => script
  end.
(* text/mod.rs:67-71 *)
Definition available (g : stage) (w : shown) : float :=
  f_max (sub32 (f_of_N f32 (st_width g)) (mul32 (add32 (margin_left w) (margin_right w)) (scale_x g))) (fl 1).
(* position.rs:13-15; text/mod.rs:59-90 *)
Definition event_is_positioned (text : str) : bool := contains_str (lit "\pos") text || contains_str (lit "\move") text.
Definition event_lines (sh : list segment -> shaper) (g : stage) (w : shown) (text : str) (script : N) (segs : list segment) : list (list segment) :=
  let style := wrap_style_of segs script in
  let lines := split_into_lines segs in
  if negb (event_is_positioned text) && negb (style =? 2)%N
  then flat_map (fun l => wrap_segments (sh l) l (available g w) (negb (style =? 1)%N)) lines
  else lines.
