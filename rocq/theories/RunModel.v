(* Model of how a frame is built and kept: ass-renderer pipeline/build/{run,
   position,drawing,style}.rs, pipeline/build/text/{mod,defaults}.rs and
   renderer/{mod,context}.rs.  What fonts, paths and pixels are is a parameter:
   shaping, measuring, the further effects of a text, the outline of a drawing
   and compositing are functions of their arguments.  The caches of shaped text
   and of drawing paths only keep what those functions return and are left out,
   as is the loading of fonts. *)
From Verif Require Export Base ParseModel TimeModel SortLib FloatModel SegmentModel ShowModel WrapModel PlaceModel AnimModel SelectModel.
From Verif Require Import CollideModel.

(* renderer/context.rs:12-22, without the fonts *)
Record context := Context { cx_width : N; cx_height : N; cx_play : N * N; cx_storage : N * N; cx_rate : float; cx_par : float }.
(* the part of IntermediateLayer a pipeline makes; D stands for everything else in a layer *)
Inductive layer (D : Type) :=
| LText (text : str) (size x y : float) (color : rgba) (sung : option (float * k_style * rgba)) (more : D)
| LShape (color : rgba) (x y : float) (more : D).
Arguments LText {D}. Arguments LShape {D}.
(* the parameters: sin and powf; f32::to_string; HashMap::values().next();
   width, height and advance of shaped text (None is an error); the width of a
   line of several runs; the shaper of automatic wrapping; the effects of a
   text; whether drawing commands have an outline, and the rest of a drawing;
   pixels after painting layers on others (None is an error); the pixels of an
   empty frame *)
Record platform (D P : Type) := Platform {
  pf_math : math;
  pf_show : float -> str;
  pf_any : list (str * style) -> option style;
  pf_shape : str -> tags -> option style -> stage -> option (float * float * option float);
  pf_total : list segment -> option style -> stage -> float;
  pf_break : option style -> stage -> list segment -> shaper;
  pf_effects : tags -> option style -> stage -> bool -> rgba -> rgba -> D;
  pf_outline : str -> bool;
  pf_shapes : segment -> option style -> stage -> bool -> D;
  pf_over : P -> list (layer D) -> context -> option P;
  pf_blank : N -> N -> P }.
Arguments pf_math {D P}. Arguments pf_show {D P}. Arguments pf_any {D P}. Arguments pf_shape {D P}. Arguments pf_total {D P}.
Arguments pf_break {D P}. Arguments pf_effects {D P}. Arguments pf_outline {D P}. Arguments pf_shapes {D P}. Arguments pf_over {D P}. Arguments pf_blank {D P}.

(* ---- the pipeline and a script: build/mod.rs:23-103, build/run.rs:77-212 ---- *)
Record pipe := Pipe { pi_play_x : float; pi_play_y : float; pi_layout : option (float * float); pi_scaled : bool; pi_dpi : float; pi_wrap : N;
                      pi_styles : list (str * style); pi_default : option style; pi_resolver : resolver }.
(* build/mod.rs:62-81; the 0.9 is the nearest f32; resolver.rs:26-33 *)
Definition nine_tenths : float := const32 (9 # 10).
Definition new_pipe : pipe := Pipe (fl 1920) (fl 1080) None true nine_tenths 0 [] None (new_resolver (fl 1080)).
(* ass-core parser/ast/script_info/info.rs:66-68, 98-137 *)
Definition field_of (fields : list (str * str)) (key : string) : option str := option_map snd (find (fun p => str_eqb (fst p) (lit key)) fields).
Definition pair_of (fields : list (str * str)) (x y : string) : option (N * N) :=
  obind (field_of fields x) (fun a => obind (parse_u32 a) (fun a => obind (field_of fields y) (fun b => obind (parse_u32 b) (fun b => Some (a, b))))).
Definition play_resolution (fields : list (str * str)) : option (N * N) := pair_of fields "PlayResX" "PlayResY".
Definition layout_resolution (fields : list (str * str)) : option (N * N) := pair_of fields "LayoutResX" "LayoutResY".
Definition wrap_of (fields : list (str * str)) : N := match obind (field_of fields "WrapStyle") byte with Some n => n | None => 0%N end.
Definition in_f32 (p : N * N) : float * float := (f_of_N f32 (fst p), f_of_N f32 (snd p)).
(* run.rs:100-124; str::to_lowercase gives "no" for the four ASCII spellings only *)
Definition read_info (fields : list (str * str)) (p : pipe) : pipe :=
  let '(px, py) := match play_resolution fields with Some r => in_f32 r | None => (pi_play_x p, pi_play_y p) end in
  Pipe px py (match layout_resolution fields with Some r => Some (in_f32 r) | None => pi_layout p end)
       (match field_of fields "ScaledBorderAndShadow" with Some v => negb (eq_nocase v (lit "no")) | None => pi_scaled p end)
       (pi_dpi p) (wrap_of fields) (pi_styles p) (pi_default p) (pi_resolver p).
(* run.rs:127-145 *)
Definition layout_factor (play : float) (l : option float) : float :=
  match l with Some l => if f_eq l play then fl 1 else f_div f32 play l | None => fl 1 end.
Definition factors (p : pipe) : float * float :=
  (layout_factor (pi_play_x p) (option_map fst (pi_layout p)), layout_factor (pi_play_y p) (option_map snd (pi_layout p))).
(* AHashMap::insert *)
Definition insert_style (k : str) (s : style) (l : list (str * style)) : list (str * style) := (k, s) :: filter (fun e => negb (str_eqb (fst e) k)) l.
Definition style_named (l : list (str * style)) (k : str) : option style := option_map snd (find (fun e => str_eqb (fst e) k) l).
Section Platform.
  Context {D P : Type} (pf : platform D P).
  Definition rescale (k : float) (cell : str) : str := match parse_float f32 cell with Some x => pf_show pf (mul32 x k) | None => cell end.
  (* run.rs:155-193 *)
  Definition layout_style (kx ky : float) (scaled : bool) (s : style) : style :=
    if f_eq kx (fl 1) && f_eq ky (fl 1) then s
    else Style (s_name s) (s_parent s) (s_fontname s) (rescale ky (s_fontsize s)) (s_primary s) (s_secondary s) (s_outlinec s) (s_back s)
               (s_bold s) (s_italic s) (s_underline s) (s_strikeout s) (s_scale_x s) (s_scale_y s) (rescale kx (s_spacing s)) (s_angle s)
               (s_border_style s) (if scaled then rescale ky (s_outline s) else s_outline s) (if scaled then rescale ky (s_shadow s) else s_shadow s)
               (s_alignment s) (rescale kx (s_margin_l s)) (rescale kx (s_margin_r s)) (rescale ky (s_margin_v s)) (s_margin_t s) (s_margin_b s)
               (s_encoding s) (s_relative_to s) (s_span s).
  (* run.rs:150-200 *)
  Definition add_style (p : pipe) (s : style) : pipe :=
    let '(kx, ky) := factors p in
    let own := layout_style kx ky (pi_scaled p) s in
    Pipe (pi_play_x p) (pi_play_y p) (pi_layout p) (pi_scaled p) (pi_dpi p) (pi_wrap p) (insert_style (s_name s) own (pi_styles p))
         (if str_eqb (s_name s) (lit "Default") || str_eqb (s_name s) (lit "*Default") then Some own else pi_default p) (pi_resolver p).
  Definition read_section (p : pipe) (s : section) : pipe :=
    match s with
    | SInfo fields _ => read_info fields p
    | SStyles l => fold_left add_style l p
    | _ => p
    end.
  (* run.rs:77-212 *)
  Definition without_styles (p : pipe) : pipe := Pipe (pi_play_x p) (pi_play_y p) (pi_layout p) (pi_scaled p) (pi_dpi p) (pi_wrap p) [] None (pi_resolver p).
  Definition with_default (p : pipe) : pipe :=
    Pipe (pi_play_x p) (pi_play_y p) (pi_layout p) (pi_scaled p) (pi_dpi p) (pi_wrap p) (pi_styles p)
         (match pi_default p, pi_styles p with None, _ :: _ => pf_any pf (pi_styles p) | d, _ => d end) (pi_resolver p).
  Definition prepare_script (sections : list section) (p : pipe) : pipe := with_default (fold_left read_section sections (without_styles p)).

  (* ---- one event: build/run.rs:19-61, build/drawing.rs, build/text ---- *)
  Definition stage_of (p : pipe) (c : context) : stage := Stage (cx_width c) (cx_height c) (pi_play_x p) (pi_play_y p) (pi_layout p).
  Definition style_of (p : pipe) (e : event) : option style := match style_named (pi_styles p) (e_style e) with Some s => Some s | None => pi_default p end.
  (* unwrap_or; the parser itself may panic *)
  Definition time_or (d : N) (s : str) : run N := match parse_ass_time s with Ok t => Done t | Err => Done d | Panic => Crash end.
  (* build/style.rs:82-111; the hexadecimal number is a u32 *)
  Definition parse_ass_color (s : str) : rgba :=
    match strip_prefix (lit "&H") (drop_end is_amp s) with
    | Some hex => match parse_uint u32_max 16 hex with
                  | Some v => ((v mod 256)%N, (v / 256 mod 256)%N, (v / 65536 mod 256)%N, if 8 <=? blen hex then (255 - v / 16777216 mod 256)%N else 255%N)
                  | None => (255, 255, 255, 255)%N end
    | None => (255, 255, 255, 255)%N
    end.
  (* text/defaults.rs:16-74 *)
  Definition cell_num (st : option style) (cell : style -> str) (d : float) : float := match st with Some s => num_or (parse_float f32 (cell s)) d | None => d end.
  Definition cell_color (st : option style) (cell : style -> str) (d : rgba) : rgba := match st with Some s => parse_ass_color (cell s) | None => d end.
  Definition look_of (st : option style) : look :=
    Look (cell_color st s_primary (255, 255, 255, 255)%N) (cell_color st s_secondary (255, 0, 0, 255)%N)
         (cell_color st s_outlinec (0, 0, 0, 255)%N) (cell_color st s_back (0, 0, 0, 128)%N) (cell_num st s_fontsize (fl 48)).
  Definition align_of (st : option style) : N := match obind st (fun s => byte (s_alignment s)) with Some a => a | None => 2%N end.
  Definition num_field (t : tags) (f : field) (d : float) : float := match tg_field t f with Some (VNum x) => x | _ => d end.
  Definition shown_of (e : event) (st : option style) (start fin : N) : shown :=
    Shown (e_margin_l e) (e_margin_r e) (e_margin_v e) (option_map (fun s => (s_margin_l s, s_margin_r s, s_margin_v s)) st) start fin.
  (* drawing.rs:47-61 *)
  Definition drawing_color (t : tags) (st : option style) : rgba :=
    let own := match st with Some s => parse_ass_color (s_primary s) | None => (255, 255, 255, 255)%N end in
    override (or_byte (byte_of (tg_field t FAlpha1)) (byte_of (tg_field t FAlpha))) (with_alpha (color_or (tg_field t FPrimary) own) (alpha_of own)).
  (* drawing.rs:79-102: LayoutRes plays no part *)
  Definition drawing_anchor (g : stage) (w : shown) (now : N) (t : tags) : run (float * float) :=
    match tg_field t FPosition with
    | Some (VPoint px py) => Done (mul32 px (scale_x g), mul32 py (scale_y g))
    | _ =>
      match tg_field t FMovement with
      | Some (VMove x1 y1 x2 y2 t1 t2) =>
        match move_span (sw_start w) (sw_end w) t1 t2 with
        | None => Crash
        | Some (a, b) =>
          let p := move_progress now a b in
          Done (mul32 (blend_num x1 x2 p) (scale_x g), mul32 (blend_num y1 y2 p) (scale_y g))
        end
      | _ => Done (f_div f32 (f_of_N f32 (st_width g)) (fl 2), f_div f32 (f_of_N f32 (st_height g)) (fl 2))
      end
    end.
  (* drawing.rs:20-209; the place is that of the alignment point *)
  Definition process_drawing (p : pipe) (g : stage) (w : shown) (st : option style) (now : N) (s : segment) : run (list (layer D)) :=
    if pf_outline pf (sg_text s) then
      xy <- drawing_anchor g w now (sg_tags s) ;;
      Done [LShape (drawing_color (sg_tags s) st) (fst xy) (snd xy) (pf_shapes pf s st g (pi_scaled p))]
    else Done [].
  (* text/mod.rs:276-311: the progress, and the time sung so far *)
  Definition sing_run (start now acc : N) (t : tags) (second : rgba) : run (option (float * k_style * rgba) * N) :=
    match tg_field t FKaraoke with
    | Some (VKaraoke dur style _) =>
      match add_time start acc with
      | None => Crash
      | Some s => match add_time s dur with
        | None => Crash
        | Some e =>
          let p := if (now <? s)%N then fl 0 else if (e <=? now)%N then fl 1 else ratio (now - s) dur in
          match add_time acc dur with
          | None => Crash
          | Some acc => Done (Some (p, style, with_alpha (color_or (tg_field t FSecondary) second) (alpha_of second)), acc)
          end
        end
      end
    | _ => Done (None, acc)
    end.
  (* text/mod.rs:204-208 *)
  Definition font_scale (t : tags) (st : option style) (f : field) (cell : style -> str) : float := f_div f32 (num_field t f (cell_num st cell (fl 100))) (fl 100).
  Definition font_size (p : pipe) (g : stage) (st : option style) (t : tags) : float :=
    mul32 (mul32 (mul32 (num_field t FSize (lk_size (look_of st))) (scale_y g)) (font_scale t st FScaleY s_scale_y)) (pi_dpi p).
  (* text/effects.rs:199-202: \pbo, in pixels of the frame *)
  Definition raised (t : tags) (y : float) : float := match tg_field t FBaseline with Some (VNum b) => add32 y b | _ => y end.
  (* text/mod.rs:166-323; None is an error *)
  Fixpoint run_line (p : pipe) (g : stage) (w : shown) (st : option style) (now : N) (l : layout) (pen : option float) (acc : N) (segs : list segment)
    : run (option (list (layer D))) :=
    match segs with
    | [] => Done (Some [])
    | s :: r =>
      if is_drawing (sg_tags s) then
        d <- process_drawing p g w st now s ;;
        rest <- run_line p g w st now l pen acc r ;;
        Done (option_map (app d) rest)
      else
        let d := look_of st in
        t <- apply_transform_animations (pf_math pf) d (sw_start w) (sw_end w) now (sg_tags s) ;;
        match pf_shape pf (sg_text s) t st g with
        | None => Done None
        | Some (width, height, advance) =>
          let shp := Shaped t width height advance (font_scale t st FScaleX s_scale_x) in
          xy <- position_run g w now (align_of st) l pen shp ;;
          cos <- resolve_run_colors t d (sw_start w) (sw_end w) now ;;
          let '(c, o, sh) := cos in
          k <- sing_run (sw_start w) now acc t (lk_secondary d) ;;
          rest <- run_line p g w st now l (Some (advanced (fst xy) shp)) (snd k) r ;;
          Done (option_map (cons (LText (sg_text s) (font_size p g st t) (fst xy) (raised t (snd xy)) c (fst k) (pf_effects pf t st g (pi_scaled p) o sh))) rest)
        end
    end.
  (* text/mod.rs:125-330 *)
  Fixpoint run_lines (p : pipe) (g : stage) (w : shown) (st : option style) (now : N) (count : N) (height : float) (i : nat) (lines : list (list segment))
    : run (option (list (layer D))) :=
    match lines with
    | [] => Done (Some [])
    | l :: r =>
      let multi := 1 <? List.length l in
      let lay := Layout multi (if multi then pf_total pf l st g else fl 0) count (N.of_nat i) height (line_offset height i) in
      a <- run_line p g w st now lay None 0 l ;;
      match a with
      | None => Done None
      | Some a => b <- run_lines p g w st now count height (S i) r ;; Done (option_map (app a) b)
      end
    end.
  (* text/mod.rs:105-110 *)
  Definition tallest (base : float) (segs : list segment) : float :=
    fold_left f_max (flat_map (fun s => match tg_field (sg_tags s) FSize with Some (VNum x) => [x] | _ => [] end) segs) base.
  (* text/mod.rs:30-333 *)
  Definition process_text (p : pipe) (g : stage) (w : shown) (st : option style) (text : str) (now : N) (segs : list segment) : run (option (list (layer D))) :=
    let lines := event_lines (pf_break pf st g) g w text (pi_wrap p) segs in
    run_lines p g w st now (N.of_nat (List.length lines)) (mul32 (tallest (lk_size (look_of st)) (concat lines)) (scale_y g)) 0 lines.
  (* run.rs:19-61 *)
  Definition process_event (p : pipe) (c : context) (now : N) (e : event) : run (option (list (layer D))) :=
    start <- time_or 0 (e_start e) ;;
    fin <- time_or u32_max (e_end e) ;;
    segs <- segment_text (e_text e) ;;
    let st := style_of p e in
    let g := stage_of p c in
    let w := shown_of e st start fin in
    match segs with
    | None => Done None
    | Some [] => Done (Some [])
    | Some ((s :: _) as segs) =>
      if is_drawing (sg_tags s) then d <- process_drawing p g w st now s ;; Done (Some d)
      else process_text p g w st (e_text e) now segs
    end.

  (* ---- the events of a frame: build/run.rs:218-274, build/position.rs:19-86 ---- *)
  (* position.rs:57-72; the 0.01 is the nearest f32 *)
  Definition grow (dpi : float) (b : option (float * float * float * float)) (l : layer D) : option (float * float * float * float) :=
    match l with
    | LText text size x y _ _ _ =>
      let '(x0, y0, x1, y1) := match b with Some q => q | None => (f32_max, f32_max, f32_min, f32_min) end in
      let width := mul32 (mul32 (f_of_N f32 (N.of_nat (List.length text))) size) (Fin (1 # 2)) in
      Some (f_min x0 x, f_min y0 y, f_max x1 (add32 x width), f_max y1 (add32 y (f_div f32 size (f_max dpi (const32 (1 # 100))))))
    | LShape _ _ _ _ => b
    end.
  Definition bounding_box (dpi : float) (ls : list (layer D)) : option bbox :=
    match fold_left (grow dpi) ls None with
    | Some (x0, y0, x1, y1) => Some (BBox x0 y0 (sub32 x1 x0) (sub32 y1 y0))
    | None => None
    end.
  (* position.rs:76-86 *)
  Definition lower (dy : float) (l : layer D) : layer D :=
    match l with
    | LText text size x y c k m => LText text size x (add32 y dy) c k m
    | LShape c x y m => LShape c x y m
    end.
  (* position.rs:19-36 *)
  Definition in_range_1_9 (a : N) : bool := (1 <=? a)%N && (a <=? 9)%N.
  Definition written_alignment (text : str) : option N :=
    match find_str (lit "\an") text with
    | Some (_, r) => match skipn 3 r with
                     | c :: _ => if is_digit c && in_range_1_9 (c - 48)%N then Some (c - 48)%N else None
                     | [] => None end
    | None => None
    end.
  Definition effective_alignment (p : pipe) (e : event) : N :=
    match written_alignment (e_text e) with
    | Some a => a
    | None => match obind (style_named (pi_styles p) (e_style e)) (fun s => byte (s_alignment s)) with
              | Some a => if in_range_1_9 a then a else 2%N
              | None => 2%N end
    end.
  Definition layer_of (e : event) : Z := match parse_i32 (e_layer e) with Some z => z | None => 0%Z end.
  (* run.rs:232-240 *)
  Definition turn_key (e : event) : Z * N := (layer_of e, match parse_ass_time (e_start e) with Ok t => t | _ => 0%N end).
  Definition before (a b : event) : bool :=
    let '(la, sa) := turn_key a in let '(lb, sb) := turn_key b in (la <? lb)%Z || ((la =? lb)%Z && (sa <=? sb)%N).
  (* run.rs:251-268 *)
  Definition settle (p : pipe) (r : resolver) (e : event) (ls : list (layer D)) : run (resolver * list (layer D)) :=
    if event_is_positioned (e_text e) then Done (r, ls)
    else match bounding_box (pi_dpi p) ls with
         | None => Done (r, ls)
         | Some b => match find_position r (Placed b (layer_of e) (effective_alignment p e) 0) with
                     | None => Crash
                     | Some (r, b') => let dy := sub32 (b_y b') (b_y b) in
                                       Done (r, if f_lt (Fin (1 # 2)) (f_abs dy) then map (lower dy) ls else ls)
                     end
         end.
  Fixpoint run_events (p : pipe) (c : context) (now : N) (r : resolver) (events : list event) : run (option (list (layer D))) :=
    match events with
    | [] => Done (Some [])
    | e :: rest =>
      ls <- process_event p c now e ;;
      match ls with
      | None => Done None
      | Some ls =>
        q <- settle p r e ls ;;
        more <- run_events p c now (fst q) rest ;;
        Done (option_map (app (snd q)) more)
      end
    end.
  (* run.rs:218-274; the events left by an earlier frame are forgotten *)
  Definition process_events (p : pipe) (c : context) (now : N) (events : list event) : run (option (list (layer D))) :=
    run_events p c now (clear_placed (pi_resolver p)) (stable_sort before events).
  (* run.rs:276-298 *)
  Definition on_at (start fin t : N) : bool := (start <=? t)%N && (t <? fin)%N.
  Fixpoint dirty_regions (events : list event) (now prev : N) : run (list region) :=
    match events with
    | [] => Done []
    | e :: r =>
      start <- time_or 0 (e_start e) ;;
      fin <- time_or u32_max (e_end e) ;;
      if Bool.eqb (on_at start fin prev) (on_at start fin now) then dirty_regions r now prev else Done [full_screen]
    end.

  (* ---- the renderer: renderer/mod.rs ---- *)
  Record frame := Frame { fr_pixels : P; fr_width : N; fr_height : N; fr_time : N }.
  (* a parsed script in memory: the address of its events and of the text of each *)
  Record loaded := Loaded { ld_address : N; ld_text_at : event -> N; ld_sections : list section }.
  Record renderer := Renderer { rn_context : context; rn_pipe : pipe; rn_selector : selector; rn_cache : option (list (N * nat) * frame) }.
  (* mod.rs:41-72 *)
  Definition new_renderer (c : context) : renderer := Renderer c new_pipe new_selector None.
  (* mod.rs:85-95 *)
  Definition first_info (sections : list section) : option (list (str * str)) :=
    match find (fun s => match s with SInfo _ _ => true | _ => false end) sections with Some (SInfo f _) => Some f | _ => None end.
  Definition read_context (sections : list section) (c : context) : context :=
    match first_info sections with
    | Some f => Context (cx_width c) (cx_height c) (match play_resolution f with Some r => r | None => cx_play c end)
                        (match layout_resolution f with Some r => r | None => cx_storage c end) (cx_rate c) (cx_par c)
    | None => c
    end.
  (* mod.rs:188-194 *)
  Definition event_is_animated (text : str) : bool :=
    contains_str (lit "\t") text || contains_str (lit "\move") text || contains_str (lit "\fad") text || contains_str (lit "\k") text || contains_str (lit "\K") text.
  Definition key_of (s : loaded) (events : list event) : list (N * nat) := map (fun e => (ld_text_at s e, blen (e_text e))) events.
  Fixpoint keys_eqb (a b : list (N * nat)) : bool :=
    match a, b with
    | [], [] => true
    | (x, n) :: a, (y, m) :: b => (x =? y)%N && (n =? m) && keys_eqb a b
    | _, _ => false
    end.
  Definition retimed (f : frame) (t : N) : frame := Frame (fr_pixels f) (fr_width f) (fr_height f) t.
  (* mod.rs:97-98 *)
  Definition select (shuffle : list entry -> list entry) (r : renderer) (s : loaded) (t : N) : run (selector * list event) :=
    a <- select_active shuffle (rn_selector r) (ld_address s) (ld_sections s) t ;; Done (fst a, ac_events (snd a)).
  (* backends/software/mod.rs:169-189 *)
  Definition composite (ls : list (layer D)) (c : context) : option P := pf_over pf (pf_blank pf (cx_width c) (cx_height c)) ls c.
  (* mod.rs:83-144; the frame is None for an error *)
  Definition render_frame (shuffle : list entry -> list entry) (r : renderer) (s : loaded) (t : N) : run (renderer * option frame) :=
    let c := read_context (ld_sections s) (rn_context r) in
    found <- select shuffle r s t ;;
    let '(sel, events) := found in
    match events with
    | [] => Done (Renderer c (rn_pipe r) sel (rn_cache r), Some (Frame (pf_blank pf (cx_width c) (cx_height c)) (cx_width c) (cx_height c) t))
    | _ =>
      let key := if existsb (fun e => event_is_animated (e_text e)) events then None else Some (key_of s events) in
      match (match key, rn_cache r with Some k, Some (k', f) => if keys_eqb k' k then Some f else None | _, _ => None end) with
      | Some f => Done (Renderer c (rn_pipe r) sel (rn_cache r), Some (retimed f t))
      | None =>
        let p := prepare_script (ld_sections s) (rn_pipe r) in
        ls <- process_events p c t events ;;
        match obind ls (fun ls => composite ls c) with
        | None => Done (Renderer c p sel (rn_cache r), None)
        | Some px => let f := Frame px (cx_width c) (cx_height c) t in
                     Done (Renderer c p sel (option_map (fun k => (k, f)) key), Some f)
        end
      end
    end.
  (* backends/software/mod.rs:199-232: the pixels of a frame are four bytes each;
     the only region there can be is the full screen, which every layer meets *)
  Definition composite_over (prev : frame) (ls : list (layer D)) (c : context) : option P :=
    pf_over pf (if (fr_width prev * fr_height prev =? cx_width c * cx_height c)%N then fr_pixels prev else pf_blank pf (cx_width c) (cx_height c)) ls c.
  (* mod.rs:197-230 *)
  Definition render_incremental (shuffle : list entry -> list entry) (r : renderer) (s : loaded) (t : N) (prev : frame) : run (renderer * option frame) :=
    found <- select shuffle r s t ;;
    let '(sel, events) := found in
    dirty <- dirty_regions events t (fr_time prev) ;;
    match dirty with
    | [] => Done (Renderer (rn_context r) (rn_pipe r) sel (rn_cache r), Some prev)
    | _ =>
      let p := prepare_script (ld_sections s) (rn_pipe r) in
      ls <- process_events p (rn_context r) t events ;;
      match obind ls (fun ls => composite_over prev ls (rn_context r)) with
      | None => Done (Renderer (rn_context r) p sel (rn_cache r), None)
      | Some px => Done (Renderer (rn_context r) p sel (rn_cache r), Some (Frame px (cx_width (rn_context r)) (cx_height (rn_context r)) t))
      end
    end.
  (* mod.rs:244-256 *)
  Definition set_context (r : renderer) (c : context) : renderer := Renderer c (rn_pipe r) (rn_selector r) (rn_cache r).
  (* a history of calls with the frames it gives *)
  Inductive render_op := Render (s : loaded) (t : N) | UseContext (c : context).
  Fixpoint renders (shuffle : list entry -> list entry) (r : renderer) (ops : list render_op) : run (renderer * list (option frame)) :=
    match ops with
    | [] => Done (r, [])
    | Render s t :: rest => a <- render_frame shuffle r s t ;; b <- renders shuffle (fst a) rest ;; Done (fst b, snd a :: snd b)
    | UseContext c :: rest => renders shuffle (set_context r c) rest
    end.
End Platform.
