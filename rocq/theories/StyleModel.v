(* Model of ass-core analysis/styles: resolved_style/{parsing,from_style,
   inheritance,scaling}.rs and analyzer/{dependency,analysis,checks,accessors}.rs.
   Simplifications: the texts of issues and conflicts are their constructors;
   the children and the circular flag of StyleInheritance, which nothing sets,
   are left out. *)
From Verif Require Export Base ParseModel ColorModel FloatModel MapLib.

(* ---- resolved_style/parsing.rs ---- *)
Notation f32_of := (f_of_Z f32).
(* 47-51 *)
Definition style_float (s : str) : res float := of_opt (parse_float f32 s).
(* 9-16 *)
Definition parse_font_size (s : str) : res float :=
  res_bind (style_float s) (fun x => if f_le x (f32_of 0) || f_lt (f32_of 1000) x then Err else Ok x).
(* 19-25 *)
Definition parse_color_with_default (s : str) : res rgba :=
  match trim s with [] => Ok (255, 255, 255, 255)%N | _ => parse_bgr_color s end.
(* 28-34 *)
Definition parse_bool_flag (s : str) : res bool :=
  if str_eqb s (lit "0") then Ok false else if str_eqb s (lit "1") then Ok true else Err.
(* 37-44 *)
Definition parse_percentage (s : str) : res float :=
  res_bind (style_float s) (fun x => if f_le (f32_of 0) x && f_le x (f32_of 1000) then Ok x else Err).
(* 54-65 *)
Definition parse_u8 (s : str) : res N := of_opt (parse_uint 255 10 s).
Definition parse_u16 (s : str) : res N := of_opt (parse_uint 65535 10 s).

(* ---- resolved_style/mod.rs:60-108; the four flags of TextFormatting ---- *)
Record resolved := Resolved {
  rs_name : str; rs_font : str; rs_size : float;
  rs_primary : rgba; rs_secondary : rgba; rs_outlinec : rgba; rs_back : rgba;
  rs_bold : bool; rs_italic : bool; rs_underline : bool; rs_strike : bool;
  rs_scale_x : float; rs_scale_y : float; rs_spacing : float; rs_angle : float;
  rs_border_style : N; rs_outline : float; rs_shadow : float; rs_alignment : N;
  rs_margin_l : N; rs_margin_r : N; rs_margin_t : N; rs_margin_b : N; rs_encoding : N;
  rs_complexity : N }.

(* ---- resolved_style/scaling.rs ---- *)
(* the constant 0.001, an f32 *)
Definition epsilon : float := match parse_float f32 (lit "0.001") with Some x => x | None => NaN end.
(* u8 additions; None is the overflow *)
Definition u8_add (o : option N) (n : N) : option N :=
  match o with Some a => if (255 <? a + n)%N then None else Some (a + n)%N | None => None end.
(* 45-89; the fields that are looked at *)
Definition calculate_complexity (r : resolved) : option N :=
  let s := Some 0%N in
  let s := if f_lt (f32_of 72) (rs_size r) then u8_add s 20 else if f_lt (f32_of 48) (rs_size r) then u8_add s 10 else s in
  let s := if f_lt (f32_of 4) (rs_outline r) then u8_add s 15 else if f_lt (f32_of 2) (rs_outline r) then u8_add s 8 else s in
  let s := if f_lt (f32_of 3) (rs_shadow r) then u8_add s 10 else if f_lt (f32_of 1) (rs_shadow r) then u8_add s 5 else s in
  let s := if f_lt epsilon (f_abs (f_sub f32 (rs_scale_x r) (f32_of 100))) || f_lt epsilon (f_abs (f_sub f32 (rs_scale_y r) (f32_of 100)))
           then u8_add s 10 else s in
  let s := if f_lt epsilon (f_abs (rs_angle r)) then u8_add s 15 else s in
  let s := if rs_bold r then u8_add s 2 else s in
  let s := if rs_italic r then u8_add s 2 else s in
  let s := if rs_underline r || rs_strike r then u8_add s 5 else s in
  option_map (N.min 100) s.
Definition with_complexity (r : resolved) : res resolved :=
  match calculate_complexity r with
  | Some c => Ok (Resolved (rs_name r) (rs_font r) (rs_size r) (rs_primary r) (rs_secondary r) (rs_outlinec r) (rs_back r)
      (rs_bold r) (rs_italic r) (rs_underline r) (rs_strike r) (rs_scale_x r) (rs_scale_y r) (rs_spacing r) (rs_angle r)
      (rs_border_style r) (rs_outline r) (rs_shadow r) (rs_alignment r) (rs_margin_l r) (rs_margin_r r) (rs_margin_t r) (rs_margin_b r)
      (rs_encoding r) c)
  | None => Panic
  end.
(* 34-37: (f32::from(margin) * scale) as u16 *)
Definition scale_margin (m : N) (scale : float) : N := f_to_N 65535 (f_mul f32 (f_of_N f32 m) scale).
(* 19-42 *)
Definition apply_resolution_scaling (sx sy : float) (r : resolved) : res resolved :=
  let avg := f_div f32 (f_add f32 sx sy) (f32_of 2) in
  with_complexity (Resolved (rs_name r) (rs_font r) (f_mul f32 (rs_size r) avg) (rs_primary r) (rs_secondary r) (rs_outlinec r) (rs_back r)
      (rs_bold r) (rs_italic r) (rs_underline r) (rs_strike r) (rs_scale_x r) (rs_scale_y r) (f_mul f32 (rs_spacing r) sx) (rs_angle r)
      (rs_border_style r) (f_mul f32 (rs_outline r) avg) (f_mul f32 (rs_shadow r) avg) (rs_alignment r)
      (scale_margin (rs_margin_l r) sx) (scale_margin (rs_margin_r r) sx) (scale_margin (rs_margin_t r) sy) (scale_margin (rs_margin_b r) sy)
      (rs_encoding r) (rs_complexity r)).

Notation "x <~ e ; f" := (res_bind e (fun x => f)) (at level 61, e at next level, right associativity).
(* ---- resolved_style/from_style.rs:43-124 ---- *)
Definition from_style (s : style) : res resolved :=
  let font := match s_fontname s with [] => lit "Arial" | n => n end in
  size <~ parse_font_size (s_fontsize s);
  primary <~ parse_color_with_default (s_primary s);
  secondary <~ parse_color_with_default (s_secondary s);
  outlinec <~ parse_color_with_default (s_outlinec s);
  back <~ parse_color_with_default (s_back s);
  bold <~ parse_bool_flag (s_bold s);
  italic <~ parse_bool_flag (s_italic s);
  underline <~ parse_bool_flag (s_underline s);
  strike <~ parse_bool_flag (s_strikeout s);
  sx <~ parse_percentage (s_scale_x s);
  sy <~ parse_percentage (s_scale_y s);
  spacing <~ style_float (s_spacing s);
  angle <~ style_float (s_angle s);
  border <~ parse_u8 (s_border_style s);
  outline <~ style_float (s_outline s);
  shadow <~ style_float (s_shadow s);
  align <~ parse_u8 (s_alignment s);
  ml <~ parse_u16 (s_margin_l s);
  mr <~ parse_u16 (s_margin_r s);
  tb <~ match s_margin_t s, s_margin_b s with
        | Some t, Some b => t' <~ parse_u16 t; b' <~ parse_u16 b; Ok (t', b')
        | _, _ => v <~ parse_u16 (s_margin_v s); Ok (v, v)
        end;
  enc <~ parse_u8 (s_encoding s);
  with_complexity (Resolved (s_name s) font size primary secondary outlinec back bold italic underline strike sx sy spacing angle
    border outline shadow align ml mr (fst tb) (snd tb) enc 0).

(* ---- resolved_style/inheritance.rs:29-156 ---- *)
Definition is_nil (s : str) : bool := match s with [] => true | _ => false end.
(* a field that is inherited when empty, or when equal to a default *)
Definition own {A} (f : str) (parent : A) (parse : str -> res A) : res A := if is_nil f then Ok parent else parse f.
Definition own_unless {A} (f : str) (default : string) (parent : A) (parse : str -> res A) : res A :=
  if is_nil f || str_eqb f (lit default) then Ok parent else parse f.
(* 63-69 and the like *)
Definition own_flag (f : str) (parent : bool) : bool :=
  if str_eqb f (lit "0") then false else if str_eqb f (lit "1") then true else parent.
Definition from_style_with_parent (s : style) (p : resolved) : res resolved :=
  let font := if is_nil (s_fontname s) then rs_font p else s_fontname s in
  size <~ own_unless (s_fontsize s) "0" (rs_size p) parse_font_size;
  primary <~ own (s_primary s) (rs_primary p) parse_color_with_default;
  secondary <~ own (s_secondary s) (rs_secondary p) parse_color_with_default;
  outlinec <~ own (s_outlinec s) (rs_outlinec p) parse_color_with_default;
  back <~ own (s_back s) (rs_back p) parse_color_with_default;
  sx <~ own_unless (s_scale_x s) "100" (rs_scale_x p) parse_percentage;
  sy <~ own_unless (s_scale_y s) "100" (rs_scale_y p) parse_percentage;
  spacing <~ own_unless (s_spacing s) "0" (rs_spacing p) style_float;
  angle <~ own_unless (s_angle s) "0" (rs_angle p) style_float;
  border <~ own (s_border_style s) (rs_border_style p) parse_u8;
  outline <~ own_unless (s_outline s) "0" (rs_outline p) style_float;
  shadow <~ own_unless (s_shadow s) "0" (rs_shadow p) style_float;
  align <~ own (s_alignment s) (rs_alignment p) parse_u8;
  ml <~ own (s_margin_l s) (rs_margin_l p) parse_u16;
  mr <~ own (s_margin_r s) (rs_margin_r p) parse_u16;
  tb <~ match s_margin_t s, s_margin_b s with
        | Some t, Some b => t' <~ own t (rs_margin_t p) parse_u16; b' <~ own b (rs_margin_b p) parse_u16; Ok (t', b')
        | _, _ => own_unless (s_margin_v s) "0" (rs_margin_t p, rs_margin_b p) (fun v => v' <~ parse_u16 v; Ok (v', v'))
        end;
  enc <~ own (s_encoding s) (rs_encoding p) parse_u8;
  with_complexity (Resolved (s_name s) font size primary secondary outlinec back
    (own_flag (s_bold s) (rs_bold p)) (own_flag (s_italic s) (rs_italic p)) (own_flag (s_underline s) (rs_underline p)) (own_flag (s_strikeout s) (rs_strike p))
    sx sy spacing angle border outline shadow align ml mr (fst tb) (snd tb) enc 0).

(* ---- analyzer ---- *)
(* validation/conflict.rs:38-104, the ones the analyzer makes *)
Inductive conflict := DuplicateName (names : list str) | CircularInheritance (names : list str) | MissingParent (name parent : str).
(* validation/inheritance.rs:9-48 *)
Record inheritance := Inheritance { ih_name : str; ih_parents : list str; ih_depth : nat }.
(* analyzer/types.rs:19-30, 55-73 *)
Record options := Options { op_inheritance : bool; op_conflicts : bool; op_performance : bool; op_validation : bool; op_strict : bool }.
Record config := Config { cf_options : options; cf_large_font : float }.
Definition default_config : config := Config (Options true true true true false) (f32_of 50).

Definition memb (x : str) (l : list str) : bool := existsb (str_eqb x) l.
Definition deps := smap (list str).
(* dependency.rs:21-31 *)
Definition style_map (l : list style) : smap style := fold_left (fun m s => sm_insert (s_name s) s m) l [].
Definition no_deps (l : list style) : deps := fold_left (fun m s => sm_insert (s_name s) [] m) l [].
Definition no_degrees (l : list style) : smap nat := fold_left (fun m s => sm_insert (s_name s) 0 m) l [].
(* a BTreeSet of names, as a map *)
Definition set_insert (x : str) (l : list str) : list str := sm_keys (sm_insert x tt (map (fun y => (y, tt)) l)).
(* dependency.rs:34-63; None is the panic of unwrap *)
Record links := Links { lk_deps : deps; lk_degree : smap nat; lk_conflicts : list conflict; lk_info : smap inheritance }.
Definition link_style (inherit : bool) (known : smap style) (k : links) (s : style) : option links :=
  match s_parent s with
  | Some p =>
    if sm_has p known then
      match sm_get (s_name s) (lk_deps k), sm_get p (lk_degree k) with
      | Some ps, Some d =>
        let info := if inherit then sm_insert (s_name s) (Inheritance (match sm_get (s_name s) (lk_info k) with Some i => ih_name i | None => s_name s end) [p] 1) (lk_info k) else lk_info k in
        Some (Links (sm_insert (s_name s) (set_insert p ps) (lk_deps k)) (sm_insert p (S d) (lk_degree k)) (lk_conflicts k) info)
      | _, _ => None
      end
    else Some (Links (lk_deps k) (lk_degree k) (lk_conflicts k ++ [MissingParent (s_name s) p]) (lk_info k))
  | None => Some (Links (lk_deps k) (lk_degree k) (lk_conflicts k) (if inherit then sm_insert (s_name s) (Inheritance (s_name s) [] 0) (lk_info k) else lk_info k))
  end.
Fixpoint link_all (inherit : bool) (known : smap style) (k : links) (l : list style) : option links :=
  match l with
  | [] => Some k
  | s :: r => match link_style inherit known k s with Some k' => link_all inherit known k' r | None => None end
  end.

(* dependency.rs:128-151: whether a cycle was met, and the visited set and the
   stack afterwards.  The recursion gets a step per visited name. *)
Definition drop (x : str) (l : list str) : list str := filter (fun y => negb (str_eqb x y)) l.
Fixpoint dfs (fuel : nat) (d : deps) (node : str) (visited stack : list str) : run (bool * list str * list str) :=
  match fuel with
  | O => Stuck
  | S f =>
    let visited := node :: visited in
    let stack := node :: stack in
    (fix go (ns : list str) (visited stack : list str) : run (bool * list str * list str) :=
       match ns with
       | [] => Done (false, visited, drop node stack)
       | n :: r =>
         if negb (memb n visited) then
           x <- dfs f d n visited stack ;;
           let '(b, visited, stack) := x in
           if (b : bool) then Done (true, visited, stack) else go r visited stack
         else if memb n stack then Done (true, visited, stack)
         else go r visited stack
       end) (match sm_get node d with Some ns => ns | None => [] end) visited stack
  end.
(* dependency.rs:112-125 *)
Fixpoint any_cycle (fuel : nat) (d : deps) (nodes visited stack : list str) : run bool :=
  match nodes with
  | [] => Done false
  | n :: r =>
    if memb n visited then any_cycle fuel d r visited stack
    else
      x <- dfs fuel d n visited stack ;;
      let '(b, visited, stack) := x in
      if (b : bool) then Done true else any_cycle fuel d r visited stack
  end.
Definition has_circular_dependency (d : deps) : run bool := any_cycle (S (List.length d)) d (sm_keys d) [] [].

(* dependency.rs:90-99: the dependents of a popped name; [queue] ends with the
   name popped next *)
Fixpoint release (current : str) (ds : deps) (degree : smap nat) (queue : list str) : smap nat * list str :=
  match ds with
  | [] => (degree, queue)
  | (child, parents) :: r =>
    if memb current parents then
      match sm_get child degree with
      | Some n => release current r (sm_insert child (pred n) degree) (if Nat.eqb (pred n) 0 then queue ++ [child] else queue)
      | None => release current r degree queue
      end
    else release current r degree queue
  end.
(* dependency.rs:84-100 *)
Fixpoint order_loop (fuel : nat) (known : smap style) (d : deps) (degree : smap nat) (queue : list str) (result : list style) : run (list style) :=
  match fuel with
  | O => Stuck
  | S f =>
    match rev queue with
    | [] => Done result
    | current :: rest =>
      let result := match sm_get current known with Some s => result ++ [s] | None => result end in
      let (degree, queue) := release current d degree (rev rest) in
      order_loop f known d degree queue result
    end
  end.
(* dependency.rs:78-82 *)
Definition ready (degree : smap nat) : list str := map fst (filter (fun e => Nat.eqb (snd e) 0) degree).
(* dependency.rs:16-109: the order, if any, with the conflicts and the
   inheritance information *)
Definition build_dependency_order (inherit : bool) (l : list style) : run (option (list style) * list conflict * smap inheritance) :=
  let known := style_map l in
  match link_all inherit known (Links (no_deps l) (no_degrees l) [] []) l with
  | None => Crash
  | Some k =>
    c <- has_circular_dependency (lk_deps k) ;;
    if (c : bool) then Done (None, lk_conflicts k ++ [CircularInheritance (sm_keys (lk_deps k))], lk_info k)
    else
      result <- order_loop (S (List.length l)) known (lk_deps k) (lk_degree k) (ready (lk_degree k)) [] ;;
      Done (if Nat.eqb (List.length result) (List.length l) then Some result else None, lk_conflicts k, lk_info k)
  end.

(* checks.rs:30-43 *)
Definition name_counts (l : list style) : smap (list str) := fold_left (fun m s => sm_update (s_name s) [] (fun x => x ++ [s_name s]) m) l [].
Definition duplicate_conflicts (l : list style) : list conflict :=
  flat_map (fun e : str * list str => if Nat.ltb 1 (List.length (snd e)) then [DuplicateName (snd e)] else []) (name_counts l).

(* analysis.rs:49-57 and 82-88; a failing style is skipped, a panic is not *)
Definition keep (scaling : option (float * float)) (name : str) (r : res resolved) (m : smap resolved) : res (smap resolved) :=
  match r with
  | Ok x =>
    match scaling with
    | Some (sx, sy) => y <~ apply_resolution_scaling sx sy x; Ok (sm_insert name y m)
    | None => Ok (sm_insert name x m)
    end
  | Err => Ok m
  | Panic => Panic
  end.
(* analysis.rs:49-57 *)
Fixpoint resolve_plain (scaling : option (float * float)) (l : list style) (m : smap resolved) : res (smap resolved) :=
  match l with
  | [] => Ok m
  | s :: r => m' <~ keep scaling (s_name s) (from_style s) m; resolve_plain scaling r m'
  end.
(* analysis.rs:69-90 *)
Fixpoint resolve_inherited (scaling : option (float * float)) (l : list style) (m : smap resolved) : res (smap resolved) :=
  match l with
  | [] => Ok m
  | s :: r =>
    let x := match s_parent s with
      | Some p => match sm_get p m with Some q => from_style_with_parent s q | None => from_style s end
      | None => from_style s
      end in
    m' <~ keep scaling (s_name s) x m; resolve_inherited scaling r m'
  end.
(* ast/script_info/info.rs:98-119; SectionType lookups take the first field *)
Definition field_u32 (name : string) (fields : list (str * str)) : option N :=
  match find (fun kv : str * str => str_eqb (fst kv) (lit name)) fields with
  | Some kv => parse_u32 (snd kv)
  | None => None
  end.
(* analysis.rs:14-38 *)
Definition resolution_scaling (sections : list section) : option (float * float) :=
  match find (fun s => match s with SInfo _ _ => true | _ => false end) sections with
  | Some (SInfo f _) =>
    match field_u32 "LayoutResX" f, field_u32 "LayoutResY" f, field_u32 "PlayResX" f, field_u32 "PlayResY" f with
    | Some lx, Some ly, Some px, Some py =>
      if (negb (lx =? px) || negb (ly =? py))%N
      then Some (f_div f32 (f_of_N f32 px) (f_of_N f32 lx), f_div f32 (f_of_N f32 py) (f_of_N f32 ly))
      else None
    | _, _, _, _ => None
    end
  | _ => None
  end.
(* types.rs:38-51 *)
Record analysis := Analysis { an_resolved : smap resolved; an_info : smap inheritance; an_conflicts : list conflict; an_config : config; an_scaling : option (float * float) }.
(* the styles of the first such section: analysis.rs:42-43, checks.rs:20-27 *)
Definition extract_styles (sections : list section) : option (list style) :=
  match find (fun s => match s with SStyles _ => true | _ => false end) sections with
  | Some (SStyles l) => Some l
  | _ => None
  end.
Definition of_res {A} (r : res A) : run A := match r with Ok a => Done a | _ => Crash end.
(* analysis.rs:41-66, accessors.rs:26-39 *)
Definition analyze_styles (cfg : config) (sections : list section) : run analysis :=
  let scaling := resolution_scaling sections in
  match extract_styles sections with
  | None => Done (Analysis [] [] [] cfg scaling)
  | Some l =>
    x <- build_dependency_order (op_inheritance (cf_options cfg)) l ;;
    let '(order, conflicts, info) := x in
    m <- of_res (match order with Some o => resolve_inherited scaling o [] | None => resolve_plain scaling l [] end) ;;
    Done (Analysis m info (conflicts ++ (if op_conflicts (cf_options cfg) then duplicate_conflicts l else [])) cfg scaling)
  end.
(* accessors.rs:43-45 *)
Definition resolve_style (a : analysis) (name : str) : option resolved := sm_get name (an_resolved a).
(* checks.rs:46-98; the four issues *)
Inductive style_issue := SizeNotPositive | SizeVeryLarge | SizeLarge | TooComplex.
(* accessors.rs:67-81, resolved_style/accessors.rs:35-37 *)
Definition style_issues (cfg : config) (r : resolved) : list style_issue :=
  let o := cf_options cfg in
  (if op_validation o then
     (if f_le (rs_size r) (f32_of 0) then [SizeNotPositive] else []) ++
     (if op_strict o && f_lt (f32_of 200) (rs_size r) then [SizeVeryLarge] else [])
   else []) ++
  (if op_performance o then
     (if f_lt (cf_large_font cfg) (rs_size r) then [SizeLarge] else []) ++
     (if (70 <? rs_complexity r)%N then [TooComplex] else [])
   else []).
Definition validate_styles (a : analysis) : list style_issue := flat_map (fun e : str * resolved => style_issues (an_config a) (snd e)) (an_resolved a).
