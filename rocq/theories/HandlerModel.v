(* Model of the built-in tag handlers and section processors:
   crates/ass-core/plugin/tags and plugin/sections.  Registration is
   PluginModel; each handler here is its name, `validate` and `process`, with a
   panic of a slice as the value Panic. *)
From Verif Require Import Base BaseLemmas FloatModel ParseModel.
From Verif Require PluginModel TagModel.
Local Open Scope string_scope.
Local Open Scope nat_scope.
Local Open Scope list_scope.
Notation Processed := PluginModel.Processed.
Notation Ignored := PluginModel.Ignored.
Notation Failed := PluginModel.Failed.
Notation verdict := PluginModel.verdict.

(* traits.rs:35-54 *)
Record handler := Handler { h_name : str; h_validate : str -> res bool; h_process : str -> res verdict }.
Definition is_nil {A} (l : list A) : bool := match l with [] => true | _ => false end.
Definition of_bool (msg : str) (b : bool) : verdict := if b then Processed else Failed msg.
(* `if self.validate(args) { Processed } else { Failed(..) }` *)
Definition by_validate (msg : str) (v : str -> res bool) (args : str) : res verdict := res_bind (v args) (fun b => Ok (of_bool msg b)).
Definition one_of (l : list string) (s : str) : bool := existsb (fun w => str_eqb s (lit w)) l.

(* clip_handler.rs:64-95, misc/validation.rs:8-39, position/validation.rs:9-40
   and transform/validation.rs:15-42, which are the same code.  i counts
   characters, len is in bytes. *)
Fixpoint numeric_loop (len start i : nat) (rest : str) (has_decimal : bool) : bool :=
  match rest with
  | [] => true
  | c :: r =>
    if is_digit c then numeric_loop len start (S i) r has_decimal
    else if (c =? 46)%N then
      if has_decimal || (i =? start) || (i =? len - 1) then false else numeric_loop len start (S i) r true
    else false
  end.
Definition is_numeric (s : str) : bool :=
  match s with
  | [] => false
  | first :: _ =>
    let has_sign := (first =? 45)%N || (first =? 43)%N in
    if has_sign && (blen s =? 1) then false
    else let start := if has_sign then 1 else 0 in numeric_loop (blen s) start start (skipn start s) false
  end.
(* transform/validation.rs:9-42 *)
Definition validate_numeric_arg (args : str) : bool := is_numeric (trim args).
(* content.split(',').map(str::trim) *)
Definition comma_parts (s : str) : list str := map trim (split_on is_comma s).
(* `!args.starts_with('(') || !args.ends_with(')')` and `&args[1..args.len() - 1]` *)
Definition in_parens (args : str) (k : str -> bool) : res bool :=
  if negb (starts_with [40%N] args) || negb (ends_with [41%N] args) then Ok false
  else res_bind (or_panic (slice args 1 (blen args - 1))) (fun content => Ok (k content)).
Definition is_some {A} (o : option A) : bool := match o with Some _ => true | None => false end.

(* ---- tags/alignment/handlers.rs ---- *)
(* 32-37 *)
Definition a_validate (args : str) : res bool := Ok (one_of ["1"; "2"; "3"; "5"; "6"; "7"; "9"; "10"; "11"] (trim args)).
Definition a_handler := Handler (lit "a") a_validate (by_validate (lit "Alignment tag requires valid alignment code (1-11)") a_validate).
(* 63-68 *)
Definition an_validate (args : str) : res bool := Ok (one_of ["1"; "2"; "3"; "4"; "5"; "6"; "7"; "8"; "9"] (trim args)).
Definition an_handler := Handler (lit "an") an_validate (by_validate (lit "Numpad alignment tag requires value 1-9") an_validate).
(* 93-95 *)
Definition q_validate (args : str) : res bool := Ok (one_of ["0"; "1"; "2"; "3"] (trim args)).
Definition q_handler := Handler (lit "q") q_validate (by_validate (lit "Wrapping style tag requires value 0-3") q_validate).
(* alignment/mod.rs:42-48 *)
Definition create_alignment_handlers := [a_handler; an_handler; q_handler].

(* ---- tags/special/handlers.rs ---- *)
Definition no_args (args : str) : bool := is_nil (trim args).
(* 20-30, 43-53, 66-76 *)
Definition bare (name msg : string) : handler := Handler (lit name) (fun args => Ok (no_args args)) (fun args => Ok (of_bool (lit msg) (no_args args))).
Definition n_handler := bare "n" "Line break tag takes no arguments".
Definition hard_n_handler := bare "N" "Line break tag takes no arguments".
Definition h_handler := bare "h" "Hard space tag takes no arguments".
Definition create_special_handlers := [n_handler; hard_n_handler; h_handler].

(* ---- tags/clipping/clip_handler.rs ---- *)
(* 32-59 *)
Definition draws (c : char) : bool := existsb (N.eqb c) (lit "mnlbspc").
Definition clip_validate (args : str) : res bool :=
  in_parens (trim args) (fun inside =>
    let content := trim inside in
    if is_nil content then false
    else
      let parts := comma_parts content in
      if List.length parts =? 4 then forallb is_numeric parts else existsb draws content).
Definition clip_handler := Handler (lit "clip") clip_validate (by_validate (lit "Clip tag requires (x1,y1,x2,y2) or ([scale,]drawing commands)") clip_validate).
Definition create_clipping_handlers := [clip_handler].

(* ---- tags/font/font_handlers.rs ---- *)
(* 20-31 *)
Definition fn_handler := Handler (lit "fn") (fun args => Ok (negb (is_nil (trim args))))
  (fun args => Ok (if is_nil (trim args) then Failed (lit "Font name tag requires a font name") else Processed)).
(* 52-60 *)
Definition fs_validate (args : str) : res bool :=
  let args := trim args in
  Ok (if is_nil args then false else match parse_float f32 args with Some size => f_lt (Fin 0) size | None => false end).
Definition fs_handler := Handler (lit "fs") fs_validate (by_validate (lit "Font size tag requires positive numeric size") fs_validate).
(* 81-89 *)
Definition fe_validate (args : str) : res bool := let args := trim args in Ok (if is_nil args then false else is_some (parse_u32 args)).
Definition fe_handler := Handler (lit "fe") fe_validate (by_validate (lit "Font encoding tag requires numeric charset") fe_validate).
Definition create_font_handlers := [fn_handler; fs_handler; fe_handler].

(* ---- tags/transform/{rotation,scale,shear,spacing}_handlers.rs ---- *)
Definition numeric (name msg : string) : handler := Handler (lit name) (fun args => Ok (validate_numeric_arg args)) (fun args => Ok (of_bool (lit msg) (validate_numeric_arg args))).
Definition frz_handler := numeric "frz" "Rotation tag requires numeric degrees".
Definition frx_handler := numeric "frx" "Rotation tag requires numeric degrees".
Definition fry_handler := numeric "fry" "Rotation tag requires numeric degrees".
Definition fscx_handler := numeric "fscx" "Scale tag requires numeric percent".
Definition fscy_handler := numeric "fscy" "Scale tag requires numeric percent".
Definition fax_handler := numeric "fax" "Shear tag requires numeric factor".
Definition fay_handler := numeric "fay" "Shear tag requires numeric factor".
Definition fsp_handler := numeric "fsp" "Spacing tag requires numeric pixels".
(* transform/mod.rs:59-70 *)
Definition create_transform_handlers := [frz_handler; frx_handler; fry_handler; fscx_handler; fscy_handler; fax_handler; fay_handler; fsp_handler].

(* ---- tags/misc/handlers.rs ---- *)
(* 22-30 *)
Definition r_handler := Handler (lit "r") (fun _ => Ok true) (fun _ => Ok Processed).
(* 51-59 *)
Definition fr_validate (args : str) : res bool := let args := trim args in Ok (if is_nil args then false else is_numeric args).
Definition fr_handler := Handler (lit "fr") fr_validate (by_validate (lit "Rotation tag requires numeric degrees") fr_validate).
(* 81-100 *)
Definition org_validate (args : str) : res bool :=
  in_parens (trim args) (fun content => let parts := comma_parts content in (List.length parts =? 2) && forallb is_numeric parts).
Definition org_handler := Handler (lit "org") org_validate (by_validate (lit "Origin tag requires (x,y) coordinates") org_validate).
Definition create_misc_handlers := [r_handler; fr_handler; org_handler].

(* ---- tags/position ---- *)
(* position_handler.rs:29-45 *)
Definition pos_validate (args : str) : res bool :=
  let args := trim args in
  Ok (if is_nil args then false
      else match find_char is_comma args with
           | Some (x, y) => is_numeric (trim x) && is_numeric (trim (tl y))
           | None => false
           end).
Definition pos_handler := Handler (lit "pos") pos_validate (by_validate (lit "Position tag requires (x,y) coordinates") pos_validate).
(* move_handler.rs:31-46 *)
Definition move_validate (args : str) : res bool :=
  let args := trim args in
  Ok (if is_nil args then false
      else let parts := comma_parts args in
        ((List.length parts =? 4) || (List.length parts =? 6)) && forallb is_numeric parts).
Definition move_handler := Handler (lit "move") move_validate (by_validate (lit "Move tag requires (x1,y1,x2,y2[,t1,t2]) coordinates") move_validate).
Definition create_position_handlers := [pos_handler; move_handler].

(* ---- tags/animation ---- *)
(* transform_handlers.rs:32-50 *)
Definition t_validate (args : str) : res bool := in_parens (trim args) (fun content => negb (is_nil content) && negb (is_nil (trim content))).
Definition t_handler := Handler (lit "t") t_validate (by_validate (lit "Transform tag requires (modifiers) or (t1,t2,[accel,]modifiers)") t_validate).
(* fade_handlers.rs:32-74 *)
Definition alpha_ok (part : str) : bool := match parse_u32 part with Some a => (a <=? 255)%N | None => false end.
Definition time_ok (part : str) : bool := match TagModel.parse_i32 part with Some z => (0 <=? z)%Z | None => false end.
Definition fade_validate (args : str) : res bool :=
  in_parens (trim args) (fun content =>
    let parts := comma_parts content in
    (List.length parts =? 7) && forallb alpha_ok (firstn 3 parts) && forallb time_ok (skipn 3 (firstn 7 parts))).
Definition fade_handler := Handler (lit "fade") fade_validate (by_validate (lit "Fade tag requires (a1,a2,a3,t1,t2,t3,t4) - 7 numeric parameters") fade_validate).
(* fade_handlers.rs:100-126 *)
Definition fad_validate (args : str) : res bool :=
  in_parens (trim args) (fun content => let parts := comma_parts content in (List.length parts =? 2) && forallb (fun p => is_some (parse_u32 p)) parts).
Definition fad_handler := Handler (lit "fad") fad_validate (by_validate (lit "Simple fade tag requires (t1,t2) - fade in and out durations") fad_validate).
Definition create_animation_handlers := [t_handler; fade_handler; fad_handler].

(* ---- tags/karaoke/handlers.rs ---- *)
(* 30-32, 55-57, 80-82, 117-119 *)
Definition k_validate (args : str) : res bool := Ok (is_some (parse_u32 (trim args))).
Definition karaoke (name msg : string) : handler := Handler (lit name) k_validate (by_validate (lit msg) k_validate).
Definition k_handler := karaoke "k" "Karaoke tag `k` expects duration in hundredths of seconds".
Definition kf_handler := karaoke "kf" "Fill karaoke tag `kf` expects duration in hundredths of seconds".
Definition ko_handler := karaoke "ko" "Outline karaoke tag `ko` expects duration in hundredths of seconds".
Definition kt_handler := karaoke "kt" "Karaoke timing tag `kt` expects an integer duration in centiseconds".
Definition create_karaoke_handlers := [k_handler; kf_handler; ko_handler; kt_handler].

(* ---- tags/formatting.rs ---- *)
Definition weight_ok (w : N) : bool := (100 <=? w)%N && (w <=? 900)%N && (w mod 100 =? 0)%N.
Definition bold_message : str := lit "Bold tag accepts 0, 1, or font weight (100-900 in steps of 100)".
(* 31-57 *)
Definition b_process (args : str) : res verdict :=
  let trimmed := trim args in
  Ok (if one_of [""; "0"; "1"] trimmed then Processed
      else match parse_u32 trimmed with
           | None => Failed bold_message
           | Some weight => if weight_ok weight then Processed else Failed bold_message
           end).
(* 59-71 *)
Definition b_validate (args : str) : res bool :=
  let trimmed := trim args in
  Ok (if is_nil trimmed || str_eqb trimmed (lit "0") || str_eqb trimmed (lit "1") then true
      else match parse_u32 trimmed with Some weight => weight_ok weight | None => false end).
Definition b_handler := Handler (lit "b") b_validate b_process.
(* 82-92, 103-113, 124-134 *)
Definition flag (name msg : string) : handler :=
  Handler (lit name) (fun args => let t := trim args in Ok (is_nil t || str_eqb t (lit "0") || str_eqb t (lit "1")))
    (fun args => Ok (if one_of ["0"; "1"; ""] (trim args) then Processed else Failed (lit msg))).
Definition i_handler := flag "i" "Italic tag accepts only 0, 1, or empty".
Definition u_handler := flag "u" "Underline tag accepts only 0, 1, or empty".
Definition s_handler := flag "s" "Strikeout tag accepts only 0, 1, or empty".
Definition create_formatting_handlers := [b_handler; i_handler; u_handler; s_handler].

(* ---- tags/advanced/handlers.rs ---- *)
(* 30-38, 61-69 *)
Definition width_validate (args : str) : res bool :=
  let args := trim args in
  Ok (if is_nil args then false else match parse_float f32 args with Some w => f_le (Fin 0) w | None => false end).
Definition bord_handler := Handler (lit "bord") width_validate (by_validate (lit "Border tag requires non-negative numeric width") width_validate).
Definition shad_handler := Handler (lit "shad") width_validate (by_validate (lit "Shadow tag requires non-negative numeric depth") width_validate).
(* 82-92 *)
Definition be_handler := Handler (lit "be") (fun args => let t := trim args in Ok (str_eqb t (lit "0") || str_eqb t (lit "1")))
  (fun args => Ok (if one_of ["0"; "1"] (trim args) then Processed else Failed (lit "Blur edges tag accepts only 0 or 1"))).
Definition create_advanced_handlers := [bord_handler; shad_handler; be_handler].

(* ---- tags/color ---- *)
(* validation.rs:9-19 and 23-33, with n hexadecimal digits *)
Definition hex_args (n : nat) (args : str) : res bool :=
  let args := trim args in
  if negb (starts_with (lit "&H") args) || negb (ends_with (lit "&") args) || negb (blen args =? 3 + n) then Ok false
  else res_bind (or_panic (slice args 2 (2 + n))) (fun m => Ok (forallb is_hex m)).
Definition validate_color_args : str -> res bool := hex_args 6.
Definition validate_alpha_args : str -> res bool := hex_args 2.
Definition color_handler (name : string) : handler := Handler (lit name) validate_color_args (by_validate (lit "Color tag requires &Hbbggrr& format") validate_color_args).
Definition alpha_handler (name : string) : handler := Handler (lit name) validate_alpha_args (by_validate (lit "Alpha tag requires &Haa& format") validate_alpha_args).
(* color/mod.rs:57-70 *)
Definition create_color_handlers :=
  [color_handler "c"; color_handler "1c"; color_handler "2c"; color_handler "3c"; color_handler "4c";
   alpha_handler "alpha"; alpha_handler "1a"; alpha_handler "2a"; alpha_handler "3a"; alpha_handler "4a"].

(* all of them, in the order in which tags/mod.rs:46-81 exports the twelve groups *)
Definition builtin : list handler :=
  create_advanced_handlers ++ create_alignment_handlers ++ create_animation_handlers ++ create_clipping_handlers ++ create_color_handlers ++
  create_font_handlers ++ create_formatting_handlers ++ create_karaoke_handlers ++ create_misc_handlers ++ create_position_handlers ++
  create_special_handlers ++ create_transform_handlers.
(* Box<dyn TagHandler>; Panic does not occur (handler_never_panics) *)
Definition boxed (h : handler) : PluginModel.tag_handler :=
  PluginModel.TagHandler (h_name h) (fun args => match h_process h args with Ok v => v | _ => Ignored end).

(* ---- sections/aegisub/processors.rs ---- *)
Record processor := Processor { p_name : str; p_validate : str -> list str -> bool; p_process : str -> list str -> verdict }.
(* 21-46 *)
Fixpoint project_lines (ls : list str) : verdict :=
  match ls with
  | [] => Processed
  | line :: r =>
    let line := trim line in
    if is_nil line || starts_with (lit "!") line then project_lines r
    else if negb (existsb (N.eqb 61) line) && negb (existsb (N.eqb 58) line) then Failed (lit "Invalid Aegisub project line format (expected key=value or key: value)")
    else project_lines r
  end.
Definition project_processor := Processor (lit "Aegisub Project")
  (fun header ls => eq_nocase header (lit "Aegisub Project") && negb (is_nil ls))
  (fun header ls => if negb (eq_nocase header (lit "Aegisub Project")) then Ignored else project_lines ls).
(* 60-86 *)
Fixpoint extradata_lines (ls : list str) : verdict :=
  match ls with
  | [] => Processed
  | line :: r =>
    let line := trim line in
    if is_nil line then extradata_lines r
    else if (10000 <? N.of_nat (blen line))%N then Failed (lit "Extradata line exceeds maximum length")
    else extradata_lines r
  end.
Definition extradata_processor := Processor (lit "Aegisub Extradata")
  (fun header _ => eq_nocase header (lit "Aegisub Extradata"))
  (fun header ls => if negb (eq_nocase header (lit "Aegisub Extradata")) then Ignored else extradata_lines ls).
(* aegisub/mod.rs:43-48 *)
Definition create_aegisub_processors := [project_processor; extradata_processor].
Definition boxed_processor (p : processor) : PluginModel.section_processor := PluginModel.SectionProcessor (p_name p) (p_process p).

(* ---- analysis/events/tags/registry_parser.rs:86-113 ---- *)
(* the verdicts as TagModel has them, without the message, which the parser drops *)
Definition seen (v : verdict) : TagModel.verdict :=
  match v with Processed => TagModel.Processed | Failed _ => TagModel.Failed | Ignored => TagModel.Ignored end.
Definition parser_view (r : PluginModel.registry) : TagModel.registry := fun n a => option_map seen (PluginModel.process_tag n a r).

(* ---- ass-editor extensions/registry_integration/builtins.rs ---- *)
(* the loops of lines 19-136: the group is the word in the error message *)
Definition builtin_groups : list (string * list handler) :=
  [("formatting", create_formatting_handlers); ("special", create_special_handlers); ("font", create_font_handlers); ("advanced", create_advanced_handlers);
   ("alignment", create_alignment_handlers); ("karaoke", create_karaoke_handlers); ("position", create_position_handlers); ("color", create_color_handlers);
   ("transform", create_transform_handlers); ("animation", create_animation_handlers); ("clipping", create_clipping_handlers); ("misc", create_misc_handlers)].
(* one loop; false is the early return of `?`, which keeps what was registered *)
Fixpoint register_group (l : list handler) (r : PluginModel.registry) : PluginModel.registry * bool :=
  match l with
  | [] => (r, true)
  | h :: l' => let '(r1, ok) := PluginModel.register_tag_handler (boxed h) r in if ok then register_group l' r1 else (r1, false)
  end.
Fixpoint register_groups (gs : list (string * list handler)) (r : PluginModel.registry) : PluginModel.registry * option string :=
  match gs with
  | [] => (r, None)
  | (g, l) :: gs' => let '(r1, ok) := register_group l r in if ok then register_groups gs' r1 else (r1, Some g)
  end.
(* 15-139: None is Ok *)
Definition register_builtin_handlers : PluginModel.registry -> PluginModel.registry * option string := register_groups builtin_groups.
(* 142-154: the project processor only *)
Definition register_builtin_sections (r : PluginModel.registry) : PluginModel.registry * bool := PluginModel.register_section_processor (boxed_processor project_processor) r.
