(* What resolving styles means. *)
From Coq Require Export Relations.
From Verif Require Export Base NumSpec ColorSpec FloatSpec StyleModel.

(* ---- parents ---- *)
Definition defined (l : list style) (n : str) : Prop := exists s, In s l /\ s_name s = n.
(* a style named a has the style named b as parent *)
Definition inherits_from (l : list style) (a b : str) : Prop :=
  exists s, In s l /\ s_name s = a /\ s_parent s = Some b /\ defined l b.
Definition cyclic (l : list style) : Prop := exists a, clos_trans str (inherits_from l) a a.
(* the styles with an undefined parent and that parent, in the order of the styles *)
Inductive undefined_parents (all : list style) : list style -> list (str * str) -> Prop :=
| up_nil : undefined_parents all [] []
| up_miss s p l c : s_parent s = Some p -> ~ defined all p -> undefined_parents all l c -> undefined_parents all (s :: l) ((s_name s, p) :: c)
| up_fine s l c : (forall p, s_parent s = Some p -> defined all p) -> undefined_parents all l c -> undefined_parents all (s :: l) c.
Definition count_name (l : list style) (n : str) : nat := List.length (filter (fun s => str_eqb (s_name s) n) l).

(* ---- the fields of a style ---- *)
Definition positive_size (x : float) : Prop := x = NaN \/ exists q, x = Fin q /\ (0 < q <= 1000)%Q.
Definition percentage (x : float) : Prop := exists q, x = Fin q /\ (0 <= q <= 1000)%Q.
Definition size_text (s : str) (x : float) : Prop := number_text f32 s x /\ positive_size x.
Definition percent_text (s : str) (x : float) : Prop := number_text f32 s x /\ percentage x.
Definition colour_text (s : str) (c : rgba) : Prop :=
  trim s = [] /\ c = (255, 255, 255, 255)%N \/
  trim s <> [] /\ exists d v, dressed (trim s) d /\ hex_numeral_plus d v /\
    ((List.length d = 6 /\ c = (byte_at 0 v, byte_at 1 v, byte_at 2 v, 0%N)) \/
     (List.length d = 8 /\ c = (byte_at 0 v, byte_at 1 v, byte_at 2 v, byte_at 3 v))).
Definition flag_text (s : str) (b : bool) : Prop := s = lit (if b then "1" else "0")%string.
Definition small_text (mx : N) (s : str) (n : N) : Prop := numeral s n /\ (n <= mx)%N.
Definition margins_text (s : style) (t b : N) : Prop :=
  match s_margin_t s, s_margin_b s with
  | Some x, Some y => small_text 65535 x t /\ small_text 65535 y b
  | _, _ => small_text 65535 (s_margin_v s) t /\ b = t
  end.
(* how hard a style is to draw *)
Definition above (x : float) (z : Z) : bool :=
  match x with Inf false => true | Fin q => negb (Qle_bool q (inject_Z z)) | _ => false end.
Definition off_by (a b : float) : bool := f_lt epsilon (f_abs (f_sub f32 a b)).
Definition difficulty (r : resolved) : N :=
  ((if above (rs_size r) 72 then 20 else if above (rs_size r) 48 then 10 else 0) +
   (if above (rs_outline r) 4 then 15 else if above (rs_outline r) 2 then 8 else 0) +
   (if above (rs_shadow r) 3 then 10 else if above (rs_shadow r) 1 then 5 else 0) +
   (if off_by (rs_scale_x r) (Fin 100) || off_by (rs_scale_y r) (Fin 100) then 10 else 0) +
   (if f_lt epsilon (f_abs (rs_angle r)) then 15 else 0) +
   (if rs_bold r then 2 else 0) + (if rs_italic r then 2 else 0) + (if rs_underline r || rs_strike r then 5 else 0))%N.
Record resolves (s : style) (r : resolved) : Prop := {
  rv_name : rs_name r = s_name s;
  rv_font : rs_font r = match s_fontname s with [] => lit "Arial" | n => n end;
  rv_size : size_text (s_fontsize s) (rs_size r);
  rv_primary : colour_text (s_primary s) (rs_primary r);
  rv_secondary : colour_text (s_secondary s) (rs_secondary r);
  rv_outlinec : colour_text (s_outlinec s) (rs_outlinec r);
  rv_back : colour_text (s_back s) (rs_back r);
  rv_bold : flag_text (s_bold s) (rs_bold r);
  rv_italic : flag_text (s_italic s) (rs_italic r);
  rv_underline : flag_text (s_underline s) (rs_underline r);
  rv_strike : flag_text (s_strikeout s) (rs_strike r);
  rv_scale_x : percent_text (s_scale_x s) (rs_scale_x r);
  rv_scale_y : percent_text (s_scale_y s) (rs_scale_y r);
  rv_spacing : number_text f32 (s_spacing s) (rs_spacing r);
  rv_angle : number_text f32 (s_angle s) (rs_angle r);
  rv_border : small_text 255 (s_border_style s) (rs_border_style r);
  rv_outline : number_text f32 (s_outline s) (rs_outline r);
  rv_shadow : number_text f32 (s_shadow s) (rs_shadow r);
  rv_alignment : small_text 255 (s_alignment s) (rs_alignment r);
  rv_margin_l : small_text 65535 (s_margin_l s) (rs_margin_l r);
  rv_margin_r : small_text 65535 (s_margin_r s) (rs_margin_r r);
  rv_margins : margins_text s (rs_margin_t r) (rs_margin_b r);
  rv_encoding : small_text 255 (s_encoding s) (rs_encoding r);
  rv_complexity : rs_complexity r = difficulty r }.

(* a field taken from the parent when its text is one of [absent], and from the
   text otherwise *)
Definition inherited {A} (absent : list str) (text : str) (parent : A) (reads : str -> A -> Prop) (v : A) : Prop :=
  (In text absent /\ v = parent) \/ (~ In text absent /\ reads text v).
Definition inherited_flag (text : str) (parent v : bool) : Prop :=
  flag_text text v \/ (text <> lit "0" /\ text <> lit "1" /\ v = parent).
Definition inherited_margins (s : style) (p : resolved) (t b : N) : Prop :=
  match s_margin_t s, s_margin_b s with
  | Some x, Some y => inherited [[]] x (rs_margin_t p) (small_text 65535) t /\ inherited [[]] y (rs_margin_b p) (small_text 65535) b
  | _, _ => inherited [[]; lit "0"] (s_margin_v s) (rs_margin_t p, rs_margin_b p) (fun x tb => small_text 65535 x (fst tb) /\ snd tb = fst tb) (t, b)
  end.
Record resolves_under (s : style) (p r : resolved) : Prop := {
  ru_name : rs_name r = s_name s;
  ru_font : rs_font r = match s_fontname s with [] => rs_font p | n => n end;
  ru_size : inherited [[]; lit "0"] (s_fontsize s) (rs_size p) size_text (rs_size r);
  ru_primary : inherited [[]] (s_primary s) (rs_primary p) colour_text (rs_primary r);
  ru_secondary : inherited [[]] (s_secondary s) (rs_secondary p) colour_text (rs_secondary r);
  ru_outlinec : inherited [[]] (s_outlinec s) (rs_outlinec p) colour_text (rs_outlinec r);
  ru_back : inherited [[]] (s_back s) (rs_back p) colour_text (rs_back r);
  ru_bold : inherited_flag (s_bold s) (rs_bold p) (rs_bold r);
  ru_italic : inherited_flag (s_italic s) (rs_italic p) (rs_italic r);
  ru_underline : inherited_flag (s_underline s) (rs_underline p) (rs_underline r);
  ru_strike : inherited_flag (s_strikeout s) (rs_strike p) (rs_strike r);
  ru_scale_x : inherited [[]; lit "100"] (s_scale_x s) (rs_scale_x p) percent_text (rs_scale_x r);
  ru_scale_y : inherited [[]; lit "100"] (s_scale_y s) (rs_scale_y p) percent_text (rs_scale_y r);
  ru_spacing : inherited [[]; lit "0"] (s_spacing s) (rs_spacing p) (number_text f32) (rs_spacing r);
  ru_angle : inherited [[]; lit "0"] (s_angle s) (rs_angle p) (number_text f32) (rs_angle r);
  ru_border : inherited [[]] (s_border_style s) (rs_border_style p) (small_text 255) (rs_border_style r);
  ru_outline : inherited [[]; lit "0"] (s_outline s) (rs_outline p) (number_text f32) (rs_outline r);
  ru_shadow : inherited [[]; lit "0"] (s_shadow s) (rs_shadow p) (number_text f32) (rs_shadow r);
  ru_alignment : inherited [[]] (s_alignment s) (rs_alignment p) (small_text 255) (rs_alignment r);
  ru_margin_l : inherited [[]] (s_margin_l s) (rs_margin_l p) (small_text 65535) (rs_margin_l r);
  ru_margin_r : inherited [[]] (s_margin_r s) (rs_margin_r p) (small_text 65535) (rs_margin_r r);
  ru_margins : inherited_margins s p (rs_margin_t r) (rs_margin_b r);
  ru_encoding : inherited [[]] (s_encoding s) (rs_encoding p) (small_text 255) (rs_encoding r);
  ru_complexity : rs_complexity r = difficulty r }.

(* the style a name resolves to: the last one of that name that can be read *)
Definition last_readable (l : list style) (n : str) (r : resolved) : Prop :=
  exists l1 s l2, l = l1 ++ s :: l2 /\ s_name s = n /\ resolves s r /\ forall t, In t l2 -> s_name t = n -> forall r', ~ resolves t r'.
(* a style scaled by sx across and sy down *)
Record scales (sx sy : float) (a b : resolved) : Prop := {
  sc_same : rs_name b = rs_name a /\ rs_font b = rs_font a /\ rs_primary b = rs_primary a /\ rs_secondary b = rs_secondary a /\ rs_outlinec b = rs_outlinec a /\
    rs_back b = rs_back a /\ rs_bold b = rs_bold a /\ rs_italic b = rs_italic a /\ rs_underline b = rs_underline a /\ rs_strike b = rs_strike a /\
    rs_scale_x b = rs_scale_x a /\ rs_scale_y b = rs_scale_y a /\ rs_angle b = rs_angle a /\ rs_border_style b = rs_border_style a /\
    rs_alignment b = rs_alignment a /\ rs_encoding b = rs_encoding a;
  sc_mean : exists mean, mean = f_div f32 (f_add f32 sx sy) (Fin 2) /\
    rs_size b = f_mul f32 (rs_size a) mean /\ rs_outline b = f_mul f32 (rs_outline a) mean /\ rs_shadow b = f_mul f32 (rs_shadow a) mean;
  sc_spacing : rs_spacing b = f_mul f32 (rs_spacing a) sx;
  sc_across : rs_margin_l b = f_to_N 65535 (f_mul f32 (f_of_N f32 (rs_margin_l a)) sx) /\ rs_margin_r b = f_to_N 65535 (f_mul f32 (f_of_N f32 (rs_margin_r a)) sx);
  sc_down : rs_margin_t b = f_to_N 65535 (f_mul f32 (f_of_N f32 (rs_margin_t a)) sy) /\ rs_margin_b b = f_to_N 65535 (f_mul f32 (f_of_N f32 (rs_margin_b a)) sy);
  sc_complexity : rs_complexity b = difficulty b }.
Definition adjusted (scale : option (float * float)) (a b : resolved) : Prop :=
  match scale with Some (sx, sy) => scales sx sy a b | None => b = a end.
(* the number in the first field of that name *)
Definition info_number (fields : list (str * str)) (name : string) (n : N) : Prop :=
  exists l1 v l2, fields = l1 ++ (lit name, v) :: l2 /\ (forall e, In e l1 -> fst e <> lit name) /\ numeral v n /\ (n < 2 ^ 32)%N.
(* the scaling a script asks for: its first information section gives a layout
   and a playback resolution, and they differ *)
Definition scale_of (sections : list section) (sx sy : float) : Prop :=
  exists l1 f c l2 lx ly px py, sections = l1 ++ SInfo f c :: l2 /\ (forall f' c', ~ In (SInfo f' c') l1) /\
    info_number f "LayoutResX" lx /\ info_number f "LayoutResY" ly /\ info_number f "PlayResX" px /\ info_number f "PlayResY" py /\
    (lx <> px \/ ly <> py) /\ sx = f_div f32 (f_of_N f32 px) (f_of_N f32 lx) /\ sy = f_div f32 (f_of_N f32 py) (f_of_N f32 ly).
Definition script_scale (sections : list section) (scale : option (float * float)) : Prop :=
  match scale with Some (sx, sy) => scale_of sections sx sy | None => forall sx sy, ~ scale_of sections sx sy end.
(* the styles of the first styles section *)
Definition script_styles (sections : list section) (l : list style) : Prop :=
  (exists l1 l2, sections = l1 ++ SStyles l :: l2 /\ forall l', ~ In (SStyles l') l1) \/ (l = [] /\ forall l', ~ In (SStyles l') sections).
(* names given to several styles *)
Definition duplicates (l : list style) (c : list conflict) : Prop :=
  exists names, StronglySorted str_lt names /\ (forall n, In n names <-> 1 < count_name l n) /\ c = map (fun n => DuplicateName (repeat n (count_name l n))) names.
(* the inheritance of a style: of the last one of that name without an undefined parent *)
Definition lineage (l : list style) (s : style) (i : inheritance) : Prop :=
  ih_name i = s_name s /\
  match s_parent s with
  | None => ih_parents i = [] /\ ih_depth i = 0
  | Some p => defined l p /\ ih_parents i = [p] /\ ih_depth i = 1
  end.
Definition last_lineage (l : list style) (n : str) (i : inheritance) : Prop :=
  exists l1 s l2, l = l1 ++ s :: l2 /\ s_name s = n /\ lineage l s i /\ forall t, In t l2 -> s_name t = n -> exists p, s_parent t = Some p /\ ~ defined l p.
(* what is said about a resolved style *)
Definition worth_saying (cfg : config) (r : resolved) (i : style_issue) : Prop :=
  match i with
  | SizeNotPositive => op_validation (cf_options cfg) = true /\ (rs_size r = Inf true \/ exists q, rs_size r = Fin q /\ (q <= 0)%Q)
  | SizeVeryLarge => op_validation (cf_options cfg) = true /\ op_strict (cf_options cfg) = true /\ above (rs_size r) 200 = true
  | SizeLarge => op_performance (cf_options cfg) = true /\ f_lt (cf_large_font cfg) (rs_size r) = true
  | TooComplex => op_performance (cf_options cfg) = true /\ (70 < rs_complexity r)%N
  end.
Definition orphan (s : style) : style :=
  Style (s_name s) None (s_fontname s) (s_fontsize s) (s_primary s) (s_secondary s) (s_outlinec s) (s_back s) (s_bold s) (s_italic s) (s_underline s) (s_strikeout s)
    (s_scale_x s) (s_scale_y s) (s_spacing s) (s_angle s) (s_border_style s) (s_outline s) (s_shadow s) (s_alignment s)
    (s_margin_l s) (s_margin_r s) (s_margin_v s) (s_margin_t s) (s_margin_b s) (s_encoding s) (s_relative_to s) (s_span s).
