(* Model of the event and style builders of the editor:
   crates/ass-editor/core/builders.  Paths below are relative to it. *)
From Verif Require Export Base.
From Verif Require Import ParseModel FloatModel.

Definition or_else {A} (o : option A) (d : A) : A := match o with Some a => a | None => d end.

(* ---- event.rs:38-52; strings are owned here ---- *)
Record event_builder := EventBuilder {
  eb_type : option event_type; eb_start : option str; eb_end : option str; eb_style : option str; eb_name : option str;
  eb_text : option str; eb_layer : option str; eb_margin_l : option str; eb_margin_r : option str; eb_margin_v : option str;
  eb_margin_t : option str; eb_margin_b : option str; eb_effect : option str }.
(* event.rs:56-74  new, dialogue, comment *)
Definition new_event (ty : option event_type) : event_builder :=
  EventBuilder ty None None None None None None None None None None None None.
(* event.rs:77-146  the setters; the numbers are u32 *)
Inductive event_call :=
  | CStart (s : str) | CEnd (s : str) | CSpeaker (s : str) | CText (s : str) | CStyle (s : str) | CLayer (n : N)
  | CMarginL (n : N) | CMarginR (n : N) | CMarginV (n : N) | CMarginT (n : N) | CMarginB (n : N) | CEffect (s : str).
Definition set_event (b : event_builder) (c : event_call) : event_builder :=
  let '(EventBuilder ty st en sy na te la ml mr mv mt mb ef) := b in
  match c with
  | CStart s => EventBuilder ty (Some s) en sy na te la ml mr mv mt mb ef
  | CEnd s => EventBuilder ty st (Some s) sy na te la ml mr mv mt mb ef
  | CSpeaker s => EventBuilder ty st en sy (Some s) te la ml mr mv mt mb ef
  | CText s => EventBuilder ty st en sy na (Some s) la ml mr mv mt mb ef
  | CStyle s => EventBuilder ty st en (Some s) na te la ml mr mv mt mb ef
  | CLayer n => EventBuilder ty st en sy na te (Some (to_dec n)) ml mr mv mt mb ef
  | CMarginL n => EventBuilder ty st en sy na te la (Some (to_dec n)) mr mv mt mb ef
  | CMarginR n => EventBuilder ty st en sy na te la ml (Some (to_dec n)) mv mt mb ef
  | CMarginV n => EventBuilder ty st en sy na te la ml mr (Some (to_dec n)) mt mb ef
  | CMarginT n => EventBuilder ty st en sy na te la ml mr mv (Some (to_dec n)) mb ef
  | CMarginB n => EventBuilder ty st en sy na te la ml mr mv mt (Some (to_dec n)) ef
  | CEffect s => EventBuilder ty st en sy na te la ml mr mv mt mb (Some s)
  end.
Definition event_builder_of (ty : option event_type) (calls : list event_call) : event_builder := fold_left set_event calls (new_event ty).

(* event_build.rs:27-65  build_with_version *)
Definition build_event_version (b : event_builder) (v : version) : str :=
  let first := match v with SsaV4 => lit "Marked=0" | AssV4 | AssV4Plus => or_else (eb_layer b) (lit "0") end in
  event_type_str (or_else (eb_type b) Dialogue) ++ lit ": " ++
  join (lit ",") [first; or_else (eb_start b) (lit "0:00:00.00"); or_else (eb_end b) (lit "0:00:05.00");
    or_else (eb_style b) (lit "Default"); or_else (eb_name b) []; or_else (eb_margin_l b) (lit "0"); or_else (eb_margin_r b) (lit "0");
    or_else (eb_margin_v b) (lit "0"); or_else (eb_effect b) []; or_else (eb_text b) []].
(* event_build.rs:21-24  build *)
Definition build_event (b : event_builder) : str := build_event_version b AssV4.
(* the first of the listed names *)
Fixpoint lookup (k : str) (l : list (string * str)) : option str :=
  match l with [] => None | (n, v) :: r => if str_eqb k (lit n) then Some v else lookup k r end.
(* event_build.rs:83-109 *)
Definition event_builder_value (b : event_builder) (field : str) : option str :=
  lookup field [("Layer", or_else (eb_layer b) (lit "0")); ("Start", or_else (eb_start b) (lit "0:00:00.00"));
    ("End", or_else (eb_end b) (lit "0:00:05.00")); ("Style", or_else (eb_style b) (lit "Default"));
    ("Name", or_else (eb_name b) []); ("Actor", or_else (eb_name b) []); ("MarginL", or_else (eb_margin_l b) (lit "0"));
    ("MarginR", or_else (eb_margin_r b) (lit "0")); ("MarginV", or_else (eb_margin_v b) (lit "0"));
    ("MarginT", or_else (eb_margin_t b) (lit "0")); ("MarginB", or_else (eb_margin_b b) (lit "0"));
    ("Effect", or_else (eb_effect b) []); ("Text", or_else (eb_text b) [])]%string.
Fixpoint map_all {A B} (f : A -> option B) (l : list A) : option (list B) :=
  match l with
  | [] => Some []
  | x :: r => match f x with Some y => option_map (cons y) (map_all f r) | None => None end
  end.
(* event_build.rs:69-116  build_with_format; None is Err *)
Definition build_event_format (b : event_builder) (format : list str) : option str :=
  match format with
  | [] => None
  | _ => option_map (fun vs => event_type_str (or_else (eb_type b) Dialogue) ++ lit ": " ++ join (lit ",") vs)
           (map_all (event_builder_value b) format)
  end.

(* ---- style.rs:8-36 ---- *)
Record style_builder := StyleBuilder {
  sb_name : option str; sb_fontname : option str; sb_fontsize : option N; sb_primary : option str; sb_secondary : option str;
  sb_outline_colour : option str; sb_back : option str; sb_bold : option bool; sb_italic : option bool; sb_underline : option bool;
  sb_strikeout : option bool; sb_scale_x : option float; sb_scale_y : option float; sb_spacing : option float; sb_angle : option float;
  sb_border_style : option N; sb_outline : option float; sb_shadow : option float; sb_alignment : option N;
  sb_margin_l : option N; sb_margin_r : option N; sb_margin_v : option N; sb_margin_t : option N; sb_margin_b : option N;
  sb_encoding : option N; sb_alpha : option N; sb_relative : option str }.
(* style.rs:40-42  new *)
Definition new_style : style_builder :=
  StyleBuilder None None None None None None None None None None None None None None None None None None None None None None None None None None None.
Definition of_int (n : Z) : float := Fin (n # 1)%Q.
(* style.rs:45-71  default_style *)
Definition default_style : style_builder :=
  StyleBuilder None (Some (lit "Arial")) (Some 20%N) (Some (lit "&Hffffff")) (Some (lit "&Hff0000")) (Some (lit "&H0")) (Some (lit "&H0"))
    (Some false) (Some false) (Some false) (Some false) (Some (of_int 100)) (Some (of_int 100)) (Some (of_int 0)) (Some (of_int 0))
    (Some 1%N) (Some (of_int 2)) (Some (of_int 0)) (Some 2%N) (Some 10%N) (Some 10%N) (Some 10%N) None None (Some 1%N) None None.
(* style_setters.rs:10-169 *)
Inductive style_call :=
  | SName (s : str) | SFont (s : str) | SSize (n : N) | SColor (s : str) | SBold (b : bool) | SItalic (b : bool) | SAlign (n : N)
  | SSecondary (s : str) | SOutlineColor (s : str) | SBack (s : str) | SUnderline (b : bool) | SStrikeout (b : bool)
  | SScaleX (x : float) | SScaleY (x : float) | SSpacing (x : float) | SAngle (x : float) | SBorderStyle (n : N)
  | SOutline (x : float) | SShadow (x : float) | SMarginL (n : N) | SMarginR (n : N) | SMarginV (n : N) | SMarginT (n : N)
  | SMarginB (n : N) | SEncoding (n : N) | SAlpha (n : N) | SRelative (s : str).
Definition set_style (b : style_builder) (c : style_call) : style_builder :=
  let '(StyleBuilder na fo fs pr se oc ba bo it un st sx sy sp an bs ou sh al ml mr mv mt mb en ap re) := b in
  match c with
  | SName x => StyleBuilder (Some x) fo fs pr se oc ba bo it un st sx sy sp an bs ou sh al ml mr mv mt mb en ap re
  | SFont x => StyleBuilder na (Some x) fs pr se oc ba bo it un st sx sy sp an bs ou sh al ml mr mv mt mb en ap re
  | SSize x => StyleBuilder na fo (Some x) pr se oc ba bo it un st sx sy sp an bs ou sh al ml mr mv mt mb en ap re
  | SColor x => StyleBuilder na fo fs (Some x) se oc ba bo it un st sx sy sp an bs ou sh al ml mr mv mt mb en ap re
  | SSecondary x => StyleBuilder na fo fs pr (Some x) oc ba bo it un st sx sy sp an bs ou sh al ml mr mv mt mb en ap re
  | SOutlineColor x => StyleBuilder na fo fs pr se (Some x) ba bo it un st sx sy sp an bs ou sh al ml mr mv mt mb en ap re
  | SBack x => StyleBuilder na fo fs pr se oc (Some x) bo it un st sx sy sp an bs ou sh al ml mr mv mt mb en ap re
  | SBold x => StyleBuilder na fo fs pr se oc ba (Some x) it un st sx sy sp an bs ou sh al ml mr mv mt mb en ap re
  | SItalic x => StyleBuilder na fo fs pr se oc ba bo (Some x) un st sx sy sp an bs ou sh al ml mr mv mt mb en ap re
  | SUnderline x => StyleBuilder na fo fs pr se oc ba bo it (Some x) st sx sy sp an bs ou sh al ml mr mv mt mb en ap re
  | SStrikeout x => StyleBuilder na fo fs pr se oc ba bo it un (Some x) sx sy sp an bs ou sh al ml mr mv mt mb en ap re
  | SScaleX x => StyleBuilder na fo fs pr se oc ba bo it un st (Some x) sy sp an bs ou sh al ml mr mv mt mb en ap re
  | SScaleY x => StyleBuilder na fo fs pr se oc ba bo it un st sx (Some x) sp an bs ou sh al ml mr mv mt mb en ap re
  | SSpacing x => StyleBuilder na fo fs pr se oc ba bo it un st sx sy (Some x) an bs ou sh al ml mr mv mt mb en ap re
  | SAngle x => StyleBuilder na fo fs pr se oc ba bo it un st sx sy sp (Some x) bs ou sh al ml mr mv mt mb en ap re
  | SBorderStyle x => StyleBuilder na fo fs pr se oc ba bo it un st sx sy sp an (Some x) ou sh al ml mr mv mt mb en ap re
  | SOutline x => StyleBuilder na fo fs pr se oc ba bo it un st sx sy sp an bs (Some x) sh al ml mr mv mt mb en ap re
  | SShadow x => StyleBuilder na fo fs pr se oc ba bo it un st sx sy sp an bs ou (Some x) al ml mr mv mt mb en ap re
  | SAlign x => StyleBuilder na fo fs pr se oc ba bo it un st sx sy sp an bs ou sh (Some x) ml mr mv mt mb en ap re
  | SMarginL x => StyleBuilder na fo fs pr se oc ba bo it un st sx sy sp an bs ou sh al (Some x) mr mv mt mb en ap re
  | SMarginR x => StyleBuilder na fo fs pr se oc ba bo it un st sx sy sp an bs ou sh al ml (Some x) mv mt mb en ap re
  | SMarginV x => StyleBuilder na fo fs pr se oc ba bo it un st sx sy sp an bs ou sh al ml mr (Some x) mt mb en ap re
  | SMarginT x => StyleBuilder na fo fs pr se oc ba bo it un st sx sy sp an bs ou sh al ml mr mv (Some x) mb en ap re
  | SMarginB x => StyleBuilder na fo fs pr se oc ba bo it un st sx sy sp an bs ou sh al ml mr mv mt (Some x) en ap re
  | SEncoding x => StyleBuilder na fo fs pr se oc ba bo it un st sx sy sp an bs ou sh al ml mr mv mt mb (Some x) ap re
  | SAlpha x => StyleBuilder na fo fs pr se oc ba bo it un st sx sy sp an bs ou sh al ml mr mv mt mb en (Some x) re
  | SRelative x => StyleBuilder na fo fs pr se oc ba bo it un st sx sy sp an bs ou sh al ml mr mv mt mb en ap (Some x)
  end.
Definition style_builder_of (start : style_builder) (calls : list style_call) : style_builder := fold_left set_style calls start.

Definition switch (b : bool) : str := if b then lit "-1" else lit "0".
(* style_build.rs:16-72  build.  `show` is Display for f32. *)
Definition build_style (show : float -> str) (b : style_builder) : str :=
  lit "Style: " ++ join (lit ",")
    [or_else (sb_name b) (lit "NewStyle"); or_else (sb_fontname b) (lit "Arial"); to_dec (or_else (sb_fontsize b) 20%N);
     or_else (sb_primary b) (lit "&Hffffff"); or_else (sb_secondary b) (lit "&Hff0000"); or_else (sb_outline_colour b) (lit "&H0");
     or_else (sb_back b) (lit "&H0"); switch (or_else (sb_bold b) false); switch (or_else (sb_italic b) false);
     switch (or_else (sb_underline b) false); switch (or_else (sb_strikeout b) false); show (or_else (sb_scale_x b) (of_int 100));
     show (or_else (sb_scale_y b) (of_int 100)); show (or_else (sb_spacing b) (of_int 0)); show (or_else (sb_angle b) (of_int 0));
     to_dec (or_else (sb_border_style b) 1%N); show (or_else (sb_outline b) (of_int 2)); show (or_else (sb_shadow b) (of_int 0));
     to_dec (or_else (sb_alignment b) 2%N); to_dec (or_else (sb_margin_l b) 10%N); to_dec (or_else (sb_margin_r b) 10%N);
     to_dec (or_else (sb_margin_v b) 10%N); to_dec (or_else (sb_encoding b) 1%N)].
(* style_format.rs:27-92 *)
Definition style_builder_value (show : float -> str) (b : style_builder) (field : str) : option str :=
  lookup field
    [("Name", or_else (sb_name b) (lit "NewStyle")); ("Fontname", or_else (sb_fontname b) (lit "Arial"));
     ("Fontsize", to_dec (or_else (sb_fontsize b) 20%N)); ("PrimaryColour", or_else (sb_primary b) (lit "&Hffffff"));
     ("SecondaryColour", or_else (sb_secondary b) (lit "&Hff0000")); ("OutlineColour", or_else (sb_outline_colour b) (lit "&H0"));
     ("TertiaryColour", or_else (sb_outline_colour b) (lit "&H0")); ("BackColour", or_else (sb_back b) (lit "&H0"));
     ("Bold", switch (or_else (sb_bold b) false)); ("Italic", switch (or_else (sb_italic b) false));
     ("Underline", switch (or_else (sb_underline b) false)); ("Strikeout", switch (or_else (sb_strikeout b) false));
     ("StrikeOut", switch (or_else (sb_strikeout b) false)); ("ScaleX", show (or_else (sb_scale_x b) (of_int 100)));
     ("ScaleY", show (or_else (sb_scale_y b) (of_int 100))); ("Spacing", show (or_else (sb_spacing b) (of_int 0)));
     ("Angle", show (or_else (sb_angle b) (of_int 0))); ("BorderStyle", to_dec (or_else (sb_border_style b) 1%N));
     ("Outline", show (or_else (sb_outline b) (of_int 2))); ("Shadow", show (or_else (sb_shadow b) (of_int 0)));
     ("Alignment", to_dec (or_else (sb_alignment b) 2%N)); ("MarginL", to_dec (or_else (sb_margin_l b) 10%N));
     ("MarginR", to_dec (or_else (sb_margin_r b) 10%N)); ("MarginV", to_dec (or_else (sb_margin_v b) 10%N));
     ("MarginT", to_dec (or_else (sb_margin_t b) 0%N)); ("MarginB", to_dec (or_else (sb_margin_b b) 0%N));
     ("Encoding", to_dec (or_else (sb_encoding b) 1%N)); ("AlphaLevel", to_dec (or_else (sb_alpha b) 0%N));
     ("RelativeTo", or_else (sb_relative b) (lit "0"))]%string.
(* style_format.rs:16-99  build_with_format; None is Err *)
Definition build_style_format (show : float -> str) (b : style_builder) (format : list str) : option str :=
  match format with
  | [] => None
  | _ => option_map (fun vs => lit "Style: " ++ join (lit ",") vs) (map_all (style_builder_value show b) format)
  end.
(* style_build.rs:77-160 *)
Definition version_format (v : version) : list str :=
  map lit match v with
  | SsaV4 => ["Name"; "Fontname"; "Fontsize"; "PrimaryColour"; "SecondaryColour"; "TertiaryColour"; "BackColour"; "Bold"; "Italic";
      "BorderStyle"; "Outline"; "Shadow"; "Alignment"; "MarginL"; "MarginR"; "MarginV"; "AlphaLevel"; "Encoding"]%string
  | AssV4 => ["Name"; "Fontname"; "Fontsize"; "PrimaryColour"; "SecondaryColour"; "OutlineColour"; "BackColour"; "Bold"; "Italic";
      "Underline"; "StrikeOut"; "ScaleX"; "ScaleY"; "Spacing"; "Angle"; "BorderStyle"; "Outline"; "Shadow"; "Alignment";
      "MarginL"; "MarginR"; "MarginV"; "Encoding"]%string
  | AssV4Plus => ["Name"; "Fontname"; "Fontsize"; "PrimaryColour"; "SecondaryColour"; "OutlineColour"; "BackColour"; "Bold"; "Italic";
      "Underline"; "StrikeOut"; "ScaleX"; "ScaleY"; "Spacing"; "Angle"; "BorderStyle"; "Outline"; "Shadow"; "Alignment";
      "MarginL"; "MarginR"; "MarginV"; "MarginT"; "MarginB"; "Encoding"; "RelativeTo"]%string
  end.
(* style_build.rs:75-163  build_with_version *)
Definition build_style_version (show : float -> str) (b : style_builder) (v : version) : option str :=
  build_style_format show b (version_format v).
