(* What a builder is meant to write: under each column the text of the last
   call that names it, or a default.  Without reference to the builder's state. *)
From Verif Require Import Base ParseModel ParseSpec FloatModel BuilderModel.
Local Open Scope string_scope.

(* The value of the last write to a column, d if there is none. *)
Fixpoint latest (writes : list (string * str)) (col : string) (d : str) : str :=
  match writes with
  | [] => d
  | (c, v) :: r => latest r col (if String.eqb c col then v else d)
  end.

(* ---- events ---- *)
Definition writes (c : event_call) : string * str :=
  match c with
  | CStart s => ("Start", s) | CEnd s => ("End", s) | CSpeaker s => ("Name", s) | CText s => ("Text", s) | CStyle s => ("Style", s)
  | CLayer n => ("Layer", to_dec n) | CMarginL n => ("MarginL", to_dec n) | CMarginR n => ("MarginR", to_dec n)
  | CMarginV n => ("MarginV", to_dec n) | CMarginT n => ("MarginT", to_dec n) | CMarginB n => ("MarginB", to_dec n)
  | CEffect s => ("Effect", s)
  end%string.
Definition event_default (col : string) : str :=
  if existsb (String.eqb col) ["Name"; "Effect"; "Text"]%string then []
  else if String.eqb col "Start" then lit "0:00:00.00" else if String.eqb col "End" then lit "0:00:05.00"
  else if String.eqb col "Style" then lit "Default" else lit "0".
Definition told (calls : list event_call) (col : string) : str := latest (map writes calls) col (event_default col).
(* Texts that fit in a column: no comma unless it is the text, no blanks around. *)
Definition call_ok (c : event_call) : Prop :=
  (fst (writes c) = "Text"%string \/ comma_free (snd (writes c))) /\ trim_ok (snd (writes c)).
Definition event_names : list string :=
  ["Layer"; "Start"; "End"; "Style"; "Name"; "MarginL"; "MarginR"; "MarginV"; "MarginT"; "MarginB"; "Effect"; "Text"]%string.
Definition type_or (ty : option event_type) : event_type := match ty with Some t => t | None => Dialogue end.
(* The event that says, in the columns cols, what the calls told. *)
Definition told_event (ty : event_type) (cols : list string) (calls : list event_call) (n : N) : event :=
  let has c := existsb (String.eqb c) cols in
  let v c := if has c then told calls c else [] in
  let o c := if has c then Some (told calls c) else None in
  Event ty (v "Layer") (v "Start") (v "End") (v "Style") (v "Name") (v "MarginL") (v "MarginR") (v "MarginV")
    (o "MarginT") (o "MarginB") (v "Effect") (v "Text") (Span 0 0 n 1).
Definition ass_columns : list string :=
  ["Layer"; "Start"; "End"; "Style"; "Name"; "MarginL"; "MarginR"; "MarginV"; "Effect"; "Text"]%string.
Definition ssa_columns : list string :=
  ["Marked"; "Start"; "End"; "Style"; "Name"; "MarginL"; "MarginR"; "MarginV"; "Effect"; "Text"]%string.

(* ---- styles ---- *)
(* `show` is how f32 is displayed *)
Definition style_writes (show : float -> str) (c : style_call) : string * str :=
  let b (x : bool) := if x then lit "-1" else lit "0" in
  match c with
  | SName s => ("Name", s) | SFont s => ("Fontname", s) | SSize n => ("Fontsize", to_dec n) | SColor s => ("PrimaryColour", s)
  | SSecondary s => ("SecondaryColour", s) | SOutlineColor s => ("OutlineColour", s) | SBack s => ("BackColour", s)
  | SBold x => ("Bold", b x) | SItalic x => ("Italic", b x) | SUnderline x => ("Underline", b x) | SStrikeout x => ("StrikeOut", b x)
  | SScaleX x => ("ScaleX", show x) | SScaleY x => ("ScaleY", show x) | SSpacing x => ("Spacing", show x) | SAngle x => ("Angle", show x)
  | SBorderStyle n => ("BorderStyle", to_dec n) | SOutline x => ("Outline", show x) | SShadow x => ("Shadow", show x)
  | SAlign n => ("Alignment", to_dec n) | SMarginL n => ("MarginL", to_dec n) | SMarginR n => ("MarginR", to_dec n)
  | SMarginV n => ("MarginV", to_dec n) | SMarginT n => ("MarginT", to_dec n) | SMarginB n => ("MarginB", to_dec n)
  | SEncoding n => ("Encoding", to_dec n) | SAlpha n => ("AlphaLevel", to_dec n) | SRelative s => ("RelativeTo", s)
  end%string.
Definition among (col : string) (l : list string) : bool := existsb (String.eqb col) l.
Definition style_default (show : float -> str) (col : string) : str :=
  if String.eqb col "Name" then lit "NewStyle" else if String.eqb col "Fontname" then lit "Arial"
  else if String.eqb col "Fontsize" then lit "20" else if String.eqb col "PrimaryColour" then lit "&Hffffff"
  else if String.eqb col "SecondaryColour" then lit "&Hff0000" else if among col ["OutlineColour"; "BackColour"]%string then lit "&H0"
  else if among col ["ScaleX"; "ScaleY"]%string then show (Fin (100 # 1)) else if among col ["Spacing"; "Angle"; "Shadow"]%string then show (Fin (0 # 1))
  else if String.eqb col "Outline" then show (Fin (2 # 1)) else if among col ["BorderStyle"; "Encoding"]%string then lit "1"
  else if String.eqb col "Alignment" then lit "2" else if among col ["MarginL"; "MarginR"; "MarginV"]%string then lit "10" else lit "0".
Definition style_told (show : float -> str) (calls : list style_call) (col : string) : str :=
  latest (map (style_writes show) calls) col (style_default show col).
Definition style_names : list string :=
  ["Name"; "Fontname"; "Fontsize"; "PrimaryColour"; "SecondaryColour"; "OutlineColour"; "BackColour"; "Bold"; "Italic";
   "Underline"; "StrikeOut"; "ScaleX"; "ScaleY"; "Spacing"; "Angle"; "BorderStyle"; "Outline"; "Shadow"; "Alignment";
   "MarginL"; "MarginR"; "MarginV"; "MarginT"; "MarginB"; "Encoding"; "RelativeTo"]%string.
(* no comma, no blanks around, and not taken for the name of a parent *)
Definition cell (v : str) : Prop := comma_free v /\ trim_ok v /\ star v = false.
Definition style_call_ok (show : float -> str) (c : style_call) : Prop := cell (snd (style_writes show c)).
Definition style_told_as (show : float -> str) (cols : list string) (calls : list style_call) (n : N) : style :=
  let has c := existsb (String.eqb c) cols in
  let v c := if has c then style_told show calls c else [] in
  let o c := if has c then Some (style_told show calls c) else None in
  Style (v "Name") None (v "Fontname") (v "Fontsize") (v "PrimaryColour") (v "SecondaryColour") (v "OutlineColour") (v "BackColour")
    (v "Bold") (v "Italic") (v "Underline") (v "StrikeOut") (v "ScaleX") (v "ScaleY") (v "Spacing") (v "Angle") (v "BorderStyle")
    (v "Outline") (v "Shadow") (v "Alignment") (v "MarginL") (v "MarginR") (v "MarginV") (o "MarginT") (o "MarginB") (v "Encoding")
    (o "RelativeTo") (Span 0 0 n 1).
