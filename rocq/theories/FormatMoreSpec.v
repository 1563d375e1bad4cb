(* Cue settings and header swaps, written out by hand. *)
From Verif Require Import Base ParseModel FormatSpec.

(* ---- settings the converter writes ---- *)
Definition int_text (z : Z) : str := match z with Zneg p => lit "-" ++ to_dec (Npos p) | _ => to_dec (Z.to_N z) end.
Definition i32 (z : Z) : Prop := (- 2147483648 <= z <= 2147483647)%Z.
(* the time line of a cue whose subtitle has vertical margin m *)
Definition margin_stamp (c : cue) (m : Z) : str :=
  stamp 46 c ++ (if (m =? 0)%Z then [] else lit " line:" ++ int_text (100 - m)).
Fixpoint margin_blocks (l : list (cue * Z)) : list str :=
  match l with [] => [] | (c, m) :: r => margin_stamp c m :: map html_line (cu_lines c) ++ [[]] ++ margin_blocks r end.
Definition style_lines : list str :=
  map lit ["STYLE"; "::cue {"; "  background-image: linear-gradient(to bottom, dimgray, lightgray);"; "  color: papayawhip;"; "}"; ""]%string.
Definition margin_file (style : bool) (l : list (cue * Z)) : str :=
  unlines ([lit "WEBVTT"; []] ++ (if style then style_lines else []) ++ margin_blocks l).
(* the event says the cue and has the margin; a margin that is no number counts as none *)
Definition says_with (e : event) (p : cue * Z) : Prop := says e (fst p) /\ e_margin_v e = int_text (snd p).

(* ---- settings the importer reads ---- *)
Definition setting_ok (p : str * str) : Prop :=
  Forall (fun c => is_ws c = false /\ c <> 45%N) (fst p ++ snd p) /\ ~ In 58%N (fst p).
Definition setting_text (p : str * str) : str := lit " " ++ fst p ++ lit ":" ++ snd p.
Definition set_file (c : cue) (ss : list (str * str)) : str :=
  unlines ([lit "WEBVTT"; []; stamp 46 c ++ concat (map setting_text ss)] ++ map html_line (cu_lines c) ++ [[]]).
(* the last value given for a key *)
Fixpoint value_of (k : str) (ss : list (str * str)) : option str :=
  match ss with
  | [] => None
  | (a, v) :: r => match value_of k r with Some w => Some w | None => if str_eqb a k then Some v else None end
  end.
(* whole-number positions: the column times 640 and the line times 480 *)
Definition place_tag (ss : list (str * str)) (t : str) : Prop :=
  (value_of (lit "line") ss = None \/ value_of (lit "position") ss = None) /\ t = [] \/
  exists b a, value_of (lit "line") ss = Some (to_dec b) /\ value_of (lit "position") ss = Some (to_dec a) /\
    (b < 30000 /\ a < 20000)%N /\ t = lit "\pos(" ++ to_dec (640 * a) ++ lit "," ++ to_dec (480 * b) ++ lit ")".
Definition align_tag (ss : list (str * str)) (t : str) : Prop :=
  value_of (lit "align") ss = None /\ t = [] \/
  exists w d, value_of (lit "align") ss = Some w /\ t = lit "\an" ++ [d] /\
    ((w = lit "start" \/ w = lit "left") /\ d = 49%N \/ (w = lit "end" \/ w = lit "right") /\ d = 51%N \/
     (~ In w [lit "start"; lit "left"; lit "end"; lit "right"]) /\ d = 50%N).
Definition in_block (t : str) : str := match t with [] => [] | _ => lit "{" ++ t ++ lit "}" end.

(* ---- swapping one text for another ---- *)
(* t is s with every occurrence of a turned into b, from the left, none
   overlapping the one before *)
Inductive swapped (a b : str) : str -> str -> Prop :=
| swapped_end s : (forall u v, s <> u ++ a ++ v) -> swapped a b s s
| swapped_next u v t : (forall u' v', u ++ a ++ v = u' ++ a ++ v' -> List.length u <= List.length u') ->
    swapped a b v t -> swapped a b (u ++ a ++ v) (u ++ b ++ t).
