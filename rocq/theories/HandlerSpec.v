(* What the built-in tag handlers and section processors accept, as grammars. *)
From Coq Require Export Permutation.
From Verif Require Export Base NumSpec FloatSpec.
From Verif Require PluginModel.
Local Open Scope nat_scope.

(* ---- texts ---- *)
(* a text with white space around it; the inner text neither starts nor ends
   with white space *)
Definition tight (c : str) : Prop := (forall x r, c = x :: r -> is_ws x = false) /\ (forall x r, c = r ++ [x] -> is_ws x = false).
Definition padded (P : str -> Prop) (s : str) : Prop :=
  exists a c b, s = a ++ c ++ b /\ Forall (fun x => is_ws x = true) a /\ Forall (fun x => is_ws x = true) b /\ tight c /\ P c.
Definition word_of (l : list string) (s : str) : Prop := exists w, In w l /\ s = lit w.
Definition filled (s : str) : Prop := s <> [].
(* an optional sign, digits, and optionally a point with digits *)
Definition coordinate (s : str) : Prop :=
  exists sg neg i f, sign_of sg neg /\ i <> [] /\ Forall decimal_digit (i ++ f) /\ (s = sg ++ i /\ f = [] \/ s = sg ++ i ++ [46%N] ++ f /\ f <> []).
Definition count_up_to (top : N) (s : str) : Prop := exists v, numeral s v /\ (v <= top)%N.
Definition u32_text : str -> Prop := count_up_to 4294967295.
(* an i32 that is not negative; "-0" is one *)
Definition time_text (s : str) : Prop := count_up_to 2147483647 s \/ exists d, s = 45%N :: d /\ d <> [] /\ Forall (eq 48%N) d.
Definition weight_text (s : str) : Prop := s = [] \/ word_of ["0"; "1"]%string s \/ exists v, numeral s v /\ In v [100; 200; 300; 400; 500; 600; 700; 800; 900]%N.
(* above zero, or at least zero; infinity counts, not-a-number does not *)
Definition size_text (s : str) : Prop := exists x, number_text f32 s x /\ (x = Inf false \/ exists q, x = Fin q /\ (0 < q)%Q).
Definition width_text (s : str) : Prop := exists x, number_text f32 s x /\ (x = Inf false \/ exists q, x = Fin q /\ (0 <= q)%Q).
Definition in_brackets (P : str -> Prop) (s : str) : Prop := exists m, s = [40%N] ++ m ++ [41%N] /\ P m.
(* texts separated by commas, each with white space around it *)
Definition comma_list (Ps : list (str -> Prop)) (s : str) : Prop := exists ws, s = join [44%N] ws /\ Forall2 padded Ps ws.
Definition commas (s : str) : nat := count_occ N.eq_dec s 44%N.
Definition hex_digit (c : char) : Prop := (48 <= c <= 57 \/ 65 <= c <= 70 \/ 97 <= c <= 102)%N.
Definition hex_text (n : nat) (s : str) : Prop := exists h, s = lit "&H" ++ h ++ lit "&" /\ List.length h = n /\ Forall hex_digit h.
(* four coordinates; anything without exactly three commas counts as a drawing
   if it has one of the command letters *)
Definition clip_text (m : str) : Prop :=
  comma_list (repeat coordinate 4) m \/ commas m <> 3 /\ exists c, In c m /\ In c (lit "mnlbspc").

(* ---- every handler: its name, what it accepts, what it says otherwise ---- *)
Record rule := Rule { ru_name : string; ru_accepts : str -> Prop; ru_message : string }.
Definition colour (n : string) : rule := Rule n (hex_text 6) "Color tag requires &Hbbggrr& format".
Definition alpha (n : string) : rule := Rule n (hex_text 2) "Alpha tag requires &Haa& format".
Definition rules : list rule :=
  [Rule "bord" width_text "Border tag requires non-negative numeric width";
   Rule "shad" width_text "Shadow tag requires non-negative numeric depth";
   Rule "be" (word_of ["0"; "1"]) "Blur edges tag accepts only 0 or 1";
   Rule "a" (word_of ["1"; "2"; "3"; "5"; "6"; "7"; "9"; "10"; "11"]) "Alignment tag requires valid alignment code (1-11)";
   Rule "an" (word_of ["1"; "2"; "3"; "4"; "5"; "6"; "7"; "8"; "9"]) "Numpad alignment tag requires value 1-9";
   Rule "q" (word_of ["0"; "1"; "2"; "3"]) "Wrapping style tag requires value 0-3";
   Rule "t" (in_brackets (padded filled)) "Transform tag requires (modifiers) or (t1,t2,[accel,]modifiers)";
   Rule "fade" (in_brackets (comma_list (repeat (count_up_to 255) 3 ++ repeat time_text 4))) "Fade tag requires (a1,a2,a3,t1,t2,t3,t4) - 7 numeric parameters";
   Rule "fad" (in_brackets (comma_list [u32_text; u32_text])) "Simple fade tag requires (t1,t2) - fade in and out durations";
   Rule "clip" (in_brackets (padded clip_text)) "Clip tag requires (x1,y1,x2,y2) or ([scale,]drawing commands)";
   colour "c"; colour "1c"; colour "2c"; colour "3c"; colour "4c";
   alpha "alpha"; alpha "1a"; alpha "2a"; alpha "3a"; alpha "4a";
   Rule "fn" filled "Font name tag requires a font name";
   Rule "fs" size_text "Font size tag requires positive numeric size";
   Rule "fe" u32_text "Font encoding tag requires numeric charset";
   Rule "b" weight_text "Bold tag accepts 0, 1, or font weight (100-900 in steps of 100)";
   Rule "i" (word_of [""; "0"; "1"]) "Italic tag accepts only 0, 1, or empty";
   Rule "u" (word_of [""; "0"; "1"]) "Underline tag accepts only 0, 1, or empty";
   Rule "s" (word_of [""; "0"; "1"]) "Strikeout tag accepts only 0, 1, or empty";
   Rule "k" u32_text "Karaoke tag `k` expects duration in hundredths of seconds";
   Rule "kf" u32_text "Fill karaoke tag `kf` expects duration in hundredths of seconds";
   Rule "ko" u32_text "Outline karaoke tag `ko` expects duration in hundredths of seconds";
   Rule "kt" u32_text "Karaoke timing tag `kt` expects an integer duration in centiseconds";
   Rule "r" (fun _ => True) "";
   Rule "fr" coordinate "Rotation tag requires numeric degrees";
   Rule "org" (in_brackets (comma_list [coordinate; coordinate])) "Origin tag requires (x,y) coordinates";
   Rule "pos" (comma_list [coordinate; coordinate]) "Position tag requires (x,y) coordinates";
   Rule "move" (fun s => comma_list (repeat coordinate 4) s \/ comma_list (repeat coordinate 6) s) "Move tag requires (x1,y1,x2,y2[,t1,t2]) coordinates";
   Rule "n" (eq []) "Line break tag takes no arguments";
   Rule "N" (eq []) "Line break tag takes no arguments";
   Rule "h" (eq []) "Hard space tag takes no arguments";
   Rule "frz" coordinate "Rotation tag requires numeric degrees";
   Rule "frx" coordinate "Rotation tag requires numeric degrees";
   Rule "fry" coordinate "Rotation tag requires numeric degrees";
   Rule "fscx" coordinate "Scale tag requires numeric percent";
   Rule "fscy" coordinate "Scale tag requires numeric percent";
   Rule "fax" coordinate "Shear tag requires numeric factor";
   Rule "fay" coordinate "Shear tag requires numeric factor";
   Rule "fsp" coordinate "Spacing tag requires numeric pixels"]%string.

(* the answer of the handlers to a tag *)
Inductive answered (n args : str) : option PluginModel.verdict -> Prop :=
| ans_accept r : In r rules -> n = lit (ru_name r) -> padded (ru_accepts r) args -> answered n args (Some PluginModel.Processed)
| ans_reject r : In r rules -> n = lit (ru_name r) -> ~ padded (ru_accepts r) args -> answered n args (Some (PluginModel.Failed (lit (ru_message r))))
| ans_nobody : (forall r, In r rules -> n <> lit (ru_name r)) -> answered n args None.

(* ---- sections ---- *)
(* equal up to the case of ASCII letters *)
Definition same_letter (c d : char) : Prop := (c = d \/ (65 <= c <= 90 /\ d = c + 32) \/ (65 <= d <= 90 /\ c = d + 32))%N.
(* an empty line, a comment, or one with '=' or ':' in it *)
Definition project_line (s : str) : Prop := s = [] \/ (exists r, s = lit "!" ++ r) \/ In 61%N s \/ In 58%N s.
Definition short_line (s : str) : Prop := (N.of_nat (blen s) <= 10000)%N.

(* ---- registering in the editor: the groups and their tags, in order ---- *)
Definition in_order : list (string * string) :=
  flat_map (fun g => map (pair (fst g)) (snd g))
    [("formatting", ["b"; "i"; "u"; "s"]); ("special", ["n"; "N"; "h"]); ("font", ["fn"; "fs"; "fe"]); ("advanced", ["bord"; "shad"; "be"]); ("alignment", ["a"; "an"; "q"]);
     ("karaoke", ["k"; "kf"; "ko"; "kt"]); ("position", ["pos"; "move"]); ("color", ["c"; "1c"; "2c"; "3c"; "4c"; "alpha"; "1a"; "2a"; "3a"; "4a"]);
     ("transform", ["frz"; "frx"; "fry"; "fscx"; "fscy"; "fax"; "fay"; "fsp"]); ("animation", ["t"; "fade"; "fad"]); ("clipping", ["clip"]); ("misc", ["r"; "fr"; "org"])]%string.
