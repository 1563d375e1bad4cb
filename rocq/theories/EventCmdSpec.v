(* What the event commands are meant to do, without reference to the model. *)
From Verif Require Import Base TimeSpec DocModel DocSpec EventCmdModel.

(* A document opened and then edited in any way, failed edits included. *)
Definition reached (sz : nat) (d : doc) : Prop := exists me mm t0 acts, do_all sz (fresh me mm t0) acts = Some d.

(* p occurs in a ++ p at the end only *)
Definition first_at (p a : str) : Prop := forall x y, a ++ p = x ++ p ++ y -> y = [].
(* The text up to and including the format line of the events. *)
Definition events_head (head : str) : Prop :=
  exists a m f, head = a ++ lit "[Events]" ++ m ++ lit "Format:" ++ f ++ [10%N] /\
    first_at (lit "[Events]") a /\ first_at (lit "Format:") (lit "[Events]" ++ m) /\ ~ In 10%N f.
(* A line that is neither empty nor a section header. *)
Definition in_section (l : str) : Prop := l <> [] /\ ~ In 10%N l /\ (forall r, l <> lit "[" ++ r).
Definition is_event (l : str) : Prop := (exists r, l = lit "Dialogue:" ++ r) \/ (exists r, l = lit "Comment:" ++ r).
(* Lines, each ended. *)
Definition ended (lines : list str) : str := concat (map (fun l => l ++ [10%N]) lines).
(* How many of the lines are events. *)
Inductive event_count : list str -> nat -> Prop :=
| ec_nil : event_count [] 0
| ec_event l ls n : is_event l -> event_count ls n -> event_count (l :: ls) (S n)
| ec_other l ls n : ~ is_event l -> event_count ls n -> event_count (l :: ls) n.
(* What may follow a line: the end of the text, or a newline and anything. *)
Definition after_line (rest : str) : Prop := rest = [] \/ exists r, rest = 10%N :: r.
(* What may follow the last line of the section: the end of the text, perhaps
   a newline before it, an empty line, or the next section. *)
Definition section_end (rest : str) : Prop :=
  rest = [] \/ rest = [10%N] \/ (exists r, rest = 10%N :: 10%N :: r) \/ (exists r, rest = 10%N :: lit "[" ++ r).
(* Only the named events (all, if none is named) are changed, as R says;
   `i` is the number of events before, `k` that of the changes. *)
Inductive changed_by (R : str -> str -> Prop) (named : list nat) : nat -> list str -> list str -> nat -> Prop :=
| cb_nil i : changed_by R named i [] [] 0
| cb_change i l l' ls ls' k : is_event l -> named = [] \/ In i named -> R l l' -> changed_by R named (S i) ls ls' k ->
    changed_by R named i (l :: ls) (l' :: ls') (S k)
| cb_keep i l ls ls' k : is_event l -> named <> [] -> ~ In i named -> changed_by R named (S i) ls ls' k ->
    changed_by R named i (l :: ls) (l :: ls') k
| cb_other i l ls ls' k : ~ is_event l -> changed_by R named i ls ls' k -> changed_by R named i (l :: ls) (l :: ls') k.
(* The commands go on one byte after where the old line ended.  This is the
   next line if the new line is as long, or else it must be in the new line
   and what follows there must not look like an event or a header. *)
Definition resumes (l l' : str) : Prop :=
  blen l' = blen l \/ exists u v, l' = u ++ v /\ blen u = blen l + 1 /\ in_section v /\ ~ is_event v.
(* The other type, all else the same. *)
Definition flips (l l' : str) : Prop :=
  exists r, (l = lit "Dialogue:" ++ r /\ l' = lit "Comment:" ++ r) \/ (l = lit "Comment:" ++ r /\ l' = lit "Dialogue:" ++ r).

(* ---- event lines ---- *)
Definition event_text (e : line_event) : str :=
  (if le_comment e then lit "Comment: " else lit "Dialogue: ") ++
  le_layer e ++ lit "," ++ le_start e ++ lit "," ++ le_end e ++ lit "," ++ le_style e ++ lit "," ++ le_name e ++ lit "," ++
  le_left e ++ lit "," ++ le_right e ++ lit "," ++ le_vertical e ++ lit "," ++ le_effect e ++ lit "," ++ le_text e.
(* No white space at either end. *)
Definition tight (s : str) : Prop :=
  (forall c r, s = c :: r -> is_ws c = false) /\ (forall c r, s = r ++ [c] -> is_ws c = false).
Definition plain_field (s : str) : Prop := tight s /\ ~ In 44%N s.
(* Parentheses closed in order; anything may be inside. *)
Inductive nested : str -> Prop :=
| ns_nil : nested []
| ns_char c s : c <> 40%N -> c <> 41%N -> nested s -> nested (c :: s)
| ns_paren s t : nested s -> nested t -> nested (40%N :: s ++ 41%N :: t).
(* Commas occur inside parentheses only. *)
Inductive shielded : str -> Prop :=
| sh_nil : shielded []
| sh_char c s : c <> 40%N -> c <> 41%N -> c <> 44%N -> shielded s -> shielded (c :: s)
| sh_paren s t : nested s -> shielded t -> shielded (40%N :: s ++ 41%N :: t).
(* The events the commands read back as they were written. *)
Definition clean (e : line_event) : Prop :=
  plain_field (le_layer e) /\ plain_field (le_start e) /\ plain_field (le_end e) /\ plain_field (le_style e) /\
  plain_field (le_name e) /\ plain_field (le_left e) /\ plain_field (le_right e) /\ plain_field (le_vertical e) /\
  plain_field (le_effect e) /\ Forall (fun c => (c < 128)%N) (le_effect e) /\ tight (le_text e) /\ shielded (le_text e).
(* s is a time, and v its centiseconds *)
Definition shows (v : N) (s : str) : Prop :=
  exists h m c x, time_fields s h m c x /\ (m < 60)%N /\ (c < 60)%N /\ v = centis h m c x /\ (v <= 4294967295)%N.
(* ---- times ---- *)
Definition later (v : N) (offset : Z) : N := Z.to_N (Z.max 0 (Z.of_N v + offset)).
(* l' is l with its start and end moved, the end kept after the start. *)
Definition retimed (start_offset end_offset : Z) (l l' : str) : Prop :=
  exists e a b, l = event_text e /\ clean e /\ shows a (le_start e) /\ shows b (le_end e) /\
    (a < 2147483648)%N /\ (b < 2147483648)%N /\
    (-2147483648 <= Z.of_N a + start_offset <= 2147483647)%Z /\ (-2147483648 <= Z.of_N b + end_offset <= 2147483647)%Z /\
    l' = event_text (LineEvent (le_comment e) (le_layer e) (format_ass_time (later a start_offset))
           (format_ass_time (N.max (later b end_offset) (later a start_offset + 1))) (le_style e) (le_name e)
           (le_left e) (le_right e) (le_vertical e) (le_effect e) (le_text e)).
(* The times are written as H:MM:SS.CC before and after. *)
Definition retimed_in_place (start_offset end_offset : Z) (l l' : str) : Prop :=
  exists e a b, l = event_text e /\ clean e /\ shows a (le_start e) /\ shows b (le_end e) /\
    blen (le_start e) = 10 /\ blen (le_end e) = 10 /\ (a < 3600000)%N /\ (b < 3600000)%N /\
    (Z.of_N a + start_offset < 3599999)%Z /\ (Z.of_N b + end_offset < 3600000)%Z /\
    (-2147483648 <= Z.of_N a + start_offset)%Z /\ (-2147483648 <= Z.of_N b + end_offset)%Z /\
    l' = event_text (LineEvent (le_comment e) (le_layer e) (format_ass_time (later a start_offset))
           (format_ass_time (N.max (later b end_offset) (later a start_offset + 1))) (le_style e) (le_name e)
           (le_left e) (le_right e) (le_vertical e) (le_effect e) (le_text e)).
(* ---- effects ---- *)
Definition effect_after (op : effect_operation) (effect old x : str) : Prop :=
  match op with
  | EffectSet => x = effect
  | EffectClear => x = []
  | EffectAppend => (old = [] /\ x = effect) \/ (old <> [] /\ x = old ++ lit " " ++ effect)
  | EffectPrepend => (old = [] /\ x = effect) \/ (old <> [] /\ x = effect ++ lit " " ++ old)
  end.
Definition effected (op : effect_operation) (effect : str) (l l' : str) : Prop :=
  exists e x, l = event_text e /\ clean e /\ effect_after op effect (le_effect e) x /\
    l' = event_text (LineEvent (le_comment e) (le_layer e) (le_start e) (le_end e) (le_style e) (le_name e)
           (le_left e) (le_right e) (le_vertical e) x (le_text e)).
(* The byte p of s is the first of a character, or p is the end or beyond. *)
Definition at_character (s : str) (p : nat) : Prop := blen s <= p \/ exists u v, s = u ++ v /\ blen u = p.
(* ---- lines without some events ---- *)
Inductive without_events (named : list nat) : nat -> list str -> list str -> nat -> Prop :=
| we_nil i : without_events named i [] [] 0
| we_drop i l ls ls' k : is_event l -> In i named -> without_events named (S i) ls ls' k -> without_events named i (l :: ls) ls' (S k)
| we_keep i l ls ls' k : is_event l -> ~ In i named -> without_events named (S i) ls ls' k -> without_events named i (l :: ls) (l :: ls') k
| we_other i l ls ls' k : ~ is_event l -> without_events named i ls ls' k -> without_events named i (l :: ls) (l :: ls') k.
(* the lines before the first named event *)
Definition before_dropped (named : list nat) (ls a : list str) : Prop :=
  exists l b i, ls = a ++ l :: b /\ is_event l /\ event_count a i /\ In i named /\ without_events named 0 a a 0.
(* ---- two events in one ---- *)
Definition merged (e1 e2 : line_event) (sep : str) : line_event :=
  LineEvent (le_comment e1) (le_layer e1) (le_start e1) (le_end e2) (le_style e1) (le_name e1)
    (le_left e1) (le_right e1) (le_vertical e1) (le_effect e1) (le_text e1 ++ sep ++ le_text e2).
