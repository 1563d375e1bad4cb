(* The event commands: C38-C41 and C81-C83. *)
From Verif Require Import Base BaseLemmas TimeModel TimeSpec DocModel DocSpec DocProofs ParseModel EventCmdModel EventCmdSpec
  EventCmdProofs EventCmdLine EventCmdEdit EventCmdScan EventCmdDelete.

Definition nl : str := [10%N].
Definition ex_head : str := lit "[Events]" ++ nl ++ lit "Format: Layer" ++ nl.
Definition ex_doc (body : str) : doc := fresh 50 0 (ex_head ++ body).
(* The text after a command, None if it fails. *)
Definition text_after {A} (o : outcome A) : option str := match o with Done (d, Some _) => Some (text d) | _ => None end.
Definition ev (l : list string) : str := ended (map lit l).
Lemma ex_reached sz body : reached sz (ex_doc body).
Proof. exists 50, 0, (ex_head ++ body), []. reflexivity. Qed.
Lemma first_at_short p a : (forall n, 0 < n -> n <= List.length a -> firstn (List.length p) (skipn (List.length a - n) (a ++ p)) <> p) -> first_at p a.
Proof.
  intros H x y E. destruct (Nat.le_gt_cases (List.length a) (List.length x)) as [L|L].
  - apply (f_equal (@List.length _)) in E. rewrite !app_length in E. destruct y; [reflexivity|]. cbn in E. lia.
  - exfalso. apply (H (List.length a - List.length x)); [lia|lia|].
    replace (List.length a - (List.length a - List.length x)) with (List.length x) by lia. rewrite E.
    rewrite skipn_app, skipn_all, Nat.sub_diag. cbn [app skipn]. rewrite firstn_app, Nat.sub_diag, firstn_all. cbn [firstn]. apply app_nil_r.
Qed.
Lemma ex_events_head : events_head ex_head.
Proof.
  exists [], nl, (lit " Layer"). split; [reflexivity|]. split; [|split].
  - intros x y E. apply (f_equal (@List.length _)) in E. rewrite !app_length in E. destruct y; [reflexivity|]. cbn in E. lia.
  - apply first_at_short. intros n H1 H2. change (List.length (lit "[Events]" ++ nl)) with 9 in *.
    do 10 (destruct n as [|n]; [try lia; vm_compute; discriminate|]). lia.
  - cbn. intuition discriminate.
Qed.

Lemma tight_ends s : match s with [] => True | c :: _ => is_ws c = false /\ is_ws (last s 0%N) = false end -> tight s.
Proof.
  intros H. split.
  - intros c r ->. apply H.
  - intros c r ->. destruct r; [apply H|]. destruct H as [_ H]. now rewrite last_last in H.
Qed.
Ltac plain := split; [apply tight_ends; vm_compute; auto|cbn; intuition discriminate].
Ltac charwise := repeat first [apply ns_nil | apply sh_nil | apply ns_char; [discriminate|discriminate|] | apply sh_char; [discriminate|discriminate|discriminate|]].
Definition ex_event : line_event :=
  LineEvent false (lit "0") (lit "0:00:01.00") (lit "0:00:05.00") (lit "S") (lit "N") (lit "0") (lit "0") (lit "0") (lit "fx") (lit "{\pos(1,2)}Hi").
Lemma ex_clean : clean ex_event.
Proof.
  unfold clean, ex_event. cbn [le_layer le_start le_end le_style le_name le_left le_right le_vertical le_effect le_text].
  do 9 (split; [plain|]). split; [repeat constructor; cbn; lia|]. split; [apply tight_ends; vm_compute; auto|].
  change (lit "{\pos(1,2)}Hi") with (lit "{\pos" ++ 40%N :: lit "1,2" ++ 41%N :: lit "}Hi"). cbn [lit app map list_ascii_of_string].
  charwise. refine (sh_paren (lit "1,2") _ _ _); charwise.
Qed.
Lemma ex_shows : shows 100 (lit "0:00:01.00") /\ shows 500 (lit "0:00:05.00") /\ shows 250 (lit "0:00:02.50").
Proof.
  assert (H : forall v s, parse_ass_time s = Ok v -> shows v s).
  { intros v s Q. apply TimeProps.time_parse_exact in Q as (h & m & c & x & Q1 & Q2 & Q3 & Q4 & Q5). exists h, m, c, x. auto. }
  split; [|split]; apply H; vm_compute; reflexivity.
Qed.
Example ex_in_section : in_section (event_text ex_event) /\ is_event (event_text ex_event).
Proof. split; [split; [discriminate|split; [cbn; intuition discriminate|intros r; discriminate]]|left; eexists; reflexivity]. Qed.
Lemma flip_flips l : is_event l -> flips l (flip l).
Proof.
  intros [[r ->]|[r ->]].
  - exists r. left. split; [reflexivity|]. apply flip_spec. exists r. now left.
  - exists r. right. split; [reflexivity|]. apply flip_spec. exists r. now right.
Qed.

(* ---- C38 ---- *)
(* Toggling one event changes that line and nothing else, unless it is a
   Dialogue line and the next line starts with a character beyond ASCII. *)
Theorem toggle_one : forall sz d head before l rest k fuel,
  reached sz d -> events_head head -> text d = head ++ ended before ++ l ++ rest ->
  Forall in_section before -> event_count before k -> in_section l -> is_event l -> after_line rest ->
  (forall c s, rest = 10%N :: c :: s -> (c < 128)%N) -> 2 * blen (text d) + 4 <= fuel ->
  exists l' d' r, flips l l' /\ toggle fuel sz [k] d = Done (d', Some (r, 1)) /\
    m_range r = Some (mkRange (blen (head ++ ended before)) (blen (head ++ ended before ++ l'))) /\
    text d' = head ++ ended before ++ l' ++ rest /\ reached sz d'.
Proof.
  intros sz d head before l rest k fuel HR Hh E HF HC Hl Hev Hr Hc Hf.
  pose proof (flip_flips l Hev) as F.
  assert (B : blen (flip l) <= blen l + 1).
  { destruct F as [r [[-> ->]|[-> ->]]]; rewrite !blen_app; change (blen (lit "Dialogue:")) with 9; change (blen (lit "Comment:")) with 8; lia. }
  destruct (command_one sz (fun l => Done (Some (flip l))) d head before l (flip l) rest k fuel HR Hh E HF HC Hl Hev Hr eq_refl) as (d' & D & T & R).
  - rewrite (app_assoc head), (app_assoc head (ended before) l). apply toggle_lands; [exact F|exact Hr|]. intros r c s _ Q. exact (Hc c s Q).
  - rewrite E in Hf. rewrite !blen_app in *. lia.
  - exists (flip l), d'. eexists. split; [exact F|]. split; [exact D|]. split; [reflexivity|]. auto.
Qed.
Example toggle_one_instance :
  text_after (toggle 500 0 [1] (ex_doc (ev ["Dialogue: 0,a"; "; note"; "Comment: 0,b"; "Dialogue: 0,c"]%string))) =
    Some (ex_head ++ ev ["Dialogue: 0,a"; "; note"; "Dialogue: 0,b"; "Dialogue: 0,c"]%string).
Proof. vm_compute. reflexivity. Qed.
(* and toggling it once more restores the text *)
Theorem toggle_twice : forall sz d head before l rest k fuel,
  reached sz d -> events_head head -> text d = head ++ ended before ++ l ++ rest ->
  Forall in_section before -> event_count before k -> in_section l -> is_event l -> after_line rest ->
  (forall c s, rest = 10%N :: c :: s -> (c < 128)%N) -> 2 * blen (text d) + 6 <= fuel ->
  exists d1 r1 d2 r2, toggle fuel sz [k] d = Done (d1, Some r1) /\ text d1 <> text d /\
    toggle fuel sz [k] d1 = Done (d2, Some r2) /\ text d2 = text d.
Proof.
  intros sz d head before l rest k fuel HR Hh E HF HC Hl Hev Hr Hc Hf.
  destruct (toggle_one sz d head before l rest k fuel HR Hh E HF HC Hl Hev Hr Hc ltac:(lia)) as (l' & d1 & r1 & F & T1 & _ & E1 & R1).
  assert (B : blen l' <= blen l + 1).
  { destruct F as [r [[-> ->]|[-> ->]]]; rewrite !blen_app; change (blen (lit "Dialogue:")) with 9; change (blen (lit "Comment:")) with 8; lia. }
  destruct (toggle_one sz d1 head before l' rest k fuel R1 Hh E1 HF HC (flips_in_section _ _ F Hl) (flips_event _ _ (flips_sym _ _ F)) Hr Hc) as (l2 & d2 & r2 & F2 & T2 & _ & E2 & _).
  { rewrite E1. rewrite E in Hf. rewrite !blen_app in *. lia. }
  exists d1, (r1, 1), d2, (r2, 1). split; [exact T1|]. split.
  - rewrite E1, E. intros Q. apply app_inv_head, app_inv_head, app_inv_tail in Q. subst l'. destruct F as [r [[-> Q]|[-> Q]]]; discriminate Q.
  - split; [exact T2|]. rewrite E2, E. do 3 f_equal.
    destruct F as [r [[-> ->]|[-> ->]]], F2 as [q [[Q ->]|[Q ->]]]; try discriminate Q; apply app_inv_head in Q; now subst.
Qed.
(* Otherwise it panics. *)
Theorem toggle_panics : forall sz d head before r c s k fuel,
  reached sz d -> events_head head -> text d = head ++ ended before ++ (lit "Dialogue:" ++ r) ++ 10%N :: c :: s ->
  Forall in_section before -> event_count before k -> in_section (lit "Dialogue:" ++ r) ->
  (128 <= c)%N -> blen (text d) + 2 <= fuel ->
  toggle fuel sz [k] d = Crash.
Proof.
  intros sz d head before r c s k fuel HR Hh E HF HC Hl Hc Hf.
  assert (Hev : is_event (lit "Dialogue:" ++ r)) by (left; eauto).
  assert (Q : flip (lit "Dialogue:" ++ r) = lit "Comment:" ++ r).
  { destruct (flip_flips _ Hev) as [q [[Q ->]|[Q _]]]; [|discriminate Q]. apply app_inv_head in Q. now subst. }
  apply (command_panics sz (fun l => Done (Some (flip l))) d head before (lit "Dialogue:" ++ r) (flip (lit "Dialogue:" ++ r)) (10%N :: c :: s) k fuel);
    try assumption; [right; eauto|reflexivity|]. rewrite Q, (app_assoc head), (app_assoc head (ended before) (lit "Dialogue:" ++ r)). now apply toggle_misses.
Qed.
Example toggle_panics_instance :
  toggle 500 0 [0] (ex_doc (ev ["Dialogue: 0,a"]%string ++ [233%N] ++ lit "tude" ++ nl)) = Crash.
Proof. vm_compute. reflexivity. Qed.
(* It ends on every document, whatever is selected. *)
Lemma edit_ends_rounds sz indices rw : (forall l l', is_event l -> rw l = Done (Some l') -> blen l' <= 2 * blen l) ->
  (forall l, rw l <> Stuck) ->
  forall fuel d index start total changes, reached sz d -> blen (text d) - start < fuel ->
  edit_events fuel sz indices rw d index start total changes <> Stuck.
Proof.
  intros Hrw Hns fuel. induction fuel as [|f IH]; intros d index start total changes HR Hf; [lia|]. cbn [edit_events].
  destruct (Nat.ltb_spec start (blen (text d))) as [L|L]; [|discriminate].
  destruct (slice_from (text d) start) as [rest|] eqn:Er; [|discriminate]. cbn [need bind].
  destruct (Nat.leb_spec (line_end (text d) rest start) start) as [L2|L2]; [discriminate|].
  destruct (slice (text d) start (line_end (text d) rest start)) as [line|] eqn:El; [|discriminate]. cbn [need bind].
  destruct (proj1 (slice_spec _ _ _ _) El) as (a & b & E1 & E2 & E3).
  set (end_ := line_end (text d) rest start) in *. clearbody end_.
  destruct (is_event_line line) eqn:Ev.
  2: { destruct (starts_with (lit "[") line); [discriminate|]. apply IH; [exact HR|lia]. }
  destruct (selected indices index); [|apply IH; [exact HR|lia]].
  destruct (rw line) as [[l'|]| |] eqn:Ew; cbn [bind]; [| |discriminate|exfalso; now apply (Hns line)].
  2: { apply IH; [exact HR|lia]. }
  assert (Hend : end_ = blen a + blen line) by lia.
  rewrite range_new_le by lia. subst start. rewrite Hend.
  destruct (replace_ok sz d a line b l' HR E1) as (d1 & D & T & R). rewrite D. cbn [of_out and_then bind fst snd].
  apply IH; [exact R|]. specialize (Hrw line l' (proj1 (event_line_spec line) Ev) Ew). rewrite T, E1, !blen_app in *. lia.
Qed.
Theorem toggle_ends : forall sz indices d fuel, reached sz d -> blen (text d) < fuel -> toggle fuel sz indices d <> Stuck.
Proof.
  intros sz indices d fuel HR Hf. unfold toggle, edit_command. destruct (format_line_end (text d)) as [p|]; [|discriminate].
  match goal with |- and_then ?x _ <> _ => assert (H : x <> Stuck) end.
  - apply edit_ends_rounds; [|discriminate|exact HR|lia]. intros l l' Hev Q. injection Q as <-.
    destruct (flip_flips l Hev) as [r [[-> ->]|[-> ->]]]; rewrite !blen_app; change (blen (lit "Dialogue:")) with 9; change (blen (lit "Comment:")) with 8; lia.
  - unfold and_then. destruct (edit_events _ _ _ _ _ _ _ _ _) as [[d1 [[t n]|]]| |]; try discriminate. contradiction.
Qed.
Example toggle_ends_instance : toggle 60 0 [] (ex_doc (ev ["Dialogue: 0,a"; "Comment: 0,b"]%string)) <> Stuck.
Proof. vm_compute. discriminate. Qed.
(* With more than one event selected the claim is false: the event after a
   changed Dialogue line is not seen, *)
Theorem toggle_all_refuted : exists d, reached 0 d /\
  text d = ex_head ++ ev ["Dialogue: 0,a"; "Dialogue: 0,b"; "Dialogue: 0,c"]%string /\
  text_after (toggle 200 0 [] d) = Some (ex_head ++ ev ["Comment: 0,a"; "Dialogue: 0,b"; "Comment: 0,c"]%string).
Proof.
  exists (ex_doc (ev ["Dialogue: 0,a"; "Dialogue: 0,b"; "Dialogue: 0,c"]%string)). split; [apply ex_reached|].
  split; vm_compute; reflexivity.
Qed.
(* so that another event than the named one is changed, *)
Theorem toggle_named_refuted : exists d, reached 0 d /\
  text d = ex_head ++ ev ["Dialogue: 0,a"; "Dialogue: 0,b"; "Dialogue: 0,c"]%string /\
  text_after (toggle 200 0 [0; 1] d) = Some (ex_head ++ ev ["Comment: 0,a"; "Dialogue: 0,b"; "Comment: 0,c"]%string).
Proof. exists (ex_doc (ev ["Dialogue: 0,a"; "Dialogue: 0,b"; "Dialogue: 0,c"]%string)). split; [apply ex_reached|]. split; vm_compute; reflexivity. Qed.
(* and nothing after a changed Comment line is. *)
Theorem toggle_comments_refuted : exists d, reached 0 d /\
  text d = ex_head ++ ev ["Comment: 0,a"; "Comment: 0,b"]%string /\
  text_after (toggle 200 0 [] d) = Some (ex_head ++ ev ["Dialogue: 0,a"; "Comment: 0,b"]%string).
Proof. exists (ex_doc (ev ["Comment: 0,a"; "Comment: 0,b"]%string)). split; [apply ex_reached|]. split; vm_compute; reflexivity. Qed.

(* ---- C39 ---- *)
(* Any selection of events: exactly the named events (all, if none is named)
   are moved, and all other text stays. *)
Theorem adjust_all : forall sz d head ls ls' rest k indices so eo fuel,
  reached sz d -> events_head head -> text d = head ++ join [10%N] ls ++ rest -> section_end rest ->
  Forall in_section ls -> changed_by (fun l l' => retimed so eo l l' /\ resumes l l') indices 0 ls ls' k -> 2 * List.length ls + 1 <= fuel ->
  exists d' r, adjust_timing fuel sz indices so eo d = Done (d', Some (r, k)) /\ changed r = (0 <? k) /\
    text d' = head ++ join [10%N] ls' ++ rest /\ reached sz d'.
Proof.
  intros sz d head ls ls' rest k indices so eo fuel. apply command_all. intros l l' [H1 H2]. split; [now apply shift_retimed|exact H2].
Qed.
(* Times that keep their ten characters need no such care. *)
Theorem adjust_in_place : forall sz d head ls ls' rest k indices so eo fuel,
  reached sz d -> events_head head -> text d = head ++ join [10%N] ls ++ rest -> section_end rest ->
  Forall in_section ls -> changed_by (retimed_in_place so eo) indices 0 ls ls' k -> 2 * List.length ls + 1 <= fuel ->
  exists d' r, adjust_timing fuel sz indices so eo d = Done (d', Some (r, k)) /\ changed r = (0 <? k) /\
    text d' = head ++ join [10%N] ls' ++ rest /\ reached sz d'.
Proof.
  intros sz d head ls ls' rest k indices so eo fuel. apply command_all. intros l l' H. destruct (shift_in_place so eo l l' H) as [H1 H2].
  split; [exact H1|now left].
Qed.
(* One event, whatever the lengths, provided the place where the loop goes on
   is the first byte of a character. *)
Theorem adjust_one : forall sz d head before l l' rest k so eo fuel,
  reached sz d -> events_head head -> text d = head ++ ended before ++ l ++ rest ->
  Forall in_section before -> event_count before k -> in_section l -> is_event l -> after_line rest ->
  retimed so eo l l' -> at_character (head ++ ended before ++ l' ++ rest) (blen (head ++ ended before ++ l) + 1) ->
  2 * blen (head ++ ended before ++ l' ++ rest) + 2 <= fuel ->
  exists d' r, adjust_timing fuel sz [k] so eo d = Done (d', Some (r, 1)) /\
    text d' = head ++ ended before ++ l' ++ rest /\ reached sz d'.
Proof.
  intros sz d head before l l' rest k so eo fuel HR Hh E HF HC Hl Hev Hr Hl' Hat Hf.
  destruct (command_one sz (shift so eo) d head before l l' rest k fuel HR Hh E HF HC Hl Hev Hr (shift_retimed _ _ _ _ Hl') Hat Hf) as (d' & D & T & R).
  eauto.
Qed.
Theorem adjust_one_panics : forall sz d head before l l' rest k so eo fuel,
  reached sz d -> events_head head -> text d = head ++ ended before ++ l ++ rest ->
  Forall in_section before -> event_count before k -> in_section l -> is_event l -> after_line rest ->
  retimed so eo l l' -> ~ at_character (head ++ ended before ++ l' ++ rest) (blen (head ++ ended before ++ l) + 1) ->
  blen (text d) + 2 <= fuel ->
  adjust_timing fuel sz [k] so eo d = Crash.
Proof.
  intros sz d head before l l' rest k so eo fuel HR Hh E HF HC Hl Hev Hr Hl' Hat Hf.
  exact (command_panics sz (shift so eo) d head before l l' rest k fuel HR Hh E HF HC Hl Hev Hr (shift_retimed _ _ _ _ Hl') Hat Hf).
Qed.
Example adjust_instance :
  text_after (adjust_timing 500 0 [] 150 (-50) (ex_doc (ev ["Dialogue: 0,0:00:01.00,0:00:05.00,S,N,0,0,0,,{\pos(1,2)}Hi"; "Comment: 0,0:00:02.00,0:00:03.00,S,N,0,0,0,e,x"]%string))) =
    Some (ex_head ++ ev ["Dialogue: 0,0:00:02.50,0:00:04.50,S,N,0,0,0,,{\pos(1,2)}Hi"; "Comment: 0,0:00:03.50,0:00:03.51,S,N,0,0,0,e,x"]%string).
Proof. vm_compute. reflexivity. Qed.
Example retimed_instance : retimed_in_place 150 (-50) (event_text ex_event) (lit "Dialogue: 0,0:00:02.50,0:00:04.50,S,N,0,0,0,fx,{\pos(1,2)}Hi").
Proof.
  destruct ex_shows as (S1 & S2 & _). exists ex_event, 100%N, 500%N. split; [reflexivity|]. split; [apply ex_clean|]. split; [exact S1|]. split; [exact S2|].
  split; [reflexivity|]. split; [reflexivity|]. do 6 (split; [lia|]). vm_compute. reflexivity.
Qed.
(* A comma in the text: what precedes it goes to the effect, and the space
   after it is lost. *)
Theorem adjust_comma_refuted : exists d, reached 0 d /\
  text d = ex_head ++ ev ["Dialogue: 0,0:00:01.00,0:00:05.00,S,N,0,0,0,,Hello, world"]%string /\
  text_after (adjust_timing 200 0 [] 0 0 d) = Some (ex_head ++ ev ["Dialogue: 0,0:00:01.00,0:00:05.00,S,N,0,0,0,,Hello,world"]%string).
Proof. exists (ex_doc (ev ["Dialogue: 0,0:00:01.00,0:00:05.00,S,N,0,0,0,,Hello, world"]%string)). split; [apply ex_reached|]. split; vm_compute; reflexivity. Qed.
(* A character beyond ASCII before such a comma: the text is cut at the wrong
   byte, *)
Theorem adjust_accent_refuted : exists d, reached 0 d /\
  text d = ex_head ++ lit "Dialogue: 0,0:00:01.00,0:00:05.00,S,N,0,0,0,," ++ [233%N] ++ lit "a,b" ++ nl /\
  text_after (adjust_timing 200 0 [] 0 0 d) = Some (ex_head ++ lit "Dialogue: 0,0:00:01.00,0:00:05.00,S,N,0,0,0,," ++ [233%N] ++ lit ",,b" ++ nl).
Proof.
  exists (ex_doc (lit "Dialogue: 0,0:00:01.00,0:00:05.00,S,N,0,0,0,," ++ [233%N] ++ lit "a,b" ++ nl)). split; [apply ex_reached|]. split; vm_compute; reflexivity.
Qed.
(* or the command panics. *)
Theorem adjust_accent_panics : exists d, reached 0 d /\
  text d = ex_head ++ lit "Dialogue: 0,0:00:01.00,0:00:05.00,S,N,0,0,0,," ++ [8212%N] ++ lit ",b" ++ nl /\
  adjust_timing 200 0 [] 0 0 d = Crash.
Proof.
  exists (ex_doc (lit "Dialogue: 0,0:00:01.00,0:00:05.00,S,N,0,0,0,," ++ [8212%N] ++ lit ",b" ++ nl)). split; [apply ex_reached|]. split; vm_compute; reflexivity.
Qed.
(* Times that grow: the events after the first are missed. *)
Theorem adjust_growth_refuted : exists d, reached 0 d /\
  text d = ex_head ++ ev ["Dialogue: 0,9:59:58.00,9:59:59.50,S,N,0,0,0,,a"; "Dialogue: 0,0:00:01.00,0:00:02.00,S,N,0,0,0,,b"; "Dialogue: 0,0:00:03.00,0:00:04.00,S,N,0,0,0,,c"]%string /\
  text_after (adjust_timing 400 0 [] 100 100 d) =
    Some (ex_head ++ ev ["Dialogue: 0,9:59:59.00,10:00:00.50,S,N,0,0,0,,a"; "Dialogue: 0,0:00:01.00,0:00:02.00,S,N,0,0,0,,b"; "Dialogue: 0,0:00:03.00,0:00:04.00,S,N,0,0,0,,c"]%string).
Proof.
  exists (ex_doc (ev ["Dialogue: 0,9:59:58.00,9:59:59.50,S,N,0,0,0,,a"; "Dialogue: 0,0:00:01.00,0:00:02.00,S,N,0,0,0,,b"; "Dialogue: 0,0:00:03.00,0:00:04.00,S,N,0,0,0,,c"]%string)).
  split; [apply ex_reached|]. split; vm_compute; reflexivity.
Qed.
(* The sum of time and offset may overflow, *)
Theorem adjust_overflow_panics : exists d, reached 0 d /\
  text d = ex_head ++ ev ["Dialogue: 0,0:00:01.00,0:00:05.00,S,N,0,0,0,,a"]%string /\
  adjust_timing 200 0 [0] 2147483647 0 d = Crash.
Proof. exists (ex_doc (ev ["Dialogue: 0,0:00:01.00,0:00:05.00,S,N,0,0,0,,a"]%string)). split; [apply ex_reached|]. split; vm_compute; reflexivity. Qed.
(* and a time of 2^31 centiseconds or more is taken to be negative. *)
Theorem adjust_wrap_refuted : exists d, reached 0 d /\
  text d = ex_head ++ ev ["Dialogue: 0,6000:00:00.00,6000:00:01.00,S,N,0,0,0,,a"]%string /\
  text_after (adjust_timing 200 0 [0] 0 0 d) = Some (ex_head ++ ev ["Dialogue: 0,0:00:00.00,0:00:00.01,S,N,0,0,0,,a"]%string).
Proof. exists (ex_doc (ev ["Dialogue: 0,6000:00:00.00,6000:00:01.00,S,N,0,0,0,,a"]%string)). split; [apply ex_reached|]. split; vm_compute; reflexivity. Qed.

(* ---- C81  effects ---- *)
Theorem effect_one : forall sz d head before l l' rest k op x fuel,
  reached sz d -> events_head head -> text d = head ++ ended before ++ l ++ rest ->
  Forall in_section before -> event_count before k -> in_section l -> is_event l -> after_line rest ->
  effected op x l l' -> at_character (head ++ ended before ++ l' ++ rest) (blen (head ++ ended before ++ l) + 1) ->
  2 * blen (head ++ ended before ++ l' ++ rest) + 2 <= fuel ->
  exists d' r, change_effect fuel sz [k] op x d = Done (d', Some (r, 1)) /\
    text d' = head ++ ended before ++ l' ++ rest /\ reached sz d'.
Proof.
  intros sz d head before l l' rest k op x fuel HR Hh E HF HC Hl Hev Hr Hl' Hat Hf.
  destruct (command_one sz (put_effect op x) d head before l l' rest k fuel HR Hh E HF HC Hl Hev Hr (put_effected _ _ _ _ Hl') Hat Hf) as (d' & D & T & R).
  eauto.
Qed.
Theorem effect_all : forall sz d head ls ls' rest k indices op x fuel,
  reached sz d -> events_head head -> text d = head ++ join [10%N] ls ++ rest -> section_end rest ->
  Forall in_section ls -> changed_by (fun l l' => effected op x l l' /\ resumes l l') indices 0 ls ls' k -> 2 * List.length ls + 1 <= fuel ->
  exists d' r, change_effect fuel sz indices op x d = Done (d', Some (r, k)) /\ changed r = (0 <? k) /\
    text d' = head ++ join [10%N] ls' ++ rest /\ reached sz d'.
Proof.
  intros sz d head ls ls' rest k indices op x fuel. apply command_all. intros l l' [H1 H2]. split; [now apply put_effected|exact H2].
Qed.
Example effect_instance :
  text_after (change_effect 500 0 [1] EffectAppend (lit "fade") (ex_doc (ev ["Dialogue: 0,1,2,S,N,0,0,0,,Hi"; "Dialogue: 0,1,2,S,N,0,0,0,Karaoke,{\t(1,2)}x"]%string))) =
    Some (ex_head ++ ev ["Dialogue: 0,1,2,S,N,0,0,0,,Hi"; "Dialogue: 0,1,2,S,N,0,0,0,Karaoke fade,{\t(1,2)}x"]%string).
Proof. vm_compute. reflexivity. Qed.
Example effected_instance : effected EffectAppend (lit "fade") (event_text ex_event) (lit "Dialogue: 0,0:00:01.00,0:00:05.00,S,N,0,0,0,fx fade,{\pos(1,2)}Hi") /\
  resumes (event_text ex_event) (lit "Dialogue: 0,0:00:01.00,0:00:05.00,S,N,0,0,0,fx fade,{\pos(1,2)}Hi").
Proof.
  split.
  - exists ex_event, (lit "fx fade"). split; [reflexivity|]. split; [apply ex_clean|]. split; [right; split; [discriminate|reflexivity]|reflexivity].
  - right. exists (lit "Dialogue: 0,0:00:01.00,0:00:05.00,S,N,0,0,0,fx fade,{\pos(1,2"), (lit ")}Hi"). split; [reflexivity|]. split; [vm_compute; reflexivity|].
    split; [split; [discriminate|split; [cbn; intuition discriminate|intros r; discriminate]]|]. intros [[r Q]|[r Q]]; discriminate Q.
Qed.
(* A shorter line hides the next one, and the length may change by one only
   if no other event is to be changed. *)
Theorem effect_all_refuted : exists d, reached 0 d /\
  text d = ex_head ++ ev ["Dialogue: 0,1,2,S,N,0,0,0,fx,a"; "Dialogue: 0,1,2,S,N,0,0,0,fx,b"]%string /\
  text_after (change_effect 200 0 [] EffectClear [] d) = Some (ex_head ++ ev ["Dialogue: 0,1,2,S,N,0,0,0,,a"; "Dialogue: 0,1,2,S,N,0,0,0,fx,b"]%string) /\
  text_after (change_effect 200 0 [] EffectSet (lit "abc") d) = Some (ex_head ++ ev ["Dialogue: 0,1,2,S,N,0,0,0,abc,a"; "Dialogue: 0,1,2,S,N,0,0,0,fx,b"]%string).
Proof. exists (ex_doc (ev ["Dialogue: 0,1,2,S,N,0,0,0,fx,a"; "Dialogue: 0,1,2,S,N,0,0,0,fx,b"]%string)). split; [apply ex_reached|]. split; [|split]; vm_compute; reflexivity. Qed.
(* Clearing the effects may take the text for the effect. *)
Theorem effect_clear_refuted : exists d, reached 0 d /\
  text d = ex_head ++ ev ["Dialogue: 0,1,2,S,N,0,0,0,,Well, no"]%string /\
  text_after (change_effect 200 0 [0] EffectClear [] d) = Some (ex_head ++ ev ["Dialogue: 0,1,2,S,N,0,0,0,,no"]%string).
Proof. exists (ex_doc (ev ["Dialogue: 0,1,2,S,N,0,0,0,,Well, no"]%string)). split; [apply ex_reached|]. split; vm_compute; reflexivity. Qed.
(* Worse, the command may never end: the effect looks like an event at the
   very place where the loop goes on. *)
Definition lure : str := lit "Dialogue: 0,1,2,S,N,0,0,0,".
Lemma lured sz : forall fuel A d index total changes, reached sz d -> text d = A ++ lure ++ lit "," ->
  edit_events fuel sz [] (put_effect EffectSet (lit "xx" ++ lure)) d index (blen A) total changes = Stuck.
Proof.
  intros fuel. induction fuel as [|f IH]; intros A d index total changes HR E; [reflexivity|].
  assert (S1 : in_section (lure ++ lit ",")).
  { split; [discriminate|]. split; [cbn; intuition discriminate|]. intros r. discriminate. }
  destruct S1 as (Hne & Hnl & Hh). cbn [edit_events]. pose proof (blen_pos _ Hne) as Hp.
  assert (LT : blen A < blen (text d)) by (rewrite E, (blen_app A); lia); rewrite (proj2 (Nat.ltb_lt _ _) LT).
  replace (slice_from (text d) (blen A)) with (Some ((lure ++ lit ",") ++ [])) by (rewrite app_nil_r, E; symmetry; apply slice_from_app). cbn [need bind].
  replace (line_end (text d) ((lure ++ lit ",") ++ []) (blen A)) with (blen A + blen (lure ++ lit ",")).
  2: { symmetry. rewrite E. rewrite <- (app_nil_r (lure ++ lit ",")) at 1. apply line_end_at; [exact Hnl|now left]. }
  destruct (Nat.leb_spec (blen A + blen (lure ++ lit ",")) (blen A)); [lia|].
  replace (slice (text d) (blen A) (blen A + blen (lure ++ lit ","))) with (Some (lure ++ lit ",")).
  2: { symmetry. rewrite E. rewrite <- (app_nil_r (lure ++ lit ",")) at 1. apply slice_app. }
  cbn [need bind]. change (is_event_line (lure ++ lit ",")) with true. change (selected [] index) with true. cbv iota.
  replace (put_effect EffectSet (lit "xx" ++ lure) (lure ++ lit ",")) with (Done (Some (lure ++ lit "xx" ++ lure ++ lit ","))) by (vm_compute; reflexivity).
  cbn [bind]. rewrite range_new_le by lia.
  destruct (replace_ok sz d A (lure ++ lit ",") [] (lure ++ lit "xx" ++ lure ++ lit ",") HR) as (d' & D & T & R); [now rewrite app_nil_r|].
  rewrite D. cbn [of_out and_then bind fst snd].
  replace (blen A + blen (lure ++ lit ",") + 1) with (blen (A ++ lure ++ lit "xx")) by (rewrite !blen_app; change (blen (lit ",")) with 1; change (blen (lit "xx")) with 2; lia).
  apply IH; [exact R|]. rewrite T, app_nil_r. now rewrite <- !app_assoc.
Qed.
Theorem effect_never_ends_refuted : exists d x, reached 0 d /\ text d = ex_head ++ lit "Dialogue: 0,1,2,S,N,0,0,0,," /\
  forall fuel, change_effect fuel 0 [] EffectSet x d = Stuck.
Proof.
  exists (ex_doc (lure ++ lit ",")), (lit "xx" ++ lure). split; [apply ex_reached|]. split; [reflexivity|]. intros fuel. unfold change_effect, edit_command.
  replace (format_line_end (text (ex_doc (lure ++ lit ",")))) with (Some (blen ex_head)) by (vm_compute; reflexivity).
  rewrite (lured 0 fuel ex_head); [reflexivity|apply ex_reached|reflexivity].
Qed.

(* ---- C82  splitting ---- *)
Theorem split_exact : forall sz d head before e rest k fuel t tv a b,
  reached sz d -> events_head head -> text d = head ++ ended before ++ event_text e ++ rest ->
  Forall in_section before -> event_count before k -> in_section (event_text e) -> after_line rest -> clean e ->
  shows a (le_start e) -> shows b (le_end e) -> shows tv t -> (a < tv < b)%N -> 2 * blen (text d) + 2 <= fuel ->
  exists d' r, split_event fuel sz k t d = Done (d', Some r) /\
    text d' = head ++ ended before ++ (event_text (with_times e (le_start e) t) ++ [10%N] ++ event_text (with_times e t (le_end e))) ++ rest /\
    reached sz d' /\ m_range r = Some (range_new (blen (head ++ ended before)) (blen (head ++ ended before ++ event_text (with_times e (le_start e) t) ++ [10%N] ++ event_text (with_times e t (le_end e))))).
Proof. exact split_ok. Qed.
Theorem split_outside : forall sz d head before e rest k fuel t tv a b,
  events_head head -> text d = head ++ ended before ++ event_text e ++ rest ->
  Forall in_section before -> event_count before k -> in_section (event_text e) -> after_line rest -> clean e ->
  shows a (le_start e) -> shows b (le_end e) -> shows tv t -> ~ (a < tv < b)%N -> 2 * blen (text d) + 2 <= fuel ->
  split_event fuel sz k t d = Done (d, None).
Proof. exact split_refused. Qed.
Example split_instance :
  text_after (split_event 500 0 1 (lit "0:00:03.50") (ex_doc (ev ["Dialogue: 0,0:00:01.00,0:00:05.00,S,N,0,0,0,,a"; "Comment: 0,0:00:02.00,0:00:06.00,S,N,0,0,0,,b"; "; end"]%string))) =
    Some (ex_head ++ ev ["Dialogue: 0,0:00:01.00,0:00:05.00,S,N,0,0,0,,a"; "Comment: 0,0:00:02.00,0:00:03.50,S,N,0,0,0,,b"; "Comment: 0,0:00:03.50,0:00:06.00,S,N,0,0,0,,b"; "; end"]%string) /\
  split_event 500 0 0 (lit "0:00:05.00") (ex_doc (ev ["Dialogue: 0,0:00:01.00,0:00:05.00,S,N,0,0,0,,a"]%string)) =
    Done (ex_doc (ev ["Dialogue: 0,0:00:01.00,0:00:05.00,S,N,0,0,0,,a"]%string), None).
Proof. split; vm_compute; reflexivity. Qed.
(* The comma again. *)
Theorem split_comma_refuted : exists d, reached 0 d /\
  text d = ex_head ++ ev ["Dialogue: 0,0:00:01.00,0:00:05.00,S,N,0,0,0,,Hello, world"]%string /\
  text_after (split_event 200 0 0 (lit "0:00:02.00") d) =
    Some (ex_head ++ ev ["Dialogue: 0,0:00:01.00,0:00:02.00,S,N,0,0,0,,Hello,world"; "Dialogue: 0,0:00:02.00,0:00:05.00,S,N,0,0,0,,Hello,world"]%string).
Proof. exists (ex_doc (ev ["Dialogue: 0,0:00:01.00,0:00:05.00,S,N,0,0,0,,Hello, world"]%string)). split; [apply ex_reached|]. split; vm_compute; reflexivity. Qed.

(* ---- C40  merging ---- *)
(* What merging does: the two events become one, and everything between them
   is lost. *)
Theorem merge_exact : forall sz d head before e1 mid e2 rest i n fuel sep,
  reached sz d -> events_head head ->
  text d = head ++ ended before ++ event_text e1 ++ [10%N] ++ ended mid ++ event_text e2 ++ 10%N :: rest ->
  Forall in_section before -> event_count before i -> Forall in_section mid -> event_count mid n ->
  in_section (event_text e1) -> in_section (event_text e2) -> clean e1 -> clean e2 -> 2 * blen (text d) + 2 <= fuel ->
  exists d' r, merge_events fuel sz i (i + S n) sep d = Done (d', Some r) /\
    text d' = head ++ ended before ++ event_text (merged e1 e2 sep) ++ 10%N :: rest /\ reached sz d'.
Proof. exact merge_ok. Qed.
(* So only neighbours may be merged. *)
Theorem merge_neighbours : forall sz d head before e1 e2 rest i fuel sep,
  reached sz d -> events_head head ->
  text d = head ++ ended before ++ event_text e1 ++ [10%N] ++ event_text e2 ++ 10%N :: rest ->
  Forall in_section before -> event_count before i ->
  in_section (event_text e1) -> in_section (event_text e2) -> clean e1 -> clean e2 -> 2 * blen (text d) + 2 <= fuel ->
  exists d' r, merge_events fuel sz i (i + 1) sep d = Done (d', Some r) /\
    text d' = head ++ ended before ++ event_text (merged e1 e2 sep) ++ 10%N :: rest /\ reached sz d'.
Proof.
  intros sz d head before e1 e2 rest i fuel sep HR Hh E HF HC I1 I2 K1 K2 Hf.
  exact (merge_ok sz d head before e1 [] e2 rest i 0 fuel sep HR Hh E HF HC (Forall_nil _) ec_nil I1 I2 K1 K2 Hf).
Qed.
(* A second event that ends the text without a newline cannot be merged. *)
Theorem merge_unended : forall sz d head before e1 mid e2 i n fuel sep,
  events_head head ->
  text d = head ++ ended before ++ event_text e1 ++ [10%N] ++ ended mid ++ event_text e2 ->
  Forall in_section before -> event_count before i -> Forall in_section mid -> event_count mid n ->
  in_section (event_text e1) -> in_section (event_text e2) -> clean e1 -> clean e2 -> 2 * blen (text d) + 2 <= fuel ->
  merge_events fuel sz i (i + S n) sep d = Done (d, None).
Proof. exact merge_last. Qed.
Example merge_instance :
  text_after (merge_events 500 0 0 1 (lit " ") (ex_doc (ev ["Dialogue: 0,0:00:01.00,0:00:05.00,S,N,0,0,0,fx,a"; "Comment: 0,0:00:06.00,0:00:07.00,T,M,1,1,1,,{\pos(1,2)}b"; "Dialogue: c"]%string))) =
    Some (ex_head ++ ev ["Dialogue: 0,0:00:01.00,0:00:07.00,S,N,0,0,0,fx,a {\pos(1,2)}b"; "Dialogue: c"]%string).
Proof. vm_compute. reflexivity. Qed.
Theorem merge_between_refuted : exists d, reached 0 d /\
  text d = ex_head ++ ev ["Dialogue: 0,1,2,S,N,0,0,0,,a"; "Dialogue: 0,2,3,S,N,0,0,0,,gone"; "Dialogue: 0,3,4,S,N,0,0,0,,b"]%string /\
  text_after (merge_events 200 0 0 2 (lit " ") d) = Some (ex_head ++ ev ["Dialogue: 0,1,4,S,N,0,0,0,,a b"]%string).
Proof. exists (ex_doc (ev ["Dialogue: 0,1,2,S,N,0,0,0,,a"; "Dialogue: 0,2,3,S,N,0,0,0,,gone"; "Dialogue: 0,3,4,S,N,0,0,0,,b"]%string)). split; [apply ex_reached|]. split; vm_compute; reflexivity. Qed.
(* The text of the second before its last comma is lost, that of the first
   becomes part of the effect. *)
Theorem merge_comma_refuted : exists d, reached 0 d /\
  text d = ex_head ++ ev ["Dialogue: 0,1,2,S,N,0,0,0,,a, b"; "Dialogue: 0,2,3,S,N,0,0,0,,c, d"]%string /\
  text_after (merge_events 200 0 0 1 (lit " ") d) = Some (ex_head ++ ev ["Dialogue: 0,1,3,S,N,0,0,0,,a,b d"]%string).
Proof. exists (ex_doc (ev ["Dialogue: 0,1,2,S,N,0,0,0,,a, b"; "Dialogue: 0,2,3,S,N,0,0,0,,c, d"]%string)). split; [apply ex_reached|]. split; vm_compute; reflexivity. Qed.

(* ---- C41  deletion ---- *)
(* Lines may be of any kind here, headers included: the search does not stop
   at the end of the section. *)
Theorem delete_exact : forall sz d head before l rest k fuel,
  reached sz d -> events_head head -> text d = head ++ ended before ++ l ++ 10%N :: rest ->
  Forall (fun l => ~ In 10%N l) before -> event_count before k -> is_event l -> ~ In 10%N l -> blen (text d) < fuel ->
  exists d', delete_event fuel sz k d = Done (d', Some (mkRes true (Some (mkRange (blen (head ++ ended before)) (blen (head ++ ended before)))) (Some (blen (head ++ ended before))) true)) /\
    text d' = head ++ ended before ++ rest /\ reached sz d'.
Proof. exact delete_one_ok. Qed.
Theorem delete_missing : forall sz d head ls k c fuel,
  events_head head -> text d = head ++ ended ls -> Forall (fun l => ~ In 10%N l) ls -> event_count ls c -> c <= k -> blen (text d) < fuel ->
  delete_event fuel sz k d = Done (d, None).
Proof. exact delete_none. Qed.
Example delete_instance :
  text_after (delete_event 500 0 1 (ex_doc (ev ["Dialogue: a"; "; x"; "Comment: b"; "Dialogue: c"]%string))) = Some (ex_head ++ ev ["Dialogue: a"; "; x"; "Dialogue: c"]%string) /\
  delete_event 500 0 2 (ex_doc (ev ["Dialogue: a"; "Comment: b"]%string)) = Done (ex_doc (ev ["Dialogue: a"; "Comment: b"]%string), None).
Proof. split; vm_compute; reflexivity. Qed.
(* A last line that ends in a character beyond ASCII, without a newline. *)
Theorem delete_panics_refuted : exists d, reached 0 d /\ text d = ex_head ++ lit "Dialogue: caf" ++ [233%N] /\ delete_event 200 0 0 d = Crash.
Proof. exists (ex_doc (lit "Dialogue: caf" ++ [233%N])). split; [apply ex_reached|]. split; vm_compute; reflexivity. Qed.

(* ---- C83  many deletions ---- *)
Theorem batch_delete_exact : forall sz d head ls ls' k indices fuel,
  reached sz d -> events_head head -> text d = head ++ ended ls -> Forall (fun l => ~ In 10%N l) ls ->
  without_events indices 0 ls ls' k -> blen (text d) < fuel ->
  exists d' r, delete_events fuel sz indices d = Done (d', Some (r, k)) /\ text d' = head ++ ended ls' /\ reached sz d' /\
    (k = 0 /\ r = mkRes true None None false \/ 0 < k /\ exists a, before_dropped indices ls a /\ let p := blen (head ++ ended a) in r = mkRes true (Some (mkRange p p)) (Some p) true).
Proof. exact batch_ok. Qed.
(* Such lines exist for every selection, and only one list of them. *)
Theorem batch_delete_defined : forall indices ls, exists ls' k, without_events indices 0 ls ls' k /\
  forall ls2 k2, without_events indices 0 ls ls2 k2 -> ls2 = ls' /\ k2 = k.
Proof.
  intros indices ls. assert (H : exists ls' k, without_events indices 0 ls ls' k).
  { generalize 0 as i. induction ls as [|l ls IH]; intros i; [exists [], 0; constructor|]. destruct (is_event_line l) eqn:E.
    - apply event_line_spec in E. destruct (IH (S i)) as (ls' & k & W). destruct (in_dec Nat.eq_dec i indices) as [Q|Q].
      + exists ls', (S k). now apply we_drop.
      + exists (l :: ls'), k. now apply we_keep.
    - apply event_line_false in E. destruct (IH i) as (ls' & k & W). exists (l :: ls'), k. now apply we_other. }
  destruct H as (ls' & k & W). exists ls', k. split; [exact W|]. intros ls2 k2 W2. exact (without_unique _ _ _ _ _ _ _ W2 W).
Qed.
Example batch_delete_instance :
  text_after (delete_events 500 0 [0; 7; 2; 0] (ex_doc (ev ["Dialogue: a"; "; x"; "Comment: b"; "Dialogue: c"; "Dialogue: d"]%string))) =
    Some (ex_head ++ ev ["; x"; "Comment: b"; "Dialogue: d"]%string).
Proof. vm_compute. reflexivity. Qed.
Theorem batch_delete_panics_refuted : exists d, reached 0 d /\ text d = ex_head ++ ev ["Dialogue: a"]%string ++ lit "; caf" ++ [233%N] /\ delete_events 200 0 [0] d = Crash.
Proof. exists (ex_doc (ev ["Dialogue: a"]%string ++ lit "; caf" ++ [233%N])). split; [apply ex_reached|]. split; vm_compute; reflexivity. Qed.

Print Assumptions toggle_one. Print Assumptions toggle_twice. Print Assumptions toggle_panics. Print Assumptions toggle_ends.
Print Assumptions adjust_all. Print Assumptions adjust_in_place. Print Assumptions adjust_one. Print Assumptions effect_one. Print Assumptions effect_all. Print Assumptions effect_never_ends_refuted.
Print Assumptions split_exact. Print Assumptions merge_exact. Print Assumptions delete_exact. Print Assumptions batch_delete_exact.
