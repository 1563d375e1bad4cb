(* C138-C143: what a frame shows, what a script leaves behind, and which frames are kept. *)
From Verif Require SegmentBlock.
From Verif Require Import CollideModel Base BaseLemmas SelectProofs SelectRunProofs WrapProps AnimProps RunSpec RunStill RunProofs.

(* ---- a platform: every character is 10 by 20, a frame is its layers ---- *)
Definition ink : platform unit (list (layer unit)) :=
  Platform _ _ plain_math (fun _ => lit "7") (fun l => option_map snd (hd_error l))
    (fun text _ _ _ => let w := fl (10 * Z.of_nat (List.length text)) in Some (w, fl 20, Some w))
    (fun segs _ _ => fl (10 * Z.of_nat (List.length (flat_map sg_text segs))))
    (fun _ _ _ => mono) (fun _ _ _ _ _ _ => tt) (fun s => negb (Nat.eqb (List.length s) 0)) (fun _ _ _ _ => tt)
    (fun prev ls _ => Some (prev ++ ls)) (fun _ _ => []).
Definition at_line (n : nat) : span := Span (100 * n) (100 * n) (N.of_nat n) 1.
Definition says_line (n : nat) (start fin style text : string) : event :=
  Event Dialogue (lit "0") (lit start) (lit fin) (lit style) [] [] [] [] None None [] (lit text) (at_line n).
Definition look_like (name align : string) (size : string) : style :=
  Style (lit name) None (lit "Arial") (lit size) (lit "&H00FFFFFF") (lit "&H000000FF") (lit "&H00000000") (lit "&H00000000") (lit "0") (lit "0") (lit "0") (lit "0")
        (lit "100") (lit "100") (lit "0") (lit "0") (lit "1") (lit "2") (lit "2") (lit align) (lit "10") (lit "10") (lit "10") None None (lit "1") None (at_line 0).
Definition sized (x y : string) : section := SInfo [(lit "PlayResX", lit x); (lit "PlayResY", lit y)] (at_line 0).
Definition script_of (x y : string) (align : string) (events : list event) : loaded :=
  Loaded 64 (fun e => N.of_nat (sp_start (e_span e))) [sized x y; SStyles [look_like "Default" align "20"]; SEvents events].
Definition screen (w h : N) : context := Context w h (w, h) (w, h) (fl 25) (fl 1).
Definition same (l : list entry) : list entry := l.
Definition pixels (f : run (@renderer (list (layer unit)) * option frame)) : option (list (layer unit)) := match f with Done (_, Some f) => Some (fr_pixels f) | _ => None end.
Definition spots (o : option (list (layer unit))) : option (list (str * Z * Z)) :=
  let z (f : float) := match f with Fin q => (Qnum q / Zpos (Qden q))%Z | _ => (-1)%Z end in
  option_map (map (fun l => match l with LText t _ x y _ _ _ => (t, z x, z y) | LShape _ x y _ => ([], z x, z y) end)) o.

(* ---- C138: the layers of a frame ---- *)
(* one group of layers for every event, lowest layer and earliest start first;
   a group is what the event shows alone, or that moved up or down by more than
   half a pixel if no tag says where the event goes *)
Theorem frame_in_turn {D P} (pf : platform D P) p c t events out : process_events pf p c t events = Done (Some out) ->
  exists order parts, in_turn events order /\ out = concat parts /\
  Forall2 (fun e part => exists ls, process_event pf p c t e = Done (Some ls) /\
    (part = ls \/ ~ placed_by_tag e /\ exists dy, f_lt (Fin (1 # 2)) (f_abs dy) = true /\ Forall2 (moved dy) ls part)) order parts.
Proof.
  intros H. destruct (frame_parts pf p c t events out H) as (order & parts & T & F & E). exists order, parts. split; [exact T|]. split; [exact E|]. exact F.
Qed.
Print Assumptions frame_in_turn.
(* that order is the only one *)
Theorem turn_once events a b : in_turn events a -> in_turn events b -> a = b.
Proof.
  intros (P1 & S1 & F1) (P2 & S2 & F2). assert (F : forall e, filter (alike e) a = filter (alike e) b) by (intros; now rewrite F1, F2). clear P1 P2 F1 F2. revert b S2 F.
  assert (self : forall e, alike e e = true) by (intros; unfold alike; now rewrite Z.eqb_refl, N.eqb_refl).
  induction a as [|x a IH]; intros [|y b] S2 F; [reflexivity|specialize (F y)|specialize (F x)|]; try (cbn [filter] in F; rewrite self in F; discriminate).
  assert (XY : alike x y = true).
  { inversion S1 as [|? ? Sa La]; subst. inversion S2 as [|? ? Sb Lb]; subst. rewrite Forall_forall in La, Lb.
    assert (X : In x (y :: b)) by (apply (filter_In (alike x)); rewrite <- F; cbn [filter]; rewrite self; now left).
    assert (Y : In y (x :: a)) by (apply (filter_In (alike y)); rewrite F; cbn [filter]; rewrite self; now left).
    assert (XY : not_after x y) by (destruct Y as [->|Y]; [right; split; [reflexivity|apply N.le_refl]|exact (La y Y)]).
    assert (YX : not_after y x) by (destruct X as [->|X]; [right; split; [reflexivity|apply N.le_refl]|exact (Lb x X)]).
    unfold alike. unfold not_after in *. apply andb_true_iff. split; [apply Z.eqb_eq|apply N.eqb_eq]; lia. }
  assert (E : x = y). { pose proof (F x) as K. cbn [filter] in K. rewrite self, XY in K. congruence. }
  subst y. f_equal. inversion S1; inversion S2; subst. apply IH; try assumption. intros e. specialize (F e). cbn [filter] in F. destruct (alike e x); congruence.
Qed.
Print Assumptions turn_once.
(* there is a frame exactly when every event has its layers *)
Theorem frame_exists {D P} (pf : platform D P) p c t events : Forall (fun e => process_event pf p c t e <> Crash /\ process_event pf p c t e <> Stuck) events ->
  ((exists out, process_events pf p c t events = Done (Some out)) <-> Forall (fun e => exists ls, process_event pf p c t e = Done (Some ls)) events).
Proof.
  intros R. split; [|apply frame_done]. intros (out & O). apply Forall_forall. intros e I. rewrite Forall_forall in R. destruct (R e I) as [NC NS].
  destruct (process_event pf p c t e) as [[ls|]| |] eqn:E; [eauto| |contradiction..]. exfalso. exact (frame_error pf p c t events e I E out O).
Qed.
Print Assumptions frame_exists.
(* an event alone on the screen stays where it is if the box reckoned for it
   fits a picture 1080 pixels high *)
Theorem lone_event_stays {D P} (pf : platform D P) sections c t e ls b y : let p := prepare_script pf sections new_pipe in
  process_event pf p c t e = Done (Some ls) -> bounding_box nine_tenths ls = Some b -> b_y b = Fin y ->
  f_le (fl 0) (b_y b) = true -> f_le (b_y b) (f_sub f32 (fl 1080) (b_h b)) = true -> process_events pf p c t [e] = Done (Some ls).
Proof.
  intros p E B Y L U. assert (F : pi_dpi p = nine_tenths /\ pi_resolver p = new_resolver (fl 1080)) by (apply prepared_fixed).
  destruct F as [FD FR]. apply (alone pf p c t e ls b y); try assumption; [now rewrite FR|now rewrite FD].
Qed.
Print Assumptions lone_event_stays.
Definition hello := says_line 1 "0:00:00.00" "0:00:05.00" "Default" "hello".
Definition two := says_line 2 "0:00:01.00" "0:00:06.00" "Default" "two".
Definition three := Event Dialogue (lit "-1") (lit "0:00:02.00") (lit "0:00:05.00") (lit "Default") [] [] [] [] None None [] (lit "{\an8}a {\p1}m 0 0 l 9 9") (at_line 3).
Definition small_ready : pipe := prepare_script ink (ld_sections (script_of "640" "480" "2" [hello; two; three])) new_pipe.
Example frame_ex : match process_events ink small_ready (screen 640 480) 300 [hello; two; three] with Done o => spots o | _ => None end =
  Some [(lit "a ", 255, 10)%Z; ([], 320, 240)%Z; (lit "hello", 295, 450)%Z; (lit "two", 305, 426)%Z].
Proof. vm_compute. reflexivity. Qed.
Example lone_ex : exists ls b, process_event ink small_ready (screen 640 480) 300 hello = Done (Some ls) /\ bounding_box nine_tenths ls = Some b /\ b_y b = fl 450 /\
  f_le (b_y b) (f_sub f32 (fl 1080) (b_h b)) = true.
Proof. eexists. eexists. split; [vm_compute; reflexivity|]. split; [vm_compute; reflexivity|]. split; vm_compute; reflexivity. Qed.
(* the height is 1080 whatever the frame: the only line of a higher frame is
   lifted from its bottom to the middle *)
Definition tall := script_of "3840" "2160" "2" [hello].
Theorem lone_event_stays_refuted : ~ forall (pf : platform unit (list (layer unit))) sections c t e ls,
  process_event pf (prepare_script pf sections new_pipe) c t e = Done (Some ls) -> Forall (fun l => match l with LText _ size _ y _ _ _ => f_le (fl 0) y = true /\ f_le (f_add f32 y (fl 30)) (f_of_N f32 (cx_height c)) = true | _ => True end) ls ->
  process_events pf (prepare_script pf sections new_pipe) c t [e] = Done (Some ls).
Proof.
  intros H. eassert (K : _).
  { eapply (H ink (ld_sections tall) (screen 3840 2160) 100%N hello); [vm_compute; reflexivity|]. constructor; [vm_compute; split; reflexivity|constructor]. }
  vm_compute in K. discriminate K.
Qed.
Print Assumptions lone_event_stays_refuted.
Example lifted_ex : spots (pixels (render_frame ink same (new_renderer (screen 3840 2160)) tall 100)) = Some [(lit "hello", 1895, 1060)%Z] /\
  match process_event ink (prepare_script ink (ld_sections tall) new_pipe) (screen 3840 2160) 100 hello with Done o => spots o | _ => None end = Some [(lit "hello", 1895, 2130)%Z].
Proof. split; vm_compute; reflexivity. Qed.
(* two lines of a style that is not defined, at the top like the default style:
   they overlap, though there is room below *)
Definition lost1 := says_line 1 "0:00:00.00" "0:00:05.00" "Nope" "one".
Definition lost2 := says_line 2 "0:00:00.00" "0:00:05.00" "Nope" "two".
Theorem unknown_style_overlaps_refuted : spots (pixels (render_frame ink same (new_renderer (screen 640 480)) (script_of "640" "480" "8" [lost1; lost2]) 100)) =
    Some [(lit "one", 305, 10)%Z; (lit "two", 305, 0)%Z] /\
  spots (pixels (render_frame ink same (new_renderer (screen 640 480)) (script_of "640" "480" "8" [says_line 1 "0:00:00.00" "0:00:05.00" "Default" "one"; says_line 2 "0:00:00.00" "0:00:05.00" "Default" "two"]) 100)) =
    Some [(lit "one", 305, 10)%Z; (lit "two", 305, 34)%Z].
Proof. split; vm_compute; reflexivity. Qed.
Print Assumptions unknown_style_overlaps_refuted.

(* ---- C139: events that open with a drawing ---- *)
(* such an event shows at most the drawing *)
Theorem opening_drawing_alone {D P} (pf : platform D P) p c t e s segs out : segment_text (e_text e) = Done (Some (s :: segs)) -> is_drawing (sg_tags s) = true ->
  process_event pf p c t e = Done (Some out) -> Forall (fun l => ~ is_text l) out /\ List.length out <= 1.
Proof. exact (drawing_alone pf p c t e s segs out). Qed.
Print Assumptions opening_drawing_alone.
(* and only \move changes it with time *)
Theorem opening_drawing_still {D P} (pf : platform D P) p c t1 t2 e s segs : segment_text (e_text e) = Done (Some (s :: segs)) -> is_drawing (sg_tags s) = true ->
  tg_field (sg_tags s) FMovement = None -> process_event pf p c t1 e = process_event pf p c t2 e.
Proof.
  intros S I M. unfold process_event. destruct (time_or 0 _); cbn [bind]; try reflexivity. destruct (time_or u32_max _); cbn [bind]; try reflexivity. rewrite S. cbn [bind]. rewrite I.
  now rewrite (drawing_same pf p _ _ _ t1 t2 s M).
Qed.
Print Assumptions opening_drawing_still.
Definition drawn := says_line 1 "0:00:00.00" "0:00:05.00" "Default" "{\p1\fad(1000,1000)\t(\1c&HFF&)}m 0 0 l 9 0 9 9{\p0} and words".
Example drawing_ex : (exists s segs, segment_text (e_text drawn) = Done (Some (s :: segs)) /\ is_drawing (sg_tags s) = true /\ tg_field (sg_tags s) FMovement = None /\ segs <> []) /\
  exists d, process_event ink small_ready (screen 640 480) 0 drawn = Done (Some [LShape (255, 255, 255, 255)%N (fl 320) (fl 240) d]).
Proof.
  split; [|exists tt; vm_compute; reflexivity]. eexists. eexists. split; [vm_compute; reflexivity|]. repeat split; try (vm_compute; reflexivity). discriminate.
Qed.
(* words after a drawing are not shown *)
Theorem words_after_drawing_refuted : ~ forall (pf : platform unit (list (layer unit))) p c t e segs ls, segment_text (e_text e) = Done (Some segs) -> process_event pf p c t e = Done (Some ls) ->
  forall s, In s segs -> is_drawing (sg_tags s) = false -> exists size x y co k m, In (LText (sg_text s) size x y co k m) ls.
Proof.
  intros H. eassert (K : _).
  { eapply (H ink small_ready (screen 640 480) 0%N drawn); [vm_compute; reflexivity|vm_compute; reflexivity|right; left; reflexivity|reflexivity]. }
  destruct K as (a & b & c & d & e & f & [K|[]]). discriminate K.
Qed.
Print Assumptions words_after_drawing_refuted.
(* a fade does not show on a drawing, as it does on words *)
Theorem drawing_fades_refuted : (forall t, process_event ink small_ready (screen 640 480) t drawn = process_event ink small_ready (screen 640 480) 0 drawn) /\
  exists s r, process_event ink small_ready (screen 640 480) 0 (says_line 1 "0:00:00.00" "0:00:05.00" "Default" "{\fad(1000,1000)}words") = Done (Some [s]) /\
  process_event ink small_ready (screen 640 480) 200 (says_line 1 "0:00:00.00" "0:00:05.00" "Default" "{\fad(1000,1000)}words") = Done (Some [r]) /\ s <> r.
Proof.
  split.
  - destruct drawing_ex as [(s & segs & S & I & M & _) _]. intros t. exact (opening_drawing_still ink small_ready (screen 640 480) t 0 drawn s segs S I M).
  - eexists. eexists. split; [vm_compute; reflexivity|]. split; [vm_compute; reflexivity|]. discriminate.
Qed.
Print Assumptions drawing_fades_refuted.

(* ---- C140: text without timed tags looks the same at every moment ---- *)
Theorem still_frame {D P} (pf : platform D P) p c t1 t2 events : Forall (fun e => timeless (e_text e)) events -> process_events pf p c t1 events = process_events pf p c t2 events.
Proof. exact (frame_same pf p c t1 t2 events). Qed.
Print Assumptions still_frame.
Example still_ex : Forall (fun e => timeless (e_text e)) [hello; two] /\ timeless (lit "{\an8\b1}top{\i1\p1}m 0 0 l 9 9") /\ ~ timeless (lit "{\k10}la") /\ ~ timeless (lit "{fad(0,3000)\b1}go") /\
  process_events ink small_ready (screen 640 480) 0 [hello; two] = process_events ink small_ready (screen 640 480) 12345 [hello; two].
Proof.
  split; [|split; [|split; [|split]]].
  - constructor; [|constructor; [|constructor]]; apply plain_timeless; vm_compute; reflexivity.
  - apply plain_timeless; vm_compute; reflexivity.
  - intros [H _]. apply (H (lit "\k")); [do 3 right; left; reflexivity|]. exists (lit "{"), (lit "10}la"). reflexivity.
  - intros [_ H]. apply (H [] (lit "fad") 40%N (lit "0,3000)\b1}go")); [reflexivity| | |do 2 right; left; reflexivity].
    + apply SegmentBlock.forall_letter. reflexivity.
    + unfold letter. lia.
  - apply still_frame. constructor; [|constructor; [|constructor]]; apply plain_timeless; vm_compute; reflexivity.
Qed.

(* ---- C141: preparing a script ---- *)
(* twice is once, if no script info follows styles *)
Theorem prepared_twice {D P} (pf : platform D P) sections p : info_first sections -> prepare_script pf sections (prepare_script pf sections p) = prepare_script pf sections p.
Proof. exact (prepare_twice pf sections p). Qed.
Print Assumptions prepared_twice.
(* nothing of the script before is left if this one gives both sizes and the
   scaling of borders *)
Theorem prepared_afresh {D P} (pf : platform D P) before_it sections p : says_all sections ->
  prepare_script pf sections (prepare_script pf before_it p) = prepare_script pf sections p.
Proof. intros H. destruct (prepared_fixed pf before_it p) as [E1 E2]. now apply prepare_any. Qed.
Print Assumptions prepared_afresh.
(* the sizes: the last script info to give one counts, the script before if none does *)
Theorem prepared_settings {D P} (pf : platform D P) sections p : let q := prepare_script pf sections p in
  (exists o, last_such (fun f => play_resolution f <> None) (infos sections) o /\ (pi_play_x q, pi_play_y q) = match obind o play_resolution with Some (x, y) => (f_of_N f32 x, f_of_N f32 y) | None => (pi_play_x p, pi_play_y p) end) /\
  (exists o, last_such (fun f => layout_resolution f <> None) (infos sections) o /\ pi_layout q = match obind o layout_resolution with Some (x, y) => Some (f_of_N f32 x, f_of_N f32 y) | None => pi_layout p end) /\
  (exists o, last_such (fun f => field_of f "ScaledBorderAndShadow" <> None) (infos sections) o /\ pi_scaled q = match obind o (fun f => field_of f "ScaledBorderAndShadow") with Some v => negb (eq_nocase v (lit "no")) | None => pi_scaled p end) /\
  (exists o, last_such (fun _ => True) (infos sections) o /\ pi_wrap q = match o with Some f => wrap_of f | None => pi_wrap p end).
Proof.
  destruct (prepared_sizes pf sections p) as ((o1 & L1 & E1) & (o2 & L2 & E2) & E34). cbn zeta. split; [|split; [|exact E34]].
  - exists o1. split; [exact L1|]. rewrite E1. destruct (obind o1 play_resolution) as [[]|]; reflexivity.
  - exists o2. split; [exact L2|]. rewrite E2. destruct (obind o2 layout_resolution) as [[]|]; reflexivity.
Qed.
Print Assumptions prepared_settings.
(* a name means the last style of that name, in pixels of the script *)
Theorem prepared_style {D P} (pf : platform D P) sections p k : info_first sections -> let q := prepare_script pf sections p in
  exists o, last_such (fun s => s_name s = k) (all_styles sections) o /\
  match o, style_named (pi_styles q) k with
  | Some s, Some s' => becomes (pf_show pf) (pi_play_x q) (pi_play_y q) (pi_layout q) (pi_scaled q) s s'
  | None, None => True
  | _, _ => False
  end.
Proof.
  intros F q. destruct (prepared_styles pf sections p k F) as (o & L & E). exists o. split; [exact L|]. unfold q. rewrite E. destruct o as [s|]; cbn [option_map]; [apply laid_becomes|exact I].
Qed.
Print Assumptions prepared_style.
(* the default style is the last called Default or *Default *)
Theorem prepared_default_style {D P} (pf : platform D P) sections p s : info_first sections -> last_such is_default (all_styles sections) (Some s) -> let q := prepare_script pf sections p in
  exists s', pi_default q = Some s' /\ becomes (pf_show pf) (pi_play_x q) (pi_play_y q) (pi_layout q) (pi_scaled q) s s'.
Proof. intros F L q. eexists. split; [exact (prepared_default pf sections p s F L)|apply laid_becomes]. Qed.
Print Assumptions prepared_default_style.
Definition layout_info : section := SInfo [(lit "PlayResX", lit "640"); (lit "PlayResY", lit "480"); (lit "LayoutResX", lit "320"); (lit "LayoutResY", lit "240"); (lit "ScaledBorderAndShadow", lit "yes")] (at_line 0).
Definition halves : list section := [layout_info; SStyles [look_like "Default" "2" "20"; look_like "Top" "8" "30"; look_like "Default" "5" "10"]].
Example prepared_ex : info_first halves /\ says_all halves /\ last_such is_default (all_styles halves) (Some (look_like "Default" "5" "10")) /\
  option_map (fun s => (s_alignment s, s_fontsize s, s_margin_l s)) (style_named (pi_styles (prepare_script ink halves new_pipe)) (lit "Default")) = Some (lit "5", lit "7", lit "7").
Proof.
  split; [|split; [|split]].
  - exists [layout_info], (tl halves). split; [reflexivity|]. split; [intros l [E|[]]; discriminate E|intros f sp [E|[]]; discriminate E].
  - exists [layout_info], (tl halves). split; [reflexivity|]. split; [intros l [E|[]]; discriminate E|]. repeat split; eexists; eexists; (split; [left; reflexivity|vm_compute; discriminate]).
  - split; [left; reflexivity|]. exists [look_like "Default" "2" "20"; look_like "Top" "8" "30"], []. split; [reflexivity|intros x []].
  - vm_compute. reflexivity.
Qed.
(* styles before the script info are in pixels of whatever came before: the
   first time of the built-in size, the second time of their own *)
Theorem prepared_twice_refuted : ~ forall (pf : platform unit (list (layer unit))) sections p, prepare_script pf sections (prepare_script pf sections p) = prepare_script pf sections p.
Proof. intros H. specialize (H ink [SStyles [look_like "Default" "2" "20"]; layout_info] new_pipe). vm_compute in H. discriminate H. Qed.
Print Assumptions prepared_twice_refuted.
(* a script that gives only its own size still gets the layout of the one before *)
Theorem prepared_afresh_refuted : ~ forall (pf : platform unit (list (layer unit))) before_it sections p, info_first sections -> says play_resolution sections ->
  prepare_script pf sections (prepare_script pf before_it p) = prepare_script pf sections p.
Proof.
  intros H. specialize (H ink halves [sized "640" "480"; SStyles [look_like "Default" "2" "20"]] new_pipe).
  eassert (K : _).
  { apply H.
    - exists [sized "640" "480"], [SStyles [look_like "Default" "2" "20"]]. split; [reflexivity|]. split; [intros l [E|[]]; discriminate E|intros f sp [E|[]]; discriminate E].
    - eexists. eexists. split; [left; reflexivity|vm_compute; discriminate]. }
  vm_compute in K. discriminate K.
Qed.
Print Assumptions prepared_afresh_refuted.

(* ---- C142: kept frames ---- *)
(* a renderer gives for one script, at any moments in any order, what a new
   renderer gives *)
Theorem kept_frames_fresh {D P} (pf : platform D P) shuffle c s lines ts r frames : (forall l, Permutation l (shuffle l)) -> script_lines (ld_sections s) lines -> info_first (ld_sections s) -> texts_apart s ->
  Forall readable lines -> Forall (fun e => honest (e_text e)) lines -> Forall (fun t => (t < 2147483648)%N) ts ->
  renders pf shuffle (new_renderer c) (map (Render s) ts) = Done (r, frames) ->
  Forall2 (fun t f => exists r', render_frame pf shuffle (new_renderer c) s t = Done (r', f)) ts frames.
Proof.
  intros SH L IF TA RD HO SM E. refine (proj1 (renders_sound pf shuffle SH c s lines ts L IF TA RD HO SM ts (incl_refl ts) (new_renderer c) r frames _ E)). apply new_sound.
Qed.
Print Assumptions kept_frames_fresh.
Definition pair_script : loaded := script_of "640" "480" "2" [hello; two].
Example kept_ex : script_lines (ld_sections pair_script) [hello; two] /\ info_first (ld_sections pair_script) /\ texts_apart pair_script /\ Forall readable [hello; two] /\
  Forall (fun e => honest (e_text e)) [hello; two] /\
  exists r f1 f2 f3, renders ink same (new_renderer (screen 640 480)) (map (Render pair_script) [200; 300; 550]%N) = Done (r, [Some f1; Some f2; Some f3]) /\
  fr_pixels f1 = fr_pixels f2 /\ fr_pixels f1 <> fr_pixels f3 /\ List.length (fr_pixels f3) = 1.
Proof.
  assert (L : script_lines (ld_sections pair_script) [hello; two]).
  { left. exists [sized "640" "480"; SStyles [look_like "Default" "2" "20"]], []. split; [reflexivity|]. intros l [E|[E|[]]]; discriminate E. }
  split; [exact L|]. split; [|split; [|split; [|split]]].
  - exists [sized "640" "480"], [SStyles [look_like "Default" "2" "20"]; SEvents [hello; two]]. split; [reflexivity|]. split; [intros l [E|[]]; discriminate E|intros f sp [E|[E|[]]]; discriminate E].
  - intros l e1 e2 L' I1 I2 E. assert (l = [hello; two]) as ->. { rewrite first_lines in L, L'. destruct (first_events (ld_sections pair_script)); congruence. }
    destruct I1 as [<-|[<-|[]]], I2 as [<-|[<-|[]]]; try reflexivity; discriminate E.
  - constructor; [|constructor; [|constructor]]; split; vm_compute; discriminate.
  - constructor; [|constructor; [|constructor]]; right; apply plain_timeless; vm_compute; reflexivity.
  - do 4 eexists. split; [vm_compute; reflexivity|]. split; [vm_compute; reflexivity|]. split; [vm_compute; discriminate|vm_compute; reflexivity].
Qed.
Definition frozen : loaded := script_of "640" "480" "2" [says_line 1 "0:00:00.00" "0:00:05.00" "Default" "{fad(0,3000)\b1}go"].
(* a fade without its backslash is a fade, but is not seen as one *)
Definition frames_of (o : run (@renderer (list (layer unit)) * list (option frame))) : option (list (option (list (layer unit) * N * N))) :=
  match o with Done (_, l) => Some (map (option_map (fun f => (fr_pixels f, fr_width f, fr_height f))) l) | _ => None end.
Theorem hidden_fade_frozen_refuted : exists f g, frames_of (renders ink same (new_renderer (screen 640 480)) (map (Render frozen) [0; 400]%N)) = Some [Some f; Some f] /\
  frames_of (renders ink same (new_renderer (screen 640 480)) (map (Render frozen) [400]%N)) = Some [Some g] /\ f <> g.
Proof. do 2 eexists. split; [vm_compute; reflexivity|]. split; [vm_compute; reflexivity|]. discriminate. Qed.
Print Assumptions hidden_fade_frozen_refuted.
(* after the context has changed the frame of the old size is given *)
Theorem resized_refuted : exists f g, frames_of (renders ink same (new_renderer (screen 640 480)) [Render pair_script 200; UseContext (screen 1280 960); Render pair_script 201]) = Some [Some (f, 640%N, 480%N); Some (f, 640%N, 480%N)] /\
  frames_of (renders ink same (new_renderer (screen 1280 960)) [Render pair_script 201]) = Some [Some (g, 1280%N, 960%N)] /\ f <> g.
Proof. do 2 eexists. split; [vm_compute; reflexivity|]. split; [vm_compute; reflexivity|]. discriminate. Qed.
Print Assumptions resized_refuted.
(* nor do other styles for the same texts show *)
Definition restyled : loaded := script_of "640" "480" "8" [hello; two].
Theorem restyled_refuted : exists f g, frames_of (renders ink same (new_renderer (screen 640 480)) [Render pair_script 200; Render restyled 200]) = Some [Some f; Some f] /\
  frames_of (renders ink same (new_renderer (screen 640 480)) [Render restyled 200]) = Some [Some g] /\ f <> g.
Proof. do 2 eexists. split; [vm_compute; reflexivity|]. split; [vm_compute; reflexivity|]. discriminate. Qed.
Print Assumptions restyled_refuted.

(* ---- C143: incremental rendering ---- *)
(* the whole screen is to be drawn again exactly when some event comes or goes *)
Theorem dirty_regions_exact events t prev : Forall readable events ->
  ((exists e, In e events /\ ~ (showing t e <-> showing prev e)) -> dirty_regions events t prev = Done [full_screen]) /\
  ((forall e, In e events -> (showing t e <-> showing prev e)) -> dirty_regions events t prev = Done []).
Proof. exact (dirty_exact events t prev). Qed.
Print Assumptions dirty_regions_exact.
(* after any frames of the script: the previous frame stays if every event on
   the screen was on it then; otherwise all layers are painted over it *)
Theorem incremental_exact {D P} (pf : platform D P) shuffle c s lines ts r frames t prev r' f : (forall l, Permutation l (shuffle l)) -> script_lines (ld_sections s) lines -> info_first (ld_sections s) -> texts_apart s ->
  Forall readable lines -> Forall (fun e => honest (e_text e)) lines -> Forall (fun t => (t < 2147483648)%N) (t :: ts) ->
  renders pf shuffle (new_renderer c) (map (Render s) ts) = Done (r, frames) -> render_incremental pf shuffle r s t prev = Done (r', f) ->
  exists found, chosen (on_screen false t) 0 lines found /\
  ((forall e, In e (map snd found) -> showing (fr_time prev) e) -> f = Some prev) /\
  ((exists e, In e (map snd found) /\ ~ showing (fr_time prev) e) ->
    exists ls, process_events pf (prepare_script pf (ld_sections s) new_pipe) (rn_context r) t (map snd found) = Done ls /\
    f = match ls with
        | None => None
        | Some ls => option_map (fun px => Frame px (cx_width (rn_context r)) (cx_height (rn_context r)) t)
                       (pf_over pf (if (fr_width prev * fr_height prev =? cx_width (rn_context r) * cx_height (rn_context r))%N then fr_pixels prev else pf_blank pf (cx_width (rn_context r)) (cx_height (rn_context r))) ls (rn_context r))
        end).
Proof.
  intros SH L IF TA RD HO SM E I. destruct (renders_sound pf shuffle SH c s lines (t :: ts) L IF TA RD HO SM ts (fun x X => or_intror X) (new_renderer c) r frames (new_sound pf shuffle c s lines (t :: ts)) E) as [_ SO].
  destruct (incremental_ok pf shuffle SH c s lines (t :: ts) L RD SM r t prev r' f (or_introl eq_refl) SO I) as (found & F & A & B). exists found. split; [exact F|]. split; [exact A|].
  intros X. destruct (B X) as (ls & PE & FE). exists ls. split; [exact PE|]. rewrite FE. destruct ls; reflexivity.
Qed.
Print Assumptions incremental_exact.
(* over an empty frame it is the whole frame *)
Theorem incremental_over_blank {D P} (pf : platform D P) shuffle c s lines t prev r' f : (forall l, Permutation l (shuffle l)) -> script_lines (ld_sections s) lines -> info_first (ld_sections s) -> texts_apart s ->
  Forall readable lines -> Forall (fun e => honest (e_text e)) lines -> (t < 2147483648)%N -> read_context (ld_sections s) c = c ->
  fr_pixels prev = pf_blank pf (cx_width c) (cx_height c) -> (exists e, In e lines /\ on_screen false t e /\ ~ showing (fr_time prev) e) ->
  render_incremental pf shuffle (new_renderer c) s t prev = Done (r', f) -> exists r2, render_frame pf shuffle (new_renderer c) s t = Done (r2, f).
Proof.
  intros SH L IF TA RD HO SM RC BL (e & IE & ON & NS) I.
  assert (SM' : Forall (fun t => (t < 2147483648)%N) [t]) by (constructor; [exact SM|constructor]).
  destruct (incremental_exact pf shuffle c s lines [] (new_renderer c) [] t prev r' f SH L IF TA RD HO SM' eq_refl I) as (found & F & _ & B).
  destruct B as (ls & PE & FE). { exists e. split; [|exact NS]. exact (chosen_has _ _ _ _ F e IE ON). }
  cbn [new_renderer rn_context] in *. rewrite BL in FE. assert (ONE : forall (b : bool) (x : P), (if b then x else x) = x) by (now intros []). rewrite ONE in FE. clear ONE.
  destruct (fresh_select shuffle SH s lines [t] L RD SM' t (or_introl eq_refl)) as (sel & a & found2 & E2 & F2 & EV2). unfold render_frame, select. cbn [new_renderer rn_context rn_pipe rn_selector rn_cache]. rewrite RC, E2. cbn [bind fst snd].
  rewrite EV2, <- (chosen_unique _ _ _ _ F _ F2). pose proof (chosen_has _ _ _ _ F e IE ON) as IN. destruct (map snd found) as [|e0 er] eqn:EE; [contradiction|]. rewrite <- EE in *.
  cbn zeta. destruct (existsb (fun e => event_is_animated (e_text e)) (map snd found)); rewrite PE; cbn [bind]; unfold composite; (destruct ls as [ls|]; cbn [obind]; [|subst f; eauto]);
  (destruct (pf_over pf _ ls c) as [px|]; subst f; cbn [option_map]; eauto).
Qed.
Print Assumptions incremental_over_blank.
Definition step (s : loaded) (t1 t2 : N) : option (option (list (layer unit))) :=
  match render_frame ink same (new_renderer (screen 640 480)) s t1 with
  | Done (r, Some f) => match render_incremental ink same r s t2 f with Done (_, o) => Some (option_map fr_pixels o) | _ => None end
  | _ => None
  end.
Definition whole (s : loaded) (t : N) : option (list (layer unit)) := pixels (render_frame ink same (new_renderer (screen 640 480)) s t).
Example incremental_ex : step pair_script 700 200 = Some (whole pair_script 200) /\ whole pair_script 700 = Some [] /\ whole pair_script 200 <> Some [].
Proof. split; [vm_compute; reflexivity|]. split; [vm_compute; reflexivity|vm_compute; discriminate]. Qed.
(* an event that is over stays on the screen *)
Theorem incremental_gone_refuted : exists f g, step pair_script 200 550 = Some (Some f) /\ whole pair_script 550 = Some g /\ List.length f = 2 /\ List.length g = 1.
Proof. do 2 eexists. split; [vm_compute; reflexivity|]. split; [vm_compute; reflexivity|]. split; reflexivity. Qed.
Print Assumptions incremental_gone_refuted.
(* as it does under the one that takes its place *)
Definition relay : loaded := script_of "640" "480" "2" [hello; says_line 2 "0:00:05.00" "0:00:09.00" "Default" "two"].
Theorem incremental_replaced_refuted : exists f g, step relay 200 600 = Some (Some f) /\ whole relay 600 = Some g /\ List.length f = 2 /\ List.length g = 1.
Proof. do 2 eexists. split; [vm_compute; reflexivity|]. split; [vm_compute; reflexivity|]. split; reflexivity. Qed.
Print Assumptions incremental_replaced_refuted.
(* and nothing moves *)
Definition moving_one : loaded := script_of "640" "480" "2" [says_line 1 "0:00:00.00" "0:00:05.00" "Default" "{\move(0,0,100,100)}go"].
Theorem incremental_animation_refuted : exists f g, step moving_one 100 400 = Some (Some f) /\ whole moving_one 100 = Some f /\ whole moving_one 400 = Some g /\ f <> g.
Proof. do 2 eexists. split; [vm_compute; reflexivity|]. split; [vm_compute; reflexivity|]. split; [vm_compute; reflexivity|]. discriminate. Qed.
Print Assumptions incremental_animation_refuted.
