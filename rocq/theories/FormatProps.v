(* C42: times; C77: SRT files; C78: WebVTT files; C79: what importing can do;
   C80: stripping override blocks. *)
From Verif Require Import Base BaseLemmas NumSpec NumProofs Utf8Model ParseModel ParseSpec StyleModel FormatModel FormatSpec FormatText FormatFile FormatProofs FormatTotal.

(* ---- C42 ---- *)
(* every ASS time, written by either writer, is read back by either reader *)
Theorem srt_time_round : forall t, clock_ok t ->
  time_out 44 (ass_time t) = Ok (sub_time 44 t) /\ conv_time_out 44 (ass_time t) = Ok (sub_time 44 t) /\
  srt_time_in (sub_time 44 t) = Ok (ass_time t) /\ conv_srt_time (sub_time 44 t) = Ok (ass_time t).
Proof.
  intros t H. split; [exact (time_out_ok 44 t H)|]. split; [exact (conv_out_time 44 t H)|]. split; [|exact (conv_srt_sub t H)].
  pose proof (srt_in_ok [] [] t (ck_cs t * 10) eq_refl eq_refl ltac:(apply H)) as V. cbn [app] in V. rewrite app_nil_r in V. unfold sub_time. rewrite V, clock_eta. reflexivity.
Qed.
Print Assumptions srt_time_round.
Theorem vtt_time_round : forall t, clock_ok t ->
  time_out 46 (ass_time t) = Ok (sub_time 46 t) /\ conv_time_out 46 (ass_time t) = Ok (sub_time 46 t) /\
  vtt_time_in (sub_time 46 t) = Ok (ass_time t) /\ conv_vtt_time (sub_time 46 t) = Ok (ass_time t).
Proof.
  intros t H. split; [exact (time_out_ok 46 t H)|]. split; [exact (conv_out_time 46 t H)|]. split; [|exact (conv_vtt_sub t H)].
  pose proof (vtt_in_ok [] [] t (ck_cs t * 10) eq_refl eq_refl ltac:(apply H)) as V. cbn [app] in V. rewrite app_nil_r in V. unfold sub_time. rewrite V, clock_eta. reflexivity.
Qed.
Print Assumptions vtt_time_round.
Example time_round_case : clock_ok (Clock 1 2 3 45) /\ ass_time (Clock 1 2 3 45) = lit "1:02:03.45" /\ sub_time 44 (Clock 1 2 3 45) = lit "01:02:03,450".
Proof. repeat split; vm_compute; congruence. Qed.
(* reading drops the last digit of the milliseconds *)
Theorem srt_time_cut : forall t ms, (ms <= u32_max)%N -> clock_ok t -> let t' := Clock (ck_h t) (ck_m t) (ck_s t) (ms / 10) in
  srt_time_in (ms_time 44 t ms) = Ok (ass_time t') /\ conv_srt_time (ms_time 44 t ms) = Ok (ass_time t').
Proof.
  intros t ms M H. split; [|exact (conv_srt_ms t ms H M)].
  pose proof (srt_in_ok [] [] t ms eq_refl eq_refl M) as V. cbn [app] in V. rewrite app_nil_r in V. exact V.
Qed.
Print Assumptions srt_time_cut.
Theorem vtt_time_cut : forall t ms, (ms <= u32_max)%N -> clock_ok t -> let t' := Clock (ck_h t) (ck_m t) (ck_s t) (ms / 10) in
  vtt_time_in (ms_time 46 t ms) = Ok (ass_time t') /\ conv_vtt_time (ms_time 46 t ms) = Ok (ass_time t').
Proof.
  intros t ms M H. split; [|exact (conv_vtt_ms t ms H M)].
  pose proof (vtt_in_ok [] [] t ms eq_refl eq_refl M) as V. cbn [app] in V. rewrite app_nil_r in V. exact V.
Qed.
Print Assumptions vtt_time_cut.
Example time_cut_case : srt_time_in (lit "01:02:03,456") = Ok (lit "1:02:03.45") /\ conv_vtt_time (lit "01:02:03.456") = Ok (lit "1:02:03.45").
Proof. split; reflexivity. Qed.
(* A long fraction in a script stops the export. *)
Theorem time_out_panics_refuted : exists s, time_out 44 s = Panic /\ time_out 46 s = Panic /\ conv_time_out 44 s = Panic /\ conv_time_out 46 s = Panic.
Proof. exists (lit "0:00:00.429496730"). repeat split; reflexivity. Qed.
Print Assumptions time_out_panics_refuted.
(* Only one leading zero goes away: hours with three digits stay as they are. *)
Theorem zero_hours_refuted : exists s t, clock_ok t /\ srt_time_in s = Ok (lit "01:00:00.00") /\ conv_srt_time s = Ok (ass_time t) /\ ass_time t = lit "1:00:00.00".
Proof. exists (lit "001:00:00,000"), (Clock 1 0 0 0). repeat split; vm_compute; congruence. Qed.
Print Assumptions zero_hours_refuted.

(* ---- C77 ---- *)
Lemma says_all evs l : Forall2 says evs l -> filter (fun e => match e_type e with Dialogue => true | _ => false end) evs = evs.
Proof. induction 1 as [|e c evs l (S1 & _) _ IH]; [reflexivity|]. cbn [filter]. rewrite S1, IH. reflexivity. Qed.
Lemma read_says s l evs : Forall (cue_ok s) l -> Forall2 entry_read evs (map entry_of l) -> Forall2 says evs l.
Proof.
  revert evs. induction l as [|c l IH]; intros evs HF H2; inversion H2 as [|e ? evs' ? R H2']; subst; [constructor|]. inversion HF; subst. constructor; [eapply entry_of_says; eassumption|apply IH; assumption].
Qed.
Lemma fits s l : Forall (cue_ok s) l -> Forall entry_fit (map entry_of l).
Proof. rewrite Forall_map. apply Forall_impl. exact (entry_of_fit s). Qed.
Lemma file_says s l hl : head_ok hl -> Forall (cue_ok s) l -> small (unlines hl ++ entry_lines (map entry_of l)) ->
  exists sc, parse (unlines hl ++ entry_lines (map entry_of l)) = Done sc /\ Forall2 says (dialogues_of (sc_sections sc)) l /\ events_sections (sc_sections sc) = 1.
Proof.
  intros Hh H SM. destruct (entries_read hl (map entry_of l) Hh (fits s l H) SM) as (sc & P & R & E). exists sc. split; [exact P|]. split; [|exact E].
  pose proof (read_says s l _ H R) as SY. unfold dialogues_of. rewrite (says_all _ _ SY). exact SY.
Qed.
Lemma srt_cues l : Forall srt_ok l -> Forall (cue_ok false) l.
Proof. apply Forall_impl. intros c H. apply H. Qed.
Lemma vtt_cues l : Forall vtt_ok l -> Forall (cue_ok false) l.
Proof. apply Forall_impl. intros c H. apply H. Qed.

(* Any SRT file: FormatConverter::import gives a script with exactly its cues,
   and exporting that script gives the file back. *)
Theorem srt_convert_round : forall l, Forall srt_ok l -> exists text, import (srt_file l) (Some FSrt) = Ok text /\
  (small text -> exists sc, parse text = Done sc /\ Forall2 says (dialogues_of (sc_sections sc)) l /\
     forall v, export_srt (Conversion false v) (sc_sections sc) = Ok (srt_file l)).
Proof.
  intros l H. eexists. split; [unfold import, import_srt; rewrite (conv_srt_file l H); cbn [res_bind]; rewrite conv_head_lines; reflexivity|].
  intros SM. destruct (file_says false l _ srt_head_ok (srt_cues l H) SM) as (sc & P & S1 & _). exists sc. split; [exact P|]. split; [exact S1|].
  intros v. unfold export_srt. rewrite all_dialogues_of. exact (export_srt_cues (Conversion false v) l _ eq_refl (srt_cues l H) S1 1).
Qed.
Print Assumptions srt_convert_round.
(* The SRT format: the same, arrows in the text and strike-out allowed. *)
Theorem srt_format_round : forall l, Forall (cue_ok true) l -> exists x, srt_import (srt_file l) = Ok x /\ im_count x = List.length l /\
  (small (im_text x) -> exists sc, parse (im_text x) = Done sc /\ Forall2 says (dialogues_of (sc_sections sc)) l /\
     srt_export true (sc_sections sc) = Ok (Exported (srt_file l) (N.of_nat (List.length l)) 0)).
Proof.
  intros l H. destruct (srt_import_file l H) as [w E]. eexists. split; [exact E|]. split; [reflexivity|]. cbn [im_text]. intros SM.
  destruct (file_says true l _ fsrt_head_ok H SM) as (sc & P & S1 & N1). exists sc. split; [exact P|]. split; [exact S1|].
  unfold srt_export. rewrite first_events_of by lia. rewrite (export_cues true 44 srt_styling_out l srt_styling_cue _ H S1 1%N ltac:(lia)). cbn [res_bind encoding_warning]. do 2 f_equal. lia.
Qed.
Print Assumptions srt_format_round.
(* Any script whose dialogues say these cues is written as that file. *)
Theorem srt_writes_cues : forall secs l v, Forall (cue_ok false) l -> Forall2 says (dialogues_of secs) l ->
  export_srt (Conversion false v) secs = Ok (srt_file l) /\
  (events_sections secs <= 1 -> srt_export true secs = Ok (Exported (srt_file l) (N.of_nat (List.length l)) 0)).
Proof.
  intros secs l v H S1. split; [unfold export_srt; rewrite all_dialogues_of; exact (export_srt_cues (Conversion false v) l _ eq_refl H S1 1)|].
  intros N1. unfold srt_export. rewrite first_events_of by exact N1.
  assert (HT : Forall (cue_ok true) l).
  { eapply Forall_impl; [|exact H]. intros c [C1 C2 C3 C4]. constructor; try assumption. eapply Forall_impl; [|exact C4]. intros p [P1 P2 P3]. constructor; try assumption.
    eapply Forall_impl; [|exact P1]. intros [k|[] o]; cbn; auto. }
  rewrite (export_cues true 44 srt_styling_out l srt_styling_cue _ HT S1 1%N ltac:(lia)). cbn [res_bind encoding_warning]. do 2 f_equal. lia.
Qed.
Print Assumptions srt_writes_cues.
Definition words_of (s : string) : list piece := map Plain (lit s).
Definition cue1 : cue := Cue (Clock 0 0 1 23) (Clock 0 0 4 56) [words_of "Hello, " ++ [Switch Bold true] ++ words_of "you" ++ [Switch Bold false]; words_of "two"].
Definition cue2 : cue := Cue (Clock 12 34 56 78) (Clock 100 0 0 0) [[Switch Italic true] ++ words_of "5"].
Definition cue3 : cue := Cue (Clock 0 0 1 0) (Clock 0 0 2 0) [words_of "a --> b"; words_of "7"; [Switch Strike true] ++ words_of "NOTE"].
Ltac ck := repeat (apply Forall_cons || apply Forall_nil || (constructor; [vm_compute; repeat split; congruence|vm_compute; repeat split; congruence|discriminate|]) || (constructor; [|discriminate|vm_compute; reflexivity]) || (vm_compute; reflexivity) || exact I).
Lemma no_arrow_check s : contains (lit "-->") s = false -> no_arrow s.
Proof. intros H a b ->. rewrite arrow_contains in H. discriminate. Qed.
Example srt_round_case : Forall srt_ok [cue1; cue2] /\ Forall (cue_ok true) [cue1; cue3] /\
  srt_file [cue1; cue2] = concat (map ln ["1"; "00:00:01,230 --> 00:00:04,560"; "Hello, <b>you</b>"; "two"; ""; "2"; "12:34:56,780 --> 100:00:00,000"; "<i>5"; ""]%string).
Proof.
  split; [|split; [ck|vm_compute; reflexivity]].
  constructor; [split; [ck|]|constructor; [split; [ck|]|constructor]]; repeat constructor; apply no_arrow_check; vm_compute; reflexivity.
Qed.
(* What goes wrong outside that: a line of text with an arrow in it takes the
   place of the times, or of the cue's number. *)
Theorem srt_arrow_refuted : exists c, cue_ok false c /\ ~ arrowless c /\ import (srt_file [c]) (Some FSrt) = Err.
Proof.
  exists (Cue (Clock 0 0 1 0) (Clock 0 0 2 0) [words_of "a --> b"]). split; [ck|]. split; [|vm_compute; reflexivity].
  intros H. inversion H as [|? ? X _]; subst. apply no_arrow_contains in X. vm_compute in X. discriminate.
Qed.
Print Assumptions srt_arrow_refuted.
(* a paragraph that is only a number becomes an event with no times *)
Theorem srt_number_refuted : exists text evs, import (lit "5" ++ [10%N; 10%N]) (Some FSrt) = Ok text /\
  (match parse text with Done sc => events_of (sc_sections sc) | _ => [] end) = evs /\ map (fun e => (e_start e, e_end e, e_text e)) evs = [([], [], [])].
Proof. eexists. eexists. split; [vm_compute; reflexivity|]. split; [reflexivity|]. vm_compute. reflexivity. Qed.
Print Assumptions srt_number_refuted.
(* a well-formed file is reported with a warning *)
Theorem srt_warning_refuted : exists x, srt_import (srt_file [cue1]) = Ok x /\ im_warnings x = 1.
Proof. eexists. split; [vm_compute; reflexivity|]. vm_compute. reflexivity. Qed.
Print Assumptions srt_warning_refuted.
(* colours are not turned around: red comes out blue *)
Theorem srt_color_refuted : exists s, s = lit "<font color=" ++ [34%N] ++ lit "#FF0000" ++ [34%N] ++ lit ">x" /\ srt_styling_in s = lit "{\c&HFF0000&}x".
Proof. eexists. split; [vm_compute; reflexivity|]. vm_compute. reflexivity. Qed.
Print Assumptions srt_color_refuted.
(* going out, the colour is lost and its end tag stays behind *)
Theorem srt_color_out_refuted : srt_styling_out (lit "a{\c&H0000FF&}b{\c}c") = lit "ab</font>c" /\ vtt_styling_out (lit "a{\c&H0000FF&}b{\c}c") = lit "ab</c>c".
Proof. split; vm_compute; reflexivity. Qed.
Print Assumptions srt_color_out_refuted.
(* only the first [Events] section is written by the formats *)
Theorem second_events_refuted : exists text sc, parse text = Done sc /\ List.length (dialogues_of (sc_sections sc)) = 2 /\
  (match srt_export true (sc_sections sc) with Ok x => Some (ex_count x, ex_warnings x) | _ => None end) = Some (1%N, 0).
Proof.
  exists (concat (map ln ["[Script Info]"; "Title: t"; "[Events]"; events_columns_line; "Dialogue: 0,0:00:01.00,0:00:02.00,Default,,0,0,0,,a"; "[Events]"; events_columns_line; "Dialogue: 0,0:00:01.00,0:00:02.00,Default,,0,0,0,,b"]%string)).
  eexists. split; [vm_compute; reflexivity|]. split; vm_compute; reflexivity.
Qed.
Print Assumptions second_events_refuted.

(* ---- C78 ---- *)
Theorem vtt_convert_round : forall num l, Forall vtt_ok l -> exists text, import (vtt_file num l) (Some FVtt) = Ok text /\
  (small text -> exists sc, parse text = Done sc /\ Forall2 says (dialogues_of (sc_sections sc)) l /\
     forall o, op_strip o = false -> quiet o -> export_webvtt o (sc_sections sc) = Ok (vtt_file false l)).
Proof.
  intros num l H. eexists. split; [unfold import, import_webvtt; rewrite (conv_vtt_file num l H); cbn [res_bind]; rewrite conv_head_lines; reflexivity|].
  intros SM. destruct (file_says false l _ vtt_head_ok (vtt_cues l H) SM) as (sc & P & S1 & _). exists sc. split; [exact P|]. split; [exact S1|].
  intros o Ho Hq. unfold export_webvtt. rewrite all_dialogues_of, (export_vtt_cues o l _ Ho Hq (vtt_cues l H) S1 1%N). cbn [res_bind].
  unfold vtt_file. destruct Hq as [-> | ->]; reflexivity.
Qed.
Print Assumptions vtt_convert_round.
Theorem vtt_format_round : forall num l, Forall (cue_ok false) l -> exists x, vtt_import (vtt_file num l) = Ok x /\ im_count x = List.length l /\
  (small (im_text x) -> exists sc, parse (im_text x) = Done sc /\ Forall2 says (dialogues_of (sc_sections sc)) l /\
     vtt_export true (sc_sections sc) = Ok (Exported (vtt_file true l) (N.of_nat (List.length l)) 0)).
Proof.
  intros num l H. destruct (vtt_import_file num l H) as [w E]. eexists. split; [exact E|]. split; [reflexivity|]. cbn [im_text]. intros SM.
  destruct (file_says false l _ fvtt_head_ok H SM) as (sc & P & S1 & N1). exists sc. split; [exact P|]. split; [exact S1|].
  unfold vtt_export. rewrite first_events_of by lia. rewrite (export_cues false 46 vtt_styling_out l vtt_styling_cue _ H S1 1%N ltac:(lia)). cbn [res_bind encoding_warning ex_text ex_count ex_warnings]. do 2 f_equal. lia.
Qed.
Print Assumptions vtt_format_round.
Theorem vtt_writes_cues : forall secs l o, Forall (cue_ok false) l -> Forall2 says (dialogues_of secs) l -> op_strip o = false -> quiet o ->
  export_webvtt o secs = Ok (vtt_file false l) /\
  (events_sections secs <= 1 -> vtt_export true secs = Ok (Exported (vtt_file true l) (N.of_nat (List.length l)) 0)).
Proof.
  intros secs l o H S1 Ho Hq. split.
  - unfold export_webvtt. rewrite all_dialogues_of, (export_vtt_cues o l _ Ho Hq H S1 1%N). cbn [res_bind]. unfold vtt_file. destruct Hq as [-> | ->]; reflexivity.
  - intros N1. unfold vtt_export. rewrite first_events_of by exact N1. rewrite (export_cues false 46 vtt_styling_out l vtt_styling_cue _ H S1 1%N ltac:(lia)).
    cbn [res_bind encoding_warning ex_text ex_count ex_warnings]. do 2 f_equal. lia.
Qed.
Print Assumptions vtt_writes_cues.
Example vtt_round_case : Forall vtt_ok [cue1; cue2] /\ Forall (cue_ok false) [Cue (Clock 0 0 1 0) (Clock 0 0 2 0) [words_of "a --> b"; words_of "NOTE"]] /\
  vtt_file false [cue1; cue2] = concat (map ln ["WEBVTT"; ""; "00:00:01.230 --> 00:00:04.560"; "Hello, <b>you</b>"; "two"; ""; "12:34:56.780 --> 100:00:00.000"; "<i>5"; ""]%string).
Proof.
  split; [|split; [ck|vm_compute; reflexivity]].
  constructor; [split; [ck|]|constructor; [split; [ck|]|constructor]]; (split; [repeat constructor; apply no_arrow_check; vm_compute; reflexivity|split; repeat constructor]).
Qed.
(* The cue settings that the converter writes cannot be read by it again. *)
Theorem vtt_settings_refuted : exists e text, export_webvtt (Conversion false (Some (false, true))) [SEvents [e]] = Ok text /\ import text (Some FVtt) = Err.
Proof.
  exists (Event Dialogue [] (lit "0:00:01.00") (lit "0:00:02.00") [] [] [] [] (lit "10") None None [] (lit "x") (Span 0 0 0 0)). eexists. split; [vm_compute; reflexivity|]. vm_compute. reflexivity.
Qed.
Print Assumptions vtt_settings_refuted.
(* a very negative margin stops the export *)
Theorem vtt_margin_refuted : exists e, export_webvtt (Conversion false (Some (false, true))) [SEvents [e]] = Panic.
Proof.
  exists (Event Dialogue [] (lit "0:00:01.00") (lit "0:00:02.00") [] [] [] [] (lit "-2147483647") None None [] (lit "x") (Span 0 0 0 0)). vm_compute. reflexivity.
Qed.
Print Assumptions vtt_margin_refuted.
(* text starting with NOTE ends its cue *)
Theorem vtt_note_refuted : exists c text, cue_ok false c /\ arrowless c /\ List.length (cu_lines c) = 2 /\ import (vtt_file false [c]) (Some FVtt) = Ok text /\
  match parse text with Done sc => map e_text (events_of (sc_sections sc)) | _ => [] end = [lit "a"].
Proof.
  exists (Cue (Clock 0 0 1 0) (Clock 0 0 2 0) [words_of "a"; words_of "NOTES"]). eexists. split; [ck|]. split; [repeat constructor; apply no_arrow_check; vm_compute; reflexivity|]. split; [reflexivity|].
  split; [vm_compute; reflexivity|]. vm_compute. reflexivity.
Qed.
Print Assumptions vtt_note_refuted.
(* commas in a time are let through and move every later field *)
Theorem vtt_comma_refuted : exists x, vtt_import (concat (map ln ["WEBVTT"; "0,0:00:01.000 --> 00:00:02.000"; "hi"]%string)) = Ok x /\
  match parse (im_text x) with Done sc => map (fun e => (e_start e, e_end e, e_style e, e_text e)) (events_of (sc_sections sc)) | _ => [] end = [([], lit "0:00:01.00", lit "0:00:02.00", lit ",hi")].
Proof. eexists. split; [vm_compute; reflexivity|]. vm_compute. reflexivity. Qed.
Print Assumptions vtt_comma_refuted.

(* ---- C79 ---- *)
(* Detection, for files that do not quote a script. *)
Definition no_script (s : str) : Prop := contains (lit "[Script Info]") s = false /\ contains (lit "[Events]") s = false.
Theorem detects_srt : forall l, l <> [] -> no_script (srt_file l) -> from_content (srt_file l) = FSrt.
Proof.
  intros l NE [H1 H2]. unfold from_content. rewrite H1, H2. cbn [orb]. destruct l as [|c l]; [congruence|].
  assert (A : contains (lit "-->") (srt_file (c :: l)) = true).
  { unfold srt_file. cbn [blocks]. change ([to_dec 1] ++ cue_block 44 c ++ blocks true 44 (1 + 1) l) with (lit "1" :: cue_block 44 c ++ blocks true 44 (1 + 1) l).
    rewrite cue_block_rest, !unlines_cons, stamp_parts. repeat rewrite <- app_assoc. rewrite !(app_assoc _ _ (lit "-->" ++ _)). apply arrow_contains. }
  assert (W : starts_with (lit "WEBVTT") (srt_file (c :: l)) = false) by reflexivity. rewrite W, A. reflexivity.
Qed.
Print Assumptions detects_srt.
Theorem detects_vtt : forall num l, no_script (vtt_file num l) -> from_content (vtt_file num l) = FVtt.
Proof. intros num l [H1 H2]. unfold from_content. rewrite H1, H2. reflexivity. Qed.
Print Assumptions detects_vtt.
Example detects_case : no_script (srt_file [cue1]) /\ no_script (vtt_file true [cue1; cue2]).
Proof. repeat split; vm_compute; reflexivity. Qed.
Theorem detects_quoted_refuted : exists c, cue_ok false c /\ arrowless c /\ import (srt_file [c]) None = Ok (srt_file [c]).
Proof.
  exists (Cue (Clock 0 0 1 0) (Clock 0 0 2 0) [words_of "See [Events] below"]). split; [ck|]. split; [repeat constructor; apply no_arrow_check; vm_compute; reflexivity|]. vm_compute. reflexivity.
Qed.
Print Assumptions detects_quoted_refuted.
(* No content stops an import; the SRT format reads anything; the WebVTT
   format reads anything whose arrows are followed by something. *)
Theorem import_never_panics : forall content f, import content f <> Panic.
Proof. exact import_calm. Qed.
Print Assumptions import_never_panics.
Theorem srt_import_reads : forall content, exists x, srt_import content = Ok x.
Proof. exact srt_import_total. Qed.
Print Assumptions srt_import_reads.
Theorem vtt_import_reads : forall content, Forall timed_line (lines content) -> exists x, vtt_import content = Ok x.
Proof. exact vtt_import_total. Qed.
Print Assumptions vtt_import_reads.
Example vtt_import_case : Forall timed_line (lines (concat (map ln ["WEBVTT"; "x --> y"; "text"]%string))).
Proof.
  set (ls := lines _). vm_compute in ls. subst ls. repeat constructor; intros u v E.
  - exfalso. apply (no_arrow_check (lit "WEBVTT") eq_refl u v). exact E.
  - assert (F : split_str (lit "-->") (u ++ lit "-->" ++ v) = [lit "x "; lit " y"]) by (rewrite <- E; reflexivity).
    exists [32%N], 121%N, []. split; [|repeat split; discriminate].
    do 3 (destruct u as [|? u]; [cbn in E; try discriminate E; try (injection E as <-; reflexivity)|cbn in E; injection E as _ E]).
    exfalso. do 5 (destruct u as [|? u]; cbn in E; [discriminate E|first [discriminate E|injection E as _ E]]).
  - exfalso. apply (no_arrow_check (lit "text") eq_refl u v). exact E.
Qed.
Theorem vtt_import_panics_refuted : vtt_import (concat (map ln ["WEBVTT"; "00:00:01.000 -->"; "hi"]%string)) = Panic.
Proof. vm_compute. reflexivity. Qed.
Print Assumptions vtt_import_panics_refuted.
(* Whatever the content, the imported text is a script, and it holds as many
   events as the import reports. *)
Theorem srt_import_counts : forall content x, srt_import content = Ok x -> small (im_text x) ->
  exists sc, parse (im_text x) = Done sc /\ List.length (dialogues_of (sc_sections sc)) = im_count x.
Proof.
  intros content x E SM. destruct (srt_import_fit content x E) as (es & F & T & C). rewrite T in *. destruct (entries_read _ es fsrt_head_ok F SM) as (sc & P & R & _). exists sc. split; [exact P|].
  rewrite C. unfold dialogues_of. clear - R. induction R as [|e x evs es (D & _) _ IH]; [reflexivity|]. cbn [filter List.length]. rewrite D. cbn [List.length]. rewrite IH. reflexivity.
Qed.
Print Assumptions srt_import_counts.
Theorem converter_import_reads : forall content f text, f = FSrt \/ f = FVtt -> import content (Some f) = Ok text -> small text ->
  exists sc, parse text = Done sc /\ events_sections (sc_sections sc) = 1 /\ Forall (fun e => e_type e = Dialogue /\ e_style e = lit "Default") (events_of (sc_sections sc)).
Proof.
  assert (G : forall evs es, Forall2 entry_read evs es -> Forall (fun e => e_type e = Dialogue /\ e_style e = lit "Default") evs).
  { induction 1 as [|e x evs es R _ IH]; constructor; [split; apply R|exact IH]. }
  intros content f text [-> | ->] E SM; unfold import in E.
  - unfold import_srt in E. destruct (conv_srt_entries content) as [es| |] eqn:C; cbn [res_bind] in E; [|discriminate..]. apply ok_inj in E. rewrite conv_head_lines in E. subst text.
    destruct (entries_read _ es srt_head_ok (conv_srt_fit _ _ C) SM) as (sc & P & R & N1). exists sc. split; [exact P|]. split; [exact N1|exact (G _ _ R)].
  - unfold import_webvtt in E. destruct (conv_vtt_entries content) as [es| |] eqn:C; cbn [res_bind] in E; [|discriminate..]. apply ok_inj in E. rewrite conv_head_lines in E. subst text.
    destruct (entries_read _ es vtt_head_ok (conv_vtt_fit _ _ C) SM) as (sc & P & R & N1). exists sc. split; [exact P|]. split; [exact N1|exact (G _ _ R)].
Qed.
Print Assumptions converter_import_reads.
(* A text file becomes one event holding all its lines. *)
Theorem plain_import_reads : forall ls, Forall line_text ls -> small (import_plain (unlines ls)) ->
  exists sc e, parse (import_plain (unlines ls)) = Done sc /\ events_of (sc_sections sc) = [e] /\ e_type e = Dialogue /\ e_start e = lit "0:00:00.00" /\ e_end e = lit "0:00:05.00" /\ e_text e = trim (join (lit "\N") ls).
Proof.
  intros ls H SM. unfold import_plain in *. rewrite (lines_unlines ls H), plain_head_lines in *. set (en := Entry _ _ _) in *.
  assert (F : Forall entry_fit [en]).
  { constructor; [|constructor]. repeat split; cbn [en_start en_end en_text en]; try (vm_compute; reflexivity). apply join_nl. eapply Forall_impl; [|exact H]. intros l [W _]. exact W. }
  destruct (entries_read _ [en] plain_head_ok F SM) as (sc & P & R & _). inversion R as [|e ? evs ? R1 R2 E1]; subst. inversion R2; subst. exists sc, e.
  destruct R1 as (T1 & T2 & T3 & _ & T4). split; [exact P|]. split; [symmetry; assumption|]. split; [exact T1|]. split; [rewrite T2; vm_compute; reflexivity|]. split; [rewrite T3; vm_compute; reflexivity|exact T4].
Qed.
Print Assumptions plain_import_reads.
Example plain_import_case : Forall line_text [lit "one"; lit " two "] /\ trim (join (lit "\N") [lit "one"; lit " two "]) = lit "one\N two".
Proof. split; [repeat constructor|vm_compute; reflexivity]. Qed.

(* ---- C80 ---- *)
(* Stripping takes out every block that has an end, from the left, and
   nothing else; there is one such result. *)
Theorem strip_removes_blocks : forall s, exists t, strip_ass_tags s = Ok t /\ unbraced s t /\ forall t', unbraced s t' -> t' = t.
Proof. intros s. destruct (strip_unbraced s) as (t & E & U). exists t. split; [exact E|]. split; [exact U|]. intros t' U'. symmetry. exact (unbraced_fun s t U t' U'). Qed.
Print Assumptions strip_removes_blocks.
Example strip_case : strip_ass_tags (lit "a{\b1}b{x{y}c}d{e") = Ok (lit "abc}d{e").
Proof. vm_compute. reflexivity. Qed.
(* Plain text: the texts of all dialogues, one after the other. *)
Theorem plain_export_texts : forall v secs, export_plain (Conversion false v) secs = Ok (unlines (map (fun e => replace (lit "\N") [10%N] (e_text e)) (dialogues_of secs))).
Proof.
  intros v secs. unfold export_plain. rewrite all_dialogues_of. cbn [op_strip]. induction (dialogues_of secs) as [|e l IH]; [reflexivity|]. cbn [export_plain_from res_bind map]. rewrite IH, unlines_cons. reflexivity.
Qed.
Print Assumptions plain_export_texts.
Theorem plain_export_stripped : forall v secs, exists ts, Forall2 (fun e t => unbraced (e_text e) t) (dialogues_of secs) ts /\
  export_plain (Conversion true v) secs = Ok (unlines (map (replace (lit "\N") [10%N]) ts)).
Proof.
  intros v secs. unfold export_plain. rewrite all_dialogues_of. cbn [op_strip]. induction (dialogues_of secs) as [|e l (ts & F & E)]; [exists []; split; [constructor|reflexivity]|].
  destruct (strip_unbraced (e_text e)) as (t & S1 & U). exists (t :: ts). split; [constructor; assumption|]. cbn [export_plain_from map]. rewrite S1. cbn [res_bind]. rewrite E, unlines_cons. reflexivity.
Qed.
Print Assumptions plain_export_stripped.
(* Text between angle brackets that is no tag is dropped on import. *)
Theorem angle_text_refuted : conv_srt_text (lit "1 < 2 and 3 > 2") = lit "1  2".
Proof. vm_compute. reflexivity. Qed.
Print Assumptions angle_text_refuted.
