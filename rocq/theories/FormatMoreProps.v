(* More properties of the subtitle conversions: cue settings (C78) and the
   headers of SSA files (C79). *)
From Verif Require Import Base BaseLemmas NumSpec NumProofs Utf8Model ParseModel ParseSpec StyleModel FormatModel FormatSpec FormatText FormatFile FormatProofs FormatTotal FormatProps FormatMoreSpec FormatMore.
Open Scope nat_scope.

(* With cue settings on, the margin is counted from the bottom: the line is 100
   minus it, and there is none for a margin of 0. *)
Theorem vtt_writes_settings : forall st secs l, Forall (fun p => cue_ok false (fst p) /\ i32 (snd p) /\ (100 - snd p <= 2147483647)%Z) l ->
  Forall2 says_with (dialogues_of secs) l -> export_webvtt (Conversion false (Some (st, true))) secs = Ok (margin_file st l).
Proof.
  intros st secs l H S1. unfold export_webvtt. rewrite all_dialogues_of, (margin_blocks_out st l _ H S1). cbn [res_bind op_vtt].
  unfold margin_file. rewrite !unlines_app. destruct st; [rewrite style_block_lines|]; reflexivity.
Qed.
Print Assumptions vtt_writes_settings.
Definition low_event : event := Event Dialogue [] (lit "0:00:01.23") (lit "0:00:04.56") [] [] [] [] (lit "10") None None [] (ass_text cue1) (Span 0 0 0 0).
Definition mid_event : event := Event Dialogue [] (lit "12:34:56.78") (lit "100:00:00.00") [] [] [] [] (lit "-7") None None [] (ass_text cue2) (Span 0 0 0 0).
Example vtt_settings_case : Forall (fun p => cue_ok false (fst p) /\ i32 (snd p) /\ (100 - snd p <= 2147483647)%Z) [(cue1, 10%Z); (cue2, (-7)%Z)] /\
  Forall2 says_with (dialogues_of [SEvents [low_event; mid_event]]) [(cue1, 10%Z); (cue2, (-7)%Z)] /\
  margin_file false [(cue1, 10%Z); (cue2, (-7)%Z)] = concat (map ln ["WEBVTT"; ""; "00:00:01.230 --> 00:00:04.560 line:90"; "Hello, <b>you</b>"; "two"; ""; "12:34:56.780 --> 100:00:00.000 line:107"; "<i>5"; ""]%string).
Proof.
  split; [|split; [|vm_compute; reflexivity]].
  - constructor; [split; [cbn [fst]; assert (G : Forall (cue_ok false) [cue1]) by ck; inversion G; assumption|cbn [snd]; unfold i32; lia]|].
    constructor; [split; [cbn [fst]; assert (G : Forall (cue_ok false) [cue2]) by ck; inversion G; assumption|cbn [snd]; unfold i32; lia]|]. constructor.
  - constructor; [split; [repeat split; vm_compute; reflexivity|vm_compute; reflexivity]|]. constructor; [split; [repeat split; vm_compute; reflexivity|vm_compute; reflexivity]|]. constructor.
Qed.

(* The importer turns line and position into \pos, counted in pictures of 640
   by 480, and align into \an; the last value given for a key counts. *)
Theorem vtt_reads_settings : forall c ss p a, cue_ok false c -> Forall setting_ok ss -> place_tag ss p -> align_tag ss a ->
  exists x, vtt_import (set_file c ss) = Ok x /\ im_count x = 1 /\
  (small (im_text x) -> exists sc e, parse (im_text x) = Done sc /\ events_of (sc_sections sc) = [e] /\ e_type e = Dialogue /\
     e_start e = ass_time (cu_start c) /\ e_end e = ass_time (cu_end c) /\ e_text e = in_block (p ++ a) ++ ass_text c).
Proof.
  intros c ss p a H HS HP HA.
  assert (LN : lines (set_file c ss) = [lit "WEBVTT"; []; stamp 46 c ++ concat (map setting_text ss)] ++ map html_line (cu_lines c) ++ [[]]).
  { apply lines_unlines. apply Forall_app. split.
    - constructor; [split; reflexivity|]. constructor; [split; reflexivity|]. constructor; [|constructor].
      apply solid_line; [|apply set_solid; [exact HS|apply stamp_solid; reflexivity]].
      apply without_app. split; [exact (proj1 (stamp_line 46 c eq_refl ltac:(discriminate)))|apply set_without; [right; reflexivity|exact HS]].
    - apply Forall_app. split; [|constructor; [split; reflexivity|constructor]]. rewrite Forall_map. eapply Forall_impl; [|exact (co_lines _ c H)]. exact (html_line_text false). }
  unfold vtt_import. rewrite LN. cbn [app]. change (starts_with (lit "WEBVTT") (trim (lit "WEBVTT"))) with true. cbv iota.
  set (rest := [] :: _).
  assert (L : exists w, import_loop (S (List.length rest)) (fun x => vtt_cue (S (List.length x)) x) rest = Ok ([set_entry c (p ++ a)], w)).
  { pose proof (set_cue (List.length rest) c ss p a [] H HS HP HA : vtt_cue (S (List.length rest)) rest = _) as E.
    destruct rest as [|x [|y rs]] eqn:R; [discriminate|discriminate|]. rewrite <- R in *. 
    assert (ST : import_loop (S (List.length rest)) (fun x => vtt_cue (S (List.length x)) x) rest =
      match vtt_cue (S (List.length rest)) rest with Ok (e, r) => q <~ import_loop (List.length rest) (fun x => vtt_cue (S (List.length x)) x) r ; Ok (e :: fst q, snd q) | Err => q <~ import_loop (List.length rest) (fun x => vtt_cue (S (List.length x)) x) (y :: rs) ; Ok (fst q, S (snd q)) | Panic => Panic end) by (rewrite R; reflexivity).
    rewrite ST, E. cbv iota beta. assert (LL : exists n, List.length rest = S (S n)) by (rewrite R; eexists; reflexivity). destruct LL as [n ->]. eexists. reflexivity. }
  destruct L as (w & ->). cbn [res_bind]. eexists. split; [reflexivity|]. unfold finish_import. cbn [fst snd im_text im_count List.length]. split; [reflexivity|].
  intros SM. rewrite format_head_lines in *.
  destruct (entries_read _ [set_entry c (p ++ a)] fvtt_head_ok) as (sc & P & R & _).
  { constructor; [|constructor]. apply set_entry_fit; [exact H|]. apply without_app. split; [exact (place_line ss p HP)|exact (align_line ss a HA)]. }
  { exact SM. }
  inversion R as [|e ? evs ? (R1 & R2 & R3 & _ & R4) R5 EQ]; subst. inversion R5; subst. exists sc, e. cbn [set_entry en_start en_end en_text] in *. rewrite ass_time_trim in *.
  rewrite (solid_trim _ (set_text_solid c (p ++ a) H)) in R4. repeat split; auto.
Qed.
Print Assumptions vtt_reads_settings.
Definition settings1 : list (str * str) := [(lit "line", lit "9"); (lit "align", lit "start"); (lit "position", lit "2"); (lit "line", lit "1")].
Example vtt_reads_case : Forall setting_ok settings1 /\ place_tag settings1 (lit "\pos(1280,480)") /\ align_tag settings1 (lit "\an1").
Proof.
  split; [|split].
  - repeat (constructor; [split; [repeat constructor; discriminate|cbn; intuition discriminate]|]). constructor.
  - right. exists 1%N, 2%N. repeat split.
  - right. exists (lit "start"), 49%N. split; [reflexivity|]. split; [reflexivity|]. left. auto.
Qed.
(* A percentage, the usual form of these settings, is not a number for the
   importer and gives no position. *)
Theorem vtt_percent_refuted : exists c x, cue_ok false c /\ vtt_import (set_file c [(lit "line", lit "50%"); (lit "position", lit "50%")]) = Ok x /\
  match parse (im_text x) with Done sc => map e_text (events_of (sc_sections sc)) | _ => [] end = [ass_text c].
Proof. exists cue2. eexists. split; [ck|]. split; [vm_compute; reflexivity|]. vm_compute. reflexivity. Qed.
Print Assumptions vtt_percent_refuted.

(* SSA files: the two headers are renamed wherever they occur, and nothing
   else changes. *)
Theorem ssa_export_exact : forall text, exists mid, swapped (lit "[V4+ Styles]") (lit "[V4 Styles]") text mid /\
  swapped (lit "ScriptType: v4.00+") (lit "ScriptType: v4.00") mid (export_ssa text).
Proof.
  intros text. exists (replace (lit "[V4+ Styles]") (lit "[V4 Styles]") text). split.
  - exact (replace_swapped (lit "[V4+ Styles]") (lit "[V4 Styles]") ltac:(discriminate) (List.length text) text (le_n _)).
  - exact (replace_swapped (lit "ScriptType: v4.00+") (lit "ScriptType: v4.00") ltac:(discriminate) _ _ (le_n _)).
Qed.
Print Assumptions ssa_export_exact.
Theorem swapped_one : forall a b s t t', a <> [] -> swapped a b s t -> swapped a b s t' -> t = t'.
Proof. intros a b s t t' Ha H H'. exact (swapped_unique a b Ha s t H t' H'). Qed.
Print Assumptions swapped_one.
Example ssa_export_case : export_ssa (concat (map ln ["[Script Info]"; "ScriptType: v4.00+"; "[V4+ Styles]"; "Style: ScriptType: v4.00+"]%string)) =
  concat (map ln ["[Script Info]"; "ScriptType: v4.00"; "[V4 Styles]"; "Style: ScriptType: v4.00"]%string).
Proof. vm_compute. reflexivity. Qed.
