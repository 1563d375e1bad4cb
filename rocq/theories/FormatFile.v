(* Whole files: reading and writing. *)
From Verif Require Import Base BaseLemmas NumSpec NumProofs Utf8Model Utf8Proofs ParseModel ParseSpec ParseLineProofs ParseScriptProofs ParseProofs StyleModel FormatModel FormatSpec FormatText.
Ltac Zify.zify_post_hook ::= Z.div_mod_to_equations.

(* ---- times of formats/ ---- *)
Lemma upto_app k a b : without k a -> upto k (a ++ k :: b) = Some (a, b).
Proof.
  intros H. unfold upto. assert (E : find_char (is_c k) (a ++ k :: b) = Some (a, k :: b)).
  { apply find_char_some. split; [reflexivity|]. split; [exact H|]. exists k, b. split; [reflexivity|]. unfold is_c. apply N.eqb_refl. }
  rewrite E. reflexivity.
Qed.
Lemma upto_none k s : without k s -> upto k s = None.
Proof. intros H. unfold upto. rewrite (find_char_without k s H). reflexivity. Qed.
Definition hms (h : str) (t : clock) : str := h ++ lit ":" ++ dec_pad 2 (ck_m t) ++ lit ":" ++ dec_pad 2 (ck_s t).
Lemma hms_without k h t : digs h -> k <> 58%N -> (k < 48 \/ 57 < k)%N -> without k (hms h t).
Proof.
  intros H1 H2 H3. unfold hms. change (lit ":") with [58%N]. repeat rewrite without_app.
  split; [exact (digits_without k h H1 H3)|]. split; [apply plain_without; congruence|]. split; [exact (digits_without k _ (dec_pad_digits _ _) H3)|].
  split; [apply plain_without; congruence|]. exact (digits_without k _ (dec_pad_digits _ _) H3).
Qed.
Lemma ass_time_hms t : ass_time t = hms (to_dec (ck_h t)) t ++ 46%N :: dec_pad 2 (ck_cs t).
Proof. unfold ass_time, hms. repeat rewrite <- app_assoc. reflexivity. Qed.
Lemma ms_time_hms k t ms : ms_time k t ms = hms (dec_pad 2 (ck_h t)) t ++ k :: dec_pad 3 ms.
Proof. unfold ms_time, hms. repeat rewrite <- app_assoc. reflexivity. Qed.
Lemma split_hms h t : digs h -> split_on is_colon (hms h t) = [h; dec_pad 2 (ck_m t); dec_pad 2 (ck_s t)].
Proof.
  intros H. apply split_three; [reflexivity|exact digit_colon|exact H|apply dec_pad_digits|].
  apply digits_not; [apply dec_pad_digits|exact digit_colon].
Qed.
Lemma time_out_ok k t : clock_ok t -> time_out k (ass_time t) = Ok (sub_time k t).
Proof.
  intros (H1 & H2 & H3 & H4). unfold time_out. rewrite ass_time_trim, ass_time_hms.
  rewrite upto_app by (apply hms_without; [apply to_dec_digits|discriminate|lia]).
  rewrite pu32 by lia. cbn [of_opt res_bind]. unfold u32_mul. destruct (N.ltb_spec u32_max (ck_cs t * 10)); [lia|]. cbn [res_bind].
  rewrite split_hms by apply to_dec_digits. rewrite pu32d by exact H1. reflexivity.
Qed.
Lemma drop_zero_hms t : drop_zero (hms (dec_pad 2 (ck_h t)) t) = hms (to_dec (ck_h t)) t.
Proof.
  unfold hms. apply drop_zero_pad; [|discriminate]. intros c r E. change (lit ":") with [58%N] in E. cbn [app] in E. injection E as <- _. reflexivity.
Qed.
Lemma ass_clock t cs : hms (to_dec (ck_h t)) t ++ 46%N :: dec_pad 2 cs = ass_time (Clock (ck_h t) (ck_m t) (ck_s t) cs).
Proof. rewrite ass_time_hms. reflexivity. Qed.
Lemma srt_in_ok a b t ms : forallb is_ws a = true -> forallb is_ws b = true -> (ms <= u32_max)%N ->
  srt_time_in (a ++ ms_time 44 t ms ++ b) = Ok (ass_time (Clock (ck_h t) (ck_m t) (ck_s t) (ms / 10))).
Proof.
  intros Ha Hb Hm. unfold srt_time_in. rewrite trim_app_ws by (assumption || (apply solid_trim, ms_time_solid; reflexivity)).
  rewrite ms_time_hms, upto_app by (apply hms_without; [apply dec_pad_digits|discriminate|lia]).
  rewrite pu32 by exact Hm. cbn [of_opt res_bind]. rewrite drop_zero_hms. change (lit ".") with [46%N]. cbn [app]. rewrite ass_clock. reflexivity.
Qed.
Lemma drop_zero_id c r : c <> 48%N -> drop_zero (c :: r) = c :: r.
Proof. intros H. unfold drop_zero. destruct c as [|q]; [reflexivity|]. repeat (destruct q as [q|q|]; try reflexivity). congruence. Qed.
Lemma drop_zero_one n : drop_zero (dec_pad 2 n) = to_dec n.
Proof.
  destruct (N.ltb_spec n 10) as [L|L].
  - assert (E : to_dec n = [48 + n]%N) by (unfold to_dec; cbn [dec_digits]; destruct (N.ltb_spec n 10); [reflexivity|lia]).
    unfold dec_pad, pad_left. rewrite E. reflexivity.
  - pose proof (drop_zero_pad n [58%N] ltac:(intros c r E; injection E as <- _; reflexivity) ltac:(discriminate)) as H.
    pose proof (to_dec_no_zero n L) as Z. pose proof (to_dec_nonempty n) as NE.
    pose proof (dec_pad_nonempty 2 n) as N0. destruct (dec_pad 2 n) as [|c r] eqn:E; [congruence|]. cbn [app] in H.
    destruct (N.eqb_spec c 48) as [->|C].
    + exfalso. destruct r as [|d r]; [apply (f_equal (@List.length N)) in H; rewrite app_length in H; destruct (to_dec n); [congruence|cbn in H; lia]|].
      change (drop_zero (48%N :: (d :: r) ++ [58%N])) with ((d :: r) ++ [58%N]) in H. apply app_inv_tail in H.
      assert (X : List.length (to_dec n) < 2 -> False).
      { intros Lt. unfold dec_pad, pad_left in E. rewrite <- H in *. cbn [List.length] in *. destruct r; [|cbn in Lt; lia]. clear E.
        unfold to_dec in H. cbn [dec_digits] in H. destruct (N.ltb_spec n 10); [lia|]. destruct (N.size_nat n) as [|f] eqn:Sn; [destruct n as [|[]]; discriminate || lia|].
        assert (Y : dec_digits (S f) (n / 10) <> []) by (cbn [dec_digits]; destruct (n / 10 <? 10)%N; [discriminate|destruct (dec_digits f (n / 10 / 10)); discriminate]).
        destruct (dec_digits (S f) (n / 10)) as [|y [|z w]]; [congruence|discriminate..]. }
      unfold dec_pad, pad_left in E. assert (Q : 2 - List.length (to_dec n) = 0) by lia. rewrite Q in E. cbn [repeat app] in E. rewrite E in Z. apply Z. reflexivity.
    + rewrite drop_zero_id in H by exact C. rewrite drop_zero_id by exact C. rewrite app_comm_cons in H. apply app_inv_tail in H. exact H.
Qed.
Lemma vtt_in_ok a b t ms : forallb is_ws a = true -> forallb is_ws b = true -> (ms <= u32_max)%N ->
  vtt_time_in (a ++ ms_time 46 t ms ++ b) = Ok (ass_time (Clock (ck_h t) (ck_m t) (ck_s t) (ms / 10))).
Proof.
  intros Ha Hb Hm. unfold vtt_time_in. rewrite trim_app_ws by (assumption || (apply solid_trim, ms_time_solid; reflexivity)).
  rewrite ms_time_hms, split_on_app; [|apply hms_without; [apply dec_pad_digits|discriminate|lia]|reflexivity].
  rewrite split_on_none by (apply digits_not; [apply dec_pad_digits|exact digit_dot]).
  rewrite pu32 by exact Hm. cbn [of_opt res_bind]. rewrite split_hms by apply dec_pad_digits. rewrite drop_zero_one.
  reflexivity.
Qed.
(* the short WebVTT form mm:ss.mmm *)
Definition short_time (t : clock) (ms : N) : str := dec_pad 2 (ck_m t) ++ lit ":" ++ dec_pad 2 (ck_s t) ++ [46%N] ++ dec_pad 3 ms.

(* ---- lines ---- *)
Lemma lines_raw_line l r : without 10 l -> lines_raw (l ++ 10%N :: r) = (l, true) :: lines_raw r.
Proof.
  induction l as [|c l IH]; intros H; [reflexivity|]. unfold without in H. cbn [forallb] in H. apply andb_prop in H as [H1 H2].
  cbn [app lines_raw]. unfold is_nl. destruct (N.eqb_spec c 10); [discriminate|]. rewrite (IH H2). reflexivity.
Qed.
Definition line_text (l : str) : Prop := without 10 l /\ strip_cr l = l.
Lemma lines_unlines ls : Forall line_text ls -> lines (unlines ls) = ls.
Proof.
  unfold lines. induction 1 as [|l ls [H1 H2] _ IH]; [reflexivity|]. unfold unlines. cbn [map concat]. rewrite <- app_assoc. cbn [app].
  rewrite lines_raw_line by exact H1. cbn [map]. rewrite H2. f_equal. exact IH.
Qed.
Lemma solid_line l : without 10 l -> solid l -> line_text l.
Proof.
  intros H [_ S2]. split; [exact H|]. unfold strip_cr. destruct (rev l) as [|c r] eqn:E; [reflexivity|].
  apply (f_equal (@rev _)) in E. rewrite rev_involutive in E. cbn in E. rewrite E in S2. rewrite last_last in S2.
  destruct (N.eqb_spec c 13) as [->|]; [discriminate|reflexivity].
Qed.
Lemma split_unlines ls : Forall (without 10) ls -> split_on is_nl (unlines ls) = ls ++ [[]].
Proof.
  induction 1 as [|l ls H _ IH]; [reflexivity|]. unfold unlines. cbn [map concat]. rewrite <- app_assoc. cbn [app].
  rewrite split_on_app; [|exact H|reflexivity]. cbn [app]. f_equal. exact IH.
Qed.

(* ---- reading the written ASS text ---- *)
Lemma sections_app A : forall B, sections_in (A ++ B) = map (fun x => (fst x, snd x ++ B)) (sections_in A) ++ sections_in B.
Proof.
  induction A as [|[p l] A IH]; intros B; [reflexivity|]. cbn [app sections_in]. destruct (header_line l); cbn [map app fst snd]; rewrite IH; reflexivity.
Qed.
Lemma located_app a : forall pre b, located pre (a ++ b) = located pre a ++ located (pre ++ unlines a) b.
Proof.
  induction a as [|l a IH]; intros pre b; [cbn; rewrite app_nil_r; reflexivity|]. cbn [app located]. rewrite IH. unfold unlines. cbn [map concat].
  do 2 f_equal. f_equal. repeat rewrite <- app_assoc. reflexivity.
Qed.
Definition entry_fit (e : entry) : Prop :=
  without 10 (en_start e) /\ without 10 (en_end e) /\ without 10 (en_text e) /\ comma_free (en_start e) /\ comma_free (en_end e).
Definition entry_read (ev : event) (e : entry) : Prop :=
  e_type ev = Dialogue /\ e_start ev = trim (en_start e) /\ e_end ev = trim (en_end e) /\ e_style ev = lit "Default" /\ e_text ev = trim (en_text e).
Lemma entry_line_header e : header_line (entry_line e) = false.
Proof. reflexivity. Qed.
Definition entry_vals (e : entry) (t : str) : list str := [lit " 0"; en_start e; en_end e; lit "Default"; []; lit "0"; lit "0"; lit "0"; []; t].
Lemma entry_join e t : event_type_str Dialogue ++ lit ":" ++ join [44%N] (entry_vals e t) = dialogue_line (en_start e) (en_end e) t.
Proof. unfold entry_vals, dialogue_line. cbn [join]. reflexivity. Qed.
Lemma entry_trim e : trim (entry_line e) = dialogue_line (en_start e) (en_end e) (trim_end (en_text e)).
Proof.
  unfold entry_line, dialogue_line. unfold trim, trim_start. rewrite drop_while_id by reflexivity.
  set (pre := lit "Dialogue: 0," ++ en_start e ++ lit "," ++ en_end e ++ lit ",Default,,0,0,0,").
  assert (E : forall t, lit "Dialogue: 0," ++ en_start e ++ lit "," ++ en_end e ++ lit ",Default,,0,0,0,," ++ t = pre ++ 44%N :: t).
  { intros t. unfold pre. repeat rewrite <- app_assoc. do 4 f_equal. }
  rewrite !E. apply trim_end_mid. reflexivity.
Qed.
Lemma trim_of_end s : trim (trim_end s) = trim s. Proof. apply trim_trim_end. Qed.
Definition columns : list str := map lit ["Layer"; "Start"; "End"; "Style"; "Name"; "MarginL"; "MarginR"; "MarginV"; "Effect"; "Text"]%string.
Lemma entry_parse e n : entry_fit e -> exists ev, parse_event_line (trim (entry_line e)) columns n = Ok ev /\ entry_read ev e.
Proof.
  intros (H1 & H2 & H3 & H4 & H5). rewrite entry_trim, <- entry_join.
  assert (V : event_values (format_or default_events_format columns) (entry_vals e (trim_end (en_text e)))).
  { unfold event_values. change (named (format_or default_events_format columns) (lit "Text")) with true. cbv iota. split; [reflexivity|].
    cbn [entry_vals removelast]. repeat (constructor; try assumption; try reflexivity). }
  rewrite (event_line_ok Dialogue columns _ n V). eexists. split; [reflexivity|]. unfold entry_read, event_of. cbn [e_type e_start e_end e_style e_text].
  assert (T : trim (trim_end (en_text e)) = trim (en_text e)) by apply trim_trim_end.
  repeat split; [exact T].
Qed.
Lemma entry_no_format e : format_of (trim (entry_line e)) = None.
Proof. rewrite entry_trim. reflexivity. Qed.
Lemma entries_in miss es : Forall entry_fit es -> forall pre,
  Forall2 entry_read (fst (events_in miss columns (body (located pre (map entry_line es ++ [[]]))))) es.
Proof.
  induction 1 as [|e es H _ IH]; intros pre; [constructor|].
  cbn [map app located body]. rewrite entry_line_header. cbn [events_in]. rewrite entry_no_format.
  specialize (IH (pre ++ entry_line e ++ [10%N])). destruct (events_in miss columns _) as [evs f]. cbn [fst] in IH.
  destruct (entry_parse e 0 H) as (ev & E & R). rewrite E. cbn [fst]. constructor; [exact R|exact IH].
Qed.
(* the four heads *)
Definition head_ok (hl : list str) : Prop :=
  Forall (without 10) hl /\ (exists r, hl = lit "[Script Info]" :: r) /\ headers_closed (located [] hl) = true /\
  exists r1 r2 p, filter (fun x => known_name (fst x)) (sections_in (located [] hl)) =
    [(lit "Script Info", r1); (lit "V4+ Styles", r2); (lit "Events", [(p, lit events_columns_line)])].
Definition style_row : string := "Style: Default,Arial,20,&H00FFFFFF,&H000000FF,&H00000000,&H00000000,0,0,0,0,100,100,0,0,1,2,0,2,10,10,10,1".
Definition style_row8 : string := "Style: Default,Arial,20,&H00FFFFFF,&H000000FF,&H00000000,&H80000000,0,0,0,0,100,100,0,0,1,2,0,2,10,10,10,1".
Definition conv_lines (title : string) : list str :=
  map lit ["[Script Info]"; title; "ScriptType: v4.00+"; "WrapStyle: 0"; "PlayResX: 640"; "PlayResY: 480";
    "ScaledBorderAndShadow: yes"; ""; "[V4+ Styles]"; styles_columns_line; style_row; ""; "[Events]"; events_columns_line]%string.
Definition plain_lines : list str :=
  map lit ["[Script Info]"; "Title: Imported from Plain Text"; "ScriptType: v4.00+"; ""; "[V4+ Styles]"; styles_columns_line; style_row; "";
    "[Events]"; events_columns_line]%string.
Definition format_lines (title : string) (extra : list string) : list str :=
  map lit (["[Script Info]"; title; "ScriptType: v4.00+"; "Collisions: Normal"; "PlayDepth: 0"; "Timer: 100.0000";
    "Video Aspect Ratio: 0"; "Video Zoom: 6"; "Video Position: 0"]%string ++ extra ++ [""; "[V4+ Styles]"; styles_columns_line; style_row8; "";
    "[Events]"; events_columns_line]%string).
Lemma unlines_lit l : concat (map ln l) = unlines (map lit l).
Proof. unfold unlines, ln. rewrite map_map. reflexivity. Qed.
Lemma conv_head_lines t : converter_head t = unlines (conv_lines t). Proof. apply unlines_lit. Qed.
Lemma plain_head_lines : plain_head = unlines plain_lines. Proof. apply unlines_lit. Qed.
Lemma format_head_lines t x : format_head t x = unlines (format_lines t x). Proof. apply unlines_lit. Qed.
Ltac head := split; [repeat constructor|]; split; [eexists; reflexivity|]; split; [vm_compute; reflexivity|]; do 3 eexists; vm_compute; reflexivity.
Lemma srt_head_ok : head_ok (conv_lines "Title: Imported from SRT"). Proof. head. Qed.
Lemma vtt_head_ok : head_ok (conv_lines "Title: Imported from WebVTT"). Proof. head. Qed.
Lemma plain_head_ok : head_ok plain_lines. Proof. head. Qed.
Lemma fsrt_head_ok : head_ok (format_lines "Title: Converted from SRT" []). Proof. head. Qed.
Lemma fvtt_head_ok : head_ok (format_lines "Title: Converted from WebVTT" ["PlayResX: 640"; "PlayResY: 480"]%string). Proof. head. Qed.
Lemma entry_lines_unlines es : entry_lines es = unlines (map entry_line es).
Proof. unfold entry_lines, unlines. rewrite map_map. reflexivity. Qed.
Lemma unlines_app a b : unlines (a ++ b) = unlines a ++ unlines b.
Proof. unfold unlines. rewrite map_app, concat_app. reflexivity. Qed.
Lemma entry_line_nl e : entry_fit e -> without 10 (entry_line e).
Proof.
  intros (H1 & H2 & H3 & _). unfold entry_line, dialogue_line. repeat rewrite without_app. repeat (split; [reflexivity || assumption|]). assumption.
Qed.
Lemma no_sections es pre : sections_in (located pre (map entry_line es ++ [[]])) = [].
Proof. revert pre. induction es as [|e es IH]; intros pre; [reflexivity|]. cbn [map app located sections_in]. rewrite entry_line_header. apply IH. Qed.
Lemma closed_entries es pre : headers_closed (located pre (map entry_line es ++ [[]])) = true.
Proof. unfold headers_closed. revert pre. induction es as [|e es IH]; intros pre; [reflexivity|]. cbn [map app located forallb snd]. rewrite entry_line_header, IH. reflexivity. Qed.
Lemma entries_read hl es : head_ok hl -> Forall entry_fit es -> small (unlines hl ++ entry_lines es) ->
  exists sc, parse (unlines hl ++ entry_lines es) = Done sc /\ Forall2 entry_read (events_of (sc_sections sc)) es /\ events_sections (sc_sections sc) = 1.
Proof.
  intros (HL & (r & HE) & HC & (r1 & r2 & p & HS)) HF SM.
  destruct (parse_done None (unlines hl ++ entry_lines es)) as [sc E]. exists sc. split; [exact E|].
  rewrite entry_lines_unlines, <- unlines_app in *.
  set (src := unlines (hl ++ map entry_line es)) in *.
  assert (SL : source_lines src = located [] hl ++ located (unlines hl) (map entry_line es ++ [[]])).
  { unfold source_lines, lines_at. assert (B : bom src = [] /\ text src = src) by (unfold src; rewrite HE; split; reflexivity). destruct B as [-> ->].
    unfold src at 1. rewrite split_unlines. 2:{ apply Forall_app. split; [exact HL|]. rewrite Forall_map. eapply Forall_impl; [|exact HF]. exact entry_line_nl. }
    rewrite <- app_assoc, located_app. reflexivity. }
  assert (CL : headers_closed (source_lines src) = true).
  { rewrite SL. unfold headers_closed in *. rewrite forallb_app, HC. apply closed_entries. }
  destruct (parse_closed None src sc SM CL E) as (A & _). rewrite SL, sections_app, no_sections, app_nil_r in A.
  assert (FM : forall (l : list (str * list (str * str))) B, filter (fun x => known_name (fst x)) (map (fun x => (fst x, snd x ++ B)) l) =
               map (fun x => (fst x, snd x ++ B)) (filter (fun x => known_name (fst x)) l)).
  { intros l B. induction l as [|x l IH]; [reflexivity|]. cbn [map filter fst]. destruct (known_name (fst x)); cbn [map]; rewrite IH; reflexivity. }
  rewrite FM, HS in A. cbn [map fst snd] in A.
  inversion A as [|? s1 ? l1 (m1 & R1) A1 E1 E1']; subst. inversion A1 as [|? s2 ? l2 (m2 & R2) A2 E2 E2']; subst. inversion A2 as [|? s3 ? l3 (m3 & R3) A3 E3 E3']; subst.
  inversion A3; subst. clear A A1 A2 A3.
  destruct s1 as [f1 sp1|x1|x1|x1|x1]; cbn [reads fst snd] in R1; try (destruct R1 as [R1 _]; discriminate).
  destruct s2 as [f2 sp2|x2|x2|x2|x2]; cbn [reads fst snd] in R2; try (destruct R2 as [R2 _]; discriminate).
  destruct s3 as [f3 sp3|x3|x3|x3|x3]; cbn [reads fst snd] in R3; try (destruct R3 as [R3 _]; discriminate).
  destruct R3 as [_ ->]. split; [|reflexivity]. unfold events_of. cbn [map concat app]. rewrite app_nil_r.
  cbn [body app]. change (header_line (lit events_columns_line)) with false. cbn [events_in].
  change (format_of (trim (lit events_columns_line))) with (Some columns). cbv iota beta. apply entries_in. exact HF.
Qed.
