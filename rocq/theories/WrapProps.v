(* C132-C133: automatic wrapping. *)
From Verif Require Import Base FloatModel FloatSpec FloatProofs CollideModel CollideProofs SegmentModel AnimModel AnimSpec AnimProofs ShowModel ShowSpec ShowProofs WrapModel WrapSpec WrapProofs.

Lemma starts_balanced sh ws limit : tl (line_starts sh ws limit true) = fill sh ws (halve sh ws (length (fill sh ws limit)) 24 (max_word sh ws) limit).
Proof. unfold line_starts. cbv beta iota zeta delta [tl]. reflexivity. Qed.
Lemma starts_plain sh ws limit : tl (line_starts sh ws limit false) = fill sh ws limit.
Proof. reflexivity. Qed.

(* ---- C132: wrapping keeps the text ---- *)
Lemma wrap_cases sh line limit balance :
  exists ws, words_of (map fst (line_marks line)) ws /\
  (wrap_segments sh line limit balance = [line] /\ (length ws = 1 \/ greedy sh ws limit (length ws) 0 []) \/
   exists breaks groups, broken_at 0 (line_marks line) breaks groups /\ map line_marks (wrap_segments sh line limit balance) = filter not_empty groups /\
     breaks = tl (line_starts sh ws limit balance) /\ fill sh ws limit <> []).
Proof.
  assert (OM : map (own_mark line) (owned 0 line) = line_marks line) by exact (owned_marks line []).
  assert (T : map fst (line_marks line) = map fst (owned 0 line)). { rewrite <- OM, map_map. apply map_ext. reflexivity. }
  exists (text_words (map fst (owned 0 line))). pose proof (text_words_ok (map fst (owned 0 line))) as W. rewrite T. split; [exact W|]. set (ws := text_words (map fst (owned 0 line))) in *.
  assert (N0 : ws <> []) by (destruct W as (? & _ & _ & N0 & _); exact N0). pose proof (fill_greedy sh ws limit N0) as G.
  destruct line as [|s0 r0] eqn:EL; [left; split; [reflexivity|]; left; reflexivity|]. rewrite <- EL in *. 
  assert (U : wrap_segments sh line limit balance = if length ws <=? 1 then [line] else match fill sh ws limit with [] => [line] | _ => filter filled_line (map (fun g => map (owner_segment line) (by_owner g)) (cut_lines ws (owned 0 line) (line_starts sh ws limit balance))) end).
  { unfold ws. rewrite EL. reflexivity. }
  rewrite U. destruct (Nat.leb_spec (length ws) 1) as [L|L]; [left; split; [reflexivity|]; left; destruct ws; [contradiction|cbn [length] in *; lia]|].
  destruct (fill sh ws limit) as [|b bs] eqn:F; [left; split; [reflexivity|now right]|]. right.
  assert (H : exists breaks, breaks = tl (line_starts sh ws limit balance)) by now eexists. destruct H as (breaks & H).
  assert (C : chain (length ws) 0 breaks). { rewrite H. destruct balance; [rewrite starts_balanced|rewrite starts_plain]; eapply greedy_chain; apply fill_greedy; exact N0. }
  assert (LS : line_starts sh ws limit balance = 0 :: breaks) by (rewrite H; reflexivity).
  exists breaks, (map (map (own_mark line)) (cut_lines ws (owned 0 line) (0 :: breaks))). split; [|split; [|split; [exact H|discriminate]]].
  - rewrite <- OM. apply broken_map; [reflexivity|]. pose proof (cut_ok ws (owned 0 line) W breaks 0 C) as K. rewrite word_start_0 in K. exact K.
  - rewrite <- lines_filtered. now rewrite LS.
Qed.
(* nothing is lost but one space per break, and every character keeps the place and tags of its run *)
Theorem wrap_keeps_text sh line limit balance : wrap_segments sh line limit balance = [line] \/
  exists breaks groups, broken_at 0 (line_marks line) breaks groups /\ map line_marks (wrap_segments sh line limit balance) = filter not_empty groups.
Proof.
  destruct (wrap_cases sh line limit balance) as (ws & _ & [(E & _)|(breaks & groups & B & M & _)]); [now left|right]. now exists breaks, groups.
Qed.

(* ---- C133: how lines are filled ---- *)
Theorem wrap_greedy sh line limit : exists ws, words_of (map fst (line_marks line)) ws /\
  (wrap_segments sh line limit false = [line] /\ (length ws = 1 \/ greedy sh ws limit (length ws) 0 []) \/
   exists breaks groups, broken_at 0 (line_marks line) breaks groups /\ map line_marks (wrap_segments sh line limit false) = filter not_empty groups /\
     greedy sh ws limit (length ws) 0 breaks /\ breaks <> []).
Proof.
  destruct (wrap_cases sh line limit false) as (ws & W & [E|(breaks & groups & B & M & S0 & N0)]); exists ws; (split; [exact W|]); [now left|right]. exists breaks, groups. split; [exact B|]. split; [exact M|]. rewrite starts_plain in S0. subst breaks. split; [|exact N0]. apply fill_greedy. destruct W as (? & _ & _ & W & _). exact W.
Qed.
(* balanced: greedy for some narrower limit, with no more lines *)
Theorem wrap_balanced sh line limit : exists ws, words_of (map fst (line_marks line)) ws /\
  (wrap_segments sh line limit true = [line] /\ (length ws = 1 \/ greedy sh ws limit (length ws) 0 []) \/
   exists breaks groups base narrow, broken_at 0 (line_marks line) breaks groups /\ map line_marks (wrap_segments sh line limit true) = filter not_empty groups /\
     greedy sh ws narrow (length ws) 0 breaks /\ greedy sh ws limit (length ws) 0 base /\ length breaks <= length base /\
     (forall w, limit = Fin w -> (0 <= w)%Q -> fair w ->
        (forall i, i < length ws -> exists q, line_ink sh ws (word_adv sh ws i) (word_glyphs ws i) i i = Fin q /\ fair q /\ (q <= w)%Q) ->
        (exists m, narrow = Fin m /\ (m <= w)%Q) /\ lines_fit sh ws limit (length ws) 0 breaks)).
Proof.
  destruct (wrap_cases sh line limit true) as (ws & W & [E|(breaks & groups & B & M & S0 & N0)]); exists ws; (split; [exact W|]); [now left|right]. assert (WN : ws <> []) by (destruct W as (? & _ & _ & WN & _); exact WN).
  rewrite starts_balanced in S0. exists breaks, groups, (fill sh ws limit), (halve sh ws (length (fill sh ws limit)) 24 (max_word sh ws) limit). split; [exact B|]. split; [exact M|]. rewrite S0. clear S0 M B. split; [apply fill_greedy; exact WN|]. split; [apply fill_greedy; exact WN|]. split; [apply halve_few; apply le_n|].
  intros w -> W0 WF F. destruct (max_word_ok sh ws w W0 WF F) as (m & MW & MF & ML). rewrite MW. destruct (halve_low sh ws (length (fill sh ws (Fin w))) 24 m w MF WF ML) as (h & H & HL). rewrite H. clear H. split; [exists h; split; [reflexivity|exact HL]|]. eapply greedy_fit; [|apply fill_greedy; exact WN]. intros a i. now apply fitting_wider.
Qed.
Definition mono : shaper := Shaper (fun s => let w := Fin (inject_Z (10 * Z.of_nat (length s))) in (w, Fin 0, w)) (Fin 0) (Fin 1).
Definition plain_line (s : str) : list segment := [Segment s 0 0 no_tags].
Example wrap_instance : map (map sg_text) (wrap_segments mono (plain_line (lit "one two three four five")) (fl 100) false) = [[lit "one two"]; [lit "three four"]; [lit "five"]] /\
  map (map sg_text) (wrap_segments mono (plain_line (lit "aa bb cc dd")) (fl 80) false) = [[lit "aa bb cc"]; [lit "dd"]] /\
  map (map sg_text) (wrap_segments mono (plain_line (lit "aa bb cc dd")) (fl 80) true) = [[lit "aa bb"]; [lit "cc dd"]].
Proof. repeat split; vm_compute; reflexivity. Qed.
Example wrap_fits_instance : let ws := text_words (lit "aa bb cc dd") in fair 80 /\ forall i, i < length ws -> exists q, line_ink mono ws (word_adv mono ws i) (word_glyphs ws i) i i = Fin q /\ fair q /\ (q <= 80)%Q.
Proof.
  cbv zeta. assert (F : forall z, (0 <= z <= 1000)%Z -> fair (inject_Z z)). { intros z Z0. split; [apply int_fits; lia|]. rewrite Qabs_pos by (change 0%Q with (inject_Z 0); rewrite <- Zle_Qle; lia). apply Qle_trans with (inject_Z 1000); [rewrite <- Zle_Qle; lia|discriminate]. }
  split; [apply (F 80%Z); lia|]. intros i I. exists 20%Q. split; [|split; [apply (F 20%Z); lia|discriminate]]. change (length _) with 4 in I. do 4 (destruct i as [|i]; [vm_compute; reflexivity|]). lia.
Qed.
(* a word that is too long makes the balanced lines of all others too long *)
Theorem wrap_balanced_fits_refuted : ~ forall sh ws limit, ws <> [] -> (exists w, limit = Fin w /\ fair w) -> lines_fit sh ws limit (length ws) 0 (tl (line_starts sh ws limit true)).
Proof.
  intros H. set (ws := [lit "aaaaaaaaaaaaaaaaaaaa"; lit "bbbb"; lit "cccc"; lit "dddd"]). specialize (H mono ws (fl 100)). assert (K : lines_fit mono ws (fl 100) (length ws) 0 (tl (line_starts mono ws (fl 100) true))).
  { apply H; [discriminate|]. exists 100%Q. split; [reflexivity|]. split; [exact (int_fits 100 ltac:(lia))|discriminate]. }
  assert (E : tl (line_starts mono ws (fl 100) true) = [1]) by (vm_compute; reflexivity). rewrite E in K. inversion K as [|a b r A F L]; subst. inversion L as [a A' F'|]; subst. destruct (F' 3) as (x & g & O & T); [cbn; lia|]. inversion O as [| |a i x2 g2 O2]; subst. inversion O2 as [| |a i x1 g1 O1]; subst. inversion O1 as [|a A0|a i x0 g0 O0]; subst.
  - vm_compute in T. discriminate T.
  - inversion O0; subst; lia.
Qed.
(* without balancing, the same text fits *)
Example wrap_greedy_fits : tl (line_starts mono [lit "aaaaaaaaaaaaaaaaaaaa"; lit "bbbb"; lit "cccc"; lit "dddd"] (fl 100) false) = [1; 3].
Proof. vm_compute. reflexivity. Qed.
Print Assumptions wrap_keeps_text.
Print Assumptions wrap_greedy.
Print Assumptions wrap_balanced.
Print Assumptions wrap_balanced_fits_refuted.
