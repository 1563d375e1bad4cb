(* Cue settings and header swaps. *)
From Verif Require Import Base BaseLemmas NumSpec NumProofs Utf8Model ParseModel ParseSpec StyleModel FormatModel FormatSpec FormatText FormatFile FormatProofs FormatTotal FormatMoreSpec.
From Verif Require FloatSpec FloatProofs FloatTextProofs FloatProps.
Open Scope nat_scope.

(* ---- writing settings ---- *)
Lemma int_text_dec z : z_dec z = int_text z.
Proof. unfold z_dec, int_text. destruct z as [|p|p]; [reflexivity|reflexivity|]. cbn [Z.ltb Z.compare Z.opp Z.to_N]. reflexivity. Qed.
Lemma int_text_read z : i32 z -> parse_i32 (int_text z) = Some z.
Proof.
  unfold i32. intros B. unfold int_text. destruct z as [|p|p].
  - reflexivity.
  - unfold parse_i32. pose proof (to_dec_digits (Z.to_N (Zpos p))) as D. pose proof (parse_to_dec 2147483647 (Z.to_N (Zpos p)) ltac:(lia)) as P1.
    destruct (to_dec (Z.to_N (Zpos p))) as [|c r] eqn:E; [exfalso; exact (to_dec_nonempty _ E)|].
    cbn [forallb] in D. apply andb_prop in D as [D _]. unfold is_digit in D.
    assert (C : c <> 45%N) by lia. destruct c as [|[[[[[[]|[]|]|[[]|[]|]|]|[[[]|[]|]|[[]|[]|]|]|]|[[[[]|[]|]|[[]|[]|]|]|[[[]|[]|]|[[]|[]|]|]|]|]|[[[[[]|[]|]|[[]|[]|]|]|[[[]|[]|]|[[]|[]|]|]|]|[[[[]|[]|]|[[]|[]|]|]|[[[]|[]|]|[[]|[]|]|]|]|]|]]; try congruence; rewrite P1; cbn [option_map]; f_equal; lia.
  - unfold parse_i32. change (lit "-" ++ to_dec (N.pos p)) with (45%N :: to_dec (N.pos p)). destruct (to_dec (N.pos p)) as [|c r] eqn:E; [exfalso; exact (to_dec_nonempty _ E)|].
    cbn [tl]. rewrite <- E, to_dec_val by lia. reflexivity.
Qed.
Lemma margin_line st e m : i32 m -> (100 - m <= 2147483647)%Z -> e_margin_v e = int_text m ->
  cue_line (Conversion false (Some (st, true))) e = Ok (if (m =? 0)%Z then [] else lit " line:" ++ int_text (100 - m)).
Proof.
  intros B L E. unfold cue_line. cbn [op_vtt]. rewrite E, (int_text_read m B). destruct (m =? 0)%Z; [reflexivity|].
  destruct (Z.ltb_spec 2147483647 (100 - m)); [lia|]. rewrite int_text_dec. reflexivity.
Qed.
Lemma margin_blocks_out st l evs : Forall (fun p => cue_ok false (fst p) /\ i32 (snd p) /\ (100 - snd p <= 2147483647)%Z) l -> Forall2 says_with evs l ->
  export_vtt_from (Conversion false (Some (st, true))) evs = Ok (unlines (margin_blocks l)).
Proof.
  intros HF H2. induction H2 as [|e [c m] evs l [S1 S2] _ IH]; [reflexivity|]. inversion HF as [|? ? (H & B & L) HF']; subst. cbn [fst snd] in *. cbn [export_vtt_from margin_blocks].
  pose proof S1 as (_ & E1 & E2 & _). rewrite E1, E2, (conv_out_time 46 _ (co_start _ _ H)), (conv_out_time 46 _ (co_end _ _ H)). cbn [res_bind].
  rewrite (margin_line st e m B L S2). cbn [res_bind]. rewrite (conv_body_cue (Conversion false (Some (st, true))) e c eq_refl H S1). cbn [res_bind]. rewrite (IH HF'). cbn [res_bind]. f_equal.
  rewrite unlines_cons, unlines_app, unlines_app. unfold margin_stamp, stamp, html_text.
  rewrite <- (unlines_join (map html_line (cu_lines c))) by (destruct (cu_lines c) eqn:Q; [exfalso; exact (co_some _ _ H Q)|discriminate]).
  repeat rewrite <- app_assoc. reflexivity.
Qed.
Lemma style_block_lines : style_block = unlines style_lines. Proof. reflexivity. Qed.

(* ---- reading settings ---- *)
Lemma upto_key k v : ~ In 58%N k -> upto 58 (k ++ [58%N] ++ v) = Some (k, v).
Proof.
  intros H. unfold upto. assert (F : find_char (is_c 58) (k ++ [58%N] ++ v) = Some (k, 58%N :: v)).
  { induction k as [|c k IH]; [reflexivity|]. cbn [app find_char]. assert (C : is_c 58 c = false). { unfold is_c. apply N.eqb_neq. intros ->. apply H. left. reflexivity. }
    rewrite C. cbn [app] in IH. rewrite IH; [reflexivity|]. intros I. apply H. right. exact I. }
  rewrite F. reflexivity.
Qed.
Lemma settings_read k ss : Forall setting_ok ss -> forall m,
  setting (fold_left (fun m w => match upto 58 w with Some kv => kv :: m | None => m end) (map (fun p => fst p ++ [58%N] ++ snd p) ss) m) k =
  match value_of k ss with Some v => Some v | None => setting m k end.
Proof.
  induction 1 as [|[a v] ss [_ H] _ IH]; intros m; [reflexivity|]. cbn [map fold_left fst snd value_of] in *. rewrite (upto_key a v H), IH. cbn [setting].
  destruct (value_of k ss); [reflexivity|]. destruct (str_eqb a k); reflexivity.
Qed.
Lemma trim_end_head x r : is_ws x = false -> exists z, trim_end (x :: r) = x :: z.
Proof.
  intros H. unfold trim_end. destruct (drop_end_spec is_ws (x :: r)) as (b & E & B & _). destruct (drop_end is_ws (x :: r)) as [|y z] eqn:D.
  - cbn [app] in E. rewrite <- E in B. cbn [forallb] in B. rewrite H in B. discriminate.
  - cbn [app] in E. injection E as -> _. exists z. reflexivity.
Qed.
Definition no_ws (s : str) : Prop := forallb (fun c => negb (is_ws c)) s = true.
Lemma words_spaced ws : Forall (fun w => w <> [] /\ no_ws w) ws -> words (concat (map (fun w => 32%N :: w) ws)) = ws.
Proof.
  intros H. destruct ws as [|w0 ws0]; [reflexivity|].
  assert (G : forall w r, no_ws w -> Forall (fun w => w <> [] /\ no_ws w) r -> split_on is_ws (w ++ concat (map (fun w => 32%N :: w) r)) = w :: r).
  { intros w r W R. revert w W. induction R as [|x r [_ X] _ IH]; intros w W; cbn [map concat].
    - rewrite app_nil_r. apply split_on_none, W.
    - cbn [app]. rewrite split_on_app by (exact W || reflexivity). rewrite IH by exact X. reflexivity. }
  unfold words. change (concat (map (fun w => 32%N :: w) (w0 :: ws0))) with ([] ++ concat (map (fun w => 32%N :: w) (w0 :: ws0))).
  rewrite G by (reflexivity || exact H). cbn [filter nonempty].
  assert (N0 : forall l : list str, Forall (fun w => w <> [] /\ no_ws w) l -> filter nonempty l = l).
  { induction 1 as [|x l [X _] _ IH]; [reflexivity|]. cbn [filter]. destruct x; [congruence|]. cbn [nonempty]. rewrite IH. reflexivity. }
  apply (N0 (w0 :: ws0) H).
Qed.
Lemma set_tail ss : concat (map setting_text ss) = concat (map (fun w => 32%N :: w) (map (fun p => fst p ++ [58%N] ++ snd p) ss)).
Proof. induction ss as [|p ss IH]; [reflexivity|]. cbn [map concat]. rewrite IH. reflexivity. Qed.
Lemma set_words p : setting_ok p -> fst p ++ [58%N] ++ snd p <> [] /\ no_ws (fst p ++ [58%N] ++ snd p).
Proof.
  intros [H _]. split; [destruct (fst p); discriminate|]. unfold no_ws. rewrite forallb_app. cbn [app forallb]. change (negb (is_ws 58)) with true. cbn [andb]. rewrite <- forallb_app, forallb_forall.
  rewrite Forall_forall in H. intros c C. destruct (H c C) as [-> _]. reflexivity.
Qed.
Lemma set_without k ss : (k = 45 \/ k = 10)%N -> Forall setting_ok ss -> without k (concat (map setting_text ss)).
Proof.
  intros K. induction 1 as [|p ss [H _] _ IH]; [reflexivity|]. cbn [map concat]. apply without_app. split; [|exact IH]. unfold setting_text, without.
  rewrite !forallb_app. rewrite Forall_forall in H.
  assert (G : forall x, (forall c, In c x -> is_ws c = false /\ c <> 45%N) -> forallb (fun c => negb (c =? k)%N) x = true).
  { intros x X. rewrite forallb_forall. intros c C. destruct (X c C) as [W D]. destruct (N.eqb_spec c k) as [->|]; [|reflexivity]. destruct K as [->| ->]; [congruence|discriminate]. }
  rewrite (G (fst p)) by (intros c C; apply H, in_or_app; left; exact C). rewrite (G (snd p)) by (intros c C; apply H, in_or_app; right; exact C). destruct K as [->| ->]; reflexivity.
Qed.
Lemma dec_number f : forall n, (n < 2 ^ N.of_nat f)%N -> FloatSpec.digits_number (dec_digits f n) = Z.of_N n.
Proof.
  induction f as [|f IH]; intros n H; [cbn in *; lia|]. cbn [dec_digits]. destruct (N.ltb_spec n 10).
  - cbn [FloatSpec.digits_number List.length]. change (10 ^ Z.of_nat 0)%Z with 1%Z. lia.
  - rewrite FloatTextProofs.number_app, IH.
    + cbn [FloatSpec.digits_number List.length]. change (10 ^ Z.of_nat 0)%Z with 1%Z. change (10 ^ Z.of_nat 1)%Z with 10%Z. pose proof (N.div_mod n 10 ltac:(lia)). lia.
    + rewrite Nat2N.inj_succ, N.pow_succ_r' in H. apply N.div_lt_upper_bound; lia.
Qed.
Lemma dec_read n : (n < 2 ^ 24)%N -> exists v, parse_float f32 (to_dec n) = Some (Fin v) /\ (v == inject_Z (Z.of_N n))%Q.
Proof.
  intros H. destruct FloatProps.formats_valid as [V _].
  destruct (FloatProps.integers_exact f32 (Z.of_N n) V) as (v & E & EQ); [cbn; lia|cbn [fm_prec f32]; rewrite Z.abs_eq by lia; lia|cbn; lia|].
  exists v. split; [|exact EQ]. apply (FloatProps.number_read_exactly f32 _ _ V). rewrite <- E.
  pose proof (FloatSpec.num_decimal f32 [] false (to_dec n) _ FloatSpec.sign_none (eq_rect _ (fun s => FloatSpec.decimal s _) (FloatSpec.dec_plain (to_dec n) [] 0 (to_dec_nonempty n) ltac:(apply Forall_forall; intros c C; pose proof (to_dec_digits n) as D; rewrite forallb_forall in D; specialize (D c C); unfold is_digit in D; unfold FloatSpec.decimal_digit; lia) FloatSpec.exp_none) _ (app_nil_r _))) as P1.
  cbn [app] in P1. replace (f_of_Z f32 (Z.of_N n)) with (round_to f32 (inject_Z (FloatSpec.digits_number (to_dec n)) * 10 ^ 0)); [exact P1|].
  unfold f_of_Z. apply (FloatProps.rounding_respects_value f32 _ _ V). unfold to_dec. rewrite dec_number by apply to_dec_fuel. change (10 ^ 0)%Q with 1%Q. ring.
Qed.
Lemma times_exact n k v : (n * k < 2 ^ 24)%N -> (k < 2 ^ 24)%N -> (v == inject_Z (Z.of_N n))%Q -> f_to_N u32_max (f_mul f32 (Fin v) (f_of_N f32 k)) = (n * k)%N.
Proof.
  intros H K E. destruct FloatProps.formats_valid as [V _].
  destruct (FloatProps.integers_exact f32 (Z.of_N k) V) as (w & E1 & EQ1); [cbn; lia|cbn [fm_prec f32]; rewrite Z.abs_eq by lia; lia|cbn; lia|].
  destruct (FloatProps.integers_exact f32 (Z.of_N (n * k)) V) as (x & E2 & EQ2); [cbn; lia|cbn [fm_prec f32]; rewrite Z.abs_eq by lia; lia|cbn; lia|].
  change (f_of_N f32 k) with (f_of_Z f32 (Z.of_N k)). rewrite E1. cbn [f_mul].
  replace (round_to f32 (v * w)) with (Fin x).
  - unfold f_to_N, f_to_Z. unfold Qeq in EQ2. cbn [Qnum Qden inject_Z] in EQ2. assert (Q1 : Z.quot (Qnum x) (Zpos (Qden x)) = Z.of_N (n * k)).
    { replace (Qnum x) with (Z.of_N (n * k) * Zpos (Qden x))%Z by lia. apply Z.quot_mul. lia. }
    rewrite Q1. unfold u32_max. lia.
  - rewrite <- E2. unfold f_of_Z. apply (FloatProps.rounding_respects_value f32 _ _ V). rewrite E, EQ1, <- inject_Z_mult. replace (Z.of_N n * Z.of_N k)%Z with (Z.of_N (n * k)) by lia. reflexivity.
Qed.
Lemma positioning_tags ss p a : Forall setting_ok ss -> place_tag ss p -> align_tag ss a ->
  ass_positioning (cue_settings (map (fun p => fst p ++ [58%N] ++ snd p) ss)) = in_block (p ++ a).
Proof.
  intros H HP HA. unfold ass_positioning, cue_settings. rewrite !(settings_read _ ss H).
  assert (SN : forall k, setting [] k = None) by reflexivity. rewrite !SN.
  set (P1 := match (match value_of (lit "line") ss with Some v => Some v | None => None end) with Some l => _ | None => _ end).
  assert (EP : P1 = p).
  { unfold P1. destruct HP as [[[N0|N0] ->]|(b & a' & -> & -> & (B1 & B2) & ->)].
    - rewrite N0. reflexivity.
    - rewrite N0. destruct (value_of (lit "line") ss); reflexivity.
    - destruct (dec_read b ltac:(change (2 ^ 24)%N with 16777216%N; lia)) as (vb & -> & QB). destruct (dec_read a' ltac:(change (2 ^ 24)%N with 16777216%N; lia)) as (va & -> & QA).
      rewrite (times_exact a' 640 va), (times_exact b 480 vb) by (assumption || (change (2 ^ 24)%N with 16777216%N; lia)).
      rewrite (N.mul_comm a'), (N.mul_comm b). reflexivity. }
  rewrite EP. clear P1 EP.
  set (A1 := match (match value_of (lit "align") ss with Some v => Some v | None => None end) with Some l => _ | None => _ end).
  assert (EA : A1 = a).
  { unfold A1. destruct HA as [[-> ->]|(w & d & -> & -> & [[[-> | ->] ->]|[[[-> | ->] ->]|[NI ->]]])]; [reflexivity..|].
    assert (G : forall x, In x [lit "start"; lit "left"; lit "end"; lit "right"] -> str_eqb w x = false).
    { intros x X. destruct (str_eqb w x) eqn:E; [|reflexivity]. exfalso. apply NI. apply str_eqb_eq in E. subst x. exact X. }
    rewrite !G by (cbn [In]; tauto). reflexivity. }
  rewrite EA. unfold in_block. destruct (p ++ a); reflexivity.
Qed.
Definition set_entry (c : cue) (t : str) : entry := Entry (ass_time (cu_start c)) (ass_time (cu_end c)) (in_block t ++ ass_text c).
Lemma set_cue k c ss p a r : cue_ok false c -> Forall setting_ok ss -> place_tag ss p -> align_tag ss a ->
  vtt_cue (S k) ([] :: (stamp 46 c ++ concat (map setting_text ss)) :: map html_line (cu_lines c) ++ [] :: r) = Ok (set_entry c (p ++ a), [] :: r).
Proof.
  intros H HS HP HA. cbn [vtt_cue]. set (st := stamp 46 c ++ concat (map setting_text ss)).
  assert (SK : skipped_vtt st = false).
  { unfold skipped_vtt. pose proof (stamp_solid 46 c eq_refl) as [S1 _].
    assert (D : exists x y, stamp 46 c = x :: y /\ is_digit x = true).
    { unfold stamp, sub_time, ms_time. pose proof (dec_pad_nonempty 2 (ck_h (cu_start c))) as NE. pose proof (dec_pad_digits 2 (ck_h (cu_start c))) as D.
      destruct (dec_pad 2 (ck_h (cu_start c))) as [|x xs]; [congruence|]. cbn [forallb] in D. apply andb_prop in D as [D _]. cbn [app]. eexists _, _. split; [reflexivity|exact D]. }
    destruct D as (x & y & E & D). assert (T : exists z, trim st = x :: z).
    { unfold st, trim, trim_start. rewrite E. cbn [app]. rewrite E in S1. rewrite drop_while_id by exact S1. apply trim_end_head. exact S1. }
    destruct T as (z & T). unfold blank_text. rewrite T. cbn [nonempty negb orb]. change (lit "NOTE") with (78%N :: lit "OTE"). unfold starts_with. cbn [strip_prefix].
    destruct (N.eqb_spec 78 x) as [<-|]; [discriminate|reflexivity]. }
  cbn [skip_lines]. change (skipped_vtt []) with true. cbv iota. cbn [skip_lines]. rewrite SK.
  assert (EQ : st = (sub_time 46 (cu_start c) ++ [32%N]) ++ lit "-->" ++ ([32%N] ++ sub_time 46 (cu_end c) ++ concat (map setting_text ss))).
  { unfold st. rewrite stamp_parts. repeat rewrite <- app_assoc. reflexivity. }
  rewrite EQ, arrow_contains. rewrite split_arrow.
  2: { apply without_app. split; [apply sub_without; [discriminate|lia|congruence]|reflexivity]. }
  2: { apply without_app. split; [reflexivity|]. apply without_app. split; [apply sub_without; [discriminate|lia|congruence]|]. apply set_without; [left; reflexivity|exact HS]. }
  change (sub_time 46 (cu_start c) ++ [32%N]) with ([] ++ sub_time 46 (cu_start c) ++ [32%N]). unfold sub_time at 1. rewrite vtt_in_ok by (reflexivity || apply (co_start _ _ H)).
  cbn [res_bind]. rewrite set_tail.
  change ([32%N] ++ sub_time 46 (cu_end c) ++ concat (map (fun w => 32%N :: w) (map (fun p => fst p ++ [58%N] ++ snd p) ss))) with (concat (map (fun w => 32%N :: w) (sub_time 46 (cu_end c) :: map (fun p => fst p ++ [58%N] ++ snd p) ss))).
  rewrite words_spaced.
  2: { constructor; [split; [apply solid_ne, sub_solid; reflexivity|apply sub_no_ws; reflexivity]|]. rewrite Forall_map. eapply Forall_impl; [|exact HS]. exact set_words. }
  assert (T : vtt_time_in (sub_time 46 (cu_end c)) = Ok (ass_time (cu_end c))).
  { pose proof (vtt_in_ok [] [] (cu_end c) (ck_cs (cu_end c) * 10) eq_refl eq_refl ltac:(apply (co_end _ _ H))) as V. cbn [app] in V. rewrite app_nil_r in V. unfold sub_time. rewrite V, clock_eta. reflexivity. }
  rewrite T. cbn [res_bind]. rewrite clock_eta. rewrite text_block_app by (exact (html_not_blank false c H) || reflexivity).
  destruct (map html_line (cu_lines c)) eqn:M; [destruct (cu_lines c) eqn:Q; [exfalso; exact (co_some _ _ H Q)|discriminate]|]. rewrite <- M.
  rewrite (text_join vtt_styling_in c false H vtt_styling_line), (positioning_tags ss p a HS HP HA). reflexivity.
Qed.

Lemma set_solid ss : Forall setting_ok ss -> forall s, solid s -> solid (s ++ concat (map setting_text ss)).
Proof.
  induction 1 as [|p ss H _ IH]; intros s S0; cbn [map concat]; [rewrite app_nil_r; exact S0|]. rewrite app_assoc. apply IH.
  destruct (set_words p H) as [NE W]. destruct S0 as [S1 S2]. split.
  - destruct s; [contradiction|exact S1].
  - change (setting_text p) with ([32%N] ++ (fst p ++ [58%N] ++ snd p)). rewrite app_assoc, last_app_ne by exact NE.
    destruct (exists_last NE) as (z & d & E). rewrite E in *. rewrite last_last. unfold no_ws in W. rewrite forallb_app in W. apply andb_prop in W as [_ W]. cbn [forallb] in W. destruct (is_ws d); [discriminate|reflexivity].
Qed.
Lemma set_entry_fit c t : cue_ok false c -> without 10 t -> entry_fit (set_entry c t).
Proof.
  intros H T. destruct (entry_of_fit false c H) as (F1 & F2 & F3 & F4 & F5). cbn [entry_of en_start en_end en_text] in *. unfold set_entry, entry_fit. cbn [en_start en_end en_text].
  repeat (split; [assumption|]). split; [|split; assumption]. apply without_app. split; [|exact F3]. unfold in_block. destruct t; [reflexivity|]. apply without_app. split; [reflexivity|]. apply without_app. split; [exact T|reflexivity].
Qed.
Lemma set_text_solid c t : cue_ok false c -> solid (in_block t ++ ass_text c).
Proof.
  intros H. pose proof (ass_text_solid false c H) as S0. unfold in_block. destruct t; [exact S0|]. split; [reflexivity|]. rewrite last_app_ne by exact (solid_ne _ S0). exact (proj2 S0).
Qed.
Lemma place_line ss p : place_tag ss p -> without 10 p.
Proof.
  intros [[_ ->]|(b & a & _ & _ & _ & ->)]; [reflexivity|]. assert (D : forall n, without 10 (to_dec n)) by (intros n; apply digits_without; [apply to_dec_digits|lia]).
  repeat (apply without_app; split); try apply D; reflexivity.
Qed.
Lemma align_line ss a : align_tag ss a -> without 10 a.
Proof. intros [[_ ->]|(w & d & _ & -> & [[_ ->]|[[_ ->]|[_ ->]]])]; reflexivity. Qed.

(* ---- str::replace ---- *)
Lemma starts_iff p s : starts_with p s = true <-> exists r, s = p ++ r.
Proof.
  split.
  - unfold starts_with. destruct (strip_prefix p s) as [r|] eqn:E; [|discriminate]. intros _. exists r. apply strip_prefix_some in E. exact E.
  - intros [r ->]. apply starts_with_app.
Qed.
Lemma replace_swapped a b : a <> [] -> forall n s, List.length s <= n -> swapped a b s (replace a b s).
Proof.
  intros Ha. unfold replace.
  assert (G : forall s, (forall u v, s <> u ++ a ++ v) -> replace_go a b s 0 = s).
  { induction s as [|c s IH]; intros H; [reflexivity|]. cbn [replace_go]. destruct (starts_with a (c :: s)) eqn:E.
    - apply starts_iff in E as [r E]. exfalso. exact (H [] r E).
    - rewrite IH; [reflexivity|]. intros u v ->. exact (H (c :: u) v eq_refl). }
  assert (F : forall s, (forall u v, s <> u ++ a ++ v) \/ exists u v, s = u ++ a ++ v /\ (forall u' v', s = u' ++ a ++ v' -> List.length u <= List.length u') /\ replace_go a b s 0 = u ++ b ++ replace_go a b v 0).
  { induction s as [|c s IH].
    - left. intros u v E. destruct u; [destruct a; [congruence|discriminate]|discriminate].
    - destruct (starts_with a (c :: s)) eqn:E.
      + right. pose proof E as E'. apply starts_iff in E as [r E]. exists [], r. split; [exact E|]. split; [intros; cbn; lia|]. rewrite E. cbn [app]. apply replace_hit. exact Ha.
      + destruct IH as [N0|(u & v & Es & L & R)].
        * left. intros u v Q. destruct u as [|x u]; [|cbn [app] in Q; injection Q as _ Q; exact (N0 u v Q)].
          assert (starts_with a (c :: s) = true) by (apply starts_iff; exists v; exact Q). congruence.
        * right. exists (c :: u), v. split; [rewrite Es; reflexivity|]. split.
          -- intros u' v' Q. destruct u' as [|x u']; [assert (starts_with a (c :: s) = true) by (apply starts_iff; exists v'; exact Q); congruence|].
             cbn [app] in Q. injection Q as _ Q. cbn [List.length]. specialize (L u' v' Q). lia.
          -- cbn [replace_go]. rewrite E, R. reflexivity. }
  induction n as [|n IH]; intros s L.
  - destruct s; [|cbn in L; lia]. apply (swapped_end a b []). intros u v E. destruct u; [destruct a; [congruence|discriminate]|discriminate].
  - destruct (F s) as [N0|(u & v & Es & M & R)].
    + rewrite (G s N0). apply swapped_end, N0.
    + rewrite R, Es. apply swapped_next; [intros u' v' Q; apply (M u' v'); congruence|]. apply IH.
      rewrite Es, !app_length in L. destruct a; [congruence|]. cbn [List.length] in L. lia.
Qed.
Lemma swapped_unique a b : a <> [] -> forall s t, swapped a b s t -> forall t', swapped a b s t' -> t = t'.
Proof.
  intros Ha s t H. induction H as [s N0|u v t M H IH]; intros t' H'.
  - inversion H' as [|u v t2 M H2]; subst; [reflexivity|]. exfalso. exact (N0 u v eq_refl).
  - inversion H' as [s N0 E|u2 v2 t2 M2 H2 E]; subst; [exfalso; exact (N0 u v eq_refl)|].
    pose proof (M u2 v2 (eq_sym E)) as L1. pose proof (M2 u v E) as L2.
    assert (EU : u2 = u /\ a ++ v2 = a ++ v).
    { assert (LE : List.length u2 = List.length u) by lia. clear - E LE. revert u2 E LE. induction u as [|x u IHu]; intros [|y u2] E LE; cbn in *; try lia; [split; [reflexivity|exact E]|].
      injection E as -> E. destruct (IHu u2 E ltac:(lia)) as [-> Q]. split; [reflexivity|exact Q]. }
    destruct EU as [-> EV]. apply app_inv_head in EV. subst v2. rewrite (IH t2 H2). reflexivity.
Qed.
