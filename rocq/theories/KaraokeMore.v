From Verif Require Import Base BaseLemmas DocModel DocProofs ParseModel TagModel TagSpec TagProofs TextProofs TagCmdModel TagCmdSpec TagCmdProofs FormatModel FormatText FloatModel
  KaraokeModel KaraokeSpec KaraokeProofs.

(* ---- split ---- *)
Lemma nil_len s : s <> [] <-> 0 < blen s.
Proof. destruct s as [|c s]; [cbn; split; [congruence|lia]|]. rewrite blen_cons. pose proof (len_utf8_pos c). split; [lia|discriminate]. Qed.
Lemma nonnil (s : str) : s <> [] -> is_nil s = false.
Proof. now destruct s. Qed.
Lemma split_ok c t : forall ps A B acc, t = A ++ B -> B <> [] ->
  let full := (p <- split_loop (sp_dur c) t ps (blen A) acc ;;
    let (acc, last) := p in if last <? blen t then seg <- need (slice_from t last) ;; Done (if is_nil seg then acc else acc ++ mark (lit "k") (sp_dur c) ++ seg) else Done acc) in
  let us := useful (blen A) (blen t) ps in
  (exists segs, concat segs = B /\ cut_at (blen A) us segs /\ full = Done (acc ++ flat_map (fun s => mark (lit "k") (sp_dur c) ++ s) segs)) \/
  (Exists (fun p => is_boundary t p = false) us /\ full = Crash).
Proof.
  induction ps as [|p ps IH]; intros A B acc E HB; cbn zeta; cbn [split_loop useful bind].
  - left. exists [B]. split; [cbn [concat]; now rewrite app_nil_r|]. split; [exact HB|]. subst t. rewrite slice_from_app, blen_app. cbn [need bind].
    apply nil_len in HB as L. destruct (Nat.ltb_spec (blen A) (blen A + blen B)) as [_|Q]; [|lia]. rewrite nonnil by exact HB. cbn [flat_map]. now rewrite app_nil_r.
  - rewrite Nat.ltb_antisym, (Nat.ltb_antisym (blen t) p), <- negb_orb. destruct ((p <=? blen A) || (blen t <=? p)) eqn:Q; cbn [negb].
    + specialize (IH A B acc E HB). cbn zeta in IH. exact IH.
    + apply orb_false_iff in Q as [Q1 Q2]. apply Nat.leb_gt in Q1, Q2. destruct (slice t (blen A) p) as [s|] eqn:S.
      * apply slice_spec in S as (a & b & E2 & L1 & L2). assert (a = A) as ->.
        { rewrite E in E2. assert (X : cut (A ++ B) (blen A) = Some (a, s ++ b)) by (apply cut_spec; split; [exact E2|exact L1]). rewrite cut_app in X. congruence. }
        assert (B = s ++ b) as -> by (rewrite E in E2; now apply app_inv_head in E2).
        assert (Hs : s <> []) by (apply nil_len; lia). assert (Hb : b <> []) by (apply nil_len; rewrite E, !blen_app in Q2; lia).
        cbn [need bind]. rewrite nonnil by exact Hs. specialize (IH (A ++ s) b (acc ++ mark (lit "k") (sp_dur c) ++ s)). rewrite blen_app, L2 in IH.
        destruct IH as [(segs & C & K & F)|[X F]]; [rewrite E; now rewrite <- app_assoc|exact Hb| |].
        -- left. exists (s :: segs). split; [cbn [concat]; now rewrite C|]. split; [cbn [cut_at]; repeat split; [exact Hs|lia|exact K]|].
           rewrite F. cbn [flat_map]. now rewrite <- !app_assoc.
        -- right. split; [now apply Exists_cons_tl|exact F].
      * right. split; [|reflexivity]. apply Exists_cons_hd. unfold is_boundary. destruct (cut t p) as [[a b]|] eqn:X; [|reflexivity]. exfalso.
        apply cut_spec in X as [X1 X2]. unfold slice in S. destruct (p <? blen A) eqn:Y; [apply Nat.ltb_lt in Y; lia|]. rewrite X1 in S. rewrite <- X2 in S. rewrite cut_app in S.
        rewrite E in X1. destruct (app_eq_app _ _ _ _ X1) as [w [[-> _]|[-> _]]].
        -- rewrite blen_app in Q1. lia.
        -- rewrite slice_from_app in S. discriminate S.
Qed.

(* ---- words ---- *)
Lemma words_worded t : worded t (words t).
Proof.
  assert (G : forall t, exists w l, split_on is_ws t = w :: l /\ Forall (fun c => ~ space c) w /\
    exists r, t = w ++ r /\ (r = [] \/ exists c q, r = c :: q /\ space c) /\ worded r (filter nonempty l)).
  { clear. induction t as [|c t (w & l & E & F & r & -> & R & W)].
    - exists [], []. split; [reflexivity|]. split; [constructor|]. exists []. split; [reflexivity|]. split; [now left|]. constructor. constructor.
    - cbn [split_on]. destruct (is_ws c) eqn:Hc.
      + exists [], (split_on is_ws (w ++ r)). split; [reflexivity|]. split; [constructor|]. exists (c :: w ++ r). split; [reflexivity|]. split; [right; now exists c, (w ++ r)|].
        rewrite E. cbn [filter]. destruct w as [|x w]; cbn [nonempty].
        * cbn [app]. inversion W as [s Hs|s w2 r2 l2 Hs Hw Hf Hr W2]; subst; [constructor; now constructor|].
          change (c :: s ++ w2 ++ r2) with ((c :: s) ++ w2 ++ r2). constructor; auto.
        * change (c :: (x :: w) ++ r) with ([c] ++ (x :: w) ++ r). constructor; auto. discriminate.
      + rewrite E. exists (c :: w), l. split; [reflexivity|]. split; [constructor; [now apply nospace|exact F]|]. exists r. repeat split; assumption. }
  destruct (G t) as (w & l & E & F & r & -> & R & W). unfold words. rewrite E. cbn [filter]. destruct w as [|x w]; cbn [nonempty]; [exact W|].
  change ((x :: w) ++ r) with ([] ++ (x :: w) ++ r). constructor; auto. discriminate.
Qed.
Lemma run_unique (w r w' r' : str) : Forall (fun c => ~ space c) w -> Forall (fun c => ~ space c) w' -> (r = [] \/ exists c q, r = c :: q /\ space c) -> (r' = [] \/ exists c q, r' = c :: q /\ space c) ->
  w ++ r = w' ++ r' -> w = w' /\ r = r'.
Proof.
  intros F. revert w'. induction F as [|c w H _ IH]; intros w' F' R R' E.
  - destruct F' as [|c' w' H' _]; [now split|]. exfalso. cbn [app] in E. subst r. destruct R as [R|(x & q & R & X)]; [discriminate R|]. injection R as -> _. contradiction.
  - destruct F' as [|c' w' H' F'].
    + exfalso. cbn [app] in E. subst r'. destruct R' as [R'|(x & q & R' & X)]; [discriminate R'|]. injection R' as -> _. contradiction.
    + cbn [app] in E. injection E as -> E. destruct (IH w' F' R R' E) as [-> ->]. now split.
Qed.
Lemma lead_unique (s w s' w' : str) : Forall space s -> Forall space s' -> match w with [] => True | c :: _ => ~ space c end -> match w' with [] => True | c :: _ => ~ space c end ->
  s ++ w = s' ++ w' -> s = s' /\ w = w'.
Proof.
  intros F. revert s'. induction F as [|c s H _ IH]; intros s' F' W W' E.
  - destruct F' as [|c' s' H' _]; [now split|]. exfalso. cbn [app] in E. subst w. contradiction.
  - destruct F' as [|c' s' H' F']; cbn [app] in E; [subst w'; contradiction|]. injection E as -> E. destruct (IH s' F' W W' E) as [-> ->]. now split.
Qed.
Lemma worded_unique t l : worded t l -> forall l', worded t l' -> l = l'.
Proof.
  assert (H0 : forall w r, w <> [] -> Forall (fun c => ~ space c) w -> match w ++ r with [] => True | c :: _ => ~ space c end).
  { intros w r N F. destruct F; [congruence|assumption]. }
  induction 1 as [s Hs|s w r l Hs Hw Hf Hr W IH]; intros l' W'; [remember s as t eqn:T|remember (s ++ w ++ r) as t eqn:T];
    destruct W' as [s2 Hs2|s2 w2 r2 l2 Hs2 Hw2 Hf2 Hr2 W2].
  - reflexivity.
  - exfalso. destruct (lead_unique s [] s2 (w2 ++ r2) ltac:(now rewrite <- T) Hs2 I (H0 _ _ Hw2 Hf2)) as [_ E]; [now rewrite app_nil_r|]. destruct w2; [congruence|discriminate E].
  - exfalso. destruct (lead_unique s2 [] s (w ++ r) Hs2 Hs I (H0 _ _ Hw Hf)) as [_ E]; [now rewrite app_nil_r|]. destruct w; [congruence|discriminate E].
  - destruct (lead_unique s2 (w2 ++ r2) s (w ++ r) Hs2 Hs (H0 _ _ Hw2 Hf2) (H0 _ _ Hw Hf) T) as [_ E2]. destruct (run_unique _ _ _ _ Hf2 Hf Hr2 Hr E2) as [-> ->]. f_equal. now apply IH.
Qed.

(* ---- apply ---- *)
Lemma clean_exact t : tail_ok t -> forall l, Forall part_ok l -> forall fuel, List.length (whole l t) <= fuel -> clean_loop fuel (whole l t) = Done (visible_chars l).
Proof.
  intros T l F. induction F as [|p l K F IH]; intros fuel L.
  - unfold whole in *. cbn [flat_map app] in *. destruct t as [ps|]; [|destruct fuel; reflexivity]. cbn [tail_text] in *. destruct fuel as [|f]; [cbn in L; lia|].
    cbn [clean_loop]. change (123 =? open_brace)%N with true. cbn iota. rewrite tail_scan by exact T. destruct f; reflexivity.
  - rewrite whole_cons in *. destruct p as [c|ps].
    + cbn [part_text app] in *. destruct fuel as [|f]; [cbn in L; lia|]. cbn [clean_loop]. cbn [part_ok] in K. apply N.eqb_neq in K. unfold open_brace. rewrite K.
      rewrite IH by (cbn in L; lia). reflexivity.
    + rewrite blk_text in *. destruct fuel as [|f]; [cbn in L; lia|]. cbn [clean_loop]. change (123 =? open_brace)%N with true. cbn iota. rewrite blk_scan by exact K.
      rewrite IH by (cbn [List.length] in L; rewrite app_length in L; cbn [List.length] in L; lia). reflexivity.
Qed.
Lemma equal_words l d k : apply_equal l d k = timed_words (tag_string k) (map (fun w => (d, w)) l).
Proof.
  unfold apply_equal. induction l as [|w l IH]; [reflexivity|]. destruct l as [|w2 l]; cbn [map join timed_words] in *; [apply mark_text|]. rewrite IH, mark_text. reflexivity.
Qed.
Lemma pattern_words ds n : ds <> [] -> forall l i, apply_pattern i l ds n =
  Done (match l with [] => [] | _ => (if 0 <? i then [32%N] else []) ++ timed_words n (map (fun jw => (nth (fst jw mod List.length ds) ds 50%N, snd jw)) (combine (seq i (List.length l)) l)) end).
Proof.
  intros Hd. induction l as [|w l IH]; intros i; [reflexivity|]. cbn [apply_pattern]. destruct ds as [|d0 ds]; [congruence|]. set (D := d0 :: ds) in *. change (is_nil D) with false. cbn [bind].
  rewrite IH. cbn [bind]. destruct l as [|w2 l].
  - cbn [List.length seq combine map fst snd timed_words]. rewrite app_nil_r. now rewrite mark_text.
  - cbn [List.length seq combine map fst snd]. cbn [timed_words]. rewrite app_assoc with (l := mark _ _), mark_text. reflexivity.
Qed.
(* the text made of words, as parts *)
Fixpoint word_parts (n : str) (l : list (N * str)) : list part :=
  match l with
  | [] => []
  | [(d, w)] => timed n d w
  | (d, w) :: r => timed n d w ++ Plain 32%N :: word_parts n r
  end.
Lemma word_parts_text n l : timed_words n l = whole (word_parts n l) None.
Proof.
  unfold whole. rewrite app_nil_r. induction l as [|[d w] l IH]; [reflexivity|]. destruct l as [|p l]; [reflexivity|]. cbn [timed_words word_parts] in *. rewrite flat_map_app. cbn [flat_map]. now rewrite IH.
Qed.
Lemma word_parts_visible n l : visible_chars (word_parts n l) = join [32%N] (map snd l).
Proof.
  induction l as [|[d w] l IH]; [reflexivity|]. destruct l as [|p l]; [apply visible_one|]. cbn [word_parts map join snd] in *. rewrite visible_app, visible_one. f_equal.
  change (visible_chars (Plain 32%N :: ?x)) with (32%N :: visible_chars x). now rewrite IH.
Qed.
Lemma word_parts_ok n l : In n names -> Forall (fun p => ~ In 123%N (snd p)) l -> Forall part_ok (word_parts n l).
Proof.
  intros Hn H. induction H as [|[d w] l H HF IH]; [constructor|]. destruct l as [|p l]; cbn [word_parts]; [now apply timed_ok|]. apply Forall_app. split; [now apply timed_ok|].
  constructor; [discriminate|exact IH].
Qed.
Definition word (w : str) : Prop := w <> [] /\ Forall (fun c => ~ space c) w.
Lemma worded_words t l : worded t l -> Forall word l.
Proof. induction 1 as [|s w r l Hs Hw Hf Hr W IH]; constructor; [now split|exact IH]. Qed.
Lemma worded_space c t l : space c -> worded t l -> worded (c :: t) l.
Proof.
  intros H W. destruct W as [s Hs|s w r l Hs Hw Hf Hr W]; [constructor; now constructor|]. change (c :: s ++ w ++ r) with ((c :: s) ++ w ++ r). constructor; auto.
Qed.
Lemma worded_join l : Forall word l -> worded (join [32%N] l) l.
Proof.
  assert (G : forall l, Forall word l -> forall w, word w -> worded (w ++ match l with [] => [] | _ => 32%N :: join [32%N] l end) (w :: l)).
  { clear. induction 1 as [|w2 l H2 H IH]; intros w [Hw Hf].
    - apply (wd_word [] w [] []); auto; constructor. constructor.
    - apply (wd_word [] w (32%N :: join [32%N] (w2 :: l)) (w2 :: l)); auto; [right; exists 32%N; eexists; split; reflexivity|].
      replace (32%N :: join [32%N] (w2 :: l)) with ([32%N] ++ w2 ++ match l with [] => [] | _ => 32%N :: join [32%N] l end) by (destruct l; cbn [join app]; rewrite ?app_nil_r; reflexivity).
      apply worded_space; [reflexivity|]. exact (IH w2 H2). }
  intros H. destruct H as [|w l Hw H]; [constructor; constructor|]. specialize (G l H w Hw). destruct l; cbn [join] in *; [now rewrite app_nil_r in G|exact G].
Qed.
Lemma worded_in t l : worded t l -> forall w c, In w l -> In c w -> In c t.
Proof.
  induction 1 as [|s w r l Hs Hw Hf Hr W IH]; intros v c Hv Hc; [destruct Hv|]. apply in_app_iff. right. apply in_app_iff. destruct Hv as [<-|Hv]; [now left|right; eapply IH; eassumption].
Qed.

(* ---- the tags found with the karaoke handlers ---- *)
Definition pair_of (t : tag) : str * str := (tg_name t, tg_args t).
Lemma record_pairs n a s p : map pair_of (fst (record_tag karaoke_registry n a s p)) = map pair_of (fst (record_tag no_registry n a s p)).
Proof.
  unfold record_tag, karaoke_registry, no_registry. destruct (one_of ["k"; "kf"; "ko"; "kt"]%string n) eqn:E; [|reflexivity].
  assert (T : exists c r, trim n = c :: r).
  { apply one_of_iff in E. cbn [map In] in E. destruct E as [<-|[<-|[<-|[<-|[]]]]]; eexists; eexists; reflexivity. }
  destruct T as (c & r & T). rewrite T. destruct (parse_u32 (trim a)); reflexivity.
Qed.
Definition same_tags (x y : run (list tag * list tag_diag)) : Prop :=
  match x, y with
  | Done p, Done q => map pair_of (fst p) = map pair_of (fst q)
  | Crash, Crash => True
  | Stuck, Stuck => True
  | _, _ => False
  end.
Lemma block_same content start : forall fuel rest bp, same_tags (parse_block fuel karaoke_registry content start rest bp) (parse_block fuel no_registry content start rest bp).
Proof.
  induction fuel as [|f IH]; intros rest bp; [destruct rest; cbn; exact I || reflexivity|]. destruct rest as [|c r]; [reflexivity|]. cbn [parse_block]. destruct (is_bs c); [|apply IH].
  destruct (scan_tag_name content r (bp + 1) (bp + 1) 0) as [[rest1 bp1]| |]; cbn [bind]; [|exact I|exact I].
  destruct (List.length rest1 <? List.length r).
  - destruct (slice content (bp + 1) bp1) as [nm|]; cbn [or_crash bind]; [|exact I].
    destruct (if str_eqb nm (lit "t") && starts_paren rest1 then scan_parens rest1 bp1 0 else scan_args rest1 bp1) as [rest2 bp2].
    destruct (slice content bp1 bp2) as [ar|]; cbn [or_crash bind]; [|exact I]. destruct (slice content bp bp2) as [sp|]; cbn [or_crash bind]; [|exact I].
    specialize (IH rest2 bp2). unfold same_tags in IH. destruct (parse_block f karaoke_registry _ _ _ _) as [q1| |], (parse_block f no_registry _ _ _ _) as [q2| |]; try contradiction; cbn [bind]; try exact I.
    pose proof (record_pairs nm ar sp (start + bp)) as R. destruct (record_tag karaoke_registry _ _ _ _) as [t1 d1], (record_tag no_registry _ _ _ _) as [t2 d2]. cbn [same_tags fst] in *. now rewrite !map_app, R, IH.
  - destruct (slice content bp _) as [sp|]; cbn [or_crash bind]; [|exact I]. destruct (match rest1 with [] => _ | _ => _ end) as [rest2 bp2].
    specialize (IH rest2 bp2). unfold same_tags in IH. destruct (parse_block f karaoke_registry _ _ _ _) as [q1| |], (parse_block f no_registry _ _ _ _) as [q2| |]; try contradiction; cbn [bind]; try exact I. exact IH.
Qed.
Lemma block_pairs ps : pieces_ok ps -> readable ps -> exists ts ds, parse_override_block_with karaoke_registry (pieces_text ps) 0 = Done (ts, ds) /\ map pair_of ts = tags_in ps.
Proof.
  intros K R. destruct (block_tags ps 0 K) as [[X _]|[_ (ts & ds & E & P)]]; [destruct (no_exists ps R X)|]. apply pairs_of in P.
  pose proof (block_same (pieces_text ps) 0 (List.length (pieces_text ps)) (pieces_text ps) 0) as S. unfold parse_override_block, parse_override_block_with in *. rewrite E in S.
  destruct (parse_block _ karaoke_registry _ _ _ _) as [[ts' ds']| |]; try contradiction. exists ts', ds'. split; [reflexivity|]. cbn [same_tags fst] in S. rewrite S. exact P.
Qed.

(* ---- adjusting the tags of a block ---- *)
Lemma adjust_tags_app a l1 l2 i x : adjust_tags a (l1 ++ l2) i x = (p <- adjust_tags a l1 i x ;; adjust_tags a l2 (snd p) (fst p)).
Proof.
  revert i x. induction l1 as [|t l1 IH]; intros i x; [reflexivity|]. cbn [app adjust_tags]. destruct (starts_with (lit "k") (tg_name t)); [|apply IH].
  destruct (new_duration a _ i) as [p| |]; cbn [bind]; [apply IH|reflexivity|reflexivity].
Qed.
Lemma adjust_tags_none a l : (forall t, In t l -> ~ sung (tg_name t)) -> forall i x, adjust_tags a l i x = Done (x, i).
Proof.
  induction l as [|t l IH]; intros H i x; [reflexivity|]. cbn [adjust_tags]. destruct (starts_with (lit "k") (tg_name t)) eqn:E.
  - exfalso. apply (H t (or_introl eq_refl)). apply starts_with_spec in E as [r E]. now exists r.
  - apply IH. intros u Hu. apply H. now right.
Qed.
Lemma unsung_tags ts ps : map pair_of ts = tags_in ps -> unsung ps -> forall t, In t ts -> ~ sung (tg_name t).
Proof. intros E H t Ht. apply (H (tg_name t) (tg_args t)). rewrite <- E. apply in_map_iff. exists t. split; [reflexivity|exact Ht]. Qed.
Lemma next_new a d i e j : next a d i e j -> new_duration a d i = Done (e, j).
Proof.
  destruct 1 as [f d i|o d i H1 H2|e d i|l d i e H|l d i H]; cbn [new_duration].
  - now rewrite N.max_comm.
  - unfold as_i32. destruct (Z.ltb_spec (Z.of_N d) 2147483648); [|lia]. cbn zeta.
    replace ((Z.of_N d + o <? -2147483648) || (2147483647 <? Z.of_N d + o))%Z with false; [now rewrite Z.max_comm|].
    symmetry. apply orb_false_iff. split; [apply Z.ltb_ge|apply Z.ltb_ge]; lia.
  - reflexivity.
  - now rewrite H.
  - apply nth_error_None in H. now rewrite H.
Qed.
(* replacing *)
Lemma replace_plain q to s r : ~ In 92%N s -> replace_go (92%N :: q) to (s ++ r) 0 = s ++ replace_go (92%N :: q) to r 0.
Proof.
  induction s as [|c s IH]; intros H; [reflexivity|]. cbn [app replace_go]. assert (E : starts_with (92%N :: q) (c :: s ++ r) = false).
  { apply not_true_iff_false. rewrite starts_with_spec. intros [z Q]. cbn [app] in Q. injection Q as -> _. apply H. now left. }
  rewrite E. f_equal. apply IH. intros Q. apply H. now right.
Qed.
Lemma replace_skip from to a r : replace_go from to (a ++ r) (List.length a) = replace_go from to r 0.
Proof. induction a as [|c a IH]; [reflexivity|]. exact IH. Qed.
Lemma replace_here from to r : from <> [] -> replace_go from to (from ++ r) 0 = to ++ replace_go from to r 0.
Proof.
  intros H. destruct from as [|c q]; [congruence|]. pose proof (starts_with_app (c :: q) r) as S. cbn [app replace_go] in *. rewrite S. cbn [List.length]. rewrite Nat.sub_succ, Nat.sub_0_r.
  now rewrite replace_skip.
Qed.
Lemma replace_pieces q to r : forall X, Forall flat_piece X -> unsung X -> (forall X1 p X2, X = X1 ++ p :: X2 -> piece_ok p (pieces_text X2 ++ r)) ->
  replace_go (92%N :: 107%N :: q) to (pieces_text X ++ r) 0 = pieces_text X ++ replace_go (92%N :: 107%N :: q) to r 0.
Proof.
  induction X as [|p X IH]; intros F U K; [reflexivity|]. cbn [pieces_text flat_map]. fold (pieces_text X). inversion F as [|? ? Fp F']; subst.
  assert (IH' : replace_go (92%N :: 107%N :: q) to (pieces_text X ++ r) 0 = pieces_text X ++ replace_go (92%N :: 107%N :: q) to r 0).
  { apply IH; [exact F'| |].
    - intros n a I. apply (U n a). cbn [tags_in flat_map]. apply in_app_iff. now right.
    - intros X1 p' X2 ->. apply (K (p :: X1) p' X2). reflexivity. }
  clear IH F F'. specialize (K [] p X eq_refl). rewrite <- !app_assoc. unfold flat_piece in Fp.
  assert (G : forall s, tl (piece_text p) = s -> piece_text p = 92%N :: s -> (forall z, s ++ pieces_text X ++ r <> 107%N :: z) ->
    replace_go (92%N :: 107%N :: q) to (piece_text p ++ pieces_text X ++ r) 0 = piece_text p ++ pieces_text X ++ replace_go (92%N :: 107%N :: q) to r 0).
  { intros s E1 E2 H. rewrite E1 in Fp. rewrite E2. cbn [app replace_go]. assert (E : starts_with (92%N :: 107%N :: q) (92%N :: s ++ pieces_text X ++ r) = false).
    { apply not_true_iff_false. rewrite starts_with_spec. intros [z Q]. cbn [app] in Q. injection Q as Q. exact (H _ Q). }
    rewrite E. f_equal. now rewrite replace_plain, IH'. }
  destruct p as [c|n a|[d|]]; cbn [piece_ok] in K.
  - cbn [piece_text]. rewrite replace_plain; [now rewrite IH'|]. intros [Q|[]]. congruence.
  - apply (G (n ++ a)); [reflexivity|reflexivity|]. intros z Q. destruct K as [[[N1 _] _] _]. destruct n as [|c n]; [congruence|]. cbn [app] in Q. injection Q as -> _.
    apply (U (107%N :: n) a); [now left|]. now exists n.
  - apply (G [d]); [reflexivity|reflexivity|]. intros z Q. cbn [app] in Q. injection Q as -> _. destruct K as [K _]. apply K. unfold letter. lia.
  - apply (G []); [reflexivity|reflexivity|]. intros z Q. cbn [app] in Q. rewrite Q in K. discriminate K.
Qed.
Lemma ok_within X : forall Z, pieces_ok (X ++ Z) -> (forall X1 p X2, X = X1 ++ p :: X2 -> piece_ok p (pieces_text X2 ++ pieces_text Z)) /\ pieces_ok Z.
Proof.
  induction X as [|p X IH]; intros Z K; [split; [intros X1 p X2 Q; destruct X1; discriminate Q|exact K]|]. cbn [app pieces_ok] in K. destruct K as [Kp K].
  destruct (IH Z K) as [I1 I2]. split; [|exact I2]. intros X1 p' X2 Q. destruct X1 as [|y X1]; cbn [app] in Q; injection Q as <- Q; [subst X2; now rewrite pieces_app in Kp|exact (I1 X1 p' X2 Q)].
Qed.
Lemma tags_in_app a b : tags_in (a ++ b) = tags_in a ++ tags_in b.
Proof. apply flat_map_app. Qed.
Lemma parse_args d s : (d <= u32_max)%N -> Forall space s -> parse_u32 (trim (to_dec d ++ s)) = Some d.
Proof.
  intros H S. replace (trim (to_dec d ++ s)) with (to_dec d); [now apply parse_to_dec|]. symmetry. change (to_dec d ++ s) with ([] ++ to_dec d ++ s).
  apply trim_app_ws; [reflexivity| |].
  - apply forallb_forall. intros x Hx. rewrite Forall_forall in S. now apply S.
  - exact (solid_trim _ (to_dec_solid d)).
Qed.
Lemma space_no_bs s : Forall space s -> ~ In 92%N s.
Proof. intros H Q. rewrite Forall_forall in H. apply H in Q. discriminate Q. Qed.
Lemma block_adjusted a i X n d s Y e j : let ps := X ++ PTag n (to_dec d ++ s) :: Y in pieces_ok ps ->
  sung n -> (d <= u32_max)%N -> Forall space s -> unsung X -> unsung Y -> readable (X ++ Y) -> Forall flat_piece (X ++ Y) -> next a d i e j ->
  exists ts ds, parse_override_block_with karaoke_registry (pieces_text ps) 0 = Done (ts, ds) /\
    adjust_tags a (rev ts) i (pieces_text ps) = Done (pieces_text (X ++ PTag n (to_dec e ++ s) :: Y), j).
Proof.
  intros ps K [n' Hn] Hd Hs UX UY R F NX. apply Forall_app in R as [RX RY]. apply Forall_app in F as [FX FY]. change (lit "k") with [107%N] in Hn. cbn [app] in Hn.
  destruct (block_pairs ps K) as (ts & ds & E & P); [unfold ps; apply Forall_app; split; [exact RX|constructor; [exact (fun x => x)|exact RY]]|].
  exists ts, ds. split; [exact E|]. unfold ps in P. rewrite tags_in_app in P. cbn [tags_in flat_map piece_tag app] in P. fold (tags_in X) (tags_in Y) in P.
  apply map_eq_app in P as (tX & tR & -> & PX & PR). destruct tR as [|t tY]; [discriminate PR|]. cbn [map] in PR. injection PR as Pt1 Pt2 PY.
  rewrite rev_app_distr. cbn [rev]. rewrite <- app_assoc, adjust_tags_app. rewrite adjust_tags_none; [|intros u Hu; apply in_rev in Hu; exact (unsung_tags _ _ PY UY u Hu)].
  cbn [bind fst snd app]. cbn [adjust_tags]. rewrite Pt1, Pt2. rewrite Hn at 1. change (starts_with (lit "k") (107%N :: n')) with true. cbn iota. rewrite parse_args by assumption. rewrite (next_new _ _ _ _ _ NX). cbn [bind fst snd].
  rewrite adjust_tags_none; [|intros u Hu; apply in_rev in Hu; exact (unsung_tags _ _ PX UX u Hu)]. f_equal. f_equal. unfold str_replace, bslash.
  destruct (ok_within X _ K) as [KX KZ]. cbn [pieces_ok] in KZ. destruct KZ as [_ KY]. unfold ps. rewrite !pieces_app. subst n. cbn [app].
  rewrite replace_pieces; [|exact FX|exact UX|exact KX]. f_equal. cbn [pieces_text flat_map piece_text]. fold (pieces_text Y).
  set (old := 92%N :: 107%N :: n' ++ to_dec d). set (new := 92%N :: 107%N :: n' ++ to_dec e).
  transitivity (replace_go old new (old ++ s ++ pieces_text Y) 0); [f_equal; unfold old; repeat (cbn [app]; rewrite <- ?app_assoc); reflexivity|].
  rewrite replace_here by discriminate. transitivity (new ++ s ++ pieces_text Y); [|unfold new; repeat (cbn [app]; rewrite <- ?app_assoc); reflexivity]. f_equal.
  unfold old. rewrite replace_plain by now apply space_no_bs. f_equal. rewrite <- (app_nil_r (pieces_text Y)) at 1. rewrite replace_pieces; [cbn [replace_go]; now rewrite app_nil_r|exact FY|exact UY|].
  rewrite <- (app_nil_r Y) in KY. exact (proj1 (ok_within Y [] KY)).
Qed.
Lemma block_unsung a i ps : pieces_ok ps -> unsung ps -> readable ps -> exists ts ds, parse_override_block_with karaoke_registry (pieces_text ps) 0 = Done (ts, ds) /\
  adjust_tags a (rev ts) i (pieces_text ps) = Done (pieces_text ps, i).
Proof.
  intros K U R. destruct (block_pairs ps K R) as (ts & ds & E & P). exists ts, ds. split; [exact E|]. apply adjust_tags_none. intros u Hu. apply in_rev in Hu. exact (unsung_tags _ _ P U u Hu).
Qed.
Lemma adjust_exact a i l l' : adjusted a i l l' -> Forall part_ok l -> forall fuel, List.length (whole l None) <= fuel -> adjust_loop fuel a i (whole l None) = Done (whole l' None).
Proof.
  assert (G : forall i j ps x l l' ts ds fuel, part_ok (Blk ps) -> parse_override_block_with karaoke_registry (pieces_text ps) 0 = Done (ts, ds) ->
    adjust_tags a (rev ts) i (pieces_text ps) = Done (pieces_text x, j) -> (forall f, List.length (whole l None) <= f -> adjust_loop f a j (whole l None) = Done (whole l' None)) ->
    List.length (whole (Blk ps :: l) None) <= fuel -> adjust_loop fuel a i (whole (Blk ps :: l) None) = Done (whole (Blk x :: l') None)).
  { clear. intros i j ps x l l' ts ds fuel K E A IH L. rewrite !whole_cons, !blk_text in *. destruct fuel as [|f]; [cbn in L; lia|]. cbn [adjust_loop]. change (123 =? open_brace)%N with true. cbn iota.
    rewrite blk_scan by exact K. rewrite E. cbn [bind fst]. rewrite A. cbn [bind fst snd]. rewrite IH by (cbn [List.length] in L; rewrite app_length in L; cbn [List.length] in L; lia). reflexivity. }
  induction 1 as [i|i c l l' A IH|i ps l l' U R A IH|i X n d s Y e j l l' S Hd Hs UX UY R F NX A IH]; intros K fuel L.
  - destruct fuel; reflexivity.
  - inversion K as [|? ? Kc K']; subst. rewrite !whole_cons in *. cbn [part_text app] in *. destruct fuel as [|f]; [cbn in L; lia|]. cbn [adjust_loop]. cbn [part_ok] in Kc. apply N.eqb_neq in Kc. unfold open_brace. rewrite Kc.
    rewrite IH by (assumption || (cbn in L; lia)). reflexivity.
  - inversion K as [|? ? Kp K']; subst. destruct (block_unsung a i ps (proj1 Kp) U R) as (ts & ds & E & T). eapply G; eauto.
  - inversion K as [|? ? Kp K']; subst. destruct (block_adjusted a i X n d s Y e j (proj1 Kp) S Hd Hs UX UY R F NX) as (ts & ds & E & T). eapply G; eauto.
Qed.
(* the blocks stay blocks *)
Definition same_head (u v : str) : Prop := match u, v with [], [] => True | c :: _, d :: _ => c = d | _, _ => False end.
Lemma same_head_app a u v : same_head u v -> same_head (a ++ u) (a ++ v).
Proof. intros H. destruct a; [exact H|reflexivity]. Qed.
Lemma starts_head P u v : same_head u v -> TagSpec.starts P u -> TagSpec.starts P v.
Proof. intros H (c & r & -> & Hc). destruct v as [|d v]; [destruct H|]. cbn in H. subst d. now exists c, v. Qed.
Lemma head_sym u v : same_head u v -> same_head v u.
Proof. destruct u, v; cbn; congruence || auto. Qed.
Lemma head_nil u v : same_head u v -> u = [] -> v = [].
Proof. intros H ->. destruct v; [reflexivity|destruct H]. Qed.
Lemma piece_head p u v : same_head u v -> piece_ok p u -> piece_ok p v.
Proof.
  intros H. destruct p as [c|n a|[d|]]; cbn [piece_ok]; auto; [|now apply head_nil].
  pose proof (same_head_app a u v H) as HA. intros [(N1 & N2 & N3) A]. split.
  - split; [exact N1|]. split; [exact N2|]. destruct N3 as [N3|N3]; [now left|right]. intros Q. apply N3. eapply starts_head; [apply head_sym; exact HA|exact Q].
  - destruct A as [(A1 & A2 & A3)|(A1 & A2 & A3)]; [left|right].
    + split; [exact A1|]. split; [eapply starts_head; eassumption|]. destruct A3 as [A3|[A3 A4]]; [now left|right; split; [exact A3|eapply head_nil; eassumption]].
    + split; [intros [Q1 Q2]; apply A1; split; [exact Q1|eapply starts_head; [apply head_sym; exact HA|exact Q2]]|]. split; [exact A2|]. destruct A3 as [A3|A3]; [left; eapply head_nil; eassumption|right; eapply starts_head; eassumption].
Qed.
Lemma pieces_swap X : forall Z Z', same_head (pieces_text Z) (pieces_text Z') -> pieces_ok (X ++ Z) -> pieces_ok Z' -> pieces_ok (X ++ Z').
Proof.
  induction X as [|p X IH]; intros Z Z' H K K'; [exact K'|]. cbn [app pieces_ok] in *. destruct K as [Kp K]. split; [|eapply IH; eassumption].
  eapply piece_head; [|exact Kp]. rewrite !pieces_app. now apply same_head_app.
Qed.
Lemma digits_braces d : braces (to_dec d) = 0%Z /\ ~ In 123%N (to_dec d) /\ ~ In 125%N (to_dec d).
Proof.
  assert (A : ~ In 123%N (to_dec d)) by (intros Q; apply digits_free in Q; lia). assert (B : ~ In 125%N (to_dec d)) by (intros Q; apply digits_free in Q; lia).
  split; [now apply no_braces|]. now split.
Qed.
Lemma unclosed_swap u d e v : unclosed (u ++ to_dec d ++ v) -> unclosed (u ++ to_dec e ++ v).
Proof.
  intros H p q E. destruct (digits_braces d) as (D1 & _). destruct (digits_braces e) as (E1 & E2 & E3).
  destruct (app_eq_app _ _ _ _ E) as [w [[-> Q]|[-> Q]]].
  - apply (H p (w ++ to_dec d ++ v)). now rewrite <- app_assoc.
  - destruct (app_eq_app _ _ _ _ Q) as [z [[Q1 Q2]|[-> Q2]]].
    + rewrite braces_app. replace (braces w) with 0%Z; [|symmetry; apply no_braces; intros I; [apply E2|apply E3]; rewrite Q1; apply in_app_iff; now left].
      specialize (H u (to_dec d ++ v) eq_refl). lia.
    + specialize (H (u ++ to_dec d ++ z) q). rewrite Q2 in H. rewrite <- !app_assoc in H. specialize (H eq_refl). rewrite !braces_app in *. lia.
Qed.
Lemma block_swap X n d e s Y : part_ok (Blk (X ++ PTag n (to_dec d ++ s) :: Y)) -> sung n -> Forall space s -> part_ok (Blk (X ++ PTag n (to_dec e ++ s) :: Y)).
Proof.
  intros (K & U & B) [n' Hn] Hs. destruct (ok_within X _ K) as [_ KZ]. cbn [part_ok].
  assert (T : forall d, pieces_text (X ++ PTag n (to_dec d ++ s) :: Y) = (pieces_text X ++ 92%N :: n) ++ to_dec d ++ s ++ pieces_text Y).
  { intros x. rewrite pieces_app. cbn [pieces_text flat_map piece_text]. fold (pieces_text Y). repeat (cbn [app]; rewrite <- ?app_assoc). reflexivity. }
  rewrite T in U, B. rewrite T. split; [|split; [eapply unclosed_swap; exact U|rewrite !braces_app in *; pose proof (digits_braces d); pose proof (digits_braces e); lia]].
  eapply pieces_swap; [|exact K|]; [reflexivity|]. cbn [pieces_ok] in *. destruct KZ as [(N & A) KY]. split; [|exact KY]. destruct (digits_start d) as (c1 & r1 & S1 & L1). destruct (digits_start e) as (c & r & S & L). split.
  - destruct N as (N1 & N2 & N3). split; [exact N1|]. split; [exact N2|]. right. rewrite S. intros (c' & r' & Q & Q2). cbn [app] in Q. injection Q as <- _. unfold letter in Q2. lia.
  - right. split; [intros [Q _]; rewrite Hn in Q; discriminate Q|]. split.
    + intros Q. apply in_app_iff in Q as [Q|Q]; [apply digits_free in Q; lia|exact (space_no_bs s Hs Q)].
    + destruct A as [(A & _)|(_ & _ & A)]; [rewrite Hn in A; discriminate A|exact A].
Qed.
Lemma adjusted_ok a i l l' : adjusted a i l l' -> Forall part_ok l -> Forall part_ok l'.
Proof.
  induction 1 as [i|i c l l' A IH|i ps l l' U R A IH|i X n d s Y e j l l' S Hd Hs UX UY R F NX A IH]; intros K; inversion K; subst; constructor; auto.
  eapply block_swap; eassumption.
Qed.
Lemma adjusted_visible a i l l' : adjusted a i l l' -> visible_chars l' = visible_chars l.
Proof.
  induction 1 as [i|i c l l' A IH|i ps l l' U R A IH|i X n d s Y e j l l' S Hd Hs UX UY R F NX A IH]; [reflexivity| |exact IH|exact IH].
  change (c :: visible_chars l' = c :: visible_chars l). now rewrite IH.
Qed.
(* ---- on a timed text ---- *)
Lemma adjusted_plain a i s l l' : adjusted a i l l' -> adjusted a i (map Plain s ++ l) (map Plain s ++ l').
Proof. intros H. induction s as [|c s IH]; [exact H|]. cbn [map app]. now constructor. Qed.
Lemma names_sung n : In n names -> sung n.
Proof. intros H. destruct (name_facts n H) as (w & -> & _). now exists w. Qed.
Lemma adjusted_timed a i n d s e j l l' : In n names -> (d <= u32_max)%N -> next a d i e j -> adjusted a j l l' -> adjusted a i (timed n d s ++ l) (timed n e s ++ l').
Proof.
  intros Hn Hd NX A. unfold timed. cbn [app]. rewrite <- (app_nil_r (to_dec d)), <- (app_nil_r (to_dec e)).
  change [PTag n (to_dec d ++ [])] with ([] ++ [PTag n (to_dec d ++ [])]). change [PTag n (to_dec e ++ [])] with ([] ++ [PTag n (to_dec e ++ [])]).
  apply (ad_sung a i [] n d [] [] e j); auto; try (intros ? ? []); try constructor; [now apply names_sung|now apply adjusted_plain].
Qed.
Lemma set_gen n d e l : In n names -> (d <= u32_max)%N -> adjusted (SetAll e) 0 (gen_parts n d l) (gen_parts n e l).
Proof.
  intros Hn Hd. destruct l as [|s l]; [constructor|]. cbn [gen_parts]. eapply adjusted_timed; [exact Hn|exact Hd|constructor|]. induction l as [|x l IH]; [constructor|]. cbn [flat_map]. unfold gen_part at 1 3.
  destruct (is_nil (trim x)); [now apply adjusted_plain|]. eapply adjusted_timed; [exact Hn|exact Hd|constructor|exact IH].
Qed.
Lemma custom_timed n es : forall l i pre, In n names -> Forall (fun p => (fst p <= u32_max)%N) l -> List.length es = List.length l -> i = List.length pre ->
  adjusted (Custom (pre ++ es)) i (flat_map (fun p => timed n (fst p) (snd p)) l) (flat_map (fun p => timed n (fst p) (snd p)) (combine es (map snd l))).
Proof.
  induction es as [|e es IH]; intros l i pre Hn F L ->; destruct l as [|[d s] l]; try discriminate L; [constructor|]. inversion F; subst. cbn [flat_map map combine fst snd].
  eapply adjusted_timed; [exact Hn|assumption|constructor|].
  - rewrite nth_error_app2, Nat.sub_diag by lia. reflexivity.
  - specialize (IH l (S (List.length pre)) (pre ++ [e])). rewrite <- app_assoc in IH. apply IH; auto. rewrite app_length. cbn [List.length]. lia.
Qed.
Lemma each_timed (f : N -> N) a n l : (forall d, (d <= u32_max)%N -> next a d 0 (f d) 0) -> In n names -> Forall (fun p => (fst p <= u32_max)%N) l ->
  adjusted a 0 (flat_map (fun p => timed n (fst p) (snd p)) l) (flat_map (fun p => timed n (f (fst p)) (snd p)) l).
Proof.
  intros NX Hn F. induction F as [|[d s] l Hd F IH]; [constructor|]. cbn [flat_map fst snd] in *. eapply adjusted_timed; [exact Hn|exact Hd|now apply NX|exact IH].
Qed.
