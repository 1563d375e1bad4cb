(* Text without animating tags is the same at every moment. *)
From Verif Require Import BaseLemmas RunSpec SegmentProofs TagProofs.

(* ---- blocks without animating tags leave the tags without any ---- *)
Definition still (t : tags) : Prop := tg_field t FMovement = None /\ tg_field t FFade = None /\ tg_field t FKaraoke = None /\ tg_transforms t = [].
Lemma still_none : still no_tags.
Proof. repeat split. Qed.
Lemma still_set f v t : still t -> f <> FMovement -> f <> FFade -> f <> FKaraoke -> still (set_field f v t).
Proof.
  intros (A & B & C & E) F1 F2 F3. unfold still, set_field. cbn [tg_field tg_transforms].
  destruct (field_eq f FMovement), (field_eq f FFade), (field_eq f FKaraoke); try contradiction. auto.
Qed.
Lemma still_put f o t : still t -> f <> FMovement -> f <> FFade -> f <> FKaraoke -> still (put f o t).
Proof. intros. destruct o; cbn [put]; [now apply still_set|assumption]. Qed.
Lemma apply_still n args t t' : apply_tag n args t = Done t' -> still t -> ~ In n timed_names -> still t'.
Proof.
  intros A S NI.
  assert (T : forall l, named n l = true -> (forall x, In x l -> In (lit x) timed_names) -> False).
  { intros l E I. apply named_true in E as (x & X & ->). now apply NI, I. }
  unfold apply_tag in A.
  repeat match type of A with
  | (if named n ?l then _ else _) = _ => destruct (named n l) eqn:?;
      [try (exfalso; eapply T; [eassumption|]; cbn; intros ? I; repeat (destruct I as [<-|I]; [unfold timed_names; cbn; tauto|]); contradiction)|]
  end;
  try (injection A as <-; first [exact S|exact still_none|(apply still_put; [exact S|discriminate..])|(apply still_set; [exact S|discriminate..])]).
  all: unfold put_res in A; destruct (parse_color args); try discriminate; injection A as <-; apply still_put; [exact S|discriminate..].
Qed.

(* ---- the parts of a block ---- *)
Lemma alpha_iff c : is_alpha c = true <-> letter c.
Proof. unfold is_alpha, letter, is_upper, is_lower. rewrite orb_true_iff, !andb_true_iff, !N.leb_le. tauto. Qed.
(* a part follows a backslash, or it opens the block and a backslash or the end follows it *)
Definition part_at (content p : str) : Prop :=
  (exists a b, content = a ++ 92%N :: p ++ b) \/ (exists b, content = p ++ b /\ (b = [] \/ exists r, b = 92%N :: r)).
Lemma split_parts : forall cs cur depth pre content, content = pre ++ cs ->
  ((exists q, pre = q ++ 92%N :: cur) \/ pre = cur \/ (cur = [] /\ depth = 0%Z /\ exists r, cs = 92%N :: r)) ->
  Forall (part_at content) (split_loop cs cur depth).
Proof.
  induction cs as [|c r IH]; intros cur depth pre content E J.
  - cbn [split_loop]. rewrite app_nil_r in E. subst. destruct cur as [|x cur]; [constructor|]. constructor; [|constructor].
    destruct J as [(q & ->)|[->|(K & _)]]; [| |discriminate].
    + left. exists q, []. now rewrite app_nil_r.
    + right. exists []. rewrite app_nil_r. auto.
  - assert (P : is_bs c = true -> cur <> [] -> part_at content cur).
    { intros B NE. apply N.eqb_eq in B. subst c. destruct J as [(q & ->)|[->|(K & _)]]; [| |contradiction].
      - left. exists q, (92%N :: r). rewrite E, <- app_assoc. reflexivity.
      - right. exists (92%N :: r). split; [exact E|right; eauto]. }
    cbn [split_loop]. destruct (is_bs c && (depth =? 0)%Z) eqn:B.
    + apply andb_true_iff in B as [B Dz]. assert (R : Forall (part_at content) (split_loop r [] depth)).
      { apply (IH [] depth (pre ++ [c])); [rewrite <- app_assoc; exact E|]. left. exists pre. apply N.eqb_eq in B. now subst c. }
      destruct cur as [|x cur]; [exact R|]. constructor; [apply P; [exact B|discriminate]|exact R].
    + assert (J' : (exists q, pre ++ [c] = q ++ 92%N :: (cur ++ [c])) \/ pre ++ [c] = cur ++ [c]).
      { destruct J as [(q & ->)|[->|(-> & -> & r' & X)]]; [left; exists q; now rewrite <- app_assoc|now right|].
        injection X as -> <-. discriminate B. }
      assert (G : forall d, Forall (part_at content) (split_loop r (cur ++ [c]) d)).
      { intros d. apply (IH _ d (pre ++ [c])); [rewrite <- app_assoc; exact E|tauto]. }
      cbn zeta. destruct (is_open c); [apply G|]. destruct (is_close c); [|apply G].
      destruct ((depth - 1 =? 0)%Z && _) eqn:Q; [|apply G]. apply andb_true_iff in Q as [Q1 Q2]. destruct r as [|d r']; [discriminate|].
      apply N.eqb_eq in Q2. subst d. constructor.
      * destruct J' as [(q & X)|X].
        -- left. exists q, (92%N :: r'). rewrite E. change (c :: 92%N :: r') with ([c] ++ 92%N :: r'). rewrite app_assoc, X, <- app_assoc. reflexivity.
        -- right. exists (92%N :: r'). split; [|right; eauto]. rewrite E. change (c :: 92%N :: r') with ([c] ++ 92%N :: r'). now rewrite app_assoc, X.
      * apply (IH [] _ (pre ++ [c])); [rewrite <- app_assoc; exact E|]. right. right. split; [reflexivity|]. split; [apply Z.eqb_eq in Q1; exact Q1|eauto].
Qed.
Lemma extract_name p n args : extract_tag p = Ok (n, args) -> p = n ++ args /\ (Forall letter n -> starts letter args -> n = lit "fn").
Proof.
  unfold extract_tag. destruct (starts_with (lit "fn") p && (2 <? blen p)) eqn:F.
  - apply andb_true_iff in F as [F _]. apply starts_with_spec in F as (r & ->). change (lit "fn" ++ r) with (lit "fn" ++ r).
    change 2 with (blen (lit "fn")). rewrite cut_app. cbn [or_panic res_bind snd]. intros [= <- <-]. now split.
  - destruct p as [|c r]; [intros [= <- <-]; split; [reflexivity|]; intros _ (x & y & E & _); discriminate|].
    destruct (is_digit c) eqn:G.
    + destruct (2 <=? blen (c :: r)).
      * destruct (cut (c :: r) 2) as [[a b]|] eqn:C; [|discriminate]. cbn [or_panic]. intros [= <- <-]. apply cut_spec in C as [C L]. split; [exact C|].
        intros FL _. exfalso. destruct a as [|x a]; [discriminate L|]. injection C as <- _. inversion FL as [|? ? X _]. subst.
        unfold is_digit in G. apply andb_true_iff in G as [G1 G2]. apply N.leb_le in G1, G2. unfold letter in X. lia.
      * intros [= <- <-]. split; [now rewrite app_nil_r|]. intros _ (x & y & E & _). discriminate.
    + destruct (find_char _ (c :: r)) as [[a b]|] eqn:H.
      * intros [= <- <-]. apply find_char_some in H as (E & _ & x & y & -> & X). split; [exact E|].
        intros _ (x' & y' & E' & L). injection E' as <- <-. apply alpha_iff in L. rewrite L in X. discriminate.
      * intros [= <- <-]. split; [now rewrite app_nil_r|]. intros _ (x & y & E & _). discriminate.
Qed.
Lemma timed_letters n : In n timed_names -> Forall letter n /\ n <> lit "fn".
Proof.
  unfold timed_names. cbn [map In]. intros H. repeat (destruct H as [<-|H]; [split; [repeat constructor; unfold letter; cbn; lia|discriminate]|]). contradiction.
Qed.
Lemma timed_mark n : In n timed_names -> exists m q, In m time_marks /\ 92%N :: n = m ++ q.
Proof.
  unfold timed_names. cbn [map In]. intros H.
  destruct H as [<-|[<-|[<-|[<-|[<-|[<-|[<-|[<-|[]]]]]]]]].
  - exists (lit "\t"), []. split; [unfold time_marks; cbn; tauto|reflexivity].
  - exists (lit "\move"), []. split; [unfold time_marks; cbn; tauto|reflexivity].
  - exists (lit "\fad"), []. split; [unfold time_marks; cbn; tauto|reflexivity].
  - exists (lit "\fad"), (lit "e"). split; [unfold time_marks; cbn; tauto|reflexivity].
  - exists (lit "\k"), []. split; [unfold time_marks; cbn; tauto|reflexivity].
  - exists (lit "\k"), (lit "f"). split; [unfold time_marks; cbn; tauto|reflexivity].
  - exists (lit "\k"), (lit "o"). split; [unfold time_marks; cbn; tauto|reflexivity].
  - exists (lit "\K"), []. split; [unfold time_marks; cbn; tauto|reflexivity].
Qed.
Lemma not_letter_92 : ~ letter 92%N.
Proof. unfold letter. lia. Qed.
Lemma not_letter_125 : ~ letter 125%N.
Proof. unfold letter. lia. Qed.
Lemma part_still text u content v p n args : timeless text -> text = u ++ 123%N :: content ++ 125%N :: v -> part_at content p ->
  extract_tag p = Ok (n, args) -> ~ In n timed_names.
Proof.
  intros [M W] T PA X I. apply extract_name in X as [E K]. destruct (timed_letters n I) as [L NF].
  assert (NA : ~ starts letter args) by (intros S; now apply NF, K). subst p.
  destruct PA as [(a & b & C)|(b & C & B)].
  - destruct (timed_mark n I) as (m & q & Im & Em). apply (M m Im). exists (u ++ 123%N :: a), (q ++ args ++ b ++ 125%N :: v).
    rewrite T, C. rewrite (app_assoc m), <- Em. repeat (rewrite <- app_assoc; cbn [app]). reflexivity.
  - rewrite T, C in W. rewrite <- !app_assoc in W. destruct args as [|x args].
    + cbn [app] in W. destruct B as [->|(r & ->)].
      * apply (W u n 125%N v eq_refl L not_letter_125 I).
      * apply (W u n 92%N (r ++ 125%N :: v) eq_refl L not_letter_92 I).
    + apply (W u n x (args ++ b ++ 125%N :: v) eq_refl L); [|exact I]. intros S. apply NA. now exists x, args.
Qed.
Lemma block_still text u content v t t' : timeless text -> text = u ++ 123%N :: content ++ 125%N :: v ->
  process_tag_block content t = Done t' -> still t -> still t'.
Proof.
  intros TL T. unfold process_tag_block, split_tags.
  assert (F : Forall (part_at content) (split_loop content [] 0)) by (apply (split_parts content [] 0%Z [] content eq_refl); auto).
  revert t. induction F as [|p ps P F IH]; intros t A S; cbn [apply_parts] in A; [injection A as <-; exact S|].
  destruct (apply_part p t) as [t1| |] eqn:A1; try discriminate. cbn [bind] in A. apply (IH t1 A). unfold apply_part in A1.
  destruct p as [|c p]; [injection A1 as <-; exact S|]. destruct (extract_tag (c :: p)) as [[n args]| |] eqn:X; try discriminate.
  apply (apply_still _ _ _ _ A1 S). exact (part_still _ _ _ _ _ _ _ TL T P X).
Qed.
(* ---- the walk ---- *)
Definition walk_still (w : walk) : Prop := still (wk_tags w) /\ Forall (fun s => still (sg_tags s)) (wk_segments w).
Lemma walk_keeps text : timeless text -> forall n cs w w' done, List.length cs <= n -> text = done ++ cs -> blen done = wk_pos w ->
  (wk_in w = true -> exists a r, done = a ++ 123%N :: r /\ blen a = wk_tag_start w) ->
  walk_still w -> walk_text text cs w = Done w' -> walk_still w'.
Proof.
  intros TL. induction n as [|n IH]; intros cs w w' dn LN T B IN S.
  { destruct cs; [|cbn in LN; lia]. destruct w. cbn [walk_text]. intros [= <-]. exact S. }
  destruct w as [segs t last cur pos inside ts depth].
  destruct S as [S1 S2]. cbn [wk_tags wk_segments wk_pos wk_in wk_tag_start] in *.
  destruct cs as [|c r]; cbn [walk_text]; [intros [= <-]; now split|]. cbn [List.length] in LN. assert (LR : List.length r <= n) by lia.
  assert (T' : text = (dn ++ [c]) ++ r) by (rewrite <- app_assoc; exact T).
  assert (B' : blen (dn ++ [c]) = pos + len_utf8 c) by (rewrite blen_app; cbn [blen]; lia).
  assert (IN' : inside = true -> exists a q, dn ++ [c] = a ++ 123%N :: q /\ blen a = ts).
  { intros I. destruct (IN I) as (a & q & -> & E). exists a, (q ++ [c]). rewrite <- app_assoc. now split. }
  destruct (c =? 123)%N eqn:O.
  - apply N.eqb_eq in O. destruct inside; cbn [negb].
    + intros H; refine (IH r _ w' (dn ++ [c]) LR T' _ _ _ H); [exact B'|exact IN'|]. now split.
    + destruct cur as [|x cur].
      * intros H; refine (IH r _ w' (dn ++ [c]) LR T' _ _ _ H); [exact B'| |now split]. intros _. exists dn, []. now subst c.
      * intros H; refine (IH r _ w' (dn ++ [c]) LR T' _ _ _ H); [exact B'| |split; [exact S1|]]. { intros _. exists dn, []. now subst c. }
        apply Forall_app. split; [exact S2|]. repeat constructor; apply S1.
  - destruct ((c =? 125)%N && inside) eqn:CL.
    + apply andb_true_iff in CL as [CL ->]. apply N.eqb_eq in CL. destruct (depth - 1 =? 0).
      * destruct (slice text (ts + 1) pos) as [content|] eqn:SL; [|discriminate]. cbn [or_crash bind].
        apply slice_spec in SL as (x & y & TX & BX & BY). destruct (IN eq_refl) as (a & q & -> & Ea).
        assert (X : x = a ++ [123%N] /\ content ++ y = q ++ c :: r).
        { assert (C1 : cut text (ts + 1) = Some (x, content ++ y)) by (apply cut_spec; now split).
          assert (C2 : cut text (ts + 1) = Some (a ++ [123%N], q ++ c :: r)).
          { apply cut_spec. split; [rewrite T, <- !app_assoc; reflexivity|]. rewrite blen_app. change (blen [123%N]) with 1. lia. }
          rewrite C1 in C2. injection C2 as -> ->. now split. }
        destruct X as [-> X].
        assert (Y : content = q /\ y = c :: r).
        { assert (C1 : cut (content ++ y) (blen content) = Some (content, y)) by (apply cut_app).
          assert (L : blen content = blen q). { rewrite blen_app in B. cbn [blen] in B. replace (len_utf8 123) with 1 in B by reflexivity. lia. }
          rewrite X, L, cut_app in C1. injection C1 as <- <-. now split. }
        destruct Y as [-> ->].
        assert (TT : text = a ++ 123%N :: q ++ 125%N :: r) by (rewrite T, <- app_assoc; subst c; reflexivity).
        destruct (match cur with [] => (segs, cur) | _ :: _ => _ end) as [segs1 cur1] eqn:K.
        assert (S3 : Forall (fun s => still (sg_tags s)) segs1).
        { destruct cur; [injection K as <- <-; exact S2|]. destruct (_ || _)%bool; injection K as <- <-; [|exact S2]. apply Forall_app. split; [exact S2|]. repeat constructor; apply S1. }
        destruct (process_tag_block q t) as [t1| |] eqn:PB; try discriminate. cbn [bind].
        intros H; refine (IH r _ w' ((a ++ 123%N :: q) ++ [c]) LR T' _ _ _ H); [exact B'|discriminate|]. split; [|exact S3]. exact (block_still _ _ _ _ _ _ TL TT PB S1).
      * intros H; refine (IH r _ w' (dn ++ [c]) LR T' _ _ _ H); [exact B'|exact IN'|]. now split.
    + destruct inside; cbn [negb].
      * intros H; refine (IH r _ w' (dn ++ [c]) LR T' _ _ _ H); [exact B'|exact IN'|]. now split.
      * destruct (is_bs c).
        -- destruct r as [|d r'].
           ++ intros H; refine (IH [] _ w' (dn ++ [c]) LR T' _ _ _ H); [exact B'|discriminate|]. now split.
           ++ intros H; refine (IH r' _ w' (dn ++ [c; d]) _ _ _ _ _ H); [cbn [List.length] in LR; lia|rewrite <- app_assoc; exact T| |discriminate|now split].
              rewrite blen_app. cbn [blen wk_pos]. lia.
        -- intros H; refine (IH r _ w' (dn ++ [c]) LR T' _ _ _ H); [exact B'|discriminate|]. now split.
Qed.
Lemma segments_still text segs : timeless text -> segment_text text = Done (Some segs) -> Forall (fun s => still (sg_tags s)) segs.
Proof.
  intros TL. unfold segment_text. destruct (analyze_text text) as [[a|]| |]; try discriminate. cbn [bind].
  destruct (ta_tags a); [intros [= <-]; repeat constructor|].
  destruct (walk_text text text _) as [w| |] eqn:W; try discriminate. cbn [bind]. intros [= <-].
  apply (walk_keeps text TL (List.length text) text _ w []) in W; [|apply le_n|reflexivity|reflexivity|discriminate|split; [exact still_none|constructor]].
  destruct W as [W1 W2]. assert (X : Forall (fun s => still (sg_tags s)) (wk_segments w ++ [Segment (wk_text w) (wk_last w) (blen text) (wk_tags w)])).
  { apply Forall_app. split; [exact W2|]. repeat constructor; apply W1. }
  destruct (wk_text w), (wk_segments w); assumption.
Qed.

(* ---- lines keep the tags of their runs ---- *)
Definition all_still (l : list segment) : Prop := Forall (fun s => still (sg_tags s)) l.
Lemma parts_still s : still (sg_tags s) -> forall parts first st, Forall all_still (fst st) -> all_still (snd st) ->
  Forall all_still (fst (add_parts s first parts st)) /\ all_still (snd (add_parts s first parts st)).
Proof.
  intros S. induction parts as [|p r IH]; intros first [lines cur] A B; cbn [add_parts]; [now split|]. cbn [fst snd] in A, B.
  assert (P : forall c, all_still c -> all_still (match p with [] => c | _ => c ++ [ShowModel.piece s p] end)).
  { intros c C. destruct p; [exact C|]. apply Forall_app. split; [exact C|]. repeat constructor; apply S. }
  assert (L : Forall all_still (lines ++ [cur])). { apply Forall_app. split; [exact A|]. repeat constructor; exact B. }
  destruct cur as [|x cur]; [apply IH; [exact A|apply P; constructor]|]. destruct first; apply IH; cbn [fst snd]; [exact A|now apply P|exact L|apply P; constructor].
Qed.
Lemma split_still segs : all_still segs -> Forall all_still (split_into_lines segs).
Proof.
  intros F. unfold split_into_lines.
  assert (G : forall st, Forall all_still (fst st) -> all_still (snd st) -> Forall all_still (fst (fold_left add_segment segs st)) /\ all_still (snd (fold_left add_segment segs st))).
  { induction F as [|s r S F IH]; intros st A B; cbn [fold_left]; [now split|].
    assert (X : Forall all_still (fst (add_segment st s)) /\ all_still (snd (add_segment st s))).
    { unfold add_segment. destruct (sg_text s) eqn:T; [now split|]. rewrite <- T. destruct (existsb is_break (sg_text s)); [now apply parts_still|]. cbn [fst snd]. split; [exact A|].
      apply Forall_app. split; [exact B|]. repeat constructor; apply S. }
    now apply IH. }
  specialize (G ([], [])). destruct (fold_left add_segment segs ([], [])) as [lines cur]. destruct G as [A B]; [constructor|constructor|].
  cbn [fst snd] in A, B. destruct cur; [exact A|]. apply Forall_app. split; [exact A|]. constructor; [exact B|constructor].
Qed.
Lemma owner_still line g : all_still line -> still (sg_tags (owner_segment line g)).
Proof.
  intros F. unfold owner_segment, ShowModel.piece. cbn [sg_tags]. destruct (nth_in_or_default (fst g) line (Segment [] 0 0 no_tags)) as [I|E]; [|rewrite E; exact still_none].
  unfold all_still in F. rewrite Forall_forall in F. now apply F.
Qed.
Lemma wrap_still sh line w b : all_still line -> Forall all_still (wrap_segments sh line w b).
Proof.
  intros F. unfold wrap_segments. destruct line as [|s r] eqn:E; [repeat constructor|]. rewrite <- E in *. cbn zeta. destruct (_ <=? 1); [repeat constructor; exact F|].
  destruct (fill _ _ _); [repeat constructor; exact F|]. apply Forall_forall. intros x L. apply filter_In in L as [L _]. apply in_map_iff in L as (g & <- & _).
  apply Forall_forall. intros x X. apply in_map_iff in X as (y & <- & _). now apply owner_still.
Qed.
Lemma lines_still sh g w text script segs : all_still segs -> Forall all_still (event_lines sh g w text script segs).
Proof.
  intros F. unfold event_lines. pose proof (split_still segs F) as L. destruct (_ && _)%bool; [|exact L].
  apply Forall_forall. intros l I. apply in_flat_map in I as (x & X & I). rewrite Forall_forall in L. pose proof (wrap_still (sh x) x (available g w) (negb (wrap_style_of segs script =? 1)%N) (L x X)) as K.
  rewrite Forall_forall in K. now apply K.
Qed.

(* ---- what is drawn does not depend on the time ---- *)
Section Same.
  Context {D P : Type} (pf : platform D P).
  Lemma drawing_same p g w st t1 t2 s : tg_field (sg_tags s) FMovement = None -> process_drawing pf p g w st t1 s = process_drawing pf p g w st t2 s.
  Proof.
    intros M. unfold process_drawing. destruct (pf_outline pf (sg_text s)); [|reflexivity]. unfold drawing_anchor. rewrite M.
    destruct (tg_field (sg_tags s) FPosition) as [[]|]; reflexivity.
  Qed.
  Lemma run_same g w t1 t2 d l pen s : tg_field (sp_tags s) FMovement = None -> position_run g w t1 d l pen s = position_run g w t2 d l pen s.
  Proof. intros M. unfold position_run, position_from_tags. rewrite M. reflexivity. Qed.
  Lemma line_same p g w st t1 t2 l segs : all_still segs -> forall pen acc, run_line pf p g w st t1 l pen acc segs = run_line pf p g w st t2 l pen acc segs.
  Proof.
    induction 1 as [|s r (M & F & K & T) H IH]; intros pen acc; cbn [run_line]; [reflexivity|]. destruct (is_drawing (sg_tags s)).
    - rewrite (drawing_same p g w st t1 t2 s M). destruct (process_drawing pf p g w st t2 s); cbn [bind]; [|reflexivity..]. now rewrite IH.
    - unfold apply_transform_animations. rewrite T. cbn [run_transforms bind]. destruct (pf_shape pf (sg_text s) (sg_tags s) st g) as [[[width height] advance]|]; [|reflexivity].
      rewrite (run_same g w t1 t2) by exact M. destruct (position_run _ _ _ _ _ _ _) as [xy| |]; cbn [bind]; [|reflexivity..].
      unfold resolve_run_colors. rewrite F. destruct (run_colors _ _) as [[c o] sh]. cbn [bind]. unfold sing_run. rewrite K. cbn [bind fst snd]. now rewrite IH.
  Qed.
  Lemma lines_same p g w st t1 t2 count h lines : Forall all_still lines -> forall i, run_lines pf p g w st t1 count h i lines = run_lines pf p g w st t2 count h i lines.
  Proof.
    induction 1 as [|l r L H IH]; intros i; cbn [run_lines]; [reflexivity|]. cbn zeta. rewrite (line_same p g w st t1 t2 _ l L).
    destruct (run_line _ _ _ _ _ _ _ _ _ _) as [[a|]| |]; cbn [bind]; [|reflexivity..]. now rewrite IH.
  Qed.
  Lemma event_same p c t1 t2 e : timeless (e_text e) -> process_event pf p c t1 e = process_event pf p c t2 e.
  Proof.
    intros TL. unfold process_event. destruct (time_or 0 (e_start e)) as [start| |]; cbn [bind]; [|reflexivity..]. destruct (time_or u32_max (e_end e)) as [fin| |]; cbn [bind]; [|reflexivity..].
    destruct (segment_text (e_text e)) as [[segs|]| |] eqn:S; cbn [bind]; [|reflexivity..]. pose proof (segments_still _ _ TL S) as F. destruct segs as [|s r]; [reflexivity|].
    destruct (is_drawing (sg_tags s)).
    - rewrite (drawing_same p _ _ _ t1 t2 s); [reflexivity|]. now inversion F as [|? ? (M & _) _].
    - unfold process_text. apply lines_same. now apply lines_still.
  Qed.
  Lemma events_same p c t1 t2 events : Forall (fun e => timeless (e_text e)) events -> forall r, run_events pf p c t1 r events = run_events pf p c t2 r events.
  Proof.
    induction 1 as [|e rest T H IH]; intros r; cbn [run_events]; [reflexivity|]. rewrite (event_same p c t1 t2 e T).
    destruct (process_event pf p c t2 e) as [[ls|]| |]; cbn [bind]; [|reflexivity..]. destruct (settle p r e ls) as [q| |]; cbn [bind]; [|reflexivity..]. now rewrite IH.
  Qed.
  Lemma frame_same p c t1 t2 events : Forall (fun e => timeless (e_text e)) events -> process_events pf p c t1 events = process_events pf p c t2 events.
  Proof.
    intros F. unfold process_events. apply events_same. apply Forall_forall. intros e E. rewrite Forall_forall in F. apply F.
    exact (Permutation_in _ (Permutation_sym (sort_perm before events)) E).
  Qed.
End Same.
