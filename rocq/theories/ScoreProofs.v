From Verif Require Import BaseLemmas TagSpec TagProofs TextProofs.

(* ---- line counting ---- *)
Lemma filter_nl t : List.length (filter is_nl t) = newlines_in t.
Proof.
  unfold newlines_in. induction t as [|c t IH]; [reflexivity|]. cbn [filter count_occ]. unfold is_nl at 1.
  destruct (N.eqb_spec c 10) as [->|N]; destruct (N.eq_dec _ _); try congruence; cbn [List.length]; congruence.
Qed.
Lemma lines_raw_count t : t <> [] -> List.length (lines_raw t) = newlines_in t + (if N.eqb (last t 0%N) 10%N then 0 else 1).
Proof.
  unfold newlines_in. induction t as [|c t IH]; [congruence|]. intros _. cbn [lines_raw count_occ]. unfold is_nl.
  destruct t as [|d t].
  - cbn [lines_raw last count_occ]. destruct (N.eqb_spec c 10) as [->|N]; destruct (N.eq_dec _ _); try congruence; reflexivity.
  - specialize (IH ltac:(discriminate)). change (last (c :: d :: t) 0%N) with (last (d :: t) 0%N).
    destruct (N.eqb_spec c 10) as [->|N]; destruct (N.eq_dec _ _); try congruence.
    + cbn [List.length]. rewrite IH. reflexivity.
    + destruct (lines_raw (d :: t)) as [|[w b] ws] eqn:R; [|cbn [List.length] in *; exact IH].
      exfalso. cbn [lines_raw] in R. destruct (is_nl d); [discriminate|]. destruct (lines_raw t) as [|[? ?] ?]; discriminate.
Qed.
Lemma drop_end_nil p t : drop_end p t = [] <-> Forall (fun c => p c = true) t.
Proof.
  induction t as [|c t IH]; cbn [drop_end]; [split; [constructor|reflexivity]|].
  destruct (drop_end p t) as [|x r] eqn:E.
  - destruct (p c) eqn:P; [split; [intros _; constructor; [exact P|now apply IH]|reflexivity]|]. split; [discriminate|]. intros F. apply Forall_inv in F. congruence.
  - split; [discriminate|]. intros F. apply Forall_inv_tail in F. apply IH in F. discriminate.
Qed.
Lemma lines_one t : newlines_in t = 0 -> count_lines t = 1.
Proof. intros H. unfold count_lines. destruct t; [reflexivity|]. rewrite filter_nl, H. reflexivity. Qed.
Lemma lines_only t : t <> [] -> Forall (eq 10%N) t -> count_lines t = newlines_in t + 1.
Proof.
  intros NE F. unfold count_lines. destruct t as [|c t]; [congruence|]. rewrite filter_nl.
  destruct (Nat.eqb_spec (newlines_in (c :: t)) 0) as [Z|Z]; [rewrite Z; reflexivity|].
  assert (D : drop_end is_nl (c :: t) = []). { apply drop_end_nil. eapply Forall_impl; [|exact F]. intros a <-. reflexivity. }
  now rewrite D.
Qed.
Lemma lines_mixed t : newlines_in t <> 0 -> ~ Forall (eq 10%N) t -> count_lines t = newlines_in t + (if N.eqb (last t 0%N) 10%N then 0 else 1).
Proof.
  intros Z F. unfold count_lines. destruct t as [|c t]; [cbn in Z; congruence|]. rewrite filter_nl.
  destruct (Nat.eqb_spec (newlines_in (c :: t)) 0) as [Q|_]; [congruence|].
  destruct (drop_end is_nl (c :: t)) as [|x r] eqn:D.
  - exfalso. apply F. apply drop_end_nil in D. eapply Forall_impl; [|exact D]. intros a A. apply N.eqb_eq in A. now symmetry.
  - unfold lines. rewrite map_length, lines_raw_count by discriminate. destruct (N.eqb _ _); lia.
Qed.
Lemma bidi_iff t : detect_bidi t = true <-> exists c, In c t /\ (1424 <= c <= 1791 \/ 1872 <= c <= 1919 \/ 2208 <= c <= 2303)%N.
Proof. unfold detect_bidi. rewrite existsb_exists. unfold in_range. split; intros (c & I & H); exists c; (split; [exact I|lia]). Qed.
Lemma complex_iff t : detect_complex t = true <-> exists c, In c t /\ (255 < c \/ c <= 31 \/ 127 <= c <= 159)%N.
Proof. unfold detect_complex. rewrite existsb_exists. unfold in_range. split; intros (c & I & H); exists c; (split; [exact I|lia]). Qed.

(* ---- scores ---- *)
Lemma sum_u8_ok l : forall acc, sum_u8 acc l = if (255 <? acc + fold_right N.add 0%N l)%N && negb (match l with [] => true | _ => false end) then None else Some (acc + fold_right N.add 0%N l)%N.
Proof.
  induction l as [|x l IH]; intros acc; cbn [sum_u8 fold_right].
  - rewrite andb_false_r. f_equal. lia.
  - rewrite andb_true_r. rewrite IH. destruct (N.ltb_spec 255 (acc + x)) as [L|L].
    + destruct (N.ltb_spec 255 (acc + (x + fold_right N.add 0%N l))); [reflexivity|lia].
    + rewrite N.add_assoc. destruct l as [|y l]; [|rewrite andb_true_r; reflexivity]. cbn [fold_right]. rewrite andb_false_r.
      destruct (N.ltb_spec 255 (acc + x + 0)%N); [lia|reflexivity].
Qed.
Lemma total_is ts n : total_score ts n <-> n = fold_right N.add 0%N (map (fun t => tag_score (tg_name t)) ts).
Proof.
  split.
  - intros (vs & F & ->). f_equal. induction F as [|t v ts vs V F IH]; [reflexivity|]. cbn [map]. f_equal; [|exact IH].
    exact (valued_fun _ _ _ _ score_table_nodup V (score_valued _)).
  - intros ->. exists (map (fun t => tag_score (tg_name t)) ts). split; [|reflexivity]. induction ts; constructor; [apply score_valued|assumption].
Qed.
Lemma animation_exact ts n : total_score ts n -> animation_score ts = if (n <=? 255)%N then Done (N.min n 10) else Crash.
Proof.
  intros T. apply total_is in T. unfold animation_score. rewrite sum_u8_ok, N.add_0_l, <- T.
  destruct (N.leb_spec n 255) as [L|L].
  - destruct (N.ltb_spec 255 n); [lia|]. reflexivity.
  - destruct (N.ltb_spec 255 n); [|lia]. destruct ts; [cbn in T; lia|]. reflexivity.
Qed.
Lemma complexity_max a c o : (complexity_score a c o <= 100)%N.
Proof. unfold complexity_score. lia. Qed.
Lemma complexity_mono a a' c c' o o' : (a <= a')%N -> c <= c' -> o <= o' -> (complexity_score a c o <= complexity_score a' c' o')%N.
Proof.
  intros A C O. unfold complexity_score.
  set (f := fun x => (if x <=? 50 then 0 else if x <=? 200 then 5 else if x <=? 500 then 15 else if x <=? 1000 then 30 else 50)%N).
  set (g := fun x => (if x =? 0 then 0 else if x <=? 5 then 5 else if x <=? 15 then 15 else if x <=? 30 then 25 else 35)%N).
  assert (F : forall x y : N, (x <= y)%N -> (f x <= f y)%N).
  { intros x y L. unfold f. repeat match goal with |- context [N.leb ?u ?v] => destruct (N.leb_spec u v) end; lia. }
  assert (G : forall x y : N, (x <= y)%N -> (g x <= g y)%N).
  { intros x y L. unfold g. repeat match goal with |- context [N.leb ?u ?v] => destruct (N.leb_spec u v) | |- context [N.eqb ?u ?v] => destruct (N.eqb_spec u v) end; lia. }
  specialize (F (N.of_nat c) (N.of_nat c') ltac:(lia)). specialize (G (N.of_nat o) (N.of_nat o') ltac:(lia)).
  fold (f (N.of_nat c)) (f (N.of_nat c')) (g (N.of_nat o)) (g (N.of_nat o')). revert F G.
  generalize (f (N.of_nat c)) (f (N.of_nat c')) (g (N.of_nat o)) (g (N.of_nat o')). intros. lia.
Qed.
Lemma impact_bands s : match performance_impact s with
  | Minimal => (s <= 20)%N | Low => (20 < s <= 40)%N | Medium => (40 < s <= 60)%N | High => (60 < s <= 80)%N | Critical => (80 < s)%N end.
Proof. unfold performance_impact. destruct (N.leb_spec s 20); [assumption|]. destruct (N.leb_spec s 40); [lia|]. destruct (N.leb_spec s 60); [lia|]. destruct (N.leb_spec s 80); lia. Qed.

(* ---- line breaks ---- *)
Fixpoint brks (drawing : bool) (o : nat) (l : list seg) : list (nat * break_type) :=
  match l with
  | [] => []
  | s :: r => (match brk_of drawing s with Some b => [(o, b)] | None => [] end) ++ brks drawing (o + blen (broken drawing s)) r
  end.
Fixpoint nbs (drawing : bool) (o : nat) (l : list seg) : list nat :=
  match l with
  | [] => []
  | s :: r => (if nb_of drawing s then [o] else []) ++ nbs drawing (o + blen (broken drawing s)) r
  end.
Lemma from_text_run drawing slash : forall l w, Forall line_seg l ->
  from_text_loop (line_text l slash) drawing w =
  WithBreaks (wb_text w ++ flat_map (broken drawing) l ++ (if slash then [92%N] else [])) (wb_breaks w ++ brks drawing (blen (wb_text w)) l) (wb_nbsp w ++ nbs drawing (blen (wb_text w)) l).
Proof.
  induction l as [|s l IH]; intros w F.
  - unfold line_text. cbn [flat_map app brks nbs]. rewrite !app_nil_r. destruct slash; cbn; [reflexivity|]. rewrite app_nil_r. destruct w; reflexivity.
  - pose proof (Forall_inv F) as S. apply Forall_inv_tail in F. specialize (fun w => IH w F). unfold line_text in *. cbn [flat_map brks nbs]. rewrite <- app_assoc.
    destruct s as [c|d|x]; [| |destruct S].
    + cbn [seg_text app from_text_loop line_seg] in *. replace (is_bs c) with false by (symmetry; now apply N.eqb_neq). rewrite IH. cbn [wb_text wb_breaks wb_nbsp brk_of nb_of broken app blen].
      rewrite blen_app. cbn [blen]. rewrite <- !app_assoc. cbn [app]. reflexivity.
    + cbn [seg_text app from_text_loop]. change (is_bs 92) with true. cbv iota. rewrite IH. cbn [brk_of nb_of broken].
      destruct (N.eqb_spec d 78) as [->|N78].
      { change (78 =? 110)%N with false. change (78 =? 104)%N with false. cbn [orb]. destruct drawing; cbn [wb_text wb_breaks wb_nbsp negb andb app blen].
        - rewrite Nat.add_0_r. reflexivity.
        - rewrite blen_app. cbn [blen]. rewrite <- !app_assoc. reflexivity. }
      destruct (N.eqb_spec d 110) as [->|N110].
      { change (110 =? 104)%N with false. cbn [orb]. destruct drawing; cbn [wb_text wb_breaks wb_nbsp negb andb app blen].
        - rewrite Nat.add_0_r. reflexivity.
        - rewrite blen_app. cbn [blen]. rewrite <- !app_assoc. reflexivity. }
      cbn [orb]. destruct (N.eqb_spec d 104) as [->|N104].
      { destruct drawing; cbn [wb_text wb_breaks wb_nbsp negb andb app blen].
        - rewrite Nat.add_0_r. reflexivity.
        - rewrite blen_app. cbn [blen]. rewrite <- !app_assoc. reflexivity. }
      rewrite andb_false_r. replace (if drawing then None else None) with (@None break_type) by (destruct drawing; reflexivity). cbn [wb_text wb_breaks wb_nbsp app]. rewrite blen_app, <- !app_assoc. reflexivity.
Qed.
Lemma brks_in drawing l : forall o p b, In (p, b) (brks drawing o l) <->
  exists pre s post, l = pre ++ s :: post /\ brk_of drawing s = Some b /\ p = o + blen (flat_map (broken drawing) pre).
Proof.
  induction l as [|s l IH]; intros o p b; cbn [brks]; [split; [intros []|intros (pre & s & post & E & _); destruct pre; discriminate]|].
  rewrite in_app_iff, IH. split.
  - intros [H|(pre & s' & post & -> & B & ->)].
    + exists [], s, l. split; [reflexivity|]. destruct (brk_of drawing s); [|destruct H]. destruct H as [H|[]]. injection H as <- <-. split; [reflexivity|]. cbn. lia.
    + exists (s :: pre), s', post. split; [reflexivity|]. split; [exact B|]. cbn [flat_map]. rewrite blen_app. lia.
  - intros (pre & s' & post & E & B & ->). destruct pre as [|s0 pre]; cbn [app] in E; injection E as -> E.
    + left. rewrite B. left. cbn. f_equal. lia.
    + right. exists pre, s', post. split; [exact E|]. split; [exact B|]. cbn [flat_map]. rewrite blen_app. lia.
Qed.
Lemma nbs_in drawing l : forall o p, In p (nbs drawing o l) <->
  exists pre s post, l = pre ++ s :: post /\ nb_of drawing s = true /\ p = o + blen (flat_map (broken drawing) pre).
Proof.
  induction l as [|s l IH]; intros o p; cbn [nbs]; [split; [intros []|intros (pre & s & post & E & _); destruct pre; discriminate]|].
  rewrite in_app_iff, IH. split.
  - intros [H|(pre & s' & post & -> & B & ->)].
    + exists [], s, l. split; [reflexivity|]. destruct (nb_of drawing s); [|destruct H]. destruct H as [H|[]]. split; [reflexivity|]. cbn. lia.
    + exists (s :: pre), s', post. split; [reflexivity|]. split; [exact B|]. cbn [flat_map]. rewrite blen_app. lia.
  - intros (pre & s' & post & E & B & ->). destruct pre as [|s0 pre]; cbn [app] in E; injection E as -> E.
    + left. rewrite B. left. cbn. lia.
    + right. exists pre, s', post. split; [exact E|]. split; [exact B|]. cbn [flat_map]. rewrite blen_app. lia.
Qed.
Lemma brks_lower drawing l : forall o p b, In (p, b) (brks drawing o l) -> o <= p.
Proof. intros o p b H. apply brks_in in H as (pre & s & post & _ & _ & ->). lia. Qed.
Lemma brk_grows drawing s b : brk_of drawing s = Some b -> 1 <= blen (broken drawing s).
Proof.
  destruct s as [c|d|x]; cbn [brk_of]; try discriminate. destruct drawing; [discriminate|]. cbn [broken]. destruct (d =? 78)%N; [rewrite orb_true_r; change (blen [10%N]) with 1; lia|].
  destruct (d =? 110)%N; [cbn [orb]; change (blen [10%N]) with 1; lia|discriminate].
Qed.
Lemma brks_at drawing l : forall o p b, In (p, b) (brks drawing o l) -> find (fun x => fst x =? p) (brks drawing o l) = Some (p, b).
Proof.
  induction l as [|s l IH]; intros o p b H; cbn [brks] in *; [destruct H|]. apply in_app_iff in H.
  destruct (brk_of drawing s) as [b0|] eqn:B; cbn [app find] in *.
  - destruct H as [[H|[]]|H].
    + injection H as -> ->. cbn [fst]. now rewrite Nat.eqb_refl.
    + cbn [fst]. pose proof (brks_lower _ _ _ _ _ H). pose proof (brk_grows _ _ _ B). destruct (Nat.eqb_spec o p); [lia|]. now apply IH.
  - destruct H as [[]|H]. now apply IH.
Qed.
Lemma breaks_exact l slash drawing : Forall line_seg l -> let w := from_text (line_text l slash) drawing in
  wb_text w = flat_map (broken drawing) l ++ (if slash then [92%N] else []) /\
  (forall p b, break_type_at w p = Some b <-> exists pre s post, l = pre ++ s :: post /\ brk_of drawing s = Some b /\ p = blen (flat_map (broken drawing) pre)) /\
  (forall p, is_nbsp_at w p = true <-> exists pre s post, l = pre ++ s :: post /\ nb_of drawing s = true /\ p = blen (flat_map (broken drawing) pre)).
Proof.
  intros F w. unfold w, from_text. rewrite from_text_run by exact F. cbn [wb_text wb_breaks wb_nbsp app blen]. split; [reflexivity|]. split.
  - intros p b. unfold break_type_at. cbn [wb_breaks app]. pose proof (brks_in drawing l 0 p b) as K. cbn [Nat.add] in K. rewrite <- K. clear K. split.
    + destruct (find _ _) as [[q c]|] eqn:E; [|discriminate]. cbn. intros Q. injection Q as ->. apply find_some in E as [E1 E2]. cbn [fst] in E2. apply Nat.eqb_eq in E2. now subst q.
    + intros H. now rewrite (brks_at _ _ _ _ _ H).
  - intros p. unfold is_nbsp_at. cbn [wb_nbsp app]. pose proof (nbs_in drawing l 0 p) as K. cbn [Nat.add] in K. rewrite <- K. rewrite existsb_exists. split.
    + intros (x & I & E). apply Nat.eqb_eq in E. now subst x.
    + intros I. exists p. split; [exact I|apply Nat.eqb_refl].
Qed.
Lemma break_is_newline l slash drawing p b : Forall line_seg l -> break_type_at (from_text (line_text l slash) drawing) p = Some b ->
  slice (wb_text (from_text (line_text l slash) drawing)) p (p + 1) = Some [10%N].
Proof.
  intros F H. destruct (breaks_exact l slash drawing F) as (T & B & _). rewrite T. apply B in H as (pre & s & post & -> & K & ->).
  rewrite flat_map_app. cbn [flat_map]. rewrite <- !app_assoc.
  assert (Q : broken drawing s = [10%N]).
  { destruct s as [c|d|x]; cbn [brk_of broken] in *; try discriminate. destruct drawing; [discriminate|]. destruct (d =? 78)%N; [now rewrite orb_true_r|]. destruct (d =? 110)%N; [reflexivity|discriminate]. }
  rewrite Q. apply slice_at; reflexivity.
Qed.
(* plain lines read the same by the text analysis *)
Lemma plain_same l : Forall (fun s => line_seg s /\ s <> Chr 123%N) l ->
  exists ta, analyze_text (line_text l false) = Done (Some ta) /\ ta_plain ta = wb_text (from_text (line_text l false) false).
Proof.
  intros F. assert (FL : Forall line_seg l) by (eapply Forall_impl; [|exact F]; cbn; tauto).
  destruct (analyze_safe l EndText) as (pl & m & ts & ds & ts' & ds' & V & _ & _ & H).
  - eapply Forall_impl; [|exact F]. intros [c|d|x] [A B]; cbn in *; [split; congruence|exact I|destruct A].
  - exact I.
  - eapply Forall_impl; [|exact F]. intros [c|d|x] [A B]; cbn in *; [exact I|exact I|destruct A].
  - exact I.
  - exists (finished pl (ts ++ ts') (ds ++ ds')). split; [exact H|]. cbn [ta_plain finished].
    destruct (breaks_exact l false false FL) as (-> & _). rewrite app_nil_r. clear H.
    remember false as m0 eqn:M0. revert M0. clear F. induction V as [m0|m0 m1 m2 x r t NE D V IH|m0 m1 r t V IH|m0 m1 s r t N V IH]; intros ->.
    + reflexivity.
    + destruct (Forall_inv FL).
    + destruct (Forall_inv FL).
    + cbn [flat_map]. rewrite <- IH by (try reflexivity; exact (Forall_inv_tail FL)). f_equal. destruct s as [c|d|x]; cbn [shown broken]; [reflexivity| |exfalso; exact (N x eq_refl)]. reflexivity.
Qed.

(* ---- tag handlers of plugins ---- *)
Lemma record_agree reg n a span pos : name_shape n -> let p := record_tag no_registry n a span pos in let q := record_tag reg n a span pos in
  map where_what (fst p) = map where_what (fst q) /\ snd p = filter is_empty_diag (snd q).
Proof.
  intros [NE (d & w & E & D & W)]. unfold record_tag at 1, no_registry.
  assert (T : exists x r, trim n = x :: r).
  {
    assert (A : Forall (fun c => is_ws c = false) n).
    { rewrite E. apply Forall_app. split.
      - destruct D as [->|(c & -> & D)]; [constructor|]. constructor; [|constructor]. unfold digit in D. unfold is_ws. lia.
      - eapply Forall_impl; [|exact W]. intros c L. unfold letter in L. unfold is_ws. lia. }
    destruct n as [|c n]; [congruence|]. unfold trim, trim_start, trim_end. cbn [drop_while]. rewrite (Forall_inv A). cbn [drop_end].
    destruct (drop_end is_ws n) as [|y r]; [rewrite (Forall_inv A); now exists c, []|now exists c, (y :: r)]. }
  destruct T as (x & r & T). rewrite T. unfold record_tag. rewrite T. destruct (reg n a) as [v|]; [destruct v|]; cbn; auto.
Qed.
Lemma block_agree reg start_pos : forall fuel content u rest bp, content = u ++ rest -> bp = blen u ->
  agree (parse_block fuel no_registry content start_pos rest bp) (parse_block fuel reg content start_pos rest bp).
Proof.
  induction fuel as [|f IH]; intros content u rest bp C BP.
  - destruct rest; cbn; auto.
  - destruct rest as [|c r]; [cbn; auto|]. cbn [parse_block]. destruct (is_bs c) eqn:B.
    + apply bs_iff in B. subst c.
      destruct (scan_name_ok content (u ++ [92%N]) r [] (bp + 1) (bp + 1) 0) as (n & rest1 & E & H & K).
      * rewrite C, <- app_assoc. reflexivity.
      * rewrite blen_app. cbn [blen]. change (len_utf8 92) with 1. lia.
      * rewrite blen_app. cbn [blen]. change (len_utf8 92) with 1. lia.
      * reflexivity.
      * exact partial_nil.
      * rewrite H. cbn [bind]. rewrite E, shorter. cbn [app] in K. destruct n as [|n0 n'].
        -- destruct (slice content bp (Nat.min (bp + 2) (blen content))) as [sp|]; [|cbn; exact I]. cbn [or_crash bind blen].
           cbn [app] in E. subst r. rewrite Nat.add_0_r.
           assert (G : agree (parse_block f no_registry content start_pos (match rest1 with [] => rest1 | _ :: r' => r' end) (match rest1 with [] => bp + 1 | d :: _ => bp + 1 + len_utf8 d end))
                             (parse_block f reg content start_pos (match rest1 with [] => rest1 | _ :: r' => r' end) (match rest1 with [] => bp + 1 | d :: _ => bp + 1 + len_utf8 d end))).
           { destruct rest1 as [|d r']; [destruct f; cbn; auto|]. apply (IH content (u ++ [92%N; d])); [rewrite C, <- app_assoc; reflexivity|].
             rewrite blen_app. cbn [blen]. change (len_utf8 92) with 1. lia. }
           destruct rest1 as [|d r']; cbn match in G |- *;
             (destruct (parse_block f no_registry content start_pos _ _) as [[t1 d1]| |], (parse_block f reg content start_pos _ _) as [[t2 d2]| |]; cbn in G |- *; try tauto;
              destruct G as [G1 ->]; split; [exact G1|reflexivity]).
        -- destruct K as [[K _]|K]; [discriminate|]. set (n := n0 :: n') in *.
           destruct (slice content (bp + 1) (bp + 1 + blen n)) as [pv|] eqn:SN; [|cbn; exact I]. cbn [or_crash bind].
           assert (pv = n) as ->.
           { assert (S2 : slice content (bp + 1) (bp + 1 + blen n) = Some n).
             { rewrite C, E. replace (u ++ 92%N :: n ++ rest1) with ((u ++ [92%N]) ++ n ++ rest1) by (rewrite <- app_assoc; reflexivity).
               apply slice_at; rewrite blen_app; cbn [blen]; change (len_utf8 92) with 1; lia. }
             congruence. }
           destruct (args_scan n rest1 (bp + 1 + blen n)) as (a & after & EA & HA & AA). rewrite HA.
           destruct (slice content (bp + 1 + blen n) (bp + 1 + blen n + blen a)) as [ar|]; [|cbn; exact I]. cbn [or_crash bind].
           destruct (slice content bp (bp + 1 + blen n + blen a)) as [sp|]; [|cbn; exact I]. cbn [or_crash bind].
           assert (G : agree (parse_block f no_registry content start_pos after (bp + 1 + blen n + blen a)) (parse_block f reg content start_pos after (bp + 1 + blen n + blen a))).
           { apply (IH content (u ++ 92%N :: n ++ a)).
             - rewrite C, E, EA, <- !app_assoc. cbn [app]. rewrite <- !app_assoc. reflexivity.
             - rewrite blen_app. cbn [blen]. rewrite blen_app. change (len_utf8 92) with 1. lia. }
           destruct (parse_block f no_registry content start_pos after _) as [[t1 d1]| |], (parse_block f reg content start_pos after _) as [[t2 d2]| |]; cbn [agree bind] in G |- *; try tauto.
           destruct G as [G1 G2]. pose proof (record_agree reg n ar sp (start_pos + bp) (proj1 K)) as [R1 R2].
           destruct (record_tag no_registry n ar sp (start_pos + bp)) as [ts0 ds0], (record_tag reg n ar sp (start_pos + bp)) as [ts1 ds1]. cbn [agree fst snd] in *.
           rewrite !map_app, filter_app. split; congruence.
    + apply (IH content (u ++ [c])); [rewrite C, <- app_assoc; reflexivity|]. rewrite blen_app. cbn [blen]. lia.
Qed.
Lemma registry_agree reg content o : agree (parse_override_block content o) (parse_override_block_with reg content o).
Proof. apply (block_agree reg o (List.length content) content [] content 0); reflexivity. Qed.
