(* What any batch may do, atomic batches, change tracking and differences. *)
From Verif Require Import Base BaseLemmas ScriptModel ScriptSpec ScriptProofs IncrProofs.
From Coq Require Import Lia.

(* ---- any batch ---- *)
Lemma update_line_bad d op d' e : update_line d op = (d', Bad e) -> d' = d.
Proof.
  unfold update_line. destruct (negb _); [congruence|]. destruct (parse_line_auto _ _ _) as [[t new]|e0]; [|congruence].
  destruct (update_sections _ _ _ _) as [[[l old] added]|e1]; [|congruence]. intros H. discriminate.
Qed.
Lemma record_script c d : es_script (record c d) = es_script d. Proof. reflexivity. Qed.
Lemma update_line_good d op d' old : update_line d op = (d', Good old) -> exists t new l added,
  parse_line_auto (es_script d) (op_line op) (op_number op) = Good (t, new) /\
  update_sections (es_sections d) (op_offset op) new (op_number op) = Good (l, old, added) /\ es_script d' = set_sections (es_script d) l.
Proof.
  unfold update_line. destruct (negb _); [intros H; discriminate|]. destruct (parse_line_auto _ _ _) as [[t new]|e0]; [|intros H; discriminate].
  destruct (update_sections _ _ _ _) as [[[l o] added]|e1] eqn:E; [|intros H; discriminate]. intros H. exists t, new, l, added. split; [reflexivity|].
  injection H as <- <-. split; [exact E|]. destruct o as [z|z|k [|v vs]]; destruct added; reflexivity.
Qed.
Lemma Forall2_refl {A} (R : A -> A -> Prop) l : (forall x, R x x) -> Forall2 R l l.
Proof. intros H. induction l; constructor; auto. Qed.
Lemma Forall2_mono {A B} (R S : A -> B -> Prop) l m : (forall x y, R x y -> S x y) -> Forall2 R l m -> Forall2 S l m.
Proof. intros H. induction 1; constructor; auto. Qed.
Lemma touched_refl sc ops s : section_touched sc ops s s.
Proof.
  destruct s as [f sp|l|l|l|l]; cbn [section_touched]; try reflexivity; [|apply Forall2_refl; left; reflexivity|apply Forall2_refl; left; reflexivity].
  split; [reflexivity|]. exists f, []. rewrite app_nil_r. split; [reflexivity|]. split; [|constructor]. apply Forall2_refl. auto.
Qed.
Lemma touched_more sc ops ops' s s' : incl ops ops' -> section_touched sc ops s s' -> section_touched sc ops' s s'.
Proof.
  intros I. assert (K : forall A (sp : A -> span) new x y, item_touched sp new ops x y -> item_touched sp new ops' x y).
  { intros A sp new x y [H|(op & H1 & H2)]; [left; exact H|right; exists op; auto]. }
  destruct s as [f sp|l|l|l|l], s' as [f' sp'|l'|l'|l'|l']; cbn [section_touched]; auto; try (apply Forall2_mono; intros; apply K; assumption).
  intros (E & g & h & Ef & H1 & H2). split; [exact E|]. exists g, h. split; [exact Ef|]. split.
  - eapply Forall2_mono; [|exact H1]. cbn. intros x y [A [B|(op & B & C)]]; split; auto. right. exists op. auto.
  - eapply Forall_impl; [|exact H2]. cbn. intros x (op & B & C). exists op. auto.
Qed.
Lemma items_step {A} (sp : A -> span) new ops op a x b l : (forall o y, new o = Some y -> fresh_span (sp y)) ->
  Forall2 (item_touched sp new ops) l (a ++ x :: b) -> covers (sp x) (op_offset op) = true -> forall y, new op = Some y ->
  Forall2 (item_touched sp new (ops ++ [op])) l (a ++ y :: b).
Proof.
  intros Hf H Hc y Hy. apply Forall2_app_inv_r in H. destruct H as (l1 & l2 & H1 & H2 & ->). inversion H2 as [|z ? l3 ? Hz H3]; subst.
  assert (K : forall u v, item_touched sp new ops u v -> item_touched sp new (ops ++ [op]) u v). { intros u v [E|(o & O1 & O2)]; [left; exact E|right; exists o; split; [apply in_or_app; auto|exact O2]]. }
  apply Forall2_app; [eapply Forall2_mono; eassumption|]. constructor; [|eapply Forall2_mono; eassumption].
  destruct Hz as [->|(o & O1 & O2 & O3)].
  - right. exists op. split; [apply in_or_app; right; left; reflexivity|]. auto.
  - apply Hf in O3. rewrite (fresh_covers _ (op_offset op) O3) in Hc. discriminate.
Qed.
Lemma touched_step sc ops op s s1 s2 t new old added : section_touched sc ops s s1 -> parse_line_auto sc (op_line op) (op_number op) = Good (t, new) ->
  section_covers (op_offset op) s1 = true -> update_section s1 (op_offset op) new (op_number op) = Good (s2, old, added) -> section_touched sc (ops ++ [op]) s s2.
Proof.
  intros H Hp Hc Hu. destruct s1 as [f1 sp1|l1|l1|l1|l1]; destruct new as [x|x|k v]; cbn [update_section] in Hu; try discriminate.
  - destruct s as [f sp|l|l|l|l]; cbn [section_touched] in H; try contradiction. destruct H as (-> & g & h & -> & H1 & H2).
    unfold section_covers in Hc. cbn [section_span] in Hc.
    assert (Hn : new_field sc op = Some (k, v)) by (unfold new_field; rewrite Hp; reflexivity).
    assert (L : forall kv', (exists o, In o ops /\ covers sp1 (op_offset o) = true /\ new_field sc o = Some kv') -> exists o, In o (ops ++ [op]) /\ covers sp1 (op_offset o) = true /\ new_field sc o = Some kv').
    { intros kv' (o & O1 & O2). exists o. split; [apply in_or_app; auto|exact O2]. }
    assert (N : exists o, In o (ops ++ [op]) /\ covers sp1 (op_offset o) = true /\ new_field sc o = Some (k, v)).
    { exists op. split; [apply in_or_app; right; left; reflexivity|auto]. }
    set (Q := fun kv kv' : str * str => fst kv = fst kv' /\ (kv = kv' \/ exists o, In o (ops ++ [op]) /\ covers sp1 (op_offset o) = true /\ new_field sc o = Some kv')).
    assert (H1' : Forall2 Q f g). { eapply Forall2_mono; [|exact H1]. cbn. intros u w [U1 [U2|U2]]; split; auto. }
    assert (H2' : Forall (fun kv => exists o, In o (ops ++ [op]) /\ covers sp1 (op_offset o) = true /\ new_field sc o = Some kv) h). { eapply Forall_impl; [|exact H2]. auto. }
    destruct (replace_first _ _ (g ++ h)) as [[od f2]|] eqn:R; injection Hu as <- <- <-; cbn [section_touched]; (split; [reflexivity|]).
    + apply replace_first_inv in R. destruct R as (a & b & E1 & -> & _ & Hk). apply str_eqb_eq in Hk.
      destruct (Nat.lt_ge_cases (List.length a) (List.length g)) as [Lt|Ge].
      * apply app_eq_app in E1. destruct E1 as (m & [[-> E]|[-> E]]).
        -- destruct m as [|m0 m]; cbn in E; [rewrite app_nil_r in Lt; lia|]. injection E as <- ->. exists (a ++ (k, v) :: m), h. rewrite <- app_assoc. split; [reflexivity|]. split; [|exact H2'].
           apply Forall2_app_inv_r in H1'. destruct H1' as (l1 & l2 & P1 & P2 & ->). inversion P2 as [|z ? l3 ? Hz P3]; subst. apply Forall2_app; [exact P1|]. constructor; [|exact P3].
           destruct Hz as [Hz _]. split; [cbn; congruence|]. right. exact N.
        -- rewrite app_length in Lt. lia.
      * apply app_eq_app in E1. destruct E1 as (m & [[-> E]|[-> E]]).
        -- destruct m as [|m0 m]; [|rewrite app_length in Ge; cbn in Ge; lia]. rewrite app_nil_r in *. cbn in E. subst h. exists a, ((k, v) :: b). split; [reflexivity|]. split; [exact H1'|]. constructor; [exact N|exact (Forall_inv_tail H2')].
        -- subst h. exists g, (m ++ (k, v) :: b). rewrite <- app_assoc. split; [reflexivity|]. split; [exact H1'|]. apply Forall_app in H2'. destruct H2' as [A1 A2]. apply Forall_app. split; [exact A1|]. constructor; [exact N|exact (Forall_inv_tail A2)].
    + exists g, (h ++ [(k, v)]). rewrite <- app_assoc. split; [reflexivity|]. split; [exact H1'|]. apply Forall_app. split; [exact H2'|]. constructor; [exact N|constructor].
  - destruct s as [f sp|l|l|l|l]; cbn [section_touched] in H; try contradiction. destruct (replace_first _ _ l1) as [[od l2]|] eqn:R; [|discriminate]. injection Hu as <- <- <-.
    apply replace_first_inv in R. destruct R as (a & b & -> & -> & _ & Hk). cbn [section_touched]. eapply items_step; [exact (new_style_fresh sc)|exact H|exact Hk|]. unfold new_style. rewrite Hp. reflexivity.
  - destruct s as [f sp|l|l|l|l]; cbn [section_touched] in H; try contradiction. destruct (replace_first _ _ l1) as [[od l2]|] eqn:R; [|discriminate]. injection Hu as <- <- <-.
    apply replace_first_inv in R. destruct R as (a & b & -> & -> & _ & Hk). cbn [section_touched]. eapply items_step; [exact (new_event_fresh sc)|exact H|exact Hk|]. unfold new_event. rewrite Hp. reflexivity.
Qed.
Lemma incl_snoc {A} (l : list A) x : incl l (l ++ [x]). Proof. intros y Hy. apply in_or_app. auto. Qed.
Lemma touched_item {A} (sp : A -> span) new ops l l' x o : (forall op y, new op = Some y -> fresh_span (sp y)) -> Forall2 (item_touched sp new ops) l l' -> In x l' -> covers (sp x) o = true -> In x l.
Proof.
  intros Hf. induction 1 as [|u v l l' H _ IH]; intros Hi Hc; [contradiction|]. destruct Hi as [->|Hi]; [|right; auto].
  destruct H as [->|(op & _ & _ & E)]; [left; reflexivity|]. apply Hf in E. rewrite (fresh_covers _ o E) in Hc. discriminate.
Qed.
Lemma batch_sound sc ops : forall done d, es_script d = set_sections sc (es_sections d) -> Forall2 (section_touched sc done) (sc_sections sc) (es_sections d) ->
  let (d', b) := run_batch d ops in es_script d' = set_sections sc (es_sections d') /\ Forall2 (section_touched sc (done ++ ops)) (sc_sections sc) (es_sections d') /\
    Permutation (map fst (br_updated b) ++ map fst (br_failed b)) (map op_offset ops) /\ Forall (old_line sc) (br_updated b).
Proof.
  induction ops as [|op ops IH]; intros done d Hd Ht; cbn [run_batch]; [rewrite app_nil_r; cbn; auto|].
  destruct (update_line d op) as [d1 [old|e]] eqn:E.
  - apply update_line_good in E. destruct E as (t & new & l & added & E1 & E2 & E3). rewrite Hd in E1. rewrite auto_sections in E1.
    apply update_sections_inv in E2. destruct E2 as (pre & s & post & s' & F1 & F2 & F3 & _ & F4). 
    assert (G : es_sections d1 = l) by (unfold es_sections; rewrite E3; reflexivity).
    assert (Old : old_line sc (op_offset op, old)).
    { rewrite F1 in Ht. apply Forall2_app_inv_r in Ht. destruct Ht as (l1 & l2 & T1 & T2 & E0). inversion T2 as [|s0 ? l3 ? Hs T3]; subst.
      destruct s as [f sp|m|m|m|m]; destruct new as [x|x|k v]; cbn [update_section] in F4; try discriminate.
      - destruct (replace_first _ _ f) as [[o1 f']|]; injection F4 as <- <- <-; exact I.
      - destruct (replace_first _ _ m) as [[o1 m']|] eqn:R; [|discriminate]. injection F4 as <- <- <-. apply replace_first_inv in R. destruct R as (a & b & -> & _ & _ & Hc).
        destruct s0 as [f sp|m|m|m|m]; cbn [section_touched] in Hs; try contradiction. exists m. cbn [fst snd]. rewrite E0. split; [apply in_or_app; right; left; reflexivity|]. split; [|exact Hc].
        eapply touched_item; [exact (new_style_fresh sc)|exact Hs|apply in_or_app; right; left; reflexivity|exact Hc].
      - destruct (replace_first _ _ m) as [[o1 m']|] eqn:R; [|discriminate]. injection F4 as <- <- <-. apply replace_first_inv in R. destruct R as (a & b & -> & _ & _ & Hc).
        destruct s0 as [f sp|m|m|m|m]; cbn [section_touched] in Hs; try contradiction. exists m. cbn [fst snd]. rewrite E0. split; [apply in_or_app; right; left; reflexivity|]. split; [|exact Hc].
        eapply touched_item; [exact (new_event_fresh sc)|exact Hs|apply in_or_app; right; left; reflexivity|exact Hc]. }
    specialize (IH (done ++ [op]) d1). destruct (run_batch d1 ops) as [d2 b]. destruct IH as (I1 & I2 & I3 & I4).
    + rewrite G, E3, Hd. reflexivity.
    + rewrite G, F2. rewrite F1 in Ht. apply Forall2_app_inv_r in Ht. destruct Ht as (l1 & l2 & T1 & T2 & ->). inversion T2 as [|s0 ? l3 ? Hs T3]; subst.
      apply Forall2_app; [eapply Forall2_mono; [|exact T1]; intros; eapply touched_more; [apply incl_snoc|eassumption]|]. constructor; [|eapply Forall2_mono; [|exact T3]; intros; eapply touched_more; [apply incl_snoc|eassumption]].
      eapply touched_step; eassumption.
    + rewrite <- app_assoc in I2. cbn [app] in I2. split; [exact I1|]. split; [exact I2|]. cbn [br_updated br_failed map app fst]. split; [constructor; exact I3|]. constructor; assumption.
  - apply update_line_bad in E. subst d1. specialize (IH (done ++ [op]) d). destruct (run_batch d ops) as [d2 b]. destruct IH as (I1 & I2 & I3 & I4); [exact Hd| |].
    + eapply Forall2_mono; [|exact Ht]. intros. eapply touched_more; [apply incl_snoc|eassumption].
    + rewrite <- app_assoc in I2. cbn [app] in I2. split; [exact I1|]. split; [exact I2|]. cbn [br_updated br_failed map app fst]. split; [|exact I4]. rewrite <- Permutation_middle. constructor. exact I3.
Qed.
Lemma batch_any d ops d' b : batch_update_lines d ops = (d', b) -> es_script d' = set_sections (es_script d) (es_sections d') /\
  Forall2 (section_touched (es_script d) ops) (es_sections d) (es_sections d') /\
  Permutation (map fst (br_updated b) ++ map fst (br_failed b)) (map op_offset ops) /\ Forall (old_line (es_script d)) (br_updated b).
Proof.
  intros E. unfold batch_update_lines in E. pose proof (batch_sound (es_script d) (sort_ops ops) [] d) as H. rewrite E in H.
  destruct H as (H1 & H2 & H3 & H4). { unfold es_sections. symmetry. apply set_sections_same. } { apply Forall2_refl. intros. apply touched_refl. }
  split; [exact H1|]. split; [|split; [|exact H4]].
  - eapply Forall2_mono; [|exact H2]. intros. eapply touched_more; [|eassumption]. intros z Hz. eapply Permutation_in; [apply sort_perm|exact Hz].
  - rewrite H3. apply Permutation_map, sort_perm.
Qed.

(* ---- adding lines ---- *)
Lemma extend_styles new l : match extend_first (add_styles_to new) l with
  | Some (l', start) => exists pre old post, l = pre ++ SStyles old :: post /\ existsb is_styles_sec pre = false /\ l' = pre ++ SStyles (old ++ new) :: post /\ start = List.length old
  | None => existsb is_styles_sec l = false end.
Proof.
  induction l as [|s l IH]; [reflexivity|]. cbn [extend_first]. destruct s as [f sp|m|m|m|m]; cbn [add_styles_to]; [|exists [], m, l; auto| | |];
    (destruct (extend_first (add_styles_to new) l) as [[l' st]|]; [destruct IH as (pre & old & post & -> & H & -> & ->); eexists (_ :: pre), old, post; repeat split; exact H|exact IH]).
Qed.
Lemma extend_events new l : match extend_first (add_events_to new) l with
  | Some (l', start) => exists pre old post, l = pre ++ SEvents old :: post /\ existsb is_events_sec pre = false /\ l' = pre ++ SEvents (old ++ new) :: post /\ start = List.length old
  | None => existsb is_events_sec l = false end.
Proof.
  induction l as [|s l IH]; [reflexivity|]. cbn [extend_first]. destruct s as [f sp|m|m|m|m]; cbn [add_events_to]; [| |exists [], m, l; auto| |];
    (destruct (extend_first (add_events_to new) l) as [[l' st]|]; [destruct IH as (pre & old & post & -> & H & -> & ->); eexists (_ :: pre), old, post; repeat split; exact H|exact IH]).
Qed.
Lemma add_styles_spec d new d' ix : batch_add_styles d new = (d', ix) -> exists start, styles_added new (es_sections d) (es_sections d') start /\ ix = seq start (List.length new) /\ es_script d' = set_sections (es_script d) (es_sections d') /\ es_tracker d' = es_tracker d.
Proof.
  unfold batch_add_styles. pose proof (extend_styles new (es_sections d)) as H. destruct (extend_first _ _) as [[l st]|]; intros E; injection E as <- <-.
  - exists st. split; [left; exact H|]. auto.
  - exists 0. split; [right; auto|]. auto.
Qed.
Lemma add_events_spec d new d' ix : batch_add_events d new = (d', ix) -> exists start, events_added new (es_sections d) (es_sections d') start /\ ix = seq start (List.length new) /\ es_script d' = set_sections (es_script d) (es_sections d') /\ es_tracker d' = es_tracker d.
Proof.
  unfold batch_add_events. pose proof (extend_events new (es_sections d)) as H. destruct (extend_first _ _) as [[l st]|]; intros E; injection E as <- <-.
  - exists st. split; [left; exact H|]. auto.
  - exists 0. split; [right; auto|]. auto.
Qed.
Lemma add_style_is_batch d x : add_style d x = (fst (batch_add_styles d [x]), hd 0 (snd (batch_add_styles d [x]))).
Proof. unfold add_style, batch_add_styles. destruct (extend_first _ _) as [[l st]|]; reflexivity. Qed.
Lemma add_event_is_batch d x : add_event d x = (fst (batch_add_events d [x]), hd 0 (snd (batch_add_events d [x]))).
Proof. unfold add_event, batch_add_events. destruct (extend_first _ _) as [[l st]|]; reflexivity. Qed.

(* ---- atomic batches ---- *)
Lemma atomic_bad d ops st ev d' e : atomic_batch_update d ops st ev = (d', Bad e) -> d' = d.
Proof. unfold atomic_batch_update. destruct (check_ops d ops); [congruence|]. destruct (run_ops d ops); [intros H; discriminate|congruence]. Qed.
Lemma run_ops_batch ops : forall d d', run_ops d ops = Good d' -> exists u, run_batch d ops = (d', Batch u []) /\ map fst u = map op_offset ops.
Proof.
  induction ops as [|op ops IH]; intros d d'; cbn [run_ops run_batch]; [intros H; injection H as <-; exists []; auto|].
  destruct (update_line d op) as [d1 [old|e]]; [|discriminate]. intros H. destruct (IH _ _ H) as (u & -> & E). eexists. split; [reflexivity|]. cbn. rewrite E. reflexivity.
Qed.
Lemma batch_run_ops ops : forall d d' u, run_batch d ops = (d', Batch u []) -> run_ops d ops = Good d'.
Proof.
  induction ops as [|op ops IH]; intros d d' u; cbn [run_ops run_batch]; [intros H; injection H as <- <-; reflexivity|].
  destruct (update_line d op) as [d1 [old|e]]; destruct (run_batch d1 ops) as [d2 [u2 f2]] eqn:E; cbn [br_updated br_failed]; intros H; [|discriminate]. injection H as <- <- ->. eapply IH, E.
Qed.
Lemma atomic_good d ops st ev d' : atomic_batch_update d ops st ev = (d', Good tt) ->
  exists d1 u l, run_batch d ops = (d1, Batch u []) /\ map fst u = map op_offset ops /\ with_styles st (es_sections d1) l /\ with_events ev l (es_sections d') /\
    es_script d' = set_sections (es_script d1) (es_sections d').
Proof.
  unfold atomic_batch_update. destruct (check_ops d ops); [discriminate|]. destruct (run_ops d ops) as [d1|] eqn:E; [|discriminate]. intros H. injection H as <-.
  destruct (run_ops_batch _ _ _ E) as (u & E1 & E2). exists d1, u, (es_sections (match st with Some l => fst (batch_add_styles d1 l) | None => d1 end)). split; [exact E1|]. split; [exact E2|].
  assert (A : with_styles st (es_sections d1) (es_sections (match st with Some l => fst (batch_add_styles d1 l) | None => d1 end)) /\
    es_script (match st with Some l => fst (batch_add_styles d1 l) | None => d1 end) = set_sections (es_script d1) (es_sections (match st with Some l => fst (batch_add_styles d1 l) | None => d1 end))).
  { destruct st as [ns|]; cbn [with_styles]; [|split; [reflexivity|unfold es_sections; rewrite set_sections_same; reflexivity]]. destruct (batch_add_styles d1 ns) as [d2 ix] eqn:B. apply add_styles_spec in B. destruct B as (s & B1 & _ & B3 & _). cbn [fst]. split; [eauto|exact B3]. }
  destruct A as [A1 A2]. split; [exact A1|]. generalize dependent (match st with Some l => fst (batch_add_styles d1 l) | None => d1 end). intros d2 A1 A2.
  destruct ev as [ne|]; cbn [with_events]; [|split; [reflexivity|exact A2]]. destruct (batch_add_events d2 ne) as [d3 ix] eqn:B. apply add_events_spec in B. destruct B as (s & B1 & _ & B3 & _). cbn [fst]. split; [eauto|]. rewrite B3, A2. reflexivity.
Qed.
Lemma atomic_good_touched d ops st ev d' : atomic_batch_update d ops st ev = (d', Good tt) ->
  exists d1 u l, run_batch d ops = (d1, Batch u []) /\ map fst u = map op_offset ops /\
    Forall2 (section_touched (es_script d) ops) (es_sections d) (es_sections d1) /\
    with_styles st (es_sections d1) l /\ with_events ev l (es_sections d') /\ es_script d' = set_sections (es_script d) (es_sections d').
Proof.
  intros H. destruct (atomic_good _ _ _ _ _ H) as (d1 & u & l & H1 & H2 & H3 & H4 & H5). exists d1, u, l.
  pose proof (batch_sound (es_script d) ops [] d) as S. rewrite H1 in S. destruct S as (S1 & S2 & _). { unfold es_sections. symmetry. apply set_sections_same. } { apply Forall2_refl. intros. apply touched_refl. }
  repeat (split; [assumption|]). rewrite H5, S1. reflexivity.
Qed.
Lemma names_checked d op : laid_out (es_sections d) -> names_line (es_script d) op -> existsb (section_covers (op_offset op)) (es_sections d) = true /\ exists x, parse_line_auto (es_script d) (op_line op) (op_number op) = Good x.
Proof.
  intros Hl Hn. destruct (batch_step (es_script d) ct_default [] op Hl Hn) as (ct & old & E); [constructor|constructor|]. rewrite rewrite_nil, set_sections_same in E. unfold update_line in E. unfold es_sections in *. cbn [es_script] in E.
  destruct (existsb _ _); [|discriminate]. split; [reflexivity|]. cbn [negb] in E. destruct (parse_line_auto _ _ _) as [[t new]|]; [eauto|discriminate].
Qed.
Lemma atomic_exact d ops : let sc := es_script d in laid_out (sc_sections sc) -> Forall (names_line sc) ops -> name_distinct sc ops ->
  StronglySorted (fun a b => op_offset a <= op_offset b) ops ->
  exists d', atomic_batch_update d ops None None = (d', Good tt) /\ es_script d' = set_sections sc (map (rewrite_section sc ops) (sc_sections sc)).
Proof.
  intros sc Hl Hn Hd Hs. unfold atomic_batch_update.
  assert (C : check_ops d ops = None).
  { clear Hd Hs. induction Hn as [|op ops Hop _ IH]; [reflexivity|]. cbn [check_ops]. destruct (names_checked d op Hl Hop) as (-> & x & ->). cbn [negb]. exact IH. }
  rewrite C. destruct d as [sc0 ct]. cbn [es_script] in sc. subst sc. destruct (run_batch_exact sc0 ops [] ct Hl Hn Hs Hd) as (ct' & u & E & _). rewrite rewrite_nil, set_sections_same in E. cbn [app] in E.
  apply batch_run_ops in E. rewrite E. eexists. split; reflexivity.
Qed.

(* ---- change tracking ---- *)
Lemma track_history h : let t := fold_right do_track ct_default h in ct_enabled t = tracking h /\ ct_changes t = recorded h.
Proof.
  induction h as [|o h [I1 I2]]; [split; reflexivity|]. cbn [fold_right tracking recorded]. destruct o; cbn [do_track ct_enable ct_disable ct_clear ct_enabled ct_changes]; auto.
  unfold ct_record. rewrite I1. destruct (tracking h) eqn:E; cbn [ct_enabled ct_changes]; rewrite ?I1, ?I2; auto.
Qed.
Lemma update_recorded d op d' old : update_line d op = (d', Good old) -> ct_enabled (es_tracker d) = true -> (forall k, old <> LField k []) ->
  exists t new, parse_line_auto (es_script d) (op_line op) (op_number op) = Good (t, new) /\
    ct_changes (es_tracker d') = ct_changes (es_tracker d) ++ [CModified (op_offset op) old new (op_number op)].
Proof.
  unfold update_line. destruct (negb _); [intros H; discriminate|]. destruct (parse_line_auto _ _ _) as [[t new]|e0]; [|intros H; discriminate].
  destruct (update_sections _ _ _ _) as [[[l o] added]|e1] eqn:E; [|intros H; discriminate]. intros H Ht Ho. injection H as <- <-. exists t, new. split; [reflexivity|].
  assert (added = false).
  { apply update_sections_inv in E. destruct E as (pre & s & post & s' & _ & _ & _ & _ & U). destruct s, new; cbn [update_section] in U; try discriminate; destruct (replace_first _ _ _) as [[a b]|]; try discriminate; injection U as <- <- <-; auto. exfalso. eapply Ho. reflexivity. }
  subst added. destruct o as [x|x|k [|v vs]]; [| |exfalso; eapply Ho; reflexivity|]; cbn [record es_tracker with_sections]; unfold ct_record; rewrite Ht; reflexivity.
Qed.
Lemma update_field_added d op d' k : update_line d op = (d', Good (LField k [])) -> ct_enabled (es_tracker d) = true ->
  (forall f sp v, In (SInfo f sp) (es_sections d) -> ~ In (k, v) f) ->
  exists t new, parse_line_auto (es_script d) (op_line op) (op_number op) = Good (t, new) /\
    ct_changes (es_tracker d') = ct_changes (es_tracker d) ++ [CAdded (op_offset op) new (op_number op)].
Proof.
  unfold update_line. destruct (negb _); [intros H; discriminate|]. destruct (parse_line_auto _ _ _) as [[t new]|e0]; [|intros H; discriminate].
  destruct (update_sections _ _ _ _) as [[[l o] added]|e1] eqn:E; [|intros H; discriminate]. intros H Ht Ho. injection H as <- ->. exists t, new. split; [reflexivity|].
  apply update_sections_inv in E. destruct E as (pre & s & post & s' & E & _ & _ & _ & U). destruct s as [f sp|m|m|m|m], new as [x|x|k' v']; cbn [update_section] in U; try discriminate; destruct (replace_first _ _ _) as [[a b]|] eqn:R; try discriminate; injection U; clear U; intros; subst.
  - apply replace_first_inv in R. destruct R as (a1 & b1 & -> & _ & _ & Hk). apply str_eqb_eq in Hk. exfalso. apply (Ho (a1 ++ a :: b1) sp (snd a)); [rewrite E; apply in_or_app; right; left; reflexivity|]. apply in_or_app. right. left. destruct a; cbn in *; congruence.
  - cbn [record es_tracker with_sections]. unfold ct_record. rewrite Ht. reflexivity.
Qed.
Lemma update_untracked d op : ct_enabled (es_tracker d) = false -> es_tracker (fst (update_line d op)) = es_tracker d.
Proof.
  intros H. unfold update_line. destruct (negb _); [reflexivity|]. destruct (parse_line_auto _ _ _) as [[t new]|e0]; [|reflexivity].
  destruct (update_sections _ _ _ _) as [[[l o] added]|e1]; [|reflexivity]. unfold record, ct_record, with_sections. destruct added; cbn [es_tracker]; destruct o as [x|x|k [|v vs]]; cbn [fst es_tracker]; rewrite ?H; cbn [es_tracker]; rewrite ?H; reflexivity.
Qed.
Lemma remove_nth_spec {A} (l : list A) : forall i, match remove_nth i l with Some (x, l') => nth_error l i = Some x /\ l' = firstn i l ++ skipn (S i) l | None => List.length l <= i end.
Proof.
  induction l as [|x l IH]; intros [|i]; cbn [remove_nth]; try (cbn; lia); [split; reflexivity|]. specialize (IH i). destruct (remove_nth i l) as [[y l']|]; [|cbn; lia]. destruct IH as [H ->]. split; [exact H|reflexivity].
Qed.
Lemma do_section_recorded o d : ct_enabled (es_tracker d) = true -> ct_enabled (es_tracker (do_section o d)) = true /\
  exists cs, ct_changes (es_tracker (do_section o d)) = ct_changes (es_tracker d) ++ cs /\ fold_left replay cs (es_sections d) = es_sections (do_section o d).
Proof.
  intros H. destruct o as [s|i]; cbn [do_section].
  - unfold add_section. cbn [fst]. unfold with_sections, record, ct_record. rewrite H. cbn [es_tracker ct_enabled ct_changes]. split; [reflexivity|]. eexists. split; [reflexivity|]. cbn [fold_left replay].
    rewrite firstn_all, skipn_all. reflexivity.
  - unfold remove_section. pose proof (remove_nth_spec (es_sections d) i) as R. destruct (remove_nth i (es_sections d)) as [[s l]|]; cbn [fst].
    + unfold with_sections, record, ct_record. cbn [es_tracker]. rewrite H. cbn [es_tracker ct_enabled ct_changes]. split; [reflexivity|]. eexists. split; [reflexivity|]. cbn [fold_left replay]. destruct R as [_ ->]. reflexivity.
    + split; [exact H|]. exists []. rewrite app_nil_r. split; reflexivity.
Qed.
Lemma replay_history ops : forall d, ct_enabled (es_tracker d) = true -> exists cs, ct_changes (es_tracker (fold_left (fun d o => do_section o d) ops d)) = ct_changes (es_tracker d) ++ cs /\
  fold_left replay cs (es_sections d) = es_sections (fold_left (fun d o => do_section o d) ops d).
Proof.
  induction ops as [|o ops IH]; intros d H; [exists []; rewrite app_nil_r; split; reflexivity|]. cbn [fold_left]. destruct (do_section_recorded o d H) as (H1 & cs & H2 & H3). destruct (IH _ H1) as (cs' & H4 & H5).
  exists (cs ++ cs'). rewrite H4, H2, <- app_assoc. split; [reflexivity|]. rewrite fold_left_app, H3. exact H5.
Qed.

(* ---- differences ---- *)
Lemma diff_self a : forall i, diff_from i a a = [].
Proof. induction a as [|x a IH]; intros i; cbn [diff_from]; [reflexivity|]. destruct (section_eq_dec x x); [apply IH|congruence]. Qed.
Lemma diff_nil a : forall i b, diff_from i a b = [] -> a = b.
Proof.
  induction a as [|x a IH]; intros i [|y b]; cbn [diff_from removed_from]; try discriminate; [reflexivity|]. destruct (section_eq_dec x y) as [->|]; [|discriminate]. cbn. intros H. f_equal. eapply IH, H.
Qed.
Definition change_index (c : change) : option nat := match c with CSectionAdded _ j | CSectionRemoved _ j => Some j | _ => None end.
Lemma diff_index a : forall i b, Forall (fun c => exists j, change_index c = Some j /\ i <= j) (diff_from i a b).
Proof.
  assert (R : forall b i, Forall (fun c => exists j, change_index c = Some j /\ i <= j) (removed_from i b)).
  { induction b as [|y b IH]; intros i; cbn [removed_from]; constructor; [exists i; auto|]. eapply Forall_impl; [|apply IH]. cbn. intros c (j & H1 & H2). exists j. split; [exact H1|lia]. }
  induction a as [|x a IH]; intros i b; cbn [diff_from]; [apply R|].
  assert (L : forall b, Forall (fun c => exists j, change_index c = Some j /\ i <= j) (diff_from (S i) a b)).
  { intros b'. eapply Forall_impl; [|apply IH]. cbn. intros c (j & H1 & H2). exists j. split; [exact H1|lia]. }
  destruct b as [|y b]; [constructor; [exists i; auto|apply L]|]. destruct (section_eq_dec x y); [apply L|]. cbn [app]. constructor; [exists i; auto|]. constructor; [exists i; auto|apply L].
Qed.
Lemma added_skip i cs cs' : Forall (fun c => change_index c <> Some i) cs -> added_at i (cs ++ cs') = added_at i cs'.
Proof.
  intros H. unfold added_at. rewrite find_app. rewrite find_none_all; [reflexivity|]. eapply Forall_impl; [|exact H]. intros c Hc. destruct c; cbn in *; try reflexivity. apply Nat.eqb_neq. congruence.
Qed.
Lemma removed_skip i cs cs' : Forall (fun c => change_index c <> Some i) cs -> removed_at i (cs ++ cs') = removed_at i cs'.
Proof.
  intros H. unfold removed_at. rewrite existsb_app. replace (existsb _ cs) with false; [reflexivity|]. symmetry. induction H as [|c cs Hc _ IH]; [reflexivity|]. cbn [existsb]. rewrite IH, orb_false_r. destruct c; cbn in *; try reflexivity. apply Nat.eqb_neq. congruence.
Qed.
Lemma diff_after i j a b : j < i -> added_at j (diff_from i a b) = None /\ removed_at j (diff_from i a b) = false.
Proof.
  intros H. assert (F : Forall (fun c => change_index c <> Some j) (diff_from i a b)).
  { eapply Forall_impl; [|apply diff_index]. cbn. intros c (k & E & K). rewrite E. intros Q. injection Q as ->. lia. }
  split; [rewrite <- (app_nil_r (diff_from i a b)), added_skip by exact F; reflexivity|rewrite <- (app_nil_r (diff_from i a b)), removed_skip by exact F; reflexivity].
Qed.
Lemma patched_ext cs cs' l i : added_at i cs = added_at i cs' -> removed_at i cs = removed_at i cs' -> patched_at cs l i = patched_at cs' l i.
Proof. intros H1 H2. unfold patched_at. rewrite H1, H2. reflexivity. Qed.
Lemma flat_map_ext_in' {A B} (f g : A -> list B) l : (forall x, In x l -> f x = g x) -> flat_map f l = flat_map g l.
Proof. intros H. induction l as [|x l IH]; [reflexivity|]. cbn. rewrite H by (left; reflexivity). f_equal. apply IH. intros y Hy. apply H. right. exact Hy. Qed.
Lemma patched_diff a : forall i pre b, List.length pre = i -> flat_map (patched_at (diff_from i a b) (pre ++ b)) (seq i (Nat.max (List.length a) (List.length b))) = a.
Proof.
  assert (Nth : forall (pre : list section) y b, nth_error (pre ++ y :: b) (List.length pre) = Some y) by (intros; rewrite nth_error_app2 by lia; rewrite Nat.sub_diag; reflexivity).
  assert (R : forall b i pre, List.length pre = i -> flat_map (patched_at (removed_from i b) (pre ++ b)) (seq i (List.length b)) = []).
  { induction b as [|y b IH]; intros i pre Hp; [reflexivity|]. cbn [removed_from List.length seq flat_map].
    assert (Z : patched_at (CSectionRemoved (section_type_of y) i :: removed_from (S i) b) (pre ++ y :: b) i = []).
    { unfold patched_at. destruct (diff_after (S i) i [] b) as [D1 D2]; [lia|]. cbn [diff_from] in D1. change (CSectionRemoved (section_type_of y) i :: removed_from (S i) b) with ([CSectionRemoved (section_type_of y) i] ++ removed_from (S i) b).
      assert (E1 : added_at i ([CSectionRemoved (section_type_of y) i] ++ removed_from (S i) b) = None) by exact D1. rewrite E1. unfold removed_at. cbn [app existsb]. rewrite Nat.eqb_refl. reflexivity. }
    rewrite Z. cbn [app]. replace (pre ++ y :: b) with ((pre ++ [y]) ++ b) by (rewrite <- app_assoc; reflexivity).
    etransitivity; [|apply (IH (S i) (pre ++ [y])); rewrite app_length; cbn; lia]. apply flat_map_ext_in'. intros j Hj. apply in_seq in Hj. apply patched_ext.
    - change (CSectionRemoved (section_type_of y) i :: removed_from (S i) b) with ([CSectionRemoved (section_type_of y) i] ++ removed_from (S i) b). apply added_skip. repeat constructor. cbn. intros Q. injection Q. lia.
    - change (CSectionRemoved (section_type_of y) i :: removed_from (S i) b) with ([CSectionRemoved (section_type_of y) i] ++ removed_from (S i) b). apply removed_skip. repeat constructor. cbn. intros Q. injection Q. lia. }
  induction a as [|x a IH]; intros i pre b Hp; cbn [diff_from].
  - cbn [List.length Nat.max]. replace (Nat.max 0 (List.length b)) with (List.length b) by lia. apply R, Hp.
  - assert (Skip : forall cs l b' n, Forall (fun c => change_index c = Some i) cs -> flat_map (patched_at (cs ++ diff_from (S i) a b') l) (seq (S i) n) = flat_map (patched_at (diff_from (S i) a b') l) (seq (S i) n)).
    { intros cs l b' n F. apply flat_map_ext_in'. intros j Hj. apply in_seq in Hj. assert (F' : Forall (fun c => change_index c <> Some j) cs) by (eapply Forall_impl; [|exact F]; cbn; intros c ->; intros Q; injection Q; lia).
      apply patched_ext; [apply added_skip, F'|apply removed_skip, F']. }
    destruct b as [|y b].
    + cbn [List.length Nat.max seq flat_map]. replace (Nat.max (S (List.length a)) 0) with (S (List.length a)) by lia. cbn [seq flat_map].
      change (CSectionAdded x i :: diff_from (S i) a []) with ([CSectionAdded x i] ++ diff_from (S i) a []). 
      assert (Z : patched_at ([CSectionAdded x i] ++ diff_from (S i) a []) (pre ++ []) i = [x]). { unfold patched_at, added_at. cbn [app find]. rewrite Nat.eqb_refl. reflexivity. }
      rewrite Z. cbn [app]. f_equal. rewrite app_nil_r. change (CSectionAdded x i :: diff_from (S i) a []) with ([CSectionAdded x i] ++ diff_from (S i) a []). rewrite Skip by (repeat constructor).
      specialize (IH (S i) (pre ++ [x]) []). rewrite app_nil_r in IH. cbn [List.length] in IH. rewrite Nat.max_0_r in IH.
      etransitivity; [|apply IH; rewrite app_length; cbn; lia]. apply flat_map_ext_in'. intros j Hj. apply in_seq in Hj. unfold patched_at. destruct (added_at j _); [reflexivity|]. destruct (removed_at j _); [reflexivity|].
      rewrite !(proj2 (nth_error_None _ _)); [reflexivity|rewrite app_length; cbn; lia|lia].
    + cbn [List.length Nat.max seq flat_map]. destruct (section_eq_dec x y) as [->|Hne]; cbn [app].
      * assert (Z : patched_at (diff_from (S i) a b) (pre ++ y :: b) i = [y]). { unfold patched_at. destruct (diff_after (S i) i a b) as [-> ->]; [lia|]. rewrite <- Hp, Nth. reflexivity. }
        rewrite Z. cbn [app]. f_equal. replace (pre ++ y :: b) with ((pre ++ [y]) ++ b) by (rewrite <- app_assoc; reflexivity). apply IH. rewrite app_length. cbn. lia.
      * assert (Z : patched_at (CSectionRemoved (section_type_of y) i :: CSectionAdded x i :: diff_from (S i) a b) (pre ++ y :: b) i = [x]). { unfold patched_at, added_at. cbn [app find]. rewrite Nat.eqb_refl. reflexivity. }
        rewrite Z. cbn [app]. f_equal. change (CSectionRemoved (section_type_of y) i :: CSectionAdded x i :: diff_from (S i) a b) with ([CSectionRemoved (section_type_of y) i; CSectionAdded x i] ++ diff_from (S i) a b). rewrite Skip by (repeat constructor).
        replace (pre ++ y :: b) with ((pre ++ [y]) ++ b) by (rewrite <- app_assoc; reflexivity). apply IH. rewrite app_length. cbn. lia.
Qed.
Lemma diff_rebuilds d other : patched (Nat.max (List.length (es_sections d)) (List.length (es_sections other))) (diff d other) (es_sections other) = es_sections d.
Proof. unfold patched, diff. apply (patched_diff (es_sections d) 0 [] (es_sections other)). reflexivity. Qed.
