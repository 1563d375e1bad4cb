From Verif Require Import HandlerModel HandlerBlockSpec HandlerProofs TagProofs BaseLemmas ParseModel PluginProps PluginSpec PluginProofs.
From Verif Require TagModel PluginModel.
Local Open Scope nat_scope.

Definition answers (reg : TagModel.registry) (who : str -> str -> option PluginModel.verdict -> Prop) : Prop :=
  forall n a, exists v, who n a v /\ reg n a = option_map seen v.
Definition result_by who (start_pos bp : nat) (ps : list piece) (out : run (list tag * list tag_diag)) : Prop :=
  (Exists splits_char ps /\ out = Crash) \/
  (Forall (fun p => ~ splits_char p) ps /\ exists ts ds, out = Done (ts, ds) /\ reported_by who (start_pos + bp) ps ts ds).
Lemma record_by reg (who : str -> str -> option PluginModel.verdict -> Prop) n a after pos : name_of n after -> answers reg who ->
  (who n a (Some PluginModel.Processed) /\ record_tag reg n a (92%N :: n ++ a) pos = ([Tag n a 2 pos], [])) \/
  (exists m v, who n a (Some (PluginModel.Failed m)) /\ valued complexity_table n v /\ record_tag reg n a (92%N :: n ++ a) pos = ([Tag n a v pos], [Diag (piece_text (PTag n a)) pos MalformedTag])) \/
  (exists v, (who n a None \/ who n a (Some PluginModel.Ignored)) /\ valued complexity_table n v /\ record_tag reg n a (92%N :: n ++ a) pos = ([Tag n a v pos], [])).
Proof.
  intros NM W. destruct (W n a) as (v & H & E). unfold record_tag. rewrite E. destruct (name_trim _ _ NM) as (x & r & ->).
  destruct v as [[| |m]|]; cbn [option_map seen fst snd].
  - left. now split.
  - right. right. exists (tag_complexity n). split; [now right|]. split; [apply complexity_valued|reflexivity].
  - right. left. exists m, (tag_complexity n). split; [exact H|]. split; [apply complexity_valued|reflexivity].
  - right. right. exists (tag_complexity n). split; [now left|]. split; [apply complexity_valued|reflexivity].
Qed.
Lemma parse_block_by reg who start_pos : answers reg who -> forall fuel content u rest bp, content = u ++ rest -> bp = blen u -> List.length rest <= fuel ->
  exists ps, rest = pieces_text ps /\ pieces_ok ps /\ result_by who start_pos bp ps (parse_block fuel reg content start_pos rest bp).
Proof.
  intros WHO. induction fuel as [|f IH]; intros content u rest bp C BP L.
  - destruct rest as [|c r]; [|cbn in L; lia]. exists []. split; [reflexivity|]. split; [exact I|]. right. split; [constructor|]. exists [], []. split; [reflexivity|constructor].
  - destruct rest as [|c r].
    { exists []. split; [reflexivity|]. split; [exact I|]. right. split; [constructor|]. exists [], []. split; [reflexivity|constructor]. }
    cbn [parse_block]. destruct (is_bs c) eqn:B.
    + apply bs_iff in B. subst c.
      destruct (scan_name_ok content (u ++ [92%N]) r [] (bp + 1) (bp + 1) 0) as (n & rest1 & E & H & K).
      * rewrite C, <- app_assoc. reflexivity.
      * rewrite blen_app. cbn [blen]. change (len_utf8 92) with 1. lia.
      * rewrite blen_app. cbn [blen]. change (len_utf8 92) with 1. lia.
      * reflexivity.
      * exact partial_nil.
      * rewrite H. cbn [bind]. rewrite E, shorter. cbn [app] in K. cbn [List.length] in L. rewrite E, app_length in L.
        destruct n as [|n0 n'].
        -- (* no tag *)
           destruct K as [[_ [NL ND]]|[[? _] _]]; [|congruence]. cbn [blen]. rewrite Nat.add_0_r. cbn [app] in E. subst r.
           destruct rest1 as [|d r'].
           ++ replace (Nat.min (bp + 2) (blen content)) with (bp + 1) by (rewrite C, blen_app; cbn [blen]; change (len_utf8 92) with 1; lia).
              rewrite C, (slice_at u [92%N] []); [|exact BP|cbn [blen]; change (len_utf8 92) with 1; lia]. cbn [or_crash bind]. rewrite <- C.
              assert (PB : parse_block f reg content start_pos [] (bp + 1) = Done ([], [])) by (destruct f; reflexivity).
              rewrite PB. cbn [bind fst snd]. exists [PBad None]. split; [reflexivity|]. split; [now split|]. right.
              split; [constructor; [intros []|constructor]|]. exists [], [Diag [92%N] (start_pos + bp) EmptyOverride]. split; [reflexivity|].
              apply (by_bad who (start_pos + bp) None). constructor.
           ++ assert (ND' : ~ letter d /\ ~ digit d) by (split; intros Q; [apply NL|apply ND]; now exists d, r').
              destruct (IH content (u ++ [92%N; d]) r' (bp + 1 + len_utf8 d)) as (ps & -> & OK & R).
              ** rewrite C, <- app_assoc. reflexivity.
              ** rewrite blen_app. cbn [blen]. change (len_utf8 92) with 1. lia.
              ** cbn [List.length] in L. lia.
              ** exists (PBad (Some d) :: ps). split; [reflexivity|]. split; [now split|].
                 assert (MIN : Nat.min (bp + 2) (blen content) = bp + 2).
                 { rewrite C, blen_app. cbn [blen]. change (len_utf8 92) with 1. pose proof (len_utf8_pos d). lia. }
                 rewrite MIN. destruct (N.ltb_spec d 128) as [LT|GE].
                 --- rewrite C. change (92%N :: d :: pieces_text ps) with ([92%N; d] ++ pieces_text ps).
                     rewrite (slice_at u [92%N; d]); [|exact BP|cbn [blen]; change (len_utf8 92) with 1; apply len1 in LT; lia]. cbn [or_crash bind].
                     change (u ++ [92%N; d] ++ pieces_text ps) with (u ++ 92%N :: d :: pieces_text ps). rewrite <- C.
                     destruct R as [[X ->]|[X (ts & ds & -> & R)]].
                     +++ left. split; [now right|reflexivity].
                     +++ right. split; [constructor; [cbn; lia|exact X]|]. cbn [bind fst snd]. exists ts, (Diag [92%N; d] (start_pos + bp) EmptyOverride :: ds). split; [reflexivity|].
                         apply (by_bad who (start_pos + bp) (Some d)). cbn [piece_text blen]. change (len_utf8 92) with 1.
                         replace (start_pos + bp + (1 + (len_utf8 d + 0))) with (start_pos + (bp + 1 + len_utf8 d)) by lia. exact R.
                 --- left. split; [left; exact GE|]. rewrite C, BP, slice_mid by exact GE. reflexivity.
        -- (* a tag *)
           destruct K as [[K _]|K]; [discriminate|].
           set (n := n0 :: n') in *. assert (NN : n <> []) by discriminate.
           assert (CN : content = (u ++ [92%N]) ++ n ++ rest1) by (rewrite C, E, <- app_assoc; reflexivity).
           assert (BU : bp + 1 = blen (u ++ [92%N])) by (rewrite blen_app; cbn [blen]; change (len_utf8 92) with 1; lia).
           assert (SN : slice content (bp + 1) (bp + 1 + blen n) = Some n) by (rewrite CN; apply slice_at; lia).
           rewrite SN. cbn [or_crash bind].
           destruct (args_scan n rest1 (bp + 1 + blen n)) as (a & after & EA & HA & AA). rewrite HA.
           assert (SA : slice content (bp + 1 + blen n) (bp + 1 + blen n + blen a) = Some a).
           { rewrite CN, EA, app_assoc. apply slice_at; rewrite !blen_app in *; cbn [blen] in *; lia. }
           assert (SS : slice content bp (bp + 1 + blen n + blen a) = Some (92%N :: n ++ a)).
           { rewrite CN, EA. replace ((u ++ [92%N]) ++ n ++ a ++ after) with (u ++ (92%N :: n ++ a) ++ after) by (rewrite <- !app_assoc; cbn [app]; rewrite <- !app_assoc; reflexivity).
             apply slice_at; [exact BP|]. cbn [blen]. rewrite blen_app. change (len_utf8 92) with 1. lia. }
           rewrite SA. cbn [or_crash bind]. rewrite SS. cbn [or_crash bind].
           destruct (IH content (u ++ 92%N :: n ++ a) after (bp + 1 + blen n + blen a)) as (ps & -> & OK & R).
           ++ rewrite CN, EA, <- !app_assoc. cbn [app]. rewrite <- !app_assoc. reflexivity.
           ++ rewrite blen_app. cbn [blen]. rewrite blen_app. change (len_utf8 92) with 1. lia.
           ++ rewrite EA, app_length in L. lia.
           ++ exists (PTag n a :: ps). split; [rewrite EA; cbn [pieces_text flat_map piece_text app]; rewrite <- app_assoc; reflexivity|].
              split; [split; [|exact OK]; split; [rewrite <- EA; exact K|exact AA]|].
              destruct R as [[X ->]|[X (ts & ds & -> & R)]].
              ** left. split; [now right|reflexivity].
              ** right. split; [constructor; [intros []|exact X]|]. cbn [bind].
                 assert (R' : reported_by who (start_pos + bp + blen (piece_text (PTag n a))) ps ts ds).
                 { cbn [piece_text blen]. rewrite blen_app. change (len_utf8 92) with 1. replace (start_pos + bp + (1 + (blen n + blen a))) with (start_pos + (bp + 1 + blen n + blen a)) by lia. exact R. }
                 destruct (record_by reg who n a rest1 (start_pos + bp) K WHO) as [[W ->]|[(m & v & W & V & ->)|(v & W & V & ->)]]; cbn [fst snd app].
                 --- eexists _, _. split; [reflexivity|]. now apply by_accept.
                 --- eexists _, _. split; [reflexivity|]. now apply (by_reject who _ n a m).
                 --- eexists _, _. split; [reflexivity|]. now apply by_none.
    + assert (NB : c <> 92%N) by (intros Q; apply bs_iff in Q; congruence).
      destruct (IH content (u ++ [c]) r (bp + len_utf8 c)) as (ps & -> & OK & R).
      * rewrite C, <- app_assoc. reflexivity.
      * rewrite blen_app. cbn [blen]. lia.
      * cbn [List.length] in L. lia.
      * exists (PChar c :: ps). split; [reflexivity|]. split; [now split|].
        destruct R as [[X ->]|[X (ts & ds & -> & R)]]; [left; split; [now right|reflexivity]|right].
        split; [constructor; [intros []|exact X]|]. exists ts, ds. split; [reflexivity|]. constructor. rewrite <- Nat.add_assoc. exact R.
Qed.
Lemma block_by reg who ps start_pos : answers reg who -> pieces_ok ps -> result_by who start_pos 0 ps (parse_override_block_with reg (pieces_text ps) start_pos).
Proof.
  intros W K. destruct (parse_block_by reg who start_pos W (List.length (pieces_text ps)) (pieces_text ps) [] (pieces_text ps) 0 eq_refl eq_refl (le_n _)) as (ps' & A & B & C).
  apply (pieces_unique _ _ K B) in A. subst ps'. exact C.
Qed.

(* ---- registering ---- *)
Definition register (l : list handler) : list PluginModel.reg_call := map (fun h => PluginModel.RegisterTag (boxed h)) l.
Lemma owner_some l n h : NoDup (map h_name l) -> In h l -> h_name h = n -> tag_owner n (rev (register l)) = Some (boxed h).
Proof.
  induction l as [|x l IH] using rev_ind; intros ND I E; [destruct I|]. unfold register. rewrite map_app, rev_app_distr. cbn [map rev app tag_owner]. fold (register l).
  rewrite map_app in ND. cbn [map] in ND. pose proof (NoDup_remove_1 _ _ _ ND) as ND1. pose proof (NoDup_remove_2 _ _ _ ND) as ND2. rewrite app_nil_r in ND1, ND2.
  apply in_app_or in I as [I|[->|[]]].
  - now rewrite (IH ND1 I E).
  - assert (K : tag_owner n (rev (register l)) = None).
    { subst n. revert ND2. clear. intros H. induction l as [|y l IH] using rev_ind; [reflexivity|]. unfold register. rewrite map_app, rev_app_distr. cbn [map rev app tag_owner]. fold (register l).
      rewrite map_app, in_app_iff in H. rewrite IH by tauto. change (PluginModel.th_name (boxed y)) with (h_name y). destruct (str_eqb (h_name y) (h_name h)) eqn:Q; [|reflexivity].
      apply str_eqb_eq in Q. exfalso. apply H. right. now left. }
    rewrite K. change (PluginModel.th_name (boxed h)) with (h_name h). rewrite E, str_eqb_refl. reflexivity.
Qed.
Lemma owner_none l n : (forall h, In h l -> h_name h <> n) -> tag_owner n (rev (register l)) = None.
Proof.
  induction l as [|y l IH] using rev_ind; intros H; [reflexivity|]. unfold register. rewrite map_app, rev_app_distr. cbn [map rev app tag_owner]. fold (register l).
  rewrite IH by (intros h I; apply H; apply in_or_app; now left). change (PluginModel.th_name (boxed y)) with (h_name y).
  destruct (str_eqb (h_name y) n) eqn:Q; [|reflexivity]. apply str_eqb_eq in Q. exfalso. apply (H y); [apply in_or_app; right; now left|exact Q].
Qed.
Lemma all_registered l : NoDup (map h_name l) -> forall done, (forall h, In h l -> tag_owner (h_name h) done = None) ->
  right_answers done (register l) = map (fun _ => PluginModel.Registered) l.
Proof.
  induction l as [|x l IH]; intros ND done F; [reflexivity|]. cbn [register map right_answers right_answer]. fold (register l). inversion ND as [|? ? NI ND']. subst.
  change (PluginModel.th_name (boxed x)) with (h_name x). rewrite (F x (or_introl eq_refl)). f_equal. apply IH; [exact ND'|]. intros h I. cbn [tag_owner]. rewrite (F h (or_intror I)).
  change (PluginModel.th_name (boxed x)) with (h_name x). destruct (str_eqb (h_name x) (h_name h)) eqn:Q; [|reflexivity]. apply str_eqb_eq in Q. exfalso. apply NI. rewrite Q. now apply in_map.
Qed.
Lemma builtin_names : NoDup (map h_name builtin).
Proof. apply nodupb_ok. vm_compute. reflexivity. Qed.
Lemma follow_in (l : list handler) rs h : Forall2 follows l rs -> In h l -> exists r, In r rs /\ follows h r.
Proof. intros H. induction H as [|x r l rs A B IH]; intros I; [destruct I|]. destruct I as [->|I]; [exists r; split; [now left|exact A]|]. destruct (IH I) as (q & J & K). exists q. split; [now right|exact K]. Qed.
Lemma rule_in (l : list handler) rs r : Forall2 follows l rs -> In r rs -> exists h, In h l /\ follows h r.
Proof. intros H. induction H as [|x q l rs A B IH]; intros I; [destruct I|]. destruct I as [->|I]; [exists x; split; [now left|exact A]|]. destruct (IH I) as (h & J & K). exists h. split; [now right|exact K]. Qed.
Lemma perm_names l : Permutation l builtin -> NoDup (map h_name l).
Proof. intros P. eapply Permutation_NoDup; [apply Permutation_map, Permutation_sym; exact P|exact builtin_names]. Qed.
Lemma builtin_answers l n a : Permutation l builtin -> answered n a (PluginModel.process_tag n a (fst (PluginModel.reg_run PluginModel.new_registry (register l)))).
Proof.
  intros P. destruct (registry_lookup (register l)) as (H & _). rewrite H. clear H.
  destruct (existsb (fun h => str_eqb (h_name h) n) l) eqn:X.
  - apply existsb_exists in X as (h & I & E). apply str_eqb_eq in E. rewrite (owner_some l n h (perm_names l P) I E). cbn [option_map boxed PluginModel.th_process].
    destruct (follow_in _ _ h builtin_follows (Permutation_in _ P I)) as (r & J & NM & F). destruct (F a) as (b & _ & B & ->). rewrite E in NM. destruct b.
    + apply (ans_accept _ _ r J NM). now apply B.
    + apply (ans_reject _ _ r J NM). intros K. apply B in K. discriminate.
  - assert (NO : forall h, In h l -> h_name h <> n).
    { intros h I E. assert (existsb (fun h => str_eqb (h_name h) n) l = true) by (apply existsb_exists; exists h; split; [exact I|rewrite E; apply str_eqb_refl]). congruence. }
    rewrite (owner_none l n NO). cbn [option_map]. apply ans_nobody. intros r J E. destruct (rule_in _ _ r builtin_follows J) as (h & I & NM & _).
    apply (NO h); [exact (Permutation_in _ (Permutation_sym P) I)|congruence].
Qed.
Lemma answered_fun n a v w : answered n a v -> answered n a w -> v = w.
Proof.
  assert (U : forall r s, In r rules -> In s rules -> lit (ru_name r) = lit (ru_name s) -> r = s).
  { assert (ND : NoDup (map (fun r => lit (ru_name r)) rules)) by (apply nodupb_ok; vm_compute; reflexivity).
    revert ND. generalize rules. induction l as [|x l IH]; intros ND r s I J E; [destruct I|]. cbn [map] in ND. inversion ND as [|? ? NI ND']. subst.
    destruct I as [->|I], J as [->|J]; [reflexivity| | |now apply IH]; exfalso; apply NI; apply in_map_iff; [exists s|exists r]; now split. }
  intros A B. destruct A as [r I E K|r I E K|K], B as [s J F L|s J F L|L]; try reflexivity; try (exfalso; eapply K; eassumption); try (exfalso; eapply L; eassumption);
    assert (r = s) as -> by (apply U; congruence); try contradiction; reflexivity.
Qed.

(* ---- sections ---- *)
Lemma nocase_iff a b : eq_nocase a b = true <-> Forall2 same_letter a b.
Proof.
  unfold eq_nocase. rewrite str_eqb_eq. revert b. induction a as [|c a IH]; intros [|d b]; cbn [map]; try (split; [discriminate|intros H; inversion H]); [split; constructor|].
  assert (L : ascii_lower c = ascii_lower d <-> same_letter c d).
  { unfold ascii_lower, is_upper, same_letter. destruct (N.leb_spec 65 c), (N.leb_spec c 90), (N.leb_spec 65 d), (N.leb_spec d 90); cbn [andb]; lia. }
  split.
  - intros H. injection H as H1 H2. constructor; [now apply L|now apply IH].
  - intros H. inversion H. subst. f_equal; [now apply L|now apply IH].
Qed.
Lemma project_iff ls : (project_lines ls = PluginModel.Processed /\ Forall (padded project_line) ls) \/
  (project_lines ls = PluginModel.Failed (lit "Invalid Aegisub project line format (expected key=value or key: value)") /\ ~ Forall (padded project_line) ls).
Proof.
  induction ls as [|x ls IH]; [left; split; [reflexivity|constructor]|]. cbn [project_lines].
  assert (C : forall c, existsb (N.eqb c) (trim x) = true <-> In c (trim x)).
  { intros c. rewrite existsb_exists. split; [intros (d & I & E); apply N.eqb_eq in E; now subst|intros I; exists c; split; [exact I|apply N.eqb_refl]]. }
  assert (GO : forall (OK : padded project_line x), (project_lines ls = PluginModel.Processed /\ Forall (padded project_line) (x :: ls)) \/
     (project_lines ls = PluginModel.Failed (lit "Invalid Aegisub project line format (expected key=value or key: value)") /\ ~ Forall (padded project_line) (x :: ls))).
  { intros OK. destruct IH as [[A B]|[A B]]; [left; split; [exact A|now constructor]|right; split; [exact A|]]. intros H. inversion H. contradiction. }
  destruct (is_nil (trim x)) eqn:E1; [apply is_nil_iff in E1; apply GO, padded_iff; now left|]. cbn [orb].
  destruct (starts_with (lit "!") (trim x)) eqn:E2; [apply starts_with_spec in E2 as (r & E2); apply GO, padded_iff; right; left; now exists r|].
  destruct (existsb (N.eqb 61) (trim x)) eqn:E3; cbn [negb andb]; [apply GO, padded_iff; right; right; left; now apply C|].
  destruct (existsb (N.eqb 58) (trim x)) eqn:E4; cbn [negb andb]; [apply GO, padded_iff; right; right; right; now apply C|].
  right. split; [reflexivity|]. intros H. inversion H as [|? ? K _]. subst. apply padded_iff in K. destruct K as [K|[(r & K)|[K|K]]].
  - rewrite K in E1. discriminate.
  - assert (starts_with (lit "!") (trim x) = true) by (apply starts_with_spec; now exists r). congruence.
  - apply C in K. congruence.
  - apply C in K. congruence.
Qed.
Lemma extradata_iff ls : (extradata_lines ls = PluginModel.Processed /\ Forall (padded short_line) ls) \/
  (extradata_lines ls = PluginModel.Failed (lit "Extradata line exceeds maximum length") /\ ~ Forall (padded short_line) ls).
Proof.
  induction ls as [|x ls IH]; [left; split; [reflexivity|constructor]|]. cbn [extradata_lines].
  assert (GO : forall (OK : padded short_line x), (extradata_lines ls = PluginModel.Processed /\ Forall (padded short_line) (x :: ls)) \/
     (extradata_lines ls = PluginModel.Failed (lit "Extradata line exceeds maximum length") /\ ~ Forall (padded short_line) (x :: ls))).
  { intros OK. destruct IH as [[A B]|[A B]]; [left; split; [exact A|now constructor]|right; split; [exact A|]]. intros H. inversion H. contradiction. }
  destruct (is_nil (trim x)) eqn:E1; [apply is_nil_iff in E1; apply GO, padded_iff; rewrite E1; unfold short_line; cbn; lia|].
  destruct (N.ltb_spec 10000 (N.of_nat (blen (trim x)))) as [L|L]; [|apply GO, padded_iff; exact L].
  right. split; [reflexivity|]. intros H. inversion H as [|? ? K _]. subst. apply padded_iff in K. unfold short_line in K. lia.
Qed.

(* ---- the editor's registration ---- *)
Fixpoint register_flat (l : list (string * handler)) (r : PluginModel.registry) : PluginModel.registry * option string :=
  match l with
  | [] => (r, None)
  | (g, h) :: l' => let '(r1, ok) := PluginModel.register_tag_handler (boxed h) r in if ok then register_flat l' r1 else (r1, Some g)
  end.
Lemma groups_flat gs : forall r, register_groups gs r = register_flat (flat_map (fun g => map (pair (fst g)) (snd g)) gs) r.
Proof.
  induction gs as [|[g l] gs IH]; intros r; [reflexivity|]. cbn [register_groups flat_map fst snd]. revert r. induction l as [|h l IHl]; intros r; cbn [register_group map app register_flat].
  - apply IH.
  - destruct (PluginModel.register_tag_handler (boxed h) r) as [r1 [|]]; [apply IHl|reflexivity].
Qed.
Notation look n r := (PluginModel.hm_get n (PluginModel.tag_handlers r)).
Definition names_of (l : list (string * handler)) : list str := map (fun p => h_name (snd p)) l.
Lemma flat_exact l : NoDup (names_of l) -> forall r, exists pre rest, l = pre ++ rest /\
  (forall g h, In (g, h) pre -> look (h_name h) r = None /\ look (h_name h) (fst (register_flat l r)) = Some (boxed h)) /\
  (forall n, ~ In n (names_of pre) -> look n (fst (register_flat l r)) = look n r) /\
  PluginModel.section_processors (fst (register_flat l r)) = PluginModel.section_processors r /\
  match rest with [] => snd (register_flat l r) = None | (g, h) :: _ => snd (register_flat l r) = Some g /\ look (h_name h) r <> None end.
Proof.
  induction l as [|[g h] l IH]; intros ND r.
  - exists [], []. repeat split; intros; try contradiction; reflexivity.
  - cbn [names_of map snd] in ND. fold (names_of l) in ND. inversion ND as [|? ? NI ND']. subst. cbn [register_flat]. unfold PluginModel.register_tag_handler, PluginModel.hm_has.
    change (PluginModel.th_name (boxed h)) with (h_name h). destruct (look (h_name h) r) as [old|] eqn:E.
    + exists [], ((g, h) :: l). cbn [fst snd]. repeat split; intros; try contradiction. rewrite E. discriminate.
    + set (r1 := PluginModel.Registry _ _). assert (G : forall n, look n r1 = if str_eqb (h_name h) n then Some (boxed h) else look n r) by (intros n; apply get_inserted).
      destruct (IH ND' r1) as (pre & rest & EL & P & O & S0 & R). exists ((g, h) :: pre), rest.
      assert (NP : forall m, In m (names_of l) -> str_eqb (h_name h) m = false) by (intros m I; apply str_eqb_neq; intros <-; contradiction).
      assert (INP : forall g' h', In (g', h') (pre ++ rest) -> In (h_name h') (names_of l)) by (intros g' h' I; rewrite EL; apply (in_map (fun p => h_name (snd p)) _ (g', h') I)).
      split; [now rewrite EL|]. split; [|split; [|split; [exact S0|]]].
      * intros g' h' [Q|I].
        -- injection Q as <- <-. split; [exact E|]. rewrite O, G, str_eqb_refl; [reflexivity|]. intros K. apply NI. rewrite EL. unfold names_of. rewrite map_app. apply in_or_app. now left.
        -- destruct (P g' h' I) as [A B]. split; [|exact B]. rewrite G, (NP (h_name h')) in A; [exact A|]. apply (INP g' h'). apply in_or_app. now left.
      * intros n K. cbn [names_of map snd In] in K. fold (names_of pre) in K. rewrite O by tauto. rewrite G. destruct (str_eqb (h_name h) n) eqn:Q; [|reflexivity]. apply str_eqb_eq in Q. exfalso. tauto.
      * destruct rest as [|[g' h'] rest]; [exact R|]. destruct R as [A B]. split; [exact A|]. rewrite G, (NP (h_name h')) in B; [exact B|]. apply (INP g' h'). apply in_or_app. right. now left.
Qed.
Definition flat_builtin : list (string * handler) := flat_map (fun g => map (pair (fst g)) (snd g)) builtin_groups.
Lemma flat_names : map (fun p => (fst p, h_name (snd p))) flat_builtin = map (fun p => (fst p, lit (snd p))) in_order.
Proof. reflexivity. Qed.
Lemma flat_nodup : NoDup (names_of flat_builtin).
Proof. apply nodupb_ok. vm_compute. reflexivity. Qed.
Lemma flat_in g h : In (g, h) flat_builtin -> In h builtin.
Proof.
  intros I. unfold flat_builtin in I. apply in_flat_map in I. destruct I as ([g' l] & A & B). cbn [fst snd] in B. apply in_map_iff in B. destruct B as (x & Q & B). injection Q as <- ->.
  unfold builtin. rewrite !in_app_iff. unfold builtin_groups in A.
  repeat (destruct A as [A|A]; [injection A as <- <-; tauto|]). destruct A.
Qed.
Lemma flat_answers g h a : In (g, h) flat_builtin -> answered (h_name h) a (Some (PluginModel.th_process (boxed h) a)).
Proof.
  intros I. pose proof (builtin_answers builtin (h_name h) a (Permutation_refl _)) as K. destruct (registry_lookup (register builtin)) as (H & _). rewrite H in K.
  rewrite (owner_some builtin (h_name h) h builtin_names (flat_in g h I) eq_refl) in K. exact K.
Qed.
Lemma registers_exact r : exists pre rest, in_order = pre ++ rest /\
  (forall g n a, In (g, n) pre -> PluginModel.process_tag (lit n) a r = None /\ answered (lit n) a (PluginModel.process_tag (lit n) a (fst (register_builtin_handlers r)))) /\
  (forall n a, (forall g m, In (g, m) pre -> n <> lit m) -> PluginModel.process_tag n a (fst (register_builtin_handlers r)) = PluginModel.process_tag n a r) /\
  PluginModel.section_processors (fst (register_builtin_handlers r)) = PluginModel.section_processors r /\
  match rest with [] => snd (register_builtin_handlers r) = None | (g, n) :: _ => snd (register_builtin_handlers r) = Some g /\ PluginModel.process_tag (lit n) [] r <> None end.
Proof.
  unfold register_builtin_handlers. rewrite groups_flat. fold flat_builtin. destruct (flat_exact flat_builtin flat_nodup r) as (pre & rest & E & P & O & S0 & R). set (out := register_flat flat_builtin r) in *. clearbody out.
  pose proof flat_names as F. rewrite E, map_app in F.
  assert (L : exists pre' rest', in_order = pre' ++ rest' /\ map (fun p => (fst p, h_name (snd p))) pre = map (fun p => (fst p, lit (snd p))) pre' /\
    map (fun p => (fst p, h_name (snd p))) rest = map (fun p => (fst p, lit (snd p))) rest').
  { symmetry in F. apply map_eq_app in F. destruct F as (x & y & A & B & C). exists x, y. split; [exact A|]. split; congruence. }
  destruct L as (pre' & rest' & A & B & C). exists pre', rest'. split; [exact A|].
  assert (IN : forall g n, In (g, n) pre' -> exists h, In (g, h) pre /\ h_name h = lit n).
  { intros g n I. assert (J : In (g, lit n) (map (fun p => (fst p, h_name (snd p))) pre)) by (rewrite B; apply in_map_iff; exists (g, n); now split).
    apply in_map_iff in J. destruct J as ([g' h] & Q & J). cbn [fst snd] in Q. injection Q as -> Q. now exists h. }
  split; [|split; [|split; [exact S0|]]].
  - intros g n a I. destruct (IN g n I) as (h & J & <-). destruct (P g h J) as [P1 P2]. unfold PluginModel.process_tag. rewrite P1, P2. split; [reflexivity|]. apply (flat_answers g). rewrite E. apply in_or_app. now left.
  - intros n a H. unfold PluginModel.process_tag. rewrite O; [reflexivity|]. intros K. unfold names_of in K. apply in_map_iff in K. destruct K as ([g h] & <- & K). cbn [snd] in H.
    assert (J : In (g, h_name h) (map (fun p => (fst p, lit (snd p))) pre')) by (rewrite <- B; apply in_map_iff; exists (g, h); now split).
    apply in_map_iff in J. destruct J as ([g' m] & Q & J). cbn [fst snd] in Q. injection Q as _ Q. exact (H g' m J (eq_sym Q)).
  - destruct rest as [|[g h] rest], rest' as [|[g' n] rest']; try discriminate C; [exact R|]. cbn [map fst snd] in C. injection C as -> C _. destruct R as [R1 R2]. split; [exact R1|]. unfold PluginModel.process_tag. rewrite <- C. destruct (look (h_name h) r); [discriminate|contradiction].
Qed.
