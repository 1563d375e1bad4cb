(* The built-in tag handlers and section processors. *)
From Verif Require Import TagSpec HandlerModel HandlerSpec HandlerBlockSpec HandlerProofs HandlerBlock BaseLemmas ParseModel TagProofs PluginProps PluginSpec.
From Verif Require TagModel PluginModel.
Notation Processed := PluginModel.Processed.
Notation Ignored := PluginModel.Ignored.
Notation Failed := PluginModel.Failed.
Local Open Scope nat_scope.

(* ---- C151: what each handler accepts ---- *)
(* Handler by handler: the name, and for all arguments the same decision by
   validation and processing, which is the rule's; the message is fixed.
   Neither panics, and no handler ignores a tag. *)
Theorem handlers_exact : Forall2 (fun h r => h_name h = lit (ru_name r) /\
    forall args, exists b, h_validate h args = Ok b /\ (b = true <-> padded (ru_accepts r) args) /\
      h_process h args = Ok (if b then Processed else Failed (lit (ru_message r)))) builtin rules.
Proof. exact builtin_follows. Qed.
Print Assumptions handlers_exact.
Example handlers_instance :
  h_process pos_handler (lit " 10.5 , -20 ") = Ok Processed /\ h_process pos_handler (lit "10.,20") = Ok (Failed (lit "Position tag requires (x,y) coordinates")) /\
  h_validate fade_handler (lit "(255,32,+0,0,500,2000,-0)") = Ok true /\ h_validate fade_handler (lit "(256,32,0,0,500,2000,2200)") = Ok false /\
  h_validate clip_handler (lit "(1, m 0 0 l 9 9)") = Ok true /\ h_validate clip_handler (lit "(1,2,3,m)") = Ok false /\
  h_validate (color_handler "1c") (lit " &H00fF00&") = Ok true /\ h_validate b_handler (lit "700") = Ok true /\ h_validate b_handler (lit "750") = Ok false /\
  h_validate fs_handler (lit "1e-60") = Ok false /\ h_validate bord_handler (lit "-0") = Ok true /\ List.length builtin = 47.
Proof. vm_compute. repeat split. Qed.
(* White space around the arguments never matters. *)
Theorem handlers_trim : forall h args a b, In h builtin -> Forall (fun x => is_ws x = true) a -> Forall (fun x => is_ws x = true) b ->
  h_validate h (a ++ args ++ b) = h_validate h args /\ h_process h (a ++ args ++ b) = h_process h args.
Proof.
  intros h args a b I A B. destruct (follow_in _ _ h builtin_follows I) as (r & _ & _ & F).
  assert (T : trim (a ++ args ++ b) = trim args).
  { destruct (trim_spec args) as (x & y & E & X & Y). rewrite E at 1.
    replace (a ++ (x ++ trim args ++ y) ++ b) with ((a ++ x) ++ trim args ++ y ++ b) by (rewrite <- !app_assoc; reflexivity).
    apply trim_app_ws; [rewrite forallb_app; now rewrite X, (proj1 (ws_forall a) A)|rewrite forallb_app; now rewrite Y, (proj1 (ws_forall b) B)|apply trim_idem]. }
  destruct (F args) as (v & V & VI & VP), (F (a ++ args ++ b)) as (w & W & WI & WP). rewrite padded_iff in VI, WI. rewrite T in WI.
  assert (v = w) as -> by (destruct v, w; try reflexivity; [symmetry; apply WI, VI; reflexivity|apply VI, WI; reflexivity]).
  rewrite V, W, VP, WP. now split.
Qed.
Print Assumptions handlers_trim.
Example handlers_trim_instance : Forall (fun x => is_ws x = true) [32; 160; 12288]%N /\ In org_handler builtin /\ h_validate org_handler ([32; 160; 12288]%N ++ lit "(1,2)" ++ [10%N]) = Ok true.
Proof. split; [repeat constructor|]. split; [apply (nth_error_In builtin 33); reflexivity|vm_compute; reflexivity]. Qed.
(* An infinite size or width passes for a positive number. *)
Theorem handlers_finite_refuted : h_process fs_handler (lit "inf") = Ok Processed /\ h_process bord_handler (lit "infinity") = Ok Processed /\ h_process fs_handler (lit "1e39") = Ok Processed.
Proof. vm_compute. repeat split. Qed.
Print Assumptions handlers_finite_refuted.

(* ---- C152: registering them and reading blocks with them ---- *)
(* In whatever order all of them are registered, none is refused; a name is
   then answered by the rule of that name, and any other name by nobody. *)
Theorem handlers_registered : forall l, Permutation l builtin ->
  let run := PluginModel.reg_run PluginModel.new_registry (map (fun h => PluginModel.RegisterTag (boxed h)) l) in
  Forall (eq PluginModel.Registered) (snd run) /\ List.length (snd run) = List.length rules /\
  (forall n a, answered n a (PluginModel.process_tag n a (fst run))) /\
  (forall n, PluginModel.has_tag_handler n (fst run) = true <-> exists r, In r rules /\ n = lit (ru_name r)).
Proof.
  intros l P run. change (map (fun h => PluginModel.RegisterTag (boxed h)) l) with (register l) in run.
  assert (S0 : snd run = map (fun _ => PluginModel.Registered) l) by (unfold run; rewrite registry_answers; apply all_registered; [now apply perm_names|reflexivity]).
  split; [rewrite S0; apply Forall_forall; intros x I; apply in_map_iff in I as (h & <- & _); reflexivity|].
  split; [rewrite S0, map_length; rewrite (Permutation_length P); reflexivity|].
  assert (ANS : forall n a, answered n a (PluginModel.process_tag n a (fst run))) by (intros n a; now apply builtin_answers).
  split; [exact ANS|]. intros n. specialize (ANS n []). unfold PluginModel.has_tag_handler, PluginModel.hm_has, PluginModel.process_tag in *.
  destruct (PluginModel.hm_get n (PluginModel.tag_handlers (fst run))) as [h|]; cbn [option_map] in ANS.
  - split; [|reflexivity]. intros _. inversion ANS; subst; now exists r.
  - split; [discriminate|]. intros (r & I & E). inversion ANS as [| |NO]. exfalso. exact (NO r I E).
Qed.
Print Assumptions handlers_registered.
(* The answer to a tag is determined by its name and arguments. *)
Theorem answer_unique : forall n a v w, answered n a v -> answered n a w -> v = w.
Proof. exact answered_fun. Qed.
Print Assumptions answer_unique.
(* Reading a block with them: every text is a sequence of pieces
   (block_pieces), and this is what is reported for it. *)
Theorem block_with_handlers : forall l ps o, Permutation l builtin -> pieces_ok ps ->
  let reg := parser_view (fst (PluginModel.reg_run PluginModel.new_registry (map (fun h => PluginModel.RegisterTag (boxed h)) l))) in
  (Exists splits_char ps /\ parse_override_block_with reg (pieces_text ps) o = Crash) \/
  (Forall (fun p => ~ splits_char p) ps /\ exists ts ds, parse_override_block_with reg (pieces_text ps) o = Done (ts, ds) /\ reported_by answered o ps ts ds).
Proof.
  intros l ps o P K reg. assert (W : answers reg answered) by (intros n a; eexists; split; [exact (builtin_answers l n a P)|reflexivity]).
  pose proof (block_by reg answered ps o W K) as H. unfold result_by in H. rewrite Nat.add_0_r in H. exact H.
Qed.
Print Assumptions block_with_handlers.
Definition with_builtin : TagModel.registry := parser_view (fst (PluginModel.reg_run PluginModel.new_registry (map (fun h => PluginModel.RegisterTag (boxed h)) builtin))).
Example block_with_handlers_instance : parse_override_block_with with_builtin (lit "\b1\fs-3\blur2\an5") 7 =
  Done ([Tag (lit "b") (lit "1") 2 7; Tag (lit "fs") (lit "-3") 1 10; Tag (lit "blur") (lit "2") 2 15; Tag (lit "an") (lit "5") 2 21]%N, [Diag (lit "\fs-3") 10 MalformedTag]).
Proof. vm_compute. reflexivity. Qed.
(* Written the way scripts write them, positions, movements and colours
   without the closing ampersand are reported as malformed. *)
Theorem standard_tags_refuted :
  parse_override_block_with with_builtin (lit "\pos(10,20)") 0 = Done ([Tag (lit "pos") (lit "(10,20)") 2 0]%N, [Diag (lit "\pos(10,20)") 0 MalformedTag]) /\
  parse_override_block_with with_builtin (lit "\move(1,2,3,4)") 0 = Done ([Tag (lit "move") (lit "(1,2,3,4)") 3 0]%N, [Diag (lit "\move(1,2,3,4)") 0 MalformedTag]) /\
  parse_override_block_with with_builtin (lit "\c&HFFFFFF") 0 = Done ([Tag (lit "c") (lit "&HFFFFFF") 1 0]%N, [Diag (lit "\c&HFFFFFF") 0 MalformedTag]).
Proof. vm_compute. repeat split. Qed.
Print Assumptions standard_tags_refuted.
(* No bracketed position or movement is ever accepted. *)
Theorem bracketed_position_rejected : forall m b n args, (n = lit "pos" \/ n = lit "move") -> args = 40%N :: m -> ~ answered n (args ++ b) (Some Processed).
Proof.
  intros m b n args N -> H. cbn [app] in H.
  assert (NC : forall s, ~ coordinate (40%N :: s)).
  { intros s (sg & neg & i & f & SG & NE & D & E). destruct i as [|x i]; [congruence|]. cbn [app] in D. inversion D as [|? ? DX _]. subst. unfold decimal_digit in DX.
    apply sign_cases in SG as [[-> _]|[[-> _]|[-> _]]]; destruct E as [[E _]|[E _]]; cbn [app] in E; injection E as E _; subst; try lia; discriminate. }
  assert (NP : forall s, ~ padded coordinate (40%N :: s)).
  { intros s (x & c & y & E & X & _ & _ & K). destruct x as [|w x]; [|cbn [app] in E; injection E as <- _; inversion X; discriminate]. cbn [app] in E.
    destruct c as [|c0 c]; [apply is_numeric_iff in K; discriminate|].
    cbn [app] in E. injection E as <- _. exact (NC _ K). }
  assert (NL : forall k s, ~ comma_list (coordinate :: k) (40%N :: s)).
  { intros k s (ws & E & F). inversion F as [|? w ? ws' PW F']. subst. destruct w as [|w0 w].
    - apply padded_iff in PW. apply is_numeric_iff in PW. discriminate.
    - destruct ws' as [|w1 ws']; cbn [join app] in E; injection E as <- _; exact (NP _ PW). }
  assert (NT : forall k s, ~ padded (comma_list (coordinate :: k)) (40%N :: s)).
  { intros k s (x & c & y & E & X & _ & _ & K). destruct x as [|w x]; [|cbn [app] in E; injection E as <- _; inversion X; discriminate]. cbn [app] in E.
    destruct c as [|c0 c]; [|cbn [app] in E; injection E as <- _; exact (NL _ _ K)].
    destruct K as (ws & Q & F). inversion F as [|? w ? ws' PW F']. subst. destruct w as [|w0 w]; [apply padded_iff in PW; apply is_numeric_iff in PW; discriminate|]. destruct ws'; discriminate. }
  inversion H as [r I E K| |]. subst.
  assert (U : forall s, In s rules -> lit (ru_name s) = lit "pos" \/ lit (ru_name s) = lit "move" ->
    ru_accepts s = comma_list [coordinate; coordinate] \/ ru_accepts s = (fun t => comma_list (repeat coordinate 4) t \/ comma_list (repeat coordinate 6) t)).
  { intros s J Q. unfold rules in J. repeat (destruct J as [<-|J]; [destruct Q as [Q|Q]; (discriminate Q || (cbn; tauto))|]). destruct J. }
  destruct (U r I N) as [A|A]; rewrite A in K.
  - exact (NT _ _ K).
  - apply padded_iff in K. destruct K as [K|K]; apply (fun P => proj2 (padded_iff _ _) P) in K; exact (NT _ _ K).
Qed.
Print Assumptions bracketed_position_rejected.

(* ---- C153: the Aegisub sections ---- *)
Theorem project_exact : forall header ls,
  let mine := Forall2 same_letter header (lit "Aegisub Project") in
  (p_validate project_processor header ls = true <-> mine /\ ls <> []) /\
  (p_process project_processor header ls = Ignored <-> ~ mine) /\
  (p_process project_processor header ls = Processed <-> mine /\ Forall (padded project_line) ls) /\
  (forall m, p_process project_processor header ls = Failed m <->
     mine /\ ~ Forall (padded project_line) ls /\ m = lit "Invalid Aegisub project line format (expected key=value or key: value)").
Proof.
  intros header ls mine. assert (M : eq_nocase header (lit "Aegisub Project") = true <-> mine) by apply nocase_iff. clearbody mine. cbn [project_processor p_validate p_process].
  split; [rewrite andb_true_iff, M; destruct ls; cbn; intuition congruence|].
  destruct (eq_nocase header (lit "Aegisub Project")); cbn [negb].
  - assert (MI : mine) by now apply M. pose proof (project_iff ls) as K. revert K. generalize (lit "Invalid Aegisub project line format (expected key=value or key: value)"). intros msg K.
    destruct K as [[-> F]|[-> F]]; (split; [|split; [|intros m]]); split; intros H;
      try discriminate H; try (exfalso; exact (H MI)); try (now split); try (exfalso; exact (F (proj2 H))); try (exfalso; exact (proj1 (proj2 H) F)).
    + injection H as <-. split; [exact MI|split; [exact F|reflexivity]].
    + now destruct H as (_ & _ & ->).
  - assert (NM : ~ mine) by (intros K; apply M in K; discriminate). split; [|split; [|intros m]]; split; intros H; try discriminate H; try reflexivity; try exact NM; exfalso; exact (NM (proj1 H)).
Qed.
Print Assumptions project_exact.
Theorem extradata_exact : forall header ls,
  let mine := Forall2 same_letter header (lit "Aegisub Extradata") in
  (p_validate extradata_processor header ls = true <-> mine) /\
  (p_process extradata_processor header ls = Ignored <-> ~ mine) /\
  (p_process extradata_processor header ls = Processed <-> mine /\ Forall (padded short_line) ls) /\
  (forall m, p_process extradata_processor header ls = Failed m <-> mine /\ ~ Forall (padded short_line) ls /\ m = lit "Extradata line exceeds maximum length").
Proof.
  intros header ls mine. assert (M : eq_nocase header (lit "Aegisub Extradata") = true <-> mine) by apply nocase_iff. clearbody mine. cbn [extradata_processor p_validate p_process].
  split; [exact M|].
  destruct (eq_nocase header (lit "Aegisub Extradata")); cbn [negb].
  - assert (MI : mine) by now apply M. pose proof (extradata_iff ls) as K. revert K. generalize (lit "Extradata line exceeds maximum length"). intros msg K.
    destruct K as [[-> F]|[-> F]]; (split; [|split; [|intros m]]); split; intros H;
      try discriminate H; try (exfalso; exact (H MI)); try (now split); try (exfalso; exact (F (proj2 H))); try (exfalso; exact (proj1 (proj2 H) F)).
    + injection H as <-. split; [exact MI|split; [exact F|reflexivity]].
    + now destruct H as (_ & _ & ->).
  - assert (NM : ~ mine) by (intros K; apply M in K; discriminate). split; [|split; [|intros m]]; split; intros H; try discriminate H; try reflexivity; try exact NM; exfalso; exact (NM (proj1 H)).
Qed.
Print Assumptions extradata_exact.
Example sections_instance :
  p_process project_processor (lit "AEGISUB project") [lit "Active Line: 3"; []; lit " ! note"; lit "k=v"] = Processed /\
  p_process project_processor (lit "Aegisub Project") [lit "k=v"; lit "junk"] = Failed (lit "Invalid Aegisub project line format (expected key=value or key: value)") /\
  p_process project_processor (lit "Other") [lit "junk"] = Ignored /\ p_validate project_processor (lit "Aegisub Project") [] = false /\
  p_process extradata_processor (lit "aegisub extradata") [repeat 97%N (N.to_nat 10001)] = Failed (lit "Extradata line exceeds maximum length") /\
  p_process extradata_processor (lit "aegisub extradata") [repeat 97%N (N.to_nat 10000)] = Processed.
Proof. vm_compute. repeat split. Qed.
Lemma eqb_sym a b : str_eqb a b = str_eqb b a.
Proof. destruct (str_eqb a b) eqn:E, (str_eqb b a) eqn:F; try reflexivity; [apply str_eqb_eq in E; subst; rewrite str_eqb_refl in F; congruence|apply str_eqb_eq in F; subst; rewrite str_eqb_refl in E; congruence]. Qed.
(* Both register, in either order, and answer to their names, in exactly that
   spelling: the registry's lookup does tell letters apart. *)
Theorem sections_registered : forall l, Permutation l create_aegisub_processors ->
  let run := PluginModel.reg_run PluginModel.new_registry (map (fun p => PluginModel.RegisterSection (boxed_processor p)) l) in
  snd run = [PluginModel.Registered; PluginModel.Registered] /\
  (forall n header ls, PluginModel.process_section n header ls (fst run) =
     if str_eqb n (lit "Aegisub Project") then Some (p_process project_processor header ls)
     else if str_eqb n (lit "Aegisub Extradata") then Some (p_process extradata_processor header ls) else None).
Proof.
  intros l P run.
  assert (L : l = [project_processor; extradata_processor] \/ l = [extradata_processor; project_processor]).
  { apply Permutation_sym in P. apply Permutation_length_2_inv in P. destruct P; [now left|now right]. }
  unfold run. destruct L as [->| ->]; (split; [vm_compute; reflexivity|]); intros n header ls;
    match goal with |- context [PluginModel.reg_run _ ?c] => destruct (registry_lookup c) as (_ & H & _) end; rewrite H; cbn [map rev app section_owner boxed_processor PluginModel.sp_name p_name project_processor extradata_processor];
    rewrite !(eqb_sym _ n); destruct (str_eqb n (lit "Aegisub Project")) eqn:A, (str_eqb n (lit "Aegisub Extradata")) eqn:B; try reflexivity;
    apply str_eqb_eq in A; apply str_eqb_eq in B; rewrite A in B; discriminate.
Qed.
Print Assumptions sections_registered.

Lemma forallb_names : forall n, In n (map snd in_order) <-> In n (map ru_name rules).
Proof.
  assert (X : forall l k : list string, forallb (fun x => existsb (String.eqb x) k) l = true -> forall n, In n l -> In n k).
  { intros l k H n I. rewrite forallb_forall in H. specialize (H n I). apply existsb_exists in H. destruct H as (y & J & Q). apply String.eqb_eq in Q. now subst. }
  intros n. split; apply X; vm_compute; reflexivity.
Qed.

(* ---- C154: the editor registers the built-ins in order, up to the first clash ---- *)
(* the tags before the first name already taken are registered and answer by
   the rules; every other tag, and every section, keeps its owner *)
Theorem register_builtin_exact : forall r, let '(r', failed) := register_builtin_handlers r in
  exists before rest, in_order = before ++ rest /\
    (forall g n a, In (g, n) before -> PluginModel.process_tag (lit n) a r = None /\ answered (lit n) a (PluginModel.process_tag (lit n) a r')) /\
    (forall n a, (forall g m, In (g, m) before -> n <> lit m) -> PluginModel.process_tag n a r' = PluginModel.process_tag n a r) /\
    (forall n header ls, PluginModel.process_section n header ls r' = PluginModel.process_section n header ls r) /\
    match rest with [] => failed = None | (g, n) :: _ => failed = Some g /\ PluginModel.process_tag (lit n) [] r <> None end.
Proof.
  intros r. destruct (registers_exact r) as (pre & rest & A & B & C & D & E). destruct (register_builtin_handlers r) as [r' failed]. cbn [fst snd] in *. exists pre, rest.
  repeat (split; [first [assumption|intros; unfold PluginModel.process_section; now rewrite D]|]). exact E.
Qed.
Print Assumptions register_builtin_exact.
(* it succeeds exactly when every built-in name is free, and then every name is
   answered as C151 and C152 say, or by its previous owner *)
Theorem register_builtin_succeeds : forall r,
  (snd (register_builtin_handlers r) = None <-> forall ru, In ru rules -> PluginModel.process_tag (lit (ru_name ru)) [] r = None) /\
  (snd (register_builtin_handlers r) = None -> forall n a,
     PluginModel.process_tag n a (fst (register_builtin_handlers r)) = PluginModel.process_tag n a r \/ answered n a (PluginModel.process_tag n a (fst (register_builtin_handlers r)))) /\
  (snd (register_builtin_handlers r) = None -> forall ru a, In ru rules -> answered (lit (ru_name ru)) a (PluginModel.process_tag (lit (ru_name ru)) a (fst (register_builtin_handlers r)))).
Proof.
  intros r. pose proof (register_builtin_exact r) as K. destruct (register_builtin_handlers r) as [r' failed]. destruct K as (pre & rest & A & B & C & _ & E). cbn [fst snd].
  assert (N1 : forall ru, In ru rules -> exists g, In (g, ru_name ru) in_order).
  { intros ru I. assert (J : In (ru_name ru) (map snd in_order)).
    { assert (J : In (ru_name ru) (map ru_name rules)) by now apply in_map. revert J. generalize (ru_name ru). intros n J. rewrite <- forallb_names in J. exact J. }
    apply in_map_iff in J. destruct J as ([g n] & <- & J). now exists g. }
  assert (N2 : forall g n, In (g, n) in_order -> exists ru, In ru rules /\ ru_name ru = n).
  { intros g n I. assert (J : In n (map snd in_order)) by (apply in_map_iff; exists (g, n); now split). apply forallb_names in J. apply in_map_iff in J. destruct J as (ru & <- & J). now exists ru. }
  assert (Z : failed = None -> pre = in_order).
  { intros ->. destruct rest as [|[g n] rest]; [now rewrite A, app_nil_r|]. destruct E as [E _]. discriminate. }
  split; [split|split].
  - intros F ru I. destruct (N1 ru I) as (g & J). rewrite <- (Z F) in J. exact (proj1 (B _ _ [] J)).
  - intros F. destruct rest as [|[g n] rest]; [exact E|]. destruct E as [_ E]. exfalso. apply E. destruct (N2 g n) as (ru & I & <-); [rewrite A; apply in_or_app; right; now left|]. now apply F.
  - intros F n a. destruct (in_dec (list_eq_dec N.eq_dec) n (map (fun p => lit (snd p)) pre)) as [I|I].
    + right. apply in_map_iff in I. destruct I as ([g m] & <- & I). exact (proj2 (B g m a I)).
    + left. apply C. intros g m J ->. apply I. apply in_map_iff. exists (g, m). now split.
  - intros F ru a I. destruct (N1 ru I) as (g & J). rewrite <- (Z F) in J. exact (proj2 (B _ _ a J)).
Qed.
Print Assumptions register_builtin_succeeds.
(* a second call fails in the first group and changes nothing *)
Theorem register_builtin_twice : forall r, let r' := fst (register_builtin_handlers r) in
  snd (register_builtin_handlers r) = None -> register_builtin_handlers r' = (r', Some "formatting"%string).
Proof.
  intros r r' H. pose proof (register_builtin_exact r) as K. unfold r'. destruct (register_builtin_handlers r) as [r1 f]. cbn [fst snd] in *. destruct K as (pre & rest & A & B & _ & _ & E).
  assert (I : In ("formatting", "b")%string pre). { subst f. destruct rest as [|[g n] rest]; [rewrite app_nil_r in A; rewrite <- A; now left|destruct E; discriminate]. }
  destruct (B _ _ [] I) as [_ Q]. unfold PluginModel.process_tag in Q. destruct (look (lit "b") r1) as [h|] eqn:G.
  - unfold register_builtin_handlers, builtin_groups. cbn [register_groups]. unfold create_formatting_handlers. cbn [register_group]. unfold PluginModel.register_tag_handler at 1, PluginModel.hm_has.
    match goal with |- context [PluginModel.hm_get ?k _] => change k with (lit "b") end. now rewrite G.
  - inversion Q as [| |Hn]. exfalso. assert (J : In "b"%string (map ru_name rules)) by (apply forallb_names; now left).
    apply in_map_iff in J. destruct J as (ru & E1 & J). apply (Hn ru J). now rewrite E1.
Qed.
Print Assumptions register_builtin_twice.
(* Registering the built-in sections leaves out the extradata section. *)
Theorem register_sections_exact : forall r, let '(r', ok) := register_builtin_sections r in
  (ok = true <-> PluginModel.process_section (lit "Aegisub Project") [] [] r = None) /\
  (forall n a, PluginModel.process_tag n a r' = PluginModel.process_tag n a r) /\
  (forall n header ls, PluginModel.process_section n header ls r' =
     if ok && str_eqb n (lit "Aegisub Project") then Some (p_process project_processor header ls) else PluginModel.process_section n header ls r).
Proof.
  intros r. unfold register_builtin_sections, PluginModel.register_section_processor, PluginModel.hm_has. change (PluginModel.sp_name (boxed_processor project_processor)) with (lit "Aegisub Project").
  unfold PluginModel.process_section, PluginModel.process_tag. destruct (PluginModel.hm_get (lit "Aegisub Project") (PluginModel.section_processors r)) as [p|] eqn:G; cbn [andb PluginModel.section_processors PluginModel.tag_handlers].
  - split; [split; discriminate|]. split; reflexivity.
  - split; [split; reflexivity|]. split; [reflexivity|]. intros n header ls. rewrite PluginProofs.get_inserted, (eqb_sym _ n). now destruct (str_eqb n (lit "Aegisub Project")).
Qed.
Print Assumptions register_sections_exact.
Theorem extradata_registered_refuted : ~ (forall p, In p create_aegisub_processors -> forall header ls,
  PluginModel.process_section (p_name p) header ls (fst (register_builtin_sections PluginModel.new_registry)) = Some (p_process p header ls)).
Proof. intros H. specialize (H extradata_processor (or_intror (or_introl eq_refl)) [] []). vm_compute in H. discriminate. Qed.
Print Assumptions extradata_registered_refuted.
(* a plugin that took \\pos first: the six groups before stay, the rest do not come *)
Example register_instance :
  let mine := PluginModel.TagHandler (lit "pos") (fun _ => Processed) in
  let '(r', failed) := register_builtin_handlers (fst (PluginModel.register_tag_handler mine PluginModel.new_registry)) in
  failed = Some "position"%string /\ PluginModel.process_tag (lit "kt") (lit "x") r' <> None /\ PluginModel.process_tag (lit "pos") (lit "junk") r' = Some Processed /\
  PluginModel.process_tag (lit "move") [] r' = None /\ PluginModel.process_tag (lit "c") [] r' = None /\
  snd (register_builtin_handlers PluginModel.new_registry) = None.
Proof. vm_compute. repeat split; discriminate. Qed.
