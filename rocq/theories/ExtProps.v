(* Properties C155-C158: the extension manager. *)
From Verif Require Import Base BaseLemmas NumSpec NumProofs PluginModel PluginProofs ExtModel ExtSpec ExtProofs.
Local Open Scope nat_scope.

(* Extensions to play with: a name, dependencies, command identifiers, how the
   methods end, in turn. *)
Record plug := Plug { pl_name : str; pl_deps : list str; pl_ids : list str; pl_ends : list ending }.
Definition plug_step (p : plug) : script (plug * ending) :=
  Return (match pl_ends p with e :: l => (Plug (pl_name p) (pl_deps p) (pl_ids p) l, e) | [] => (p, Good) end).
Definition plugs : methods plug str := Methods plug str pl_name pl_deps plug_step plug_step (fun p id _ => Return (p, pl_name p ++ id)) (fun p => map (fun i => Command i i false) (pl_ids p)).
Definition quiet := own_context.
Definition whole (t : nat) (r : @request plug) : list (nat * move) := [(t, Begin r); (t, GoOn)].
Definition one (t : nat) (r : @request plug) : list (nat * move) := [(t, Begin r)].

(* ---- C155: clones on any threads, in any interleaving ---- *)
Theorem manager_history : forall X V (K : methods X V) sched g, run K start sched = Moved g ->
  lawful K (past g) /\
  Forall2 (fun ta e => tells (fst ta) (snd ta) e) sched (rev (past g)) /\
  (forall n, In n (list_extensions (shared g)) <-> object K n (past g) <> None) /\ NoDup (list_extensions (shared g)) /\
  (forall n, get_extension_state n (shared g) = status K n (past g)) /\
  (forall id, In id (list_commands (shared g)) <-> owner K id (past g) <> None) /\ NoDup (list_commands (shared g)) /\
  (forall k, get_config k (shared g) = setting k (past g)) /\
  (forall n k, get_extension_data n k (shared g) = note n k (past g)).
Proof.
  intros X V K sched g R. destruct (run_good K sched start g (good_start K) R) as [[Ao As Af Ac An [Ak1 Ak2]] L T]. split; [exact L|]. split.
  { destruct (run_tells K sched start g R) as (es & P & F). cbn [start past] in P. rewrite app_nil_r in P. now rewrite P, rev_involutive. }
  split; [intros n; unfold list_extensions; rewrite in_keys, Ao; reflexivity|]. split; [exact Ak1|]. split; [exact As|].
  split; [intros id; unfold list_commands; rewrite in_keys, Af; unfold owner; destruct (offered K id (past g)); cbn; split; congruence|]. split; [exact Ak2|]. split; [exact Ac|exact An].
Qed.
Print Assumptions manager_history.
(* which moves can be made, and which never return *)
Theorem manager_moves : forall X V (K : methods X V) sched g, run K start sched = Moved g -> forall t,
  (forall r, step K g t (Begin r) = NotPossible <-> ~ closed_after (latest t (past g))) /\
  (step K g t GoOn = NotPossible <-> closed_after (latest t (past g))) /\
  (closed_after (latest t (past g)) -> forall r, step K g t (Begin r) = Hung <->
     match r with
     | Initialize n c => endless (object K n (past g)) c (x_initialize K)
     | Unload n c => endless (object K n (past g)) c (x_shutdown K)
     | _ => False
     end) /\
  (step K g t GoOn = Hung <-> exists n id args c, open_after (latest t (past g)) (ToRun n id args c) /\ endless (object K n (past g)) c (fun x => x_execute K x id args)).
Proof.
  intros X V K sched g R t. pose proof (run_good K sched start g (good_start K) R) as G. pose proof (todo_closed K g t G) as C.
  assert (B : forall r, begin_step K t r g <> NotPossible).
  { intros r. destruct r as [x|n c|n c|id args c|k v|n k v]; cbn [begin_step]; try discriminate; [destruct (initialize_section K n c (shared g)) as [[]|]|destruct (shutdown_section K n c (shared g)) as [[]|]]; discriminate. }
  assert (P : forall p, go_on K t p g <> NotPossible).
  { intros p. unfold go_on. destruct p as [x|n|n id args c]; [destruct (load_insert K x (shared g))| |destruct (execute_section K n id args c (shared g)) as [[]|]]; discriminate. }
  split; [|split; [|split]].
  - intros r. rewrite <- C. unfold step. destruct (todo g t); [split; [discriminate|reflexivity]|]. split; [intros Q; exfalso; exact (B r Q)|intros Q; exfalso; now apply Q].
  - rewrite <- C. unfold step. destruct (todo g t) as [p|]; [split; [intros Q; exfalso; exact (P p Q)|discriminate]|tauto].
  - intros CL r. apply C in CL. unfold step. rewrite CL. destruct r as [x|n c|n c|id args c|k v|n k v]; cbn [begin_step]; try (split; [discriminate|tauto]).
    + rewrite <- (init_hangs K n c g G). destruct (initialize_section K n c (shared g)) as [[]|]; split; congruence.
    + rewrite <- (stop_hangs K n c g G). destruct (shutdown_section K n c (shared g)) as [[]|]; split; congruence.
  - unfold step. destruct (todo g t) as [p|] eqn:E.
    + pose proof (todo_open K g t p G E) as O. unfold go_on. destruct p as [x|n|n id args c].
      * destruct (load_insert K x (shared g)). split; [discriminate|]. intros (n & id & args & c & Q & _). revert O Q.
        destruct (latest t (past g)) as [[? ? [|]|? ? ?|? ? ? ?|? ? ? ?|? ?|? ? ? ? [|]|? ? ? ? ? ?|? ? ?|? ? ? ?]|]; cbn; tauto.
      * split; [discriminate|]. intros (n' & id & args & c & Q & _). revert O Q.
        destruct (latest t (past g)) as [[? ? [|]|? ? ?|? ? ? ?|? ? ? ?|? ?|? ? ? ? [|]|? ? ? ? ? ?|? ? ?|? ? ? ?]|]; cbn; tauto.
      * rewrite <- (exec_hangs K n id args c g G) || idtac. split.
        -- intros H. exists n, id, args, c. split; [exact O|]. apply (exec_hangs K n id args c g G). destruct (execute_section K n id args c (shared g)) as [[]|]; congruence.
        -- intros (n' & id' & args' & c' & Q & H). assert (Z : n' = n /\ id' = id /\ args' = args /\ c' = c).
           { revert O Q. destruct (latest t (past g)) as [[? ? [|]|? ? ?|? ? ? ?|? ? ? ?|? ?|? ? ? ? [|]|? ? ? ? ? ?|? ? ?|? ? ? ?]|]; cbn; try tauto. intros (<- & <- & <- & <-) (<- & <- & <- & <-). tauto. }
           destruct Z as (-> & -> & -> & ->). apply (exec_hangs K n id args c g G) in H. now rewrite H.
    + split; [discriminate|]. intros (n & id & args & c & Q & _). assert (CL : closed_after (latest t (past g))) by now apply C. revert CL Q.
      destruct (latest t (past g)) as [[? ? [|]|? ? ?|? ? ? ?|? ? ? ?|? ?|? ? ? ? [|]|? ? ? ? ? ?|? ? ?|? ? ? ?]|]; cbn; tauto.
Qed.
Print Assumptions manager_moves.
Example history_instance :
  let a := Plug (lit "a") [] [lit "go"] [] in let b := Plug (lit "b") [lit "a"] [] [Bad] in
  exists g, run plugs start (whole 1 (Load a) ++ [(2, Begin (Load b))] ++ one 1 (Initialize (lit "a") quiet) ++ [(2, GoOn); (1, Begin (Execute (lit "go") [] quiet))] ++ one 2 (Initialize (lit "b") quiet) ++ [(1, GoOn)]) = Moved g /\
  get_extension_state (lit "a") (shared g) = Some Active /\ get_extension_state (lit "b") (shared g) = Some Faulty /\ list_commands (shared g) = [lit "go"] /\
  hd_error (past g) = Some (Executed 1 (lit "a") (lit "go") [] quiet (Some (a, lit "ago"))).
Proof. eexists. split; [vm_compute; reflexivity|]. vm_compute. repeat split. Qed.

(* ---- C156: what holds in every reachable state, and what does not ---- *)
Theorem manager_safe : forall X V (K : methods X V) sched g, run K start sched = Moved g -> let m := shared g in
  (forall n, In n (list_extensions m) -> exists s, get_extension_state n m = Some s /\ s <> Paused) /\
  (forall n s, ~ In n (list_extensions m) -> get_extension_state n m = Some s -> s = Initializing \/ s = ShuttingDown) /\
  (forall id, In id (list_commands m) -> exists n c, hm_get id (commands m) = Some (n, c) /\ cmd_id c = id /\ In n (list_extensions m)) /\
  (forall n, get_extension_state n m = Some Shutdown -> exists t, todo g t = Some (ToRemove n)).
Proof.
  intros X V K sched g R m. pose proof (run_good K sched start g (good_start K) R) as G. destruct G as [[Ao As Af Ac An [Ak1 Ak2]] L T]. unfold list_extensions, list_commands, get_extension_state, m.
  split; [|split; [|split]].
  - intros n I. apply in_keys in I. rewrite Ao in I. apply (loaded_has_status K n _ L) in I. rewrite As. pose proof (never_paused K n (past g)) as NP. destruct (status K n (past g)) as [s|]; [|contradiction]. exists s. split; [reflexivity|congruence].
  - intros n s NI E. rewrite in_keys, Ao in NI. rewrite As in E. apply (unloaded_status K n s _ L); [|exact E]. destruct (object K n (past g)); [exfalso; apply NI; discriminate|reflexivity].
  - intros id I. apply in_keys in I. rewrite Af in *. destruct (offered K id (past g)) as [[n c]|] eqn:E; [|contradiction]. exists n, c. split; [reflexivity|]. split; [exact (owner_offers K id n c _ E)|]. apply in_keys. rewrite Ao. exact (owner_loaded K id n c _ L E).
  - intros n E. rewrite As in E. exact (shutdown_is_open K n _ _ L T E).
Qed.
Print Assumptions manager_safe.
(* a failed initialize of an unknown name counts as a dependency *)
Theorem dependencies_loaded_refuted : ~ (forall X V (K : methods X V) sched g n x d, run K start sched = Moved g ->
  object K n (past g) = Some x -> In d (x_dependencies K x) -> exists y, object K d (past g) = Some y).
Proof.
  intros H. pose (x := Plug (lit "x") [lit "ghost"] [] []).
  assert (E : exists g, run plugs start (one 1 (Initialize (lit "ghost") quiet) ++ whole 1 (Load x)) = Moved g /\ object plugs (lit "x") (past g) = Some x /\ object plugs (lit "ghost") (past g) = None) by (eexists; split; [vm_compute; reflexivity|]; split; vm_compute; reflexivity).
  destruct E as (g & R & A & B). destruct (H plug str plugs _ g (lit "x") x (lit "ghost") R A (or_introl eq_refl)) as (y & C). congruence.
Qed.
Print Assumptions dependencies_loaded_refuted.
(* between its two halves, load does not notice that a dependency went away *)
Theorem dependencies_at_load_refuted : ~ (forall X V (K : methods X V) sched g t x l, run K start sched = Moved g ->
  past g = Inserted t x true :: l -> forall d, In d (x_dependencies K x) -> status K d l <> None).
Proof.
  intros H. pose (a := Plug (lit "a") [] [] []). pose (b := Plug (lit "b") [lit "a"] [] []).
  assert (E : exists g l, run plugs start (whole 1 (Load a) ++ [(2, Begin (Load b))] ++ whole 1 (Unload (lit "a") quiet) ++ [(2, GoOn)]) = Moved g /\ past g = Inserted 2 b true :: l /\ status plugs (lit "a") l = None)
    by (eexists; eexists; split; [vm_compute; reflexivity|]; split; [reflexivity|]; vm_compute; reflexivity).
  destruct E as (g & l & R & A & B). exact (H plug str plugs _ g 2 b l R A (lit "a") (or_introl eq_refl) B).
Qed.
Print Assumptions dependencies_at_load_refuted.
(* unloading on two threads can drop an extension nobody shut down *)
Theorem removed_was_stopped_refuted : ~ (forall X V (K : methods X V) sched g t n l, run K start sched = Moved g ->
  past g = Removed t n :: l -> object K n l <> None -> status K n l = Some Shutdown).
Proof.
  intros H. pose (a := Plug (lit "a") [] [] []).
  assert (E : exists g l, run plugs start (whole 1 (Load a) ++ [(1, Begin (Unload (lit "a") quiet))] ++ whole 2 (Unload (lit "a") quiet) ++ whole 2 (Load a) ++ one 2 (Initialize (lit "a") quiet) ++ [(1, GoOn)]) = Moved g /\
    past g = Removed 1 (lit "a") :: l /\ object plugs (lit "a") l <> None /\ status plugs (lit "a") l = Some Active)
    by (eexists; eexists; split; [vm_compute; reflexivity|]; split; [reflexivity|]; vm_compute; split; [discriminate|reflexivity]).
  destruct E as (g & l & R & A & B & C). specialize (H plug str plugs _ g 1 (lit "a") l R A B). congruence.
Qed.
Print Assumptions removed_was_stopped_refuted.
(* an extension whose second initialization failed still runs its commands *)
Theorem executed_is_active_refuted : ~ (forall X V (K : methods X V) sched g t n id args c r l, run K start sched = Moved g ->
  past g = Executed t n id args c (Some r) :: l -> status K n l = Some Active).
Proof.
  intros H. pose (a := Plug (lit "a") [] [lit "go"] [Good; Bad]).
  assert (E : exists g r l, run plugs start (whole 1 (Load a) ++ one 1 (Initialize (lit "a") quiet) ++ one 1 (Initialize (lit "a") quiet) ++ whole 1 (Execute (lit "go") [] quiet)) = Moved g /\
    past g = Executed 1 (lit "a") (lit "go") [] quiet (Some r) :: l /\ status plugs (lit "a") l = Some Faulty)
    by (eexists; eexists; eexists; split; [vm_compute; reflexivity|]; split; [reflexivity|]; vm_compute; reflexivity).
  destruct E as (g & r & l & R & A & B). specialize (H plug str plugs _ g 1 _ _ _ _ r l R A). congruence.
Qed.
Print Assumptions executed_is_active_refuted.
(* a command taken over by another extension is lost when that one is unloaded *)
Theorem command_returns_refuted : ~ (forall X V (K : methods X V) sched g n x c, run K start sched = Moved g ->
  object K n (past g) = Some x -> get_extension_state n (shared g) = Some Active -> In c (x_commands K x) -> In (cmd_id c) (list_commands (shared g))).
Proof.
  intros H. pose (a := Plug (lit "a") [] [lit "go"] []). pose (b := Plug (lit "b") [] [lit "go"] []).
  assert (E : exists g, run plugs start (whole 1 (Load a) ++ one 1 (Initialize (lit "a") quiet) ++ whole 1 (Load b) ++ one 1 (Initialize (lit "b") quiet) ++ whole 1 (Unload (lit "b") quiet)) = Moved g /\
    object plugs (lit "a") (past g) = Some a /\ get_extension_state (lit "a") (shared g) = Some Active /\ list_commands (shared g) = []) by (eexists; split; [vm_compute; reflexivity|]; split; [|split]; vm_compute; reflexivity).
  destruct E as (g & R & A & B & C). specialize (H plug str plugs _ g (lit "a") a (Command (lit "go") (lit "go") false) R A B (or_introl eq_refl)). rewrite C in H. exact H.
Qed.
Print Assumptions command_returns_refuted.

(* ---- C157: whole calls, with no other thread in between ---- *)
Section Whole.
  Context {X V : Type} (K : methods X V).
  Implicit Type m : manager X.
  (* everything but the entries of one name is as before *)
  Definition only_changes (n : str) (x : option X) (s : option ext_state) m m' : Prop :=
    (forall k, hm_get k (extensions m') = if str_eqb k n then x else hm_get k (extensions m)) /\
    (forall k, get_extension_state k m' = if str_eqb k n then s else get_extension_state k m) /\
    (forall k, get_config k m' = get_config k m).
  Definition same_commands m m' : Prop := forall id, hm_get id (commands m') = hm_get id (commands m).
  Definition same_data m m' : Prop := forall n k, get_extension_data n k m' = get_extension_data n k m.
  Definition met x m : Prop := forall d, In d (x_dependencies K x) -> get_extension_state d m <> None.
  Definition ends c (p : X -> script (X * ending)) (n : str) m (x' : X) (e : ending) : Prop := exists x, hm_get n (extensions m) = Some x /\ method c (p x) (x', e).

  Theorem load_exact : forall x m, let n := x_name K x in let '(m', a) := load_extension K x m in
    match a with
    | Unmet => m' = m /\ exists d, In d (x_dependencies K x) /\ get_extension_state d m = None
    | AlreadyLoaded => m' = m /\ met x m /\ In n (list_extensions m)
    | Fine => met x m /\ ~ In n (list_extensions m) /\ only_changes n (Some x) (Some Uninitialized) m m' /\ same_commands m m' /\ same_data m m'
    | _ => False
    end.
  Proof.
    intros x m n. unfold load_extension, load_check. destruct (forallb _ (x_dependencies K x)) eqn:F.
    - assert (M : met x m). { intros d I. rewrite forallb_forall in F. apply has_spec. now apply F. }
      unfold load_insert. fold n. destruct (hm_has n (extensions m)) eqn:H.
      + split; [reflexivity|]. split; [exact M|]. apply in_keys. now apply has_spec.
      + split; [exact M|]. split; [intros I; apply in_keys, has_spec in I; congruence|]. unfold only_changes, same_commands, same_data, get_extension_state, get_extension_data, get_config. cbn [set_state set_extension extensions extension_states commands config extension_data].
        repeat split; intros; rewrite ?get_inserted, ?(name_eqb_sym n); auto.
    - split; [reflexivity|]. apply not_true_iff_false in F. clear n. revert F. generalize (x_dependencies K x). intros ds F. induction ds as [|d ds IH]; [exfalso; now apply F|]. cbn [forallb] in F.
      unfold get_extension_state. destruct (hm_get d (extension_states m)) eqn:E.
      + destruct IH as (d' & A & B); [intros Q; apply F; unfold hm_has at 1; now rewrite E, Q|]. exists d'. split; [now right|exact B].
      + exists d. split; [now left|exact E].
  Qed.
  Theorem initialize_exact : forall n c m,
    match initialize_extension K n c m with
    | None => endless (hm_get n (extensions m)) c (x_initialize K)
    | Some (m', a) => same_data m m' /\
      match a with
      | NoExtension => ~ In n (list_extensions m) /\ only_changes n None (Some Initializing) m m' /\ same_commands m m'
      | Fine => exists x', ends c (x_initialize K) n m x' Good /\ only_changes n (Some x') (Some Active) m m' /\
          (forall id, hm_get id (commands m') = match last_named id (x_commands K x') with Some cmd => Some (n, cmd) | None => hm_get id (commands m) end)
      | Failed => exists x', ends c (x_initialize K) n m x' Bad /\ only_changes n (Some x') (Some Faulty) m m' /\ same_commands m m'
      | Unwinds => exists x', ends c (x_initialize K) n m x' Panicked /\ only_changes n (Some x') (Some Initializing) m m' /\ same_commands m m'
      | _ => False
      end
    end.
  Proof.
    intros n c m. unfold initialize_extension, initialize_section. cbn [set_state extensions]. destruct (hm_get n (extensions m)) as [x|] eqn:G.
    - pose proof (script_ends c (x_initialize K x)) as Z. destruct (run_script _ _ _) as [[[x' e] s]|]; [|exists x; split; [reflexivity|exact Z]].
      destruct e; cbn [after]; (split; [intros ? ?; reflexivity|]); exists x'; (split; [exists x; split; [exact G|exact Z]|]);
        unfold only_changes, same_commands, get_extension_state, get_config, register_commands; cbn [set_state set_extension set_commands extensions extension_states commands config extension_data];
        repeat split; intros; rewrite ?fold_commands, ?get_inserted, ?(name_eqb_sym n); auto; now destruct (str_eqb k n).
    - split; [intros ? ?; reflexivity|]. split; [intros I; apply in_keys in I; congruence|]. unfold only_changes, same_commands, get_extension_state, get_config. cbn [set_state extensions extension_states commands config extension_data].
      repeat split; intros; rewrite ?get_inserted, ?(name_eqb_sym n); auto. destruct (str_eqb k n) eqn:E; [apply str_eqb_eq in E; now subst|reflexivity].
  Qed.
  Theorem unload_exact : forall n c m, NoDup (list_commands m) ->
    match unload_extension K n c m with
    | None => endless (hm_get n (extensions m)) c (x_shutdown K)
    | Some (m', a) =>
      match a with
      | Fine => (~ In n (list_extensions m) \/ exists x', ends c (x_shutdown K) n m x' Good) /\
          only_changes n None None m m' /\
          (forall id, hm_get id (commands m') = match hm_get id (commands m) with Some (o, cmd) => if str_eqb o n then None else Some (o, cmd) | None => None end) /\
          (forall k key, get_extension_data k key m' = if str_eqb k n then None else get_extension_data k key m)
      | Failed => exists x', ends c (x_shutdown K) n m x' Bad /\ only_changes n (Some x') (Some ShuttingDown) m m' /\ same_commands m m' /\ same_data m m'
      | Unwinds => exists x', ends c (x_shutdown K) n m x' Panicked /\ only_changes n (Some x') (Some ShuttingDown) m m' /\ same_commands m m' /\ same_data m m'
      | _ => False
      end
    end.
  Proof.
    intros n c m ND.
    assert (RM : forall m1, (forall k, str_eqb k n = false -> hm_get k (extensions m1) = hm_get k (extensions m) /\ hm_get k (extension_states m1) = hm_get k (extension_states m)) -> commands m1 = commands m -> config m1 = config m -> extension_data m1 = extension_data m ->
      only_changes n None None m (remove_section n m1) /\
      (forall id, hm_get id (commands (remove_section n m1)) = match hm_get id (commands m) with Some (o, cmd) => if str_eqb o n then None else Some (o, cmd) | None => None end) /\
      (forall k key, get_extension_data k key (remove_section n m1) = if str_eqb k n then None else get_extension_data k key m)).
    { intros m1 H Hc Hg Hd. unfold remove_section, only_changes, get_extension_state, get_config, get_extension_data. cbn [extensions extension_states commands config extension_data]. rewrite Hc, Hg, Hd.
      split; [|split].
      - repeat split; intros k; try (rewrite get_without, (name_eqb_sym n); destruct (str_eqb k n) eqn:E; [reflexivity|now apply H]).
      - intros id. rewrite filter_get by exact ND. destruct (hm_get id (commands m)) as [[o cmd]|]; [|reflexivity]. cbn [fst snd]. now destruct (str_eqb o n).
      - intros k key. rewrite get_without, (name_eqb_sym n). now destruct (str_eqb k n). }
    unfold unload_extension, shutdown_section. cbn [set_state extensions]. destruct (hm_get n (extensions m)) as [x|] eqn:G.
    - pose proof (script_ends c (x_shutdown K x)) as Z. destruct (run_script _ _ _) as [[[x' e] s]|]; [|exists x; split; [reflexivity|exact Z]].
      destruct e; cbn [after].
      + split; [right; exists x', x; split; [exact G|exact Z]|]. apply RM; try reflexivity. intros k E. cbn [set_state set_extension extensions extension_states]. rewrite !get_inserted, !(name_eqb_sym n), !E. now split.
      + exists x'. split; [exists x; split; [exact G|exact Z]|]. unfold only_changes, same_commands, same_data, get_extension_state, get_config. cbn [set_state set_extension extensions extension_states commands config extension_data].
        repeat split; intros; rewrite ?get_inserted, ?(name_eqb_sym n); auto.
      + exists x'. split; [exists x; split; [exact G|exact Z]|]. unfold only_changes, same_commands, same_data, get_extension_state, get_config. cbn [set_state set_extension extensions extension_states commands config extension_data].
        repeat split; intros; rewrite ?get_inserted, ?(name_eqb_sym n); auto.
    - split; [left; intros I; apply in_keys in I; congruence|]. apply RM; try reflexivity. intros k E. cbn [set_state extensions extension_states]. rewrite !get_inserted, !(name_eqb_sym n), !E. now split.
  Qed.
  Theorem execute_exact : forall id args c m,
    match execute_command K id args c m with
    | None => exists n cmd, hm_get id (commands m) = Some (n, cmd) /\ endless (hm_get n (extensions m)) c (fun x => x_execute K x id args)
    | Some (m', a) => same_commands m m' /\ same_data m m' /\
      match a with
      | NoCommand => m' = m /\ ~ In id (list_commands m)
      | NoExtension => m' = m /\ exists n cmd, hm_get id (commands m) = Some (n, cmd) /\ ~ In n (list_extensions m)
      | Value v => exists n cmd x x', hm_get id (commands m) = Some (n, cmd) /\ hm_get n (extensions m) = Some x /\ method c (x_execute K x id args) (x', v) /\
          only_changes n (Some x') (get_extension_state n m) m m'
      | _ => False
      end
    end.
  Proof.
    intros id args c m. unfold execute_command, command_owner. destruct (hm_get id (commands m)) as [[n cmd]|] eqn:Q.
    - unfold execute_section. destruct (hm_get n (extensions m)) as [x|] eqn:G.
      + pose proof (script_ends c (x_execute K x id args)) as Z. destruct (run_script _ _ _) as [[[x' v] s]|]; [|exists n, cmd; split; [reflexivity|rewrite G; exists x; split; [reflexivity|exact Z]]].
        split; [intros ?; reflexivity|]. split; [intros ? ?; reflexivity|]. exists n, cmd, x, x'. split; [reflexivity|]. split; [exact G|]. split; [exact Z|].
        unfold only_changes, get_extension_state, get_config. cbn [set_extension extensions extension_states config]. repeat split; intros; rewrite ?get_inserted, ?(name_eqb_sym n); auto.
        destruct (str_eqb k n) eqn:E; [apply str_eqb_eq in E; now subst|reflexivity].
      + split; [intros ?; reflexivity|]. split; [intros ? ?; reflexivity|]. split; [reflexivity|]. exists n, cmd. split; [reflexivity|]. intros I. apply in_keys in I. congruence.
    - split; [intros ?; reflexivity|]. split; [intros ? ?; reflexivity|]. split; [reflexivity|]. intros I. apply in_keys in I. congruence.
  Qed.
  (* these calls are the halves of C155 made one after the other *)
  Theorem whole_calls : forall (g : @conf X V) t, todo g t = None ->
    (forall x, exists k g', run K g ((t, Begin (Load x)) :: repeat (t, GoOn) k) = Moved g' /\ todo g' t = None /\ shared g' = fst (load_extension K x (shared g))) /\
    (forall n c, match initialize_extension K n c (shared g) with
      | None => step K g t (Begin (Initialize n c)) = Hung
      | Some (m', _) => exists g', run K g [(t, Begin (Initialize n c))] = Moved g' /\ todo g' t = None /\ shared g' = m' end) /\
    (forall n c, match unload_extension K n c (shared g) with
      | None => step K g t (Begin (Unload n c)) = Hung
      | Some (m', _) => exists k g', run K g ((t, Begin (Unload n c)) :: repeat (t, GoOn) k) = Moved g' /\ todo g' t = None /\ shared g' = m' end) /\
    (forall id args c, match execute_command K id args c (shared g) with
      | None => run K g [(t, Begin (Execute id args c)); (t, GoOn)] = Hung
      | Some (m', _) => exists k g', run K g ((t, Begin (Execute id args c)) :: repeat (t, GoOn) k) = Moved g' /\ todo g' t = None /\ shared g' = m' end).
  Proof.
    intros g t I. assert (ST : forall p f, @set_todo X t p f t = p) by (intros; unfold set_todo; now rewrite Nat.eqb_refl).
    split; [|split; [|split]].
    - intros x. unfold load_extension. destruct (load_check K x (shared g)) eqn:E.
      + exists 1. cbn [repeat run]. unfold step at 1. rewrite I. cbn [begin_step]. rewrite E. unfold step. cbn [todo]. rewrite ST. cbn [go_on shared todo past]. destruct (load_insert K x (shared g)) as [m' ok].
        eexists. split; [reflexivity|]. cbn [todo shared fst]. rewrite ST. now split.
      + exists 0. cbn [repeat run]. unfold step. rewrite I. cbn [begin_step]. rewrite E. eexists. split; [reflexivity|]. cbn [todo shared fst]. rewrite ST. now split.
    - intros n c. unfold initialize_extension. cbn [run]. unfold step. rewrite I. cbn [begin_step]. destruct (initialize_section K n c (shared g)) as [[m' [[x e]|]]|]; [| |reflexivity]; eexists; (split; [reflexivity|]); now split.
    - intros n c. unfold unload_extension. destruct (shutdown_section K n c (shared g)) as [[m' [[x [| |]]|]]|] eqn:E.
      + exists 1. cbn [repeat run]. unfold step at 1. rewrite I. cbn [begin_step]. rewrite E. unfold step. cbn [todo]. rewrite ST. cbn [go_on shared todo past]. eexists. split; [reflexivity|]. cbn [todo shared]. rewrite ST. now split.
      + exists 0. cbn [repeat run]. unfold step. rewrite I. cbn [begin_step]. rewrite E. eexists. split; [reflexivity|]. cbn [todo shared]. rewrite ST. now split.
      + exists 0. cbn [repeat run]. unfold step. rewrite I. cbn [begin_step]. rewrite E. eexists. split; [reflexivity|]. cbn [todo shared]. rewrite ST. now split.
      + exists 1. cbn [repeat run]. unfold step at 1. rewrite I. cbn [begin_step]. rewrite E. unfold step. cbn [todo]. rewrite ST. cbn [go_on shared todo past]. eexists. split; [reflexivity|]. cbn [todo shared]. rewrite ST. now split.
      + unfold step. rewrite I. cbn [begin_step]. now rewrite E.
    - intros id args c. unfold execute_command. destruct (command_owner id (shared g)) as [n|] eqn:E.
      + destruct (execute_section K n id args c (shared g)) as [[m' out]|] eqn:F.
        * assert (Z : exists k g', run K g ((t, Begin (Execute id args c)) :: repeat (t, GoOn) k) = Moved g' /\ todo g' t = None /\ shared g' = m').
          { exists 1. cbn [repeat run]. unfold step at 1. rewrite I. cbn [begin_step]. rewrite E. unfold step. cbn [todo]. rewrite ST. cbn [go_on shared todo past]. rewrite F. eexists. split; [reflexivity|]. cbn [todo shared]. rewrite ST. now split. }
          destruct out as [[x v]|]; exact Z.
        * cbn [run]. unfold step at 1. rewrite I. cbn [begin_step]. rewrite E. unfold step. cbn [todo]. rewrite ST. cbn [go_on shared todo past]. now rewrite F.
      + exists 0. cbn [repeat run]. unfold step. rewrite I. cbn [begin_step]. rewrite E. eexists. split; [reflexivity|]. cbn [todo shared]. rewrite ST. now split.
  Qed.
End Whole.
Print Assumptions load_exact.
Print Assumptions initialize_exact.
Print Assumptions unload_exact.
Print Assumptions execute_exact.
Print Assumptions whole_calls.
Example whole_instance :
  let a := Plug (lit "a") [] [lit "go"] [Good; Bad] in let m := fst (load_extension plugs a new_manager) in
  match initialize_extension plugs (lit "a") quiet m with
  | Some (m1, Fine) => NoDup (list_commands m1) /\ list_commands m1 = [lit "go"] /\
      match unload_extension plugs (lit "a") quiet m1 with
      | Some (m2, Failed) => list_commands m2 = [lit "go"] /\ get_extension_state (lit "a") m2 = Some ShuttingDown /\
          match unload_extension plugs (lit "a") quiet m2 with Some (m3, Fine) => list_commands m3 = [] /\ list_extensions m3 = [] /\ get_extension_state (lit "a") m3 = None | _ => False end
      | _ => False end
  | _ => False end.
Proof. vm_compute. repeat split. constructor; [intros []|constructor]. Qed.

(* ---- C158: contexts ---- *)
(* With a context of the same manager a method returns exactly if it asks for
   no configuration or data; the other calls make the whole manager hang. *)
Theorem own_context_exact : forall X V (K : methods X V) n x m, hm_get n (extensions m) = Some x ->
  (initialize_extension K n own_context m <> None <-> undemanding (x_initialize K x)) /\
  (unload_extension K n own_context m <> None <-> undemanding (x_shutdown K x)) /\
  (forall id cmd args, hm_get id (commands m) = Some (n, cmd) -> (execute_command K id args own_context m <> None <-> undemanding (x_execute K x id args))).
Proof.
  intros X V K n x m G.
  assert (H : forall R (p : script R), match run_script held_context tt p with Some _ => undemanding p | None => ~ undemanding p end).
  { intros R p. destruct (run_script held_context tt p) as [[r []]|] eqn:E; [apply held_iff; now exists r|]. intros U. apply held_iff in U. destruct U as (r & U). congruence. }
  split; [|split].
  - unfold initialize_extension, initialize_section. cbn [set_state extensions]. rewrite G. specialize (H _ (x_initialize K x)). cbn [own_context c_state c_handler c_now]. destruct (run_script held_context tt (x_initialize K x)) as [[[x' e] s]|]; [split; [intros _; exact H|intros _ Q0; discriminate Q0]|split; [congruence|contradiction]].
  - unfold unload_extension, shutdown_section. cbn [set_state extensions]. rewrite G. specialize (H _ (x_shutdown K x)). cbn [own_context c_state c_handler c_now]. destruct (run_script held_context tt (x_shutdown K x)) as [[[x' []] s]|]; try (split; [intros _; exact H|intros _ Q0; discriminate Q0]). split; [congruence|contradiction].
  - intros id cmd args Q. unfold execute_command, command_owner. rewrite Q. unfold execute_section. rewrite G. specialize (H _ (x_execute K x id args)). cbn [own_context c_state c_handler c_now]. destruct (run_script held_context tt (x_execute K x id args)) as [[[x' v] s]|]; [split; [intros _; exact H|intros _ Q0; discriminate Q0]|split; [congruence|contradiction]].
Qed.
Print Assumptions own_context_exact.
(* with a context of another manager every call returns *)
Theorem other_context_returns : forall X V (K : methods X V) n m (m2 : manager X) name,
  initialize_extension K n (other_context m2 name) m <> None /\ unload_extension K n (other_context m2 name) m <> None /\ (forall id args, execute_command K id args (other_context m2 name) m <> None).
Proof.
  intros X V K n m m2 name. unfold initialize_extension, initialize_section, unload_extension, shutdown_section. cbn [set_state extensions other_context c_state c_handler c_now].
  assert (T : forall R (p : script R), run_script (editor_context name) m2 p <> None) by (intros R p; destruct (editor_total (X := X) name p m2) as (r & m' & ->); discriminate).
  split; [|split].
  - destruct (hm_get n (extensions m)) as [x|]; [|discriminate]. specialize (T _ (x_initialize K x)). destruct (run_script _ _ _) as [[[x' e] s]|]; [discriminate|contradiction].
  - destruct (hm_get n (extensions m)) as [x|]; [|discriminate]. specialize (T _ (x_shutdown K x)). destruct (run_script _ _ _) as [[[x' []] s]|]; try discriminate. contradiction.
  - intros id args. unfold execute_command. destruct (command_owner id m) as [o|]; [|discriminate]. unfold execute_section. cbn [other_context c_state c_handler c_now]. destruct (hm_get o (extensions m)) as [x|]; [|discriminate].
    specialize (T _ (x_execute K x id args)). destruct (run_script _ _ _) as [[[x' v] s]|]; [discriminate|contradiction].
Qed.
Print Assumptions other_context_returns.
(* both built-in extensions ask: initialized with a context of their own
   manager they hang, whatever they were told before *)
Theorem builtin_initialize_hangs : forall c h, ~ undemanding (complete_initialize c) /\ ~ undemanding (highlight_initialize h).
Proof. intros c h. split; intros U; inversion U as [|? ? N]; subst; apply N; exact I. Qed.
Print Assumptions builtin_initialize_hangs.
(* initialized directly, they take up exactly what the configuration says *)
Definition told (v : option str) (old now : bool) : Prop := match v with Some s => now = true <-> s = lit "true" | None => now = old end.
Definition counted (v : option str) (old now : N) : Prop :=
  match v with
  | Some s => (exists k, numeral s k /\ (k <= 18446744073709551615)%N /\ now = k) \/ ((forall k, numeral s k -> (18446744073709551615 < k)%N) /\ now = old)
  | None => now = old
  end.
Theorem builtin_configuration : forall X (m : manager X) name,
  (forall c, exists c', run_script (editor_context name) m (complete_initialize c) = Some ((c', Good), m) /\
    told (get_config (lit "autocomplete.complete_fields") m) (cc_fields c) (cc_fields c') /\ told (get_config (lit "autocomplete.complete_styles") m) (cc_styles c) (cc_styles c') /\
    told (get_config (lit "autocomplete.complete_tags") m) (cc_tags c) (cc_tags c') /\ told (get_config (lit "autocomplete.complete_values") m) (cc_values c) (cc_values c') /\
    counted (get_config (lit "autocomplete.max_suggestions") m) (cc_max c) (cc_max c')) /\
  (forall h, exists h', run_script (editor_context name) m (highlight_initialize h) = Some ((h', Good), m) /\
    told (get_config (lit "syntax.semantic_highlighting") m) (hc_semantic h) (hc_semantic h') /\ told (get_config (lit "syntax.highlight_tags") m) (hc_tags h) (hc_tags h') /\
    told (get_config (lit "syntax.highlight_errors") m) (hc_errors h) (hc_errors h') /\ counted (get_config (lit "syntax.max_tokens") m) (hc_max h) (hc_max h')).
Proof.
  intros X m name.
  assert (F : forall v old, told v old (flag v old)). { intros v old. unfold told, flag, is_true_text. destruct v as [s|]; [apply str_eqb_eq|reflexivity]. }
  assert (N : forall v old, counted v old (number v old)).
  { intros v old. unfold counted, number, parse_usize. destruct v as [s|]; [|reflexivity]. destruct (parse_uint _ 10 s) as [k|] eqn:E.
    - left. apply parse_uint_dec in E. exists k. tauto.
    - right. split; [now apply parse_uint_none|reflexivity]. }
  split.
  - intros c. eexists. split; [reflexivity|]. cbn [cc_fields cc_styles cc_tags cc_values cc_max]. repeat split; try apply F; try apply N.
  - intros h. eexists. split; [reflexivity|]. cbn [hc_semantic hc_tags hc_errors hc_max]. repeat split; try apply F; try apply N.
Qed.
Print Assumptions builtin_configuration.
(* a context sees its own settings; without the feature multi-thread it never
   does, and nothing a method sets reaches the manager *)
Definition set_then_get (k v k' : str) : script (option str) := Ask (SetConfig k v) (fun _ => Ask (GetConfig k') (fun a => Return a)).
Theorem context_settings : forall X (m : manager X) name k v k',
  (exists m', run_script (editor_context name) m (set_then_get k v k') = Some (if str_eqb k' k then Some v else get_config k' m, m') /\ get_config k m' = Some v) /\
  (forall copy, exists s, run_script (editor_context_single name) (m, copy) (set_then_get k v k') = Some (get_config k' m, s)) /\
  (forall R (p : script R) copy r m' copy', run_script (editor_context_single name) (m, copy) p = Some (r, (m', copy')) -> forall key, get_config key m' = get_config key m).
Proof.
  intros X m name k v k'. split; [|split].
  - eexists. split.
    + cbn [set_then_get run_script editor_context]. unfold get_config at 1. cbn [set_config config]. rewrite get_inserted, (name_eqb_sym k). reflexivity.
    + unfold get_config. cbn [set_config config]. now rewrite get_inserted, str_eqb_refl.
  - intros copy. eexists. reflexivity.
  - intros R p copy r m' copy' H key. unfold get_config. now rewrite (single_config name p _ _ _ _ _ H).
Qed.
Print Assumptions context_settings.
Theorem single_context_settings_refuted : ~ (forall X (m : manager X) name k v copy, exists s, run_script (editor_context_single name) (m, copy) (set_then_get k v k) = Some (Some v, s)).
Proof. intros H. destruct (H unit new_manager [] (lit "k") (lit "v") []) as (s & Q). discriminate Q. Qed.
Print Assumptions single_context_settings_refuted.
(* data set through a context goes under the context's name and is seen by all *)
Theorem context_data : forall X (m : manager X) name k v n k',
  exists m', run_script (editor_context name) m (Ask (SetData k v) (fun _ => Ask (GetData n k') (fun a => Return a))) = Some (if str_eqb n name && str_eqb k' k then Some v else get_extension_data n k' m, m').
Proof.
  intros X m name k v n k'. eexists. cbn [run_script editor_context]. unfold get_extension_data at 1. cbn [set_extension_data extension_data]. rewrite get_inserted, (name_eqb_sym name). unfold get_extension_data at 1.
  destruct (str_eqb n name) eqn:E; cbn [andb]; [|reflexivity]. apply str_eqb_eq in E. subst n. rewrite get_inserted, (name_eqb_sym k). destruct (str_eqb k' k); [reflexivity|]. now destruct (hm_get name (extension_data m)).
Qed.
Print Assumptions context_data.
Example context_instance :
  let m := set_config (lit "autocomplete.complete_tags") (lit "no") (set_config (lit "autocomplete.max_suggestions") (lit "+7") (@new_manager unit)) in
  run_script (editor_context (lit "x")) m (complete_initialize (CompleteConfig true true true true 20)) = Some ((CompleteConfig true true false true 7, Good), m).
Proof. vm_compute. reflexivity. Qed.
