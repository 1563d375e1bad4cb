From Verif Require Import Base BaseLemmas PluginModel PluginProofs ExtModel ExtSpec.
Local Open Scope nat_scope.

Lemma plays_iff {S R} (h : handler S) (p : script R) : forall s r, plays h s p r <-> exists s', run_script h s p = Some (r, s').
Proof.
  induction p as [r0|c k IH]; intros s r; cbn [run_script]; split.
  - intros H. inversion H; subst. now exists s.
  - intros (s' & Q). injection Q as <- <-. constructor.
  - intros H. inversion H as [|s0 c0 k0 a s' r' E P]; subst. rewrite E. now apply IH.
  - intros (s' & Q). destruct (h s c) as [[a s1]|] eqn:E; [|discriminate]. econstructor; [exact E|]. apply IH. now exists s'.
Qed.

Section Proofs.
  Context {X V : Type} (K : methods X V).
  Notation event := (@event X V).
  Notation conf := (@conf X V).
  Implicit Type m : manager X.

  Record agrees m (l : list event) : Prop := {
    ag_object : forall n, hm_get n (extensions m) = object K n l;
    ag_status : forall n, hm_get n (extension_states m) = status K n l;
    ag_offered : forall id, hm_get id (commands m) = offered K id l;
    ag_setting : forall k, get_config k m = setting k l;
    ag_note : forall n k, get_extension_data n k m = note n k l;
    ag_keys : NoDup (hm_keys (extensions m)) /\ NoDup (hm_keys (commands m)) }.

  Lemma fold_commands (n : str) l : forall cs id, hm_get id (fold_left (fun cs c => hm_insert (cmd_id c) (n, c) cs) l cs) =
    match last_named id l with Some c => Some (n, c) | None => hm_get id cs end.
  Proof.
    induction l as [|c l IH]; intros cs id; [reflexivity|]. cbn [fold_left]. rewrite IH, get_inserted. unfold last_named. cbn [rev].
    assert (F : forall (A : Type) f (a b : list A), find f (a ++ b) = match find f a with Some x => Some x | None => find f b end).
    { intros A f a b. induction a as [|y a IHa]; cbn [app find]; [reflexivity|]. now destruct (f y). }
    rewrite F. destruct (find _ (rev l)); [reflexivity|]. cbn [find]. rewrite (name_eqb_sym id). now destruct (str_eqb (cmd_id c) id).
  Qed.
  Lemma fold_commands_keys (n : str) l : forall cs : hmap (str * command), NoDup (hm_keys cs) -> NoDup (hm_keys (fold_left (fun cs c => hm_insert (cmd_id c) (n, c) cs) l cs)).
  Proof. induction l as [|c l IH]; intros cs H; cbn [fold_left]; [exact H|]. apply IH. now apply insert_keys. Qed.
  Lemma filter_get {A} (f : str * A -> bool) (cs : hmap A) : NoDup (hm_keys cs) -> forall id,
    hm_get id (filter f cs) = match hm_get id cs with Some v => if f (id, v) then Some v else None | None => None end.
  Proof.
    induction cs as [|[k v] cs IH]; intros ND id; [reflexivity|]. cbn [hm_keys map fst] in ND. inversion ND as [|? ? NI ND']; subst. cbn [filter hm_get].
    destruct (f (k, v)) eqn:E; cbn [hm_get]; destruct (str_eqb id k) eqn:Q.
    - apply str_eqb_eq in Q. subst. now rewrite E.
    - now apply IH.
    - apply str_eqb_eq in Q. subst. rewrite E, IH by assumption. destruct (hm_get k cs) eqn:G; [|reflexivity]. exfalso. apply NI. apply in_keys. congruence.
    - now apply IH.
  Qed.
  Lemma filter_keys {A} (f : str * A -> bool) (cs : hmap A) : NoDup (hm_keys cs) -> NoDup (hm_keys (filter f cs)).
  Proof.
    intros ND. induction cs as [|[k v] cs IH]; [constructor|]. cbn [hm_keys map fst] in ND. inversion ND as [|? ? NI ND']; subst. cbn [filter]. destruct (f (k, v)); [|auto].
    cbn [hm_keys map fst]. constructor; [|auto]. intros I. apply NI. apply in_map_iff in I. destruct I as ([k' w] & Q & I). cbn [fst] in Q. subst k'. apply filter_In in I. apply in_map_iff. exists (k, w). now split.
  Qed.

  Lemma agrees_start : agrees new_manager [].
  Proof. constructor; try reflexivity. split; constructor. Qed.

  Ltac maps := cbn [set_state set_extension set_commands set_config extensions extension_states commands config extension_data] in *.
  Ltac sym := rewrite ?(name_eqb_sym _ _).

  Lemma check_right t x m l : agrees m l -> right K (Checked t x (load_check K x m)) l.
  Proof.
    intros A. cbn [right]. unfold load_check. rewrite forallb_forall. split; intros H d I; specialize (H d I).
    - apply has_spec in H. now rewrite (ag_status _ _ A) in H.
    - apply has_spec. now rewrite (ag_status _ _ A).
  Qed.
  Lemma insert_ok t x m l : agrees m l -> let '(m', ok) := load_insert K x m in agrees m' (Inserted t x ok :: l) /\ (ok = true <-> object K (x_name K x) l = None).
  Proof.
    intros A. unfold load_insert, hm_has. rewrite (ag_object _ _ A). destruct (object K (x_name K x) l) eqn:E.
    - split; [|split; discriminate]. destruct A. constructor; intros; cbn; auto.
    - split; [|tauto]. destruct A as [Ao As Af Ac An [Ak1 Ak2]]. constructor; cbn [object status offered setting note]; unfold get_config, get_extension_data in *; maps; intros; rewrite ?get_inserted, ?(name_eqb_sym (x_name K x)); auto.
      + now rewrite Ao.
      + now rewrite As.
      + split; [now apply insert_keys|exact Ak2].
  Qed.
  Lemma method_cases {R} n m l (c : context) (p : X -> script (X * R)) : agrees m l ->
    match hm_get n (extensions m) with
    | None => right_method K n l c p None
    | Some x => match run_script (c_handler c) (c_now c) (p x) with Some (r, _) => right_method K n l c p (Some r) | None => True end
    end.
  Proof.
    intros A. unfold right_method. rewrite (ag_object _ _ A). destruct (object K n l) as [x|]; [|reflexivity].
    destruct (run_script _ _ _) as [[r s]|] eqn:E; [|exact I]. exists r. split; [reflexivity|]. apply plays_iff. now exists s.
  Qed.
  Lemma initialize_ok t n c m m' out l : agrees m l -> initialize_section K n c m = Some (m', out) -> agrees m' (Initialized t n c out :: l) /\ right_method K n l c (x_initialize K) out.
  Proof.
    intros A. unfold initialize_section. maps. pose proof (method_cases n m l c (x_initialize K) A) as M.
    destruct A as [Ao As Af Ac An [Ak1 Ak2]]. destruct (hm_get n (extensions m)) as [x|] eqn:G.
    - destruct (run_script _ _ _) as [[[x' e] s]|]; [|discriminate]. intros Q. injection Q as <- <-. split; [|exact M].
      destruct e; constructor; cbn [object status offered setting note after_initialize]; unfold get_config, get_extension_data, register_commands in *; maps; intros;
        rewrite ?fold_commands, ?get_inserted, ?(name_eqb_sym n), ?Ao, ?As, ?Af; auto;
        try (split; [now apply insert_keys|]); auto using fold_commands_keys; try (now destruct (str_eqb _ n)).
    - intros Q. injection Q as <- <-. split; [|exact M].
      constructor; cbn [object status offered setting note after_initialize]; unfold get_config, get_extension_data in *; maps; intros; rewrite ?get_inserted, ?(name_eqb_sym n), ?As; auto.
  Qed.
  Lemma shutdown_ok t n c m m' out l : agrees m l -> shutdown_section K n c m = Some (m', out) -> agrees m' (Stopped t n c out :: l) /\ right_method K n l c (x_shutdown K) out.
  Proof.
    intros A. unfold shutdown_section. maps. pose proof (method_cases n m l c (x_shutdown K) A) as M.
    destruct A as [Ao As Af Ac An [Ak1 Ak2]]. destruct (hm_get n (extensions m)) as [x|] eqn:G.
    - destruct (run_script _ _ _) as [[[x' e] s]|]; [|discriminate]. intros Q. injection Q as <- <-. split; [|exact M].
      destruct e; constructor; cbn [object status offered setting note after_shutdown]; unfold get_config, get_extension_data in *; maps; intros;
        rewrite ?get_inserted, ?(name_eqb_sym n), ?Ao, ?As, ?Af; auto;
        try (split; [now apply insert_keys|]); auto; try (now destruct (str_eqb _ n)).
    - intros Q. injection Q as <- <-. split; [|exact M].
      constructor; cbn [object status offered setting note after_shutdown]; unfold get_config, get_extension_data in *; maps; intros; rewrite ?get_inserted, ?(name_eqb_sym n), ?As; auto.
  Qed.
  Lemma remove_ok t n m l : agrees m l -> agrees (remove_section n m) (Removed t n :: l).
  Proof.
    intros [Ao As Af Ac An [Ak1 Ak2]]. unfold remove_section. constructor; cbn [object status offered setting note]; unfold get_config, get_extension_data in *; maps; intros; auto.
    - rewrite get_without, (name_eqb_sym n), Ao. reflexivity.
    - rewrite get_without, (name_eqb_sym n), As. reflexivity.
    - rewrite filter_get by assumption. rewrite Af. destruct (offered K id l) as [[o c]|]; [|reflexivity]. cbn [fst snd]. now destruct (str_eqb o n).
    - rewrite get_without, (name_eqb_sym n). destruct (str_eqb n0 n); [reflexivity|apply An].
    - split; [now apply without_keys|now apply filter_keys].
  Qed.
  Lemma execute_ok t n id args c m m' out l : agrees m l -> execute_section K n id args c m = Some (m', out) ->
    agrees m' (Executed t n id args c out :: l) /\ right_method K n l c (fun x => x_execute K x id args) out.
  Proof.
    intros A. unfold execute_section. pose proof (method_cases n m l c (fun x => x_execute K x id args) A) as M.
    destruct A as [Ao As Af Ac An [Ak1 Ak2]]. destruct (hm_get n (extensions m)) as [x|] eqn:G.
    - destruct (run_script _ _ _) as [[[x' v] s]|]; [|discriminate]. intros Q. injection Q as <- <-. split; [|exact M].
      constructor; cbn [object status offered setting note]; unfold get_config, get_extension_data in *; maps; intros; rewrite ?get_inserted, ?(name_eqb_sym n), ?Ao; auto. split; [now apply insert_keys|exact Ak2].
    - intros Q. injection Q as <- <-. split; [|exact M]. constructor; cbn; auto.
  Qed.
  Lemma config_ok t k v m l : agrees m l -> agrees (set_config k v m) (ConfigPut t k v :: l).
  Proof.
    intros [Ao As Af Ac An Ak]. constructor; cbn [object status offered setting note]; unfold get_config, get_extension_data in *; maps; intros; auto. rewrite get_inserted, (name_eqb_sym k), Ac. reflexivity.
  Qed.
  Lemma data_ok t n k v m l : agrees m l -> agrees (set_extension_data n k v m) (DataPut t n k v :: l).
  Proof.
    intros [Ao As Af Ac An Ak]. unfold set_extension_data. constructor; cbn [object status offered setting note]; unfold get_config, get_extension_data in *; maps; intros; auto.
    rewrite get_inserted, (name_eqb_sym n). specialize (An n0 k0). destruct (str_eqb n0 n) eqn:E; [|exact An]. apply str_eqb_eq in E. subst n0. cbn [andb].
    rewrite get_inserted, (name_eqb_sym k). destruct (str_eqb k0 k); [reflexivity|]. destruct (hm_get n (extension_data m)); exact An.
  Qed.
  Lemma command_owner_is id m l : agrees m l -> command_owner id m = owner K id l.
  Proof. intros A. unfold command_owner, owner. rewrite (ag_offered _ _ A). now destruct (offered K id l) as [[o c]|]. Qed.

  (* ---- schedules ---- *)
  Definition todo_is (l : list event) (t : nat) (o : option pending) : Prop :=
    match o with Some p => open_after (latest t l) p | None => closed_after (latest t l) end.
  Record good (g : conf) : Prop := {
    gd_agrees : agrees (shared g) (past g);
    gd_lawful : lawful K (past g);
    gd_todo : forall t, todo_is (past g) t (todo g t) }.
  Lemma good_start : good start.
  Proof. constructor; [exact agrees_start|exact I|intros t; exact I]. Qed.
  Lemma good_next g t m' o e : good g -> actor e = t -> agrees m' (e :: past g) -> right K e (past g) ->
    (starts e = true -> todo g t = None) -> todo_is (e :: past g) t o -> good (Conf m' (set_todo t o (todo g)) (e :: past g)).
  Proof.
    intros [Ga Gl Gt] T A R S O. constructor; cbn [shared todo past].
    - exact A.
    - cbn [lawful]. split; [exact R|]. split; [|exact Gl]. intros Q. specialize (S Q). rewrite T. specialize (Gt t). now rewrite S in Gt.
    - intros u. unfold set_todo. destruct (Nat.eqb u t) eqn:E.
      + apply Nat.eqb_eq in E. now subst u.
      + specialize (Gt u). unfold todo_is in *. cbn [latest]. now rewrite T, E.
  Qed.
  Lemma set_same (g : conf) t : todo g t = None -> forall u, set_todo t None (todo g) u = todo g u.
  Proof. intros H u. unfold set_todo. destruct (Nat.eqb u t) eqn:E; [apply Nat.eqb_eq in E; now subst|reflexivity]. Qed.
  Lemma good_same g t m' e : good g -> actor e = t -> todo g t = None -> agrees m' (e :: past g) -> right K e (past g) -> closed_after (Some e) -> good (Conf m' (todo g) (e :: past g)).
  Proof.
    intros G T Z A R O. assert (H : good (Conf m' (set_todo t None (todo g)) (e :: past g))).
    { apply good_next; auto. cbn [todo_is latest]. now rewrite T, Nat.eqb_refl. }
    destruct H as [H1 H2 H3]. constructor; [exact H1|exact H2|]. intros u. specialize (H3 u). cbn [todo past] in *. now rewrite set_same in H3.
  Qed.
  Lemma step_good g t a g' : good g -> step K g t a = Moved g' -> good g'.
  Proof.
    intros G. unfold step. destruct a as [r|].
    - destruct (todo g t) eqn:Z; [discriminate|]. pose proof (gd_agrees _ G) as A. destruct r as [x|n c|n c|id args c|k v|n k v]; cbn [begin_step].
      + intros Q. injection Q as <-. apply good_next; auto.
        * destruct A. constructor; intros; cbn; auto.
        * now apply check_right.
        * unfold todo_is. cbn [latest actor]. rewrite Nat.eqb_refl. destruct (load_check K x (shared g)); cbn; auto.
      + destruct (initialize_section K n c (shared g)) as [[m' out]|] eqn:E; [|discriminate]. intros Q. injection Q as <-. destruct (initialize_ok t _ _ _ _ _ _ A E) as [A' R']. now apply (good_same g t).
      + destruct (shutdown_section K n c (shared g)) as [[m' out]|] eqn:E; [|discriminate]. intros Q. injection Q as <-. destruct (shutdown_ok t _ _ _ _ _ _ A E) as [A' R']. apply good_next; auto.
        unfold todo_is. cbn [latest actor]. rewrite Nat.eqb_refl. destruct out as [[x [| |]]|]; cbn; auto; split; auto; intros ? ? Q; now inversion Q.
      + intros Q. injection Q as <-. apply good_next; auto.
        * destruct A. constructor; intros; cbn; auto.
        * cbn [right]. now apply command_owner_is.
        * unfold todo_is. cbn [latest actor]. rewrite Nat.eqb_refl. destruct (command_owner id (shared g)); cbn; auto.
      + intros Q. injection Q as <-. apply (good_same g t); auto; [now apply config_ok|exact I|exact I].
      + intros Q. injection Q as <-. apply (good_same g t); auto; [now apply data_ok|exact I|exact I].
    - destruct (todo g t) as [p|] eqn:Z; [|discriminate]. pose proof (gd_agrees _ G) as A. pose proof (gd_todo _ G t) as T. rewrite Z in T. cbn [todo_is] in T. unfold go_on. destruct p as [x|n|n id args c].
      + pose proof (insert_ok t x (shared g) (past g) A) as I1. destruct (load_insert K x (shared g)) as [m' ok]. destruct I1 as [I1 I2]. intros Q. injection Q as <-. apply good_next; auto.
        * cbn [right]. now split.
        * discriminate.
        * unfold todo_is. cbn [latest actor]. rewrite Nat.eqb_refl. exact I.
      + intros Q. injection Q as <-. apply good_next; auto; [now apply remove_ok|discriminate|]. unfold todo_is. cbn [latest actor]. rewrite Nat.eqb_refl. exact I.
      + destruct (execute_section K n id args c (shared g)) as [[m' out]|] eqn:E; [|discriminate]. intros Q. injection Q as <-. destruct (execute_ok t _ _ _ _ _ _ _ _ A E) as [A' R']. apply good_next; auto.
        * cbn [right]. now split.
        * discriminate.
        * unfold todo_is. cbn [latest actor]. rewrite Nat.eqb_refl. exact I.
  Qed.
  Lemma run_good sched : forall g g', good g -> run K g sched = Moved g' -> good g'.
  Proof.
    induction sched as [|[t a] sched IH]; intros g g' G; cbn [run]; [intros Q; now injection Q as <-|].
    destruct (step K g t a) as [g1| |] eqn:E; try discriminate. apply IH. now apply (step_good g t a).
  Qed.

  (* ---- what lawful pasts imply ---- *)
  Lemma loaded_has_status n l : lawful K l -> object K n l <> None -> status K n l <> None.
  Proof.
    induction l as [|e l IH]; cbn [lawful]; intros L; [intros H; exfalso; now apply H|]. destruct L as (R & _ & L). specialize (IH L).
    destruct e as [t x ok|t x [|]|t m c [[x e]|]|t m c [[x e]|]|t m|t id ar co o|t m id args c [[x v]|]|t k v|t m k v]; cbn [object status] in *; auto;
      try (destruct (str_eqb n _); [intros _ Q; discriminate Q|exact IH]); try (destruct (str_eqb n _); [intros H; exfalso; now apply H|exact IH]).
    destruct (str_eqb n m) eqn:E; [|exact IH]. intros _. apply str_eqb_eq in E. subst m. apply IH. destruct R as [_ R]. unfold right_method in R. destruct (object K n l); discriminate.
  Qed.
  Lemma owner_loaded id o c l : lawful K l -> offered K id l = Some (o, c) -> object K o l <> None.
  Proof.
    induction l as [|e l IH]; cbn [lawful]; intros L; [discriminate|]. destruct L as (R & _ & L). specialize (IH L).
    destruct e as [t x ok|t x [|]|t m c0 [[x e]|]|t m c0 [[x e]|]|t m|t id' ar co o'|t m id' args c0 [[x v]|]|t k v|t m k v]; cbn [object offered] in *; auto.
    - intros Q. specialize (IH Q). destruct (str_eqb o (x_name K x)); [discriminate|exact IH].
    - destruct e; auto; try (intros Q; specialize (IH Q); destruct (str_eqb o m); [discriminate|exact IH]).
      destruct (last_named id (x_commands K x)) as [c1|]; [intros Q; injection Q as -> _; now rewrite str_eqb_refl|]. intros Q; specialize (IH Q); destruct (str_eqb o m); [discriminate|exact IH].
    - intros Q. specialize (IH Q). destruct (str_eqb o m); [discriminate|exact IH].
    - destruct (offered K id l) as [[o' c']|]; [|discriminate]. destruct (str_eqb o' m) eqn:E; [discriminate|]. intros Q. injection Q as -> ->. rewrite E. now apply IH.
    - intros Q. specialize (IH Q). destruct (str_eqb o m); [discriminate|exact IH].
  Qed.
  Lemma owner_offers id o c l : offered K id l = Some (o, c) -> cmd_id c = id.
  Proof.
    induction l as [|e l IH]; [discriminate|].
    destruct e as [t x ok|t x [|]|t m c0 [[x e]|]|t m c0 [[x e]|]|t m|t id' ar co o'|t m id' args c0 [[x v]|]|t k v|t m k v]; cbn [offered]; auto.
    - destruct e; auto. unfold last_named. destruct (find _ (rev (x_commands K x))) as [c1|] eqn:F; [|exact IH]. apply find_some in F. destruct F as [_ F]. apply str_eqb_eq in F. intros Q. injection Q as _ ->. now symmetry.
    - destruct (offered K id l) as [[o' c']|]; [|discriminate]. destruct (str_eqb o' m); [discriminate|exact IH].
  Qed.
  (* a name with a status that is not loaded *)
  Lemma unloaded_status n s l : lawful K l -> object K n l = None -> status K n l = Some s -> s = Initializing \/ s = ShuttingDown.
  Proof.
    induction l as [|e l IH]; cbn [lawful]; intros L; [discriminate|]. destruct L as (R & _ & L). specialize (IH L).
    destruct e as [t x ok|t x [|]|t m c [[x e]|]|t m c [[x e]|]|t m|t id ar co o|t m id args c [[x v]|]|t k v|t m k v]; cbn [object status] in *; auto; destruct (str_eqb n _); auto; try discriminate.
    - intros _ Q. injection Q as <-. now left.
    - intros _ Q. injection Q as <-. now right.
  Qed.
  Lemma never_paused n l : status K n l <> Some Paused.
  Proof.
    induction l as [|e l IH]; [discriminate|].
    destruct e as [t x ok|t x [|]|t m c [[x e]|]|t m c [[x e]|]|t m|t id ar co o|t m id args c [[x v]|]|t k v|t m k v]; cbn [status] in *; auto; destruct (str_eqb n _); auto; try discriminate; destruct e; discriminate.
  Qed.
  Lemma shutdown_is_open n l (todo : nat -> option pending) : lawful K l -> (forall t, todo_is l t (todo t)) -> status K n l = Some Shutdown -> exists t, todo t = Some (ToRemove n).
  Proof.
    intros L T H. assert (E : exists t, open_after (latest t l) (ToRemove n)).
    { clear T. induction l as [|e l IH]; cbn [lawful] in L; [discriminate|]. destruct L as (R & S & L). specialize (IH L).
      assert (D : status K n l = Some Shutdown -> actor e <> actor e \/ True) by auto. clear D.
      assert (O : forall t, actor e <> t -> open_after (latest t l) (ToRemove n) -> open_after (latest t (e :: l)) (ToRemove n)).
      { intros t D O. cbn [latest]. destruct (Nat.eqb t (actor e)) eqn:Q; [apply Nat.eqb_eq in Q; congruence|exact O]. }
      assert (U : status K n l = Some Shutdown -> (forall t, actor e = t -> ~ open_after (latest t l) (ToRemove n)) -> exists t, open_after (latest t (e :: l)) (ToRemove n)).
      { intros Q D. destruct (IH Q) as (t & P). exists t. apply O; [|exact P]. intros Z. exact (D t Z P). }
      assert (C : forall t, closed_after (latest t l) -> ~ open_after (latest t l) (ToRemove n)).
      { intros t. destruct (latest t l) as [[? ? [|]|? ? ?|? ? ? ?|? m ? [[? [| |]]|]|? ?|? ? ? ? [|]|? ? ? ? ? ?|? ? ?|? ? ? ?]|]; cbn; auto; try tauto; intros _ [_ Q]; discriminate (Q _ _ eq_refl). }
      destruct e as [t x ok|t x ok|t m c out|t m c out|t m|t id ar co o|t m id args c out|t k v|t m k v]; cbn [starts actor] in *; cbn [status] in H;
        try (apply U; [exact H|]; intros u <-; apply C; now apply S).
      - assert (H' : status K n l = Some Shutdown) by (destruct ok; [destruct (str_eqb n (x_name K x)); [discriminate|exact H]|exact H]).
        apply U; [exact H'|]. intros u <-. destruct R as [R _]. revert R. destruct (latest t l) as [[? ? [|]|? ? ?|? ? ? ?|? ? ? ?|? ?|? ? ? ? [|]|? ? ? ? ? ?|? ? ?|? ? ? ?]|]; cbn; tauto.
      - destruct (str_eqb n m); [destruct out as [[? []]|]; discriminate|]. apply U; [exact H|]. intros u <-; apply C; now apply S.
      - destruct (str_eqb n m) eqn:E.
        + apply str_eqb_eq in E. subst m. exists t. cbn [latest actor]. rewrite Nat.eqb_refl. cbn. split; [reflexivity|]. destruct out as [[? []]|]; try discriminate H. intros ? ? Q. now injection Q as _ <-.
        + apply U; [exact H|]. intros u <-; apply C; now apply S.
      - destruct (str_eqb n m) eqn:E; [discriminate|]. apply U; [exact H|]. intros u <-. cbn [right] in R. revert R. destruct (latest t l) as [[? ? [|]|? ? ?|? ? ? ?|? k ? ?|? ?|? ? ? ? [|]|? ? ? ? ? ?|? ? ?|? ? ? ?]|]; cbn; try tauto. intros [<- _] [<- _]. rewrite str_eqb_refl in E. discriminate.
      - apply U; [exact H|]. intros u <-. destruct R as [R _]. revert R. destruct (latest t l) as [[? ? [|]|? ? ?|? ? ? ?|? ? ? ?|? ?|? ? ? ? [|]|? ? ? ? ? ?|? ? ?|? ? ? ?]|]; cbn; tauto. }
    destruct E as (t & O). exists t. specialize (T t). destruct (todo t) as [p|]; cbn [todo_is] in T.
    - destruct (latest t l) as [[? ? [|]|? ? ?|? ? ? ?|? m ? ?|? ?|? ? ? ? [|]|? ? ? ? ? ?|? ? ?|? ? ? ?]|], p; cbn in T, O; try tauto. destruct T as [<- _], O as [<- _]. reflexivity.
    - exfalso. destruct (latest t l) as [[? ? [|]|? ? ?|? ? ? ?|? m ? [[? [| |]]|]|? ?|? ? ? ? [|]|? ? ? ? ? ?|? ? ?|? ? ? ?]|]; cbn in T, O; try tauto; destruct O as [_ O]; discriminate (O _ _ eq_refl).
  Qed.
End Proofs.

(* ---- contexts ---- *)
Lemma held_iff {R} (p : script R) : (exists r, run_script held_context tt p = Some (r, tt)) <-> undemanding p.
Proof.
  induction p as [r|c k IH]; cbn [run_script]; split.
  - constructor.
  - intros _. now exists r.
  - intros (r & H). destruct c; try discriminate H; constructor; cbn; auto; apply IH; now exists r.
  - intros U. inversion U as [|c0 k0 N U' E]; subst. destruct c; cbn in N; try tauto; cbn [held_context]; apply IH; exact U'.
Qed.
Lemma held_state {R} (p : script R) r u : run_script held_context tt p = Some (r, u) -> u = tt.
Proof. now destruct u. Qed.
Lemma editor_total {X R} (name : str) (p : script R) : forall m : manager X, exists r m', run_script (editor_context name) m p = Some (r, m').
Proof. induction p as [r|c k IH]; intros m; cbn [run_script]; [now exists r, m|]. destruct c; cbn [editor_context]; apply IH. Qed.

Section More.
  Context {X V : Type} (K : methods X V).
  Notation conf := (@conf X V).
  Lemma step_tells (g g' : conf) t a : step K g t a = Moved g' -> exists e, past g' = e :: past g /\ tells t a e.
  Proof.
    unfold step, tells. destruct a as [r|]; destruct (todo g t) as [p|]; try discriminate.
    - destruct r as [x|n c|n c|id args c|k v|n k v]; cbn [begin_step].
      + intros Q. injection Q as <-. eexists. split; [reflexivity|]. now split.
      + destruct (initialize_section K n c (shared g)) as [[m' out]|]; [|discriminate]. intros Q. injection Q as <-. eexists. split; [reflexivity|]. now repeat split.
      + destruct (shutdown_section K n c (shared g)) as [[m' out]|]; [|discriminate]. intros Q. injection Q as <-. eexists. split; [reflexivity|]. now repeat split.
      + intros Q. injection Q as <-. eexists. split; [reflexivity|]. now repeat split.
      + intros Q. injection Q as <-. eexists. split; [reflexivity|]. now repeat split.
      + intros Q. injection Q as <-. eexists. split; [reflexivity|]. now repeat split.
    - unfold go_on. destruct p as [x|n|n id args c].
      + destruct (load_insert K x (shared g)) as [m' ok]. intros Q. injection Q as <-. eexists. split; [reflexivity|]. now repeat split.
      + intros Q. injection Q as <-. eexists. split; [reflexivity|]. now repeat split.
      + destruct (execute_section K n id args c (shared g)) as [[m' out]|]; [|discriminate]. intros Q. injection Q as <-. eexists. split; [reflexivity|]. now repeat split.
  Qed.
  Lemma run_tells sched : forall g g' : conf, run K g sched = Moved g' -> exists es, past g' = rev es ++ past g /\ Forall2 (fun ta e => tells (fst ta) (snd ta) e) sched es.
  Proof.
    induction sched as [|[t a] sched IH]; intros g g'; cbn [run]; [intros Q; injection Q as <-; exists []; split; [reflexivity|constructor]|].
    destruct (step K g t a) as [g1| |] eqn:E; try discriminate. intros R. destruct (step_tells _ _ _ _ E) as (e & P & T). destruct (IH _ _ R) as (es & P' & F).
    exists (e :: es). split; [|now constructor]. cbn [rev]. rewrite P', P, <- app_assoc. reflexivity.
  Qed.
  Lemma script_ends {R} (c : context) (p : script R) : match run_script (c_handler c) (c_now c) p with Some (r, _) => method c p r | None => forall r, ~ method c p r end.
  Proof.
    destruct (run_script (c_handler c) (c_now c) p) as [[r s]|] eqn:E; [apply plays_iff; now exists s|]. intros r H. apply plays_iff in H. destruct H as (s & H). congruence.
  Qed.
  Lemma init_hangs n c (g : conf) : good K g -> (initialize_section K n c (shared g) = None <-> endless (object K n (past g)) c (x_initialize K)).
  Proof.
    intros G. unfold initialize_section, endless. cbn [set_state extensions]. rewrite (ag_object _ _ _ (gd_agrees _ _ G)). destruct (object K n (past g)) as [x|]; [|split; [discriminate|intros (x & Q & _); discriminate]].
    pose proof (script_ends c (x_initialize K x)) as Z. destruct (run_script _ _ _) as [[[x' e] s]|].
    - split; [discriminate|]. intros (y & Q & H). injection Q as <-. exfalso. exact (H _ Z).
    - split; [intros _; now exists x|reflexivity].
  Qed.
  Lemma stop_hangs n c (g : conf) : good K g -> (shutdown_section K n c (shared g) = None <-> endless (object K n (past g)) c (x_shutdown K)).
  Proof.
    intros G. unfold shutdown_section, endless. cbn [set_state extensions]. rewrite (ag_object _ _ _ (gd_agrees _ _ G)). destruct (object K n (past g)) as [x|]; [|split; [discriminate|intros (x & Q & _); discriminate]].
    pose proof (script_ends c (x_shutdown K x)) as Z. destruct (run_script _ _ _) as [[[x' e] s]|].
    - split; [discriminate|]. intros (y & Q & H). injection Q as <-. exfalso. exact (H _ Z).
    - split; [intros _; now exists x|reflexivity].
  Qed.
  Lemma exec_hangs n id args c (g : conf) : good K g -> (execute_section K n id args c (shared g) = None <-> endless (object K n (past g)) c (fun x => x_execute K x id args)).
  Proof.
    intros G. unfold execute_section, endless. rewrite (ag_object _ _ _ (gd_agrees _ _ G)). destruct (object K n (past g)) as [x|]; [|split; [discriminate|intros (x & Q & _); discriminate]].
    pose proof (script_ends c (x_execute K x id args)) as Z. destruct (run_script _ _ _) as [[[x' e] s]|].
    - split; [discriminate|]. intros (y & Q & H). injection Q as <-. exfalso. exact (H _ Z).
    - split; [intros _; now exists x|reflexivity].
  Qed.
  Lemma todo_closed (g : conf) t : good K g -> (todo g t = None <-> closed_after (latest t (past g))).
  Proof.
    intros G. pose proof (gd_todo _ _ G t) as T. destruct (todo g t) as [p|]; cbn [todo_is] in T; [|tauto]. split; [discriminate|]. intros C. exfalso. revert T C.
    destruct (latest t (past g)) as [[? ? [|]|? ? ?|? ? ? ?|? ? ? [[? [| |]]|]|? ?|? ? ? ? [|]|? ? ? ? ? ?|? ? ?|? ? ? ?]|], p; cbn; try tauto; intros [_ Q] _; discriminate (Q _ _ eq_refl).
  Qed.
  Lemma todo_open (g : conf) t p : good K g -> todo g t = Some p -> open_after (latest t (past g)) p.
  Proof. intros G E. pose proof (gd_todo _ _ G t) as T. now rewrite E in T. Qed.
  Lemma run_app a b : forall g : conf, run K g (a ++ b) = match run K g a with Moved g' => run K g' b | o => o end.
  Proof. induction a as [|[t m] a IH]; intros g; cbn [app run]; [reflexivity|]. destruct (step K g t m); auto. Qed.
End More.
Lemma single_config {X R} (name : str) (p : script R) : forall (m : manager X) copy r m' copy', run_script (editor_context_single name) (m, copy) p = Some (r, (m', copy')) -> config m' = config m.
Proof.
  induction p as [r0|c k IH]; intros m copy r m' copy'; cbn [run_script]; [intros Q; now inversion Q|].
  destruct c; cbn [editor_context_single]; intros H; apply IH in H; exact H.
Qed.
