From Verif Require Import Base BaseLemmas PluginModel PluginProofs SessionModel SessionSpec.

Section Sessions.
  Context {D : Type} (c : session_config).
  Implicit Types (m : manager D) (past : list (call D * reply D)).

  Record knows_sessions past m : Prop := Knows {
    k_config : m_config m = c;
    k_get : forall id, hm_get id (m_sessions m) = session_of id past;
    k_keys : NoDup (hm_keys (m_sessions m));
    k_active : m_active m = active_of past;
    k_alive : forall a, m_active m = Some a -> hm_get a (m_sessions m) <> None;
    k_limit : List.length (m_sessions m) <= max_sessions c;
    k_count : List.length (m_sessions m) <= m_count m }.

  Lemma live_keys past m names : knows_sessions past m -> live past names -> List.length names = List.length (m_sessions m).
  Proof.
    intros K [H1 H2]. assert (P : Permutation names (hm_keys (m_sessions m))).
    { apply NoDup_Permutation; [exact H1|apply K|]. intros x. rewrite H2, in_keys, (k_get _ _ K). reflexivity. }
    apply Permutation_length in P. unfold hm_keys in P. now rewrite map_length in P.
  Qed.
  Lemma insert_len {A} k (v : A) (m : hmap A) : NoDup (hm_keys m) -> List.length (hm_insert k v m) + (if hm_has k m then 1 else 0) = S (List.length m).
  Proof. intros H. unfold hm_insert. cbn [List.length]. pose proof (without_length k m H). lia. Qed.
  Lemma set_knows past m l : knows_sessions past m -> knows_sessions past (set_cleanups m l).
  Proof. intros [K1 K2 K3 K4 K5 K6 K7]. now split. Qed.

  Lemma removed past m id s x a : knows_sessions past m -> hm_get id (m_sessions m) = Some s ->
    (forall id', session_of id' ((x, a) :: past) = if str_eqb id id' then None else session_of id' past) ->
    (active_of ((x, a) :: past) = match active_of past with Some b => if str_eqb b id then None else Some b | None => None end) ->
    exists m1, remove_session id m = (Some m1, Some s) /\ knows_sessions ((x, a) :: past) m1.
  Proof.
    intros K G Hs Ha. unfold remove_session. rewrite G.
    assert (L : S (List.length (hm_without id (m_sessions m))) = List.length (m_sessions m)).
    { pose proof (without_length id (m_sessions m) (k_keys _ _ K)) as W. unfold hm_has in W. rewrite G in W. lia. }
    pose proof (k_count _ _ K) as C. destruct (m_count m) as [|n] eqn:E; [lia|]. eexists. split; [reflexivity|].
    split; cbn [m_config m_sessions m_active m_count].
    - apply K.
    - intros id'. rewrite Hs, get_without, (k_get _ _ K). reflexivity.
    - apply without_keys, K.
    - rewrite Ha, (k_active _ _ K). reflexivity.
    - intros b. destruct (m_active m) as [b'|] eqn:B; [|discriminate]. destruct (str_eqb b' id) eqn:F; [discriminate|]. intros [= <-].
      rewrite get_without. rewrite name_eqb_sym in F. rewrite F. now apply (k_alive _ _ K).
    - pose proof (k_limit _ _ K). lia.
    - lia.
  Qed.

  Lemma step_right past m x : fair x -> knows_sessions past m ->
    right_reply c past x (snd (step m x)) /\ knows_sessions ((x, snd (step m x)) :: past) (fst (step m x)).
  Proof.
    intros F K. destruct x as [id d now|id now|id|id f|who now age sh|who]; cbn [step].
    - (* create *)
      unfold create_session. rewrite (k_config _ _ K). destruct (Nat.leb_spec (max_sessions c) (List.length (m_sessions m))) as [L|L]; cbn [fst snd].
      + split; [|split; cbn [session_of active_of]; apply K].
        cbn [right_reply]. intros names H. rewrite (live_keys _ _ _ K H). destruct (Nat.ltb_spec (List.length (m_sessions m)) (max_sessions c)); [lia|reflexivity].
      + split.
        * cbn [right_reply]. intros names H. rewrite (live_keys _ _ _ K H). destruct (Nat.ltb_spec (List.length (m_sessions m)) (max_sessions c)); [reflexivity|lia].
        * pose proof (insert_len id (Session d now 0) (m_sessions m) (k_keys _ _ K)) as IL.
          split; cbn [m_config m_sessions m_active m_count session_of active_of].
          -- reflexivity.
          -- intros id'. rewrite get_inserted, (k_get _ _ K). reflexivity.
          -- apply insert_keys, K.
          -- now rewrite (k_active _ _ K).
          -- intros a. destruct (m_active m) as [b|] eqn:B.
             ++ intros [= <-]. rewrite get_inserted. destruct (str_eqb id b); [discriminate|]. now apply (k_alive _ _ K).
             ++ intros [= <-]. rewrite get_inserted, str_eqb_refl. discriminate.
          -- lia.
          -- pose proof (k_count _ _ K). lia.
    - (* switch *)
      unfold switch_session. destruct (hm_get id (m_sessions m)) as [s|] eqn:G; cbn [fst snd].
      + split; [cbn [right_reply]; rewrite <- (k_get _ _ K), G; split; congruence|].
        pose proof (insert_len id (Session (s_document s) now (s_operations s)) (m_sessions m) (k_keys _ _ K)) as IL. unfold hm_has in IL. rewrite G in IL.
        split; cbn [m_config m_sessions m_active m_count session_of active_of].
        * apply K.
        * intros id'. rewrite get_inserted, <- (k_get _ _ K). destruct (str_eqb id id') eqn:E; [|now destruct (hm_get id' (m_sessions m))].
          apply str_eqb_eq in E. subst id'. now rewrite G.
        * apply insert_keys, K.
        * reflexivity.
        * intros a [= <-]. rewrite get_inserted, str_eqb_refl. discriminate.
        * pose proof (k_limit _ _ K). lia.
        * pose proof (k_count _ _ K). lia.
      + split; [cbn [right_reply]; rewrite <- (k_get _ _ K), G; split; congruence|]. split; cbn [session_of active_of]; apply K.
    - (* remove *)
      destruct (hm_get id (m_sessions m)) as [s|] eqn:G.
      + destruct (removed past m id s (Remove id) (Gave (Some s)) K G) as (m1 & E & K1); [reflexivity|reflexivity|].
        rewrite E. cbn [fst snd]. split; [|exact K1]. cbn [right_reply]. now rewrite <- (k_get _ _ K).
      + unfold remove_session. rewrite G. cbn [fst snd]. split; [cbn [right_reply]; now rewrite <- (k_get _ _ K)|]. split; cbn [session_of active_of]; apply K.
    - (* edit *)
      unfold with_document_mut. destruct (hm_get id (m_sessions m)) as [s|] eqn:G.
      + destruct (f (s_document s)) as [d ok] eqn:Ef. cbn [fst snd]. split; [cbn [right_reply]; rewrite <- (k_get _ _ K), G; cbn [option_map]; now rewrite Ef|].
        pose proof (insert_len id (Session d (s_accessed s) (if ok then s_operations s + 1 else s_operations s)) (m_sessions m) (k_keys _ _ K)) as IL. unfold hm_has in IL. rewrite G in IL.
        split; cbn [m_config m_sessions m_active m_count session_of active_of].
        * apply K.
        * intros id'. rewrite get_inserted, <- (k_get _ _ K). destruct (str_eqb id id') eqn:E; [|now destruct (hm_get id' (m_sessions m))].
          apply str_eqb_eq in E. subst id'. now rewrite G, Ef.
        * apply insert_keys, K.
        * apply K.
        * intros a Ha. rewrite get_inserted. destruct (str_eqb id a); [discriminate|]. now apply (k_alive _ _ K).
        * pose proof (k_limit _ _ K). lia.
        * pose proof (k_count _ _ K). lia.
      + cbn [fst snd]. split; [cbn [right_reply]; now rewrite <- (k_get _ _ K), G|]. split; cbn [session_of active_of]; apply K.
    - (* cleanup, the list *)
      cbn [fst snd]. split.
      + cbn [right_reply]. unfold stale_ids. rewrite (k_config _ _ K). destruct (auto_cleanup c); [|reflexivity]. intros id H.
        apply (Permutation_in id (Permutation_sym (F _))) in H. apply in_map_iff in H as ([i s] & Q & H). cbn [fst] in Q. subst i.
        apply filter_In in H as [H1 H2]. cbn [snd] in H2. exists s. rewrite <- (k_get _ _ K). split; [|apply Nat.ltb_lt in H2; exact H2].
        clear -H1 K. destruct K as [_ _ N _ _ _ _]. revert N H1. generalize (m_sessions m). intros l. induction l as [|[a v] l IH]; [intros _ []|].
        unfold hm_keys. cbn [map fst hm_get]. intros N. inversion N as [|? ? N1 N2]; subst. intros [[= -> ->]|H]; [now rewrite str_eqb_refl|].
        destruct (str_eqb id a) eqn:E; [|now apply IH]. apply str_eqb_eq in E. subst a. exfalso. apply N1. apply in_map_iff. now exists (id, s).
      + apply (set_knows ((_, _) :: past)). split; cbn [session_of active_of]; apply K.
    - (* cleanup, one session *)
      destruct (cleanup_of who (m_cleanups m)) as [[[|id ids] n]|] eqn:Q.
      + cbn [fst snd]. split; [exact I|]. apply (set_knows ((_, _) :: past)). split; cbn [session_of active_of]; apply K.
      + destruct (hm_get id (m_sessions m)) as [s|] eqn:G.
        * destruct (removed past m id s (CleanupNext who) (Dropped id true) K G) as (m1 & E & K1); [reflexivity|reflexivity|].
          rewrite E. cbn [fst snd]. split; [|apply (set_knows ((_, _) :: past)); exact K1]. cbn [right_reply]. rewrite <- (k_get _ _ K), G. split; congruence.
        * unfold remove_session. rewrite G. cbn [fst snd]. split; [cbn [right_reply]; rewrite <- (k_get _ _ K), G; split; congruence|].
          apply (set_knows ((_, _) :: past)). split; cbn [session_of active_of]; apply K.
      + cbn [fst snd]. split; [exact I|]. split; cbn [session_of active_of]; apply K.
  Qed.

  Lemma run_right : forall calls past m, Forall fair calls -> knows_sessions past m ->
    right_replies c past calls (snd (run_calls m calls)) /\
    knows_sessions (rev (combine calls (snd (run_calls m calls))) ++ past) (fst (run_calls m calls)).
  Proof.
    intros calls. induction calls as [|x l IH]; intros past m F K; cbn [run_calls]; [split; [exact I|exact K]|].
    inversion F as [|? ? F1 F2]; subst. destruct (step_right past m x F1 K) as [R K1]. destruct (step m x) as [m1 a]. cbn [fst snd] in *.
    destruct (IH ((x, a) :: past) m1 F2 K1) as [R2 K2]. destruct (run_calls m1 l) as [m2 out]. cbn [fst snd right_replies combine rev] in *.
    split; [split; assumption|]. now rewrite <- app_assoc.
  Qed.
  Lemma new_knows_sessions : knows_sessions [] (new_manager c).
  Proof. split; cbn; try reflexivity; try lia; [constructor|discriminate]. Qed.
End Sessions.

(* A cleanup that no other thread disturbs. *)
Section Cleanup.
  Context {D : Type}.
  Lemma cleanup_rest : forall ids (m : manager D) who n, cleanup_of who (m_cleanups m) = Some (ids, n) -> NoDup ids ->
    (forall id, In id ids -> hm_get id (m_sessions m) <> None) -> List.length (m_sessions m) <= m_count m -> NoDup (hm_keys (m_sessions m)) ->
    exists m' out, run_calls m (repeat (CleanupNext who) (S (List.length ids))) = (m', out ++ [CleanedUp (n + List.length ids)]) /\
      (forall id, hm_get id (m_sessions m') = if existsb (str_eqb id) ids then None else hm_get id (m_sessions m)).
  Proof.
    intros ids. induction ids as [|id ids IH]; intros m who n E ND H L K.
    - exists (set_cleanups m (other_cleanups who (m_cleanups m))), []. cbn [List.length repeat run_calls step]. rewrite E, Nat.add_0_r. split; reflexivity.
    - change (S (List.length (id :: ids))) with (S (S (List.length ids))). cbn [repeat]. change (CleanupNext who :: repeat (CleanupNext who) (List.length ids)) with (repeat (@CleanupNext D who) (S (List.length ids))).
      cbn [run_calls step]. rewrite E. unfold remove_session.
      destruct (hm_get id (m_sessions m)) as [s|] eqn:G; [|exfalso; exact (H id (or_introl eq_refl) G)].
      pose proof (without_length id (m_sessions m) K) as W. unfold hm_has in W. rewrite G in W.
      destruct (m_count m) as [|k] eqn:Ek; [lia|].
      match goal with |- context [run_calls ?x _] => set (m1 := x) end.
      inversion ND as [|? ? N1 N2]; subst.
      destruct (IH m1 who (n + 1)) as (m' & out & R & G').
      + unfold m1. cbn [set_cleanups m_cleanups cleanup_of]. now rewrite Nat.eqb_refl.
      + exact N2.
      + intros i Hi. unfold m1. cbn [set_cleanups m_sessions]. rewrite get_without. destruct (str_eqb id i) eqn:Q.
        * apply str_eqb_eq in Q. subst i. contradiction.
        * apply H. now right.
      + unfold m1. cbn [set_cleanups m_sessions m_count]. lia.
      + unfold m1. cbn [set_cleanups m_sessions]. now apply without_keys.
      + rewrite R. exists m', (Dropped id true :: out). cbn [app List.length]. split; [now replace (n + S (List.length ids)) with (n + 1 + List.length ids) by lia|].
        intros i. rewrite G'. unfold m1. cbn [set_cleanups m_sessions existsb]. rewrite get_without, (name_eqb_sym i id).
        destruct (str_eqb id i), (existsb (str_eqb i) ids); reflexivity.
  Qed.
End Cleanup.
