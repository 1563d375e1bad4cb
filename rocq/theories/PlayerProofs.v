From Coq Require Import QArith Qabs Lqa.
From Verif Require Import Base FloatModel FloatProofs AnimSpec AnimProofs GpuGeom PlayerModel PlayerSpec.
Local Open Scope nat_scope.

Section Proofs.
  Variable X : outside.
  Notation player := (player X).
  Lemma run_app (p : player) l m : run X p (l ++ m) = match run X p l with Some (q, a) => match run X q m with Some (r, b) => Some (r, a ++ b) | None => None end | None => None end.
  Proof.
    revert p. induction l as [|[c o] l IH]; intros p; cbn [app run].
    - destruct (run X p m) as [[r b]|]; reflexivity.
    - destruct (step X p c o) as [[q a]|]; [|reflexivity]. rewrite IH. destruct (run X q l) as [[q1 a1]|]; [|reflexivity]. destruct (run X q1 m) as [[r b]|]; reflexivity.
  Qed.
  (* a property of the player and the calls so far *)
  Lemma run_ind (P : player -> list (N * op) -> Prop) : P (fresh X) [] ->
    (forall p l c o q a, P p l -> step X p c o = Some (q, a) -> P q (l ++ [(c, o)])) ->
    forall l p a, run X (fresh X) l = Some (p, a) -> P p l.
  Proof.
    intros H0 HS l. induction l as [|[c o] l IH] using rev_ind; intros p a E.
    - injection E as <- _. exact H0.
    - rewrite run_app in E. destruct (run X (fresh X) l) as [[q b]|]; [|discriminate]. cbn [run] in E. destruct (step X q c o) as [[r d]|] eqn:S; [|discriminate]. injection E as <- _.
      eapply HS; [eapply IH; reflexivity|exact S].
  Qed.

  (* --- frames --- *)
  Definition entry_ok (s : option str) (e : N * o_frame X) : Prop :=
    exists c t, s = Some c /\ (t / 40 * 40 = fst e)%N /\ o_draw X c (t / 10) = Some (snd e).
  Record fine (p : player) (l : list (N * op)) : Prop := Fi {
    n_script : p_script X p = in_use X l;
    n_cache : Forall (entry_ok (p_script X p)) (p_cache X p);
    n_max : p_max X p = cache_limit l;
    n_on : p_caching X p = cache_used l;
    n_off : p_caching X p = false -> p_cache X p = [];
    n_len : List.length (p_cache X p) <= Nat.max 1 (p_max X p) }.
  Lemma filter_len {A} (f : A -> bool) l : List.length (filter f l) <= List.length l.
  Proof. induction l as [|a l IH]; cbn; [lia|]. destruct (f a); cbn; lia. Qed.
  Lemma filter_drop {A} (f : A -> bool) l x : In x l -> f x = false -> List.length (filter f l) < List.length l.
  Proof. induction l as [|a l IH]; intros H E; [destruct H|]. cbn. destruct H as [->|H]; [rewrite E; pose proof (filter_len f l); lia|]. specialize (IH H E). destruct (f a); cbn; lia. Qed.
  Lemma least_in (l : list (N * o_frame X)) : forall m, least X l m = m \/ exists e, In e l /\ fst e = least X l m.
  Proof.
    induction l as [|[k f] l IH]; intros m; cbn [least]; [auto|]. destruct (IH (N.min m k)) as [E|(e & H & E)].
    - rewrite E. destruct (N.min_spec m k) as [[_ ->]|[_ ->]]; [auto|]. right. exists (k, f). split; [left; reflexivity|reflexivity].
    - right. exists e. split; [right; exact H|exact E].
  Qed.
  Lemma drop_less (l : list (N * o_frame X)) : l <> [] -> List.length (drop_least X l) < List.length l.
  Proof.
    destruct l as [|[k f] r]; [contradiction|]. intros _. unfold drop_least, cache_remove. destruct (least_in r k) as [E|(e & H & E)].
    - apply filter_drop with (x := (k, f)); [left; reflexivity|]. cbn [fst]. rewrite E, N.eqb_refl. reflexivity.
    - apply filter_drop with (x := e); [right; exact H|]. rewrite E, N.eqb_refl. reflexivity.
  Qed.
  Lemma drop_keeps P (l : list (N * o_frame X)) : Forall P l -> Forall P (drop_least X l).
  Proof. intros H. destruct l as [|[k f] r]; [exact H|]. unfold drop_least, cache_remove. rewrite Forall_forall in *. intros x Hx. apply filter_In in Hx. apply H, Hx. Qed.
  Lemma trim_ok size : forall n l, List.length l <= n -> List.length (trim X n size l) <= size \/ List.length (trim X n size l) <= 0.
  Proof.
    induction n as [|n IH]; intros l H; cbn [trim]; [lia|]. destruct (Nat.ltb_spec size (List.length l)) as [L|L]; [|lia].
    apply IH. destruct l as [|e l]; [cbn in L; lia|]. pose proof (drop_less (e :: l) ltac:(discriminate)). lia.
  Qed.
  Lemma trim_keeps P size : forall n l, Forall P l -> Forall P (trim X n size l).
  Proof. induction n as [|n IH]; intros l H; cbn [trim]; [exact H|]. destruct (size <? List.length l); [apply IH, drop_keeps, H|exact H]. Qed.
  Lemma trim_nil n size : trim X n size [] = [].
  Proof. destruct n; reflexivity. Qed.

  Definition same_rest (p q : player) : Prop :=
    p_script X q = p_script X p /\ p_cache X q = p_cache X p /\ p_max X q = p_max X p /\ p_caching X q = p_caching X p.
  Lemma fine_same p q l o : fine p l -> same_rest p q -> (forall s, snd o <> Load s) -> (forall n, snd o <> CacheSize n) -> (forall b, snd o <> Caching b) -> fine q (l ++ [o]).
  Proof.
    intros [A B C D E F] (S1 & S2 & S3 & S4) N1 N2 N3. unfold in_use, cache_limit, cache_used in *.
    split; unfold in_use, cache_limit, cache_used; rewrite ?S1, ?S2, ?S3, ?S4, ?fold_left_app; cbn [fold_left]; auto; destruct (snd o) eqn:K; auto; try (exfalso; eapply N1; eauto; fail); try (exfalso; eapply N2; eauto; fail); try (exfalso; eapply N3; eauto; fail).
  Qed.
  Definition rendered (p q : player) (a : outcome X) : Prop :=
    match a with
    | Shown _ f t n => t = p_now X p /\ (n = t / 40)%N /\ p_now X q = t /\
        exists s u, p_script X p = Some s /\ (u / 40 = t / 40)%N /\ o_draw X s (u / 10) = Some f /\ (p_caching X p = false -> u = t)
    | Fine _ => False
    | _ => True
    end.
  Lemma render_ok p l c o : fine p l -> (o = Render \/ o = Update) ->
    forall q a, render_current_frame X p = (q, a) -> fine q (l ++ [(c, o)]) /\ rendered p q a.
  Proof.
    intros F O q a E. unfold render_current_frame in E.
    assert (Same : fine p (l ++ [(c, o)])) by (apply (fine_same p p l (c, o) F); [repeat split|..]; destruct O as [-> | ->]; discriminate).
    destruct (if p_caching X p then cache_get X (p_cache X p) (p_now X p / interval * interval) else None) as [f|] eqn:G.
    - injection E as <- <-. split; [exact Same|]. cbn [rendered]. split; [reflexivity|]. split; [reflexivity|]. split; [reflexivity|].
      destruct (p_caching X p) eqn:On; [|discriminate]. pose proof (n_cache _ _ F) as B. revert G B. clear. induction (p_cache X p) as [|[j g] r IH]; cbn [cache_get]; [discriminate|].
      intros G B. inversion B as [|? ? B1 B2]; subst. destruct (N.eqb_spec j (p_now X p / interval * interval)) as [->|]; [|apply IH; auto]. injection G as ->.
      destruct B1 as (s & t & Es & Et & Ed). cbn [fst snd] in *. exists s, t. split; [exact Es|]. split; [|split; [exact Ed|discriminate]]. unfold interval in Et.
      apply N.mul_cancel_r in Et; [exact Et|lia].
    - destruct (p_script X p) as [s|] eqn:Es; [|injection E as <- <-; split; [exact Same|exact I]].
      destruct (o_ends X s); [|injection E as <- <-; split; [exact Same|exact I]].
      destruct (o_draw X s (p_now X p / 10)) as [f|] eqn:Ed; [|injection E as <- <-; split; [exact Same|exact I]].
      assert (R : rendered p q (Shown X f (p_now X p) (p_now X p / interval)) -> True) by auto.
      destruct (p_caching X p) eqn:On.
      + injection E as <- <-. split.
        * clear G. destruct Same as [A B C D G H]. split; cbn [with_cache p_script p_cache p_max p_caching]; auto.
          -- constructor.
             ++ exists s, (p_now X p). rewrite Es. cbn [fst snd]. auto.
             ++ unfold cache_remove. assert (Forall (entry_ok (p_script X p)) (if p_max X p <=? List.length (p_cache X p) then drop_least X (p_cache X p) else p_cache X p)) as K by (destruct (_ <=? _); [apply drop_keeps|]; exact B).
                rewrite Forall_forall in *. intros x Hx. apply filter_In in Hx. apply K, Hx.
          -- congruence.
          -- discriminate.
          -- cbn [List.length]. unfold cache_remove. set (m := if p_max X p <=? List.length (p_cache X p) then _ else _).
             pose proof (filter_len (fun e => negb (fst e =? p_now X p / interval * interval)%N) m) as FL.
             assert (LM : List.length m < Nat.max 1 (p_max X p)); [|lia]. unfold m. destruct (Nat.leb_spec (p_max X p) (List.length (p_cache X p))) as [L|L]; [|lia].
             destruct (p_cache X p) as [|e r] eqn:Ec; [cbn [drop_least List.length]; lia|]. pose proof (drop_less (e :: r) ltac:(discriminate)). lia.
        * cbn [rendered with_cache p_now]. repeat (split; [reflexivity|]). exists s, (p_now X p). auto.
      + injection E as <- <-. split; [exact Same|]. cbn [rendered]. repeat (split; [reflexivity|]). exists s, (p_now X p). auto.
  Qed.
  Lemma moved_rest p t pl lo sp si fr ac : same_rest p (moved X p t pl lo sp si fr ac).
  Proof. repeat split. Qed.
  Lemma jump_rest p c t : same_rest p (jump X p c t).
  Proof. unfold jump. destruct (p_playing X p); apply moved_rest. Qed.
  Lemma speed_rest p c v : same_rest p (set_speed X p c v).
  Proof. unfold set_speed. destruct (if p_playing X p then p_since X p else None); apply moved_rest. Qed.
  Lemma fine_moved p q l : fine p l -> same_rest p q -> fine q l.
  Proof. intros [A B C D E F] (S1 & S2 & S3 & S4). split; rewrite ?S1, ?S2, ?S3, ?S4; auto. Qed.
  Lemma step_fine p l c o q a : fine p l -> step X p c o = Some (q, a) ->
    fine q (l ++ [(c, o)]) /\ match a with Shown _ f t n => t = p_now X q /\ (n = t / 40)%N /\ exists s u, in_use X l = Some s /\ (u / 40 = t / 40)%N /\ o_draw X s (u / 10) = Some f /\ (cache_used l = false -> u = t) | _ => True end.
  Proof.
    intros F E.
    assert (Q : forall r, same_rest p r -> Some (r, Fine X) = Some (q, a) -> (forall s, o <> Load s) -> (forall n, o <> CacheSize n) -> (forall b, o <> Caching b) -> fine q (l ++ [(c, o)]) /\ match a with Shown _ f t n => t = p_now X q /\ (n = t / 40)%N /\ exists s u, in_use X l = Some s /\ (u / 40 = t / 40)%N /\ o_draw X s (u / 10) = Some f /\ (cache_used l = false -> u = t) | _ => True end).
    { intros r S K N1 N2 N3. injection K as <- <-. split; [eapply fine_same; eauto|exact I]. }
    assert (Rn : forall r, same_rest p r -> Some (render_current_frame X r) = Some (q, a) -> (o = Render \/ o = Update) -> fine q (l ++ [(c, o)]) /\ match a with Shown _ f t n => t = p_now X q /\ (n = t / 40)%N /\ exists s u, in_use X l = Some s /\ (u / 40 = t / 40)%N /\ o_draw X s (u / 10) = Some f /\ (cache_used l = false -> u = t) | _ => True end).
    { intros r S K O. injection K as K. destruct (render_ok r l c o (fine_moved _ _ _ F S) O q a K) as [R1 R2]. split; [exact R1|].
      destruct a as [f t n| | | | | ]; auto. cbn [rendered] in R2. destruct R2 as (R2 & R3 & R4 & s & u & R5 & R6 & R7 & R8). split; [auto|]. split; [exact R3|]. exists s, u.
      destruct S as (S1 & _ & _ & S4). rewrite <- (n_script _ _ F), <- (n_on _ _ F), <- S1, <- S4. auto. }
    destruct o; cbn [step] in E; try (eapply Q; [| exact E|discriminate..]; first [apply moved_rest|apply jump_rest|apply speed_rest]; fail).
    - unfold load_script in E. destruct (o_ends X s) as [es|] eqn:Ee.
      + destruct (latest es 0) as [m|]; [|discriminate]. injection E as <- <-. split; [|exact I]. destruct F as [A B C D G H].
        split; unfold in_use, cache_limit, cache_used in *; rewrite ?fold_left_app; cbn [fold_left snd p_script p_cache p_max p_caching]; auto; [rewrite Ee; reflexivity|cbn; lia].
      + injection E as <- <-. split; [|exact I]. destruct F as [A B C D G H].
        split; unfold in_use, cache_limit, cache_used in *; rewrite ?fold_left_app; cbn [fold_left snd]; auto. rewrite Ee. exact A.
    - destruct (step_forward X p c) as [r|] eqn:Es; [|discriminate]. unfold step_forward in Es. destruct (add_u32 _ _); [|discriminate]. injection Es as <-.
      eapply Q; [|exact E|discriminate..]. apply jump_rest.
    - injection E as <- <-. split; [|exact I]. destruct F as [A B C D G H]. split; unfold in_use, cache_limit, cache_used in *; rewrite ?fold_left_app; cbn [set_cache_enabled with_cache fold_left snd p_script p_cache p_max p_caching]; auto.
      + destruct on; [exact B|constructor].
      + intros ->. reflexivity.
      + destruct on; [exact H|cbn; lia].
    - injection E as <- <-. split; [|exact I]. destruct F as [A B C D G H]. split; unfold in_use, cache_limit, cache_used in *; rewrite ?fold_left_app; cbn [set_max_cache_size with_cache fold_left snd p_script p_cache p_max p_caching]; auto.
      + apply trim_keeps. exact B.
      + intros K. rewrite (G K). apply trim_nil.
      + destruct (trim_ok n (List.length (p_cache X p)) (p_cache X p) (le_n _)); lia.
    - eapply Rn; [|exact E|auto]. repeat split.
    - unfold update in E. destruct (p_playing X p); cbn [negb] in E.
      + destruct (p_since X p) as [s|]; [|eapply Rn; [|exact E|auto]; repeat split].
        destruct (add_u32 _ _) as [t|]; [|discriminate]. destruct (p_end X p <=? t)%N; [destruct (p_loop X p)|].
        * eapply Rn; [|exact E|auto]. apply moved_rest.
        * injection E as <- <-. split; [|exact I]. eapply fine_same; [exact F|apply moved_rest|discriminate..].
        * eapply Rn; [|exact E|auto]. apply moved_rest.
      + injection E as <- <-. split; [|exact I]. eapply fine_same; [exact F|repeat split|discriminate..].
  Qed.
  Lemma fine_run l p a : run X (fresh X) l = Some (p, a) -> fine p l.
  Proof.
    revert l p a. apply run_ind.
    - split; cbn; auto. lia.
    - intros p l c o q a F E. eapply step_fine; eauto.
  Qed.

  (* --- the position --- *)
  Lemma render_now p q a : render_current_frame X p = (q, a) -> p_now X q = p_now X p /\ p_end X q = p_end X p.
  Proof.
    unfold render_current_frame. destruct (if p_caching X p then _ else _); [intros [= <- _]; auto|]. destruct (p_script X p); [|intros [= <- _]; auto].
    destruct (o_ends X l); [|intros [= <- _]; auto]. destruct (o_draw X l _); [|intros [= <- _]; auto]. destruct (p_caching X p); intros [= <- _]; auto.
  Qed.
  Lemma step_range p c o q a : (p_now X p <= p_end X p)%N -> is_load o = false -> step X p c o = Some (q, a) -> (p_now X q <= p_end X q)%N /\ p_end X q = p_end X p.
  Proof.
    intros H L E. assert (J : forall t, (t <= p_end X p)%N -> (p_now X (jump X p c t) <= p_end X (jump X p c t))%N /\ p_end X (jump X p c t) = p_end X p).
    { intros t Ht. unfold jump. destruct (p_playing X p); cbn; auto. }
    assert (S : forall v, (p_now X (set_speed X p c v) <= p_end X (set_speed X p c v))%N /\ p_end X (set_speed X p c v) = p_end X p).
    { intros v. unfold set_speed. destruct (if p_playing X p then p_since X p else None); cbn; auto. }
    destruct o; cbn [step is_load] in *; try discriminate; try (injection E as <- _; first [apply S|apply J; lia|split; [exact H|reflexivity]]; fail).
    - injection E as <- _. cbn. lia.
    - unfold step_forward in E. destruct (add_u32 _ _); [|discriminate]. injection E as <- _. apply J. lia.
    - injection E as E. destruct (render_now _ _ _ E) as [-> ->]. auto.
    - unfold update in E. destruct (p_playing X p); cbn [negb] in E; [|injection E as <- _; auto].
      destruct (p_since X p); [|injection E as E; destruct (render_now _ _ _ E) as [-> ->]; auto].
      destruct (add_u32 _ _) as [t|]; [|discriminate]. destruct (N.leb_spec (p_end X p) t) as [K|K].
      + destruct (p_loop X p); [injection E as E; destruct (render_now _ _ _ E) as [-> ->]; cbn; lia|injection E as <- _; cbn; lia].
      + injection E as E. destruct (render_now _ _ _ E) as [-> ->]. cbn. lia.
  Qed.
  Lemma run_range : forall l p q a, (p_now X p <= p_end X p)%N -> forallb (fun o => negb (is_load (snd o))) l = true -> run X p l = Some (q, a) -> (p_now X q <= p_end X q)%N /\ p_end X q = p_end X p.
  Proof.
    induction l as [|[c o] l IH]; intros p q a H L E; cbn [run forallb] in *; [injection E as <- _; auto|].
    apply andb_prop in L. destruct L as [L1 L2]. destruct (step X p c o) as [[r b]|] eqn:S; [|discriminate]. destruct (run X r l) as [[z t]|] eqn:R; [|discriminate]. injection E as <- _.
    destruct (step_range p c o r b H) as [H1 H2]; [cbn [snd] in L1; destruct (is_load o); [discriminate L1|reflexivity]|exact S|]. destruct (IH r z t H1 L2 R) as [K1 K2]. split; [exact K1|congruence].
  Qed.
End Proofs.

Section Clock.
  Local Open Scope Q_scope.
  Lemma nat_exact n : (n <= 16777216)%N -> exists v, f_of_N f32 n = Fin v /\ v == inject_Z (Z.of_N n).
  Proof. intros H. exact (int_exact (Z.of_N n) ltac:(lia)). Qed.
  Lemma nonneg_round q v : 0 <= q -> round_to f32 q = Fin v -> 0 <= v.
  Proof. intros H E. apply (mono_fin 0 q 0 v H); [reflexivity|exact E]. Qed.
  Lemma secs_near ns : (ns < 2 ^ 44)%N -> exists v, as_secs_f32 ns = Fin v /\ 0 <= v /\ Qabs (v - inject_Z (Z.of_N ns) / 1000000000) <= (4 * eps) * (inject_Z (Z.of_N ns) / 1000000000) + 5 * eta.
  Proof.
    intros H. unfold as_secs_f32. pose proof (N.div_mod ns 1000000000 ltac:(lia)) as DM. pose proof (N.mod_lt ns 1000000000 ltac:(lia)) as ML.
    set (s := (ns / 1000000000)%N) in *. set (n := (ns mod 1000000000)%N) in *. clearbody s n.
    destruct (nat_exact s) as (a & -> & Ea). { change (2 ^ 44)%N with 17592186044416%N in H. lia. }
    assert (N0 : 0 <= inject_Z (Z.of_N n)) by (change 0 with (inject_Z 0); rewrite <- Zle_Qle; lia).
    assert (N1 : inject_Z (Z.of_N n) <= 1000000000) by (change 1000000000 with (inject_Z 1000000000); rewrite <- Zle_Qle; lia).
    assert (A0 : 0 <= inject_Z (Z.of_N s)) by (change 0 with (inject_Z 0); rewrite <- Zle_Qle; lia).
    assert (A1 : inject_Z (Z.of_N s) <= 17593) by (change 17593 with (inject_Z 17593); rewrite <- Zle_Qle; change (2 ^ 44)%N with 17592186044416%N in H; lia).
    assert (EN : inject_Z (Z.of_N ns) == 1000000000 * inject_Z (Z.of_N s) + inject_Z (Z.of_N n)).
    { rewrite DM, N2Z.inj_add, N2Z.inj_mul, inject_Z_plus, inject_Z_mult. reflexivity. }
    unfold f_of_N at 1, f_of_Z. destruct (rel_err (inject_Z (Z.of_N n))) as (b & Eb & Hb). { rewrite (Qabs_pos _ N0). change (2 ^ 60) with 1152921504606846976. lra. }
    pose proof (nonneg_round _ _ N0 Eb) as B0. rewrite Eb. rewrite (Qabs_pos _ N0) in Hb.
    assert (E9 : exists g, f_of_N f32 1000000000 = Fin g /\ g == 1000000000 /\ qzero g = false) by (vm_compute; eauto). destruct E9 as (g & -> & Eg & Zg).
    cbn [f_div]. rewrite Zg. assert (Eq : b / g == b * (1 # 1000000000)) by (rewrite Eg; field).
    assert (Q0 : 0 <= b / g) by (rewrite Eq; lra).
    apply Qabs_Qle_condition in Hb. unfold eps, eta in *.
    destruct (rel_err (b / g)) as (c & Ec & Hc). { rewrite (Qabs_pos _ Q0). rewrite Eq. change (2 ^ 60) with 1152921504606846976. lra. }
    pose proof (nonneg_round _ _ Q0 Ec) as C0. rewrite Ec. rewrite (Qabs_pos _ Q0) in Hc. rewrite Eq in Hc. apply Qabs_Qle_condition in Hc.
    cbn [f_add]. assert (S0 : 0 <= a + c) by lra. unfold eps, eta in *.
    destruct (rel_err (a + c)) as (v & Ev & Hv). { rewrite (Qabs_pos _ S0). change (2 ^ 60) with 1152921504606846976. lra. }
    pose proof (nonneg_round _ _ S0 Ev) as V0. rewrite (Qabs_pos _ S0) in Hv. apply Qabs_Qle_condition in Hv. unfold eps, eta in *.
    exists v. split; [exact Ev|]. split; [exact V0|]. apply Qabs_Qle_condition. rewrite EN.
    setoid_replace ((1000000000 * inject_Z (Z.of_N s) + inject_Z (Z.of_N n)) / 1000000000) with (inject_Z (Z.of_N s) + inject_Z (Z.of_N n) * (1 # 1000000000)) by field. lra.
  Qed.
  Lemma elapsed_near c ns sp : (ns < 2 ^ 44)%N -> 0 <= sp <= 10 -> exists v, elapsed (c + ns) c (Fin sp) = Fin v /\ 0 <= v /\ Qabs (v - played ns sp) <= (8 * eps) * played ns sp + 200000 * eta.
  Proof.
    intros H [P1 P2]. unfold elapsed. replace (c + ns - c)%N with ns by lia. destruct (secs_near ns H) as (s & -> & S0 & Hs).
    set (x := inject_Z (Z.of_N ns) / 1000000000) in *.
    assert (X0 : 0 <= x). { unfold x. apply Qle_shift_div_l; [lra|]. rewrite Qmult_0_l. change 0 with (inject_Z 0). rewrite <- Zle_Qle. lia. }
    assert (X1 : x <= 17593). { unfold x. apply Qle_shift_div_r; [lra|]. change (17593 * 1000000000) with (inject_Z 17593000000000). rewrite <- Zle_Qle. change (2 ^ 44)%N with 17592186044416%N in H. lia. }
    assert (EM : played ns sp == 1000 * x * sp) by (unfold played, x; field). clearbody x.
    apply Qabs_Qle_condition in Hs. unfold eps, eta in *. cbn [f_mul].
    assert (M0 : 0 <= s * 1000) by lra.
    destruct (rel_err (s * 1000)) as (m & Em & Hm). { rewrite (Qabs_pos _ M0). change (2 ^ 60) with 1152921504606846976. lra. }
    pose proof (nonneg_round _ _ M0 Em) as m0. rewrite Em. rewrite (Qabs_pos _ M0) in Hm. apply Qabs_Qle_condition in Hm. unfold eps, eta in *.
    set (y := 1000 * x) in *. assert (Hy : - ((6 # 16777216) * y + 10000 * (1 # 1152921504606846976)) <= m - y <= (6 # 16777216) * y + 10000 * (1 # 1152921504606846976)) by (unfold y; lra).
    assert (Y0 : 0 <= y <= 17593000) by (unfold y; lra). clearbody y.
    assert (W0 : 0 <= m * sp) by (apply Qmult_le_0_compat; assumption).
    assert (W1 : m * sp <= 20000000 * 10). { apply Qle_trans with (20000000 * sp); [apply Qmult_le_compat_r; lra|lra]. }
    cbn [f_mul]. destruct (rel_err (m * sp)) as (v & Ev & Hv). { rewrite (Qabs_pos _ W0). change (2 ^ 60) with 1152921504606846976. lra. }
    pose proof (nonneg_round _ _ W0 Ev) as V0. rewrite (Qabs_pos _ W0) in Hv. apply Qabs_Qle_condition in Hv. unfold eps, eta in *.
    exists v. split; [exact Ev|]. split; [exact V0|].
    assert (L : (m - y) * sp <= ((6 # 16777216) * y + 10000 * (1 # 1152921504606846976)) * sp) by (apply Qmult_le_compat_r; lra).
    assert (G : (- ((6 # 16777216) * y + 10000 * (1 # 1152921504606846976))) * sp <= (m - y) * sp) by (apply Qmult_le_compat_r; lra).
    assert (Z0 : 0 <= y * sp) by (apply Qmult_le_0_compat; lra).
    apply Qabs_Qle_condition. rewrite EM. lra.
  Qed.
  Lemma trunc_near v : 0 <= v -> v <= 4294967295 -> exists t, f_to_N u32_max (Fin v) = t /\ inject_Z (Z.of_N t) <= v < inject_Z (Z.of_N t) + 1.
  Proof.
    intros H U. eexists. split; [reflexivity|]. unfold f_to_N, f_to_Z, u32_max. destruct v as [n d]. cbn [Qnum Qden].
    assert (N0 : (0 <= n)%Z) by (unfold Qle in H; cbn in H; lia). assert (U0 : (n <= 4294967295 * Zpos d)%Z) by (unfold Qle in U; cbn in U; lia).
    rewrite Z.quot_div_nonneg by lia. assert (D1 : (0 <= n / Zpos d <= 4294967295)%Z). { split; [apply Z.div_pos; lia|]. apply Z.div_le_upper_bound; lia. }
    rewrite Z2N.id by lia. rewrite Z.min_r, Z.max_r by lia. pose proof (Z.div_mod n (Zpos d) ltac:(lia)). pose proof (Z.mod_pos_bound n (Zpos d) ltac:(lia)).
    unfold Qle, Qlt, Qplus, inject_Z. cbn [Qnum Qden]. split; nia.
  Qed.
  Lemma position_near c ns sp : (ns < 2 ^ 44)%N -> 0 <= sp <= 10 -> exists t, f_to_N u32_max (f_add f32 (elapsed (c + ns) c (Fin sp)) (Fin 0)) = t /\
    Qabs (inject_Z (Z.of_N t) - played ns sp) < 1 + (played ns sp + 1) / 1048576.
  Proof.
    intros H P. destruct (elapsed_near c ns sp H P) as (v & -> & V0 & Hv). cbn [f_add].
    assert (Z0 : 0 <= played ns sp). { unfold played. apply Qmult_le_0_compat; [|lra]. apply Qle_shift_div_l; [lra|]. rewrite Qmult_0_l. change 0 with (inject_Z 0). rewrite <- Zle_Qle. lia. }
    assert (Z1 : played ns sp <= 17593000 * 10). { unfold played. apply Qle_trans with (17593000 * sp); [|lra]. apply Qmult_le_compat_r; [|lra]. apply Qle_shift_div_r; [lra|]. change (17593000 * 1000000) with (inject_Z 17593000000000). rewrite <- Zle_Qle. change (2 ^ 44)%N with 17592186044416%N in H. lia. }
    set (z := played ns sp) in *. clearbody z. apply Qabs_Qle_condition in Hv. unfold eps, eta in *.
    assert (W0 : 0 <= v + 0) by lra. destruct (rel_err (v + 0)) as (w & Ew & Hw). { rewrite (Qabs_pos _ W0). change (2 ^ 60) with 1152921504606846976. lra. }
    pose proof (nonneg_round _ _ W0 Ew) as w0. rewrite (Qabs_pos _ W0) in Hw. apply Qabs_Qle_condition in Hw. unfold eps, eta in *. rewrite Ew.
    destruct (trunc_near w w0 ltac:(lra)) as (t & -> & T1 & T2). exists t. split; [reflexivity|]. apply Qabs_Qlt_condition.
    setoid_replace ((z + 1) / 1048576) with ((1 # 1048576) * (z + 1)) by field. split; lra.
  Qed.
  (* monotone *)
  Lemma secs_mono a b : (a <= b)%N -> (b < 2 ^ 44)%N -> forall v w, as_secs_f32 a = Fin v -> as_secs_f32 b = Fin w -> v <= w.
  Proof.
    intros L H v w. unfold as_secs_f32. pose proof (N.mod_lt a 1000000000 ltac:(lia)) as Ma. pose proof (N.mod_lt b 1000000000 ltac:(lia)) as Mb.
    pose proof (N.div_mod a 1000000000 ltac:(lia)) as Da. pose proof (N.div_mod b 1000000000 ltac:(lia)) as Db.
    set (sa := (a / 1000000000)%N) in *. set (na := (a mod 1000000000)%N) in *. set (sb := (b / 1000000000)%N) in *. set (nb := (b mod 1000000000)%N) in *. clearbody sa na sb nb.
    change (2 ^ 44)%N with 17592186044416%N in H.
    destruct (nat_exact sa ltac:(lia)) as (x & -> & Ex). destruct (nat_exact sb ltac:(lia)) as (y & -> & Ey).
    assert (E9 : exists g, f_of_N f32 1000000000 = Fin g /\ g == 1000000000 /\ qzero g = false) by (vm_compute; eauto). destruct E9 as (g & E9 & Eg & Zg). 
    assert (K : forall n, (n < 1000000000)%N -> exists p q, f_of_N f32 n = Fin p /\ 0 <= p <= 1000000000 /\ round_to f32 (p / g) = Fin q /\ 0 <= q <= 1).
    { intros n Hn. unfold f_of_N, f_of_Z. assert (I0 : 0 <= inject_Z (Z.of_N n)) by (change 0 with (inject_Z 0); rewrite <- Zle_Qle; lia).
      assert (I1 : inject_Z (Z.of_N n) <= inject_Z 1000000000) by (rewrite <- Zle_Qle; lia).
      destruct (rel_err (inject_Z (Z.of_N n))) as (p & Ep & _). { rewrite (Qabs_pos _ I0). change (2 ^ 60) with 1152921504606846976. change (inject_Z 1000000000) with 1000000000 in I1. lra. }
      pose proof (nonneg_round _ _ I0 Ep) as p0. assert (p1 : p <= 1000000000). { rewrite <- Eg. eapply mono_fin; [exact I1|exact Ep|exact E9]. }
      assert (Eq0 : p / g == p * (1 # 1000000000)) by (rewrite Eg; field). assert (Q0 : 0 <= p / g) by (rewrite Eq0; lra). assert (Q1 : p / g <= 1) by (rewrite Eq0; lra).
      destruct (rel_err (p / g)) as (q & Eq & _). { rewrite (Qabs_pos _ Q0). change (2 ^ 60) with 1152921504606846976. lra. }
      exists p, q. split; [exact Ep|]. split; [lra|]. split; [exact Eq|]. split; [eapply nonneg_round; eassumption|]. assert (O : exists o, round_to f32 1 = Fin o /\ o == 1) by (vm_compute; eauto). destruct O as (o & Eo & Vo). rewrite <- Vo. eapply mono_fin; [exact Q1|exact Eq|exact Eo]. }
    destruct (K na Ma) as (pa & qa & Ea & Pa & Qa & Ra). destruct (K nb Mb) as (pb & qb & Eb & Pb & Qb & Rb).
    rewrite E9, Ea, Eb. cbn [f_div]. rewrite Zg, Qa, Qb. cbn [f_add]. intros E1 E2.
    assert (M : x + qa <= y + qb); [|eapply mono_fin; [exact M|exact E1|exact E2]]. rewrite Ex, Ey.
    destruct (N.eq_dec sa sb) as [Eq|Ne].
    - subst sb. assert (na <= nb)%N by lia. assert (pa <= pb). { unfold f_of_N, f_of_Z in Ea, Eb. eapply mono_fin; [|exact Ea|exact Eb]. rewrite <- Zle_Qle. lia. }
      assert (qa <= qb). { eapply mono_fin; [|exact Qa|exact Qb]. setoid_replace (pa / g) with (pa * (1 # 1000000000)) by (rewrite Eg; field). setoid_replace (pb / g) with (pb * (1 # 1000000000)) by (rewrite Eg; field). lra. } lra.
    - assert (sa + 1 <= sb)%N by nia. assert (inject_Z (Z.of_N sa) + 1 <= inject_Z (Z.of_N sb)). { change 1 with (inject_Z 1). rewrite <- inject_Z_plus, <- Zle_Qle. lia. } lra.
  Qed.
  Lemma elapsed_mono c a b sp : (a <= b)%N -> (b < 2 ^ 44)%N -> 0 <= sp <= 10 ->
    (f_to_N u32_max (f_add f32 (elapsed (c + a) c (Fin sp)) (Fin 0)) <= f_to_N u32_max (f_add f32 (elapsed (c + b) c (Fin sp)) (Fin 0)))%N.
  Proof.
    intros L H P. destruct (elapsed_near c a sp ltac:(lia) P) as (v & Ev & V0 & Hv). destruct (elapsed_near c b sp H P) as (w & Ew & W0 & Hw).
    assert (M : v <= w).
    { unfold elapsed in Ev, Ew. replace (c + a - c)%N with a in Ev by lia. replace (c + b - c)%N with b in Ew by lia.
      destruct (secs_near a ltac:(lia)) as (s & Es & S0 & _). destruct (secs_near b H) as (u & Eu & U0 & _). pose proof (secs_mono a b L H s u Es Eu) as SM.
      rewrite Es in Ev. rewrite Eu in Ew. cbn [f_mul] in Ev, Ew.
      destruct (round_to f32 (s * 1000)) as [| |m] eqn:Em; cbn [f_mul] in Ev; [discriminate|destruct (qzero sp); discriminate|]. destruct (round_to f32 (u * 1000)) as [| |n] eqn:En; cbn [f_mul] in Ew; [discriminate|destruct (qzero sp); discriminate|].
      assert (m <= n) by (eapply mono_fin; [|exact Em|exact En]; lra). eapply mono_fin; [|exact Ev|exact Ew]. apply Qmult_le_compat_r; lra. }
    rewrite Ev, Ew. cbn [f_add].
    pose proof (round_mono f32 ltac:(split; cbn; lia) (v + 0) (w + 0) ltac:(lra)) as RM.
    destruct (round_to f32 (v + 0)) as [|[|]|x] eqn:Ex; [discriminate|..]; destruct (round_to f32 (w + 0)) as [|[|]|y] eqn:Ey; try discriminate; cbn [f_le] in RM; try (unfold f_to_N, f_to_Z; lia).
    - apply Qle_bool_iff in RM. unfold f_to_N, f_to_Z. apply Z2N.inj_le; [lia..|]. assert (Z.quot (Qnum x) (Zpos (Qden x)) <= Z.quot (Qnum y) (Zpos (Qden y)))%Z; [|lia].
      assert (X0 : 0 <= x) by (apply (nonneg_round (v + 0)); [lra|exact Ex]). destruct x as [n d], y as [m e]. unfold Qle in *. cbn [Qnum Qden] in *.
      rewrite !Z.quot_div_nonneg by nia. apply Z.div_le_lower_bound; [lia|]. pose proof (Z.mul_div_le n (Zpos d) ltac:(lia)). nia.
  Qed.
End Clock.

Section Playing.
  Variable X : outside.
  Definition anchored (p : player X) (c b : N) (sp : float) (e : N) : Prop :=
    p_playing X p = true /\ p_loop X p = false /\ p_since X p = Some c /\ p_from X p = b /\ p_acc X p = Fin 0 /\ p_speed X p = sp /\ p_end X p = e.
  Lemma set_anchors p c o q a : sets_position o = true -> step X p c o = Some (q, a) -> p_playing X q = true -> p_loop X p = false -> anchored q c (p_now X q) (p_speed X p) (p_end X p).
  Proof.
    intros S E P L. unfold anchored.
    assert (J : forall t, p_playing X (jump X p c t) = true -> p_playing X (jump X p c t) = true /\ p_loop X (jump X p c t) = false /\ p_since X (jump X p c t) = Some c /\ p_from X (jump X p c t) = p_now X (jump X p c t) /\ p_acc X (jump X p c t) = Fin 0 /\ p_speed X (jump X p c t) = p_speed X p /\ p_end X (jump X p c t) = p_end X p).
    { intros t. unfold jump. destruct (p_playing X p); cbn; [auto 10|discriminate]. }
    destruct o; try discriminate; cbn [step] in E.
    - injection E as <- _. cbn. auto 10.
    - injection E as <- _. apply J. exact P.
    - unfold step_forward in E. destruct (add_u32 _ _); [|discriminate]. injection E as <- _. apply J. exact P.
    - injection E as <- _. apply J. exact P.
  Qed.
  Lemma render_same p q a : render_current_frame X p = (q, a) -> p_playing X q = p_playing X p /\ p_loop X q = p_loop X p /\ p_since X q = p_since X p /\ p_from X q = p_from X p /\ p_acc X q = p_acc X p /\ p_speed X q = p_speed X p /\ p_end X q = p_end X p /\ p_now X q = p_now X p.
  Proof.
    unfold render_current_frame. destruct (if p_caching X p then _ else _); [intros [= <- _]; auto 10|]. destruct (p_script X p); [|intros [= <- _]; auto 10].
    destruct (o_ends X l); [|intros [= <- _]; auto 10]. destruct (o_draw X l _); [|intros [= <- _]; auto 10]. destruct (p_caching X p); intros [= <- _]; auto 10.
  Qed.
  Definition position (c clock b : N) (sp : float) : N := (b + f_to_N u32_max (f_add f32 (elapsed clock c sp) (Fin 0)))%N.
  Lemma update_is p c b sp e clock : anchored p c b sp e -> (position c clock b sp <= u32_max)%N ->
    exists r d, update X p clock = Some (r, d) /\
      ((position c clock b sp < e)%N -> p_now X r = position c clock b sp /\ anchored r c b sp e) /\
      ((e <= position c clock b sp)%N -> p_now X r = e /\ p_playing X r = false).
  Proof.
    intros (A1 & A2 & A3 & A4 & A5 & A6 & A7) O. unfold update. rewrite A1, A3, A4, A5, A6, A7. cbn [negb]. unfold add_u32. fold (position c clock b sp).
    rewrite (proj2 (N.leb_le _ _) O). destruct (N.leb_spec e (position c clock b sp)) as [L|L].
    - rewrite A2. do 2 eexists. split; [reflexivity|]. split; [lia|]. intros _. cbn. auto.
    - destruct (render_current_frame X _) as [r d] eqn:E. exists r, d. split; [reflexivity|]. split; [|lia]. intros _. apply render_same in E. cbn in E.
      destruct E as (E1 & E2 & E3 & E4 & E5 & E6 & E7 & E8). split; [exact E8|]. unfold anchored. rewrite E1, E2, E3, E4, E5, E6, E7. auto 10.
  Qed.
  Lemma keeps_playing c b sp e : forall l p q a, anchored p c b sp e -> forallb (fun o => match snd o with Update | Render => true | _ => false end) l = true ->
    run X p l = Some (q, a) -> p_playing X q = true -> anchored q c b sp e.
  Proof.
    induction l as [|[k o] l IH]; intros p q a A F E P; cbn [run forallb snd] in *; [injection E as <- _; exact A|].
    apply andb_prop in F. destruct F as [F1 F2]. destruct (step X p k o) as [[r d]|] eqn:S; [|discriminate]. destruct (run X r l) as [[z t]|] eqn:R; [|discriminate]. injection E as <- _.
    destruct o; try discriminate; cbn [step] in S.
    - injection S as S. apply render_same in S. destruct S as (E1 & E2 & E3 & E4 & E5 & E6 & E7 & E8). eapply IH; [|exact F2|exact R|exact P]. unfold anchored. rewrite E1, E2, E3, E4, E5, E6, E7. exact A.
    - destruct (N.le_gt_cases (position c k b sp) u32_max) as [O|O].
      + destruct (update_is p c b sp e k A O) as (r' & d' & E & H1 & H2). rewrite E in S. injection S as <- <-. destruct (N.lt_ge_cases (position c k b sp) e) as [L|L].
        * eapply IH; [apply H1, L|exact F2|exact R|exact P].
        * destruct (H2 L) as [_ K]. exfalso. clear - K R F2 P. revert r' t K R. induction l as [|[k o] l IH]; intros r t K R; cbn [run forallb snd] in *; [injection R as <- _; congruence|].
          apply andb_prop in F2. destruct F2 as [F1 F2]. destruct (step X r k o) as [[r1 d1]|] eqn:S; [|discriminate]. destruct (run X r1 l) as [[z1 t1]|] eqn:R1; [|discriminate]. injection R as -> <-.
          eapply IH; [exact F2| |exact R1]. destruct o; try discriminate; cbn [step] in S.
          -- injection S as S. apply render_same in S. destruct S as [-> _]. exact K.
          -- unfold update in S. rewrite K in S. injection S as <- _. exact K.
      + exfalso. destruct A as (A1 & A2 & A3 & A4 & A5 & A6 & A7). unfold update in S. rewrite A1, A3, A4, A5, A6 in S. cbn [negb] in S. unfold add_u32 in S. fold (position c k b sp) in S.
        rewrite (proj2 (N.leb_gt _ _) O) in S. discriminate.
  Qed.
End Playing.

Section Speeds.
  Variable X : outside.
  Local Open Scope Q_scope.
  Definition in_bounds (s : float) : Prop := exists v, s = Fin v /\ (1 # 11) < v <= 10.
  Lemma tenth_is : exists t, tenth = Fin t /\ (1 # 11) < t /\ t <= 10.
  Proof. vm_compute. eexists. split; [reflexivity|]. split; [reflexivity|discriminate]. Qed.
  Lemma clamp_ok s : s <> NaN -> in_bounds (clamp_speed s).
  Proof.
    intros H. unfold clamp_speed. destruct tenth_is as (t & -> & T1 & T2). unfold in_bounds. destruct s as [|[|]|v]; [contradiction| | |].
    - cbn [f_lt f_le negb andb]. destruct (f_lt (Fin 10) (Fin t)) eqn:E; eexists; (split; [reflexivity|lra]).
    - cbn [f_lt f_le negb andb]. eexists. split; [reflexivity|lra].
    - assert (LT : forall a b, f_lt (Fin a) (Fin b) = true <-> a < b).
      { intros a b. unfold f_lt. cbn [f_le]. rewrite andb_true_iff, negb_true_iff, Qle_bool_iff. split; [intros [_ K]|intros K; split; [lra|]].
        - destruct (Qlt_le_dec a b) as [L|L]; [exact L|]. apply Qle_bool_iff in L. congruence.
        - apply not_true_iff_false. rewrite Qle_bool_iff. lra. }
      assert (GE : forall a b, f_lt (Fin a) (Fin b) = false -> b <= a). { intros a b K. destruct (Qlt_le_dec a b) as [L|L]; [apply LT in L; congruence|exact L]. }
      destruct (f_lt (Fin v) (Fin t)) eqn:E1.
      + destruct (f_lt (Fin 10) (Fin t)) eqn:E2; eexists; (split; [reflexivity|lra]).
      + apply GE in E1. destruct (f_lt (Fin 10) (Fin v)) eqn:E2; [eexists; split; [reflexivity|lra]|]. apply GE in E2. eexists; split; [reflexivity|lra].
  Qed.
  Lemma f_min_num a b : b <> NaN -> f_min a b <> NaN.
  Proof. intros H. destruct a, b; cbn [f_min]; try congruence; destruct (f_le _ _); congruence. Qed.
  Lemma f_max_num a b : b <> NaN -> f_max a b <> NaN.
  Proof. intros H. destruct a, b; cbn [f_max]; try congruence; destruct (f_le _ _); congruence. Qed.
  Lemma set_speed_is p c v : p_speed X (set_speed X p c v) = clamp_speed v.
  Proof. unfold set_speed. destruct (if p_playing X p then _ else _); reflexivity. Qed.
  Lemma jump_speed p c t : p_speed X (jump X p c t) = p_speed X p.
  Proof. unfold jump. destruct (p_playing X p); reflexivity. Qed.
  Lemma step_speed p c o q a : in_bounds (p_speed X p) -> o <> Speed NaN -> step X p c o = Some (q, a) -> in_bounds (p_speed X q).
  Proof.
    intros H NN E. destruct o; cbn [step] in E.
    - unfold load_script in E. destruct (o_ends X s); [|injection E as <- _; exact H]. destruct (latest l 0); [|discriminate]. injection E as <- _. exact H.
    - injection E as <- _. exact H.
    - injection E as <- _. exact H.
    - injection E as <- _. exact H.
    - injection E as <- _. unfold seek. rewrite jump_speed. exact H.
    - injection E as <- _. rewrite set_speed_is. apply clamp_ok. congruence.
    - injection E as <- _. unfold increase_speed. rewrite set_speed_is. apply clamp_ok, f_min_num. discriminate.
    - injection E as <- _. unfold decrease_speed. rewrite set_speed_is. apply clamp_ok, f_max_num. destruct tenth_is as (t & -> & _). discriminate.
    - unfold step_forward in E. destruct (add_u32 _ _); [|discriminate]. injection E as <- _. rewrite jump_speed. exact H.
    - injection E as <- _. unfold step_backward. rewrite jump_speed. exact H.
    - injection E as <- _. exact H.
    - injection E as <- _. exact H.
    - injection E as <- _. exact H.
    - injection E as <- _. exact H.
    - injection E as E. apply render_same in E. destruct E as (_ & _ & _ & _ & _ & -> & _). exact H.
    - unfold update in E. destruct (negb (p_playing X p)); [injection E as <- _; exact H|]. destruct (p_since X p) as [s|].
      + destruct (add_u32 _ _); [|discriminate]. destruct (_ <=? _)%N; [destruct (p_loop X p)|].
        * injection E as E. apply render_same in E. destruct E as (_ & _ & _ & _ & _ & -> & _). exact H.
        * injection E as <- _. exact H.
        * injection E as E. apply render_same in E. destruct E as (_ & _ & _ & _ & _ & -> & _). exact H.
      + injection E as E. apply render_same in E. destruct E as (_ & _ & _ & _ & _ & -> & _). exact H.
  Qed.
  Lemma run_speed : forall l p q a, in_bounds (p_speed X p) -> Forall (fun o => snd o <> Speed NaN) l -> run X p l = Some (q, a) -> in_bounds (p_speed X q).
  Proof.
    induction l as [|[c o] l IH]; intros p q a H F E; cbn [run] in E; [injection E as <- _; exact H|].
    inversion_clear F. destruct (step X p c o) as [[r d]|] eqn:S; [|discriminate]. destruct (run X r l) as [[z t]|] eqn:R; [|discriminate]. injection E as <- _.
    eapply IH; [|eassumption|exact R]. eapply step_speed; eassumption.
  Qed.
End Speeds.
