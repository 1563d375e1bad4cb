From Verif Require Import Base BaseLemmas PluginModel PluginProofs SyncModel SyncSpec.

(* ---- counting guards over finitely many threads ---- *)
Definition counts (f : nat -> nat) (n : nat) : Prop := exists us, NoDup us /\ (forall u, ~ In u us -> f u = 0) /\ n = list_sum (map f us).
Lemma sum_upd_out f t v us : ~ In t us -> list_sum (map (upd f t v) us) = list_sum (map f us).
Proof.
  induction us as [|u us IH]; [reflexivity|]. cbn [map list_sum fold_right In]. intros H. unfold upd at 1.
  destruct (Nat.eqb_spec u t) as [->|Q]; [exfalso; apply H; now left|]. change (fold_right Init.Nat.add 0 (map (upd f t v) us)) with (list_sum (map (upd f t v) us)). rewrite IH; [reflexivity|]. intros R. apply H. now right.
Qed.
Lemma sum_upd_in f t v us : NoDup us -> In t us -> list_sum (map (upd f t v) us) + f t = list_sum (map f us) + v.
Proof.
  induction us as [|u us IH]; [intros _ []|]. intros N I. inversion N as [|? ? N1 N2]; subst. cbn [map list_sum fold_right].
  change (fold_right Init.Nat.add 0 (map (upd f t v) us)) with (list_sum (map (upd f t v) us)). change (fold_right Init.Nat.add 0 (map f us)) with (list_sum (map f us)).
  destruct I as [->|I].
  - rewrite (sum_upd_out f t v us N1). unfold upd. rewrite Nat.eqb_refl. lia.
  - specialize (IH N2 I). unfold upd at 1. destruct (Nat.eqb_spec u t) as [->|Q]; [contradiction|]. lia.
Qed.
Lemma counts_upd f n t v : counts f n -> counts (upd f t v) (n + v - f t) /\ f t <= n.
Proof.
  intros (us & N & Z & E). destruct (in_dec Nat.eq_dec t us) as [I|I].
  - pose proof (sum_upd_in f t v us N I) as Q.
    assert (B : f t <= n) by (subst n; clear -I; induction us as [|u us IH]; [destruct I|]; cbn [map list_sum fold_right]; destruct I as [->|I]; [lia|]; specialize (IH I); unfold list_sum in IH; lia).
    split; [|exact B]. exists us. split; [exact N|]. split; [|lia].
    intros u H. unfold upd. destruct (Nat.eqb_spec u t) as [->|_]; [contradiction|auto].
  - pose proof (Z t I) as Zt. split; [|lia]. exists (t :: us). split; [now constructor|]. split.
    + intros u H. unfold upd. destruct (Nat.eqb_spec u t) as [->|_]; [exfalso; apply H; now left|]. apply Z. intros R. apply H. now right.
    + cbn [map list_sum fold_right]. change (fold_right Init.Nat.add 0 (map (upd f t v) us)) with (list_sum (map (upd f t v) us)). rewrite (sum_upd_out f t v us I). unfold upd. rewrite Nat.eqb_refl. lia.
Qed.
Lemma counts_zero f n : counts f n -> (n = 0 <-> forall u, f u = 0).
Proof.
  intros (us & N & Z & ->). split.
  - intros H u. destruct (in_dec Nat.eq_dec u us) as [I|I]; [|now apply Z]. clear N Z. induction us as [|a us IH]; [destruct I|]. cbn [map list_sum fold_right] in H. destruct I as [->|I]; [lia|]. apply IH; [unfold list_sum; lia|exact I].
  - intros H. clear N Z. induction us as [|a us IH]; [reflexivity|]. cbn [map list_sum fold_right]. rewrite H. exact IH.
Qed.
Lemma counts_pos f n : counts f n -> n <> 0 -> exists u, 0 < f u.
Proof.
  intros (us & N & Z & ->). clear N Z. induction us as [|a us IH]; [intros H; exfalso; now apply H|]. cbn [map list_sum fold_right]. intros H.
  destruct (f a) eqn:E; [|exists a; lia]. apply IH. exact H.
Qed.
Lemma counts_ext f g n : (forall u, f u = g u) -> counts f n -> counts g n.
Proof.
  intros H (us & N & Z & E). exists us. split; [exact N|]. split; [intros u I; rewrite <- H; auto|]. rewrite E. f_equal. apply map_ext. exact H.
Qed.

Section Proofs.
  Context {D : Type} (d0 : D).
  Notation event := (@event D).
  Notation value := (value d0).
  Notation holder := (holder d0).
  Notation broken := (broken d0).
  Notation settled := (settled d0).
  Notation command_broken := (command_broken d0).
  Notation allowed := (allowed d0).
  Notation lawful := (lawful d0).

  Definition exclusive (l : list event) : Prop := forall t, holder l = Some t -> broken l = false /\ forall u, reads u l = 0.
  Record matched (s : shared) (l : list event) : Prop := Matched {
    m_doc : doc s = value l; m_writer : writer s = holder l; m_poison : poisoned s = broken l;
    m_cmd : commander s = commanding l; m_cpoison : command_poisoned s = command_broken l;
    m_reads : forall u, readers s u = reads u l; m_count : counts (readers s) (reading s);
    m_excl : exclusive l; m_cexcl : forall t, commanding l = Some t -> command_broken l = false }.

  Lemma fresh_matched : matched (fresh d0) [].
  Proof.
    constructor; try reflexivity; [|intros t H; discriminate H].
    exists []. split; [constructor|]. split; [reflexivity|reflexivity].
  Qed.
  Lemma can_read_iff s l : matched s l -> (can_read s = true <-> no_writer d0 l).
  Proof. intros M. unfold can_read, no_writer. rewrite <- (m_writer _ _ M). destruct (writer s); split; congruence. Qed.
  Lemma can_write_iff s l : matched s l -> (can_write s = true <-> no_guards d0 l).
  Proof.
    intros M. unfold can_write, no_guards. rewrite <- (m_writer _ _ M). destruct (writer s); [split; [discriminate|intros [H _]; discriminate H]|].
    rewrite Nat.eqb_eq, (counts_zero _ _ (m_count _ _ M)). split.
    - intros H. split; [reflexivity|]. intros u. now rewrite <- (m_reads _ _ M).
    - intros [_ H] u. now rewrite (m_reads _ _ M).
  Qed.
  Lemma is_writer_iff s l t : matched s l -> (is_writer t s = true <-> holder l = Some t).
  Proof.
    intros M. unfold is_writer. rewrite <- (m_writer _ _ M). destruct (writer s) as [w|]; [|split; discriminate]. rewrite Nat.eqb_eq. split; congruence.
  Qed.
  Lemma is_commander_iff s l t : matched s l -> (is_commander t s = true <-> commanding l = Some t).
  Proof.
    intros M. unfold is_commander. rewrite <- (m_cmd _ _ M). destruct (commander s) as [w|]; [|split; discriminate]. rewrite Nat.eqb_eq. split; congruence.
  Qed.

  (* a step is allowed by the past and keeps the shared state in step with it *)
  Lemma step_sound t o s l s' e : matched s l -> step t o s = Moved s' e -> who e = t /\ allowed t l o e /\ matched s' (e :: l).
  Proof.
    intros M. pose proof (can_read_iff s l M) as CR. pose proof (can_write_iff s l M) as CW. pose proof (is_writer_iff s l t M) as IW. pose proof (is_commander_iff s l t M) as IC.
    pose proof M as [Md Mw Mp Mc Mcp Mr Mn Mx Mcx].
    assert (Skip : s' = s -> e = Skipped t \/ e = Refused t \/ e = Saw t (doc s) \/ e = GotRead t false \/ e = GotWrite t false -> who e = t /\ matched s' (e :: l)).
    { intros -> [->|[->|[->|[->| ->]]]]; (split; [reflexivity|constructor; assumption]). }
    destruct o as [| | | | |f| | | | |f|f]; cbn [step].
    - (* TakeRead *)
      destruct (can_read s) eqn:E; [|discriminate]. assert (W : no_writer d0 l) by tauto. destruct (poisoned s) eqn:P; intros [= <- <-].
      + destruct (Skip eq_refl ltac:(tauto)) as [A B]. split; [exact A|]. split; [|exact B]. pose proof (a_read d0 t l W) as Q. rewrite <- Mp in Q. exact Q.
      + split; [reflexivity|]. split; [pose proof (a_read d0 t l W) as Q; rewrite <- Mp in Q; exact Q|].
        constructor; cbn [with_reader doc writer poisoned commander command_poisoned readers reading value SyncSpec.value SyncSpec.holder SyncSpec.broken commanding SyncSpec.command_broken]; try assumption; try (now rewrite P).
        * intros u. cbn [reads]. unfold upd. rewrite Mr, (Mr u), (Nat.eqb_sym t u). now destruct (Nat.eqb_spec u t) as [->|_].
        * destruct (counts_upd (readers s) (reading s) t (S (readers s t)) Mn) as [Q B]. replace (S (reading s)) with (reading s + S (readers s t) - readers s t) by lia. exact Q.
        * intros w H. unfold no_writer in W. cbn [SyncSpec.holder] in H. congruence.
    - (* TakeWrite *)
      destruct (can_write s) eqn:E; [|discriminate]. assert (W : no_guards d0 l) by tauto. destruct (poisoned s) eqn:P; intros [= <- <-].
      + destruct (Skip eq_refl ltac:(tauto)) as [A B]. split; [exact A|]. split; [|exact B]. pose proof (a_write d0 t l W) as Q. rewrite <- Mp in Q. exact Q.
      + split; [reflexivity|]. split; [pose proof (a_write d0 t l W) as Q; rewrite <- Mp in Q; exact Q|].
        constructor; cbn [with_writer doc writer poisoned commander command_poisoned readers reading SyncSpec.value SyncSpec.holder SyncSpec.broken commanding SyncSpec.command_broken]; try assumption; try reflexivity.
        intros w _. split; [cbn [SyncSpec.broken]; congruence|apply W].
    - (* TryRead *)
      destruct (can_read s && negb (poisoned s)) eqn:E; intros [= <- <-].
      + apply andb_true_iff in E. destruct E as [E P]. apply negb_true_iff in P. assert (W : no_writer d0 l) by tauto.
        split; [reflexivity|]. split; [constructor; [exact W|congruence]|].
        constructor; cbn [with_reader doc writer poisoned commander command_poisoned readers reading SyncSpec.value SyncSpec.holder SyncSpec.broken commanding SyncSpec.command_broken]; try assumption.
        * intros u. cbn [reads]. unfold upd. rewrite Mr, (Mr u), (Nat.eqb_sym t u). now destruct (Nat.eqb_spec u t) as [->|_].
        * destruct (counts_upd (readers s) (reading s) t (S (readers s t)) Mn) as [Q B]. replace (S (reading s)) with (reading s + S (readers s t) - readers s t) by lia. exact Q.
        * intros w H. unfold no_writer in W. cbn [SyncSpec.holder] in H. congruence.
      + destruct (Skip eq_refl ltac:(tauto)) as [A B]. split; [exact A|]. split; [|exact B]. apply a_try_read_no. rewrite <- Mp. intros [W P]. apply CR in W. rewrite W, P in E. discriminate E.
    - (* TryWrite *)
      destruct (can_write s && negb (poisoned s)) eqn:E; intros [= <- <-].
      + apply andb_true_iff in E. destruct E as [E P]. apply negb_true_iff in P. assert (W : no_guards d0 l) by tauto.
        split; [reflexivity|]. split; [constructor; [exact W|congruence]|].
        constructor; cbn [with_writer doc writer poisoned commander command_poisoned readers reading SyncSpec.value SyncSpec.holder SyncSpec.broken commanding SyncSpec.command_broken]; try assumption; try reflexivity; try congruence.
        intros w _. split; [cbn [SyncSpec.broken]; congruence|apply W].
      + destruct (Skip eq_refl ltac:(tauto)) as [A B]. split; [exact A|]. split; [|exact B]. apply a_try_write_no. rewrite <- Mp. intros [W P]. apply CW in W. rewrite W, P in E. discriminate E.
    - (* Look *)
      destruct (is_writer t s || negb (Nat.eqb (readers s t) 0)) eqn:E; intros [= <- <-].
      + destruct (Skip eq_refl ltac:(tauto)) as [A B]. split; [exact A|]. split; [|exact B]. rewrite Md. constructor.
        apply orb_true_iff in E. destruct E as [E|E]; [left; tauto|right]. apply negb_true_iff, Nat.eqb_neq in E. rewrite <- Mr. lia.
      + destruct (Skip eq_refl ltac:(tauto)) as [A B]. split; [exact A|]. split; [|exact B]. apply orb_false_iff in E. destruct E as [E1 E2]. apply a_look_no.
        * intros Q. apply IW in Q. congruence.
        * apply negb_false_iff, Nat.eqb_eq in E2. now rewrite <- Mr.
    - (* Change *)
      destruct (is_writer t s) eqn:E.
      + assert (W : holder l = Some t) by tauto. destruct (Mx t W) as [X1 X2]. unfold is_writer in E.
        assert (F : panics f (value l) = match snd (f (doc s)) with Panicked => true | _ => false end) by (unfold panics; now rewrite Md).
        destruct (snd (f (doc s))) eqn:R; intros [= <- <-]; (split; [reflexivity|]); (split; [now constructor|]);
          try (constructor; cbn [with_doc doc writer poisoned commander command_poisoned readers reading SyncSpec.value SyncSpec.holder SyncSpec.broken commanding SyncSpec.command_broken]; rewrite ?F; cbn [orb]; try assumption;
            [now rewrite <- Md|intros w H; cbn [SyncSpec.holder SyncSpec.broken] in *; rewrite F in *; cbn [orb]; exact (Mx w H)]).
        unfold unwound, is_writer. cbn [with_doc with_writer writer]. destruct (writer s) as [w|] eqn:Ew; [|discriminate E]. rewrite E.
        constructor; cbn [with_doc with_writer doc writer poisoned commander command_poisoned readers reading SyncSpec.value SyncSpec.holder SyncSpec.broken commanding SyncSpec.command_broken]; rewrite ?F; cbn [orb]; try assumption; try reflexivity.
        * now rewrite <- Md.
        * intros u. unfold upd. cbn [reads]. rewrite Mr. destruct (Nat.eqb u t); [now rewrite X2|reflexivity].
        * destruct (counts_upd (readers s) (reading s) t 0 Mn) as [Q B]. replace (reading s - readers s t) with (reading s + 0 - readers s t) by lia. exact Q.
        * intros v H. cbn [SyncSpec.holder] in H. rewrite F in H. discriminate H.
      + intros [= <- <-]. destruct (Skip eq_refl ltac:(tauto)) as [A B]. split; [exact A|]. split; [|exact B]. apply a_change_no. intros Q. apply IW in Q. congruence.
    - (* DropRead *)
      destruct (Nat.eqb_spec (readers s t) 0) as [E|E]; intros [= <- <-].
      + destruct (Skip eq_refl ltac:(tauto)) as [A B]. split; [exact A|]. split; [|exact B]. apply a_drop_read_no. now rewrite <- Mr.
      + split; [reflexivity|]. split; [constructor; rewrite <- Mr; lia|].
        constructor; cbn [without_reader doc writer poisoned commander command_poisoned readers reading SyncSpec.value SyncSpec.holder SyncSpec.broken commanding SyncSpec.command_broken]; try assumption.
        * intros u. cbn [reads]. unfold upd. rewrite Mr, (Mr u), (Nat.eqb_sym t u). destruct (Nat.eqb_spec u t) as [->|_]; [lia|reflexivity].
        * destruct (counts_upd (readers s) (reading s) t (readers s t - 1) Mn) as [Q B]. replace (reading s - 1) with (reading s + (readers s t - 1) - readers s t) by lia. exact Q.
        * intros w H. cbn [SyncSpec.holder SyncSpec.broken] in *. destruct (Mx w H) as [X1 X2]. exfalso. apply E. now rewrite Mr.
    - (* DropWrite *)
      destruct (is_writer t s) eqn:E; intros [= <- <-].
      + split; [reflexivity|]. split; [constructor; tauto|].
        constructor; cbn [with_writer doc writer poisoned commander command_poisoned readers reading SyncSpec.value SyncSpec.holder SyncSpec.broken commanding SyncSpec.command_broken]; try assumption; try reflexivity.
        intros w H. discriminate H.
      + destruct (Skip eq_refl ltac:(tauto)) as [A B]. split; [exact A|]. split; [|exact B]. apply a_drop_write_no. intros Q. apply IW in Q. congruence.
    - (* Unwind *)
      intros [= <- <-]. split; [reflexivity|]. split; [constructor|]. unfold unwound.
      assert (CZ : counts (upd (readers s) t 0) (reading s - readers s t)).
      { destruct (counts_upd (readers s) (reading s) t 0 Mn) as [Q B]. replace (reading s - readers s t) with (reading s + 0 - readers s t) by lia. exact Q. }
      assert (RZ : forall u, upd (readers s) t 0 u = reads u (Unwound t :: l)) by (intros u; unfold upd; cbn [reads]; rewrite Mr, (Nat.eqb_sym t u); reflexivity).
      destruct (is_writer t s) eqn:E.
      + assert (W : holder l = Some t) by tauto.
        constructor; cbn [with_writer doc writer poisoned commander command_poisoned readers reading SyncSpec.value SyncSpec.holder SyncSpec.broken commanding SyncSpec.command_broken]; rewrite ?W, ?Nat.eqb_refl; cbn [orb]; try assumption; try reflexivity.
        intros w H. cbn [SyncSpec.holder] in H. rewrite W, Nat.eqb_refl in H. discriminate H.
      + assert (W : holder (Unwound t :: l) = holder l /\ broken (Unwound t :: l) = broken l).
        { cbn [SyncSpec.holder SyncSpec.broken]. unfold is_writer in E. rewrite <- Mw. destruct (writer s) as [w|]; [rewrite E; now split|now split]. }
        destruct W as [W1 W2].
        constructor; rewrite ?W1, ?W2; cbn [with_writer doc writer poisoned commander command_poisoned readers reading SyncSpec.value commanding SyncSpec.command_broken]; try assumption.
        intros w H. rewrite W1 in H. rewrite W2. destruct (Mx w H) as [X1 X2]. split; [exact X1|]. intros u. cbn [reads]. now destruct (Nat.eqb t u).
    - (* WithRead *)
      destruct (can_read s) eqn:E; [|discriminate]. assert (W : no_writer d0 l) by tauto. destruct (poisoned s) eqn:P; intros [= <- <-].
      + destruct (Skip eq_refl ltac:(tauto)) as [A B]. split; [exact A|]. split; [|exact B]. constructor; [exact W|congruence].
      + destruct (Skip eq_refl ltac:(tauto)) as [A B]. split; [exact A|]. split; [|exact B]. rewrite Md. constructor; [exact W|congruence].
    - (* WithWrite *)
      destruct (can_write s) eqn:E; [|discriminate]. assert (W : no_guards d0 l) by tauto. destruct (poisoned s) eqn:P; intros [= <- <-].
      + destruct (Skip eq_refl ltac:(tauto)) as [A B]. split; [exact A|]. split; [|exact B]. constructor; [exact W|congruence].
      + split; [reflexivity|]. split; [constructor; [exact W|congruence]|]. unfold edited. destruct (f (doc s)) as [d r] eqn:R.
        assert (F : panics f (value l) = match r with Panicked => true | _ => false end) by (unfold panics; rewrite <- Md, R; reflexivity).
        constructor; cbn [with_doc doc writer poisoned commander command_poisoned readers reading SyncSpec.value SyncSpec.holder SyncSpec.broken commanding SyncSpec.command_broken]; try assumption.
        * now rewrite <- Md, R.
        * rewrite F, <- Mp, P. now destruct r.
        * intros w H. cbn [SyncSpec.holder] in H. destruct W as [W _]. congruence.
    - (* Execute *)
      destruct (is_commander t s) eqn:C.
      + assert (Q : commanding l = Some t) by tauto.
        destruct (can_write s) eqn:E; [|discriminate]. assert (W : no_guards d0 l) by tauto. destruct (poisoned s) eqn:P; intros [= <- <-].
        * split; [reflexivity|]. split; [constructor; [exact Q|exact W|congruence]|].
          constructor; cbn [with_commander doc writer poisoned commander command_poisoned readers reading SyncSpec.value SyncSpec.holder SyncSpec.broken commanding SyncSpec.command_broken]; try assumption; try reflexivity; try congruence.
        * split; [reflexivity|]. split; [constructor; [exact Q|exact W|congruence]|]. unfold edited. destruct (f (doc s)) as [d r] eqn:R.
          assert (F : panics f (value l) = match r with Panicked => true | _ => false end) by (unfold panics; rewrite <- Md, R; reflexivity).
          constructor; cbn [with_commander with_doc snd doc writer poisoned commander command_poisoned readers reading SyncSpec.value SyncSpec.holder SyncSpec.broken commanding SyncSpec.command_broken]; try assumption; try reflexivity.
          -- now rewrite <- Md, R.
          -- rewrite F, <- Mp, P. now destruct r.
          -- rewrite F, <- Mcp. now destruct r.
          -- intros w H. cbn [SyncSpec.holder] in H. destruct W as [W _]. congruence.
          -- intros w H. discriminate H.
      + destruct (commander s) as [c|] eqn:K; [discriminate|]. assert (Q : commanding l = None) by congruence.
        destruct (command_poisoned s) eqn:P; intros [= <- <-].
        * destruct (Skip eq_refl ltac:(tauto)) as [A B]. split; [exact A|]. split; [|exact B]. constructor; congruence.
        * split; [reflexivity|]. split; [constructor; congruence|].
          constructor; cbn [with_commander doc writer poisoned commander command_poisoned readers reading SyncSpec.value SyncSpec.holder SyncSpec.broken commanding SyncSpec.command_broken]; try assumption; try reflexivity.
          intros w H. congruence.
  Qed.

  Lemma allowed_one t l o e1 e2 : allowed t l o e1 -> allowed t l o e2 -> e1 = e2.
  Proof.
    intros H1 H2. destruct H1; inversion H2; subst; try reflexivity; unfold no_writer, no_guards in *; exfalso; intuition (try congruence; try lia).
  Qed.
  Lemma step_complete t o s l e : matched s l -> allowed t l o e -> exists s', step t o s = Moved s' e.
  Proof.
    intros M A. destruct (step t o s) as [s' e'|] eqn:E.
    - destruct (step_sound t o s l s' e' M E) as (_ & A' & _). exists s'. now rewrite (allowed_one _ _ _ _ _ A A').
    - exfalso. pose proof (can_read_iff s l M) as CR. pose proof (can_write_iff s l M) as CW. pose proof (is_writer_iff s l t M) as IW. pose proof (is_commander_iff s l t M) as IC. pose proof (m_cmd _ _ M) as Mc.
      destruct A; cbn [step] in E;
        repeat match type of E with
        | context[if ?b then _ else _] => destruct b eqn:?
        | context[match ?x with _ => _ end] => destruct x eqn:?
        end; try discriminate; intuition congruence.
  Qed.

  (* ---- whole runs ---- *)
  Definition good (ps : nat -> list (op D)) (g : conf) : Prop :=
    matched (now g) (past g) /\ lawful (past g) /\ (forall t, exists p, ps t = p ++ programs g t /\ answers d0 t p (past g)) /\
    (forall t, commanding (past g) = Some t -> exists e p, programs g t = Execute e :: p).
  Lemma move_inv t (g g' : @conf D) : move t g = Some g' -> exists o p s e, programs g t = o :: p /\ step t o (now g) = Moved s e /\
    g' = Conf s (set_program t (if again e then o :: p else p) (programs g)) (e :: past g).
  Proof.
    unfold move. destruct (programs g t) as [|o p]; [discriminate|]. destruct (step t o (now g)) as [s e|] eqn:E; [|discriminate]. intros [= <-]. exists o, p, s, e. auto.
  Qed.
  Lemma again_iff t l o e : allowed t l o e -> again e = true -> commanding l = None /\ exists f, o = Execute f /\ e = GotCommand t.
  Proof. intros A. destruct A; try discriminate. intros _. eauto. Qed.
  Lemma move_good ps t g g' : good ps g -> move t g = Some g' -> good ps g'.
  Proof.
    intros (M & L & P & C) E. apply move_inv in E. destruct E as (o & p & s & e & Eo & Es & ->). destruct (step_sound _ _ _ _ _ _ M Es) as (W & A & M').
    split; [exact M'|]. cbn [now past programs]. split; [cbn [SyncSpec.lawful]; rewrite W; split; [now exists o|exact L]|]. split.
    - intros u. destruct (P u) as (q & Eq & Aq). unfold set_program. destruct (Nat.eqb_spec u t) as [->|N].
      + rewrite Eo in Eq. destruct (again e) eqn:G.
        * destruct (again_iff _ _ _ _ A G) as (Cn & f & -> & ->). exists q. split; [exact Eq|]. apply (ans_first d0 t q (past g) f Aq); [congruence|exact A].
        * exists (q ++ [o]). split; [now rewrite <- app_assoc|]. now constructor.
      + exists q. split; [exact Eq|]. apply ans_other; [exact Aq|congruence].
    - intros u Cu. unfold set_program. destruct (Nat.eqb_spec u t) as [->|N].
      + destruct (again e) eqn:G.
        * destruct (again_iff _ _ _ _ A G) as (Cn & f & -> & ->). eauto.
        * exfalso. destruct (commanding (past g)) as [c|] eqn:K.
          -- assert (c = t) as -> by (clear -Cu G K; destruct e; cbn [commanding again] in *; congruence). destruct (C t eq_refl) as (f & q & F). rewrite Eo in F. injection F as -> ->.
             clear -A Cu G K; inversion A; subst; cbn [commanding again] in *; congruence.
          -- destruct e; cbn [commanding again] in *; congruence.
      + apply C. destruct e; cbn [commanding] in Cu; try exact Cu; try discriminate Cu. cbn [who] in W. congruence.
  Qed.
  Lemma start_good ps : good ps (start d0 ps).
  Proof.
    split; [exact fresh_matched|]. split; [exact I|]. split; [|intros t H; discriminate H]. intros t. exists []. split; [reflexivity|constructor].
  Qed.
  Lemma run_good ps : forall sched g g', good ps g -> run g sched = Some g' -> good ps g'.
  Proof.
    induction sched as [|t sched IH]; intros g g' G; cbn [run]; [intros [= <-]; exact G|].
    destruct (move t g) as [g1|] eqn:E; [|discriminate]. apply IH. now apply (move_good ps t g).
  Qed.
  Lemma reached_good ps sched g : run (start d0 ps) sched = Some g -> good ps g.
  Proof. apply run_good, start_good. Qed.
  Lemma run_app : forall s1 (g : @conf D) s2, run g (s1 ++ s2) = match run g s1 with Some g' => run g' s2 | None => None end.
  Proof. induction s1 as [|t s1 IH]; intros g s2; [reflexivity|]. cbn [run app]. destruct (move t g); [apply IH|reflexivity]. Qed.

  (* ---- what lawful pasts have in common ---- *)
  Record calm (l : list event) : Prop := Calm {
    c_excl : exclusive l; c_reads : forall u, 0 < reads u l -> holder l = None /\ broken l = false;
    c_settled : holder l = None -> broken l = false -> value l = settled l }.
  Lemma lawful_calm l : lawful l -> calm l.
  Proof.
    induction l as [|e l IH]; cbn [SyncSpec.lawful].
    - intros _. constructor; [intros t H; discriminate H|intros u H; cbn [reads] in H; lia|reflexivity].
    - intros [(o & A) L]. specialize (IH L). destruct IH as [X R Sv].
      assert (Z : forall t, holder l = Some t -> forall u, reads u l = 0) by (intros t H; apply (X t H)).
      inversion A as [W Eo Ee|W Eo Ee|W B Eo Ee|W Eo Ee|W B Eo Ee|W Eo Ee|W Eo Ee|W B Eo Ee|f W Eo Ee|f W Eo Ee|W Eo Ee|W Eo Ee|W Eo Ee|W Eo Ee|Eo Ee|W B Eo Ee|W B Eo Ee|f W B Eo Ee|f W B Eo Ee|f W B Eo Ee|f W B Eo Ee|f C W B Eo Ee|f C W B Eo Ee];
        unfold no_writer, no_guards in *; clear A Eo.
      all: try (rewrite <- Ee; cbn [who]; constructor; cbn [SyncSpec.holder SyncSpec.broken SyncSpec.value SyncSpec.settled reads]; assumption).
      + (* GotRead *) destruct (broken l) eqn:B; cbn [negb] in Ee; rewrite <- Ee; cbn [who].
        * constructor; cbn [SyncSpec.holder SyncSpec.broken SyncSpec.value SyncSpec.settled reads]; try assumption; [intros u H; destruct (R u H); congruence|intros; congruence].
        * constructor; cbn [SyncSpec.holder SyncSpec.broken SyncSpec.value SyncSpec.settled reads]; try assumption; [intros t H; cbn [SyncSpec.holder] in *; congruence|intros; split; assumption|]. intros _ _. now apply Sv.
      + (* GotWrite *) destruct (broken l) eqn:B; cbn [negb] in Ee; rewrite <- Ee; cbn [who].
        * constructor; cbn [SyncSpec.holder SyncSpec.broken SyncSpec.value SyncSpec.settled reads]; try assumption; [intros u H; destruct (R u H); congruence|intros; congruence].
        * constructor; cbn [SyncSpec.holder SyncSpec.broken SyncSpec.value SyncSpec.settled reads]; [intros t H; cbn [SyncSpec.broken reads]; split; [exact B|apply W]| |discriminate]. intros u H. destruct W as [_ W]. rewrite W in H. lia.
      + rewrite <- Ee; cbn [who]. constructor; cbn [SyncSpec.holder SyncSpec.broken SyncSpec.value SyncSpec.settled reads]; [intros t H; cbn [SyncSpec.holder] in *; congruence|intros; split; assumption|assumption].
      + rewrite <- Ee; cbn [who]. constructor; cbn [SyncSpec.holder SyncSpec.broken SyncSpec.value SyncSpec.settled reads]; [intros t H; cbn [SyncSpec.broken reads]; split; [exact B|apply W]| |discriminate]. intros u H. destruct W as [_ W]. rewrite W in H. lia.
      + (* Changed *) rewrite <- Ee in *; cbn [who] in *. destruct (X _ W) as [Xb Xr].
        destruct (panics f (value l)) eqn:P; constructor; cbn [SyncSpec.holder SyncSpec.broken SyncSpec.value SyncSpec.settled reads]; rewrite ?P; cbn [orb];
          try (intros u H; rewrite Xr in H; lia); try congruence.
        * intros t H. cbn [SyncSpec.holder] in H. rewrite P in H. discriminate H.
        * intros t H. cbn [SyncSpec.broken reads]. rewrite P. cbn [orb]. split; assumption.
      + (* GaveRead *) rewrite <- Ee in *; cbn [who] in *. destruct (R _ W) as [R1 R2]. constructor; cbn [SyncSpec.holder SyncSpec.broken SyncSpec.value SyncSpec.settled reads]; try assumption.
        * intros t H. cbn [SyncSpec.holder] in H. congruence.
        * intros; split; assumption.
      + (* GaveWrite *) rewrite <- Ee in *; cbn [who] in *. destruct (X _ W) as [Xb Xr]. constructor; cbn [SyncSpec.holder SyncSpec.broken SyncSpec.value SyncSpec.settled reads]; try assumption; try reflexivity.
        * intros t H. discriminate H.
        * intros; split; [reflexivity|assumption].
      + (* Unwound *) rewrite <- Ee in *; cbn [who] in *. set (t := who e) in *. clearbody t. clear Ee e.
        destruct (holder l) as [w|] eqn:Hl.
        * destruct (X w Hl) as [Xb Xr]. destruct (Nat.eqb_spec w t) as [->|N].
          -- constructor; cbn [SyncSpec.holder SyncSpec.broken SyncSpec.value SyncSpec.settled reads]; rewrite ?Hl, ?Nat.eqb_refl; cbn [orb]; try discriminate.
             ++ intros v H. cbn [SyncSpec.holder] in H. rewrite Hl, Nat.eqb_refl in H. discriminate H.
             ++ intros u H. exfalso. rewrite Xr in H. destruct (Nat.eqb t u); lia.
          -- apply Nat.eqb_neq in N. constructor; cbn [SyncSpec.holder SyncSpec.broken SyncSpec.value SyncSpec.settled reads]; rewrite ?Hl, ?N; cbn [orb]; try discriminate.
             ++ intros v H. cbn [SyncSpec.broken reads]. rewrite Hl, N. cbn [orb]. split; [exact Xb|]. intros u. rewrite Xr. now destruct (Nat.eqb t u).
             ++ intros u H. exfalso. rewrite Xr in H. destruct (Nat.eqb t u); lia.
        * constructor; cbn [SyncSpec.holder SyncSpec.broken SyncSpec.value SyncSpec.settled reads]; rewrite ?Hl; auto.
          -- intros v H. cbn [SyncSpec.holder] in H. rewrite Hl in H. discriminate H.
          -- intros u H. apply (R u). destruct (Nat.eqb t u); lia.
      + (* Edited *) rewrite <- Ee in *; cbn [who] in *. destruct W as [W1 W2].
        constructor; cbn [SyncSpec.holder SyncSpec.broken SyncSpec.value SyncSpec.settled reads].
        * intros t H. cbn [SyncSpec.holder] in H. congruence.
        * intros u H. rewrite W2 in H. lia.
        * intros _ H. apply orb_false_iff in H. destruct H as [-> _]. reflexivity.
      + (* Commanded *) rewrite <- Ee in *; cbn [who] in *. destruct W as [W1 W2].
        constructor; cbn [SyncSpec.holder SyncSpec.broken SyncSpec.value SyncSpec.settled reads].
        * intros t H. cbn [SyncSpec.holder] in H. congruence.
        * intros u H. rewrite W2 in H. lia.
        * intros _ H. apply orb_false_iff in H. destruct H as [-> _]. reflexivity.
  Qed.

  Lemma lawful_app l2 l1 : lawful (l2 ++ l1) -> lawful l1.
  Proof. induction l2 as [|e l2 IH]; cbn [app SyncSpec.lawful]; [auto|]. intros [_ H]. auto. Qed.
  Lemma seen l t d : lawful (Saw t d :: l) -> d = value l /\ (holder l <> Some t -> d = settled l /\ broken l = false).
  Proof.
    cbn [SyncSpec.lawful who]. intros [(o & A) L]. apply lawful_calm in L. inversion A as [| | | | | |W Eo Ee| | | | | | | | |W B Eo Ee| | | | | | |]; subst.
    - split; [reflexivity|]. intros N. destruct W as [W|W]; [contradiction|]. destruct (c_reads _ L t W) as [H B]. split; [now apply (c_settled _ L)|exact B].
    - split; [reflexivity|]. intros _. split; [now apply (c_settled _ L)|exact B].
  Qed.
  Lemma reader_step t e l : lawful (e :: l) -> 0 < reads t l -> e <> GaveRead t -> e <> Unwound t -> value (e :: l) = value l /\ 0 < reads t (e :: l).
  Proof.
    cbn [SyncSpec.lawful]. intros [(o & A) L] R G U. apply lawful_calm in L. destruct (c_reads _ L t R) as [H B].
    inversion A; subst; unfold no_guards in *; cbn [SyncSpec.value reads]; try (split; [reflexivity|exact R]);
      try (exfalso; match goal with [ H : _ /\ (forall u, reads u l = 0) |- _ ] => destruct H as [_ Q]; rewrite Q in R; lia end); try congruence.
    - split; [reflexivity|]. destruct (negb (broken l)); [|exact R]. destruct (Nat.eqb _ t); lia.
    - split; [reflexivity|]. destruct (Nat.eqb _ t); lia.
    - split; [reflexivity|]. destruct (Nat.eqb_spec (who e) t) as [E|E]; [exfalso; apply G; now rewrite <- E|exact R].
    - split; [reflexivity|]. destruct (Nat.eqb_spec (who e) t) as [E|E]; [exfalso; apply U; now rewrite <- E|exact R].
  Qed.
  Lemma reader_stable t l2 l1 : lawful (l2 ++ l1) -> 0 < reads t l1 -> (forall e, In e l2 -> e <> GaveRead t /\ e <> Unwound t) -> value (l2 ++ l1) = value l1 /\ 0 < reads t (l2 ++ l1).
  Proof.
    induction l2 as [|e l2 IH]; intros L R H; [split; [reflexivity|exact R]|]. destruct (IH (proj2 L) R (fun x I => H x (or_intror I))) as [V R']. destruct (H e (or_introl eq_refl)) as [H1 H2].
    destruct (reader_step t e (l2 ++ l1) L R' H1 H2) as [V' R'']. split; [|exact R'']. cbn [app]. now rewrite V', V.
  Qed.
  Lemma writer_alone t e l : lawful (e :: l) -> holder l = Some t -> who e <> t -> value (e :: l) = value l /\ holder (e :: l) = Some t /\ forall u d, e <> Saw u d.
  Proof.
    cbn [SyncSpec.lawful]. intros [(o & A) L] H N. apply lawful_calm in L. destruct (c_excl _ L t H) as [B R].
    inversion A; subst; unfold no_guards, no_writer in *; cbn [SyncSpec.value SyncSpec.holder];
      try (split; [reflexivity|split; [exact H|discriminate]]); try (exfalso; intuition congruence).
    - exfalso. match goal with [ W : _ \/ _ |- _ ] => destruct W as [W|W]; [congruence|rewrite R in W; lia] end.
    - split; [reflexivity|]. split; [|discriminate]. rewrite H. destruct (Nat.eqb_spec t (who e)) as [E|E]; [congruence|reflexivity].
  Qed.
  Lemma broken_step e l : lawful (e :: l) -> broken l = true ->
    broken (e :: l) = true /\ value (e :: l) = value l /\ settled (e :: l) = settled l /\ (forall t d, e <> Saw t d) /\ (forall t, e <> GotRead t true) /\ (forall t, e <> GotWrite t true).
  Proof.
    cbn [SyncSpec.lawful]. intros [(o & A) L] B. apply lawful_calm in L.
    assert (H : holder l = None) by (destruct (holder l) as [w|] eqn:H; [destruct (c_excl _ L w H); congruence|reflexivity]).
    assert (R : forall u, reads u l = 0) by (intros u; destruct (reads u l) eqn:Q; [reflexivity|]; destruct (c_reads _ L u ltac:(lia)); congruence).
    inversion A; subst; unfold no_guards, no_writer in *; cbn [SyncSpec.value SyncSpec.holder SyncSpec.broken SyncSpec.settled]; rewrite ?B, ?H; cbn [negb];
      try (split; [assumption || reflexivity|split; [reflexivity|split; [reflexivity|repeat split; intros; discriminate]]]); try (exfalso; intuition congruence).
    exfalso. match goal with [ W : _ \/ _ |- _ ] => destruct W as [W|W]; [congruence|rewrite R in W; lia] end.
    all: try (exfalso; match goal with [ W : 0 < reads _ _ |- _ ] => rewrite R in W; lia end).
  Qed.
  Lemma broken_forever l2 l1 : lawful (l2 ++ l1) -> broken l1 = true ->
    broken (l2 ++ l1) = true /\ value (l2 ++ l1) = value l1 /\ settled (l2 ++ l1) = settled l1 /\ forall e, In e l2 -> (forall t d, e <> Saw t d) /\ (forall t, e <> GotRead t true) /\ (forall t, e <> GotWrite t true).
  Proof.
    induction l2 as [|e l2 IH]; intros L B; [repeat split; auto; try contradiction|]. destruct (IH (proj2 L) B) as (B1 & V1 & S1 & N1).
    destruct (broken_step e (l2 ++ l1) L B1) as (B2 & V2 & S2 & N2). cbn [app]. rewrite V2, S2, V1, S1. split; [exact B2|]. split; [reflexivity|]. split; [reflexivity|]. intros x [<-|I]; [exact N2|auto].
  Qed.
  Lemma command_broken_broken l : command_broken l = true -> broken l = true.
  Proof.
    induction l as [|e l IH]; [discriminate|]. destruct e; cbn [SyncSpec.command_broken SyncSpec.broken]; intros H; auto;
      try (rewrite IH by exact H; apply orb_true_r).
    - destruct (holder l); rewrite IH by exact H; [apply orb_true_r|reflexivity].
    - apply orb_true_iff in H. destruct H as [H|H]; [now rewrite H|rewrite IH by exact H; apply orb_true_r].
  Qed.
  Lemma others_kept t e l : lawful (e :: l) -> who e <> t -> reads t (e :: l) = reads t l /\ (holder (e :: l) = Some t <-> holder l = Some t) /\ (commanding (e :: l) = Some t <-> commanding l = Some t).
  Proof.
    intros L N. pose proof (writer_alone t e l L) as WA. cbn [SyncSpec.lawful] in L. destruct L as [(o & A) L].
    split; [|split].
    - destruct e; cbn [reads who] in *; try reflexivity; try (destruct ok); try reflexivity; (destruct (Nat.eqb_spec t0 t) as [->|_]; [congruence|reflexivity]).
    - split; [|intros H; now destruct (WA H N) as (_ & Q & _)].
      destruct e; cbn [SyncSpec.holder who] in *; try exact (fun x => x); try discriminate.
      + destruct ok; [intros [= ->]; congruence|exact (fun x => x)].
      + destruct (panics e (value l)); [discriminate|exact (fun x => x)].
      + destruct (holder l) as [w|]; [|discriminate]. destruct (Nat.eqb w t0); [discriminate|exact (fun x => x)].
    - destruct e; cbn [commanding who] in *; try tauto; try (split; [intros [= ->]; congruence|]); inversion A; subst; try congruence; try (split; congruence).
  Qed.

  (* ---- a call under one's own guard ---- *)
  Definition waits_for_itself (t : nat) (o : op D) (l : list event) : Prop :=
    match o with
    | TakeRead | WithRead => holder l = Some t
    | TakeWrite | WithWrite _ | Execute _ => holder l = Some t \/ 0 < reads t l
    | _ => False
    end.
  Lemma hangs_step ps t o p u g g' : good ps g -> programs g t = o :: p -> waits_for_itself t o (past g) -> move u g = Some g' -> programs g' t = o :: p /\ waits_for_itself t o (past g').
  Proof.
    intros G P W E. pose proof (move_good ps u g g' G E) as (_ & L' & _). destruct G as (M & L & _ & C). apply move_inv in E. destruct E as (o' & p' & s & e & Po & Es & ->).
    destruct (step_sound _ _ _ _ _ _ M Es) as (We & A & _). cbn [programs past] in *. unfold set_program. destruct (Nat.eqb_spec t u) as [<-|N].
    - rewrite P in Po. injection Po as <- <-. pose proof (lawful_calm _ L) as K.
      assert (NB : broken (past g) = false).
      { destruct o; cbn [waits_for_itself] in W; try contradiction; try (destruct W as [W|W]); try (apply (c_excl _ K t W)); apply (c_reads _ K t W). }
      assert (X : holder (past g) = Some t \/ 0 < reads t (past g)) by (destruct o; cbn [waits_for_itself] in W; tauto).
      assert (Y : ~ no_guards d0 (past g)) by (intros [Y1 Y2]; destruct X as [X|X]; [congruence|rewrite Y2 in X; lia]).
      destruct o; cbn [waits_for_itself] in W; try contradiction; inversion A; subst; unfold no_writer in *; try congruence; try contradiction.
      + cbn [again waits_for_itself]. split; [reflexivity|exact X].
      + exfalso. match goal with [ H : command_broken _ = true |- _ ] => apply command_broken_broken in H; congruence end.
    - destruct (others_kept t e (past g) L') as (R & H & _); [congruence|]. split; [exact P|]. destruct o; cbn [waits_for_itself] in *; rewrite ?H, ?R; assumption.
  Qed.
  Lemma hangs ps t o p : forall sched g g', good ps g -> programs g t = o :: p -> waits_for_itself t o (past g) -> run g sched = Some g' -> programs g' t = o :: p.
  Proof.
    induction sched as [|u sched IH]; intros g g' G P W; cbn [run]; [intros [= <-]; exact P|]. destruct (move u g) as [g1|] eqn:E; [|discriminate].
    destruct (hangs_step ps t o p u g g1 G P W E) as [P1 W1]. apply IH; [now apply (move_good ps u g)|exact P1|exact W1].
  Qed.

  (* ---- one guard at a time ---- *)
  Definition neat (g : @conf D) : Prop := forall t, exists h, tidy h (programs g t) /\
    match h with
    | None => reads t (past g) = 0 /\ holder (past g) <> Some t
    | Some ForReading => reads t (past g) <= 1 /\ holder (past g) <> Some t
    | Some ForWriting => reads t (past g) = 0
    end.
  Lemma move_neat ps t g g' : good ps g -> neat g -> move t g = Some g' -> neat g'.
  Proof.
    intros G N E u. pose proof (move_good ps t g g' G E) as (_ & L' & _). destruct G as (M & L & _ & C). apply move_inv in E. destruct E as (o & p & s & e & Po & Es & ->).
    destruct (step_sound _ _ _ _ _ _ M Es) as (We & A & _). cbn [programs past] in *. unfold set_program. destruct (Nat.eqb_spec u t) as [->|Q].
    - destruct (N t) as (h & T & H). rewrite Po in T. destruct (again e) eqn:Ag.
      + exists h. split; [exact T|]. destruct (again_iff _ _ _ _ A Ag) as (_ & f & -> & ->). cbn [reads SyncSpec.holder]. exact H.
      + pose proof (lawful_calm _ L) as K. clear We Es M C Po N. inversion A; subst; cbn [tidy] in T; (destruct h as [[]|]; try contradiction).
        all: try (eexists; split; [exact T|]; cbn [reads SyncSpec.holder]; rewrite ?Nat.eqb_refl; unfold no_guards, no_writer in *;
          solve [assumption | tauto | intuition (try congruence; try lia) ]).
        all: try (eexists; split; [exact T|]; cbn [reads SyncSpec.holder]; destruct (broken (past g)); cbn [negb]; rewrite ?Nat.eqb_refl; unfold no_guards, no_writer in *;
          solve [ intuition (try congruence; try lia) ]).
        all: try (eexists; split; [exact T|]; cbn [reads SyncSpec.holder]; rewrite ?Nat.eqb_refl; split; [reflexivity|]; destruct (holder (past g)) as [w|]; [destruct (Nat.eqb_spec w t); congruence|discriminate]).
        all: try discriminate Ag.
    - destruct (others_kept u e (past g) L') as (R & H & _); [congruence|]. destruct (N u) as (h & T & I). exists h. split; [exact T|]. rewrite R. destruct h as [[]|]; rewrite ?H; exact I.
  Qed.
  Lemma start_neat ps : (forall t, tidy None (ps t)) -> neat (start d0 ps).
  Proof. intros H t. exists None. split; [apply H|]. split; [reflexivity|discriminate]. Qed.
  Lemma run_neat ps : forall sched g g', good ps g -> neat g -> run g sched = Some g' -> neat g'.
  Proof.
    induction sched as [|t sched IH]; intros g g' G N; cbn [run]; [intros [= <-]; exact N|].
    destruct (move t g) as [g1|] eqn:E; [|discriminate]. apply IH; [now apply (move_good ps t g)|now apply (move_neat ps t g g1)].
  Qed.
  Lemma allowed_moves ps t o p e (g : @conf D) : good ps g -> programs g t = o :: p -> allowed t (past g) o e -> exists g', move t g = Some g'.
  Proof.
    intros (M & _) P A. destruct (step_complete t o (now g) (past g) e M A) as [s' E]. unfold move. rewrite P, E. eauto.
  Qed.
  Lemma progress ps g : good ps g -> neat g -> (exists t, programs g t <> []) -> exists t g', move t g = Some g'.
  Proof.
    intros G N (t0 & T0). pose proof G as (M & L & _ & C). pose proof (lawful_calm _ L) as K.
    destruct (holder (past g)) as [w|] eqn:Hw.
    - exists w. destruct (N w) as (h & T & I). destruct h as [[]|]; [destruct I; congruence| |destruct I; congruence].
      destruct (programs g w) as [|o p] eqn:P; [discriminate T|].
      assert (X : exists e, allowed w (past g) o e).
      { destruct o; cbn [tidy] in T; try contradiction; eexists; [apply a_look; now left|now apply a_change|now apply a_drop_write|apply a_unwind]. }
      destruct X as [e X]. now apply (allowed_moves ps w o p e).
    - destruct (Nat.eq_dec (reading (now g)) 0) as [Z|Z].
      + pose proof (proj1 (counts_zero _ _ (m_count _ _ M)) Z) as Z'. assert (NG : no_guards d0 (past g)) by (split; [exact Hw|intros u; rewrite <- (m_reads _ _ M); apply Z']).
        destruct (commanding (past g)) as [c|] eqn:Hc.
        * exists c. destruct (C c eq_refl) as (f & p & P). destruct (broken (past g)) eqn:B; [apply (allowed_moves ps c (Execute f) p (CommandFailed c) g G P); now constructor|apply (allowed_moves ps c (Execute f) p (Commanded c f) g G P); now constructor].
        * exists t0. destruct (programs g t0) as [|o p] eqn:P; [contradiction|].
          assert (X : exists e, allowed t0 (past g) o e).
          { destruct NG as [NG1 NG2]. destruct o.
            - eexists; now apply a_read.
            - eexists; now apply a_write.
            - destruct (broken (past g)) eqn:B; eexists; [apply a_try_read_no; intros [_ Q]; congruence|now apply a_try_read].
            - destruct (broken (past g)) eqn:B; eexists; [apply a_try_write_no; intros [_ Q]; congruence|now apply a_try_write].
            - eexists; apply a_look_no; [congruence|auto].
            - eexists; apply a_change_no; congruence.
            - eexists; now apply a_drop_read_no.
            - eexists; apply a_drop_write_no; congruence.
            - eexists; apply a_unwind.
            - destruct (broken (past g)) eqn:B; eexists; [now apply a_with_read_no|now apply a_with_read].
            - destruct (broken (past g)) eqn:B; eexists; [now apply a_with_write_no|now apply a_with_write].
            - destruct (command_broken (past g)) eqn:B; eexists; [now apply a_command_no|now apply a_command]. }
          destruct X as [e X]. now apply (allowed_moves ps t0 o p e).
      + destruct (counts_pos _ _ (m_count _ _ M) Z) as [u Hu]. rewrite (m_reads _ _ M) in Hu. exists u. destruct (N u) as (h & T & I). destruct h as [[]|]; [|lia|destruct I; lia].
        destruct (programs g u) as [|o p] eqn:P; [discriminate T|].
        assert (X : exists e, allowed u (past g) o e).
        { destruct o; cbn [tidy] in T; try contradiction; eexists; [apply a_look; now right|apply a_change_no; congruence|now apply a_drop_read|apply a_unwind]. }
        destruct X as [e X]. now apply (allowed_moves ps u o p e).
  Qed.

  (* ---- runs end ---- *)
  Definition total (f : nat -> list (op D)) (n : nat) : nat := list_sum (map (fun t => List.length (f t)) (seq 0 n)).
  Definition left_over (n : nat) (g : @conf D) : nat := 2 * total (programs g) n + match commanding (past g) with None => 1 | Some _ => 0 end.
  Lemma total_set f n t p : t < n -> total (set_program t p f) n + List.length (f t) = total f n + List.length p.
  Proof.
    intros H. unfold total. pose proof (sum_upd_in (fun u => List.length (f u)) t (List.length p) (seq 0 n) (seq_NoDup n 0) ltac:(apply in_seq; lia)) as Q. cbv beta in Q. rewrite <- Q. f_equal. f_equal. apply map_ext.
    intros u. unfold set_program, upd. now destruct (Nat.eqb u t).
  Qed.
  Lemma move_less ps n t g g' : good ps g -> (forall u, n <= u -> programs g u = []) -> move t g = Some g' -> left_over n g' < left_over n g /\ forall u, n <= u -> programs g' u = [].
  Proof.
    intros G F E. pose proof G as (M & L & _ & C). apply move_inv in E. destruct E as (o & p & s & e & Po & Es & ->). destruct (step_sound _ _ _ _ _ _ M Es) as (We & A & _).
    assert (Ht : t < n) by (destruct (le_lt_dec n t) as [Q|Q]; [rewrite (F t Q) in Po; discriminate|exact Q]).
    pose proof (total_set (programs g) n t (if again e then o :: p else p) Ht) as Q. rewrite Po in Q. unfold left_over. cbn [programs past]. split.
    - destruct (again e) eqn:Ag; cbn [List.length] in Q.
      + destruct (again_iff _ _ _ _ A Ag) as (Cn & f & -> & ->). rewrite Cn. cbn [commanding]. lia.
      + destruct (commanding (e :: past g)); destruct (commanding (past g)); lia.
    - intros u Hu. unfold set_program. destruct (Nat.eqb_spec u t) as [->|_]; [lia|auto].
  Qed.
  Lemma run_less ps n : forall sched g g', good ps g -> (forall u, n <= u -> programs g u = []) -> run g sched = Some g' -> left_over n g' + List.length sched <= left_over n g /\ forall u, n <= u -> programs g' u = [].
  Proof.
    induction sched as [|t sched IH]; intros g g' G F; cbn [run List.length]; [intros [= <-]; split; [lia|exact F]|].
    destruct (move t g) as [g1|] eqn:E; [|discriminate]. intros R. destruct (move_less ps n t g g1 G F E) as [H1 F1]. destruct (IH g1 g' (move_good ps t g g1 G E) F1 R) as [H2 F2]. split; [lia|exact F2].
  Qed.
  Lemma finishes ps n : forall k g, good ps g -> neat g -> (forall u, n <= u -> programs g u = []) -> left_over n g <= k -> exists sched g', run g sched = Some g' /\ forall t, programs g' t = [].
  Proof.
    induction k as [|k IH]; intros g G N F K.
    - exists [], g. split; [reflexivity|]. intros t. destruct (le_lt_dec n t) as [Q|Q]; [now apply F|]. unfold left_over in K.
      assert (B : List.length (programs g t) <= total (programs g) n).
      { unfold total. pose proof (sum_upd_in (fun u => List.length (programs g u)) t 0 (seq 0 n) (seq_NoDup n 0) ltac:(apply in_seq; lia)) as X. cbv beta in X. lia. }
      destruct (programs g t); [reflexivity|cbn [List.length] in B; lia].
    - assert (Dec : (exists t, programs g t <> []) \/ forall t, programs g t = []).
      { clear -F. destruct (existsb (fun t => match programs g t with [] => false | _ => true end) (seq 0 n)) eqn:E.
        - apply existsb_exists in E. destruct E as (t & _ & E). left. exists t. destruct (programs g t); congruence.
        - right. intros t. destruct (le_lt_dec n t) as [Q|Q]; [now apply F|]. destruct (programs g t) eqn:P; [reflexivity|]. exfalso.
          assert (X : existsb (fun t => match programs g t with [] => false | _ => true end) (seq 0 n) = true) by (apply existsb_exists; exists t; split; [apply in_seq; lia|now rewrite P]). congruence. }
      destruct Dec as [Dec|Dec]; [|exists [], g; split; [reflexivity|exact Dec]].
      destruct (progress ps g G N Dec) as (t & g1 & E). destruct (move_less ps n t g g1 G F E) as [H1 F1].
      destruct (IH g1 (move_good ps t g g1 G E) (move_neat ps t g g1 G N E) F1 ltac:(lia)) as (sched & g' & R & D'). exists (t :: sched), g'. split; [|exact D']. cbn [run]. now rewrite E.
  Qed.
End Proofs.

Lemma pool_run_exact l : (forall id, get_document id (pool_run l) = last_added id (rev l)) /\ NoDup (list_documents (pool_run l)).
Proof.
  unfold pool_run. induction l as [|c l IH] using rev_ind; [split; [reflexivity|constructor]|]. rewrite fold_left_app, rev_app_distr. cbn [fold_left rev app].
  destruct IH as [H N]. destruct c as [i h|i]; cbn [pool_step last_added]; unfold add_document, remove_document, get_document, list_documents in *.
  - split; [intros id; rewrite get_inserted, H; reflexivity|now apply insert_keys].
  - split; [intros id; rewrite get_without, H; reflexivity|now apply without_keys].
Qed.
