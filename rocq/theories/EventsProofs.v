From Coq Require Import Permutation Sorted.
From Verif Require Import BaseLemmas EventsSpec.

(* ---- the order of sweep items ---- *)
Lemma sweep_le_iff a b : sweep_le a b = true <-> (it_time a < it_time b)%N \/ it_time a = it_time b /\ (it_start a = false \/ it_start b = true).
Proof.
  unfold sweep_le. destruct (N.compare_spec (it_time a) (it_time b)) as [E|L|G].
  - destruct (it_start a), (it_start b); cbn; split; auto; try discriminate. intros [H|[_ [H|H]]]; [lia|discriminate..].
  - split; auto.
  - split; [discriminate|]. intros [H|[H _]]; lia.
Qed.
Lemma sweep_le_total a b : sweep_le a b = true \/ sweep_le b a = true.
Proof.
  rewrite !sweep_le_iff. destruct (N.lt_trichotomy (it_time a) (it_time b)) as [L|[E|G]]; [auto| |auto].
  destruct (it_start a) eqn:A, (it_start b) eqn:B; [left|right|left|left]; right; split; auto.
Qed.
Lemma sweep_le_trans a b c : sweep_le a b = true -> sweep_le b c = true -> sweep_le a c = true.
Proof.
  rewrite !sweep_le_iff. intros [H|[H P]] [K|[K Q]]; [left; lia|left; lia|left; lia|]. right. split; [lia|].
  destruct P as [P|P]; [now left|]. destruct Q as [Q|Q]; [congruence|now right].
Qed.
(* the order of the input *)
Definition listed (a b : sweep_item) : Prop := it_index a < it_index b \/ it_index a = it_index b /\ it_start a = true /\ it_start b = false.
Lemma items_listed times : forall i, StronglySorted listed (sweep_items i times) /\ Forall (fun x => i <= it_index x) (sweep_items i times).
Proof.
  induction times as [|[s e] r IH]; intros i; cbn [sweep_items]; [split; constructor|]. destruct (IH (S i)) as [S1 F].
  split.
  - constructor; [constructor; [exact S1|]|].
    + eapply Forall_impl; [|exact F]. intros x L. left. cbn in *. lia.
    + constructor; [right; repeat split|]. eapply Forall_impl; [|exact F]. intros x L. left. cbn in *. lia.
  - constructor; [cbn; lia|]. constructor; [cbn; lia|]. eapply Forall_impl; [|exact F]. cbn. intros; lia.
Qed.
Lemma items_in times : forall i x, In x (sweep_items i times) <->
  exists k s e, nth_error times k = Some (s, e) /\ (x = Item s true (i + k) \/ x = Item e false (i + k)).
Proof.
  induction times as [|[s e] r IH]; intros i x; cbn [sweep_items In].
  - split; [intros []|]. intros (k & s & e & H & _). destruct k; discriminate.
  - rewrite IH. split.
    + intros [<-|[<-|(k & s' & e' & H & X)]].
      * exists 0, s, e. split; [reflexivity|]. left. f_equal. lia.
      * exists 0, s, e. split; [reflexivity|]. right. f_equal. lia.
      * exists (S k), s', e'. split; [exact H|]. replace (i + S k) with (S i + k) by lia. exact X.
    + intros (k & s' & e' & H & X). destruct k as [|k].
      * injection H as -> ->. rewrite Nat.add_0_r in X. destruct X as [->| ->]; auto.
      * right. right. exists k, s', e'. split; [exact H|]. replace (S i + k) with (i + S k) by lia. exact X.
Qed.

(* ---- the sweep ---- *)
Definition before := lex sweep_le listed.
Lemma before_asym a b : before a b -> before b a -> False.
Proof. intros [H R] [K Q]. specialize (R K). specialize (Q H). unfold listed in *. destruct R as [R|(R & A & B)], Q as [Q|(Q & C & D)]; try lia; congruence. Qed.

Section Sweep.
  Variable times : list (N * N).
  Definition st (i : nat) : option sweep_item := option_map (fun t => Item (fst t) true i) (nth_error times i).
  Definition en (i : nat) : option sweep_item := option_map (fun t => Item (snd t) false i) (nth_error times i).
  (* Start i is in p, and so on *)
  Definition s_in (p : list sweep_item) (i : nat) : Prop := exists x, st i = Some x /\ In x p.
  Definition e_in (p : list sweep_item) (i : nat) : Prop := exists x, en i = Some x /\ In x p.
  Definition s_before_e (i j : nat) : Prop := exists x y, st i = Some x /\ en j = Some y /\ before x y.
  Definition e_before_s (i j : nat) : Prop := exists x y, en i = Some x /\ st j = Some y /\ before x y.
  Definition s_before_s (i j : nat) : Prop := exists x y, st i = Some x /\ st j = Some y /\ before x y.
  Definition act_inv (p : list sweep_item) (active : list nat) : Prop :=
    NoDup active /\ forall i, In i active <-> s_in p i /\ ~ (e_in p i /\ s_before_e i i).
  Definition ov_inv (p : list sweep_item) (ov : list (nat * nat)) : Prop :=
    NoDup ov /\ forall i j, In (i, j) ov <-> s_in p i /\ s_in p j /\ s_before_s i j /\ ~ (s_before_e i i /\ e_before_s i j).
  Lemma remove_first_in x l : NoDup l -> NoDup (remove_first x l) /\ forall y, In y (remove_first x l) <-> In y l /\ y <> x.
  Proof.
    induction l as [|a l IH]; intros N; cbn [remove_first]; [split; [exact N|intros y; cbn; tauto]|].
    inversion N as [|? ? N1 N2]; subst. destruct (IH N2) as [I1 I2]. destruct (Nat.eqb_spec a x) as [->|NE].
    - split; [exact N2|]. intros y. cbn [In]. split; [intros H; split; [now right|intros ->; contradiction]|]. intros [[->|H] Q]; [congruence|exact H].
    - split; [constructor; [rewrite I2; tauto|exact I1]|]. intros y. cbn [In]. rewrite I2. split; [intros [->|[H Q]]; auto|]. intros [[->|H] Q]; auto.
  Qed.
  Lemma sweep_inv suf : forall pre active ov,
    (forall x, In x (pre ++ suf) <-> exists i, st i = Some x \/ en i = Some x) ->
    StronglySorted before (pre ++ suf) -> act_inv pre active -> ov_inv pre ov -> ov_inv (pre ++ suf) (sweep active ov suf).
  Proof.
    induction suf as [|x suf IH]; intros pre active ov ALL SS A O; [now rewrite app_nil_r|].
    cbn [sweep]. replace (pre ++ x :: suf) with ((pre ++ [x]) ++ suf) in * by (now rewrite <- app_assoc).
    (* x comes after everything in pre and before everything in suf *)
    assert (PB : forall y, In y pre -> before y x).
    { rewrite <- app_assoc in SS. cbn [app] in SS. clear -SS. induction pre as [|a pre IH]; intros y I; [destruct I|]. cbn [app] in SS. apply StronglySorted_inv in SS as [SS F].
      destruct I as [<-|I]; [|now apply IH]. rewrite Forall_forall in F. apply F, in_app_iff. right. now left. }
    assert (SB : forall y, In y suf -> before x y).
    { rewrite <- app_assoc in SS. cbn [app] in SS. clear -SS. induction pre as [|a pre IH]; intros y I; cbn [app] in SS.
      - apply StronglySorted_inv in SS as [_ F]. rewrite Forall_forall in F. now apply F.
      - apply StronglySorted_inv in SS as [SS _]. now apply IH. }
    assert (XI : exists i, st i = Some x \/ en i = Some x) by (apply ALL; rewrite !in_app_iff; cbn; auto).
    assert (NX : ~ In x pre) by (intros I; exact (before_asym _ _ (PB x I) (PB x I))).
    (* an item before x is in pre *)
    assert (IN : forall y, (exists i, st i = Some y \/ en i = Some y) -> before y x -> In y pre).
    { intros y Y B. apply ALL in Y. rewrite <- app_assoc, in_app_iff in Y. destruct Y as [Y|[<-|Y]]; [exact Y|exfalso; exact (before_asym _ _ B B)|exfalso; exact (before_asym _ _ B (SB y Y))]. }
    assert (S_ST : forall i, st i = Some x -> it_start x = true /\ it_index x = i).
    { intros i. unfold st. destruct (nth_error times i) as [[s e]|]; [|discriminate]. cbn. intros Q. injection Q as <-. split; reflexivity. }
    assert (S_EN : forall i, en i = Some x -> it_start x = false /\ it_index x = i).
    { intros i. unfold en. destruct (nth_error times i) as [[s e]|]; [|discriminate]. cbn. intros Q. injection Q as <-. split; reflexivity. }
    destruct A as [AN A], O as [ON O].
    destruct XI as (k & [XI|XI]).
    - (* a start *)
      destruct (S_ST k XI) as [X1 X2]. rewrite X1, X2.
      assert (SI : forall i, s_in (pre ++ [x]) i <-> s_in pre i \/ i = k).
      { intros i. unfold s_in. split.
        - intros (y & Y & I). apply in_app_iff in I as [I|[<-|[]]]; [left; now exists y|right]. destruct (S_ST i Y) as [_ Q]. congruence.
        - intros [(y & Y & I)| ->]; [exists y; split; [exact Y|apply in_app_iff; now left]|]. exists x. split; [exact XI|apply in_app_iff; right; now left]. }
      assert (EI : forall i, e_in (pre ++ [x]) i <-> e_in pre i).
      { intros i. unfold e_in. split.
        - intros (y & Y & I). apply in_app_iff in I as [I|[<-|[]]]; [now exists y|]. destruct (S_EN i Y) as [Q _]. congruence.
        - intros (y & Y & I). exists y. split; [exact Y|apply in_app_iff; now left]. }
      assert (NK : ~ s_in pre k) by (intros (y & Y & I); rewrite XI in Y; injection Y as <-; exact (NX I)).
      assert (NA : ~ In k active) by (intros I; apply A in I as [I _]; exact (NK I)).
      apply IH.
      + exact ALL.
      + exact SS.
      + split; [|].
        * clear -AN NA. induction active as [|a l IH]; [constructor; [intros []|constructor]|]. inversion AN; subst. cbn [app]. constructor; [|apply IH; [assumption|intros I; apply NA; now right]].
          intros I. apply in_app_iff in I as [I|[<-|[]]]; [contradiction|apply NA; now left].
        * intros i. rewrite in_app_iff, A, SI, EI. cbn [In]. split.
          -- intros [[H1 H2]|[<-|[]]]; [split; [now left|exact H2]|]. split; [now right|]. intros [(y & Y & I) (u & v & U & V & B)].
             rewrite XI in U. injection U as <-. rewrite Y in V. injection V as <-. exact (before_asym _ _ B (PB y I)).
          -- intros [[H1| ->] H2]; [left; now split|right; now left].
      + assert (NEW : forall i j, In (i, j) (map (fun a => (a, k)) active) <-> j = k /\ In i active).
        { intros i j. rewrite in_map_iff. split; [intros (a & Q & I); injection Q as <- <-; auto|]. intros [-> I]. now exists i. }
        split.
        * assert (D : forall p, In p ov -> ~ In p (map (fun a => (a, k)) active)).
          { intros [i j] I J. apply NEW in J as [-> J]. apply O in I as (_ & I & _). exact (NK I). }
          assert (NM : NoDup (map (fun a => (a, k)) active)).
          { clear -AN. induction AN as [|a l N1 N2 IH]; [constructor|]. cbn [map]. constructor; [|exact IH]. intros I. apply in_map_iff in I as (b & Q & I). injection Q as ->. contradiction. }
          clear -ON NM D. induction ov as [|p ov IH]; [exact NM|]. inversion ON; subst. cbn [app]. constructor.
          -- intros I. apply in_app_iff in I as [I|I]; [contradiction|]. exact (D p (or_introl eq_refl) I).
          -- apply IH; [assumption|]. intros q Q. apply D. now right.
        * intros i j. rewrite in_app_iff, O, NEW, A, !SI. split.
          -- intros [(H1 & H2 & H3 & H4)|(-> & H1 & H2)]; [split; [now left|split; [now left|split; assumption]]|].
             split; [now left|]. split; [now right|]. destruct H1 as (y & Y & I). split; [exists y, x; split; [exact Y|split; [exact XI|exact (PB y I)]]|].
             intros [B1 (u & v & U & V & B2)]. apply H2. split; [|exact B1]. exists u. split; [exact U|]. rewrite XI in V. injection V as <-. apply IN; [exists i; now right|exact B2].
          -- intros (H1 & H2 & H3 & H4). destruct H2 as [H2| ->].
             ++ destruct H1 as [H1| ->]; [left; split; [exact H1|split; [exact H2|split; assumption]]|]. exfalso. destruct H3 as (u & v & U & V & B).
                rewrite XI in U. injection U as <-. destruct H2 as (y & Y & I). rewrite Y in V. injection V as <-. exact (before_asym _ _ B (PB y I)).
             ++ right. split; [reflexivity|]. destruct H3 as (u & v & U & V & B). rewrite XI in V. injection V as <-. split.
                ** exists u. split; [exact U|]. apply IN; [exists i; now left|exact B].
                ** intros [(y & Y & I) B1]. apply H4. split; [exact B1|]. exists y, x. split; [exact Y|]. split; [exact XI|exact (PB y I)].
    - (* an end *)
      destruct (S_EN k XI) as [X1 X2]. rewrite X1, X2.
      assert (SI : forall i, s_in (pre ++ [x]) i <-> s_in pre i).
      { intros i. unfold s_in. split.
        - intros (y & Y & I). apply in_app_iff in I as [I|[<-|[]]]; [now exists y|]. destruct (S_ST i Y) as [Q _]. congruence.
        - intros (y & Y & I). exists y. split; [exact Y|apply in_app_iff; now left]. }
      assert (EI : forall i, e_in (pre ++ [x]) i <-> e_in pre i \/ i = k).
      { intros i. unfold e_in. split.
        - intros (y & Y & I). apply in_app_iff in I as [I|[<-|[]]]; [left; now exists y|right]. destruct (S_EN i Y) as [_ Q]. congruence.
        - intros [(y & Y & I)| ->]; [exists y; split; [exact Y|apply in_app_iff; now left]|]. exists x. split; [exact XI|apply in_app_iff; right; now left]. }
      destruct (remove_first_in k active AN) as [R1 R2]. apply IH.
      + exact ALL.
      + exact SS.
      + split; [exact R1|]. intros i. rewrite R2, A, SI, EI. split.
        * intros [[H1 H2] H3]. split; [exact H1|]. intros [[H4|H4] H5]; [apply H2; now split|contradiction].
        * intros [H1 H2]. split; [split; [exact H1|]|].
          -- intros [H3 H4]. apply H2. split; [now left|exact H4].
          -- intros ->. apply H2. split; [now right|]. destruct H1 as (y & Y & I). exists y, x. split; [exact Y|]. split; [exact XI|exact (PB y I)].
      + split; [exact ON|]. intros i j. rewrite O, !SI. reflexivity.
  Qed.
  Lemma st_iff i x : st i = Some x <-> exists s e, nth_error times i = Some (s, e) /\ x = Item s true i.
  Proof.
    unfold st. destruct (nth_error times i) as [[s e]|]; cbn; split.
    - intros Q. injection Q as <-. now exists s, e.
    - intros (s' & e' & Q & ->). now injection Q as -> ->.
    - discriminate.
    - intros (s' & e' & Q & _). discriminate.
  Qed.
  Lemma en_iff i x : en i = Some x <-> exists s e, nth_error times i = Some (s, e) /\ x = Item e false i.
  Proof.
    unfold en. destruct (nth_error times i) as [[s e]|]; cbn; split.
    - intros Q. injection Q as <-. now exists s, e.
    - intros (s' & e' & Q & ->). now injection Q as -> ->.
    - discriminate.
    - intros (s' & e' & Q & _). discriminate.
  Qed.
  Lemma overlaps_inv : ov_inv (stable_sort sweep_le (sweep_items 0 times)) (overlaps_of times).
  Proof.
    unfold overlaps_of. pose proof (sweep_inv (stable_sort sweep_le (sweep_items 0 times)) [] [] []) as H. cbn [app] in H. apply H.
    - intros x. assert (PI : In x (stable_sort sweep_le (sweep_items 0 times)) <-> In x (sweep_items 0 times)).
      { split; apply Permutation_in; [apply Permutation_sym|]; apply sort_perm. }
      rewrite PI, items_in. cbn [Nat.add]. split.
      + intros (k & s & e & N & [->| ->]); exists k; [left; apply st_iff|right; apply en_iff]; now exists s, e.
      + intros (k & [Q|Q]); [apply st_iff in Q as (s & e & N & ->)|apply en_iff in Q as (s & e & N & ->)]; exists k, s, e; auto.
    - apply sort_lex; [exact sweep_le_total|exact sweep_le_trans|apply items_listed].
    - split; [constructor|]. intros i. split; [intros []|]. intros [(x & _ & []) _].
    - split; [constructor|]. intros i j. split; [intros []|]. intros [(x & _ & []) _].
  Qed.
  Lemma s_in_all i : s_in (stable_sort sweep_le (sweep_items 0 times)) i <-> i < List.length times.
  Proof.
    unfold s_in. split.
    - intros (x & X & _). apply st_iff in X as (s & e & N & _). apply nth_error_Some. congruence.
    - intros L. apply nth_error_Some in L. destruct (nth_error times i) as [[s e]|] eqn:E; [|congruence]. exists (Item s true i). split; [apply st_iff; now exists s, e|].
      apply (Permutation_in _ (sort_perm sweep_le (sweep_items 0 times))). apply items_in. exists i, s, e. auto.
  Qed.
  Lemma before_ss i j si sj : before (Item si true i) (Item sj true j) <-> (si < sj)%N \/ si = sj /\ i < j.
  Proof.
    unfold before, lex. rewrite !sweep_le_iff. unfold listed. cbn [it_time it_start it_index]. split.
    - intros [[H|[-> _]] R]; [now left|]. right. split; [reflexivity|]. destruct R as [R|(R & _ & R2)]; [right; split; auto|exact R|discriminate].
    - intros [H|[-> H]]; [split; [now left|intros [K|[K _]]; lia]|]. split; [right; auto|]. intros _. now left.
  Qed.
  Lemma before_se i s e : before (Item s true i) (Item e false i) <-> (s < e)%N.
  Proof.
    unfold before, lex. rewrite !sweep_le_iff. unfold listed. cbn [it_time it_start it_index]. split.
    - intros [[H|[_ [H|H]]] R]; [exact H|discriminate..].
    - intros H. split; [now left|]. intros _. right. auto.
  Qed.
  Lemma before_es i j e s : before (Item e false i) (Item s true j) <-> (e <= s)%N.
  Proof.
    unfold before, lex. rewrite !sweep_le_iff. unfold listed. cbn [it_time it_start it_index]. split.
    - intros [[H|[H _]] R]; lia.
    - intros H. split; [|intros [K|[_ [K|K]]]; [lia|discriminate..]]. destruct (N.eq_dec e s); [right; auto|left; lia].
  Qed.
  Lemma overlaps_exact : NoDup (overlaps_of times) /\ forall i j, In (i, j) (overlaps_of times) <-> starts_first times i j /\ still_running times i j.
  Proof.
    destruct overlaps_inv as [N O]. split; [exact N|]. intros i j. rewrite O, !s_in_all. unfold starts_first, still_running. split.
    - intros (L1 & L2 & (u & v & U & V & B) & NB). apply st_iff in U as (si & ei & E1 & ->). apply st_iff in V as (sj & ej & E2 & ->). apply before_ss in B.
      split; exists si, ei, sj, ej; (split; [exact E1|]; split; [exact E2|]); [exact B|].
      destruct (N.lt_ge_cases sj ei) as [L|L]; [now left|right]. destruct (N.lt_ge_cases si ei) as [L'|L']; [|exact L'].
      exfalso. apply NB. split.
      + exists (Item si true i), (Item ei false i). split; [apply st_iff; now exists si, ei|]. split; [apply en_iff; now exists si, ei|]. now apply before_se.
      + exists (Item ei false i), (Item sj true j). split; [apply en_iff; now exists si, ei|]. split; [apply st_iff; now exists sj, ej|]. now apply before_es.
    - intros [(si & ei & sj & ej & E1 & E2 & B) (si' & ei' & sj' & ej' & E1' & E2' & R)]. rewrite E1 in E1'. rewrite E2 in E2'. injection E1' as <- <-. injection E2' as <- <-.
      split; [apply nth_error_Some; congruence|]. split; [apply nth_error_Some; congruence|]. split.
      + exists (Item si true i), (Item sj true j). split; [apply st_iff; now exists si, ei|]. split; [apply st_iff; now exists sj, ej|]. now apply before_ss.
      + intros [(u & v & U & V & B1) (w & z & W & Z & B2)]. apply st_iff in U as (a & b & Q & ->). rewrite E1 in Q. injection Q as <- <-.
        apply en_iff in V as (a & b & Q & ->). rewrite E1 in Q. injection Q as <- <-. apply en_iff in W as (a & b & Q & ->). rewrite E1 in Q. injection Q as <- <-.
        apply st_iff in Z as (a & b & Q & ->). rewrite E2 in Q. injection Q as <- <-. apply before_se in B1. apply before_es in B2. lia.
  Qed.
End Sweep.

(* ---- overlaps of well-formed ranges ---- *)
Lemma pair_common times i j : Forall (fun t => (fst t < snd t)%N) times ->
  (starts_first times i j /\ still_running times i j) <-> starts_first times i j /\ common_instant times i j.
Proof.
  intros F. rewrite Forall_forall in F. split; intros [A B]; (split; [exact A|]).
  - destruct A as (si & ei & sj & ej & E1 & E2 & A), B as (? & ? & ? & ? & E1' & E2' & B). rewrite E1 in E1'. rewrite E2 in E2'. injection E1' as <- <-. injection E2' as <- <-.
    pose proof (F _ (nth_error_In _ _ E1)) as F1. pose proof (F _ (nth_error_In _ _ E2)) as F2. cbn in F1, F2.
    exists (si, ei), (sj, ej), sj. unfold instant. cbn. repeat split; try assumption; lia.
  - destruct A as (si & ei & sj & ej & E1 & E2 & A), B as (a & b & t & E1' & E2' & I1 & I2). rewrite E1 in E1'. rewrite E2 in E2'. injection E1' as <-. injection E2' as <-.
    unfold instant in *. cbn in *. exists si, ei, sj, ej. repeat split; try assumption. left. lia.
Qed.
Lemma starts_first_total times i j : i <> j -> i < List.length times -> j < List.length times -> starts_first times i j \/ starts_first times j i.
Proof.
  intros N A B. apply nth_error_Some in A, B. destruct (nth_error times i) as [[si ei]|] eqn:E1; [|congruence]. destruct (nth_error times j) as [[sj ej]|] eqn:E2; [|congruence].
  destruct (N.lt_trichotomy si sj) as [L|[->|L]].
  - left. exists si, ei, sj, ej. auto.
  - destruct (Nat.lt_gt_cases i j) as [[L|L] _]; [exact N|left; exists sj, ei, sj, ej; auto|right; exists sj, ej, sj, ei; auto].
  - right. exists sj, ej, si, ei. auto.
Qed.
Lemma starts_first_asym times i j : starts_first times i j -> starts_first times j i -> False.
Proof.
  intros (si & ei & sj & ej & E1 & E2 & A) (sj' & ej' & si' & ei' & E2' & E1' & B). rewrite E1 in E1'. rewrite E2 in E2'. injection E1' as <- <-. injection E2' as <- <-. lia.
Qed.
Lemma common_sym times i j : common_instant times i j -> common_instant times j i.
Proof. intros (a & b & t & H1 & H2 & H3 & H4). exists b, a, t. auto. Qed.
Lemma overlaps_valid times : Forall (fun t => (fst t < snd t)%N) times ->
  NoDup (overlaps_of times) /\
  (forall i j, In (i, j) (overlaps_of times) -> starts_first times i j) /\
  (forall i j, In (i, j) (overlaps_of times) \/ In (j, i) (overlaps_of times) <-> i <> j /\ common_instant times i j).
Proof.
  intros F. destruct (overlaps_exact times) as [N O]. split; [exact N|]. split; [intros i j H; now apply O in H as [H _]|].
  intros i j. rewrite !O, !pair_common by exact F. split.
  - intros [[A B]|[A B]]; (split; [intros ->; exact (starts_first_asym _ _ _ A A)|]); [exact B|now apply common_sym].
  - intros [D C]. assert (K : i < List.length times /\ j < List.length times).
    { destruct C as (a & b & t & A & B & _). split; apply nth_error_Some; congruence. }
    destruct (starts_first_total times i j D) as [S|S]; [tauto..| |]; [left|right]; split; try exact S; [exact C|now apply common_sym].
Qed.
Lemma all_times_ok {A} (get : A -> res (N * N)) l ts : all_times get l = Ok ts <-> Forall2 (fun x t => get x = Ok t) l ts.
Proof.
  revert ts. induction l as [|x l IH]; intros ts; cbn [all_times].
  - split; [intros Q; injection Q as <-; constructor|]. intros F. inversion F. reflexivity.
  - split.
    + destruct (get x) as [t| |] eqn:G; try discriminate. cbn. destruct (all_times get l) as [r| |]; try discriminate. cbn. intros Q. injection Q as <-. constructor; [exact G|now apply IH].
    + intros F. inversion F as [|? t ? r G F']; subst. rewrite G. cbn. apply IH in F'. rewrite F'. reflexivity.
Qed.
Lemma all_times_first {A} (get : A -> res (N * N)) l : (forall x, In x l -> exists t, get x = Ok t) \/
  exists u x v, l = u ++ x :: v /\ (forall y, In y u -> exists t, get y = Ok t) /\ (get x = Err /\ all_times get l = Err \/ get x = Panic /\ all_times get l = Panic).
Proof.
  induction l as [|x l IH]; [left; intros y []|]. cbn [all_times]. destruct (get x) as [t| |] eqn:G; cbn [res_bind].
  - destruct IH as [IH|(u & y & v & -> & U & H)].
    + left. intros y [<-|I]; [now exists t|now apply IH].
    + right. exists (x :: u), y, v. split; [reflexivity|]. split; [intros z [<-|I]; [now exists t|now apply U]|]. destruct H as [[H1 H2]|[H1 H2]]; [left|right]; split; try exact H1; rewrite H2; reflexivity.
  - right. exists [], x, l. split; [reflexivity|]. split; [intros y []|]. left. split; [exact G|reflexivity].
  - right. exists [], x, l. split; [reflexivity|]. split; [intros y []|]. right. split; [exact G|reflexivity].
Qed.

(* ---- dialogue info ---- *)
Lemma analyzed_times d : analyzed d -> parse_ass_time (e_start (di_event d)) = Ok (di_start d) /\ parse_ass_time (e_end (di_event d)) = Ok (di_end d) /\ (di_start d < di_end d)%N.
Proof.
  intros [reg H]. unfold analyze_with in H. destruct (parse_ass_time (e_start (di_event d))) as [s| |] eqn:S; try discriminate. cbn [lift] in H.
  destruct (parse_ass_time (e_end (di_event d))) as [t| |] eqn:T; try discriminate. cbn [lift] in H. destruct (N.leb_spec t s) as [L|L]; [discriminate|].
  destruct (analyze_text_with reg (e_text (di_event d))) as [[ta|]| |]; try discriminate. cbn in H. destruct (animation_score _) as [a| |]; try discriminate. cbn in H.
  injection H as Q. rewrite <- Q. cbn. auto.
Qed.
Lemma relation_cases a b : (di_start a < di_end a)%N -> (di_start b < di_end b)%N ->
  match relation_of a b with
  | Identical => forall t, instant (range_of a) t <-> instant (range_of b) t
  | NoOverlap => forall t, ~ (instant (range_of a) t /\ instant (range_of b) t)
  | FullOverlap => ~ (forall t, instant (range_of a) t <-> instant (range_of b) t) /\
      ((forall t, instant (range_of a) t -> instant (range_of b) t) \/ forall t, instant (range_of b) t -> instant (range_of a) t)
  | PartialOverlap => (exists t, instant (range_of a) t /\ instant (range_of b) t) /\
      (exists t, instant (range_of a) t /\ ~ instant (range_of b) t) /\ exists t, instant (range_of b) t /\ ~ instant (range_of a) t
  end.
Proof.
  intros A B. unfold relation_of, instant, range_of. cbn [fst snd]. destruct a as [? sa ea ? ? ?], b as [? sb eb ? ? ?]. cbn [di_start di_end] in *.
  destruct (N.eqb_spec sa sb) as [E1|E1]; [destruct (N.eqb_spec ea eb) as [E2|E2]|]; cbn [andb].
  - intros t. lia.
  - destruct (N.leb_spec ea sb); [lia|]. destruct (N.leb_spec eb sa); [lia|]. cbn [orb]. destruct (N.leb_spec sa sb); [|lia]. destruct (N.leb_spec sb sa); [|lia]. cbn [andb].
    destruct (N.leb_spec eb ea) as [L|L]; cbn [orb].
    + split; [intros Q; specialize (Q eb); lia|right; intros; lia].
    + destruct (N.leb_spec ea eb); [|lia]. split; [intros Q; specialize (Q ea); lia|left; intros; lia].
  - destruct (N.leb_spec ea sb) as [L|L]; cbn [orb]; [intros t; lia|]. destruct (N.leb_spec eb sa) as [L2|L2]; [intros t; lia|].
    destruct (N.leb_spec sa sb) as [L3|L3], (N.leb_spec eb ea) as [L4|L4], (N.leb_spec sb sa) as [L5|L5], (N.leb_spec ea eb) as [L6|L6]; cbn [andb orb]; try lia;
      try (split; [intros Q; pose proof (Q sa); pose proof (Q sb); lia|]; first [left; intros; lia | right; intros; lia]).
    + split; [exists sb; lia|]. split; [exists sa; lia|exists ea; lia].
    + split; [exists sa; lia|]. split; [exists eb; lia|exists sb; lia].
Qed.
Lemma relation_sym a b : relation_of a b = relation_of b a.
Proof.
  unfold relation_of. rewrite (N.eqb_sym (di_start b)), (N.eqb_sym (di_end b)). destruct (_ && _); [reflexivity|]. rewrite (orb_comm (di_end b <=? di_start a)%N). destruct (_ || _); [reflexivity|].
  rewrite (orb_comm ((di_start b <=? di_start a) && _)%N). reflexivity.
Qed.
Lemma range_overlap d s e : (di_start d < di_end d)%N -> (s < e)%N -> overlaps_time_range d s e = true <-> exists t, instant (range_of d) t /\ (s <= t < e)%N.
Proof.
  intros A B. unfold overlaps_time_range, instant, range_of. cbn [fst snd]. rewrite negb_true_iff, orb_false_iff, !N.leb_gt. split.
  - intros [H1 H2]. exists (N.max s (di_start d)). lia.
  - intros (t & H1 & H2). lia.
Qed.
Lemma indices_iff {A} (p : A -> bool) l : forall i k, In k (indices_from i p l) <-> exists n x, k = i + n /\ nth_error l n = Some x /\ p x = true.
Proof.
  induction l as [|x l IH]; intros i k; cbn [indices_from].
  - split; [intros []|]. intros (n & x & _ & H & _). destruct n; discriminate.
  - rewrite in_app_iff, IH. split.
    + intros [H|(n & y & -> & N & P)].
      * exists 0, x. destruct (p x) eqn:E; [|destruct H]. destruct H as [<-|[]]. repeat split; lia.
      * exists (S n), y. split; [lia|split; [exact N|exact P]].
    + intros (n & y & -> & N & P). destruct n as [|n].
      * left. injection N as ->. rewrite P. left. lia.
      * right. exists n, y. split; [lia|split; [exact N|exact P]].
Qed.
Lemma indices_sorted {A} (p : A -> bool) l : forall i, StronglySorted lt (indices_from i p l) /\ Forall (fun k => i <= k) (indices_from i p l).
Proof.
  induction l as [|x l IH]; intros i; cbn [indices_from]; [split; constructor|]. destruct (IH (S i)) as [S1 F]. destruct (p x); cbn [app].
  - split; (constructor; [try exact S1; try lia|eapply Forall_impl; [|exact F]; cbn; intros; lia]).
  - split; [exact S1|]. eapply Forall_impl; [|exact F]. cbn. intros; lia.
Qed.

(* ---- sorting ---- *)
Lemma time_le_iff a b : time_le a b = true <-> (di_start a < di_start b)%N \/ di_start a = di_start b /\ (di_end a <= di_end b)%N.
Proof.
  unfold time_le. destruct (N.compare_spec (di_start a) (di_start b)) as [E|L|G].
  - rewrite N.leb_le. split; [auto|]. intros [H|[_ H]]; [lia|exact H].
  - split; auto.
  - split; [discriminate|]. intros [H|[H _]]; lia.
Qed.
Lemma time_le_total a b : time_le a b = true \/ time_le b a = true.
Proof. rewrite !time_le_iff. lia. Qed.
Lemma time_le_trans a b c : time_le a b = true -> time_le b c = true -> time_le a c = true.
Proof. rewrite !time_le_iff. lia. Qed.
Lemma same_time a b : same time_le a b = true <-> di_start a = di_start b /\ di_end a = di_end b.
Proof. unfold same. rewrite andb_true_iff, !time_le_iff. lia. Qed.

(* ---- durations ---- *)
Lemma fold_min l : forall x, let m := fold_left N.min l x in In m (x :: l) /\ Forall (fun y => (m <= y)%N) (x :: l).
Proof.
  induction l as [|y l IH]; intros x; cbn [fold_left]; [split; [now left|constructor; [lia|constructor]]|].
  destruct (IH (N.min x y)) as [I F]. cbn zeta in *. set (m := fold_left N.min l (N.min x y)) in *. split.
  - destruct I as [I|I]; [|now right; right]. destruct (N.min_spec x y) as [[_ E]|[_ E]]; rewrite E in I; [now left|right; now left].
  - pose proof (Forall_inv F). cbn beta in *. constructor; [lia|]. constructor; [lia|]. exact (Forall_inv_tail F).
Qed.
Lemma fold_max l : forall x, let m := fold_left N.max l x in In m (x :: l) /\ Forall (fun y => (y <= m)%N) (x :: l).
Proof.
  induction l as [|y l IH]; intros x; cbn [fold_left]; [split; [now left|constructor; [lia|constructor]]|].
  destruct (IH (N.max x y)) as [I F]. cbn zeta in *. set (m := fold_left N.max l (N.max x y)) in *. split.
  - destruct I as [I|I]; [|now right; right]. destruct (N.max_spec x y) as [[_ E]|[_ E]]; rewrite E in I; [right; now left|now left].
  - pose proof (Forall_inv F). cbn beta in *. constructor; [lia|]. constructor; [lia|]. exact (Forall_inv_tail F).
Qed.
Lemma total_duration l : l <> [] -> Forall analyzed l -> exists s e, calculate_total_duration l = Ok (Some (e - s)%N) /\ (s < e)%N /\
  (exists d, In d l /\ di_start d = s) /\ (exists d, In d l /\ di_end d = e) /\ forall d, In d l -> (s <= di_start d /\ di_end d <= e)%N.
Proof.
  intros NE F. destruct l as [|d l]; [congruence|]. unfold calculate_total_duration. cbn [map min_list max_list].
  destruct (fold_min (map di_start l) (di_start d)) as [I1 F1]. destruct (fold_max (map di_end l) (di_end d)) as [I2 F2]. cbn zeta in *.
  set (s := fold_left N.min (map di_start l) (di_start d)) in *. set (e := fold_left N.max (map di_end l) (di_end d)) in *. clearbody s e.
  change (di_start d :: map di_start l) with (map di_start (d :: l)) in *. change (di_end d :: map di_end l) with (map di_end (d :: l)) in *.
  rewrite Forall_forall in F1, F2, F. exists s, e.
  assert (B : forall x, In x (d :: l) -> (s <= di_start x /\ di_end x <= e)%N) by (intros x I; split; [apply F1|apply F2]; now apply in_map).
  assert (L : (s < e)%N) by (destruct (analyzed_times d) as (_ & _ & H); [apply F; now left|]; specialize (B d (or_introl eq_refl)); lia).
  split; [|split; [exact L|split; [|split; [|exact B]]]].
  - unfold u32_sub. destruct (N.ltb_spec e s); [lia|]. reflexivity.
  - apply in_map_iff in I1 as (x & E & I). now exists x.
  - apply in_map_iff in I2 as (x & E & I). now exists x.
Qed.
Lemma sum_durations_ok l : Forall (fun d => (di_start d < di_end d)%N) l -> forall acc, (acc <= u32_max)%N ->
  sum_durations acc l = if (acc + total_of (map length_of l) <=? u32_max)%N then Ok (acc + total_of (map length_of l))%N else Panic.
Proof.
  intros F. induction F as [|d l D F IH]; intros acc A.
  - cbn [map total_of fold_right sum_durations]. rewrite N.add_0_r. destruct (N.leb_spec acc u32_max); [reflexivity|lia].
  - change (total_of (map length_of (d :: l))) with (length_of d + total_of (map length_of l))%N. cbn [sum_durations].
    assert (Q : duration_cs d = Ok (length_of d)) by (unfold duration_cs, u32_sub, length_of; destruct (N.ltb_spec (di_end d) (di_start d)); [lia|reflexivity]).
    rewrite Q. cbn [res_bind]. unfold u32_add. destruct (N.ltb_spec u32_max (acc + length_of d)) as [L|L]; cbn [res_bind].
    + destruct (N.leb_spec (acc + (length_of d + total_of (map length_of l))) u32_max); [lia|reflexivity].
    + rewrite IH by exact L. rewrite <- N.add_assoc. reflexivity.
Qed.
