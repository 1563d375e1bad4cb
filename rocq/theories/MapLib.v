(* BTreeMap<&str, _>: a list of entries sorted by key, and BTreeSet<&str> as
   such a map.  Strings are compared by scalar values, which is the order of
   their UTF-8 bytes.  Models the Rust standard library. *)
From Coq Require Export Sorted.
From Verif Require Export Base BaseLemmas.

Fixpoint str_cmp (a b : str) : comparison :=
  match a, b with
  | [], [] => Eq
  | [], _ => Lt
  | _, [] => Gt
  | x :: a', y :: b' => match (x ?= y)%N with Eq => str_cmp a' b' | o => o end
  end.
Definition str_lt (a b : str) : Prop := str_cmp a b = Lt.

Definition smap (A : Type) := list (str * A).
Fixpoint sm_get {A} (k : str) (m : smap A) : option A :=
  match m with
  | [] => None
  | (k', v) :: r => if str_eqb k k' then Some v else sm_get k r
  end.
Fixpoint sm_insert {A} (k : str) (v : A) (m : smap A) : smap A :=
  match m with
  | [] => [(k, v)]
  | (k', v') :: r =>
    match str_cmp k k' with
    | Lt => (k, v) :: m
    | Eq => (k, v) :: r
    | Gt => (k', v') :: sm_insert k v r
    end
  end.
Definition sm_keys {A} (m : smap A) : list str := map fst m.
Definition sm_has {A} (k : str) (m : smap A) : bool := match sm_get k m with Some _ => true | None => false end.
(* entry(k).and_modify(f).or_insert(f d) *)
Definition sm_update {A} (k : str) (d : A) (f : A -> A) (m : smap A) : smap A :=
  sm_insert k (f (match sm_get k m with Some v => v | None => d end)) m.

Lemma str_cmp_eq a : forall b, str_cmp a b = Eq <-> a = b.
Proof.
  induction a as [|x a IH]; intros [|y b]; cbn [str_cmp]; try (split; congruence). destruct (N.compare_spec x y) as [->|L|L].
  - rewrite IH. split; congruence.
  - split; [discriminate|]. intros [= -> ->]. lia.
  - split; [discriminate|]. intros [= -> ->]. lia.
Qed.
Lemma str_cmp_refl a : str_cmp a a = Eq.
Proof. now apply str_cmp_eq. Qed.
Lemma str_cmp_opp a : forall b, str_cmp b a = CompOpp (str_cmp a b).
Proof.
  induction a as [|x a IH]; intros [|y b]; cbn [str_cmp]; try reflexivity. rewrite (N.compare_antisym x y). destruct (x ?= y)%N; cbn [CompOpp]; [apply IH|reflexivity|reflexivity].
Qed.
Lemma str_lt_trans a : forall b c, str_lt a b -> str_lt b c -> str_lt a c.
Proof.
  unfold str_lt. induction a as [|x a IH]; intros [|y b] [|z c]; cbn [str_cmp]; try congruence.
  destruct (N.compare_spec x y) as [->|L|L], (N.compare_spec y z) as [->|L'|L']; try discriminate.
  - apply IH.
  - reflexivity.
  - intros _ _. apply N.compare_lt_iff in L. now rewrite L.
  - intros _ _. assert (H : (x ?= z)%N = Lt) by (apply N.compare_lt_iff; lia). now rewrite H.
Qed.
Lemma str_lt_irrefl a : ~ str_lt a a.
Proof. unfold str_lt. rewrite str_cmp_refl. discriminate. Qed.
Lemma str_gt a b : str_cmp a b = Gt <-> str_lt b a.
Proof. unfold str_lt. rewrite (str_cmp_opp a b). destruct (str_cmp a b); cbn; split; congruence. Qed.

Definition sorted {A} (m : smap A) : Prop := StronglySorted str_lt (sm_keys m).
Lemma get_insert_same {A} k (v : A) m : sm_get k (sm_insert k v m) = Some v.
Proof.
  induction m as [|[k' v'] m IH]; cbn [sm_insert]; [cbn; now rewrite str_eqb_refl|]. destruct (str_cmp k k') eqn:C; cbn [sm_get]; try now rewrite str_eqb_refl.
  destruct (str_eqb k k') eqn:E; [|exact IH]. apply str_eqb_eq in E. subst. rewrite str_cmp_refl in C. discriminate.
Qed.
Lemma get_insert_other {A} k k' (v : A) m : k' <> k -> sm_get k' (sm_insert k v m) = sm_get k' m.
Proof.
  intros N. assert (E : str_eqb k' k = false) by (destruct (str_eqb k' k) eqn:E; [apply str_eqb_eq in E; congruence|reflexivity]).
  induction m as [|[a b] m IH]; cbn [sm_insert]; [cbn; now rewrite E|]. destruct (str_cmp k a) eqn:C; cbn [sm_get].
  - apply str_cmp_eq in C. subst a. now rewrite E.
  - now rewrite E.
  - now rewrite IH.
Qed.
Lemma get_insert {A} k k' (v : A) m : sm_get k' (sm_insert k v m) = if str_eqb k' k then Some v else sm_get k' m.
Proof.
  destruct (str_eqb k' k) eqn:E; [apply str_eqb_eq in E; subst; apply get_insert_same|apply get_insert_other; intros ->; rewrite str_eqb_refl in E; discriminate].
Qed.
Lemma keys_insert {A} k (v : A) m x : In x (sm_keys (sm_insert k v m)) <-> x = k \/ In x (sm_keys m).
Proof.
  unfold sm_keys. induction m as [|[a b] m IH]; cbn [sm_insert map In fst]; [intuition|]. destruct (str_cmp k a) eqn:C; cbn [map In fst]; [apply str_cmp_eq in C; subst a; intuition| |rewrite IH]; intuition.
Qed.
Lemma sorted_insert {A} k (v : A) m : sorted m -> sorted (sm_insert k v m).
Proof.
  unfold sorted. induction m as [|[a b] m IH]; intros S; cbn [sm_insert sm_keys map fst]; [repeat constructor|]. apply StronglySorted_inv in S. cbn [map fst] in S. destruct S as [S F]. destruct (str_cmp k a) eqn:C.
  - apply str_cmp_eq in C. subst a. constructor; assumption.
  - constructor; [constructor; assumption|]. constructor; [exact C|]. rewrite Forall_forall in *. intros x Hx. apply str_lt_trans with a; [exact C|now apply F].
  - constructor; [now apply IH|]. rewrite Forall_forall in *. intros x Hx. apply keys_insert in Hx. destruct Hx as [->|Hx]; [now apply str_gt|now apply F].
Qed.
Lemma get_in {A} k (m : smap A) : (exists v, sm_get k m = Some v) <-> In k (sm_keys m).
Proof.
  unfold sm_keys. induction m as [|[a b] m IH]; cbn [sm_get map fst In]; [split; [intros [v H]; discriminate|intros []]|]. destruct (str_eqb k a) eqn:E.
  - apply str_eqb_eq in E. subst. split; [now left|eexists; reflexivity].
  - rewrite IH. split; [now right|]. intros [->|H]; [rewrite str_eqb_refl in E; discriminate|exact H].
Qed.
Lemma get_entry {A} k (v : A) m : sm_get k m = Some v -> In (k, v) m.
Proof. induction m as [|[a b] m IH]; cbn [sm_get]; [discriminate|]. destruct (str_eqb k a) eqn:E; [intros [= ->]; apply str_eqb_eq in E; subst; now left|right; auto]. Qed.
Lemma sorted_nodup {A} (m : smap A) : sorted m -> NoDup (sm_keys m).
Proof.
  unfold sorted. induction (sm_keys m) as [|k l IH]; intros S; [constructor|]. apply StronglySorted_inv in S. destruct S as [S F]. constructor; [|now apply IH]. intros H. rewrite Forall_forall in F. exact (str_lt_irrefl k (F k H)).
Qed.
Lemma entry_get {A} k (v : A) m : sorted m -> In (k, v) m -> sm_get k m = Some v.
Proof.
  intros S H. apply sorted_nodup in S. unfold sm_keys in S. induction m as [|[a b] m IH]; [destruct H|]. cbn [sm_get map fst] in *. inversion S; subst. destruct H as [[= -> ->]|H]; [now rewrite str_eqb_refl|].
  destruct (str_eqb k a) eqn:E; [|now apply IH]. apply str_eqb_eq in E. subst. destruct H2. now apply (in_map fst) in H.
Qed.
(* two sorted maps with the same lookups are equal *)
Lemma sorted_ext {A} (m n : smap A) : sorted m -> sorted n -> (forall k, sm_get k m = sm_get k n) -> m = n.
Proof.
  revert n. induction m as [|[a b] m IH]; intros n Sm Sn E.
  - destruct n as [|[c d] n]; [reflexivity|]. specialize (E c). cbn in E. rewrite str_eqb_refl in E. discriminate.
  - destruct n as [|[c d] n]; [specialize (E a); cbn in E; rewrite str_eqb_refl in E; discriminate|].
    assert (Sm' := Sm). assert (Sn' := Sn). unfold sorted in Sm', Sn'. cbn [sm_keys map fst] in Sm', Sn'. apply StronglySorted_inv in Sm', Sn'. destruct Sm' as [Sm1 Fm], Sn' as [Sn1 Fn]. rewrite Forall_forall in Fm, Fn.
    assert (X : a = c).
    { destruct (str_cmp a c) eqn:C; [now apply str_cmp_eq| |].
      - exfalso. assert (In a (sm_keys ((c, d) :: n))) by (apply get_in; exists b; rewrite <- E; cbn; now rewrite str_eqb_refl). destruct H as [H|H]; [cbn in H; subst; exact (str_lt_irrefl _ C)|]. exact (str_lt_irrefl _ (str_lt_trans _ _ _ C (Fn a H))).
      - exfalso. apply str_gt in C. assert (In c (sm_keys ((a, b) :: m))) by (apply get_in; exists d; rewrite E; cbn; now rewrite str_eqb_refl). destruct H as [H|H]; [cbn in H; subst; exact (str_lt_irrefl _ C)|]. exact (str_lt_irrefl _ (str_lt_trans _ _ _ C (Fm c H))). }
    subst c. assert (Y : b = d). { specialize (E a). cbn in E. rewrite str_eqb_refl in E. now injection E. } subst d. f_equal. apply IH; [exact Sm1|exact Sn1|]. intros k. specialize (E k). cbn [sm_get] in E.
    destruct (str_eqb k a) eqn:K; [|exact E]. apply str_eqb_eq in K. subst k.
    assert (forall q, (forall x, In x (sm_keys q) -> str_lt a x) -> sm_get (A:=A) a q = None). { intros q F. destruct (sm_get a q) eqn:G; [|reflexivity]. exfalso. apply (str_lt_irrefl a). apply F. apply get_in. eauto. }
    rewrite (H m Fm), (H n Fn). reflexivity.
Qed.
