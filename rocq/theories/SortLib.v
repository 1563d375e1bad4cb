(* Model of Rust's slice::sort / sort_by (alloc), a stable sort.  A stable
   sort with a total order has exactly one possible result for every input,
   so insertion sort stands for the library's merge sort; [sort_unique]
   states that.  Nothing here is from /repo. *)
From Verif Require Import Base.
From Coq Require Import Permutation Sorted.

Section Sort.
  Context {A : Type} (le : A -> A -> bool).

  Fixpoint insert (x : A) (l : list A) : list A :=
    match l with
    | [] => [x]
    | y :: r => if le x y then x :: y :: r else y :: insert x r
    end.
  Fixpoint stable_sort (l : list A) : list A :=
    match l with
    | [] => []
    | x :: r => insert x (stable_sort r)
    end.

  Definition same (x y : A) : bool := le x y && le y x.

  Lemma insert_perm x l : Permutation (x :: l) (insert x l).
  Proof.
    induction l as [|y r IH]; cbn [insert]; [reflexivity|].
    destruct (le x y); [reflexivity|].
    etransitivity; [apply perm_swap|]. now constructor.
  Qed.
  Lemma sort_perm l : Permutation l (stable_sort l).
  Proof.
    induction l as [|x r IH]; cbn [stable_sort]; [reflexivity|].
    etransitivity; [|apply insert_perm]. now constructor.
  Qed.

  Hypothesis total : forall x y, le x y = true \/ le y x = true.
  Hypothesis trans : forall x y z, le x y = true -> le y z = true -> le x z = true.

  Lemma le_refl x : le x x = true.
  Proof. destruct (total x x); assumption. Qed.

  Lemma insert_sorted x l :
    StronglySorted (fun a b => le a b = true) l ->
    StronglySorted (fun a b => le a b = true) (insert x l).
  Proof.
    induction l as [|y r IH]; intros S; cbn [insert]; [repeat constructor|].
    destruct (le x y) eqn:E.
    - constructor; [assumption|]. constructor; [assumption|].
      apply StronglySorted_inv in S. destruct S as [_ F].
      eapply Forall_impl; [|exact F]. cbn. intros z Z. eapply trans; eassumption.
    - apply StronglySorted_inv in S. destruct S as [S F].
      constructor; [auto|].
      apply Forall_forall. intros z Z.
      apply (Permutation_in _ (Permutation_sym (insert_perm x r))) in Z.
      destruct Z as [<-|Z].
      + destruct (total x y); congruence.
      + rewrite Forall_forall in F. auto.
  Qed.
  Lemma sort_sorted l : StronglySorted (fun a b => le a b = true) (stable_sort l).
  Proof. induction l; cbn [stable_sort]; [constructor|]. now apply insert_sorted. Qed.

  (* stability, in terms of an arbitrary relation holding along the input *)
  Definition lex (R : A -> A -> Prop) (a b : A) : Prop :=
    le a b = true /\ (le b a = true -> R a b).

  Lemma insert_lex R x l :
    Forall (R x) l -> StronglySorted (lex R) l -> StronglySorted (lex R) (insert x l).
  Proof.
    induction l as [|y r IH]; intros F S; cbn [insert]; [repeat constructor|].
    destruct (le x y) eqn:E.
    - constructor; [assumption|].
      apply StronglySorted_inv in S. destruct S as [_ G].
      rewrite Forall_forall in F, G.
      apply Forall_forall. intros z Z. split.
      + destruct Z as [<-|Z]; [assumption|].
        eapply trans; [eassumption|]. apply (G z Z).
      + intros _. apply F. exact Z.
    - apply StronglySorted_inv in S. destruct S as [S G].
      constructor; [apply IH; [exact (Forall_inv_tail F)|assumption]|].
      apply Forall_forall. intros z Z.
      apply (Permutation_in _ (Permutation_sym (insert_perm x r))) in Z.
      destruct Z as [<-|Z].
      + split; [destruct (total x y); congruence|congruence].
      + rewrite Forall_forall in G. auto.
  Qed.
  Lemma sort_lex R l : StronglySorted R l -> StronglySorted (lex R) (stable_sort l).
  Proof.
    induction l as [|x r IH]; intros S; cbn [stable_sort]; [constructor|].
    apply StronglySorted_inv in S. destruct S as [S F].
    apply insert_lex; [|auto].
    rewrite Forall_forall in *. intros z Z. apply F.
    exact (Permutation_in _ (Permutation_sym (sort_perm r)) Z).
  Qed.

  (* stability, in terms of each class of equal elements *)
  Lemma insert_stable k x l :
    StronglySorted (fun a b => le a b = true) l ->
    filter (same k) (insert x l) = filter (same k) (x :: l).
  Proof.
    induction l as [|y r IH]; intros S; cbn [insert]; [reflexivity|].
    destruct (le x y) eqn:E; [reflexivity|].
    apply StronglySorted_inv in S. destruct S as [S F].
    cbn [filter]. rewrite (IH S). cbn [filter].
    destruct (same k x) eqn:Kx, (same k y) eqn:Ky; try reflexivity.
    unfold same in Kx, Ky. apply andb_true_iff in Kx, Ky.
    assert (le x y = true) by (eapply trans; [apply Kx|apply Ky]). congruence.
  Qed.
  Lemma sort_stable k l : filter (same k) (stable_sort l) = filter (same k) l.
  Proof.
    induction l as [|x r IH]; [reflexivity|].
    cbn [stable_sort]. rewrite insert_stable by apply sort_sorted.
    cbn [filter]. now rewrite IH.
  Qed.

  (* a sorted list with the same classes is the result *)
  Lemma same_refl x : same x x = true.
  Proof. unfold same. now rewrite le_refl. Qed.

  Lemma sorted_classes_unique l : forall l',
    StronglySorted (fun a b => le a b = true) l ->
    StronglySorted (fun a b => le a b = true) l' ->
    (forall k, filter (same k) l = filter (same k) l') -> l = l'.
  Proof.
    induction l as [|x r IH]; intros l' S S' C.
    - destruct l' as [|y r']; [reflexivity|].
      specialize (C y). cbn [filter] in C. rewrite same_refl in C. discriminate.
    - destruct l' as [|y r'].
      { specialize (C x). cbn [filter] in C. rewrite same_refl in C. discriminate. }
      assert (Hx : In x (y :: r')).
      { assert (In x (filter (same x) (y :: r'))).
        { rewrite <- C. cbn [filter]. rewrite same_refl. now left. }
        apply filter_In in H. tauto. }
      assert (Hy : In y (x :: r)).
      { assert (In y (filter (same y) (x :: r))).
        { rewrite C. cbn [filter]. rewrite same_refl. now left. }
        apply filter_In in H. tauto. }
      apply StronglySorted_inv in S, S'. destruct S as [S F], S' as [S' F'].
      rewrite Forall_forall in F, F'.
      assert (Lxy : le x y = true) by (destruct Hy as [<-|?]; [apply le_refl|auto]).
      assert (Lyx : le y x = true) by (destruct Hx as [<-|?]; [apply le_refl|auto]).
      assert (E : x = y).
      { specialize (C x). cbn [filter] in C. rewrite same_refl in C.
        assert (Sy : same x y = true) by (unfold same; now rewrite Lxy, Lyx).
        rewrite Sy in C. now inversion C. }
      subst y. f_equal. apply IH; [assumption..|].
      intros k. specialize (C k). cbn [filter] in C.
      destruct (same k x); [now inversion C|assumption].
  Qed.
  Theorem sort_unique l l' :
    StronglySorted (fun a b => le a b = true) l' ->
    (forall k, filter (same k) l' = filter (same k) l) -> stable_sort l = l'.
  Proof.
    intros S C. apply sorted_classes_unique; [apply sort_sorted|assumption|].
    intros k. now rewrite sort_stable, C.
  Qed.
End Sort.

Lemma sort_map {A B} (f : A -> B) (le : B -> B -> bool) l :
  map f (stable_sort (fun a b => le (f a) (f b)) l) = stable_sort le (map f l).
Proof.
  induction l as [|x r IH]; [reflexivity|].
  cbn [stable_sort map]. rewrite <- IH. generalize (stable_sort (fun a b => le (f a) (f b)) r).
  intros m. induction m as [|y m IHm]; [reflexivity|].
  cbn [insert map]. destruct (le (f x) (f y)); [reflexivity|].
  cbn [map]. now rewrite IHm.
Qed.
