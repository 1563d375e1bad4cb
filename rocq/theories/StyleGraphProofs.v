From Verif Require Import StyleModel StyleSpec MapLib.

Lemma memb_iff x l : memb x l = true <-> In x l.
Proof.
  unfold memb. rewrite existsb_exists. split; [intros (y & H & E); apply str_eqb_eq in E; now subst|]. intros H. exists x. split; [exact H|apply str_eqb_refl].
Qed.
Lemma memb_false x l : memb x l = false <-> ~ In x l.
Proof. rewrite <- memb_iff. destruct (memb x l); split; congruence. Qed.
Lemma drop_iff x y l : In y (drop x l) <-> In y l /\ y <> x.
Proof.
  unfold drop. rewrite filter_In. split; intros [H K]; (split; [exact H|]).
  - intros ->. rewrite str_eqb_refl in K. discriminate.
  - destruct (str_eqb x y) eqn:E; [apply str_eqb_eq in E; congruence|reflexivity].
Qed.

(* ---- depth-first search ---- *)
Section Dfs.
Context (d : deps).
Definition edge (a b : str) : Prop := exists ns, sm_get a d = Some ns /\ In b ns.
Definition reach := clos_refl_trans str edge.
Definition ends : str -> Prop := Acc (fun y x => edge x y).
Context (closed : forall a b, edge a b -> In b (sm_keys d)).
Definition todo (visited : list str) : nat := List.length (filter (fun k => negb (memb k visited)) (nodup (list_eq_dec N.eq_dec) (sm_keys d))).
(* what a search leaves behind *)
Definition left_behind (node : str) (visited stack visited' stack' : list str) : Prop :=
  incl visited visited' /\ In node visited' /\ (forall x, In x stack' <-> In x stack) /\
  (forall x, In x visited' -> ~ In x stack' -> ends x).
Lemma filter_le {A} (f g : A -> bool) l : (forall x, In x l -> f x = true -> g x = true) -> List.length (filter f l) <= List.length (filter g l).
Proof.
  induction l as [|a l IH]; intros H; [reflexivity|]. cbn [filter]. assert (I := IH (fun x Hx => H x (or_intror Hx))). destruct (f a) eqn:F; [rewrite (H a (or_introl eq_refl) F); cbn; lia|]. destruct (g a); cbn; lia.
Qed.
Lemma filter_lt {A} (f g : A -> bool) l y : (forall x, In x l -> f x = true -> g x = true) -> In y l -> f y = false -> g y = true -> List.length (filter f l) < List.length (filter g l).
Proof.
  induction l as [|a l IH]; intros H Hy Fy Gy; [destruct Hy|]. cbn [filter]. assert (L := filter_le f g l (fun x Hx => H x (or_intror Hx))). destruct Hy as [->|Hy].
  - rewrite Fy, Gy. cbn. lia.
  - assert (I := IH (fun x Hx => H x (or_intror Hx)) Hy Fy Gy). destruct (f a) eqn:F; [rewrite (H a (or_introl eq_refl) F); cbn; lia|]. destruct (g a); cbn; lia.
Qed.
Lemma todo_le v v' : incl v v' -> todo v' <= todo v.
Proof. intros I. apply filter_le. intros x _. rewrite !negb_true_iff, !memb_false. intros H K. apply H. now apply I. Qed.
Lemma todo_lt v n : In n (sm_keys d) -> ~ In n v -> todo (n :: v) < todo v.
Proof.
  intros H N. apply filter_lt with n.
  - intros x _. rewrite !negb_true_iff, !memb_false. intros K K'. apply K. now right.
  - now apply nodup_In.
  - apply negb_false_iff, memb_iff. now left.
  - apply negb_true_iff. now apply memb_false.
Qed.
Lemma dfs_spec fuel : forall node visited stack, todo visited < fuel -> In node (sm_keys d) -> ~ In node visited -> incl stack visited ->
  (forall x, In x stack -> reach x node) -> (forall x, In x visited -> ~ In x stack -> ends x) ->
  exists b v s, dfs fuel d node visited stack = Done (b, v, s) /\
    if b then exists c, clos_trans str edge c c else left_behind node visited stack v s.
Proof.
  induction fuel as [|f IH]; intros node visited stack Hf Hk Hn Hi Hr He; [lia|]. cbn [dfs].
  set (go := fix go (ns : list str) (visited stack : list str) : run (bool * list str * list str) := match ns with [] => _ | n :: r => _ end).
  set (ns := match sm_get node d with Some ns => ns | None => [] end).
  assert (En : forall n, In n ns <-> edge node n). { intros n. unfold ns, edge. destruct (sm_get node d) as [l|]; [|split; [intros []|intros (l & ? & _); discriminate]]. split; [intros H; now exists l|intros (l' & [= <-] & H); exact H]. }
  assert (G : forall rest done v s, ns = done ++ rest -> incl (node :: visited) v -> (forall x, In x s <-> In x (node :: stack)) -> (forall x, In x v -> ~ In x s -> ends x) -> (forall x, In x done -> ends x) ->
    exists b v' s', go rest v s = Done (b, v', s') /\ if b then exists c, clos_trans str edge c c else left_behind node visited stack v' s').
  { induction rest as [|n rest IHr]; intros done v s Ed Iv Is Ev Dn.
    - exists false, v, (drop node s). split; [reflexivity|]. rewrite app_nil_r in Ed. subst done. unfold left_behind. split; [intros x Hx; apply Iv; now right|]. split; [apply Iv; now left|].
      assert (D : forall x, In x (drop node s) <-> In x stack). { intros x. rewrite drop_iff, Is. cbn [In]. split; [intros [[->|H] K]; [congruence|exact H]|]. intros H. split; [now right|]. intros ->. apply Hn. now apply Hi. }
      split; [exact D|]. intros x Hx Nx. destruct (list_eq_dec N.eq_dec x node) as [->|Nn].
      + constructor. intros y Hy. apply Dn. now apply En.
      + apply Ev; [exact Hx|]. intros K. apply Nx. apply drop_iff. now split.
    - assert (Edge : edge node n). { apply En. rewrite Ed. apply in_or_app. right. now left. }
      cbn [go]. fold go. destruct (memb n v) eqn:M; cbn [negb].
      + apply memb_iff in M. destruct (memb n s) eqn:Ms.
        * exists true, v, s. split; [reflexivity|]. apply memb_iff, Is in Ms. exists n. apply clos_rt_t with node; [|now constructor]. destruct Ms as [<-|Ms]; [constructor 2|now apply Hr].
        * apply memb_false in Ms. assert (E' : ends n) by now apply Ev. apply (IHr (done ++ [n])); [rewrite <- app_assoc; exact Ed|exact Iv|exact Is|exact Ev|]. intros x Hx. apply in_app_iff in Hx. destruct Hx as [Hx|[<-|[]]]; [now apply Dn|exact E'].
      + apply memb_false in M. destruct (IH n v s) as (b & v' & s' & E & P).
        * assert (todo v <= todo (node :: visited)) by now apply todo_le. pose proof (todo_lt visited node Hk Hn). lia.
        * exact (closed _ _ Edge).
        * exact M.
        * intros x Hx. apply Is in Hx. apply Iv. destruct Hx as [<-|Hx]; [now left|right; now apply Hi].
        * intros x Hx. apply Is in Hx. apply rt_trans with node; [|now constructor]. destruct Hx as [<-|Hx]; [constructor 2|now apply Hr].
        * exact Ev.
        * rewrite E. cbn [bind]. destruct b; [exists true, v', s'; split; [reflexivity|exact P]|]. destruct P as (P1 & P2 & P3 & P4).
          apply (IHr (done ++ [n])); [rewrite <- app_assoc; exact Ed|intros x Hx; apply P1; now apply Iv|intros x; rewrite P3; apply Is|exact P4|]. intros x Hx. apply in_app_iff in Hx. destruct Hx as [Hx|[<-|[]]]; [now apply Dn|]. apply P4; [exact P2|]. rewrite P3. intros K. apply Is in K. apply M. apply Iv. destruct K as [<-|K]; [now left|right; now apply Hi]. }
  apply (G ns []); [reflexivity|intros x Hx; exact Hx|reflexivity| |intros x []].
  intros x [<-|Hx] Nx; [destruct Nx; now left|]. apply He; [exact Hx|]. intros K. apply Nx. now right.
Qed.
Lemma ends_no_cycle x : ends x -> ~ clos_trans str edge x x.
Proof.
  intros E. assert (H : forall a, ends a -> forall b, clos_trans str edge a b -> a <> b).
  { clear x E. intros a E. induction E as [a _ IH]. intros b T <-. apply clos_trans_t1n in T. inversion T as [? Ed|c ? Ed T']; subst.
    - exact (IH a Ed a (t_step _ _ _ _ Ed) eq_refl).
    - apply clos_t1n_trans in T'. exact (IH c Ed c (t_trans _ _ _ _ _ T' (t_step _ _ _ _ Ed)) eq_refl). }
  intros T. exact (H x E x T eq_refl).
Qed.
Lemma any_cycle_spec fuel : forall nodes visited, incl nodes (sm_keys d) -> todo visited < fuel -> (forall x, In x visited -> ends x) ->
  exists b, any_cycle fuel d nodes visited [] = Done b /\ if b then exists c, clos_trans str edge c c else forall x, In x nodes -> ends x.
Proof.
  assert (G : forall nodes visited stack, (forall x, ~ In x stack) -> incl nodes (sm_keys d) -> todo visited < fuel -> (forall x, In x visited -> ends x) ->
    exists b, any_cycle fuel d nodes visited stack = Done b /\ if b then exists c, clos_trans str edge c c else forall x, In x nodes -> ends x); [|intros nodes visited; apply G; intros x []].
  induction nodes as [|n r IH]; intros visited stack Es I F Ev; [exists false; split; [reflexivity|intros x []]|]. cbn [any_cycle]. destruct (memb n visited) eqn:M.
  - apply memb_iff in M. destruct (IH visited stack Es (fun x Hx => I x (or_intror Hx)) F Ev) as (b & -> & P). exists b. split; [reflexivity|]. destruct b; [exact P|]. intros x [<-|Hx]; [now apply Ev|now apply P].
  - apply memb_false in M. destruct (dfs_spec fuel n visited stack F (I n (or_introl eq_refl)) M) as (b & v & s & -> & P).
    + intros x Hx. destruct (Es x Hx).
    + intros x Hx. destruct (Es x Hx).
    + intros x Hx _. now apply Ev.
    + cbn [bind]. destruct b; [exists true; split; [reflexivity|exact P]|]. destruct P as (P1 & P2 & P3 & P4). assert (Es' : forall x, ~ In x s) by (intros x Hx; apply P3 in Hx; exact (Es x Hx)).
      assert (Ev' : forall x, In x v -> ends x) by (intros x Hx; apply P4; [exact Hx|apply Es']).
      destruct (IH v s Es' (fun x Hx => I x (or_intror Hx))) as (b & -> & P); [pose proof (todo_le visited v P1); lia|exact Ev'|]. exists b. split; [reflexivity|]. destruct b; [exact P|]. intros x [<-|Hx]; [now apply Ev'|now apply P].
Qed.
Lemma circular_iff : exists b, has_circular_dependency d = Done b /\ (b = true <-> exists c, clos_trans str edge c c).
Proof.
  unfold has_circular_dependency. destruct (any_cycle_spec (S (List.length d)) (sm_keys d) []) as (b & E & P).
  - intros x Hx. exact Hx.
  - unfold todo. assert (List.length (filter (fun k => negb (memb k [])) (nodup (list_eq_dec N.eq_dec) (sm_keys d))) <= List.length (sm_keys d)); [|unfold sm_keys in *; rewrite map_length in *; lia].
    apply NoDup_incl_length; [apply NoDup_filter, NoDup_nodup|]. intros x Hx. apply filter_In in Hx. destruct Hx as [Hx _]. now apply nodup_In in Hx.
  - intros x [].
  - exists b. split; [exact E|]. destruct b; [now split|]. split; [discriminate|]. intros [c T]. exfalso.
    assert (In c (sm_keys d)). { assert (exists m, edge c m). { apply clos_trans_t1n in T. inversion T; eauto. } destruct H as (m & ns & H & _). apply get_in. eauto. }
    exact (ends_no_cycle c (P c H) T).
Qed.
End Dfs.
