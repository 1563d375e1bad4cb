(* C211: the parameters of an effect and the registry of effects, for every history *)
From Coq Require Import Permutation.
From Verif Require Import Base BaseLemmas FloatModel EffectPlugModel.

(* ---- specification: what a history leaves under a name ---- *)
(* p was registered under its name and the name was not touched after *)
Definition about {A} (n : str) (o : op A) : Prop := match o with Register p => pl_name p = n | Unregister k => k = n | Clear => True end.
Definition stands {A} (l : list (op A)) (n : str) (p : plugin A) : Prop := exists l1 l2, l = l1 ++ Register p :: l2 /\ pl_name p = n /\ forall o, In o l2 -> ~ about n o.
(* the last value given to a key *)
Definition given {V} (l : list (str * V)) (k : str) (v : V) : Prop := exists l1 l2, l = l1 ++ (k, v) :: l2 /\ forall e, In e l2 -> fst e <> k.
Definition set_all (s : float) (l : list (str * value)) : params := fold_left (fun p e => set_param (fst e) (snd e) p) l (new_params s).

(* ---- proofs ---- *)
Lemma lookup_removed {V} (m : map_of V) j k : lookup j (removed k m) = if str_eqb k j then None else lookup j m.
Proof.
  unfold lookup, removed. induction m as [|[x v] r IH]; [destruct (str_eqb k j); reflexivity|]. cbn [filter find fst]. destruct (str_eqb x k) eqn:E; cbn [negb].
  - rewrite IH. apply str_eqb_eq in E. subst x. destruct (str_eqb k j); reflexivity.
  - cbn [find fst]. destruct (str_eqb x j) eqn:F; [|exact IH]. apply str_eqb_eq in F. subst x. destruct (str_eqb k j) eqn:G; [|reflexivity]. apply str_eqb_eq in G. subst k. rewrite str_eqb_refl in E. discriminate.
Qed.
Lemma lookup_inserted {V} (m : map_of V) j k v : lookup j (inserted k v m) = if str_eqb k j then Some v else lookup j m.
Proof. unfold inserted. unfold lookup at 1. cbn [find fst]. destruct (str_eqb k j) eqn:E; [reflexivity|]. change (lookup j (removed k m) = lookup j m). rewrite lookup_removed, E. reflexivity. Qed.
Lemma given_snoc {V} l (e : str * V) k v : given (l ++ [e]) k v <-> e = (k, v) \/ (fst e <> k /\ given l k v).
Proof.
  split.
  - intros (l1 & l2 & E & N). destruct l2 as [|x l2 _] using rev_ind.
    + apply app_inj_tail in E. left. apply E.
    + rewrite app_comm_cons, app_assoc in E. apply app_inj_tail in E. destruct E as [-> ->]. right. split; [apply N, in_app_iff; right; left; reflexivity|]. exists l1, l2. split; [reflexivity|]. intros; apply N, in_app_iff; left; assumption.
  - intros [->|[N (l1 & l2 & -> & M)]]; [exists l, []; split; [reflexivity|contradiction]|]. exists l1, (l2 ++ [e]). split; [rewrite <- app_assoc; reflexivity|]. intros x I. apply in_app_iff in I. destruct I as [I|[<-|[]]]; [apply M; exact I|exact N].
Qed.
Theorem effect_parameters : forall s l k, strength (set_all s l) = s /\
  (forall v, get_param k (set_all s l) = Some v <-> given l k v) /\
  (forall f, get_float k (set_all s l) = Some f <-> given l k (VFloat f)) /\
  (forall z, get_int k (set_all s l) = Some z <-> given l k (VInteger z)) /\
  (forall c, get_color k (set_all s l) = Some c <-> given l k (VColor c)).
Proof.
  intros s l k.
  assert (G : strength (set_all s l) = s /\ forall v, lookup k (custom (set_all s l)) = Some v <-> given l k v).
  { unfold set_all. induction l as [|[j x] l IH] using rev_ind.
    - split; [reflexivity|]. intros v. split; [discriminate|]. intros (l1 & l2 & E & _). destruct l1; discriminate E.
    - rewrite fold_left_app. cbn [fold_left fst snd]. destruct IH as [IS IH]. split; [exact IS|]. intros v. unfold set_param at 1. cbn [custom]. rewrite lookup_inserted, given_snoc. cbn [fst]. destruct (str_eqb j k) eqn:E.
      + apply str_eqb_eq in E. subst j. split; [intros Q; injection Q as <-; left; reflexivity|]. intros [Q|[Q _]]; [injection Q as <-; reflexivity|contradiction].
      + apply str_eqb_neq in E. rewrite IH. split; [intros Q; right; split; assumption|]. intros [Q|[_ Q]]; [injection Q as -> _; contradiction|exact Q]. }
  destruct G as [S G]. split; [exact S|]. split; [exact G|]. unfold get_float, get_int, get_color. repeat split; intros H; try (apply G in H; rewrite H; reflexivity); apply G; destruct (lookup k (custom (set_all s l))) as [[]|]; try discriminate H; injection H as ->; reflexivity.
Qed.
Print Assumptions effect_parameters.

Lemma stands_snoc {A} l (o : op A) n p : stands (l ++ [o]) n p <-> (o = Register p /\ pl_name p = n) \/ (~ about n o /\ stands l n p).
Proof.
  split.
  - intros (l1 & l2 & E & N & M). destruct l2 as [|x l2 _] using rev_ind.
    + apply app_inj_tail in E. left. split; [apply E|exact N].
    + rewrite app_comm_cons, app_assoc in E. apply app_inj_tail in E. destruct E as [-> ->]. right. split; [apply M, in_app_iff; right; left; reflexivity|]. exists l1, l2. repeat split; [exact N|]. intros; apply M, in_app_iff; left; assumption.
  - intros [[-> N]|[B (l1 & l2 & -> & N & M)]]; [exists l, []; repeat split; [exact N|contradiction]|]. exists l1, (l2 ++ [o]). split; [rewrite <- app_assoc; reflexivity|]. split; [exact N|]. intros x I. apply in_app_iff in I. destruct I as [I|[<-|[]]]; [apply M; exact I|exact B].
Qed.
Theorem effect_found : forall A (l : list (op A)) n p, get_effect n (run l) = Some p <-> stands l n p.
Proof.
  intros A l n p. unfold run. induction l as [|o l IH] using rev_ind.
  - split; [discriminate|]. intros (l1 & l2 & E & _). destruct l1; discriminate E.
  - rewrite fold_left_app, stands_snoc. cbn [fold_left]. set (r := fold_left step l new_registry) in *. unfold get_effect in *. destruct o as [q|k|]; cbn [step about].
    + unfold register. rewrite lookup_inserted. destruct (str_eqb (pl_name q) n) eqn:E.
      * apply str_eqb_eq in E. split; [intros Q; injection Q as <-; left; split; [reflexivity|exact E]|]. intros [[Q _]|[Q _]]; [injection Q as <-; reflexivity|contradiction].
      * apply str_eqb_neq in E. rewrite IH. split; [intros Q; right; split; assumption|]. intros [[Q N]|[_ Q]]; [injection Q as <-; contradiction|exact Q].
    + unfold unregister. cbn [snd]. rewrite lookup_removed. destruct (str_eqb k n) eqn:E.
      * apply str_eqb_eq in E. split; [discriminate|]. intros [[Q _]|[Q _]]; [discriminate Q|contradiction].
      * apply str_eqb_neq in E. rewrite IH. split; [intros Q; right; split; assumption|]. intros [[Q _]|[_ Q]]; [discriminate Q|exact Q].
    + split; [discriminate|]. intros [[Q _]|[Q _]]; [discriminate Q|exfalso; apply Q; exact I].
Qed.
Print Assumptions effect_found.
Theorem effect_removed : forall A (l : list (op A)) n p, fst (unregister n (run l)) = Some p <-> stands l n p.
Proof. intros. exact (effect_found A l n p). Qed.
Print Assumptions effect_removed.

Lemma keys_distinct {A} (l : list (op A)) : NoDup (map fst (run l)).
Proof.
  assert (R : forall (m : registry A) k, NoDup (map fst m) -> NoDup (map fst (removed k m)) /\ ~ In k (map fst (removed k m))).
  { intros m k. unfold removed. induction m as [|[x v] r IH]; intros N; [split; [constructor|intros []]|]. cbn [map fst] in N. inversion N as [|? ? N1 N2]; subst. destruct (IH N2) as [I1 I2]. cbn [filter fst]. destruct (str_eqb x k) eqn:E; cbn [negb]; [split; assumption|].
    cbn [map fst]. split; [constructor; [|exact I1]|intros [->|H]; [rewrite str_eqb_refl in E; discriminate|exact (I2 H)]]. intros H. apply N1. apply in_map_iff in H. destruct H as (e & <- & H). apply filter_In in H. apply in_map. apply H. }
  unfold run. induction l as [|o l IH] using rev_ind; [constructor|]. rewrite fold_left_app. cbn [fold_left]. destruct o as [q|k|]; cbn [step]; [|apply R; exact IH|constructor]. unfold register, inserted. cbn [map fst]. constructor; apply R; exact IH.
Qed.
Theorem effect_listed : forall A (l : list (op A)) order, (forall r, Permutation (order r) r) ->
  NoDup (list_effects order (run l)) /\ forall n, In n (list_effects order (run l)) <-> exists p, stands l n p.
Proof.
  intros A l order P. unfold list_effects. assert (Q : Permutation (map fst (order (run l))) (map fst (run l))) by (apply Permutation_map, P). split; [eapply Permutation_NoDup; [apply Permutation_sym, Q|apply keys_distinct]|]. intros n.
  transitivity (In n (map fst (run l))); [split; apply Permutation_in; [exact Q|apply Permutation_sym, Q]|].
  transitivity (exists p, get_effect n (run l) = Some p); [|split; intros (p & H); exists p; apply effect_found; exact H].
  unfold get_effect, lookup. split.
  - intros H. apply in_map_iff in H. destruct H as (e & <- & H). destruct (find _ _) as [f|] eqn:F; [exists (snd f); reflexivity|]. apply (find_none _ _ F) in H. rewrite str_eqb_refl in H. discriminate.
  - intros (p & H). destruct (find _ _) as [f|] eqn:F; [|discriminate]. apply find_some in F. destruct F as [I E]. apply str_eqb_eq in E. subst n. apply in_map, I.
Qed.
Print Assumptions effect_listed.

Local Open Scope N_scope.
Example effect_parameters_ex : let l := [([97], VInteger 3%Z); ([98], VBoolean true); ([97], VInteger 4%Z)] in
  given l [97] (VInteger 4%Z) /\ get_int [97] (set_all (Fin 1) l) = Some 4%Z /\ get_float [97] (set_all (Fin 1) l) = None.
Proof. split; [exists [([97], VInteger 3%Z); ([98], VBoolean true)], []; split; [reflexivity|contradiction]|]. vm_compute. split; reflexivity. Qed.
Example effect_found_ex : let p := Pl [97] None 1%nat in let q := Pl [98] None 2%nat in let l := [Register q; Unregister [98]; Register p; Unregister [99]] in
  stands l [97] p /\ list_effects (fun r => r) (run l) = [[97]].
Proof.
  split; [|vm_compute; reflexivity]. exists [Register (Pl [98] None 2%nat); Unregister [98]], [Unregister [99]]. repeat split. intros o [<-|[]]. cbn. discriminate.
Qed.
