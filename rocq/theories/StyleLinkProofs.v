From Verif Require Import StyleModel StyleSpec MapLib StyleGraphProofs.

Lemma defined_dec l n : {defined l n} + {~ defined l n}.
Proof.
  destruct (existsb (fun s => str_eqb (s_name s) n) l) eqn:E; [left|right].
  - apply existsb_exists in E. destruct E as (s & H & K). apply str_eqb_eq in K. now exists s.
  - intros (s & H & K). assert (X : existsb (fun s => str_eqb (s_name s) n) l = true); [|congruence]. apply existsb_exists. exists s. split; [exact H|]. subst. apply str_eqb_refl.
Qed.
(* maps filled from a list *)
Lemma fold_get {A} (v : style -> A) l : forall m n, sm_get n (fold_left (fun m s => sm_insert (s_name s) (v s) m) l m) =
  match find (fun s => str_eqb n (s_name s)) (rev l) with Some s => Some (v s) | None => sm_get n m end.
Proof.
  induction l as [|s l IH]; intros m n; [reflexivity|]. cbn [fold_left rev]. rewrite IH, get_insert.
  assert (F : forall (f : style -> bool) a b, find f (a ++ b) = match find f a with Some x => Some x | None => find f b end). { clear. intros f a b. induction a as [|x a IH]; [reflexivity|]. cbn. destruct (f x); [reflexivity|exact IH]. }
  rewrite F. destruct (find _ (rev l)); [reflexivity|]. cbn [find]. now destruct (str_eqb n (s_name s)).
Qed.
Lemma fold_sorted {A} (v : style -> A) l : forall m, sorted m -> sorted (fold_left (fun m s => sm_insert (s_name s) (v s) m) l m).
Proof. induction l as [|s l IH]; intros m S; [exact S|]. cbn [fold_left]. apply IH. now apply sorted_insert. Qed.
Lemma find_named l n : (exists s, find (fun s => str_eqb n (s_name s)) (rev l) = Some s /\ In s l /\ s_name s = n) \/ (find (fun s => str_eqb n (s_name s)) (rev l) = None /\ ~ defined l n).
Proof.
  destruct (find (fun s => str_eqb n (s_name s)) (rev l)) as [s|] eqn:F; [left|right].
  - apply find_some in F. destruct F as [H E]. apply in_rev in H. apply str_eqb_eq in E. exists s. auto.
  - split; [reflexivity|]. intros (s & H & E). apply in_rev in H. assert (X := find_none _ _ F s H). cbn in X. subst. rewrite str_eqb_refl in X. discriminate.
Qed.
Lemma known_iff l p : sm_has p (style_map l) = true <-> defined l p.
Proof.
  unfold sm_has, style_map. rewrite (fold_get (fun s => s)). destruct (find_named l p) as [(s & -> & H & E)|[-> N]]; cbn; [split; [intros _; now exists s|reflexivity]|]. split; [discriminate|]. intros D. contradiction.
Qed.
Lemma filled_iff {A} (v : A) l n x : sm_get n (fold_left (fun m s => sm_insert (s_name s) v m) l []) = Some x <-> defined l n /\ x = v.
Proof.
  rewrite (fold_get (fun _ => v)). destruct (find_named l n) as [(s & -> & H & E)|[-> N]].
  - split; [intros [= <-]; split; [now exists s|reflexivity]|now intros [_ ->]].
  - split; [discriminate|tauto].
Qed.
Lemma set_insert_iff x y l : In y (set_insert x l) <-> y = x \/ In y l.
Proof. unfold set_insert. rewrite keys_insert. unfold sm_keys. rewrite map_map, map_id. reflexivity. Qed.

Section Link.
Context (l : list style) (inherit : bool).
Definition parent_in (done : list style) (a b : str) : Prop := exists s, In s done /\ s_name s = a /\ s_parent s = Some b /\ defined l b.
Record linked (done : list style) (k : links) : Prop := {
  ld_deps : forall a, (exists ps, sm_get a (lk_deps k) = Some ps) <-> defined l a;
  ld_edges : forall a ps, sm_get a (lk_deps k) = Some ps -> forall b, In b ps <-> parent_in done a b;
  ld_degrees : forall b, (exists n, sm_get b (lk_degree k) = Some n) <-> defined l b;
  ld_degree : forall b n, sm_get b (lk_degree k) = Some n -> (n = 0 <-> forall a, ~ parent_in done a b);
  ld_sorted : sorted (lk_degree k) /\ sorted (lk_deps k);
  ld_conflicts : exists c, lk_conflicts k = map (fun e : str * str => MissingParent (fst e) (snd e)) c /\ undefined_parents l done c }.
Lemma undefined_snoc done s c : undefined_parents l done c ->
  (forall p, s_parent s = Some p -> ~ defined l p -> undefined_parents l (done ++ [s]) (c ++ [(s_name s, p)])) /\
  ((forall p, s_parent s = Some p -> defined l p) -> undefined_parents l (done ++ [s]) c).
Proof.
  intros U. split.
  - intros p P N. induction U as [|s' p' l' c' P' N' U IH|s' l' c' P' U IH]; cbn [app]; [apply up_miss; [exact P|exact N|constructor]|now apply up_miss|now apply up_fine].
  - intros P. induction U as [|s' p' l' c' P' N' U IH|s' l' c' P' U IH]; cbn [app]; [apply up_fine; [exact P|constructor]|now apply up_miss|now apply up_fine].
Qed.
Lemma parent_snoc done s a b : parent_in (done ++ [s]) a b <-> parent_in done a b \/ (s_name s = a /\ s_parent s = Some b /\ defined l b).
Proof.
  unfold parent_in. split.
  - intros (t & H & E). apply in_app_iff in H. destruct H as [H|[<-|[]]]; [left; now exists t|right; exact E].
  - intros [(t & H & E)|E]; [exists t; split; [apply in_or_app; now left|exact E]|exists s; split; [apply in_or_app; right; now left|exact E]].
Qed.
Lemma link_step done k s : linked done k -> defined l (s_name s) -> exists k', link_style inherit (style_map l) k s = Some k' /\ linked (done ++ [s]) k'.
Proof.
  intros [D E G Dg So (c & Cc & U)] Ds. destruct (undefined_snoc done s c U) as [Um Uf]. unfold link_style. destruct (s_parent s) as [p|] eqn:P.
  - destruct (sm_has p (style_map l)) eqn:K.
    + apply known_iff in K. destruct (proj2 (D (s_name s)) Ds) as [ps Hps]. destruct (proj2 (G p) K) as [n Hn]. rewrite Hps, Hn. eexists. split; [reflexivity|]. constructor; cbn [lk_deps lk_degree lk_conflicts].
      * intros a. rewrite get_insert. destruct (str_eqb a (s_name s)) eqn:A; [apply str_eqb_eq in A; subst a; split; [auto|intros _; eexists; reflexivity]|apply D].
      * intros a qs. rewrite get_insert. destruct (str_eqb a (s_name s)) eqn:A.
        -- apply str_eqb_eq in A. subst a. intros [= <-] b. rewrite set_insert_iff, parent_snoc, (E _ _ Hps). split; [intros [->|H]; [right; auto|now left]|]. intros [H|(_ & Q & _)]; [now right|left; congruence].
        -- intros Hq b. rewrite parent_snoc, (E _ _ Hq). split; [now left|]. intros [H|(<- & _)]; [exact H|]. rewrite str_eqb_refl in A. discriminate.
      * intros b. rewrite get_insert. destruct (str_eqb b p) eqn:B; [apply str_eqb_eq in B; subst b; split; [auto|intros _; eexists; reflexivity]|apply G].
      * intros b m. rewrite get_insert. destruct (str_eqb b p) eqn:B.
        -- apply str_eqb_eq in B. subst b. intros [= <-]. split; [discriminate|]. intros H. exfalso. apply (H (s_name s)). apply parent_snoc. right. auto.
        -- intros Hm. rewrite (Dg _ _ Hm). split; intros H a K'; [|apply (H a); apply parent_snoc; now left]. apply parent_snoc in K'. destruct K' as [K'|(_ & Q & _)]; [exact (H a K')|]. rewrite P in Q. injection Q as ->. rewrite str_eqb_refl in B. discriminate.
      * split; now apply sorted_insert.
      * exists c. split; [exact Cc|]. apply Uf. intros q Q. injection Q as <-. exact K.
    + assert (K' : ~ defined l p) by (rewrite <- known_iff; congruence). eexists. split; [reflexivity|]. constructor; cbn [lk_deps lk_degree lk_conflicts]; [exact D| |exact G| |exact So|].
      * intros a ps Hp b. rewrite parent_snoc, (E _ _ Hp). split; [now left|]. intros [H|(_ & Q & X)]; [exact H|]. rewrite P in Q. injection Q as ->. contradiction.
      * intros b n Hn. rewrite (Dg _ _ Hn). split; intros H a Q; [|apply (H a); apply parent_snoc; now left]. apply parent_snoc in Q. destruct Q as [Q|(_ & Q & X)]; [exact (H a Q)|]. rewrite P in Q. injection Q as ->. contradiction.
      * exists (c ++ [(s_name s, p)]). split; [rewrite map_app, Cc; reflexivity|now apply Um].
  - eexists. split; [reflexivity|]. constructor; cbn [lk_deps lk_degree lk_conflicts]; [exact D| |exact G| |exact So|].
    + intros a ps Hp b. rewrite parent_snoc, (E _ _ Hp). split; [now left|]. intros [H|(_ & Q & X)]; [exact H|congruence].
    + intros b n Hn. rewrite (Dg _ _ Hn). split; intros H a Q; [|apply (H a); apply parent_snoc; now left]. apply parent_snoc in Q. destruct Q as [Q|(_ & Q & X)]; [exact (H a Q)|congruence].
    + exists c. split; [exact Cc|]. apply Uf. congruence.
Qed.
Lemma link_all_ok : exists k, link_all inherit (style_map l) (Links (no_deps l) (no_degrees l) [] []) l = Some k /\ linked l k.
Proof.
  assert (G : forall rest done k, l = done ++ rest -> linked done k -> exists k', link_all inherit (style_map l) k rest = Some k' /\ linked l k').
  { induction rest as [|s rest IH]; intros done k E L; [exists k; split; [reflexivity|]; rewrite app_nil_r in E; subst; exact L|]. cbn [link_all].
    destruct (link_step done k s L) as (k' & -> & L'); [exists s; split; [rewrite E; apply in_or_app; right; now left|reflexivity]|]. apply (IH (done ++ [s])); [rewrite <- app_assoc; exact E|exact L']. }
  apply (G l []); [reflexivity|]. assert (NP : forall a b, ~ parent_in [] a b) by (intros a b (s & [] & _)). constructor; cbn [lk_deps lk_degree lk_conflicts].
  - intros a. unfold no_deps. split; [intros [ps H]; apply (filled_iff (@nil str)) in H; tauto|]. intros H. exists []. now apply filled_iff.
  - intros a ps H b. apply (filled_iff (@nil str)) in H. destruct H as [_ ->]. split; [intros []|]. intros H. destruct (NP _ _ H).
  - intros b. unfold no_degrees. split; [intros [n H]; apply filled_iff in H; tauto|]. intros H. exists 0. now apply filled_iff.
  - intros b n H. apply filled_iff in H. destruct H as [_ ->]. split; [intros _ a; apply NP|reflexivity].
  - split; apply (fold_sorted (fun _ => _)); constructor.
  - exists []. split; [reflexivity|constructor].
Qed.
(* the edges are the parent relation *)
Lemma edge_iff k a b : linked l k -> edge (lk_deps k) a b <-> inherits_from l a b.
Proof.
  intros L. unfold edge, inherits_from. split.
  - intros (ps & H & I). apply (ld_edges _ _ L _ _ H) in I. exact I.
  - intros H. assert (D : defined l a) by (destruct H as (s & H & E & _); now exists s). apply (ld_deps _ _ L) in D. destruct D as [ps D]. exists ps. split; [exact D|]. now apply (ld_edges _ _ L _ _ D).
Qed.

(* ---- the order ---- *)
Lemma release_none current ds : (forall c ps, In (c, ps) ds -> ~ In current ps) -> forall degree queue, release current ds degree queue = (degree, queue).
Proof.
  induction ds as [|[c ps] ds IH]; intros H degree queue; [reflexivity|]. cbn [release]. rewrite (proj2 (memb_false current ps)) by (apply (H c); now left). apply IH. intros c' ps' H'. apply (H c'). now right.
Qed.
Definition looked_up (n : str) : list style := match sm_get n (style_map l) with Some s => [s] | None => [] end.
Lemma order_loop_leaves d degree queue : (forall n, In n queue -> forall c ps, In (c, ps) d -> ~ In n ps) -> forall fuel result, List.length queue < fuel ->
  order_loop fuel (style_map l) d degree queue result = Done (result ++ flat_map looked_up (rev queue)).
Proof.
  revert queue. induction queue as [|n queue IH] using rev_ind; intros H fuel result F; (destruct fuel as [|f]; [lia|]); cbn [order_loop]; [now rewrite app_nil_r|].
  rewrite rev_app_distr. cbn [rev app flat_map]. rewrite rev_involutive, release_none by (apply (H n); apply in_or_app; right; now left). rewrite app_length in F. cbn in F. rewrite IH; [|intros m Hm; apply H; apply in_or_app; now left|lia].
  rewrite app_assoc. unfold looked_up at 2. destruct (sm_get n (style_map l)); [reflexivity|now rewrite app_nil_r].
Qed.
Lemma ready_in k n : linked l k -> In n (ready (lk_degree k)) <-> defined l n /\ forall a, ~ inherits_from l a n.
Proof.
  intros L. unfold ready. rewrite in_map_iff. split.
  - intros ([b m] & <- & H). apply filter_In in H. destruct H as [H E]. cbn [snd fst] in *. apply Nat.eqb_eq in E. subst m. apply entry_get in H; [|exact (proj1 (ld_sorted _ _ L))].
    split; [apply (ld_degrees _ _ L); eauto|]. exact (proj1 (ld_degree _ _ L _ _ H) eq_refl).
  - intros [D N]. apply (ld_degrees _ _ L) in D. destruct D as [m H]. exists (n, m). split; [reflexivity|]. apply filter_In. split; [now apply get_entry|]. cbn. apply Nat.eqb_eq. now apply (ld_degree _ _ L _ _ H).
Qed.
Lemma ready_nodup k : linked l k -> NoDup (ready (lk_degree k)).
Proof.
  intros L. pose proof (sorted_nodup _ (proj1 (ld_sorted _ _ L))) as N. unfold ready, sm_keys in *. induction (lk_degree k) as [|[a b] m IH]; [constructor|]. cbn [map filter fst snd] in *. inversion N; subst. destruct (Nat.eqb b 0); [|now apply IH]. cbn [map fst].
  constructor; [|now apply IH]. intros H. apply H1. apply in_map_iff in H. destruct H as ([x y] & E & H). cbn in E. subst x. apply filter_In in H. apply in_map_iff. exists (a, y). split; [reflexivity|tauto].
Qed.
Lemma looked_up_one n : defined l n -> exists s, looked_up n = [s] /\ In s l /\ s_name s = n.
Proof.
  intros D. unfold looked_up, style_map. rewrite (fold_get (fun s => s)). destruct (find_named l n) as [(s & -> & H & E)|[_ N]]; [exists s; auto|contradiction].
Qed.
Lemma names_in n : In n (map s_name l) <-> defined l n.
Proof. rewrite in_map_iff. split; intros (s & A & B); exists s; auto. Qed.
(* the result of the whole *)
Lemma build_spec : exists o c info, build_dependency_order inherit l = Done (o, c, info) /\
  (exists miss circ, c = map (fun e : str * str => MissingParent (fst e) (snd e)) miss ++ circ /\ undefined_parents l l miss /\
     ((cyclic l /\ o = None /\ exists names, circ = [CircularInheritance names] /\ StronglySorted str_lt names /\ forall n, In n names <-> defined l n) \/ (~ cyclic l /\ circ = []))) /\
  match o with
  | Some r => (forall a b, ~ inherits_from l a b) /\ NoDup (map s_name l) /\ NoDup (map s_name r) /\ forall s, In s r <-> In s l
  | None => cyclic l \/ (exists a b, inherits_from l a b) \/ ~ NoDup (map s_name l)
  end.
Proof.
  unfold build_dependency_order. destruct link_all_ok as (k & -> & L). destruct (ld_conflicts _ _ L) as (miss & Cm & U).
  assert (Cl : forall a b, edge (lk_deps k) a b -> In b (sm_keys (lk_deps k))). { intros a b H. apply (edge_iff _ _ _ L) in H. apply get_in. apply (ld_deps _ _ L). destruct H as (s & _ & _ & _ & H). exact H. }
  destruct (circular_iff (lk_deps k) Cl) as (b & -> & B). cbn [bind].
  assert (Cy : (exists c, clos_trans str (edge (lk_deps k)) c c) <-> cyclic l).
  { assert (Mono : forall (R S : str -> str -> Prop), (forall x y, R x y -> S x y) -> forall x y, clos_trans str R x y -> clos_trans str S x y) by (intros R S RS x y T; induction T; [constructor 1; auto|econstructor 2; eassumption]).
    unfold cyclic. split; intros [c T]; exists c; (eapply Mono; [|exact T]); intros x y; apply (edge_iff _ _ _ L). }
  destruct b.
  - assert (Y : cyclic l) by (apply Cy; now apply B). do 3 eexists. split; [reflexivity|]. split; [|now left]. exists miss, [CircularInheritance (sm_keys (lk_deps k))]. split; [now rewrite Cm|]. split; [exact U|]. left. split; [exact Y|]. split; [reflexivity|].
    eexists. split; [reflexivity|]. split; [exact (proj2 (ld_sorted _ _ L))|]. intros n. rewrite <- get_in. apply (ld_deps _ _ L).
  - assert (Y : ~ cyclic l) by (intros Y; apply Cy, B in Y; discriminate).
    assert (Q : forall n, In n (ready (lk_degree k)) -> forall c ps, In (c, ps) (lk_deps k) -> ~ In n ps).
    { intros n Hn c ps H I. apply (ready_in _ _ L) in Hn. apply (proj2 Hn c). apply (edge_iff _ _ _ L). exists ps. split; [|exact I]. apply entry_get; [exact (proj2 (ld_sorted _ _ L))|exact H]. }
    assert (Rl : List.length (ready (lk_degree k)) <= List.length l). { rewrite <- (map_length s_name l). apply NoDup_incl_length; [now apply ready_nodup|]. intros n Hn. apply (ready_in _ _ L) in Hn. now apply names_in. }
    rewrite (order_loop_leaves _ _ _ Q) by lia. cbn [bind app]. do 3 eexists. split; [reflexivity|]. split; [exists miss, []; split; [now rewrite app_nil_r|]; split; [exact U|]; right; now split|].
    set (q := ready (lk_degree k)) in *. assert (Qd : forall n, In n (rev q) -> defined l n) by (intros n Hn; apply in_rev in Hn; now apply (ready_in _ _ L) in Hn).
    assert (Len : List.length (flat_map looked_up (rev q)) = List.length q /\ map s_name (flat_map looked_up (rev q)) = rev q /\ incl (flat_map looked_up (rev q)) l).
    { rewrite <- (rev_length q). induction (rev q) as [|n r IH]; [split; [reflexivity|]; split; [reflexivity|intros x []]|]. cbn [flat_map]. destruct (looked_up_one n (Qd n (or_introl eq_refl))) as (s & -> & Hs & En). destruct (IH (fun m Hm => Qd m (or_intror Hm))) as (I1 & I2 & I3). cbn [app List.length map]. split; [now rewrite I1|]. split; [now rewrite I2, En|]. intros x [<-|Hx]; [exact Hs|now apply I3]. }
    destruct Len as (Ln & Nm & In1). assert (Nq : NoDup (rev q)) by (apply NoDup_rev; now apply ready_nodup).
    destruct (Nat.eqb_spec (List.length (flat_map looked_up (rev q))) (List.length l)) as [E|E].
    + assert (Inc : incl (map s_name l) (rev q)). { apply NoDup_length_incl; [exact Nq|rewrite map_length, rev_length; lia|]. intros n Hn. apply names_in. now apply Qd. }
      assert (Nl : NoDup (map s_name l)). { apply (NoDup_incl_NoDup Nq); [rewrite map_length, rev_length; lia|]. intros n Hn. apply names_in. now apply Qd. }
      split; [|split; [exact Nl|split; [now rewrite Nm|]]].
      * intros a b H. assert (D : defined l b) by (destruct H as (s & _ & _ & _ & H); exact H). apply names_in in D. apply Inc in D. apply in_rev in D. apply (ready_in _ _ L) in D. exact (proj2 D a H).
      * intros s. split; [apply In1|]. intros Hs. assert (Hn : In (s_name s) (rev q)) by (apply Inc, names_in; now exists s). apply in_flat_map. exists (s_name s). split; [exact Hn|]. destruct (looked_up_one (s_name s)) as (t & -> & Ht & Et); [now exists s|]. left.
        clear -Nl Hs Ht Et. induction l as [|x r IH]; [destruct Hs|]. cbn [map] in Nl. inversion Nl; subst. destruct Hs as [->|Hs], Ht as [->|Ht]; [reflexivity| | |now apply IH].
        -- destruct H1. apply in_map_iff. exists t. now split.
        -- destruct H1. apply in_map_iff. exists s. split; [now symmetry|exact Hs].
    + right. destruct (list_eq_dec N.eq_dec [] []) as [_|X]; [|congruence].
      assert (Dec : (exists a b, inherits_from l a b) \/ (forall a b, ~ inherits_from l a b)).
      { assert (G : forall r, incl r l -> (exists a b, parent_in r a b) \/ (forall a b, ~ parent_in r a b)).
        { induction r as [|s r IH]; intros I; [right; intros a b (t & [] & _)|]. destruct (IH (fun x Hx => I x (or_intror Hx))) as [(a & b & t & H & H')|N]; [left; exists a, b, t; split; [now right|exact H']|].
          destruct (s_parent s) as [p|] eqn:P; [destruct (defined_dec l p) as [D|D]|].
          - left. exists (s_name s), p, s. split; [now left|]. auto.
          - right. intros a b (t & [<-|H] & En & Ep & Dp); [congruence|]. apply (N a b). now exists t.
          - right. intros a b (t & [<-|H] & En & Ep & Dp); [congruence|]. apply (N a b). now exists t. }
        exact (G l (fun x Hx => Hx)). }
      destruct Dec as [D|D]; [now left|right]. intros Nl. apply E. rewrite Ln, <- (rev_length q), <- (map_length s_name l). apply Nat.le_antisymm; [apply NoDup_incl_length; [exact Nq|]; intros n Hn; apply names_in; now apply Qd|].
      apply NoDup_incl_length; [exact Nl|]. intros n Hn. apply in_rev. rewrite rev_involutive. apply (ready_in _ _ L). split; [now apply names_in|]. intros a. apply D.
Qed.
End Link.
