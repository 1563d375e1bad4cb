(* C206: the registry of file formats *)
From Coq Require Import Permutation Sorted.
From Verif Require Import Base BaseLemmas ParseModel SortLib FormatRegModel.

(* ---- specification ---- *)
(* the registration of a key that no later one replaces *)
Definition stays {V} (l : list (str * V)) (k : str) (v : V) : Prop := exists l1 l2, l = l1 ++ (k, v) :: l2 /\ ~ In k (map fst l2).
Section Spec.
  Context {I E : Type}.
  Definition imports_of (o : registration (I := I) (E := E)) : list (str * handler (A := I)) := match o with RImporter h => [(h_name h, h)] | _ => [] end.
  Definition exports_of (o : registration (I := I) (E := E)) : list (str * handler (A := E)) := match o with RExporter h => [(h_name h, h)] | _ => [] end.
  Definition formats_of (o : registration (I := I) (E := E)) : list (str * combined (I := I) (E := E)) := match o with RFormat f => [(h_name (fst f), f)] | _ => [] end.
End Spec.
(* extensions are compared without regard to the case of ASCII letters *)
Definition serves {A} (h : handler (A := A)) (ext : str) : Prop := exists e, In e (h_exts h) /\ map ascii_lower e = map ascii_lower ext.
Definition str_lt (a b : str) : Prop := str_leb a b = true /\ a <> b.

(* ---- proofs ---- *)
Lemma eqb_sym_ne a b : str_eqb a b = false <-> a <> b.
Proof. split; intros H; [intros ->; rewrite (proj2 (str_eqb_eq b b) eq_refl) in H; discriminate|]. destruct (str_eqb a b) eqn:E; [apply str_eqb_eq in E; contradiction|reflexivity]. Qed.
Lemma put_in {V} k v (m : list (str * V)) k' v' : In (k', v') (put k v m) <-> (k' = k /\ v' = v) \/ (k' <> k /\ In (k', v') m).
Proof.
  unfold put. cbn [In]. rewrite filter_In. cbn [fst]. rewrite negb_true_iff, eqb_sym_ne. split.
  - intros [E|[A B]]; [injection E as <- <-; now left|right; now split].
  - intros [[-> ->]|[A B]]; [now left|right; now split].
Qed.
Lemma put_keys {V} k v (m : list (str * V)) : NoDup (map fst m) -> NoDup (map fst (put k v m)).
Proof.
  intros N. unfold put. cbn [map fst]. constructor.
  - intros H. apply in_map_iff in H as ((k' & v') & E & H). cbn in E. subst k'. apply filter_In in H as [_ H]. cbn in H. rewrite (proj2 (str_eqb_eq k k) eq_refl) in H. discriminate.
  - clear v. induction m as [|[a b] m IH]; [constructor|]. cbn [map] in N. inversion_clear N as [|? ? N1 N2]. cbn [filter]. destruct (negb (str_eqb (fst (a, b)) k)); [|now apply IH]. cbn [map]. constructor; [|now apply IH]. intros H. apply N1. apply in_map_iff in H as (e & E & H). apply filter_In in H as [H _]. apply in_map_iff. now exists e.
Qed.
Definition puts {V} (l : list (str * V)) (m : list (str * V)) : list (str * V) := fold_left (fun m e => put (fst e) (snd e) m) l m.
Lemma puts_in {V} (l : list (str * V)) : forall m k v, In (k, v) (puts l m) <-> stays l k v \/ (~ In k (map fst l) /\ In (k, v) m).
Proof.
  induction l as [|[a b] l IH]; intros m k v.
  - unfold puts. cbn [fold_left]. split; [intros H; right; split; [intros []|exact H]|]. intros [(l1 & l2 & E & _)|[_ H]]; [destruct l1; discriminate|exact H].
  - change (puts ((a, b) :: l) m) with (puts l (put a b m)). rewrite IH, put_in. cbn [map fst]. split.
    + intros [(l1 & l2 & -> & N)|[N [[-> ->]|[D H]]]].
      * left. exists ((a, b) :: l1), l2. now split.
      * left. exists [], l. now split.
      * right. split; [|exact H]. intros [E|E]; [congruence|contradiction].
    + intros [(l1 & l2 & E & N)|[N H]].
      * destruct l1 as [|x l1]; cbn in E.
        -- injection E as <- <- <-. right. split; [exact N|]. left. now split.
        -- injection E as <- ->. left. exists l1, l2. now split.
      * right. split; [intros K; apply N; now right|]. right. split; [intros ->; apply N; now left|exact H].
Qed.
Lemma puts_keys {V} (l : list (str * V)) : forall m, NoDup (map fst m) -> NoDup (map fst (puts l m)).
Proof. induction l as [|[a b] l IH]; intros m N; [exact N|]. change (puts ((a, b) :: l) m) with (puts l (put a b m)). apply IH. now apply put_keys. Qed.
Lemma registry_is {I E} (l : list registration) : forall r : registry (I := I) (E := E),
  fold_left register l r = Rg (puts (flat_map imports_of l) (importers r)) (puts (flat_map exports_of l) (exporters r)) (puts (flat_map formats_of l) (formats r)).
Proof.
  induction l as [|o l IH]; intros r; [now destruct r|]. cbn [fold_left flat_map]. rewrite IH. destruct o; reflexivity.
Qed.
Lemma can_serves {A} (h : handler (A := A)) ext : can h ext = true <-> serves h ext.
Proof. unfold can, serves. rewrite existsb_exists. split; intros (e & H & K); exists e; (split; [exact H|]); [now apply str_eqb_eq in K|unfold eq_nocase; now apply str_eqb_eq]. Qed.
Lemma leb_refl a : str_leb a a = true.
Proof. induction a as [|x a IH]; [reflexivity|]. cbn. now rewrite N.ltb_irrefl. Qed.
Lemma leb_total : forall a b, str_leb a b = true \/ str_leb b a = true.
Proof.
  induction a as [|x a IH]; intros [|y b]; cbn; auto. destruct (N.ltb_spec x y), (N.ltb_spec y x); auto.
Qed.
Lemma leb_trans : forall a b c, str_leb a b = true -> str_leb b c = true -> str_leb a c = true.
Proof.
  induction a as [|x a IH]; intros [|y b] [|z c]; cbn; auto; try discriminate. destruct (N.ltb_spec x y), (N.ltb_spec y x), (N.ltb_spec y z), (N.ltb_spec z y), (N.ltb_spec x z), (N.ltb_spec z x); auto; try discriminate; try lia. intros. eapply IH; eassumption.
Qed.
Lemma leb_antisym : forall a b, str_leb a b = true -> str_leb b a = true -> a = b.
Proof.
  induction a as [|x a IH]; intros [|y b]; cbn; auto; try discriminate. destruct (N.ltb_spec x y), (N.ltb_spec y x); try discriminate; try lia. intros. assert (x = y) by lia. subst. f_equal. now apply IH.
Qed.
Lemma dedup_in l x : In x (dedup l) <-> In x l.
Proof.
  induction l as [|a [|b l] IH]; [reflexivity|reflexivity|]. change (dedup (a :: b :: l)) with (if str_eqb a b then dedup (b :: l) else a :: dedup (b :: l)). destruct (str_eqb a b) eqn:E.
  - apply str_eqb_eq in E. subst. rewrite IH. cbn. tauto.
  - cbn [In]. cbn [In] in IH. rewrite IH. tauto.
Qed.
Lemma dedup_sorted l : StronglySorted (fun a b => str_leb a b = true) l -> StronglySorted str_lt (dedup l).
Proof.
  induction l as [|a [|b l] IH]; intros S; [constructor|repeat constructor|]. apply StronglySorted_inv in S as [S F]. specialize (IH S). change (dedup (a :: b :: l)) with (if str_eqb a b then dedup (b :: l) else a :: dedup (b :: l)). destruct (str_eqb a b) eqn:E; [exact IH|]. constructor; [exact IH|].
  apply Forall_forall. intros x X. apply (proj1 (dedup_in (b :: l) x)) in X. rewrite Forall_forall in F. split; [now apply F|]. intros <-. apply eqb_sym_ne in E. apply E. destruct X as [->|X]; [reflexivity|]. apply leb_antisym; [apply F; now left|]. apply StronglySorted_inv in S as [_ F2]. rewrite Forall_forall in F2. now apply F2.
Qed.
Lemma sorted_unique : forall l m, StronglySorted str_lt l -> StronglySorted str_lt m -> (forall x, In x l <-> In x m) -> l = m.
Proof.
  assert (K : forall x y, str_lt x y -> str_lt y x -> False) by (intros x y [A N] [B _]; apply N; now apply leb_antisym).
  induction l as [|a l IH]; intros [|b m] S T H; [reflexivity|exfalso; apply (H b); now left|exfalso; apply (H a); now left|].
  apply StronglySorted_inv in S as [S FS]. apply StronglySorted_inv in T as [T FT]. rewrite Forall_forall in FS, FT.
  assert (a = b). { destruct (proj1 (H a) (or_introl eq_refl)) as [E|X]; [now symmetry|]. destruct (proj2 (H b) (or_introl eq_refl)) as [E|Y]; [exact E|]. exfalso. eapply K; [apply FS, Y|apply FT, X]. } subst b. f_equal. apply IH; [exact S|exact T|]. intros x. split; intros X.
  - destruct (proj1 (H x) (or_intror X)) as [<-|Y]; [|exact Y]. destruct (FS a X) as [_ N]. congruence.
  - destruct (proj2 (H x) (or_intror X)) as [<-|Y]; [|exact Y]. destruct (FT a X) as [_ N]. congruence.
Qed.

(* ---- theorems ---- *)
(* after any history each name stands for the last registered under it *)
Theorem registry_last_wins : forall (I E : Type) (l : list (registration (I := I) (E := E))), let r := fold_left register l registry_new in
  NoDup (map fst (importers r)) /\ NoDup (map fst (exporters r)) /\ NoDup (map fst (formats r)) /\
  (forall k h, In (k, h) (importers r) <-> stays (flat_map imports_of l) k h) /\ (forall k h, In (k, h) (exporters r) <-> stays (flat_map exports_of l) k h) /\ (forall k f, In (k, f) (formats r) <-> stays (flat_map formats_of l) k f).
Proof.
  intros I E l. cbv zeta. rewrite registry_is. cbn [importers exporters formats registry_new]. repeat (split; [apply puts_keys; constructor|]).
  split; [|split]; intros k v; rewrite puts_in; (split; [intros [H|[_ []]]; exact H|intros H; now left]).
Qed.
Print Assumptions registry_last_wins.

(* whatever the order in which the maps are visited *)
Theorem registry_finds : forall (A : Type) (fs os : list (handler (A := A))) ext,
  match find_in fs os ext with
  | Some h => serves h ext /\ (In h fs \/ In h os /\ forall f, In f fs -> ~ serves f ext)
  | None => forall h, In h fs \/ In h os -> ~ serves h ext
  end.
Proof.
  intros A fs os ext. unfold find_in. destruct (find (fun h => can h ext) fs) as [h|] eqn:F.
  - apply find_some in F as [H C]. split; [now apply can_serves|now left].
  - assert (N : forall f, In f fs -> ~ serves f ext). { intros f H S. apply can_serves in S. pose proof (find_none _ _ F f H) as K. cbv beta in K. congruence. }
    destruct (find (fun h => can h ext) os) as [h|] eqn:G.
    + apply find_some in G as [H C]. split; [now apply can_serves|]. right. now split.
    + intros h [H|H]; [now apply N|]. intros S. apply can_serves in S. pose proof (find_none _ _ G h H) as K. cbv beta in K. congruence.
Qed.
Print Assumptions registry_finds.

Theorem registry_extensions : forall (A : Type) (fs os : list (handler (A := A))),
  StronglySorted str_lt (supported fs os) /\ (forall e, In e (supported fs os) <-> exists h, (In h fs \/ In h os) /\ In e (h_exts h)) /\
  (forall e, In e (supported fs os) -> find_in fs os e <> None) /\
  forall fs' os', Permutation fs fs' -> Permutation os os' -> supported fs' os' = supported fs os.
Proof.
  assert (S : forall (A : Type) (fs os : list (handler (A := A))), StronglySorted str_lt (supported fs os)) by (intros; apply dedup_sorted, sort_sorted; [exact leb_total|exact leb_trans]).
  assert (M : forall (A : Type) (fs os : list (handler (A := A))) e, In e (supported fs os) <-> exists h, (In h fs \/ In h os) /\ In e (h_exts h)).
  { intros A fs os e. unfold supported. rewrite dedup_in. split.
    - intros H. apply (Permutation_in _ (Permutation_sym (sort_perm str_leb _))) in H. apply in_app_or in H as [H|H]; apply in_flat_map in H as (h & H & K); exists h; auto.
    - intros (h & [H|H] & K); apply (Permutation_in _ (sort_perm str_leb _)), in_or_app; [left|right]; apply in_flat_map; now exists h. }
  intros A fs os. split; [apply S|]. split; [apply M|]. split.
  - intros e H E. apply M in H as (h & H & K). pose proof (registry_finds A fs os e) as F. rewrite E in F. apply (F h H). exists e. now split.
  - intros fs' os' P Q. apply sorted_unique; [apply S|apply S|]. intros e. rewrite !M. split; intros (h & H & K); exists h; (split; [|exact K]).
    + destruct H as [H|H]; [left; eapply Permutation_in; [symmetry; exact P|exact H]|right; eapply Permutation_in; [symmetry; exact Q|exact H]].
    + destruct H as [H|H]; [left; eapply Permutation_in; [exact P|exact H]|right; eapply Permutation_in; [exact Q|exact H]].
Qed.
Print Assumptions registry_extensions.

(* a file is refused exactly when nothing registered serves its extension *)
Theorem registry_opens : forall (A : Type) (fs os : list (handler (A := A))) ext,
  match open_file fs os ext with
  | NoExtension _ => ext = None
  | Unsupported _ e => ext = Some e /\ forall h, In h fs \/ In h os -> ~ serves h e
  | Handled _ h => exists e, ext = Some e /\ serves h e /\ (In h fs \/ In h os)
  end.
Proof.
  intros A fs os [e|]; [|reflexivity]. unfold open_file. pose proof (registry_finds A fs os e) as F. destruct (find_in fs os e) as [h|]; [|now split]. exists e. split; [reflexivity|]. destruct F as [S [H|[H _]]]; auto.
Qed.
Print Assumptions registry_opens.

Definition srt : handler (A := nat) := Hd _ (lit "SRT") [lit "srt"; lit "sub"] 1%nat.
Definition vtt : handler (A := nat) := Hd _ (lit "VTT") [lit "vtt"; lit "sub"] 2%nat.
Example registry_ex : find_in [srt; vtt] [] (lit "VtT") = Some vtt /\ find_in [srt] [vtt] (lit "ass") = None /\ supported [vtt; srt] [] = [lit "srt"; lit "sub"; lit "vtt"].
Proof. vm_compute. repeat split. Qed.
Example last_ex : map fst (importers (fold_left register [RImporter srt; RImporter vtt; RImporter srt] (registry_new (I := nat) (E := nat)))) = [lit "SRT"; lit "VTT"].
Proof. vm_compute. reflexivity. Qed.

(* two formats with an extension in common: the order of the hash map decides *)
Theorem registry_choice_refuted : exists (fs fs' : list (handler (A := nat))) ext, Permutation fs fs' /\ find_in fs [] ext <> find_in fs' [] ext.
Proof. exists [srt; vtt], [vtt; srt], (lit "sub"). split; [apply perm_swap|]. vm_compute. discriminate. Qed.
Print Assumptions registry_choice_refuted.
