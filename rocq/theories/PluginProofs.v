From Verif Require Import Base BaseLemmas PluginModel PluginSpec.

Lemma name_eqb_neq a b : str_eqb a b = false <-> a <> b.
Proof. destruct (str_eqb a b) eqn:E; split; try congruence; intros N; [apply str_eqb_eq in E; contradiction|intros ->; rewrite str_eqb_refl in E; discriminate]. Qed.
Lemma name_eqb_sym a b : str_eqb a b = str_eqb b a.
Proof.
  destruct (str_eqb b a) eqn:E; [apply str_eqb_eq in E; subst; apply str_eqb_refl|]. apply name_eqb_neq in E. apply name_eqb_neq. congruence.
Qed.
Section Map.
  Context {A : Type}.
  Implicit Type m : hmap A.
  Lemma get_without k k' m : hm_get k' (hm_without k m) = if str_eqb k k' then None else hm_get k' m.
  Proof.
    induction m as [|[a v] m IH]; cbn [hm_without hm_get]; [now destruct (str_eqb k k')|].
    destruct (str_eqb k a) eqn:E.
    - rewrite IH. apply str_eqb_eq in E. subst a. destruct (str_eqb k k') eqn:F; [reflexivity|]. now rewrite (name_eqb_sym k' k), F.
    - cbn [hm_get]. rewrite IH. destruct (str_eqb k' a) eqn:G; [|reflexivity]. apply str_eqb_eq in G. subst a. now rewrite E.
  Qed.
  Lemma get_inserted k v k' m : hm_get k' (hm_insert k v m) = if str_eqb k k' then Some v else hm_get k' m.
  Proof.
    unfold hm_insert. cbn [hm_get]. rewrite get_without, (name_eqb_sym k' k). now destruct (str_eqb k k').
  Qed.
  Lemma in_keys k m : In k (hm_keys m) <-> hm_get k m <> None.
  Proof.
    unfold hm_keys. induction m as [|[a v] m IH]; cbn [map In hm_get fst]; [split; [intros []|congruence]|].
    destruct (str_eqb k a) eqn:E.
    - apply str_eqb_eq in E. subst. split; [discriminate|now left].
    - apply name_eqb_neq in E. rewrite <- IH. split; [intros [->|H]; [congruence|exact H]|auto].
  Qed.
  Lemma without_keys k m : NoDup (hm_keys m) -> NoDup (hm_keys (hm_without k m)).
  Proof.
    unfold hm_keys. induction m as [|[a v] m IH]; cbn [hm_without map fst]; [constructor|]. intros H. inversion H; subst.
    destruct (str_eqb k a); [auto|]. cbn [map fst]. constructor; [|auto].
    intros Q. apply in_keys in Q. rewrite get_without in Q. destruct (str_eqb k a); [congruence|]. apply in_keys in Q. contradiction.
  Qed.
  Lemma insert_keys k v m : NoDup (hm_keys m) -> NoDup (hm_keys (hm_insert k v m)).
  Proof.
    intros H. unfold hm_insert, hm_keys. cbn [map fst]. constructor; [|now apply without_keys].
    intros Q. apply in_keys in Q. rewrite get_without, str_eqb_refl in Q. congruence.
  Qed.
  Lemma without_length k m : NoDup (hm_keys m) -> List.length (hm_without k m) + (if hm_has k m then 1 else 0) = List.length m.
  Proof.
    unfold hm_keys, hm_has. induction m as [|[a v] m IH]; cbn [hm_without map fst hm_get]; [reflexivity|]. intros H. inversion H as [|? ? Hn Hd]; subst.
    specialize (IH Hd). destruct (str_eqb k a) eqn:E; cbn [List.length]; [|lia].
    apply str_eqb_eq in E. subst a. destruct (hm_get k m) eqn:G; [|lia]. exfalso. apply Hn. apply in_keys. congruence.
  Qed.
  Lemma has_spec k m : hm_has k m = true <-> hm_get k m <> None.
  Proof. unfold hm_has. destruct (hm_get k m); split; congruence. Qed.
End Map.

(* The registry knows the past. *)
Definition knows (past : list reg_call) (r : registry) : Prop :=
  (forall n, hm_get n (tag_handlers r) = tag_owner n past) /\ (forall n, hm_get n (section_processors r) = section_owner n past) /\
  NoDup (hm_keys (tag_handlers r)) /\ NoDup (hm_keys (section_processors r)).
Lemma step_knows past r c : knows past r -> knows (c :: past) (fst (reg_step r c)) /\ snd (reg_step r c) = right_answer past c.
Proof.
  intros (H1 & H2 & H3 & H4). destruct c as [h|p|n|n|]; cbn [reg_step right_answer].
  - unfold register_tag_handler, hm_has. rewrite H1. destruct (tag_owner (th_name h) past) as [old|] eqn:E; cbn [fst snd].
    + split; [|reflexivity]. split; [|split; [exact H2|split; assumption]]. intros n. cbn [tag_owner]. rewrite H1.
      destruct (tag_owner n past) eqn:F; [reflexivity|]. destruct (str_eqb (th_name h) n) eqn:G; [|reflexivity]. apply str_eqb_eq in G. congruence.
    + split; [|reflexivity]. split; [|split; [exact H2|split; [now apply insert_keys|exact H4]]]. intros n. cbn [tag_owner tag_handlers]. rewrite get_inserted, H1.
      destruct (str_eqb (th_name h) n) eqn:G; [apply str_eqb_eq in G; subst n; now rewrite E|]. now destruct (tag_owner n past).
  - unfold register_section_processor, hm_has. rewrite H2. destruct (section_owner (sp_name p) past) as [old|] eqn:E; cbn [fst snd].
    + split; [|reflexivity]. split; [exact H1|split; [|split; assumption]]. intros n. cbn [section_owner]. rewrite H2.
      destruct (section_owner n past) eqn:F; [reflexivity|]. destruct (str_eqb (sp_name p) n) eqn:G; [|reflexivity]. apply str_eqb_eq in G. congruence.
    + split; [|reflexivity]. split; [exact H1|split; [|split; [exact H3|now apply insert_keys]]]. intros n. cbn [section_owner section_processors]. rewrite get_inserted, H2.
      destruct (str_eqb (sp_name p) n) eqn:G; [apply str_eqb_eq in G; subst n; now rewrite E|]. now destruct (section_owner n past).
  - unfold remove_tag_handler. cbn [fst snd]. split; [|now rewrite H1]. split; [|split; [exact H2|split; [now apply without_keys|exact H4]]].
    intros m. cbn [tag_owner tag_handlers]. rewrite get_without, H1. reflexivity.
  - unfold remove_section_processor. cbn [fst snd]. split; [|now rewrite H2]. split; [exact H1|split; [|split; [exact H3|now apply without_keys]]].
    intros m. cbn [section_owner section_processors]. rewrite get_without, H2. reflexivity.
  - cbn [fst snd]. split; [|reflexivity]. split; [reflexivity|]. split; [reflexivity|]. split; constructor.
Qed.
Lemma run_knows : forall l past r, knows past r -> knows (rev l ++ past) (fst (reg_run r l)) /\ snd (reg_run r l) = right_answers past l.
Proof.
  intros l. induction l as [|c l IH]; intros past r H; cbn [reg_run right_answers rev app]; [auto|].
  destruct (step_knows past r c H) as [K A]. destruct (reg_step r c) as [r1 a]. cbn [fst snd] in *. subst a.
  destruct (IH (c :: past) r1 K) as [K2 A2]. destruct (reg_run r1 l) as [r2 out]. cbn [fst snd] in *. subst out.
  rewrite <- app_assoc. split; [exact K2|reflexivity].
Qed.
Lemma new_knows : knows [] new_registry.
Proof. repeat split; constructor. Qed.
