(* The extension registry: C48. *)
From Verif Require Import Base BaseLemmas PluginModel PluginSpec PluginProofs.

(* Whatever calls were made, each answered as it must, ... *)
Theorem registry_answers : forall calls, snd (reg_run new_registry calls) = right_answers [] calls.
Proof. intros calls. apply (run_knows calls [] new_registry new_knows). Qed.
(* ... a refused call changes nothing, ... *)
Theorem registry_refusal : forall r c, snd (reg_step r c) = Refused -> fst (reg_step r c) = r.
Proof.
  intros r [h|p|n|n|]; cbn [reg_step]; try discriminate.
  - unfold register_tag_handler. destruct (hm_has _ _); [reflexivity|discriminate].
  - unfold register_section_processor. destruct (hm_has _ _); [reflexivity|discriminate].
Qed.
(* ... and every lookup goes to the owner of the name. *)
Theorem registry_lookup : forall calls,
  let r := fst (reg_run new_registry calls) in let past := rev calls in
  (forall n args, process_tag n args r = option_map (fun h => th_process h args) (tag_owner n past)) /\
  (forall n header ls, process_section n header ls r = option_map (fun p => sp_process p header ls) (section_owner n past)) /\
  (forall n, has_tag_handler n r = true <-> tag_owner n past <> None) /\
  (forall n, has_section_processor n r = true <-> section_owner n past <> None).
Proof.
  intros calls r past. destruct (run_knows calls [] new_registry new_knows) as [(H1 & H2 & _) _]. rewrite app_nil_r in H1, H2. fold r past in H1, H2.
  split; [|split; [|split]].
  - intros n args. unfold process_tag. rewrite H1. now destruct (tag_owner n past).
  - intros n header ls. unfold process_section. rewrite H2. now destruct (section_owner n past).
  - intros n. unfold has_tag_handler. rewrite has_spec, H1. reflexivity.
  - intros n. unfold has_section_processor. rewrite has_spec, H2. reflexivity.
Qed.
(* The names listed are those that are owned, each once, and the count is that
   of the names. *)
Theorem registry_names : forall calls tags sections,
  let r := fst (reg_run new_registry calls) in let past := rev calls in
  Permutation tags (tag_handler_names r) -> Permutation sections (section_processor_names r) ->
  NoDup tags /\ NoDup sections /\ (forall n, In n tags <-> tag_owner n past <> None) /\
  (forall n, In n sections <-> section_owner n past <> None) /\ extension_count r = List.length tags + List.length sections.
Proof.
  intros calls tags sections r past P1 P2. destruct (run_knows calls [] new_registry new_knows) as [(H1 & H2 & H3 & H4) _].
  rewrite app_nil_r in H1, H2. fold r past in H1, H2, H3, H4.
  split; [eapply Permutation_NoDup; [symmetry; exact P1|exact H3]|]. split; [eapply Permutation_NoDup; [symmetry; exact P2|exact H4]|].
  split; [|split].
  - intros n. rewrite <- H1, <- in_keys. split; apply Permutation_in; [exact P1|now symmetry].
  - intros n. rewrite <- H2, <- in_keys. split; apply Permutation_in; [exact P2|now symmetry].
  - rewrite (Permutation_length P1), (Permutation_length P2). unfold tag_handler_names, section_processor_names, hm_keys. now rewrite !map_length.
Qed.
(* The owner of a name bears it. *)
Theorem registry_owner_name : forall past n h, tag_owner n past = Some h -> th_name h = n.
Proof.
  intros past n. induction past as [|[x|x|m|m|] l IH]; intros h; cbn [tag_owner]; try discriminate; try apply IH.
  - destruct (tag_owner n l) as [old|]; [intros [= <-]; now apply IH|]. destruct (str_eqb (th_name x) n) eqn:E; [|discriminate]. intros [= <-]. now apply str_eqb_eq.
  - destruct (str_eqb m n); [discriminate|apply IH].
Qed.
Definition ex_handler (n : string) (v : verdict) : tag_handler := TagHandler (lit n) (fun _ => v).
Example registry_instance :
  let r := reg_run new_registry [RegisterTag (ex_handler "b" Processed); RegisterTag (ex_handler "b" Ignored); RegisterTag (ex_handler "i" Ignored); RemoveTag (lit "b"); RegisterTag (ex_handler "b" Ignored)] in
  snd r = [Registered; Refused; Registered; RemovedTag (Some (ex_handler "b" Processed)); Registered] /\
  process_tag (lit "b") [] (fst r) = Some Ignored /\ process_tag (lit "u") [] (fst r) = None /\ extension_count (fst r) = 2.
Proof. repeat split. Qed.
Print Assumptions registry_answers. Print Assumptions registry_lookup. Print Assumptions registry_names.
