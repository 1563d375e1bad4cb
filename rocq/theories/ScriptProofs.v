(* Proofs about editing scripts in place. *)
From Verif Require Import Base BaseLemmas ScriptModel ScriptSpec IncrProofs.
From Coq Require Import Lia.

(* ---- lists ---- *)
Lemma replace_first_app {A} (p : A -> bool) f a x b : Forall (fun z => p z = false) a -> p x = true -> replace_first p f (a ++ x :: b) = Some (x, a ++ f x :: b).
Proof. induction 1 as [|z a Hz _ IH]; intros Hx; cbn; [rewrite Hx; reflexivity|]. rewrite Hz, IH by exact Hx. reflexivity. Qed.
Lemma replace_first_inv {A} (p : A -> bool) f l old l' : replace_first p f l = Some (old, l') ->
  exists a b, l = a ++ old :: b /\ l' = a ++ f old :: b /\ Forall (fun z => p z = false) a /\ p old = true.
Proof.
  revert l'. induction l as [|x l IH]; intros l'; cbn; [discriminate|]. destruct (p x) eqn:E.
  - intros H. injection H as <- <-. exists [], l. auto.
  - destruct (replace_first p f l) as [[o r]|]; [|discriminate]. intros H. injection H as <- <-. destruct (IH _ eq_refl) as (a & b & -> & -> & F & G). exists (x :: a), b. auto.
Qed.
Lemma replace_first_none {A} (p : A -> bool) f l : replace_first p f l = None -> Forall (fun z => p z = false) l.
Proof. induction l as [|x l IH]; cbn; [constructor|]. destruct (p x) eqn:E; [discriminate|]. destruct (replace_first p f l) as [[o r]|]; [discriminate|]. auto. Qed.
Lemma sorted_app {A} (R : A -> A -> Prop) a b : StronglySorted R (a ++ b) <-> StronglySorted R a /\ StronglySorted R b /\ Forall (fun x => Forall (R x) b) a.
Proof.
  induction a as [|x a IH]; cbn; [split; [intros H; repeat split; auto; constructor|tauto]|]. split.
  - intros H. inversion H as [|? ? H1 H2]; subst. apply IH in H1. destruct H1 as (I1 & I2 & I3). apply Forall_app in H2. destruct H2. repeat split; auto; constructor; auto.
  - intros (H1 & H2 & H3). inversion H1; subst. inversion H3; subst. constructor; [apply IH; auto|]. apply Forall_app. auto.
Qed.
Lemma find_app {A} (p : A -> bool) a b : find p (a ++ b) = match find p a with Some x => Some x | None => find p b end.
Proof. induction a as [|x a IH]; cbn; [reflexivity|]. destruct (p x); [reflexivity|exact IH]. Qed.
Lemma find_none_all {A} (p : A -> bool) l : Forall (fun x => p x = false) l -> find p l = None.
Proof. induction 1 as [|x l H _ IH]; cbn; [reflexivity|]. rewrite H. exact IH. Qed.
Lemma last_in {A} (l : list A) d : l <> [] -> In (List.last l d) l.
Proof. induction l as [|x l IH]; [congruence|]. intros _. destruct l as [|y l]; [left; reflexivity|]. right. apply IH. discriminate. Qed.
Lemma last_any {A} (l : list A) d e : l <> [] -> List.last l d = List.last l e.
Proof. induction l as [|x l IH]; [congruence|]. intros _. destruct l as [|y l]; [reflexivity|]. apply IH. discriminate. Qed.
Lemma last_app {A} (a b : list A) d : b <> [] -> List.last (a ++ b) d = List.last b d.
Proof. intros H. induction a as [|x a IH]; [reflexivity|]. cbn [app List.last]. destruct (a ++ b) eqn:E; [apply app_eq_nil in E; destruct E; congruence|]. exact IH. Qed.

(* ---- spans ---- *)
Lemma covers_iff sp o : covers sp o = true <-> sp_start sp <= o < sp_end sp.
Proof. unfold covers. rewrite andb_true_iff, Nat.leb_le, Nat.ltb_lt. lia. Qed.
Lemma covers_not sp o : covers sp o = false <-> ~ (sp_start sp <= o < sp_end sp).
Proof. rewrite <- covers_iff. destruct (covers sp o); split; congruence || tauto. Qed.
Definition fresh_span (sp : span) : Prop := sp_start sp = 0 /\ sp_end sp = 0.
Lemma fresh_covers sp o : fresh_span sp -> covers sp o = false.
Proof. intros [H1 H2]. apply covers_not. lia. Qed.
Lemma new_style_fresh sc op y : new_style sc op = Some y -> fresh_span (s_span y).
Proof.
  unfold new_style, parse_line_auto. destruct (strip_prefix (lit "Style:") (trim (op_line op))) as [d|].
  - unfold parse_style_line. destruct (style_parent (trim d)) as [a pr]. destruct (_ <? _); [discriminate|]. intros H. injection H as <-. split; reflexivity.
  - destruct (event_line _); [destruct (parse_event_line _ _ _); discriminate|]. destruct (find_char is_colon _) as [[k [|c v]]|]; try discriminate. destruct (starts_with _ _); discriminate.
Qed.
Lemma new_event_fresh sc op y : new_event sc op = Some y -> fresh_span (e_span y).
Proof.
  unfold new_event, parse_line_auto. destruct (strip_prefix (lit "Style:") (trim (op_line op))) as [d|].
  - destruct (parse_style_line _ _ _); discriminate.
  - destruct (event_line _).
    + unfold parse_event_line. destruct (event_prefix _) as [[ty d]|]; [|discriminate]. destruct (_ <? _); [discriminate|]. intros H. injection H as <-. split; reflexivity.
    + destruct (find_char is_colon _) as [[k [|c v]]|]; try discriminate. destruct (starts_with _ _); discriminate.
Qed.
Definition before (a b : span) : Prop := sp_end a <= sp_start b.
Definition wide (sp : span) : Prop := sp_start sp <= sp_end sp.

(* ---- rewriting the items of one section ---- *)
Section Items.
Context {A : Type} (span_of : A -> span) (new : update_op -> option A).
Hypothesis fresh : forall op y, new op = Some y -> fresh_span (span_of y).
Let rw := rewrite_items span_of new.
Definition rw1 (ops : list update_op) (x : A) : A :=
  match find (fun op => covers (span_of x) (op_offset op)) ops with
  | Some op => match new op with Some y => y | None => x end
  | None => x
  end.
Lemma rw_map ops l : rw ops l = map (rw1 ops) l. Proof. reflexivity. Qed.
Lemma rw1_span ops x : span_of (rw1 ops x) = span_of x \/ fresh_span (span_of (rw1 ops x)).
Proof. unfold rw1. destruct (find _ ops) as [op|]; [|auto]. destruct (new op) eqn:E; [|auto]. right. eapply fresh, E. Qed.
Lemma rw1_covers ops x o : covers (span_of x) o = false -> covers (span_of (rw1 ops x)) o = false.
Proof. intros H. destruct (rw1_span ops x) as [->|F]; [exact H|apply fresh_covers, F]. Qed.
Lemma rw1_snoc ops op x : covers (span_of x) (op_offset op) = false -> rw1 (ops ++ [op]) x = rw1 ops x.
Proof. intros H. unfold rw1. rewrite find_app. destruct (find _ ops); [reflexivity|]. cbn. rewrite H. reflexivity. Qed.
Lemma rw1_none ops x : Forall (fun d => covers (span_of x) (op_offset d) = false) ops -> rw1 ops x = x.
Proof. intros H. unfold rw1. rewrite find_none_all; [reflexivity|exact H]. Qed.
Lemma rw_snoc ops op l : Forall (fun x => covers (span_of x) (op_offset op) = false) l -> rw (ops ++ [op]) l = rw ops l.
Proof. intros H. rewrite !rw_map. apply map_ext_Forall. eapply Forall_impl; [|exact H]. intros x Hx. apply rw1_snoc, Hx. Qed.
Lemma outside_left sp op x : before sp (span_of x) -> covers (span_of x) (op_offset op) = true -> covers sp (op_offset op) = false.
Proof. unfold before. rewrite covers_iff, covers_not. lia. Qed.
Lemma outside_right sp op x : before (span_of x) sp -> covers (span_of x) (op_offset op) = true -> covers sp (op_offset op) = false.
Proof. unfold before. rewrite covers_iff, covers_not. lia. Qed.
Lemma rw_step a x b done op y : StronglySorted before (map span_of (a ++ x :: b)) -> covers (span_of x) (op_offset op) = true -> new op = Some y ->
  Forall (fun d => covers (span_of x) (op_offset d) = false) done ->
  replace_first (fun z => covers (span_of z) (op_offset op)) (fun _ => y) (rw done (a ++ x :: b)) = Some (x, rw (done ++ [op]) (a ++ x :: b)).
Proof.
  intros Hs Hc Hn Hd. rewrite map_app in Hs. apply sorted_app in Hs. destruct Hs as (_ & Hb & Ha). cbn [map] in Hb, Ha. inversion Hb as [|? ? _ Hb2]; subst.
  assert (Fa : Forall (fun z => covers (span_of z) (op_offset op) = false) a).
  { rewrite Forall_map in Ha. eapply Forall_impl; [|exact Ha]. intros z Hz. apply Forall_inv in Hz. eapply outside_left; eassumption. }
  assert (Fb : Forall (fun z => covers (span_of z) (op_offset op) = false) b).
  { rewrite Forall_map in Hb2. eapply Forall_impl; [|exact Hb2]. intros z Hz. cbn in Hz. eapply outside_right; eassumption. }
  assert (E : forall ops, rw ops (a ++ x :: b) = rw ops a ++ rw1 ops x :: rw ops b) by (intros; rewrite !rw_map, map_app; reflexivity).
  rewrite !E, !rw_snoc by assumption. rewrite (rw1_none done x Hd). rewrite replace_first_app.
  - f_equal. f_equal. f_equal. f_equal. unfold rw1. rewrite find_app, find_none_all by exact Hd. cbn. rewrite Hc, Hn. reflexivity.
  - rewrite rw_map. apply Forall_map. eapply Forall_impl; [|exact Fa]. intros z Hz. apply rw1_covers, Hz.
  - exact Hc.
Qed.
(* a rewritten section in front of the offset does not cover it *)
Lemma rw_before done l o : Forall (fun x => sp_end (span_of x) <= o) l -> match ends_span (map span_of (rw done l)) with Some sp => covers sp o | None => false end = false.
Proof.
  intros H. destruct (map span_of (rw done l)) as [|f r] eqn:E; [reflexivity|]. cbn [ends_span]. apply covers_not. cbn [sp_start sp_end].
  assert (K : In (List.last (f :: r) f) (map span_of (rw done l))) by (rewrite E; apply last_in; discriminate). rewrite rw_map, map_map in K. apply in_map_iff in K. destruct K as (x & K1 & K2).
  rewrite Forall_forall in H. specialize (H x K2). rewrite <- K1. destruct (rw1_span done x) as [->|[_ F]]; lia.
Qed.
(* the section of the line still covers it *)
Lemma rw_target done a x b o : StronglySorted before (map span_of (a ++ x :: b)) -> Forall wide (map span_of (a ++ x :: b)) -> covers (span_of x) o = true ->
  Forall (fun d => op_offset d <= o) done -> Forall (fun d => covers (span_of x) (op_offset d) = false) done ->
  match ends_span (map span_of (rw done (a ++ x :: b))) with Some sp => covers sp o | None => false end = true.
Proof.
  intros Hs Hw Hc Hle Hd. rewrite map_app in Hs, Hw. apply sorted_app in Hs. destruct Hs as (_ & Hb & Ha). cbn [map] in Hb, Ha. inversion Hb as [|? ? _ Hb2]; subst.
  apply Forall_app in Hw. destruct Hw as [Wa Wb]. cbn [map] in Wb. apply covers_iff in Hc.
  assert (E : map span_of (rw done (a ++ x :: b)) = map span_of (rw done a) ++ span_of x :: map span_of (rw done b)).
  { rewrite !rw_map, map_app, map_app. cbn [map]. rewrite (rw1_none done x Hd). reflexivity. }
  rewrite E. 
  assert (H1 : Forall (fun sp => sp_start sp <= o) (map span_of (rw done a))).
  { rewrite rw_map, map_map, Forall_map. rewrite Forall_map in Ha, Wa. rewrite Forall_forall in *. intros z Hz. specialize (Ha z Hz). apply Forall_inv in Ha. specialize (Wa z Hz). unfold before, wide in *.
    destruct (rw1_span done z) as [->|[F _]]; lia. }
  assert (H2 : Forall (fun sp => o < sp_end sp) (map span_of (rw done b))).
  { rewrite rw_map, map_map, Forall_map. rewrite Forall_map in Hb2. inversion Wb as [|? ? _ Wb']; subst. rewrite Forall_map in Wb'. rewrite Forall_forall in *. intros z Hz. specialize (Hb2 z Hz). specialize (Wb' z Hz). cbn in Hb2. unfold before, wide in *.
    rewrite rw1_none; [lia|]. apply Forall_forall. intros d D. specialize (Hle d D). apply covers_not. lia. }
  destruct (map span_of (rw done a) ++ span_of x :: map span_of (rw done b)) as [|f r] eqn:Q; [destruct (map span_of (rw done a)); discriminate|]. cbn [ends_span]. apply covers_iff. cbn [sp_start sp_end]. split.
  - destruct (map span_of (rw done a)) as [|g r'] eqn:Qa; cbn in Q; injection Q as <- <-; [lia|]. apply Forall_inv in H1. exact H1.
  - rewrite <- Q. rewrite last_app by discriminate. destruct (map span_of (rw done b)) as [|g r'] eqn:Qb; [cbn; lia|].
    rewrite Forall_forall in H2. apply H2. change (span_of x :: g :: r') with ([span_of x] ++ g :: r'). rewrite last_app by discriminate. apply last_in. discriminate.
Qed.
End Items.

(* ---- the sections ---- *)
Lemma update_sections_app o new n pre s post s' old added : Forall (fun t => section_covers o t = false) pre -> section_covers o s = true ->
  update_section s o new n = Good (s', old, added) -> update_sections (pre ++ s :: post) o new n = Good (pre ++ s' :: post, old, added).
Proof. induction 1 as [|t pre Ht _ IH]; intros Hs E; cbn [app update_sections]; [rewrite Hs, E; reflexivity|]. rewrite Ht, IH by assumption. reflexivity. Qed.
Lemma update_sections_inv o new n l l' old added : update_sections l o new n = Good (l', old, added) ->
  exists pre s post s', l = pre ++ s :: post /\ l' = pre ++ s' :: post /\ section_covers o s = true /\ Forall (fun t => section_covers o t = false) pre /\ update_section s o new n = Good (s', old, added).
Proof.
  revert l'. induction l as [|t l IH]; intros l'; cbn [update_sections]; [discriminate|]. destruct (section_covers o t) eqn:E.
  - destruct (update_section t o new n) as [[[s' c] b]|e] eqn:U; [|discriminate]. intros H. injection H as <- <- <-. exists [], t, l, s'. auto.
  - destruct (update_sections l o new n) as [[[r c] b]|e]; [|discriminate]. intros H. injection H as <- <- <-. destruct (IH _ eq_refl) as (pre & s & post & s' & -> & -> & C & F & U). exists (t :: pre), s, post, s'. repeat split; auto.
Qed.
Lemma auto_sections sc l line n : parse_line_auto (set_sections sc l) line n = parse_line_auto sc line n.
Proof. reflexivity. Qed.
Lemma span_items s : section_span s = ends_span (item_spans s) \/ exists f sp, s = SInfo f sp.
Proof. destruct s; cbn; eauto. Qed.
Lemma rewrite_before sc done s o : Forall (fun sp => sp_end sp <= o) (item_spans s) -> section_covers o (rewrite_section sc done s) = false.
Proof.
  unfold section_covers. destruct s as [f sp|l|l|l|l]; cbn [rewrite_section section_span item_spans]; intros H.
  - apply Forall_inv in H. apply covers_not. lia.
  - apply rw_before; [apply new_style_fresh|]. rewrite Forall_map in H. exact H.
  - apply rw_before; [apply new_event_fresh|]. rewrite Forall_map in H. exact H.
  - destruct (map m_span l) as [|f r] eqn:E; [reflexivity|]. cbn [ends_span]. apply covers_not. cbn [sp_end sp_start]. rewrite Forall_forall in H. specialize (H _ (last_in (f :: r) f ltac:(discriminate))). lia.
  - destruct (map m_span l) as [|f r] eqn:E; [reflexivity|]. cbn [ends_span]. apply covers_not. cbn [sp_end sp_start]. rewrite Forall_forall in H. specialize (H _ (last_in (f :: r) f ltac:(discriminate))). lia.
Qed.
Lemma rewrite_untouched sc done op s : Forall (fun sp => covers sp (op_offset op) = false) (item_spans s) -> rewrite_section sc (done ++ [op]) s = rewrite_section sc done s.
Proof.
  destruct s as [f sp|l|l|l|l]; cbn [rewrite_section item_spans]; try reflexivity; intros H; rewrite Forall_map in H; f_equal; apply rw_snoc; exact H.
Qed.
Lemma flat_spans_app a s b : flat_map item_spans (a ++ s :: b) = flat_map item_spans a ++ item_spans s ++ flat_map item_spans b.
Proof. rewrite flat_map_app. reflexivity. Qed.
Lemma in_spans {A} (f : A -> span) x l : In x l -> In (f x) (map f l). Proof. apply in_map. Qed.

(* one step of an ascending batch *)
Lemma batch_step sc ct done op : laid_out (sc_sections sc) -> names_line sc op ->
  Forall (fun d => op_offset d <= op_offset op) done ->
  Forall (fun d => forall sp, In sp (flat_map item_spans (sc_sections sc)) -> covers sp (op_offset d) = true -> covers sp (op_offset op) = true -> False) done ->
  exists ct' old, update_line (EScript (set_sections sc (map (rewrite_section sc done) (sc_sections sc))) ct) op =
    (EScript (set_sections sc (map (rewrite_section sc (done ++ [op])) (sc_sections sc))) ct', Good old).
Proof.
  intros [Hs Hw] Hn Hle Hd.
  assert (G : forall pre s post new, sc_sections sc = pre ++ s :: post ->
    (exists sp, In sp (item_spans s) /\ covers sp (op_offset op) = true) ->
    section_covers (op_offset op) (rewrite_section sc done s) = true ->
    (exists t, parse_line_auto sc (op_line op) (op_number op) = Good (t, new)) ->
    (exists old, update_section (rewrite_section sc done s) (op_offset op) new (op_number op) = Good (rewrite_section sc (done ++ [op]) s, old, false)) ->
    exists ct' old, update_line (EScript (set_sections sc (map (rewrite_section sc done) (sc_sections sc))) ct) op =
    (EScript (set_sections sc (map (rewrite_section sc (done ++ [op])) (sc_sections sc))) ct', Good old)).
  { intros pre s post new E (sp & Hsp & Hc) Hcov (t & Hp) (old & Hu). 
    assert (Hs' := Hs). rewrite E, flat_spans_app in Hs'. apply sorted_app in Hs'. destruct Hs' as (_ & Hs2 & Hs1). apply sorted_app in Hs2. destruct Hs2 as (_ & _ & Hs3).
    apply covers_iff in Hc.
    assert (Fpre : Forall (fun q => sp_end q <= op_offset op) (flat_map item_spans pre)).
    { rewrite Forall_forall in Hs1 |- *. intros q Hq. specialize (Hs1 q Hq). rewrite Forall_forall in Hs1. specialize (Hs1 sp (in_or_app _ _ _ (or_introl Hsp))). lia. }
    assert (Fpost : Forall (fun q => op_offset op < sp_start q) (flat_map item_spans post)).
    { rewrite Forall_forall in Hs3. specialize (Hs3 sp Hsp). eapply Forall_impl; [|exact Hs3]. cbn. intros q Hq. lia. }
    assert (Dpre : forall r, In r pre -> Forall (fun q => sp_end q <= op_offset op) (item_spans r)).
    { intros r Hr. rewrite Forall_forall in Fpre |- *. intros q Hq. apply Fpre. apply in_flat_map. eauto. }
    assert (Dpost : forall r, In r post -> Forall (fun q => op_offset op < sp_start q) (item_spans r)).
    { intros r Hr. rewrite Forall_forall in Fpost |- *. intros q Hq. apply Fpost. apply in_flat_map. eauto. }
    assert (Npre : Forall (fun r => section_covers (op_offset op) r = false) (map (rewrite_section sc done) pre)).
    { apply Forall_map, Forall_forall. intros r Hr. apply rewrite_before, Dpre, Hr. }
    assert (Upre : map (rewrite_section sc (done ++ [op])) pre = map (rewrite_section sc done) pre).
    { apply map_ext_in. intros r Hr. apply rewrite_untouched. eapply Forall_impl; [|exact (Dpre r Hr)]. cbn. intros q Hq. apply covers_not. lia. }
    assert (Upost : map (rewrite_section sc (done ++ [op])) post = map (rewrite_section sc done) post).
    { apply map_ext_in. intros r Hr. apply rewrite_untouched. eapply Forall_impl; [|exact (Dpost r Hr)]. cbn. intros q Hq. apply covers_not. lia. }
    unfold update_line. unfold es_sections at 1. cbn [es_script set_sections sc_sections].
    assert (Ex : existsb (section_covers (op_offset op)) (map (rewrite_section sc done) (sc_sections sc)) = true).
    { apply existsb_exists. exists (rewrite_section sc done s). split; [apply in_map; rewrite E; apply in_or_app; right; left; reflexivity|exact Hcov]. }
    rewrite Ex. cbn [negb]. change (es_script (EScript (set_sections sc (map (rewrite_section sc done) (sc_sections sc))) ct)) with (set_sections sc (map (rewrite_section sc done) (sc_sections sc))).
    rewrite auto_sections, Hp. unfold es_sections. cbn [es_script set_sections sc_sections]. rewrite E, !map_app. cbn [map]. rewrite (update_sections_app _ _ _ _ _ _ _ _ _ Npre Hcov Hu).
    rewrite Upre, Upost. unfold with_sections. cbn [es_script es_tracker set_sections sc_version sc_issues sc_styles_format sc_events_format].
    destruct old as [o1|o1|k [|v vs]]; cbn [record es_script es_tracker]; do 2 eexists; reflexivity. }
  assert (Din : forall s x (f : span), In s (sc_sections sc) -> In f (item_spans s) -> covers f (op_offset op) = true -> x = f -> Forall (fun d => covers x (op_offset d) = false) done).
  { intros s x f Hin Hf Hc ->. eapply Forall_impl; [|exact Hd]. cbn. intros d Q. destruct (covers f (op_offset d)) eqn:Ec; [|reflexivity]. exfalso. apply (Q f); auto. apply in_flat_map. eauto. }
  destruct Hn as [(l & x & y & Hin & Hx & Hc & Hy)|(l & x & y & Hin & Hx & Hc & Hy)].
  - pose proof (Din _ (s_span x) (s_span x) Hin (in_spans s_span x l Hx) Hc eq_refl) as Hdx.
    assert (Hin' := Hin). apply in_split in Hin. destruct Hin as (pre & post & E). apply in_split in Hx. destruct Hx as (a & b & El).
    assert (Hsl : StronglySorted before (map s_span l) /\ Forall wide (map s_span l)).
    { rewrite E, flat_spans_app in Hs, Hw. apply sorted_app in Hs. destruct Hs as (_ & Hs & _). apply sorted_app in Hs. apply Forall_app in Hw. destruct Hw as [_ Hw]. apply Forall_app in Hw. split; [apply Hs|apply Hw]. }
    destruct Hsl as [Hsl Hwl]. rewrite El in Hsl, Hwl. subst l.
    apply (G pre (SStyles (a ++ x :: b)) post (LStyle y) E).
    + exists (s_span x). split; [|exact Hc]. cbn [item_spans]. apply in_spans, in_or_app. right. left. reflexivity.
    + unfold section_covers. cbn [rewrite_section section_span]. apply rw_target; auto. exact (new_style_fresh sc).
    + unfold new_style in Hy. destruct (parse_line_auto sc (op_line op) (op_number op)) as [[t [z|z|k v]]|e]; try discriminate. injection Hy as ->. eauto.
    + exists (LStyle x). cbn [rewrite_section update_section]. rewrite (rw_step s_span (new_style sc) (new_style_fresh sc) a x b done op y); auto.
  - pose proof (Din _ (e_span x) (e_span x) Hin (in_spans e_span x l Hx) Hc eq_refl) as Hdx.
    assert (Hin' := Hin). apply in_split in Hin. destruct Hin as (pre & post & E). apply in_split in Hx. destruct Hx as (a & b & El).
    assert (Hsl : StronglySorted before (map e_span l) /\ Forall wide (map e_span l)).
    { rewrite E, flat_spans_app in Hs, Hw. apply sorted_app in Hs. destruct Hs as (_ & Hs & _). apply sorted_app in Hs. apply Forall_app in Hw. destruct Hw as [_ Hw]. apply Forall_app in Hw. split; [apply Hs|apply Hw]. }
    destruct Hsl as [Hsl Hwl]. rewrite El in Hsl, Hwl. subst l.
    apply (G pre (SEvents (a ++ x :: b)) post (LEvent y) E).
    + exists (e_span x). split; [|exact Hc]. cbn [item_spans]. apply in_spans, in_or_app. right. left. reflexivity.
    + unfold section_covers. cbn [rewrite_section section_span]. apply rw_target; auto. exact (new_event_fresh sc).
    + unfold new_event in Hy. destruct (parse_line_auto sc (op_line op) (op_number op)) as [[t [z|z|k v]]|e]; try discriminate. injection Hy as ->. eauto.
    + exists (LEvent x). cbn [rewrite_section update_section]. rewrite (rw_step e_span (new_event sc) (new_event_fresh sc) a x b done op y); auto.
Qed.
Definition clash (sc : script) (a b : update_op) : Prop :=
  forall sp, In sp (flat_map item_spans (sc_sections sc)) -> covers sp (op_offset a) = true -> covers sp (op_offset b) = true -> False.
Lemma run_batch_exact sc ops : forall done ct, laid_out (sc_sections sc) -> Forall (names_line sc) ops ->
  StronglySorted (fun a b => op_offset a <= op_offset b) (done ++ ops) -> ForallOrdPairs (clash sc) (done ++ ops) ->
  exists ct' u, run_batch (EScript (set_sections sc (map (rewrite_section sc done) (sc_sections sc))) ct) ops =
    (EScript (set_sections sc (map (rewrite_section sc (done ++ ops)) (sc_sections sc))) ct', Batch u []) /\ map fst u = map op_offset ops.
Proof.
  induction ops as [|op ops IH]; intros done ct Hl Hn Hs Hd.
  - rewrite app_nil_r. exists ct, []. split; reflexivity.
  - assert (P : forall (R : update_op -> update_op -> Prop) a b c, ForallOrdPairs R (a ++ b :: c) -> Forall (fun x => R x b) a).
    { clear. induction a as [|x a IH]; intros b c H; [constructor|]. cbn in H. inversion H as [|? ? H1 H2]; subst. constructor; [|eapply IH, H2]. apply Forall_app in H1. destruct H1 as [_ H1]. apply (Forall_inv H1). }
    assert (Q : Forall (fun d => op_offset d <= op_offset op) done).
    { apply sorted_app in Hs. destruct Hs as (_ & _ & Hs). eapply Forall_impl; [|exact Hs]. cbn. intros a Ha. apply (Forall_inv Ha). }
    destruct (batch_step sc ct done op Hl (Forall_inv Hn) Q (P _ _ _ _ Hd)) as (ct' & old & E). cbn [run_batch]. rewrite E.
    replace (done ++ op :: ops) with ((done ++ [op]) ++ ops) in * by (rewrite <- app_assoc; reflexivity).
    destruct (IH (done ++ [op]) ct' Hl (Forall_inv_tail Hn) Hs Hd) as (ct2 & u & E2 & Hu). rewrite E2. exists ct2, ((op_offset op, old) :: u). split; [reflexivity|]. cbn [map fst]. rewrite Hu. reflexivity.
Qed.
Lemma insert_perm op l : Permutation (insert_op op l) (op :: l).
Proof. induction l as [|x l IH]; cbn; [reflexivity|]. destruct (_ <=? _); [reflexivity|]. rewrite IH. apply perm_swap. Qed.
Lemma sort_perm l : Permutation (sort_ops l) l.
Proof. induction l as [|x l IH]; cbn; [reflexivity|]. rewrite insert_perm, IH. reflexivity. Qed.
Lemma insert_sorted op l : StronglySorted (fun a b => op_offset a <= op_offset b) l -> StronglySorted (fun a b => op_offset a <= op_offset b) (insert_op op l).
Proof.
  induction 1 as [|x l Hs IH Hx]; cbn; [repeat constructor|]. destruct (op_offset op <=? op_offset x) eqn:E.
  - apply Nat.leb_le in E. constructor; [constructor; assumption|]. constructor; [exact E|]. eapply Forall_impl; [|exact Hx]. cbn. lia.
  - apply Nat.leb_gt in E. constructor; [exact IH|]. rewrite Forall_forall in *. intros z Hz. apply (Permutation_in _ (insert_perm op l)) in Hz. destruct Hz as [<-|Hz]; [lia|auto].
Qed.
Lemma sort_sorted l : StronglySorted (fun a b => op_offset a <= op_offset b) (sort_ops l).
Proof. induction l as [|x l IH]; cbn; [constructor|]. apply insert_sorted, IH. Qed.
Lemma pairs_perm {A} (R : A -> A -> Prop) : (forall a b, R a b -> R b a) -> forall l l', Permutation l l' -> ForallOrdPairs R l -> ForallOrdPairs R l'.
Proof.
  intros Sy l l' P. induction P as [|x l l' P IH|x y l|l1 l2 l3 P1 I1 P2 I2]; intros H; auto.
  - inversion H as [|? ? H1 H2]; subst. constructor; [|auto]. eapply Permutation_Forall; eassumption.
  - inversion H as [|? ? H1 H2]; subst. inversion H2 as [|? ? H3 H4]; subst. inversion H1; subst. constructor; [constructor; auto|]. constructor; auto.
Qed.
Lemma clash_sym sc a b : clash sc a b -> clash sc b a.
Proof. intros H sp Hi H1 H2. exact (H sp Hi H2 H1). Qed.
Lemma find_unique {A} (p : A -> bool) l l' : Permutation l l' -> ForallOrdPairs (fun a b => ~ (p a = true /\ p b = true)) l -> find p l = find p l'.
Proof.
  intros P. induction P as [|x l l' P IH|x y l|l1 l2 l3 P1 I1 P2 I2]; intros H; [reflexivity| | |].
  - inversion H; subst. cbn. rewrite IH by assumption. reflexivity.
  - inversion H as [|? ? H1 H2]; subst. apply Forall_inv in H1. cbn. destruct (p x) eqn:Ex, (p y) eqn:Ey; tauto || reflexivity.
  - rewrite I1 by exact H. apply I2. eapply pairs_perm; [|exact P1|exact H]. intros a b K1 [K2 K3]. tauto.
Qed.
Lemma pairs_impl {A} (R S : A -> A -> Prop) l : (forall a b, R a b -> S a b) -> ForallOrdPairs R l -> ForallOrdPairs S l.
Proof. intros H. induction 1 as [|x l H1 _ IH]; constructor; auto. eapply Forall_impl; [|exact H1]. auto. Qed.
Lemma rewrite_perm sc a b s : Permutation a b -> ForallOrdPairs (clash sc) a -> In s (sc_sections sc) -> rewrite_section sc a s = rewrite_section sc b s.
Proof.
  intros P H Hs. assert (K : forall sp, In sp (item_spans s) -> find (fun op => covers sp (op_offset op)) a = find (fun op => covers sp (op_offset op)) b).
  { intros sp Hsp. apply find_unique; [exact P|]. eapply pairs_impl; [|exact H]. intros x y C [C1 C2]. apply (C sp); auto. apply in_flat_map. eauto. }
  destruct s as [f sp|l|l|l|l]; cbn [rewrite_section item_spans] in *; try reflexivity; f_equal; apply map_ext_in; intros x Hx; rewrite K by (apply in_map, Hx); reflexivity.
Qed.
Lemma rewrite_nil sc l : map (rewrite_section sc []) l = l.
Proof. rewrite <- (map_id l) at 2. apply map_ext. intros [f sp|m|m|m|m]; cbn [rewrite_section]; try reflexivity; f_equal; unfold rewrite_items; cbn [find]; apply map_id. Qed.
Lemma set_sections_same sc : set_sections sc (sc_sections sc) = sc. Proof. destruct sc; reflexivity. Qed.
Lemma batch_exact d ops : let sc := es_script d in laid_out (sc_sections sc) -> Forall (names_line sc) ops -> name_distinct sc ops ->
  exists d' u, batch_update_lines d ops = (d', Batch u []) /\ es_script d' = set_sections sc (map (rewrite_section sc ops) (sc_sections sc)) /\ Permutation (map fst u) (map op_offset ops).
Proof.
  intros sc Hl Hn Hd. destruct d as [sc0 ct]. cbn [es_script] in sc. subst sc.
  pose proof (sort_perm ops) as P. assert (Hd' : ForallOrdPairs (clash sc0) (sort_ops ops)).
  { eapply pairs_perm; [apply clash_sym|symmetry; exact P|exact Hd]. }
  destruct (run_batch_exact sc0 (sort_ops ops) [] ct Hl) as (ct' & u & E & U).
  { eapply Permutation_Forall; [symmetry; exact P|exact Hn]. } { apply sort_sorted. } { exact Hd'. }
  rewrite rewrite_nil, set_sections_same in E. cbn [app] in E. unfold batch_update_lines. rewrite E. do 2 eexists. split; [reflexivity|]. split.
  - cbn [es_script]. f_equal. apply map_ext_in. intros s Hs. apply rewrite_perm; assumption.
  - rewrite U. apply Permutation_map, P.
Qed.
