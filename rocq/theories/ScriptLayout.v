(* The lines of a parsed script lie in the order of the text. *)
From Verif Require Import Base BaseLemmas ParseModel ParseSpec ParseLines ParseMain ParseProofs ScriptModel ScriptSpec ScriptProofs.
From Coq Require Import Lia.

Lemma take_drop l : indent l ++ content l = l.
Proof. unfold indent, content. induction l as [|c l IH]; [reflexivity|]. cbn [take_while drop_while]. destruct (blank c); [cbn [app]; rewrite IH; reflexivity|reflexivity]. Qed.
Section Layout.
Context (src : str).
Definition ordered (ls : list (str * str)) : Prop :=
  StronglySorted (fun x y : str * str => blen (fst x ++ snd x) <= blen (fst y)) ls /\
  Forall (fun x : str * str => blen (fst x ++ snd x) <= blen src) ls.
Definition between (lo hi : nat) (l : list span) : Prop :=
  StronglySorted (fun a b => sp_end a <= sp_start b) l /\ Forall (fun sp => lo <= sp_start sp <= sp_end sp /\ sp_end sp <= hi) l.

Lemma ordered_tail x ls : ordered (x :: ls) -> ordered ls.
Proof. intros [H1 H2]. split; [inversion H1; assumption|exact (Forall_inv_tail H2)]. Qed.
Lemma ordered_lower x ls : ordered (x :: ls) -> blen (fst x ++ snd x) <= lower src ls.
Proof.
  intros [H1 H2]. inversion H1 as [|? ? _ H3]; subst. destruct ls as [|[p l] ls]; [exact (Forall_inv H2)|]. exact (Forall_inv H3).
Qed.
Lemma lower_mono x ls : ordered (x :: ls) -> lower src (x :: ls) <= lower src ls.
Proof. intros H. pose proof (ordered_lower x ls H) as L. destruct x as [p l]. cbn [lower fst snd] in *. rewrite blen_app in L. lia. Qed.
Lemma lower_src ls : ordered ls -> lower src ls <= blen src.
Proof. intros [_ H]. destruct ls as [|[p l] ls]; [reflexivity|]. apply Forall_inv in H. cbn [fst snd lower] in *. rewrite blen_app in H. lia. Qed.
Lemma sections_ordered ls : ordered ls -> Forall (fun x => ordered (snd x) /\ lower src ls <= lower src (snd x)) (sections_in ls).
Proof.
  induction ls as [|[p l] ls IH]; intros H; cbn [sections_in]; [constructor|]. pose proof (lower_mono _ _ H) as L. specialize (IH (ordered_tail _ _ H)).
  assert (K : Forall (fun x => ordered (snd x) /\ lower src ((p, l) :: ls) <= lower src (snd x)) (sections_in ls)). { eapply Forall_impl; [|exact IH]. cbn beta. intros x [A B]. split; [exact A|lia]. }
  destruct (header_line l); [|exact K]. constructor; [|exact K]. cbn [snd]. split; [exact (ordered_tail _ _ H)|exact L].
Qed.
Lemma next_le ls : ordered ls -> next_lower src ls <= blen src.
Proof. intros H. unfold next_lower. pose proof (sections_ordered ls H) as K. destruct (sections_in ls) as [|[n r] q]; [reflexivity|]. apply Forall_inv in K. apply lower_src, K. Qed.
Lemma sections_chain ls : ordered ls -> StronglySorted (fun x y => next_lower src (snd x) <= lower src (snd y)) (sections_in ls).
Proof.
  induction ls as [|[p l] ls IH]; intros H; cbn [sections_in]; [constructor|]. specialize (IH (ordered_tail _ _ H)). destruct (header_line l); [|exact IH].
  constructor; [exact IH|]. cbn [snd]. unfold next_lower. destruct (sections_in ls) as [|[n r] q] eqn:E; [constructor|]. constructor; [reflexivity|].
  cbn [snd]. pose proof (sections_ordered ls (ordered_tail _ _ H)) as K. rewrite E in K. apply Forall_inv in K. destruct K as [Kr _]. cbn [snd] in Kr.
  assert (Q : q = sections_in r). { clear - E. induction ls as [|[p l] ls IH]; cbn [sections_in] in E; [discriminate|]. destruct (header_line l); [injection E as <- <- <-; reflexivity|auto]. }
  subst q. eapply Forall_impl; [|exact (sections_ordered r Kr)]. cbn beta. intros x [_ B]. exact B.
Qed.

Lemma between_mono lo hi lo' hi' l : lo' <= lo -> hi <= hi' -> between lo hi l -> between lo' hi' l.
Proof. intros A B [H1 H2]. split; [exact H1|]. eapply Forall_impl; [|exact H2]. cbn beta. intros sp H. lia. Qed.
Lemma between_nil lo hi : between lo hi []. Proof. split; constructor. Qed.
Lemma between_cons lo hi sp l : lo <= sp_start sp <= sp_end sp -> sp_end sp <= hi -> between (sp_end sp) hi l -> between lo hi (sp :: l).
Proof.
  intros A B [H1 H2]. split; constructor; try assumption.
  - eapply Forall_impl; [|exact H2]. cbn beta. lia.
  - lia.
  - eapply Forall_impl; [|exact H2]. cbn beta. lia.
Qed.
Lemma body_next ls : ordered ls -> Forall (fun x => blen (fst x ++ snd x) <= next_lower src ls) (body ls).
Proof.
  induction ls as [|[p l] ls IH]; intros H; cbn [body]; [constructor|]. unfold next_lower. cbn [sections_in]. destruct (header_line l); [constructor|]. fold (next_lower src ls).
  constructor; [|apply IH; exact (ordered_tail _ _ H)]. pose proof (ordered_lower _ _ H) as L. unfold next_lower. pose proof (sections_ordered ls (ordered_tail _ _ H)) as K. destruct (sections_in ls) as [|[n r] q]; [exact (Forall_inv (proj2 H))|].
  apply Forall_inv in K. cbn [snd] in K. lia.
Qed.
Lemma line_span_wide miss p l : blen p <= sp_start (line_span miss p l) <= sp_end (line_span miss p l) /\ sp_end (line_span miss p l) = blen (p ++ l).
Proof. unfold line_span. cbn [sp_start sp_end]. rewrite !blen_app. assert (blen (indent l) <= blen l) by (rewrite <- (@take_drop l) at 2; rewrite blen_app; lia). lia. Qed.

Lemma style_span_set s sp : s_span (set_style_span s sp) = sp. Proof. reflexivity. Qed.
Lemma event_span_set s sp : e_span (set_event_span s sp) = sp. Proof. reflexivity. Qed.
Lemma low_step lo p l b : StronglySorted (fun x y : str * str => blen (fst x ++ snd x) <= blen (fst y)) ((p, l) :: b) -> Forall (fun x : str * str => blen (p ++ l) <= blen (fst x)) b /\
  (Forall (fun x : str * str => lo <= blen (fst x)) ((p, l) :: b) -> lo <= blen p).
Proof. intros H. split; [inversion H; assumption|]. intros K. exact (Forall_inv K). Qed.
Lemma styles_between miss hi b : forall lo f, StronglySorted (fun x y : str * str => blen (fst x ++ snd x) <= blen (fst y)) b -> Forall (fun x => lo <= blen (fst x)) b -> Forall (fun x => blen (fst x ++ snd x) <= hi) b ->
  between lo hi (map s_span (fst (styles_in miss f b))).
Proof.
  induction b as [|[p l] b IH]; intros lo f Hs Hl Hh; [apply between_nil|]. cbn [styles_in].
  pose proof (Forall_inv_tail Hl) as Hl'. pose proof (Forall_inv_tail Hh) as Hh'. assert (Hs' := Hs). inversion Hs' as [|? ? Hs1 Hs2]; subst.
  destruct (format_of (trim l)); [apply IH; assumption|]. destruct (styles_in miss f b) as [ss f'] eqn:E.
  assert (K : between lo hi (map s_span ss)) by (specialize (IH lo f Hs1 Hl' Hh'); rewrite E in IH; exact IH).
  destruct (strip_prefix _ _) as [d|]; [|exact K]. destruct (parse_style_line _ _ _) as [s| |]; try exact K. cbn [fst map]. rewrite style_span_set.
  pose proof (line_span_wide miss p l) as W. apply Forall_inv in Hl, Hh. cbn [fst snd] in *. apply between_cons; [lia|lia|]. destruct W as [_ W]. rewrite W.
  specialize (IH (blen (p ++ l)) f Hs1 Hs2 Hh'). rewrite E in IH. exact IH.
Qed.
Lemma events_between miss hi b : forall lo f, StronglySorted (fun x y : str * str => blen (fst x ++ snd x) <= blen (fst y)) b -> Forall (fun x => lo <= blen (fst x)) b -> Forall (fun x => blen (fst x ++ snd x) <= hi) b ->
  between lo hi (map e_span (fst (events_in miss f b))).
Proof.
  induction b as [|[p l] b IH]; intros lo f Hs Hl Hh; [apply between_nil|]. cbn [events_in].
  pose proof (Forall_inv_tail Hl) as Hl'. pose proof (Forall_inv_tail Hh) as Hh'. assert (Hs' := Hs). inversion Hs' as [|? ? Hs1 Hs2]; subst.
  destruct (format_of (trim l)); [apply IH; assumption|]. destruct (events_in miss f b) as [ss f'] eqn:E.
  assert (K : between lo hi (map e_span ss)) by (specialize (IH lo f Hs1 Hl' Hh'); rewrite E in IH; exact IH).
  destruct (parse_event_line _ _ _) as [s| |]; try exact K. cbn [fst map]. rewrite event_span_set.
  pose proof (line_span_wide miss p l) as W. apply Forall_inv in Hl, Hh. cbn [fst snd] in *. apply between_cons; [lia|lia|]. destruct W as [_ W]. rewrite W.
  specialize (IH (blen (p ++ l)) f Hs1 Hs2 Hh'). rewrite E in IH. exact IH.
Qed.
Lemma next_skip p l ls : header_line l = false -> next_lower src ((p, l) :: ls) = next_lower src ls.
Proof. intros H. unfold next_lower. cbn [sections_in]. rewrite H. reflexivity. Qed.
Lemma lower_next ls : ordered ls -> lower src ls <= next_lower src ls.
Proof. intros H. unfold next_lower. pose proof (sections_ordered ls H) as K. destruct (sections_in ls) as [|[n r] q]; [apply lower_src, H|]. apply Forall_inv in K. apply K. Qed.
Lemma media_between miss key ls : forall lo cur, ordered ls -> lo <= lower src ls -> match cur with Some (q, _, _) => lo <= blen q <= lower src ls | None => True end ->
  between lo (next_lower src ls) (map m_span (media_in miss key (blen src) cur ls)).
Proof.
  assert (C : forall lo hi stop cur, stop <= hi -> match cur with Some (q, _, _) => lo <= blen q <= stop | None => True end -> between lo hi (map m_span (close_entry miss cur stop))).
  { intros lo hi stop [[[q n] d]|] H1 H2; [|apply between_nil]. cbn [close_entry map m_span]. apply between_cons; cbn [sp_start sp_end]; [lia|lia|apply between_nil]. }
  induction ls as [|[p l] ls IH]; intros lo cur Ho Hlo Hc; [apply C; [reflexivity|exact Hc]|]. cbn [media_in]. pose proof (ordered_tail _ _ Ho) as Ho'. pose proof (ordered_lower _ _ Ho) as Hl. cbn [fst snd] in Hl. rewrite blen_app in Hl.
  pose proof (lower_next _ Ho) as Hn. cbn [lower] in Hlo, Hc, Hn.
  destruct (header_line l) eqn:Eh; [apply C; [exact Hn|exact Hc]|]. rewrite next_skip in * by exact Eh.
  assert (N : forall cur', match cur' with Some (q, _, _) => lo <= blen q <= lower src ls | None => True end -> between lo (next_lower src ls) (map m_span (media_in miss key (blen src) cur' ls))) by (intros; apply IH; [exact Ho'|lia|assumption]).
  destruct cur as [[[q n] d]|].
  - destruct (ends_data l).
    + rewrite map_app. cbn [close_entry map app m_span]. apply between_cons; cbn [sp_start sp_end]; [lia|lia|]. apply IH; [exact Ho'|lia|exact I].
    + destruct (_ || _); apply N; lia.
  - destruct (_ || _); [apply N; exact I|]. destruct (find_char _ _) as [[k [|c v]]|]; [apply N; exact I| |apply N; exact I]. destruct (str_eqb _ _); apply N; [|exact I].
    rewrite blen_app. assert (blen (indent l) <= blen l) by (rewrite <- (@take_drop l) at 2; rewrite blen_app; lia). lia.
Qed.
Lemma body_sorted ls : ordered ls -> StronglySorted (fun x y : str * str => blen (fst x ++ snd x) <= blen (fst y)) (body ls).
Proof.
  intros [H _]. induction H as [|[p l] ls Hs IH Hf]; cbn [body]; [constructor|]. destruct (header_line l); constructor; [exact IH|].
  clear - Hf. induction Hf as [|[q m] ls H _ IH]; cbn [body]; [constructor|]. destruct (header_line m); constructor; assumption.
Qed.
Lemma body_lower ls : ordered ls -> Forall (fun x => lower src ls <= blen (fst x)) (body ls).
Proof.
  induction ls as [|[p l] ls IH]; intros H; cbn [body]; [constructor|]. destruct (header_line l); constructor; [reflexivity|]. eapply Forall_impl; [|apply IH; exact (ordered_tail _ _ H)]. cbn beta. intros x Hx. pose proof (lower_mono _ _ H). lia.
Qed.
Lemma reads_between miss name ls s : ordered ls -> reads src miss name ls s -> between (lower src ls) (next_lower src ls) (item_spans s).
Proof.
  intros Ho. destruct s as [f sp|l|l|l|l]; cbn [reads item_spans].
  - intros (_ & _ & (a & m & b & _ & E1 & E2 & _) & E3 & E4). apply between_cons; [rewrite E2, blen_app; lia|exact E4|apply between_nil].
  - intros (_ & ->). apply styles_between; [apply body_sorted, Ho|apply body_lower, Ho|apply body_next, Ho].
  - intros (_ & ->). apply events_between; [apply body_sorted, Ho|apply body_lower, Ho|apply body_next, Ho].
  - intros (_ & ->). apply media_between; [exact Ho|reflexivity|exact I].
  - intros (_ & ->). apply media_between; [exact Ho|reflexivity|exact I].
Qed.
Lemma sorted_filter {A} (R : A -> A -> Prop) p l : StronglySorted R l -> StronglySorted R (filter p l).
Proof.
  induction 1 as [|x l _ IH H]; cbn [filter]; [constructor|]. destruct (p x); [|exact IH]. constructor; [exact IH|]. rewrite Forall_forall in *. intros y Hy. apply filter_In in Hy. apply H, Hy.
Qed.
Lemma chain_between L secs : StronglySorted (fun x y : str * list (str * str) => next_lower src (snd x) <= lower src (snd y)) L -> Forall (fun x => ordered (snd x)) L ->
  Forall2 (fun x s => exists miss, reads src miss (fst x) (snd x) s) L secs -> forall lo, Forall (fun x => lo <= lower src (snd x)) L -> between lo (blen src) (flat_map item_spans secs).
Proof.
  intros Hc Ho H. revert Hc Ho. induction H as [|x s L secs (miss & R) _ IH]; intros Hc Ho lo Hlo; [apply between_nil|]. inversion Hc as [|? ? Hc1 Hc2]; subst.
  specialize (IH Hc1 (Forall_inv_tail Ho) (next_lower src (snd x)) Hc2). pose proof (Forall_inv Ho) as Hx. apply reads_between in R; [|exact Hx]. apply Forall_inv in Hlo. cbn beta in *.
  cbn [flat_map]. destruct R as [R1 R2], IH as [I1 I2]. pose proof (next_le _ Hx) as Hn. pose proof (lower_next _ Hx) as Hln. split.
  - apply sorted_app. split; [exact R1|]. split; [exact I1|]. eapply Forall_impl; [|exact R2]. cbn beta. intros a Ha. eapply Forall_impl; [|exact I2]. cbn beta. intros b Hb. lia.
  - apply Forall_app. split; [eapply Forall_impl; [|exact R2]; cbn beta; intros; lia|eapply Forall_impl; [|exact I2]; cbn beta; intros; lia].
Qed.
End Layout.

Lemma located_ordered src T : forall p, blen p <= blen src -> (exists q, T <> [] -> src = p ++ join [10%N] T ++ q) -> ordered src (located p T).
Proof.
  induction T as [|l T IH]; intros p Hp (q & E); [split; constructor|]. specialize (E ltac:(discriminate)). cbn [located].
  assert (Hl : blen (p ++ l) <= blen src). { rewrite E. destruct T; cbn [join]; rewrite ?blen_app; lia. }
  destruct T as [|l' T]; [split; repeat constructor; exact Hl|].
  destruct (IH (p ++ l ++ [10%N])) as [I1 I2].
  { rewrite E. cbn [join]. rewrite !blen_app. lia. }
  { exists q. intros _. rewrite E. change (join [10%N] (l :: l' :: T)) with (l ++ [10%N] ++ join [10%N] (l' :: T)). rewrite <- !app_assoc. reflexivity. }
  split; [|constructor; [exact Hl|exact I2]]. constructor; [exact I1|]. cbn [fst snd].
  assert (G : forall U r, blen (p ++ l) <= blen r -> Forall (fun x : str * str => blen (p ++ l) <= blen (fst x)) (located r U)).
  { induction U as [|u U IHU]; intros r Hr; cbn [located]; constructor; [exact Hr|]. apply IHU. rewrite (blen_app r). lia. }
  apply G. rewrite !blen_app. lia.
Qed.
Lemma parse_laid_out reg src sc : small src -> headers_closed (source_lines src) = true -> parse_with reg src = Done sc -> laid_out (sc_sections sc).
Proof.
  intros Hs Hc E. destruct (parse_closed reg src sc Hs Hc E) as (H & _).
  assert (Ho : ordered src (source_lines src)).
  { unfold source_lines, lines_at. assert (Es : src = bom src ++ text src) by (destruct src as [|c r]; [reflexivity|]; unfold bom, text; destruct (c =? 65279)%N eqn:B; [apply N.eqb_eq in B; subst c; reflexivity|reflexivity]).
    apply located_ordered; [assert (L : blen src = blen (bom src) + blen (text src)) by (rewrite Es at 1; apply blen_app); lia|]. exists []. intros _. rewrite app_nil_r, join_split_on; [exact Es|]. intros x. unfold is_nl. apply N.eqb_eq. }
  assert (B : between 0 (blen src) (flat_map item_spans (sc_sections sc))).
  { eapply chain_between; [| |exact H|].
    - apply sorted_filter, sections_chain, Ho.
    - apply Forall_forall. intros x Hx. apply filter_In in Hx. pose proof (sections_ordered src _ Ho) as K. rewrite Forall_forall in K. apply K, Hx.
    - apply Forall_forall. intros. lia. }
  destruct B as [B1 B2]. split; [exact B1|]. eapply Forall_impl; [|exact B2]. cbn beta. lia.
Qed.
