(* parse_incremental on sources made of blocks gives what a fresh parse gives. *)
From Verif Require Import BaseLemmas ParseTracker ParseLines ParseProofs IncrSpec IncrProofs.

(* ---- lines of a text that ends in a newline ---- *)
Definition ended (l : list str) : str := flat_map (fun x => x ++ [10%N]) l.
Lemma located_app x y : forall p, located p (x ++ y) = located p x ++ located (p ++ ended x) y.
Proof.
  induction x as [|l x IH]; intros p; cbn [app located ended flat_map]; [rewrite app_nil_r; reflexivity|].
  fold (ended x). rewrite IH. rewrite <- !app_assoc. reflexivity.
Qed.
Lemma split_nl_app a b : split_on is_nl (a ++ 10%N :: b) = split_on is_nl a ++ split_on is_nl b.
Proof.
  induction a as [|c a IH]; [reflexivity|]. cbn [app split_on]. destruct (is_nl c); [rewrite IH; reflexivity|]. rewrite IH. destruct (split_on is_nl a) eqn:E; [exfalso; eapply split_on_nonempty; exact E|reflexivity].
Qed.
Lemma ended_split r : ended (split_on is_nl r) = r ++ [10%N].
Proof.
  induction r as [|c r IH]; [reflexivity|]. cbn [split_on]. destruct (is_nl c) eqn:E.
  - apply N.eqb_eq in E. subst c. cbn [ended flat_map app]. fold (ended (split_on is_nl r)). rewrite IH. reflexivity.
  - destruct (split_on is_nl r) eqn:F; [exfalso; eapply split_on_nonempty; exact F|]. cbn [ended flat_map] in *. cbn [app]. rewrite IH. reflexivity.
Qed.
Lemma map_snd_located p x : map snd (located p x) = x.
Proof. revert p. induction x as [|l x IH]; intros p; [reflexivity|]. cbn [located map snd]. rewrite IH. reflexivity. Qed.
Lemma lines_at_split p r T : lines_at p (r ++ 10%N :: T) = located p (split_on is_nl r) ++ lines_at (p ++ r ++ [10%N]) T.
Proof. unfold lines_at. rewrite split_nl_app, located_app, ended_split. reflexivity. Qed.

(* ---- readings depend on the texts of the lines only ---- *)
Definition text_of (X : list str) (l : list (str * str)) : Prop := map snd l = X \/ map snd l = X ++ [[]].
Lemma text_of_cons x X p l : text_of (x :: X) (p :: l) -> x = snd p /\ text_of X l.
Proof. intros [H|H]; cbn [map app] in H; injection H; intros; split; auto; [left|right]; auto. Qed.
Lemma text_of_nil l : text_of [] l -> l = [] \/ exists p, l = [(p, [])].
Proof. intros [H|H]; destruct l as [|[p x] [|q l]]; cbn in H; try discriminate; [left; reflexivity|]. injection H as ->. right. exists p. reflexivity. Qed.
Lemma text_of_head x X l : text_of (x :: X) l -> exists p l', l = (p, x) :: l' /\ text_of X l'.
Proof. destruct l as [|[p y] l]; [intros [H|H]; discriminate|]. intros H. apply text_of_cons in H. destruct H as [-> H]. exists p, l. auto. Qed.

Lemma info_alike X : forall l l', text_of X l -> text_of X l' -> info_fields l = info_fields l'.
Proof.
  induction X as [|x X IH]; intros l l' H H'.
  - apply text_of_nil in H, H'. destruct H as [->|(p & ->)], H' as [->|(q & ->)]; reflexivity.
  - apply text_of_head in H, H'. destruct H as (p & m & -> & H), H' as (q & m' & -> & H'). unfold info_fields. cbn [flat_map snd]. f_equal. apply IH; assumption.
Qed.
Lemma events_alike a b X : forall fmt l l', text_of X l -> text_of X l' ->
  map (fun x => set_event_span x here) (fst (events_in a fmt l)) = map (fun x => set_event_span x here) (fst (events_in b fmt l')).
Proof.
  induction X as [|x X IH]; intros fmt l l' H H'.
  - apply text_of_nil in H, H'. destruct H as [->|(p & ->)], H' as [->|(q & ->)]; reflexivity.
  - apply text_of_head in H, H'. destruct H as (p & m & -> & H), H' as (q & m' & -> & H'). cbn [events_in]. destruct (format_of (trim x)); [apply IH; assumption|].
    specialize (IH fmt _ _ H H'). destruct (events_in a fmt m), (events_in b fmt m'). destruct (parse_event_line (trim x) fmt 0); cbn [fst map] in *; try assumption. rewrite IH. reflexivity.
Qed.
Lemma styles_alike a b X : forall fmt l l', text_of X l -> text_of X l' ->
  map (fun x => set_style_span x here) (fst (styles_in a fmt l)) = map (fun x => set_style_span x here) (fst (styles_in b fmt l')).
Proof.
  induction X as [|x X IH]; intros fmt l l' H H'.
  - apply text_of_nil in H, H'. destruct H as [->|(p & ->)], H' as [->|(q & ->)]; reflexivity.
  - apply text_of_head in H, H'. destruct H as (p & m & -> & H), H' as (q & m' & -> & H'). cbn [styles_in]. destruct (format_of (trim x)); [apply IH; assumption|].
    specialize (IH fmt _ _ H H'). destruct (styles_in a fmt m), (styles_in b fmt m'). destruct (strip_prefix (lit "Style:") (trim x)) as [d|]; [|exact IH].
    destruct (parse_style_line (trim d) fmt 0); cbn [fst map] in *; try assumption. rewrite IH. reflexivity.
Qed.
Definition cur_alike (c c' : option (str * str * list str)) : Prop :=
  match c, c' with Some (_, n, d), Some (_, n', d') => n = n' /\ d = d' | None, None => True | _, _ => False end.
Lemma close_alike a b c c' s s' : cur_alike c c' -> map bare_media (close_entry a c s) = map bare_media (close_entry b c' s').
Proof. destruct c as [[[p n] d]|], c' as [[[p' n'] d']|]; cbn; intros H; try contradiction; [destruct H as [-> ->]; reflexivity|reflexivity]. Qed.
Lemma media_body a key fin : forall ls cur, exists fin', media_in a key fin cur ls = media_in a key fin' cur (body ls).
Proof.
  induction ls as [|[p l] ls IH]; intros cur; [exists fin; reflexivity|]. cbn [body media_in]. destruct (header_line l) eqn:E; [exists (blen p); destruct cur as [[[q n] d]|]; reflexivity|].
  cbn [media_in]. rewrite E. destruct cur as [[[q n] d]|].
  - destruct (ends_data l). { destruct (IH None) as (f & ->). exists f. reflexivity. } destruct (_ || _); apply IH.
  - destruct (_ || _); [apply IH|]. destruct (find_char is_colon (content l)) as [[k [|c v]]|]; try apply IH. destruct (str_eqb (trim k) key); apply IH.
Qed.
Lemma media_alike a b key f f' X : forall c c' l l', Forall (fun x => header_line x = false) X -> text_of X l -> text_of X l' -> cur_alike c c' ->
  map bare_media (media_in a key f c l) = map bare_media (media_in b key f' c' l').
Proof.
  assert (E : forall m fin c p, map bare_media (media_in m key fin c [(p, [])]) = map bare_media (close_entry m c 0)).
  { intros m fin c p. cbn [media_in]. change (header_line []) with false. destruct c as [[[q n] d]|]; [change (ends_data []) with true; cbn; reflexivity|]. reflexivity. }
  induction X as [|x X IH]; intros c c' l l' HX H H' Hc.
  - apply text_of_nil in H, H'. destruct H as [->|(p & ->)], H' as [->|(q & ->)]; rewrite ?E; cbn [media_in]; apply close_alike; exact Hc.
  - apply text_of_head in H, H'. destruct H as (p & m & -> & H), H' as (q & m' & -> & H'). cbn [media_in]. rewrite (Forall_inv HX). apply Forall_inv_tail in HX.
    destruct c as [[[u n] d]|], c' as [[[u' n'] d']|]; cbn [cur_alike] in Hc; try contradiction.
    + destruct Hc as [-> ->]. destruct (ends_data x). { rewrite !map_app. f_equal. apply IH; auto. exact I. }
      destruct (_ || _); apply IH; auto; split; reflexivity.
    + destruct (_ || _); [apply IH; auto|]. destruct (find_char is_colon (content x)) as [[k [|z v]]|]; try (apply IH; auto; fail). destruct (str_eqb (trim k) key); apply IH; auto. split; reflexivity.
Qed.
Lemma reads_alike src a src' b n X l l' s s' : Forall (fun x => header_line x = false) X -> text_of X (body l) -> text_of X (body l') ->
  reads src a n l s -> reads src' b n l' s' -> bare s = bare s'.
Proof.
  intros HX H H'. destruct s as [f sp|m|m|m|m]; destruct s' as [f' sp'|m'|m'|m'|m']; cbn [reads bare]; intros [E1 R1] [E2 R2]; subst;
    try (vm_compute in E1; discriminate); try (vm_compute in E2; discriminate).
  - destruct R1 as [-> _], R2 as [-> _]. f_equal. eapply info_alike; eassumption.
  - f_equal. eapply styles_alike; eassumption.
  - f_equal. eapply events_alike; eassumption.
  - f_equal. destruct (media_body a (lit "fontname") (blen src) l None) as (f & ->), (media_body b (lit "fontname") (blen src') l' None) as (f' & ->). eapply media_alike; eauto. exact I.
  - f_equal. destruct (media_body a (lit "filename") (blen src) l None) as (f & ->), (media_body b (lit "filename") (blen src') l' None) as (f' & ->). eapply media_alike; eauto. exact I.
Qed.

(* ---- parsing blocks ---- *)
Definition block_name (b : block) : str := header_name (section_header (bl_type b)).
Definition block_lines (b : block) : list str := removelast (split_on is_nl (bl_rest b)).
(* s is a reading of the block b *)
Definition block_reading (b : block) (s : section) : Prop :=
  exists src miss ls, reads src miss (block_name b) ls s /\ text_of (block_lines b) (body ls).
Lemma block_ok_rest b : block_ok b -> exists r, bl_rest b = r ++ [10%N] /\ block_lines b = split_on is_nl r /\ Forall (fun l => header_line l = false) (split_on is_nl r).
Proof.
  intros (_ & H & r & E). exists r. unfold block_lines. rewrite E in *. change [10%N] with (10%N :: []) in *. rewrite split_nl_app in *. change (split_on is_nl []) with [@nil N] in *.
  rewrite removelast_last. split; [reflexivity|]. split; [reflexivity|]. apply Forall_app in H. apply H.
Qed.
Lemma body_none l t : Forall (fun p : str * str => header_line (snd p) = false) l -> body (l ++ t) = l ++ body t.
Proof. induction 1 as [|[p x] l H _ IH]; [reflexivity|]. cbn in *. rewrite H, IH. reflexivity. Qed.
Lemma sections_none l t : Forall (fun p : str * str => header_line (snd p) = false) l -> sections_in (l ++ t) = sections_in t.
Proof. induction 1 as [|[p x] l H _ IH]; [reflexivity|]. cbn in *. rewrite H. exact IH. Qed.
Lemma located_Forall (P : str -> Prop) x : forall p, Forall P x -> Forall (fun q => P (snd q)) (located p x).
Proof. induction x as [|l x IH]; intros p H; [constructor|]. cbn [located]. inversion H; subst. constructor; auto. Qed.
Lemma header_text t : no_newline (section_header t) /\ header_line (section_header t) = true /\ header_closed (section_header t) = true.
Proof. destruct t; repeat split. Qed.

Lemma lines_of_block p b T : block_ok b -> exists r, bl_rest b = r ++ [10%N] /\ block_lines b = split_on is_nl r /\
  Forall (fun l => header_line l = false) (split_on is_nl r) /\
  lines_at p (block_text b ++ T) = (p, section_header (bl_type b)) :: located (p ++ section_header (bl_type b) ++ [10%N]) (split_on is_nl r) ++ lines_at (p ++ block_text b) T.
Proof.
  intros H. destruct (block_ok_rest b H) as (r & E1 & E2 & E3). exists r. split; [exact E1|]. split; [exact E2|]. split; [exact E3|].
  unfold block_text. rewrite E1. rewrite <- !app_assoc. cbn [app]. rewrite lines_at_nl by apply header_text. f_equal. rewrite lines_at_split. rewrite <- !app_assoc. reflexivity.
Qed.
Lemma lines_of_blocks bs : Forall block_ok bs -> forall p, headers_closed (lines_at p (blocks_text bs)) = true /\
  Forall2 (fun b x => fst x = block_name b /\ text_of (block_lines b) (body (snd x))) bs (sections_in (lines_at p (blocks_text bs))) /\
  (match bs with [] => lines_at p (blocks_text bs) = [(p, [])] | _ => body (lines_at p (blocks_text bs)) = [] end).
Proof.
  induction 1 as [|b bs Hb _ IH]; intros p; [split; [reflexivity|split; [constructor|reflexivity]]|].
  cbn [blocks_text flat_map]. fold (blocks_text bs). destruct (lines_of_block p b (blocks_text bs) Hb) as (r & E1 & E2 & E3 & E4). rewrite E4.
  set (p' := p ++ section_header (bl_type b) ++ [10%N]) in *. clearbody p'. destruct (IH (p ++ block_text b)) as (I1 & I2 & I3). destruct (header_text (bl_type b)) as (_ & T1 & T2).
  split; [|split].
  - unfold headers_closed in *. cbn [forallb snd]. rewrite T2, T1. cbn [implb andb]. rewrite forallb_app, I1, andb_true_r. apply forallb_forall. intros q Hq.
    pose proof (located_Forall _ _ p' E3) as F. rewrite Forall_forall in F. rewrite (F q Hq). reflexivity.
  - cbn [sections_in]. rewrite T1. constructor.
    + cbn [fst snd]. split; [reflexivity|]. rewrite body_none by apply (located_Forall _ _ p' E3). rewrite E2. destruct bs as [|b' bs].
      * rewrite I3. right. cbn [body]. change (header_line []) with false. cbn. rewrite map_app, map_snd_located. reflexivity.
      * rewrite I3. left. rewrite app_nil_r. apply map_snd_located.
    + rewrite sections_none by apply (located_Forall _ _ p' E3). exact I2.
  - cbn [body]. rewrite T1. reflexivity.
Qed.
Lemma block_known b : known_name (block_name b) = true.
Proof. unfold block_name. destruct (bl_type b); reflexivity. Qed.
Lemma blocks_source bs : source_lines (blocks_text bs) = lines_at [] (blocks_text bs).
Proof.
  unfold source_lines. destruct bs as [|b bs]; [reflexivity|]. cbn [blocks_text flat_map]. unfold block_text. destruct (bl_type b); reflexivity.
Qed.
Lemma parse_blocks bs sc : Forall block_ok bs -> small (blocks_text bs) -> parse (blocks_text bs) = Done sc -> Forall2 block_reading bs (sc_sections sc).
Proof.
  intros H Hs E. destruct (lines_of_blocks bs H []) as (C1 & C2 & _). pose proof (parse_closed None (blocks_text bs) sc Hs) as P. rewrite blocks_source in P.
  destruct (P C1 E) as (P1 & _). clear P. 
  assert (F : filter (fun x : str * list (str * str) => known_name (fst x)) (sections_in (lines_at [] (blocks_text bs))) = sections_in (lines_at [] (blocks_text bs))).
  { clear -C2. induction C2 as [|b x bs l [Hx _] _ IH]; [reflexivity|]. cbn [filter]. rewrite Hx, block_known, IH. reflexivity. }
  rewrite F in P1. clear F C1 E Hs. revert P1. generalize (sc_sections sc). revert C2. generalize (sections_in (lines_at [] (blocks_text bs))). generalize (blocks_text bs) as src. clear H.
  intros src L C2. induction C2 as [|b x bs l [Hx Ht] _ IH]; intros ss P1; inversion P1; subst; constructor.
  - match goal with H : exists miss, _ |- _ => destruct H as (miss & H2) end. exists src, miss, (snd x). rewrite <- Hx. auto.
  - apply IH; assumption.
Qed.
Lemma reading_same bs : Forall block_ok bs -> forall l l', Forall2 block_reading bs l -> Forall2 block_reading bs l' -> map bare l = map bare l'.
Proof.
  induction 1 as [|b bs Hb _ IH]; intros l l' H H'; inversion H as [|? s ? m (src & a & ls & R & T) M]; inversion H' as [|? s' ? m' (src' & a' & ls' & R' & T') M']; subst; [reflexivity|].
  cbn [map]. f_equal; [|apply IH; assumption]. destruct (block_ok_rest b Hb) as (r & _ & E & F). rewrite E in T, T'. exact (reads_alike _ _ _ _ _ _ _ _ _ _ F T T' R R').
Qed.
Lemma reading_type b s : block_reading b s -> section_type_of s = bl_type b.
Proof.
  intros (src & miss & ls & R & _). unfold block_name in R. destruct s; cbn [reads section_type_of] in *; destruct R as [E _]; destruct (bl_type b); try reflexivity; vm_compute in E; discriminate.
Qed.
Lemma reading_bare b s s' : block_reading b s -> bare s' = bare s -> block_reading b s -> exists s'', bare s'' = bare s' /\ block_reading b s''.
Proof. intros H E _. exists s. auto. Qed.

(* ---- finding the blocks again ---- *)
Lemma free_starts p s : free_of p s <-> find_str p s = None.
Proof.
  split.
  - induction s as [|c s IH]; intros H; cbn [find_str].
    + destruct (starts_with p []) eqn:E; [|reflexivity]. apply starts_with_spec in E. destruct E as (r & E). exfalso. exact (H [] r E).
    + destruct (starts_with p (c :: s)) eqn:E; [apply starts_with_spec in E; destruct E as (r & E); exfalso; exact (H [] r E)|].
      rewrite IH; [reflexivity|]. intros a b K. apply (H (c :: a) b). cbn. rewrite K. reflexivity.
  - intros H a b E. subst s. induction a as [|c a IH].
    + cbn [app] in H. destruct (p ++ b) eqn:Q; cbn [find_str] in H; rewrite <- Q, starts_with_app in H; discriminate.
    + cbn [app find_str] in H. destruct (starts_with p (c :: a ++ p ++ b)); [discriminate|]. destruct (find_str p (a ++ p ++ b)) as [[u v]|]; [discriminate|]. apply IH. reflexivity.
Qed.
Lemma find_str_line p x y : no_newline p -> p <> [] -> free_of p x ->
  find_str p (x ++ 10%N :: y) = option_map (fun ab : str * str => (x ++ 10%N :: fst ab, snd ab)) (find_str p y).
Proof.
  intros Hp Hne. induction x as [|c x IH]; intros H.
  - cbn [app find_str]. assert (E : starts_with p (10%N :: y) = false).
    { destruct p as [|d p]; [congruence|]. unfold starts_with. cbn [strip_prefix]. destruct (d =? 10)%N eqn:E; [|reflexivity]. exfalso. unfold no_newline in Hp. cbn [forallb] in Hp. unfold is_nl in Hp at 1. rewrite E in Hp. discriminate. }
    rewrite E. destruct (find_str p y) as [[a b]|]; reflexivity.
  - cbn [app find_str]. assert (E : starts_with p (c :: x ++ 10%N :: y) = false).
    { change (c :: x ++ 10%N :: y) with ((c :: x) ++ 10%N :: y). rewrite starts_with_nl by exact Hp. destruct (starts_with p (c :: x)) eqn:E; [|reflexivity]. apply starts_with_spec in E. destruct E as (r & E). exfalso. exact (H [] r E). }
    rewrite E, IH. { destruct (find_str p y) as [[a b]|]; reflexivity. } intros a b K. apply (H (c :: a) b). cbn. rewrite K. reflexivity.
Qed.
Lemma free_prefix p a b : free_of p (a ++ b) -> free_of p a.
Proof. intros H x y E. apply (H x (y ++ b)). rewrite E, <- !app_assoc. reflexivity. Qed.
Lemma block_free b t : block_ok b -> free_of (section_header t) (bl_rest b).
Proof. intros (H & _). rewrite Forall_forall in H. apply H. destruct t; cbn; tauto. Qed.
Lemma header_free t t' : t <> t' -> free_of (section_header t) (section_header t').
Proof. intros H. apply free_starts. destruct t, t'; try congruence; vm_compute; reflexivity. Qed.
Lemma find_block t b T : block_ok b -> t <> bl_type b -> find_str (section_header t) (block_text b ++ T) =
  option_map (fun ab : str * str => (block_text b ++ fst ab, snd ab)) (find_str (section_header t) T).
Proof.
  intros Hb Ht. destruct (block_ok_rest b Hb) as (r & E & _ & _). pose proof (block_free b t Hb) as Hf. rewrite E in Hf. apply free_prefix in Hf. destruct (header_text t) as (Hn & _ & _).
  assert (Hne : section_header t <> []) by (destruct t; discriminate).
  unfold block_text. rewrite E, <- !app_assoc. cbn [app]. rewrite find_str_line; [|exact Hn|exact Hne|apply header_free, Ht]. rewrite find_str_line; [|exact Hn|exact Hne|exact Hf].
  destruct (find_str (section_header t) T) as [[u v]|]; [|reflexivity]. cbn [option_map fst snd]. rewrite <- !app_assoc; cbn [app]; rewrite <- ?app_assoc; reflexivity.
Qed.
Lemma find_first t T : find_str (section_header t) (section_header t ++ T) = Some ([], section_header t ++ T).
Proof. destruct t; reflexivity. Qed.
Lemma find_blocks t pre T : Forall block_ok pre -> ~ In t (map bl_type pre) -> find_str (section_header t) (blocks_text pre ++ section_header t ++ T) = Some (blocks_text pre, section_header t ++ T).
Proof.
  induction 1 as [|b pre Hb _ IH]; intros Hn; [apply find_first|]. cbn [map In] in Hn. cbn [blocks_text flat_map]. fold (blocks_text pre). rewrite <- app_assoc, find_block; [|exact Hb|intros K; apply Hn; left; auto].
  rewrite IH by tauto. reflexivity.
Qed.
Lemma find_next t b T : block_ok b -> find_str (section_header t) ([10%N] ++ bl_rest b ++ section_header t ++ T) = Some ([10%N] ++ bl_rest b, section_header t ++ T).
Proof.
  intros Hb. destruct (block_ok_rest b Hb) as (r & E & _ & _). pose proof (block_free b t Hb) as Hf. rewrite E in *. apply free_prefix in Hf. destruct (header_text t) as (Hn & _ & _).
  assert (Hne : section_header t <> []) by (destruct t; discriminate). rewrite <- !app_assoc. cbn [app].
  change (10%N :: r ++ 10%N :: section_header t ++ T) with ([] ++ 10%N :: (r ++ 10%N :: section_header t ++ T)).
  rewrite find_str_line; [|exact Hn|exact Hne|intros a b' K; symmetry in K; apply app_eq_nil in K; destruct K as [_ K]; apply app_eq_nil in K; destruct K; contradiction].
  rewrite find_str_line; [|exact Hn|exact Hne|exact Hf]. rewrite find_first. cbn [option_map fst snd app]. rewrite <- ?app_assoc; reflexivity.
Qed.

(* ---- re-reading one section ---- *)
Lemma blocks_text_app a b : blocks_text (a ++ b) = blocks_text a ++ blocks_text b.
Proof. unfold blocks_text. apply flat_map_app. Qed.
Lemma block_text_header b : block_text b = section_header (bl_type b) ++ [10%N] ++ bl_rest b.
Proof. reflexivity. Qed.
Lemma reread_block pre b post : Forall block_ok (pre ++ b :: post) -> NoDup (map bl_type (pre ++ b :: post)) -> small (blocks_text (pre ++ b :: post)) ->
  exists s, reread (blocks_text (pre ++ b :: post)) (bl_type b) (match post with [] => None | n :: _ => Some (bl_type n) end) = Done (Some s) /\ block_reading b s.
Proof.
  intros H Hd Hs. apply Forall_app in H. destruct H as [Hpre H]. pose proof (Forall_inv H) as Hb. pose proof (Forall_inv_tail H) as Hpost. clear H.
  assert (Hn : ~ In (bl_type b) (map bl_type pre)). { rewrite map_app in Hd. cbn [map] in Hd. apply NoDup_remove_2 in Hd. intros K. apply Hd, in_or_app. left. exact K. }
  assert (E : blocks_text (pre ++ b :: post) = blocks_text pre ++ section_header (bl_type b) ++ ([10%N] ++ bl_rest b ++ blocks_text post)).
  { rewrite blocks_text_app. cbn [blocks_text flat_map]. rewrite block_text_header, <- !app_assoc. reflexivity. }
  assert (Fd : find_str (section_header (bl_type b)) (blocks_text (pre ++ b :: post)) = Some (blocks_text pre, section_header (bl_type b) ++ ([10%N] ++ bl_rest b ++ blocks_text post))) by (rewrite E; apply find_blocks; assumption).
  assert (S1 : slice_from (blocks_text (pre ++ b :: post)) (blen (blocks_text pre) + blen (section_header (bl_type b))) = Some ([10%N] ++ bl_rest b ++ blocks_text post)).
  { rewrite E, app_assoc, <- blen_app. apply slice_from_app. }
  assert (S2 : slice (blocks_text (pre ++ b :: post)) (blen (blocks_text pre)) (blen (blocks_text pre) + blen (block_text b)) = Some (block_text b)).
  { rewrite blocks_text_app. cbn [blocks_text flat_map]. apply slice_app. }
  assert (EndEq : match post with
      | [] => Done (blen (blocks_text (pre ++ b :: post)))
      | n :: _ => rest <- need (slice_from (blocks_text (pre ++ b :: post)) (blen (blocks_text pre) + blen (section_header (bl_type b)))) ;;
          Done (match find_str (section_header (bl_type n)) rest with None => blen (blocks_text (pre ++ b :: post)) | Some (x, _) => blen (blocks_text pre) + blen (section_header (bl_type b)) + blen x end)
      end = Done (blen (blocks_text pre) + blen (block_text b))).
  { destruct post as [|n post].
    - rewrite blocks_text_app, blen_app. cbn [blocks_text flat_map]. rewrite app_nil_r. reflexivity.
    - rewrite S1. cbn [need bind]. cbn [blocks_text flat_map]. rewrite (block_text_header n), <- !app_assoc, find_next by exact Hb.
      f_equal. rewrite block_text_header, !blen_app. cbn. lia. }
  assert (Hsb : small (block_text b)). { unfold small in *. rewrite blocks_text_app in Hs. cbn [blocks_text flat_map] in Hs. rewrite !blen_app in Hs. lia. }
  destruct (parse_done None (block_text b)) as (sc & Ep). fold (parse (block_text b)) in Ep.
  assert (Eb : blocks_text [b] = block_text b) by (cbn; apply app_nil_r).
  pose proof (parse_blocks [b] sc) as P. rewrite Eb in P. specialize (P (Forall_cons _ Hb (Forall_nil _)) Hsb Ep). inversion P as [|? s ? l R N Q1 Q2]; subst. inversion N; subst. symmetry in Q2.
  exists s. split; [|exact R]. unfold reread. rewrite Fd.
  destruct post as [|n post]; cbn zeta in EndEq |- *; rewrite EndEq; cbn [bind]; rewrite S2; cbn [need bind]; rewrite Ep; cbn [bind]; rewrite Q2; cbn [find]; rewrite (reading_type _ _ R);
    rewrite (proj2 (section_type_eqb_eq _ _) eq_refl); reflexivity.
Qed.
Lemma adjust_bare s c : bare (adjust_section_spans s c) = bare s.
Proof. destruct s; cbn [adjust_section_spans bare]; rewrite ?map_map; reflexivity. Qed.

(* a reading up to spans *)
Definition block_bare (b : block) (s : section) : Prop := exists s', block_reading b s' /\ bare s = bare s' /\ section_type_of s = section_type_of s'.
Lemma incremental_loop_blocks c hit nb : ch_start c <= ch_end c -> forall pre ob l,
  Forall block_ok (pre ++ nb) -> NoDup (map bl_type (pre ++ nb)) -> small (blocks_text (pre ++ nb)) ->
  Forall2 block_reading ob l -> Forall2 (fun o n => bl_type o = bl_type n /\ (o = n \/ In (bl_type n) hit)) ob nb ->
  exists l', incremental_loop (blocks_text (pre ++ nb)) c hit l = Done l' /\ Forall2 block_bare nb l'.
Proof.
  intros Hc. induction nb as [|n nb IH]; intros pre ob l H1 H2 H3 HR HT; inversion HT as [|o ? ob' ? [T1 T2] T3]; subst; inversion HR as [|? s ? l0 R1 R2]; subst.
  - exists []. split; [reflexivity|constructor].
  - replace (pre ++ n :: nb) with ((pre ++ [n]) ++ nb) in * by (rewrite <- app_assoc; reflexivity). destruct (IH (pre ++ [n]) _ _ H1 H2 H3 R2 T3) as (l' & E & F).
    cbn [incremental_loop]. rewrite E. cbn [bind].
    assert (Ty : section_type_of s = bl_type n) by (rewrite (reading_type _ _ R1); exact T1). rewrite Ty.
    destruct (existsb (section_type_eqb (bl_type n)) hit) eqn:Eh.
    + assert (En : match l0 with [] => None | m :: _ => Some (section_type_of m) end = match nb with [] => None | m :: _ => Some (bl_type m) end).
      { inversion T3 as [|? ? ? ? [U _]]; subst; inversion R2 as [|? ? ? ? V]; subst; [reflexivity|]. rewrite (reading_type _ _ V), U. reflexivity. }
      rewrite En. replace ((pre ++ [n]) ++ nb) with (pre ++ n :: nb) in * by (rewrite <- app_assoc; reflexivity).
      destruct (reread_block pre n nb H1 H2 H3) as (s' & E' & R'). rewrite E'. cbn [bind]. exists (s' :: l'). split; [reflexivity|]. constructor; [|exact F]. exists s'. auto.
    + assert (o = n). { destruct T2 as [T2|T2]; [exact T2|]. exfalso. assert (existsb (section_type_eqb (bl_type n)) hit = true) by (apply existsb_exists; exists (bl_type n); split; [exact T2|apply section_type_eqb_eq; reflexivity]). congruence. }
      subst o. replace (ch_end c <? ch_start c) with false by (symmetry; apply Nat.ltb_ge; exact Hc).
      destruct (section_span s) as [sp|]; [destruct (ch_end c <=? sp_start sp)|]; eexists; (split; [reflexivity|]); (constructor; [|exact F]); exists s; (split; [exact R1|]).
      * split; [apply adjust_bare|]. destruct s; reflexivity.
      * auto.
      * auto.
Qed.
Lemma bare_reading_same bs : Forall block_ok bs -> forall l l', Forall2 block_bare bs l -> Forall2 block_reading bs l' -> map bare l = map bare l'.
Proof.
  intros H l l' F F'. assert (G : exists m, Forall2 block_reading bs m /\ map bare l = map bare m).
  { clear F' l'. clear H. induction F as [|b s bs l (s' & R & E & _) _ (m & I1 & I2)]; [exists []; split; constructor|]. exists (s' :: m). split; [constructor; assumption|]. cbn [map]. rewrite E, I2. reflexivity. }
  destruct G as (m & G1 & ->). eapply reading_same; eassumption.
Qed.
Lemma incremental_blocks c ob nb sco scn : ch_start c <= ch_end c -> Forall block_ok ob -> Forall block_ok nb -> NoDup (map bl_type nb) ->
  small (blocks_text ob) -> small (blocks_text nb) -> parse (blocks_text ob) = Done sco -> parse (blocks_text nb) = Done scn ->
  Forall2 (fun o n => bl_type o = bl_type n /\ (o = n \/ In (bl_type n) (affected_sections sco c))) ob nb ->
  exists sci, parse_incremental sco (blocks_text nb) c = Done sci /\ map bare (sc_sections sci) = map bare (sc_sections scn).
Proof.
  intros Hc Ho Hn Hd So Sn Eo En HT. pose proof (parse_blocks ob sco Ho So Eo) as Ro. pose proof (parse_blocks nb scn Hn Sn En) as Rn.
  unfold parse_incremental. destruct (affected_sections sco c) as [|h hit] eqn:Ea.
  - eexists. split; [reflexivity|]. cbn [sc_sections]. assert (ob = nb). { clear -HT. induction HT as [|o n ob nb [_ [E|[]]] _ IH]; [reflexivity|]. subst. reflexivity. } subst. eapply reading_same; eassumption.
  - destruct (incremental_loop_blocks c (h :: hit) nb Hc [] ob _ Hn Hd Sn Ro HT) as (l' & E & F). cbn [app] in E. rewrite E. cbn [bind]. eexists. split; [reflexivity|]. cbn [sc_sections]. eapply bare_reading_same; eassumption.
Qed.
(* it never panics on any source, for a change with start <= end *)
Lemma reread_done src ty next : exists o, reread src ty next = Done o.
Proof.
  unfold reread. destruct (find_str (section_header ty) src) as [[a b]|] eqn:E; [|eauto].
  assert (G : forall p s a b, find_str p s = Some (a, b) -> s = a ++ b /\ exists r, b = p ++ r).
  { clear. intros p s. induction s as [|c s IH]; intros a b; cbn [find_str].
    - destruct (starts_with p []) eqn:E; [|discriminate]. intros H. injection H as <- <-. split; [reflexivity|]. apply starts_with_spec, E.
    - destruct (starts_with p (c :: s)) eqn:E; [intros H; injection H as <- <-; split; [reflexivity|apply starts_with_spec, E]|].
      destruct (find_str p s) as [[u v]|] eqn:F; [|discriminate]. intros H. injection H as <- <-. destruct (IH _ _ eq_refl) as [-> R]. split; [reflexivity|exact R]. }
  destruct (G _ _ _ _ E) as (-> & r & ->).
  assert (S1 : slice_from (a ++ section_header ty ++ r) (blen a + blen (section_header ty)) = Some r) by (rewrite app_assoc, <- blen_app; apply slice_from_app).
  assert (K : exists x y, r = x ++ y /\ match next with
      | None => Done (blen (a ++ section_header ty ++ r))
      | Some nt => rest <- need (slice_from (a ++ section_header ty ++ r) (blen a + blen (section_header ty))) ;;
          Done (match find_str (section_header nt) rest with None => blen (a ++ section_header ty ++ r) | Some (x, _) => blen a + blen (section_header ty) + blen x end)
      end = Done (blen a + blen (section_header ty ++ x))).
  { destruct next as [nt|].
    - rewrite S1. cbn [need bind]. destruct (find_str (section_header nt) r) as [[x y]|] eqn:F.
      + destruct (G _ _ _ _ F) as (-> & _). exists x, y. split; [reflexivity|]. f_equal. rewrite blen_app. lia.
      + exists r, []. rewrite app_nil_r. split; [reflexivity|]. rewrite blen_app. reflexivity.
    - exists r, []. rewrite app_nil_r. split; [reflexivity|]. rewrite blen_app. reflexivity. }
  destruct K as (x & y & -> & K). cbn zeta. rewrite K. cbn [bind]. replace (a ++ section_header ty ++ x ++ y) with (a ++ (section_header ty ++ x) ++ y) by (rewrite <- app_assoc; reflexivity).
  rewrite slice_app. cbn [need bind]. destruct (parse_done None (section_header ty ++ x)) as (sc & P). unfold parse. rewrite P. cbn [bind]. eauto.
Qed.
Lemma incremental_done sc src c : ch_start c <= ch_end c -> exists sc', parse_incremental sc src c = Done sc'.
Proof.
  intros Hc. unfold parse_incremental. destruct (affected_sections sc c) as [|h hit]; [eauto|].
  assert (G : forall l, exists l', incremental_loop src c (h :: hit) l = Done l').
  { induction l as [|s l (l' & IH)]; [exists []; reflexivity|]. cbn [incremental_loop]. rewrite IH. cbn [bind]. destruct (existsb _ (h :: hit)).
    - destruct (reread_done src (section_type_of s) (match l with [] => None | n :: _ => Some (section_type_of n) end)) as (o & ->). cbn [bind]. eauto.
    - destruct (section_span s); [|eauto]. replace (ch_end c <? ch_start c) with false by (symmetry; apply Nat.ltb_ge; exact Hc). destruct (_ <=? _); eauto. }
  destruct (G (sc_sections sc)) as (l' & ->). cbn [bind]. eauto.
Qed.
