(* Theorems about Script::parse, from the loop invariant. *)
From Verif Require Import Base BaseLemmas Utf8Model UuModel ParseModel ParseSpec ParseTracker ParseLines ParseSections ParseMain.

(* ---- the section list of the lines ---- *)
Lemma sections_heads ls : sections_in ls = map head_section (hlines ls).
Proof.
  induction ls as [|[p l] r IH]; [reflexivity|]. cbn [sections_in hlines]. destruct (header_line l); [|exact IH].
  cbn [map]. rewrite IH. reflexivity.
Qed.
Lemma closed_lines ls : headers_closed ls = closed (hlines ls).
Proof.
  induction ls as [|[p l] r IH]; [reflexivity|]. unfold headers_closed. cbn [forallb hlines snd]. fold (headers_closed r). rewrite IH.
  destruct (header_line l); [|reflexivity]. cbn [implb closed forallb fst snd]. rewrite existsb_trim. reflexivity.
Qed.
Lemma no_gap_lead ls : forall blank, no_gap false blank ls = true -> lead_lines ls = true.
Proof.
  induction ls as [|[p l] r IH]; intros b H; [reflexivity|]. destruct r as [|x r]; [reflexivity|].
  cbn [no_gap lead_lines] in *. destruct (header_line l); [reflexivity|]. unfold blank_line in H. fold (all_ws l) in H.
  destruct (all_ws l); [discriminate|]. exact (IH _ H).
Qed.
Lemma no_gap_gaps ls : forall pre inside blank, Forall no_newline ls -> (blank_before (line_start pre) -> blank = true) ->
  no_gap inside blank (located pre ls) = true -> no_gaps (hlines (located pre ls)).
Proof.
  induction ls as [|l r IH]; intros pre inside blank Hl Hp H; [constructor|].
  inversion Hl as [|? ? Hl1 Hl2]. subst. cbn [located hlines].
  assert (Hnext : forall ins bl, (all_ws l = true -> bl = true) -> no_gap ins bl (located (pre ++ l ++ [10%N]) r) = true ->
     no_gaps (hlines (located (pre ++ l ++ [10%N]) r))).
  { intros ins bl Hbl Hn. apply (IH _ ins bl Hl2); [|exact Hn]. rewrite app_assoc, line_start_nl. intros (b & Eb & Hb).
    apply app_inj_tail in Eb. destruct Eb as [<- _]. apply Hbl. rewrite tail_line_app in Hb by exact Hl1.
    rewrite all_ws_app in Hb. apply andb_true_iff in Hb. apply Hb. }
  destruct r as [|l2 r].
  - cbn [located hlines]. cbn in H. destruct (header_line l); [|constructor]. constructor; [|constructor]. cbn [fst]. intros Hb. rewrite (Hp Hb) in H. discriminate.
  - cbn [located no_gap] in H. cbn [located] in Hnext |- *. destruct (header_line l) eqn:Hh.
    + apply andb_true_iff in H. destruct H as [H1 H2]. constructor.
      * cbn [fst]. intros Hb. rewrite (Hp Hb) in H1. discriminate.
      * apply (Hnext true false); [|exact H2]. intros Hw. rewrite (header_not_ws l Hh) in Hw. discriminate.
    + unfold blank_line in H. fold (all_ws l) in H. destruct (all_ws l) eqn:Hw.
      * apply andb_true_iff in H. destruct H as [H1 H2]. apply (Hnext inside true); auto.
      * apply (Hnext inside false); [congruence|exact H].
Qed.
Lemma split_no_newline s : Forall no_newline (split_on is_nl s).
Proof.
  remember (List.length s) as n eqn:En. revert s En. induction n as [n IH] using lt_wf_ind. intros s En.
  destruct (first_line s) as [H|(l & r & -> & H)].
  - rewrite split_on_none by exact H. constructor; [exact H|constructor].
  - rewrite split_on_app by (exact H || reflexivity). constructor; [exact H|]. eapply IH; [|reflexivity]. rewrite En, app_length. cbn. lia.
Qed.

(* ---- Script::parse ---- *)

Lemma bom_text src : src = bom src ++ text src.
Proof. destruct src as [|c r]; [reflexivity|]. cbn. destruct (N.eqb_spec c 65279); [subst|]; reflexivity. Qed.

Lemma parse_result reg src : small src -> exists sc p', parse_with reg src = Done sc /\ sc = finish p' /\
  exists p0, p_sections p0 = [] /\ settings_of p0 = start_settings /\ outcome src (bom src) (text src) 0 p0 p'.
Proof.
  intros Hs. unfold parse_with. destruct (N.ltb_spec max_input_size (N.of_nat (blen src))) as [H|H]; [unfold small in Hs; lia|].
  set (p1 := match validate_bom_handling (as_bytes src) with Some _ => _ | None => _ end).
  assert (Hp1 : p_sections p1 = [] /\ settings_of p1 = start_settings /\ p_pos p1 = 0 /\ p_line p1 = 1%N).
  { subst p1. destruct (validate_bom_handling (as_bytes src)); repeat split. }
  clearbody p1. destruct Hp1 as (H1 & H2 & H3 & H4). cbv zeta.
  assert (Hp2 : match src with [] => p1 | c :: _ => if (c =? 65279)%N then with_pos p1 3 (p_line p1) else p1 end = goto 0 (bom src) p1).
  { destruct p1. cbn in H3, H4. subst. destruct src as [|c r]; [reflexivity|]. unfold bom. destruct (c =? 65279)%N; reflexivity. }
  rewrite Hp2.
  destruct (parse_loop_spec src Hs reg (S (blen src)) (bom src) (text src) 0 p1 (bom_text src)) as (p' & L1 & L2).
  { apply N.le_0_l. } { pose proof (blen_length (text src)). rewrite (bom_text src) at 2. rewrite blen_app. lia. }
  rewrite L1. cbn [bind]. exists (finish p'), p'. split; [reflexivity|]. split; [reflexivity|]. exists p1. auto.
Qed.

Lemma parse_large reg src : (max_input_size < N.of_nat (blen src))%N ->
  parse_with reg src = Done (Script AssV4 [] [Issue SevError MInputTooLarge 1] None None).
Proof. intros H. unfold parse_with. destruct (N.ltb_spec max_input_size (N.of_nat (blen src))); [reflexivity|lia]. Qed.

Lemma parse_done reg src : exists sc, parse_with reg src = Done sc.
Proof.
  destruct (N.leb_spec (N.of_nat (blen src)) max_input_size) as [H|H].
  - destruct (parse_result reg src H) as (sc & p' & E & _). eauto.
  - eauto using parse_large.
Qed.

(* every section is a reading of lines that follow its header, in order *)
Lemma parse_marks reg src sc : small src -> parse_with reg src = Done sc ->
  exists marks, marks_from src 0 marks /\ Forall (fun m => known_name (mk_name m) = true) marks /\
    Forall2 (fun m s => reads src (mk_miss m) (mk_name m) (mk_lines m) s) marks (sc_sections sc) /\
    settings_sc sc = fold_left after_section (map pair_of marks) start_settings.
Proof.
  intros Hs E. destruct (parse_result reg src Hs) as (sc' & p' & E' & -> & p0 & H1 & H2 & (marks & secs & O1 & O2 & O3 & O4 & O5 & _)).
  rewrite E in E'. injection E' as ->. exists marks. split; [eapply marks_le; [|exact O3]; lia|]. split; [exact O4|].
  cbn [finish sc_sections]. rewrite O1, H1. split; [exact O2|]. rewrite <- H2, <- O5. reflexivity.
Qed.

Lemma Forall2_map_l {A B C} (f : A -> B) (P : B -> C -> Prop) l m : Forall2 (fun a c => P (f a) c) l m -> Forall2 P (map f l) m.
Proof. induction 1; constructor; auto. Qed.

Lemma Forall2_imp {A B} (P Q : A -> B -> Prop) l m : (forall a b, P a b -> Q a b) -> Forall2 P l m -> Forall2 Q l m.
Proof. intros H. induction 1; constructor; auto. Qed.

Lemma parse_closed reg src sc : small src -> headers_closed (source_lines src) = true -> parse_with reg src = Done sc ->
  Forall2 (fun x s => exists miss, reads src miss (fst x) (snd x) s) (filter (fun x => known_name (fst x)) (sections_in (source_lines src))) (sc_sections sc) /\
  settings_sc sc = fold_left after_section (filter (fun x => known_name (fst x)) (sections_in (source_lines src))) start_settings /\
  (no_gap false false (source_lines src) = true ->
   Forall2 (fun x s => reads src 0 (fst x) (snd x) s) (filter (fun x => known_name (fst x)) (sections_in (source_lines src))) (sc_sections sc)).
Proof.
  intros Hs Hc E. destruct (parse_result reg src Hs) as (sc' & p' & E' & -> & p0 & H1 & H2 & (marks & secs & O1 & O2 & O3 & O4 & O5 & O6)).
  rewrite E in E'. injection E' as ->. unfold source_lines in *. rewrite closed_lines in Hc. destruct (O6 Hc) as [O6a O6b].
  fold (heads (bom src) (text src)) in O6a. rewrite sections_heads. unfold heads in O6a, O6b.
  change (filter (fun x => known_name (fst x))) with (filter known_pair). rewrite <- O6a.
  assert (Es : sc_sections (finish p') = secs) by (cbn; rewrite O1, H1; reflexivity). rewrite Es.
  split; [|split].
  - apply Forall2_map_l. eapply Forall2_imp; [|exact O2]. cbn. eauto.
  - rewrite <- H2, <- O5. reflexivity.
  - intros Hg. apply Forall2_map_l. assert (Hm : Forall (fun m => mk_miss m = 0%N) marks).
    { apply O6b; [apply (no_gap_lead _ false), Hg|]. apply (no_gap_gaps _ _ false false); [apply split_no_newline| |exact Hg].
      intros (b & Eb & _). exfalso. destruct src as [|c r]; [cbn in Eb; destruct b; discriminate|]. unfold bom in Eb.
      destruct (c =? 65279)%N; cbn in Eb; destruct b; discriminate. }
    clear - O2 Hm. induction O2 as [|m s ms ss H1 _ IH]; [constructor|]. constructor; [|exact (IH (Forall_inv_tail Hm))].
    pose proof (Forall_inv Hm) as E0. cbn beta in E0. rewrite E0 in H1. exact H1.
Qed.

(* ---- where things are ---- *)
Lemma located_in ls : forall pre p l, In (p, l) (located pre ls) -> exists a b, ls = a ++ l :: b /\
  p = pre ++ flat_map (fun x => x ++ [10%N]) a.
Proof.
  induction ls as [|x r IH]; intros pre p l H; [contradiction|]. cbn [located] in H. destruct H as [H|H].
  - injection H as -> ->. exists [], r. cbn. rewrite app_nil_r. auto.
  - destruct (IH _ _ _ H) as (a & b & -> & ->). exists (x :: a), b. cbn. rewrite <- !app_assoc. auto.
Qed.
Lemma join_nl_split a l b : exists c, join [10%N] (a ++ l :: b) = flat_map (fun x => x ++ [10%N]) a ++ l ++ c.
Proof.
  induction a as [|x a IH]; cbn [app flat_map].
  - destruct b as [|y b]; [exists []; cbn; rewrite app_nil_r; reflexivity|]. exists ([10%N] ++ join [10%N] (y :: b)). reflexivity.
  - destruct IH as (c & IH). exists c. destruct a as [|y a]; cbn [app] in *.
    + change (join [10%N] (x :: l :: b)) with (x ++ [10%N] ++ join [10%N] (l :: b)). rewrite IH, <- !app_assoc. reflexivity.
    + change (join [10%N] (x :: y :: a ++ l :: b)) with (x ++ [10%N] ++ join [10%N] (y :: a ++ l :: b)). rewrite IH, <- !app_assoc. reflexivity.
Qed.
Lemma lines_at_in pre t p l : In (p, l) (lines_at pre t) -> exists c, pre ++ t = p ++ l ++ c.
Proof.
  intros H. unfold lines_at in H. destruct (located_in _ _ _ _ H) as (a & b & E & ->).
  destruct (join_nl_split a l b) as (c & Ec). rewrite <- E in Ec. exists c.
  assert (Ej : join [10%N] (split_on is_nl t) = t).
  { apply join_split_on. intros x. apply N.eqb_eq. }
  rewrite Ej in Ec. rewrite Ec, <- !app_assoc. reflexivity.
Qed.

(* a list of lines that stand in the source *)
Definition in_src (src : str) (ls : list (str * str)) : Prop :=
  exists pre xs, ls = located pre xs /\ (xs <> [] -> src = pre ++ join [10%N] xs).
Lemma in_src_lines pre t : in_src (pre ++ t) (lines_at pre t).
Proof.
  exists pre, (split_on is_nl t). split; [reflexivity|]. intros _. f_equal. symmetry. apply join_split_on. intros x. apply N.eqb_eq.
Qed.
Lemma in_src_tail src x ls : in_src src (x :: ls) -> in_src src ls.
Proof.
  intros (pre & [|y xs] & E & H); [discriminate|]. injection E as _ E. exists (pre ++ y ++ [10%N]), xs. split; [exact E|].
  intros Hne. rewrite H by discriminate. rewrite (join_cons [10%N] y xs Hne), <- !app_assoc. reflexivity.
Qed.
Lemma in_src_in src ls p l : in_src src ls -> In (p, l) ls -> exists c, src = p ++ l ++ c.
Proof.
  intros (pre & xs & -> & H) Hin. destruct (located_in _ _ _ _ Hin) as (a & b & E & ->).
  destruct (join_nl_split a l b) as (c & Ec). exists c. rewrite H by (rewrite E; destruct a; discriminate).
  rewrite E, Ec, <- !app_assoc. reflexivity.
Qed.
Lemma in_src_section src ls name r : in_src src ls -> In (name, r) (sections_in ls) -> in_src src r.
Proof.
  induction ls as [|[p l] ls IH]; intros H Hin; [contradiction|]. cbn [sections_in] in Hin. apply in_src_tail in H.
  destruct (header_line l); [|auto]. destruct Hin as [Hin|Hin]; [|auto]. injection Hin as _ <-. exact H.
Qed.
Lemma body_in x ls : In x (body ls) -> In x ls.
Proof.
  induction ls as [|[p l] r IH]; [auto|]. cbn [body]. destruct (header_line l); [contradiction|]. cbn. tauto.
Qed.

Lemma events_from miss b : forall f e, In e (fst (events_in miss f b)) -> exists p l g e0, In (p, l) b /\
  parse_event_line (trim l) g 0 = Ok e0 /\ e = set_event_span e0 (line_span miss p l).
Proof.
  induction b as [|[p l] b IH]; intros f e H; [contradiction|]. cbn [events_in] in H.
  destruct (format_of (trim l)) as [g|].
  - destruct (IH _ _ H) as (p' & l' & g' & e0 & H1 & H2). exists p', l', g', e0. split; [right; exact H1|exact H2].
  - specialize (IH f e). destruct (events_in miss f b) as [es g]. cbn [fst] in IH.
    assert (Hr : In e es -> exists p0 l0 g0 e0, In (p0, l0) ((p, l) :: b) /\ parse_event_line (trim l0) g0 0 = Ok e0 /\ e = set_event_span e0 (line_span miss p0 l0)).
    { intros K. destruct (IH K) as (p' & l' & g' & e0 & H1 & H2). exists p', l', g', e0. split; [right; exact H1|exact H2]. }
    destruct (parse_event_line (trim l) f 0) as [e0| |] eqn:Ep; cbn [fst] in H; [|auto|auto].
    destruct H as [H|H]; [|auto]. exists p, l, f, e0. split; [left; reflexivity|]. auto.
Qed.
Lemma styles_from miss b : forall f s, In s (fst (styles_in miss f b)) -> exists p l d g s0, In (p, l) b /\
  trim l = lit "Style:" ++ d /\ parse_style_line (trim d) g 0 = Ok s0 /\ s = set_style_span s0 (line_span miss p l).
Proof.
  induction b as [|[p l] b IH]; intros f e H; [contradiction|]. cbn [styles_in] in H.
  destruct (format_of (trim l)) as [g|].
  - destruct (IH _ _ H) as (p' & l' & d' & g' & e0 & H1 & H2). exists p', l', d', g', e0. split; [right; exact H1|exact H2].
  - specialize (IH f e). destruct (styles_in miss f b) as [es g]. cbn [fst] in IH.
    assert (Hr : In e es -> exists p0 l0 d g0 e0, In (p0, l0) ((p, l) :: b) /\ trim l0 = lit "Style:" ++ d /\
      parse_style_line (trim d) g0 0 = Ok e0 /\ e = set_style_span e0 (line_span miss p0 l0)).
    { intros K. destruct (IH K) as (p' & l' & d' & g' & e0 & H1 & H2). exists p', l', d', g', e0. split; [right; exact H1|exact H2]. }
    destruct (strip_prefix (lit "Style:") (trim l)) as [d|] eqn:Es; [|auto]. apply strip_prefix_some in Es.
    destruct (parse_style_line (trim d) f 0) as [e0| |] eqn:Ep; cbn [fst] in H; [|auto|auto].
    destruct H as [H|H]; [|auto]. exists p, l, d, f, e0. split; [left; reflexivity|]. auto.
Qed.
Lemma line_span_points src miss p l c : src = p ++ l ++ c -> points src miss (line_span miss p l) (content l).
Proof.
  intros E. exists (p ++ indent l), c. rewrite E. rewrite <- (app_assoc p), (app_assoc (indent l)), indent_content.
  split; [reflexivity|]. unfold line_span. cbn [sp_start sp_end sp_line sp_col]. split; [reflexivity|].
  split; [rewrite <- app_assoc, indent_content; reflexivity|]. split; [|reflexivity].
  unfold true_line. rewrite newlines_app, (newlines_none _ (indent_no_nl l)). f_equal. lia.
Qed.

Lemma in_src_app src (q x : str) : q ++ x = src -> exists t, src = q ++ t. Proof. eauto. Qed.
Lemma media_from miss key src xs : forall pre cur, (xs <> [] -> src = pre ++ join [10%N] xs) ->
  (match cur with Some (q, _, data) => exists t, src = q ++ t /\ (exists x, pre = q ++ x) /\
      Forall (fun d => exists y z, src = q ++ y ++ d ++ z) data | None => True end) ->
  forall m, In m (media_in miss key (blen src) cur (located pre xs)) ->
  (exists t, points src miss (m_span m) t) /\ Forall (fun d => exists y z, src = y ++ d ++ z) (m_lines m).
Proof.
  assert (Hclose : forall q name data stop x y, src = q ++ x ++ y -> stop = blen (q ++ x) ->
    Forall (fun d => exists y z, src = q ++ y ++ d ++ z) data ->
    forall m, In m (close_entry miss (Some (q, name, data)) stop) ->
    (exists t, points src miss (m_span m) t) /\ Forall (fun d => exists y z, src = y ++ d ++ z) (m_lines m)).
  { intros q name data stop x y E -> Hd m [<-|[]]. cbn [m_span m_lines]. split.
    - exists x, q, y. repeat split. exact E.
    - eapply Forall_impl; [|exact Hd]. intros d (y' & z & E'). exists (q ++ y'), z. rewrite E', <- app_assoc. reflexivity. }
  induction xs as [|l xs IH]; intros pre cur Hpre Hcur m Hm.
  - cbn [located media_in] in Hm. destruct cur as [[[q name] data]|]; [|contradiction]. destruct Hcur as (t & E & _ & Hd).
    apply (Hclose q name data (blen src) t []); [rewrite app_nil_r; exact E|f_equal; exact E|exact Hd|exact Hm].
  - cbn [located media_in] in Hm. specialize (Hpre ltac:(discriminate)).
    assert (Hn : xs <> [] -> src = (pre ++ l ++ [10%N]) ++ join [10%N] xs).
    { intros Hx. rewrite Hpre, (join_cons [10%N] l xs Hx), <- !app_assoc. reflexivity. }
    assert (Hl : exists c, src = pre ++ l ++ c).
    { destruct (join_nl_split [] l xs) as (c & Ec). exists c. rewrite Hpre. f_equal. exact Ec. }
    destruct Hl as (c & Hl).
    assert (Hstop : forall q name data, cur = Some (q, name, data) -> In m (close_entry miss cur (blen pre)) ->
      (exists t, points src miss (m_span m) t) /\ Forall (fun d => exists y z, src = y ++ d ++ z) (m_lines m)).
    { intros q name data -> Hm'. destruct Hcur as (t & E & (x & Ex) & Hd).
      apply (Hclose q name data (blen pre) x (l ++ c)); [rewrite app_assoc, <- Ex; exact Hl|f_equal; exact Ex|exact Hd|exact Hm']. }
    destruct (header_line l).
    { destruct cur as [[[q name] data]|]; [|contradiction]. eapply Hstop; [reflexivity|exact Hm]. }
    destruct cur as [[[q name] data]|].
    + destruct Hcur as (t & E & (x & Ex) & Hd).
      destruct (ends_data l).
      { apply in_app_or in Hm. destruct Hm as [Hm|Hm]; [eapply Hstop; [reflexivity|exact Hm]|]. exact (IH _ None Hn I m Hm). }
      assert (Hx : exists x, pre ++ l ++ [10%N] = q ++ x) by (rewrite Ex, <- app_assoc; eauto).
      destruct (first_is 59 (trim l) || first_is 33 (trim l)).
      { apply (IH _ (Some (q, name, data)) Hn); [|exact Hm]. exists t. auto. }
      apply (IH _ (Some (q, name, data ++ [l])) Hn); [|exact Hm]. exists t. split; [exact E|]. split; [exact Hx|].
      apply Forall_app. split; [exact Hd|]. constructor; [|constructor]. exists x, c. rewrite app_assoc, <- Ex. exact Hl.
    + destruct (starts_with (lit ";") (content l) || starts_with (lit "!:") (content l)); [exact (IH _ None Hn I m Hm)|].
      destruct (find_char is_colon (content l)) as [[k [|ch v]]|]; [exact (IH _ None Hn I m Hm)| |exact (IH _ None Hn I m Hm)].
      destruct (str_eqb (trim k) key); [|exact (IH _ None Hn I m Hm)].
      apply (IH _ (Some (pre ++ indent l, trim v, [])) Hn); [|exact Hm]. exists (content l ++ c). split; [|split].
      * rewrite <- app_assoc, (app_assoc (indent l)), indent_content. exact Hl.
      * exists (content l ++ [10%N]). rewrite <- app_assoc, (app_assoc (indent l)), indent_content. reflexivity.
      * constructor.
Qed.

Lemma reads_located src miss name ls s : in_src src ls -> reads src miss name ls s -> located_section src miss s.
Proof.
  intros Hin. destruct s as [fs sp|l|l|l|l]; cbn [reads located_section].
  - intros (_ & _ & (a & t & b & H) & _). exists a, t, b. exact H.
  - intros (_ & ->) e He. destruct (styles_from _ _ _ _ He) as (p & x & d & f & s0 & H1 & H2 & H3 & ->).
    destruct (in_src_in src ls p x Hin (body_in _ _ H1)) as (c & Ec).
    exists (content x), d, f, s0. split; [apply (line_span_points src miss p x c Ec)|]. rewrite trim_content. auto.
  - intros (_ & ->) e He. destruct (events_from _ _ _ _ He) as (p & x & f & e0 & H1 & H2 & ->).
    destruct (in_src_in src ls p x Hin (body_in _ _ H1)) as (c & Ec).
    exists (content x), f, e0. split; [apply (line_span_points src miss p x c Ec)|]. rewrite trim_content. auto.
  - intros (_ & ->) m Hm. destruct Hin as (pre & xs & -> & Hx). exact (media_from miss (lit "fontname") src xs pre None Hx I m Hm).
  - intros (_ & ->) m Hm. destruct Hin as (pre & xs & -> & Hx). exact (media_from miss (lit "filename") src xs pre None Hx I m Hm).
Qed.
Lemma mark_in_src src h m after : mark_at src h m after -> in_src src (mk_lines m).
Proof.
  intros (raw & t & e & b & E & _ & _ & _ & -> & [(-> & ->)|(_ & _ & ->)]).
  - replace src with ((h ++ [91%N] ++ raw ++ [93%N] ++ t ++ [10%N]) ++ b) by (rewrite E, <- !app_assoc; reflexivity).
    apply in_src_lines.
  - exists [], []. split; [reflexivity|congruence].
Qed.
Lemma marks_in_src src k ms : marks_from src k ms -> Forall (fun m => in_src src (mk_lines m)) ms.
Proof. induction 1 as [|k h m a ms H _ _ IH]; constructor; [exact (mark_in_src _ _ _ _ H)|exact IH]. Qed.

Lemma parse_located reg src sc s : parse_with reg src = Done sc -> In s (sc_sections sc) -> exists miss, located_section src miss s.
Proof.
  intros E Hin. destruct (N.leb_spec (N.of_nat (blen src)) max_input_size) as [H|H].
  - destruct (parse_marks reg src sc H E) as (marks & M1 & _ & M2 & _). apply marks_in_src in M1.
    clear - M1 M2 Hin. induction M2 as [|m s' ms ss H1 _ IH]; [contradiction|]. inversion M1; subst. destruct Hin as [<-|Hin]; [|auto].
    exists (mk_miss m). eapply reads_located; eassumption.
  - rewrite (parse_large reg src H) in E. injection E as <-. contradiction.
Qed.
Lemma parse_numbers reg src sc s : headers_closed (source_lines src) = true -> no_gap false false (source_lines src) = true ->
  parse_with reg src = Done sc -> In s (sc_sections sc) -> located_section src 0 s.
Proof.
  intros Hc Hg E Hin. destruct (N.leb_spec (N.of_nat (blen src)) max_input_size) as [H|H].
  - destruct (parse_closed reg src sc H Hc E) as (_ & _ & M). specialize (M Hg).
    assert (Hs : Forall (fun x => in_src src (snd x)) (filter (fun x => known_name (fst x)) (sections_in (source_lines src)))).
    { apply Forall_forall. intros [n r] Hx. apply filter_In in Hx. destruct Hx as [Hx _]. apply (in_src_section src (source_lines src) n r); [|exact Hx].
      unfold source_lines. rewrite (bom_text src) at 1. apply in_src_lines. }
    clear - M Hs Hin. induction M as [|x s' ms ss H1 _ IH]; [contradiction|]. inversion Hs; subst. destruct Hin as [<-|Hin]; [|auto].
    eapply reads_located; eassumption.
  - rewrite (parse_large reg src H) in E. injection E as <-. contradiction.
Qed.

(* two readings of the same lines differ in positions only *)
Lemma events_in_bare a b fmt ls : map (fun x => set_event_span x here) (fst (events_in a fmt ls)) = map (fun x => set_event_span x here) (fst (events_in b fmt ls)) /\
  snd (events_in a fmt ls) = snd (events_in b fmt ls).
Proof.
  revert fmt. induction ls as [|[p l] ls IH]; intros fmt; [split; reflexivity|]. cbn [events_in]. destruct (format_of (trim l)); [apply IH|].
  specialize (IH fmt). destruct (events_in a fmt ls), (events_in b fmt ls). cbn [fst snd] in IH. destruct IH as [I1 I2].
  destruct (parse_event_line (trim l) fmt 0); cbn [fst snd map]; split; try assumption. rewrite I1. reflexivity.
Qed.
Lemma styles_in_bare a b fmt ls : map (fun x => set_style_span x here) (fst (styles_in a fmt ls)) = map (fun x => set_style_span x here) (fst (styles_in b fmt ls)) /\
  snd (styles_in a fmt ls) = snd (styles_in b fmt ls).
Proof.
  revert fmt. induction ls as [|[p l] ls IH]; intros fmt; [split; reflexivity|]. cbn [styles_in]. destruct (format_of (trim l)); [apply IH|].
  specialize (IH fmt). destruct (styles_in a fmt ls), (styles_in b fmt ls). cbn [fst snd] in IH. destruct IH as [I1 I2].
  destruct (strip_prefix (lit "Style:") (trim l)) as [d|]; [|split; assumption].
  destruct (parse_style_line (trim d) fmt 0); cbn [fst snd map]; split; try assumption. rewrite I1. reflexivity.
Qed.
Lemma media_in_bare a b key fin ls : forall cur, map bare_media (media_in a key fin cur ls) = map bare_media (media_in b key fin cur ls).
Proof.
  assert (Hc : forall cur stop, map bare_media (close_entry a cur stop) = map bare_media (close_entry b cur stop)) by (intros [[[q n] d]|] stop; reflexivity).
  induction ls as [|[p l] ls IH]; intros cur; cbn [media_in]; [apply Hc|]. destruct (header_line l); [apply Hc|].
  destruct cur as [[[q n] d]|].
  - destruct (ends_data l); [rewrite !map_app, Hc, IH; reflexivity|]. destruct (_ || _); apply IH.
  - destruct (_ || _); [apply IH|]. destruct (find_char is_colon (content l)) as [[k [|c v]]|]; try apply IH. destruct (str_eqb (trim k) key); apply IH.
Qed.
Lemma reads_bare src a b n r s s' : known_name n = true -> reads src a n r s -> reads src b n r s' -> bare s = bare s'.
Proof.
  intros _. destruct s as [f sp|l|l|l|l]; destruct s' as [f' sp'|l'|l'|l'|l']; cbn [reads bare]; intros [E1 R1] [E2 R2]; subst;
    try (vm_compute in E1; discriminate); try (vm_compute in E2; discriminate).
  - destruct R1 as [-> _], R2 as [-> _]. reflexivity.
  - f_equal. apply styles_in_bare.
  - f_equal. apply events_in_bare.
  - f_equal. apply media_in_bare.
  - f_equal. apply media_in_bare.
Qed.
Lemma reads_same src l : forall m m', Forall2 (fun x s => exists miss, reads src miss (fst x) (snd x) s) (filter (fun x => known_name (fst x)) l) m ->
  Forall2 (fun x s => exists miss, reads src miss (fst x) (snd x) s) (filter (fun x => known_name (fst x)) l) m' -> map bare m = map bare m'.
Proof.
  induction l as [|[n r] l IH]; intros m m' H H'; cbn [filter fst] in *; [inversion H; inversion H'; reflexivity|].
  destruct (known_name n) eqn:E; [|apply IH; assumption]. inversion H as [|x s y t (a & R) T]; inversion H' as [|x' s' y' t' (b & R') T']; subst. cbn [map fst snd] in *.
  f_equal; [exact (reads_bare src a b n r s s' E R R')|apply IH; assumption].
Qed.
