(* Reading and writing whole files. *)
From Verif Require Import Base BaseLemmas NumSpec NumProofs Utf8Model Utf8Proofs ParseModel ParseSpec ParseLineProofs ParseProofs StyleModel FormatModel FormatSpec FormatText FormatFile.
From Verif Require IncrBounds.
Ltac Zify.zify_post_hook ::= Z.div_mod_to_equations.

(* ---- arrows ---- *)
Lemma no_arrow_contains s : no_arrow s -> contains (lit "-->") s = false.
Proof.
  intros H. unfold contains. destruct (find_str (lit "-->") s) as [[a b]|] eqn:E; [|reflexivity]. exfalso.
  apply IncrBounds.find_str_first in E as (_ & (y & Y) & _). exact (H a y Y).
Qed.
Lemma arrow_contains a b : contains (lit "-->") (a ++ lit "-->" ++ b) = true.
Proof.
  unfold contains. destruct (find_str (lit "-->") (a ++ lit "-->" ++ b)) as [[x y]|] eqn:E; [reflexivity|]. exfalso.
  apply (proj1 (IncrBounds.find_str_none _ _) E a). exists b. reflexivity.
Qed.
Lemma contains_arrow s : contains (lit "-->") s = true -> exists a b, s = a ++ lit "-->" ++ b.
Proof.
  unfold contains. destruct (find_str (lit "-->") s) as [[a b]|] eqn:E; [|discriminate]. intros _.
  apply IncrBounds.find_str_first in E as (_ & (y & Y) & _). exists a, y. exact Y.
Qed.
Lemma without_no_arrow s : without 45 s -> no_arrow s.
Proof. intros H a b ->. apply without_app in H as [_ H]. discriminate. Qed.
Lemma split_str_over p u r : nowhere p u = true -> split_str_go p (u ++ r) 0 = match split_str_go p r 0 with [] => [u] | w :: ws => (u ++ w) :: ws end.
Proof.
  intros H. assert (NE : forall s k, split_str_go p s k <> []).
  { induction s as [|c s IH]; intros k; [discriminate|]. cbn [split_str_go]. destruct k; [|apply IH]. destruct (starts_with p (c :: s)); [discriminate|]. destruct (split_str_go p s 0); discriminate. }
  induction u as [|c u IH]; [destruct (split_str_go p r 0) eqn:E; [exfalso; exact (NE r 0 E)|]; cbn [app]; exact E|].
  cbn [nowhere] in H. apply andb_prop in H as [H1 H2]. cbn [app split_str_go].
  rewrite (clash_starts p (c :: u) r H1 : starts_with p (c :: u ++ r) = false), (IH H2). destruct (split_str_go p r 0); reflexivity.
Qed.
Lemma split_str_skip p u : forall r, split_str_go p (u ++ r) (List.length u) = split_str_go p r 0.
Proof. induction u as [|c u IH]; intros r; [reflexivity|]. cbn [app List.length split_str_go]. apply IH. Qed.
Lemma split_arrow u v : without 45 u -> without 45 v -> split_str (lit "-->") (u ++ lit "-->" ++ v) = [u; v].
Proof.
  intros Hu Hv. unfold split_str. assert (N1 : forall s, without 45 s -> nowhere (lit "-->") s = true) by (intros s; exact (nowhere_without 45 (lit "->") s)).
  rewrite split_str_over by exact (N1 u Hu).
  assert (E : split_str_go (lit "-->") (lit "-->" ++ v) 0 = [] :: split_str_go (lit "-->") v 0) by (cbn; reflexivity).
  rewrite E, app_nil_r. rewrite <- (app_nil_r v) at 1. rewrite split_str_over by exact (N1 v Hv). cbn. rewrite app_nil_r. reflexivity.
Qed.
Lemma contains_split s : contains (lit "-->") s = true -> exists a b r, split_str (lit "-->") s = a :: b :: r.
Proof.
  intros H. apply contains_arrow in H as (a & b & ->). unfold split_str.
  assert (NE : forall s k, split_str_go (lit "-->") s k <> []).
  { induction s as [|c s IH]; intros k; [discriminate|]. cbn [split_str_go]. destruct k; [|apply IH]. destruct (starts_with (lit "-->") (c :: s)); [discriminate|]. destruct (split_str_go _ s 0); discriminate. }
  assert (G : forall a k, k <= List.length a -> exists x y r, split_str_go (lit "-->") (a ++ lit "-->" ++ b) k = x :: y :: r).
  { clear a. induction a as [|c a IH]; intros k L.
    - destruct k; [|cbn in L; lia]. change (split_str_go (lit "-->") ([] ++ lit "-->" ++ b) 0) with ([] :: split_str_go (lit "-->") b 0).
      destruct (split_str_go (lit "-->") b 0) as [|y r] eqn:E; [exfalso; exact (NE b 0 E)|]. eauto.
    - cbn [app split_str_go]. destruct k as [|k]; [|apply IH; cbn in L; lia].
      destruct (starts_with (lit "-->") (c :: a ++ lit "-->" ++ b)) eqn:S1.
      + destruct (split_str_go (lit "-->") (a ++ lit "-->" ++ b) (List.length (lit "-->") - 1)) as [|y r] eqn:E; [exfalso; exact (NE _ _ E)|]. eauto.
      + destruct (IH 0 ltac:(lia)) as (x & y & r & ->). eauto. }
  exact (G a 0 ltac:(lia)).
Qed.

(* ---- the lines of a cue ---- *)
Definition entry_of (c : cue) : entry := Entry (ass_time (cu_start c)) (ass_time (cu_end c)) (ass_text c).
Lemma sub_without k sep t : k <> 58%N -> (k < 48 \/ 57 < k)%N -> k <> sep -> without k (sub_time sep t).
Proof.
  intros H1 H2 H3. unfold sub_time. rewrite ms_time_hms. apply without_app. split; [apply hms_without; [apply dec_pad_digits|exact H1|exact H2]|].
  change (sep :: dec_pad 3 (ck_cs t * 10)) with ([sep] ++ dec_pad 3 (ck_cs t * 10)). apply without_app. split; [apply plain_without; congruence|]. exact (digits_without k _ (dec_pad_digits _ _) H2).
Qed.
Lemma sub_solid sep t : is_ws sep = false -> solid (sub_time sep t).
Proof. apply ms_time_solid. Qed.
Lemma stamp_parts sep c : stamp sep c = (sub_time sep (cu_start c) ++ [32%N]) ++ lit "-->" ++ ([32%N] ++ sub_time sep (cu_end c)).
Proof. unfold stamp. rewrite <- app_assoc. reflexivity. Qed.
Lemma stamp_split sep c : sep <> 45%N -> split_str (lit "-->") (stamp sep c) = [sub_time sep (cu_start c) ++ [32%N]; [32%N] ++ sub_time sep (cu_end c)].
Proof.
  intros H. rewrite stamp_parts. apply split_arrow; apply without_app; split; try reflexivity; (apply sub_without; [discriminate|lia|congruence]).
Qed.
Lemma stamp_arrow sep c : contains (lit "-->") (stamp sep c) = true.
Proof. rewrite stamp_parts. apply arrow_contains. Qed.
Lemma stamp_solid sep c : is_ws sep = false -> solid (stamp sep c).
Proof.
  intros H. unfold stamp. destruct (sub_solid sep (cu_start c) H) as [A1 _]. destruct (sub_solid sep (cu_end c) H) as [A B]. split.
  - destruct (sub_time sep (cu_start c)); [contradiction|exact A1].
  - rewrite app_assoc. rewrite last_app_ne; [exact B|]. intros E; rewrite E in A; exact A.
Qed.
Lemma solid_ne s : solid s -> s <> []. Proof. intros [H _] ->. exact H. Qed.
Lemma solid_nonempty s : solid s -> nonempty (trim s) = true.
Proof. intros H. rewrite (solid_trim s H). destruct s; [destruct H; contradiction|reflexivity]. Qed.
Lemma concat_last {A} (f : piece -> list A) l p d : (forall q, f q <> []) -> last (concat (map f (l ++ [p]))) d = last (f p) d.
Proof. intros H. rewrite map_app, concat_app. cbn [map concat]. rewrite app_nil_r. apply last_app_ne, H. Qed.
Lemma html_ne p : html_piece p <> []. Proof. destruct p as [c|[] []]; discriminate. Qed.
Lemma ass_ne p : ass_piece p <> []. Proof. destruct p as [c|[] []]; discriminate. Qed.
Lemma html_solid s l : line_ok s l -> solid (html_line l).
Proof.
  intros [H1 H2 H3]. apply trim_solid; [|exact H3]. destruct l as [|p l]; [congruence|]. unfold html_line. cbn [map concat]. pose proof (html_ne p).
  destruct (html_piece p); [congruence|discriminate].
Qed.
Lemma ass_solid s l : line_ok s l -> solid (ass_line l).
Proof.
  intros H. pose proof (html_solid s l H) as [S1 S2]. pose proof (lo_some s l H) as NE. split.
  - destruct l as [|p l]; [congruence|]. unfold ass_line, html_line in *. cbn [map concat] in *. destruct p as [c|[] []]; [exact S1|reflexivity..].
  - destruct (exists_last NE) as (l' & p & ->). unfold ass_line, html_line in *. rewrite concat_last in * by (apply html_ne || apply ass_ne). destruct p as [c|[] []]; [exact S2|reflexivity..].
Qed.
Lemma join_solid sep l : solid sep -> l <> [] -> Forall solid l -> solid (join sep l).
Proof.
  intros Hs Hl H. induction H as [|x l H HF IH]; [congruence|]. destruct l as [|y l]; [exact H|]. rewrite join_cons by discriminate.
  apply solid_app; [exact H|]. apply solid_app; [exact Hs|]. apply IH. discriminate.
Qed.
Lemma ass_text_solid s c : cue_ok s c -> solid (ass_text c).
Proof.
  intros H. unfold ass_text. apply join_solid; [split; reflexivity|destruct (cu_lines c) eqn:E; [exfalso; exact (co_some s c H E)|discriminate]|].
  rewrite Forall_map. eapply Forall_impl; [|exact (co_lines s c H)]. intros l L. exact (ass_solid s l L).
Qed.
Lemma entry_of_fit s c : cue_ok s c -> entry_fit (entry_of c).
Proof.
  intros H. assert (T : forall k t, (k = 10 \/ k = 44)%N -> without k (ass_time t)).
  { intros k t K. rewrite ass_time_hms. apply without_app. split; [apply hms_without; [apply to_dec_digits|lia..]|].
    change (46%N :: dec_pad 2 (ck_cs t)) with ([46%N] ++ dec_pad 2 (ck_cs t)). apply without_app. split; [apply plain_without; lia|apply digits_without; [apply dec_pad_digits|lia]]. }
  repeat split; cbn [entry_of en_start en_end en_text]; try (apply T; auto); try (apply (T 44%N); auto).
  unfold ass_text. change (lit "\N") with break. unfold ass_line. rewrite <- rend_toks.
  apply (toks_without 10 break _ s); [exact (toks_ok s _ (cue_pieces s c H))|reflexivity|apply ass_no_nl].
Qed.
Lemma entry_of_says s c ev : cue_ok s c -> entry_read ev (entry_of c) -> says ev c.
Proof.
  intros H (R1 & R2 & R3 & _ & R4). cbn [entry_of en_start en_end en_text] in *. rewrite ass_time_trim in *. rewrite (solid_trim _ (ass_text_solid s c H)) in R4.
  repeat split; assumption.
Qed.
(* the lines of a file *)
Lemma html_line_text s l : line_ok s l -> line_text (html_line l).
Proof.
  intros H. apply solid_line; [|exact (html_solid s l H)]. unfold html_line. rewrite <- (line_toks [] html_piece). apply (toks_without 10 [] _ s); [exact (line_tok_ok s l (lo_pieces s l H))|reflexivity|apply html_no_nl].
Qed.
Lemma stamp_line sep c : is_ws sep = false -> sep <> 10%N -> line_text (stamp sep c).
Proof.
  intros H1 H2. apply solid_line; [|exact (stamp_solid sep c H1)]. unfold stamp. repeat rewrite without_app.
  split; [apply sub_without; [discriminate|lia|congruence]|]. split; [reflexivity|]. apply sub_without; [discriminate|lia|congruence].
Qed.
Lemma block_lines_text s sep c : is_ws sep = false -> sep <> 10%N -> cue_ok s c -> Forall line_text (cue_block sep c).
Proof.
  intros H1 H2 H. unfold cue_block. constructor; [exact (stamp_line sep c H1 H2)|]. apply Forall_app. split; [|repeat constructor].
  rewrite Forall_map. eapply Forall_impl; [|exact (co_lines s c H)]. exact (html_line_text s).
Qed.
Lemma blocks_text s num sep l : is_ws sep = false -> sep <> 10%N -> Forall (cue_ok s) l -> forall i, Forall line_text (blocks num sep i l).
Proof.
  intros H1 H2. induction 1 as [|c l H _ IH]; intros i; [constructor|]. cbn [blocks]. apply Forall_app. split.
  - destruct num; constructor; [|constructor]. apply solid_line; [apply digits_without; [apply to_dec_digits|lia]|apply to_dec_solid].
  - apply Forall_app. split; [exact (block_lines_text s sep c H1 H2 H)|apply IH].
Qed.
Lemma srt_file_lines s l : Forall (cue_ok s) l -> lines (srt_file l) = blocks true 44 1 l.
Proof. intros H. apply lines_unlines. apply (blocks_text s); [reflexivity|discriminate|exact H]. Qed.
Lemma vtt_file_lines s num l : Forall (cue_ok s) l -> lines (vtt_file num l) = [lit "WEBVTT"; []] ++ blocks num 46 1 l.
Proof.
  intros H. apply lines_unlines. apply Forall_app. split; [repeat constructor|]. apply (blocks_text s); [reflexivity|discriminate|exact H].
Qed.

(* ---- FormatConverter import ---- *)
Lemma fold_res_app {A B} (f : A -> B -> res A) l1 : forall l2 a, fold_res f (l1 ++ l2) a = (x <~ fold_res f l1 a ; fold_res f l2 x).
Proof. induction l1 as [|x l1 IH]; intros l2 a; [reflexivity|]. cbn [app fold_res]. destruct (f a x); cbn [res_bind]; [apply IH|reflexivity..]. Qed.
Lemma add_lines step conv d a b ls : (forall d e l, In l ls -> step (SrtState d (Some e) true) l = Ok (SrtState d (Some (add_text conv l e)) true)) ->
  Forall (fun l => conv l <> []) ls -> forall t,
  fold_res step ls (SrtState d (Some (Entry a b t)) true) =
    Ok (SrtState d (Some (Entry a b (match t with [] => join break (map conv ls) | _ => join break (t :: map conv ls) end))) true).
Proof.
  induction ls as [|l ls IH]; intros Hs Hc t; [destruct t; reflexivity|]. inversion Hc as [|? ? C1 C2]; subst.
  cbn [fold_res]. rewrite Hs by (left; reflexivity). cbn [res_bind]. unfold add_text. cbn [en_start en_end en_text].
  rewrite IH by (auto; intros; apply Hs; right; assumption).
  destruct t as [|x t].
  - cbn [app]. destruct (conv l) as [|y z] eqn:E; [congruence|]. cbn [map]. rewrite E. reflexivity.
  - destruct ((x :: t) ++ break) eqn:E0; [discriminate|]. rewrite <- E0. clear E0.
    destruct (((x :: t) ++ break) ++ conv l) eqn:E; [apply app_eq_nil in E as [E _]; discriminate|]. rewrite <- E. do 4 f_equal. cbn [map]. clear.
    rewrite (join_cons break (x :: t)) by discriminate. destruct (map conv ls) as [|m ms]; [symmetry; apply app_assoc|].
    rewrite (join_cons break (conv l)) by discriminate. rewrite (join_cons break (((x :: t) ++ break) ++ conv l)) by discriminate. repeat rewrite <- app_assoc. reflexivity.
Qed.
Lemma digits_stamp sep c : sep <> 58%N -> forallb is_digit (stamp sep c) = false.
Proof.
  intros _. destruct (forallb is_digit (stamp sep c)) eqn:E; [|reflexivity]. exfalso. unfold stamp in E. rewrite !forallb_app in E.
  apply andb_prop in E as [_ E]. apply andb_prop in E as [E _]. discriminate.
Qed.
Lemma trim_right s : solid s -> trim (s ++ [32%N]) = s.
Proof. intros H. exact (trim_app_ws [] s [32%N] eq_refl eq_refl (solid_trim s H)). Qed.
Lemma trim_left s : solid s -> trim ([32%N] ++ s) = s.
Proof. intros H. pose proof (trim_app_ws [32%N] s [] eq_refl eq_refl (solid_trim s H)) as E. rewrite app_nil_r in E. exact E. Qed.
Lemma text_join conv c s : cue_ok s c -> (forall l, Forall (piece_ok s) l -> conv (html_line l) = ass_line l) ->
  join break (map conv (map html_line (cu_lines c))) = ass_text c.
Proof.
  intros H Hc. unfold ass_text. rewrite map_map. f_equal. apply map_ext_in. intros l Hl. apply Hc.
  pose proof (cue_pieces s c H) as F. rewrite Forall_forall in F. exact (F l Hl).
Qed.
Lemma conv_ne conv c s : cue_ok s c -> (forall l, Forall (piece_ok s) l -> conv (html_line l) = ass_line l) ->
  Forall (fun l => conv l <> []) (map html_line (cu_lines c)).
Proof.
  intros H Hc. rewrite Forall_map. eapply Forall_impl; [|exact (co_lines s c H)]. intros l L. rewrite (Hc l (lo_pieces s l L)). exact (solid_ne _ (ass_solid s l L)).
Qed.
Lemma srt_block i c d : srt_ok c -> fold_res srt_line (to_dec i :: cue_block 44 c) (SrtState d None false) = Ok (SrtState (d ++ [entry_of c]) None false).
Proof.
  intros [H HA]. cbn [fold_res cue_block]. unfold srt_line at 1. rewrite (solid_trim _ (to_dec_solid i)). pose proof (solid_nonempty _ (to_dec_solid i)) as N1.
  rewrite (solid_trim _ (to_dec_solid i)) in N1. rewrite N1, to_dec_digits. cbn [negb andb res_bind st_text st_done st_cur].
  unfold srt_line at 1. pose proof (stamp_solid 44 c eq_refl) as SS. pose proof (solid_nonempty _ SS) as N2. rewrite (solid_trim _ SS) in *. rewrite N2.
  rewrite digits_stamp by discriminate. cbn [negb andb]. rewrite stamp_arrow. cbn [st_cur]. rewrite stamp_split by discriminate.
  rewrite trim_right, trim_left by (apply sub_solid; reflexivity).
  rewrite (conv_srt_sub _ (co_start _ _ H)), (conv_srt_sub _ (co_end _ _ H)). cbn [res_bind st_done en_text].
  rewrite fold_res_app, (add_lines srt_line conv_srt_text).
  - cbn [res_bind fold_res]. rewrite (text_join conv_srt_text c false H conv_srt_line). reflexivity.
  - intros d0 e l Hl. apply in_map_iff in Hl as (p & <- & Hp).
    assert (L : line_ok false p) by (pose proof (co_lines _ _ H) as F; rewrite Forall_forall in F; exact (F p Hp)).
    assert (A : no_arrow (html_line p)) by (unfold arrowless in HA; rewrite Forall_forall in HA; exact (HA p Hp)).
    unfold srt_line. pose proof (solid_nonempty _ (html_solid _ p L)) as N3. rewrite (solid_trim _ (html_solid _ p L)) in *. rewrite N3. cbn [negb st_text].
    rewrite andb_false_r, (no_arrow_contains _ A). reflexivity.
  - exact (conv_ne conv_srt_text c false H conv_srt_line).
Qed.
Lemma srt_blocks l : Forall srt_ok l -> forall i d, fold_res srt_line (blocks true 44 i l) (SrtState d None false) = Ok (SrtState (d ++ map entry_of l) None false).
Proof.
  induction 1 as [|c l H _ IH]; intros i d; [cbn; rewrite app_nil_r; reflexivity|]. cbn [blocks]. rewrite app_assoc, fold_res_app.
  change ([to_dec i] ++ cue_block 44 c) with (to_dec i :: cue_block 44 c). rewrite (srt_block i c d H). cbn [res_bind]. rewrite IH, <- app_assoc. reflexivity.
Qed.
Lemma conv_srt_file l : Forall srt_ok l -> conv_srt_entries (srt_file l) = Ok (map entry_of l).
Proof.
  intros H. unfold conv_srt_entries. rewrite (srt_file_lines false) by (eapply Forall_impl; [|exact H]; intros c [C _]; exact C).
  rewrite (srt_blocks l H). reflexivity.
Qed.
Lemma digit_start a r s : (forall c, is_digit c = true -> c <> a) -> s <> [] -> forallb is_digit s = true -> starts_with (a :: r) s = false.
Proof.
  intros Ha Hs H. destruct s as [|c s]; [congruence|]. cbn [forallb] in H. apply andb_prop in H as [H _]. unfold starts_with. cbn [strip_prefix].
  destruct (N.eqb_spec a c); [exfalso; exact (Ha c H (eq_sym e))|reflexivity].
Qed.
Lemma stamp_start sep c a r : (a < 48 \/ 57 < a)%N -> starts_with (a :: r) (stamp sep c) = false.
Proof.
  intros Ha. unfold stamp, sub_time, ms_time. pose proof (dec_pad_nonempty 2 (ck_h (cu_start c))) as NE. pose proof (dec_pad_digits 2 (ck_h (cu_start c))) as D.
  destruct (dec_pad 2 (ck_h (cu_start c))) as [|x xs]; [congruence|]. cbn [forallb] in D. apply andb_prop in D as [D _]. unfold starts_with. cbn [app strip_prefix].
  destruct (N.eqb_spec a x); [exfalso; unfold is_digit in D; lia|reflexivity].
Qed.
Lemma vtt_block (num : bool) i c d : vtt_ok c ->
  fold_res vtt_line ((if num then [to_dec i] else []) ++ cue_block 46 c) (SrtState d None false) = Ok (SrtState (d ++ [entry_of c]) None false).
Proof.
  intros (H & HA & HW & HN).
  assert (G : fold_res vtt_line (cue_block 46 c) (SrtState d None false) = Ok (SrtState (d ++ [entry_of c]) None false)).
  { cbn [cue_block fold_res]. unfold vtt_line at 1. pose proof (stamp_solid 46 c eq_refl) as SS. pose proof (solid_nonempty _ SS) as N2. rewrite (solid_trim _ SS) in *. rewrite N2.
    change (lit "WEBVTT") with (87%N :: lit "EBVTT"). change (lit "NOTE") with (78%N :: lit "OTE"). rewrite !stamp_start by lia. cbn [negb orb].
    rewrite stamp_arrow, stamp_split by discriminate. rewrite trim_right, trim_left by (apply sub_solid; reflexivity).
    rewrite (conv_vtt_sub _ (co_start _ _ H)), (conv_vtt_sub _ (co_end _ _ H)). cbn [res_bind st_done].
    rewrite fold_res_app, (add_lines vtt_line conv_vtt_text).
    - cbn [res_bind fold_res]. rewrite (text_join conv_vtt_text c false H conv_vtt_line). reflexivity.
    - intros d0 e l Hl. apply in_map_iff in Hl as (p & <- & Hp).
      assert (L : line_ok false p) by (pose proof (co_lines _ _ H) as F; rewrite Forall_forall in F; exact (F p Hp)).
      assert (A : no_arrow (html_line p)) by (unfold arrowless in HA; rewrite Forall_forall in HA; exact (HA p Hp)).
      assert (W : starts_with (lit "WEBVTT") (html_line p) = false) by (unfold wordless in HW; rewrite Forall_forall in HW; exact (HW p Hp)).
      assert (W2 : starts_with (lit "NOTE") (html_line p) = false) by (unfold wordless in HN; rewrite Forall_forall in HN; exact (HN p Hp)).
      unfold vtt_line. pose proof (solid_nonempty _ (html_solid _ p L)) as N3. rewrite (solid_trim _ (html_solid _ p L)) in *. rewrite N3, W, W2. cbn [negb orb].
      rewrite (no_arrow_contains _ A). reflexivity.
    - exact (conv_ne conv_vtt_text c false H conv_vtt_line). }
  destruct num; [|exact G]. cbn [app fold_res]. unfold vtt_line at 1. rewrite (solid_trim _ (to_dec_solid i)). pose proof (solid_nonempty _ (to_dec_solid i)) as N1.
  rewrite (solid_trim _ (to_dec_solid i)) in N1. rewrite N1.
  change (lit "WEBVTT") with (87%N :: lit "EBVTT"). change (lit "NOTE") with (78%N :: lit "OTE").
  rewrite !digit_start by (apply to_dec_nonempty || apply to_dec_digits || (intros x Hx; unfold is_digit in Hx; lia)). cbn [negb orb].
  rewrite no_arrow_contains by (apply without_no_arrow, digits_without; [apply to_dec_digits|lia]). cbn [st_text res_bind]. exact G.
Qed.
Lemma vtt_blocks num l : Forall vtt_ok l -> forall i d, fold_res vtt_line (blocks num 46 i l) (SrtState d None false) = Ok (SrtState (d ++ map entry_of l) None false).
Proof.
  induction 1 as [|c l H _ IH]; intros i d; [cbn; rewrite app_nil_r; reflexivity|]. cbn [blocks]. rewrite app_assoc, fold_res_app.
  rewrite (vtt_block num i c d H). cbn [res_bind]. rewrite IH, <- app_assoc. reflexivity.
Qed.
Lemma conv_vtt_file num l : Forall vtt_ok l -> conv_vtt_entries (vtt_file num l) = Ok (map entry_of l).
Proof.
  intros H. unfold conv_vtt_entries. rewrite (vtt_file_lines false) by (eapply Forall_impl; [|exact H]; intros c [C _]; exact C).
  rewrite fold_res_app. change (fold_res vtt_line [lit "WEBVTT"; []] (SrtState [] None false)) with (Ok (SrtState [] None false)). cbn [res_bind].
  rewrite (vtt_blocks num l H). reflexivity.
Qed.

(* ---- formats/ import ---- *)
Lemma text_block_app ls : Forall (fun l => blank_text l = false) ls -> forall r, (match r with [] => True | l :: _ => blank_text l = true end) ->
  text_block (ls ++ r) = (ls, r).
Proof.
  induction 1 as [|l ls H _ IH]; intros r Hr.
  - cbn [app]. destruct r as [|l r]; [reflexivity|]. cbn [text_block]. rewrite Hr. reflexivity.
  - cbn [app text_block]. rewrite H, (IH r Hr). reflexivity.
Qed.
Lemma html_not_blank s c : cue_ok s c -> Forall (fun l => blank_text l = false) (map html_line (cu_lines c)).
Proof.
  intros H. rewrite Forall_map. eapply Forall_impl; [|exact (co_lines s c H)]. intros l L. unfold blank_text. rewrite (solid_nonempty _ (html_solid s l L)). reflexivity.
Qed.
Lemma solid_not_blank s : solid s -> blank_text s = false.
Proof. intros H. unfold blank_text. rewrite (solid_nonempty s H). reflexivity. Qed.
Definition pad (z : bool) : list str := if z then [[]] else [].
Lemma cue_block_rest sep c r : cue_block sep c ++ r = stamp sep c :: map html_line (cu_lines c) ++ [] :: r.
Proof. unfold cue_block. cbn [app]. rewrite <- app_assoc. reflexivity. Qed.
Lemma srt_subtitle_block z i c r : cue_ok true c -> srt_subtitle (pad z ++ to_dec i :: cue_block 44 c ++ r) = Ok (entry_of c, [] :: r).
Proof.
  intros H. unfold srt_subtitle. rewrite cue_block_rest.
  assert (E : skip_lines blank_text (pad z ++ to_dec i :: stamp 44 c :: map html_line (cu_lines c) ++ [] :: r) = to_dec i :: stamp 44 c :: map html_line (cu_lines c) ++ [] :: r).
  { assert (D : blank_text (to_dec i) = false) by exact (solid_not_blank _ (to_dec_solid i)).
    destruct z; cbn [pad app skip_lines]; [change (blank_text []) with true; cbv iota; cbn [skip_lines]|]; rewrite D; reflexivity. }
  rewrite E. rewrite stamp_split by discriminate.
  change (sub_time 44 (cu_start c) ++ [32%N]) with ([] ++ sub_time 44 (cu_start c) ++ [32%N]). unfold sub_time at 1. rewrite srt_in_ok by (reflexivity || apply (co_start _ _ H)).
  rewrite <- (app_nil_r (sub_time 44 (cu_end c))). unfold sub_time at 1. rewrite srt_in_ok by (reflexivity || apply (co_end _ _ H)).
  cbn [res_bind]. rewrite !clock_eta. rewrite text_block_app by (exact (html_not_blank true c H) || reflexivity).
  destruct (map html_line (cu_lines c)) eqn:M; [destruct (cu_lines c) eqn:Q; [exfalso; exact (co_some _ _ H Q)|discriminate]|]. rewrite <- M.
  rewrite (text_join srt_styling_in c true H srt_styling_line). reflexivity.
Qed.
Lemma srt_loop l : Forall (cue_ok true) l -> forall z i fuel, List.length (pad z ++ blocks true 44 i l) < fuel ->
  exists w, import_loop fuel srt_subtitle (pad z ++ blocks true 44 i l) = Ok (map entry_of l, w).
Proof.
  induction 1 as [|c l H _ IH]; intros z i fuel F.
  - cbn [blocks] in *. rewrite app_nil_r in *. destruct z; cbn [pad List.length] in *.
    + destruct fuel as [|[|fuel]]; [lia..|]. exists 1. reflexivity.
    + destruct fuel; [lia|]. exists 0. reflexivity.
  - destruct fuel as [|fuel]; [lia|]. cbn [blocks] in *. change ([to_dec i] ++ cue_block 44 c ++ blocks true 44 (i + 1) l) with (to_dec i :: cue_block 44 c ++ blocks true 44 (i + 1) l) in *.
    pose proof (srt_subtitle_block z i c (blocks true 44 (i + 1) l) H) as E.
    destruct (pad z ++ to_dec i :: cue_block 44 c ++ blocks true 44 (i + 1) l) as [|x xs] eqn:Q; [destruct z; discriminate|].
    cbn [import_loop]. rewrite E. destruct (IH true (i + 1)%N fuel) as [w W].
    { cbn [pad app]. assert (L : List.length (x :: xs) = List.length (pad z ++ to_dec i :: cue_block 44 c ++ blocks true 44 (i + 1) l)) by (rewrite Q; reflexivity).
      rewrite L in F. rewrite app_length in F. cbn [List.length] in *. rewrite app_length in F. unfold cue_block in F. cbn [List.length] in F. lia. }
    cbn [pad app] in W. rewrite W. exists w. reflexivity.
Qed.
Lemma srt_import_file l : Forall (cue_ok true) l -> exists w,
  srt_import (srt_file l) = Ok (Imported (unlines (format_lines "Title: Converted from SRT" []) ++ entry_lines (map entry_of l)) (List.length l) w).
Proof.
  intros H. unfold srt_import. rewrite (srt_file_lines true l H). destruct (srt_loop l H false 1 (S (List.length (blocks true 44 1 l))) ltac:(cbn [pad app]; lia)) as [w W].
  cbn [pad app] in W. rewrite W. exists w. cbn [res_bind]. unfold finish_import. cbn [fst snd]. rewrite format_head_lines, map_length. reflexivity.
Qed.
Lemma words_one s : solid s -> forallb (fun c => negb (is_ws c)) s = true -> words ([32%N] ++ s) = [s].
Proof.
  intros H F. unfold words. cbn [app split_on]. change (is_ws 32) with true. cbv iota. rewrite split_on_none by exact F. cbn [filter nonempty].
  destruct s; [destruct H; contradiction|reflexivity].
Qed.
Lemma sub_no_ws sep t : is_ws sep = false -> forallb (fun c => negb (is_ws c)) (sub_time sep t) = true.
Proof.
  intros H. assert (D : forall w n, forallb (fun c => negb (is_ws c)) (dec_pad w n) = true).
  { intros w n. apply digits_not; [apply dec_pad_digits|]. intros c Hc. unfold is_digit in Hc. unfold is_ws. lia. }
  unfold sub_time, ms_time. rewrite !forallb_app, !D. cbn [forallb]. rewrite H. reflexivity.
Qed.
Lemma not_skipped_digits s : s <> [] -> forallb is_digit s = true -> skipped_vtt s = false.
Proof.
  intros H D. pose proof (digs_solid s H D) as S1. unfold skipped_vtt. rewrite (solid_not_blank s S1), (solid_trim s S1). cbn [orb].
  change (lit "NOTE") with (78%N :: lit "OTE"). apply digit_start; [intros x Hx; unfold is_digit in Hx; lia|exact H|exact D].
Qed.
Lemma not_skipped_stamp c : skipped_vtt (stamp 46 c) = false.
Proof.
  pose proof (stamp_solid 46 c eq_refl) as S1. unfold skipped_vtt. rewrite (solid_not_blank _ S1), (solid_trim _ S1). cbn [orb].
  change (lit "NOTE") with (78%N :: lit "OTE"). apply stamp_start. lia.
Qed.
Lemma vtt_cue_stamp z k c r : cue_ok false c -> vtt_cue (S k) (pad z ++ cue_block 46 c ++ r) = Ok (entry_of c, [] :: r).
Proof.
  intros H. rewrite cue_block_rest. cbn [vtt_cue].
  assert (E : skip_lines skipped_vtt (pad z ++ stamp 46 c :: map html_line (cu_lines c) ++ [] :: r) = stamp 46 c :: map html_line (cu_lines c) ++ [] :: r).
  { destruct z; cbn [pad app skip_lines]; [change (skipped_vtt []) with true; cbv iota; cbn [skip_lines]|]; rewrite not_skipped_stamp; reflexivity. }
  rewrite E, stamp_arrow, stamp_split by discriminate.
  change (sub_time 46 (cu_start c) ++ [32%N]) with ([] ++ sub_time 46 (cu_start c) ++ [32%N]). unfold sub_time at 1. rewrite vtt_in_ok by (reflexivity || apply (co_start _ _ H)).
  cbn [res_bind]. rewrite words_one by (apply sub_solid || apply sub_no_ws; reflexivity).
  assert (T : vtt_time_in (sub_time 46 (cu_end c)) = Ok (ass_time (cu_end c))).
  { pose proof (vtt_in_ok [] [] (cu_end c) (ck_cs (cu_end c) * 10) eq_refl eq_refl ltac:(apply (co_end _ _ H))) as V. cbn [app] in V. rewrite app_nil_r in V. unfold sub_time. rewrite V, clock_eta. reflexivity. }
  rewrite T. cbn [res_bind]. rewrite clock_eta. rewrite text_block_app by (exact (html_not_blank false c H) || reflexivity).
  destruct (map html_line (cu_lines c)) eqn:M; [destruct (cu_lines c) eqn:Q; [exfalso; exact (co_some _ _ H Q)|discriminate]|]. rewrite <- M.
  rewrite (text_join vtt_styling_in c false H vtt_styling_line). reflexivity.
Qed.
Lemma vtt_cue_block (num z : bool) k i c r : cue_ok false c -> vtt_cue (S (S k)) (pad z ++ (if num then [to_dec i] else []) ++ cue_block 46 c ++ r) = Ok (entry_of c, [] :: r).
Proof.
  intros H. destruct num; [|exact (vtt_cue_stamp z (S k) c r H)].
  assert (E : skip_lines skipped_vtt (pad z ++ [to_dec i] ++ cue_block 46 c ++ r) = to_dec i :: cue_block 46 c ++ r).
  { destruct z; cbn [pad app skip_lines]; [change (skipped_vtt []) with true; cbv iota; cbn [skip_lines]|]; rewrite not_skipped_digits by (apply to_dec_nonempty || apply to_dec_digits); reflexivity. }
  remember (S k) as k1. cbn [vtt_cue]. rewrite E, no_arrow_contains by (apply without_no_arrow, digits_without; [apply to_dec_digits|lia]).
  destruct (cue_block 46 c ++ r) as [|n rest] eqn:Q; [discriminate|]. assert (N0 : n = stamp 46 c) by (unfold cue_block in Q; cbn [app] in Q; injection Q as <- _; reflexivity).
  rewrite N0, stamp_arrow, <- N0, <- Q. subst k1. exact (vtt_cue_stamp false k c r H).
Qed.
Lemma vtt_loop (num : bool) l : Forall (cue_ok false) l -> forall z i fuel, List.length (pad z ++ blocks num 46 i l) < fuel ->
  exists w, import_loop fuel (fun x => vtt_cue (S (List.length x)) x) (pad z ++ blocks num 46 i l) = Ok (map entry_of l, w).
Proof.
  induction 1 as [|c l H _ IH]; intros z i fuel F.
  - cbn [blocks] in *. rewrite app_nil_r in *. destruct z; cbn [pad List.length] in *.
    + destruct fuel as [|[|fuel]]; [lia..|]. exists 1. reflexivity.
    + destruct fuel; [lia|]. exists 0. reflexivity.
  - destruct fuel as [|fuel]; [lia|]. cbn [blocks] in *.
    assert (L : List.length (cue_block 46 c) >= 1) by (unfold cue_block; cbn; lia).
    pose proof (fun k => vtt_cue_block num z k i c (blocks num 46 (i + 1) l) H) as E.
    destruct (pad z ++ (if num then [to_dec i] else []) ++ cue_block 46 c ++ blocks num 46 (i + 1) l) as [|x xs] eqn:Q; [destruct z, num; discriminate|].
    cbn [import_loop]. cbn [List.length]. rewrite E. destruct (IH true (i + 1)%N fuel) as [w W].
    { cbn [pad app]. assert (L2 : List.length (x :: xs) = List.length (pad z ++ (if num then [to_dec i] else []) ++ cue_block 46 c ++ blocks num 46 (i + 1) l)) by (rewrite Q; reflexivity).
      rewrite L2 in F. rewrite !app_length in F. unfold cue_block in F. cbn [List.length] in F. rewrite app_length in F. cbn [List.length] in F. cbn [List.length]. destruct (cu_lines c) eqn:Z; [exfalso; exact (co_some _ _ H Z)|]. cbn [map List.length] in F. lia. }
    cbn [pad app] in W. rewrite W. exists w. reflexivity.
Qed.
Lemma vtt_import_file num l : Forall (cue_ok false) l -> exists w,
  vtt_import (vtt_file num l) = Ok (Imported (unlines (format_lines "Title: Converted from WebVTT" ["PlayResX: 640"; "PlayResY: 480"]%string) ++ entry_lines (map entry_of l)) (List.length l) w).
Proof.
  intros H. unfold vtt_import. rewrite (vtt_file_lines false num l H). cbn [app]. change (starts_with (lit "WEBVTT") (trim (lit "WEBVTT"))) with true. cbv iota.
  destruct (vtt_loop num l H true 1 (S (List.length ([] :: blocks num 46 1 l))) ltac:(cbn [pad app List.length]; lia)) as [w W].
  cbn [pad app] in W. rewrite W. exists w. cbn [res_bind]. unfold finish_import. cbn [fst snd]. rewrite format_head_lines, map_length. reflexivity.
Qed.

(* ---- export ---- *)
Lemma unlines_join ls : ls <> [] -> join [10%N] ls ++ [10%N] = unlines ls.
Proof.
  induction ls as [|l ls IH]; [congruence|]. intros _. destruct ls as [|m ls]; [cbn; rewrite app_nil_r; reflexivity|]. rewrite join_cons by discriminate.
  unfold unlines in *. cbn [map concat] in *. rewrite <- (IH ltac:(discriminate)). repeat rewrite <- app_assoc. reflexivity.
Qed.
Lemma unlines_cons l ls : unlines (l :: ls) = l ++ [10%N] ++ unlines ls.
Proof. unfold unlines. cbn [map concat]. rewrite <- app_assoc. reflexivity. Qed.
Lemma block_unlines s sep c r : cue_ok s c -> unlines (cue_block sep c ++ r) =
  sub_time sep (cu_start c) ++ lit " --> " ++ sub_time sep (cu_end c) ++ [10%N] ++ html_text c ++ [10%N; 10%N] ++ unlines r.
Proof.
  intros H. rewrite cue_block_rest, unlines_cons, unlines_app, unlines_cons. unfold html_text, stamp.
  rewrite <- (unlines_join (map html_line (cu_lines c))) by (destruct (cu_lines c) eqn:E; [exfalso; exact (co_some _ _ H E)|discriminate]).
  repeat rewrite <- app_assoc. reflexivity.
Qed.
Lemma all_dialogues_of l : all_dialogues l = dialogues_of l.
Proof.
  unfold all_dialogues, dialogues_of, events_of. induction l as [|s l IH]; [reflexivity|]. cbn [flat_map map concat]. rewrite filter_app, IH. destruct s; reflexivity.
Qed.
Definition plain_options (o : conversion) : Prop := op_strip o = false.
Lemma conv_body_cue o e c : op_strip o = false -> cue_ok false c -> says e c -> conv_body o e = Ok (html_text c ++ [10%N; 10%N]).
Proof.
  intros Ho H (_ & _ & _ & E). unfold conv_body. rewrite Ho, E. pose proof (conv_text_cue c H) as T.
  destruct (conv_text_out (ass_text c)) as [t| |]; cbn [res_bind] in *; [|discriminate..]. injection T as T. rewrite T. reflexivity.
Qed.
Lemma export_srt_cues o l evs : op_strip o = false -> Forall (cue_ok false) l -> Forall2 says evs l -> forall i, export_srt_from o i evs = Ok (unlines (blocks true 44 i l)).
Proof.
  intros Ho HF H2. induction H2 as [|e c evs l S1 _ IH]; intros i; [reflexivity|]. inversion HF as [|? ? H HF']; subst. cbn [export_srt_from blocks].
  pose proof S1 as (_ & E1 & E2 & _). rewrite E1, E2, (conv_out_time 44 _ (co_start _ _ H)), (conv_out_time 44 _ (co_end _ _ H)). cbn [res_bind].
  rewrite (conv_body_cue o e c Ho H S1). cbn [res_bind]. rewrite (IH HF'). cbn [res_bind]. f_equal. cbn [app]. rewrite unlines_cons, (block_unlines false) by exact H.
  repeat rewrite <- app_assoc. reflexivity.
Qed.
Definition quiet (o : conversion) : Prop := op_vtt o = None \/ op_vtt o = Some (false, false).
Lemma export_vtt_cues o l evs : op_strip o = false -> quiet o -> Forall (cue_ok false) l -> Forall2 says evs l -> forall i, export_vtt_from o evs = Ok (unlines (blocks false 46 i l)).
Proof.
  intros Ho Hq HF H2. induction H2 as [|e c evs l S1 _ IH]; intros i; [reflexivity|]. inversion HF as [|? ? H HF']; subst. cbn [export_vtt_from blocks].
  pose proof S1 as (_ & E1 & E2 & _). rewrite E1, E2, (conv_out_time 46 _ (co_start _ _ H)), (conv_out_time 46 _ (co_end _ _ H)). cbn [res_bind].
  assert (K : cue_line o e = Ok []) by (unfold cue_line; destruct Hq as [-> | ->]; reflexivity). rewrite K. cbn [res_bind].
  rewrite (conv_body_cue o e c Ho H S1). cbn [res_bind]. rewrite (IH HF' (i + 1)%N). cbn [res_bind]. f_equal. cbn [app]. rewrite (block_unlines false) by exact H.
  repeat rewrite <- app_assoc. reflexivity.
Qed.
Lemma export_cues s sep styling l : (forall c, cue_ok s c -> styling (replace (lit "\n") [10%N] (replace break [10%N] (ass_text c))) = html_text c) ->
  forall evs, Forall (cue_ok s) l -> Forall2 says (filter is_dialogue evs) l -> forall i, (1 <= i)%N ->
  export_from sep styling i evs = Ok (Exported (unlines (blocks true sep i l)) (i + N.of_nat (List.length l) - 1) 0).
Proof.
  intros Hs evs. revert l. induction evs as [|e evs IH]; intros l HF H2 i Hi.
  - cbn [filter] in H2. inversion H2; subst. cbn. rewrite N.add_0_r. reflexivity.
  - cbn [filter] in H2. cbn [export_from]. destruct (is_dialogue e) eqn:D; cbn [negb]; [|exact (IH l HF H2 i Hi)].
    inversion H2 as [|? c ? l' S1 H2' E E']; subst. inversion HF as [|? ? H HF']; subst. pose proof S1 as (_ & E1 & E2 & E3).
    rewrite E1, E2, (time_out_ok sep _ (co_start _ _ H)), (time_out_ok sep _ (co_end _ _ H)), E3, (Hs c H).
    rewrite (IH l' HF' H2' (i + 1)%N ltac:(lia)). cbn [res_bind ex_text ex_count ex_warnings blocks]. f_equal. f_equal.
    + cbn [app]. rewrite unlines_cons, (block_unlines s) by exact H. repeat rewrite <- app_assoc. reflexivity.
    + cbn [List.length]. lia.
Qed.
Lemma first_events_of l : events_sections l <= 1 -> first_events l = events_of l.
Proof.
  unfold events_sections, events_of. induction l as [|s l IH]; [reflexivity|]. cbn [filter map concat]. destruct s; cbn [List.length]; intros H; try exact (IH H).
  cbn [first_events]. assert (E : concat (map (fun s => match s with SEvents es => es | _ => [] end) l) = []).
  { clear IH. induction l as [|t l IH]; [reflexivity|]. cbn [filter map concat] in *. destruct t; cbn [List.length] in H; [apply IH; exact H..| |apply IH; exact H|apply IH; exact H]. lia. }
  rewrite E, app_nil_r. reflexivity.
Qed.

(* ---- stripping ---- *)
Lemma strip_loop k : forall a s, without 123 a -> List.length s < k -> exists t, strip_braces k (a ++ s) = Some (a ++ t) /\ unbraced s t.
Proof.
  induction k as [|k IH]; intros a s Ha L; [lia|]. cbn [strip_braces].
  destruct (find_char (is_c 123) (a ++ s)) as [[x y]|] eqn:F.
  - apply find_char_some in F as (E & W & (c & y' & -> & C)). unfold is_c in C. apply N.eqb_eq in C. subst c.
    assert (P : exists x', x = a ++ x' /\ s = x' ++ 123%N :: y').
    { clear L IH. revert x E W. induction a as [|z a IHa]; intros x E W; [exists x; auto|].
      unfold without in Ha. cbn [forallb] in Ha. apply andb_prop in Ha as [Z Ha]. destruct x as [|w x]; [cbn in E; injection E as -> _; discriminate|].
      cbn [app] in E. injection E as <- E. cbn [forallb] in W. apply andb_prop in W as [_ W]. destruct (IHa Ha x E W) as (x' & -> & ->). exists x'. auto. }
    destruct P as (x' & -> & ->). assert (Wx : without 123 x') by (apply (proj1 (without_app 123 a x')) in W; tauto).
    destruct (upto 125 (123%N :: y')) as [[u v]|] eqn:U.
    + unfold upto in U. destruct (find_char (is_c 125) (123%N :: y')) as [[p q]|] eqn:F2; [|discriminate]. apply find_char_some in F2 as (E2 & W2 & (c & q' & -> & C)).
      unfold is_c in C. apply N.eqb_eq in C. subst c. injection U as <- <-. destruct p as [|p0 p]; [discriminate|]. cbn [app] in E2. injection E2 as <- E2. subst y'.
      cbn [forallb] in W2. apply andb_prop in W2 as [_ W2].
      destruct (IH (a ++ x') q') as (t & T & UB).
      { apply without_app. auto. } { rewrite app_length in L. cbn [List.length] in L. rewrite app_length in L. cbn [List.length] in L. lia. }
      exists (x' ++ t). split; [rewrite T, <- app_assoc; reflexivity|]. exact (unbraced_cut x' p q' t Wx W2 UB).
    + exists (x' ++ 123%N :: y'). split; [reflexivity|]. apply unbraced_end. intros m n Q.
      assert (W3 : without 125 (123%N :: y')).
      { unfold upto in U. destruct (find_char (is_c 125) (123%N :: y')) as [[p q]|] eqn:F2; [|apply find_char_none in F2; exact F2]. apply find_char_some in F2 as (_ & _ & (c & q' & -> & _)). discriminate. }
      clear - Q W3 Wx. revert x' Wx Q. induction m as [|z m IHm]; intros x' Wx Q.
      * destruct x' as [|w x']; [cbn in Q; injection Q as Q; subst; unfold without in W3; cbn in W3; exact W3|]. cbn in Q. injection Q as -> _. discriminate.
      * destruct x' as [|w x']; cbn [app] in Q; injection Q as <- Q.
        -- unfold without in W3. cbn [forallb] in W3. apply andb_prop in W3 as [_ W3]. rewrite Q in W3. apply (proj1 (without_app 125 m _)) in W3 as [_ W3]. apply (proj1 (without_app 125 [123%N] n)) in W3. tauto.
        -- unfold without in Wx. cbn [forallb] in Wx. apply andb_prop in Wx as [_ Wx]. exact (IHm x' Wx Q).
  - exists s. split; [reflexivity|]. apply find_char_none in F. apply unbraced_end. intros m n ->. exfalso. apply (proj1 (without_app 123 a _)) in F as [_ F]. apply (proj1 (without_app 123 m _)) in F as [_ F]. discriminate.
Qed.
Lemma strip_unbraced s : exists t, strip_ass_tags s = Ok t /\ unbraced s t.
Proof. destruct (strip_loop (S (List.length s)) [] s eq_refl ltac:(lia)) as (t & T & U). cbn [app] in T. exists t. unfold strip_ass_tags. rewrite T. split; [reflexivity|exact U]. Qed.
Lemma unbraced_fun s t : unbraced s t -> forall t', unbraced s t' -> t = t'.
Proof.
  assert (FST : forall a b c d, without 123 a -> without 123 c -> a ++ [123%N] ++ b = c ++ [123%N] ++ d -> a = c /\ b = d).
  { induction a as [|x a IH]; intros b [|y c] d Ha Hc E; cbn [app] in E.
    - injection E as E. auto.
    - injection E as <- _. discriminate.
    - injection E as -> _. discriminate.
    - injection E as <- E. unfold without in *. cbn [forallb] in *. apply andb_prop in Ha as [_ Ha]. apply andb_prop in Hc as [_ Hc]. destruct (IH b c d Ha Hc E) as [-> ->]. auto. }
  assert (SND : forall a b c d, without 125 a -> without 125 c -> a ++ [125%N] ++ b = c ++ [125%N] ++ d -> a = c /\ b = d).
  { induction a as [|x a IH]; intros b [|y c] d Ha Hc E; cbn [app] in E.
    - injection E as E. auto.
    - injection E as <- _. discriminate.
    - injection E as -> _. discriminate.
    - injection E as <- E. unfold without in *. cbn [forallb] in *. apply andb_prop in Ha as [_ Ha]. apply andb_prop in Hc as [_ Hc]. destruct (IH b c d Ha Hc E) as [-> ->]. auto. }
  induction 1 as [s H|a b r t Ha Hb U IH]; intros t' U'.
  - inversion U' as [|a b r t2 Ha Hb U2]; subst; [reflexivity|]. exfalso. specialize (H a (b ++ [125%N] ++ r) eq_refl). apply (proj1 (without_app 125 b _)) in H as [_ H]. discriminate.
  - inversion U' as [s H E|a' b' r' t2 Ha' Hb' U2 E]; subst.
    + exfalso. specialize (H a (b ++ [125%N] ++ r) eq_refl). apply (proj1 (without_app 125 b _)) in H as [_ H]. discriminate.
    + apply FST in E as [-> E]; [|assumption..]. apply SND in E as [-> ->]; [|assumption..]. rewrite (IH t2 U2). reflexivity.
Qed.
