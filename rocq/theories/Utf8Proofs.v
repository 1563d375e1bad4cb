From Verif Require Import Base BaseLemmas UuModel UuProofs Utf8Model Utf8Spec.
Ltac Zify.zify_post_hook ::= Z.div_mod_to_equations.

(* ---- BOM ---- *)
Lemma starts_prefix p s : starts_with p s = true <-> prefix_of p s.
Proof. apply starts_with_spec. Qed.
Lemma starts_false p s : starts_with p s = false <-> ~ prefix_of p s.
Proof. rewrite <- starts_prefix. destruct (starts_with p s); split; congruence. Qed.

Lemma as_bytes_cons c s : as_bytes (c :: s) = utf8_char c ++ as_bytes s.
Proof. reflexivity. Qed.
Lemma bom_first text : starts_with [239; 187; 191]%N (as_bytes text) = true <-> exists r, text = 65279%N :: r.
Proof.
  split.
  - destruct text as [|c r]; [discriminate|]. rewrite as_bytes_cons. intros H. exists r. f_equal.
    unfold utf8_char in H. unfold starts_with in H.
    destruct (N.ltb_spec c 128).
    { cbn [app strip_prefix] in H. destruct (N.eqb_spec 239 c); [lia|discriminate]. }
    destruct (N.ltb_spec c 2048).
    { cbn [app strip_prefix] in H. destruct (N.eqb_spec 239 (192 + c / 64)); [lia|discriminate]. }
    destruct (N.ltb_spec c 65536).
    { cbn [app strip_prefix] in H. destruct (N.eqb_spec 239 (224 + c / 4096)); [|discriminate].
      destruct (N.eqb_spec 187 (128 + (c / 64) mod 64)); [|discriminate].
      destruct (N.eqb_spec 191 (128 + c mod 64)); [|discriminate]. lia. }
    cbn [app strip_prefix] in H. destruct (N.eqb_spec 239 (240 + c / 262144)); [lia|discriminate].
  - intros [r ->]. reflexivity.
Qed.
Lemma strip_bom_spec text : strip_bom text =
  Ok (match text with c :: r => if (c =? 65279)%N then (r, true) else (text, false) | [] => (text, false) end).
Proof.
  unfold strip_bom. cbv zeta. destruct (starts_with [239; 187; 191]%N (as_bytes text)) eqn:E.
  - apply bom_first in E as [r ->]. rewrite N.eqb_refl. change 3 with (blen [65279%N]).
    change (65279%N :: r) with ([65279%N] ++ r). rewrite slice_from_app. reflexivity.
  - assert (G : match text with c :: r => if (c =? 65279)%N then (r, true) else (text, false) | [] => (text, false) end = (text, false)).
    { destruct text as [|c r]; [reflexivity|]. destruct (N.eqb_spec c 65279); [|reflexivity]. subst.
      assert (starts_with [239; 187; 191]%N (as_bytes (65279%N :: r)) = true) by (apply bom_first; eauto). congruence. }
    rewrite G. clear E. destruct (starts_with [255; 254; 0; 0]%N _); [reflexivity|].
    destruct (starts_with [0; 0; 254; 255]%N _); [reflexivity|].
    destruct (starts_with [255; 254]%N _); [reflexivity|]. destruct (starts_with [254; 255]%N _); reflexivity.
Qed.

Lemma detect_some b t n : detect_bom b = Some (t, n) <->
  prefix_of (signature t) b /\ n = List.length (signature t) /\
  forall t', prefix_of (signature t') b -> List.length (signature t') <= n.
Proof.
  assert (D : forall p q : list N, prefix_of p b -> prefix_of q b -> hd 0%N p = hd 0%N q \/ p = [] \/ q = []).
  { intros [|x p] [|y q] [r Hr] [r' Hr']; auto. left. cbn. rewrite Hr in Hr'. cbn in Hr'. congruence. }
  unfold detect_bom. split.
  - intros H.
    destruct (starts_with [255; 254; 0; 0]%N b) eqn:E1.
    { inversion H; subst. apply starts_prefix in E1. repeat split; auto. intros []; cbn; lia. }
    destruct (starts_with [0; 0; 254; 255]%N b) eqn:E2.
    { inversion H; subst. apply starts_prefix in E2. repeat split; auto. intros []; cbn; lia. }
    apply starts_false in E1, E2.
    destruct (starts_with [239; 187; 191]%N b) eqn:E3.
    { inversion H; subst. apply starts_prefix in E3. repeat split; auto. intros []; cbn; intros; try lia; contradiction. }
    apply starts_false in E3.
    destruct (starts_with [255; 254]%N b) eqn:E4.
    { inversion H; subst. apply starts_prefix in E4. repeat split; auto. intros []; cbn; intros; try lia; contradiction. }
    destruct (starts_with [254; 255]%N b) eqn:E5; [|discriminate].
    inversion H; subst. apply starts_prefix in E5. repeat split; auto. intros []; cbn; intros; try lia; contradiction.
  - intros (P & -> & M).
    destruct (starts_with [255; 254; 0; 0]%N b) eqn:E1.
    { apply starts_prefix in E1. specialize (M Utf32Le E1). destruct (D _ _ P E1) as [G|[G|G]]; destruct t; cbn in *; try discriminate; try lia; reflexivity. }
    destruct (starts_with [0; 0; 254; 255]%N b) eqn:E2.
    { apply starts_prefix in E2. specialize (M Utf32Be E2). destruct (D _ _ P E2) as [G|[G|G]]; destruct t; cbn in *; try discriminate; try lia; reflexivity. }
    destruct (starts_with [239; 187; 191]%N b) eqn:E3.
    { apply starts_prefix in E3. specialize (M Utf8 E3). destruct (D _ _ P E3) as [G|[G|G]]; destruct t; cbn in *; try discriminate; try lia; reflexivity. }
    apply starts_false in E1, E2, E3.
    destruct (starts_with [255; 254]%N b) eqn:E4.
    { apply starts_prefix in E4. specialize (M Utf16Le E4). destruct (D _ _ P E4) as [G|[G|G]]; destruct t; cbn in *; try discriminate; try lia; try contradiction; reflexivity. }
    destruct (starts_with [254; 255]%N b) eqn:E5.
    { apply starts_prefix in E5. specialize (M Utf16Be E5). destruct (D _ _ P E5) as [G|[G|G]]; destruct t; cbn in *; try discriminate; try lia; try contradiction; reflexivity. }
    apply starts_false in E4, E5. destruct t; cbn in P; contradiction.
Qed.
Lemma detect_none b : detect_bom b = None <-> forall t, ~ prefix_of (signature t) b.
Proof.
  split.
  - intros H t P. unfold detect_bom in H.
    destruct (starts_with [255; 254; 0; 0]%N b) eqn:E1; [discriminate|].
    destruct (starts_with [0; 0; 254; 255]%N b) eqn:E2; [discriminate|].
    destruct (starts_with [239; 187; 191]%N b) eqn:E3; [discriminate|].
    destruct (starts_with [255; 254]%N b) eqn:E4; [discriminate|].
    destruct (starts_with [254; 255]%N b) eqn:E5; [discriminate|].
    apply starts_false in E1, E2, E3, E4, E5. destruct t; contradiction.
  - intros H. destruct (detect_bom b) as [[t n]|] eqn:E; [|reflexivity].
    apply detect_some in E as (P & _). exfalso. eapply H; eauto.
Qed.

(* ---- line endings ---- *)
Lemma replace1_map c d s : replace [c] [d] s = map (fun x => if (x =? c)%N then d else x) s.
Proof.
  unfold replace. induction s as [|x s IH]; [reflexivity|]. cbn [replace_go map].
  rewrite starts1. rewrite (N.eqb_sym c x). destruct (x =? c)%N; cbn [app List.length Nat.sub]; rewrite IH; reflexivity.
Qed.
Definition rcl (s : str) : str := replace [13%N; 10%N] [10%N] s.
Lemma rcl_nil : rcl [] = []. Proof. reflexivity. Qed.
Lemma rcl_crlf s : rcl (13%N :: 10%N :: s) = 10%N :: rcl s.
Proof. reflexivity. Qed.
Lemma rcl_other c s : (c <> 13%N \/ hd 0%N s <> 10%N) -> rcl (c :: s) = c :: rcl s.
Proof.
  intros H. unfold rcl, replace. cbn [replace_go].
  assert (starts_with [13%N; 10%N] (c :: s) = false) as ->; [|reflexivity].
  unfold starts_with. cbn [strip_prefix]. destruct (N.eqb_spec 13 c); [|reflexivity].
  destruct s as [|d s]; [reflexivity|]. destruct (N.eqb_spec 10 d); [|reflexivity].
  exfalso. cbn in H. destruct H; congruence.
Qed.
Definition nle := normalize_line_endings.
Definition cr2lf (s : str) : str := map (fun x => if (x =? 13)%N then 10%N else x) s.
Lemma nle_eq s : nle s = cr2lf (rcl s).
Proof. unfold nle, normalize_line_endings. rewrite replace1_map. reflexivity. Qed.
Lemma nle_plain l s : ~ In 10%N l -> ~ In 13%N l -> nle (l ++ s) = l ++ nle s.
Proof.
  rewrite !nle_eq. induction l as [|c l IH]; intros H1 H2; [reflexivity|].
  cbn [app]. assert (c <> 13%N) by (intros ->; apply H2; left; reflexivity).
  rewrite rcl_other by auto. unfold cr2lf in *. cbn [map]. destruct (N.eqb_spec c 13); [congruence|].
  f_equal. apply IH; intros G; [apply H1|apply H2]; right; exact G.
Qed.
Lemma nle_lf s : nle (10%N :: s) = 10%N :: nle s.
Proof. rewrite !nle_eq, rcl_other by (left; discriminate). reflexivity. Qed.
Lemma nle_crlf s : nle (13%N :: 10%N :: s) = 10%N :: nle s.
Proof. rewrite !nle_eq, rcl_crlf. reflexivity. Qed.
Lemma nle_cr s : hd 0%N s <> 10%N -> nle (13%N :: s) = 10%N :: nle s.
Proof. intros H. rewrite !nle_eq, rcl_other by auto. reflexivity. Qed.

Lemma text_lines_nonempty s ls : text_lines s ls -> ls <> [].
Proof. destruct 1; discriminate. Qed.
Lemma nle_lines s ls : text_lines s ls -> nle s = join [10%N] ls.
Proof.
  induction 1 as [l H1 H2|l s ls H1 H2 H IH|l s ls H1 H2 H IH|l s ls H1 H2 Hh H IH].
  - rewrite <- (app_nil_r l) at 1. rewrite nle_plain by assumption. cbn. apply app_nil_r.
  - rewrite nle_plain by assumption. cbn [app]. rewrite nle_lf, join_cons, IH by (eapply text_lines_nonempty; eauto). reflexivity.
  - rewrite nle_plain by assumption. cbn [app]. rewrite nle_crlf, join_cons, IH by (eapply text_lines_nonempty; eauto). reflexivity.
  - rewrite nle_plain by assumption. cbn [app]. rewrite nle_cr, join_cons, IH by (assumption || (eapply text_lines_nonempty; eauto)). reflexivity.
Qed.
Lemma text_lines_cons c s ls : c <> 10%N -> c <> 13%N -> text_lines s ls ->
  exists l r, ls = l :: r /\ text_lines (c :: s) ((c :: l) :: r).
Proof.
  intros Hc1 Hc2 H.
  assert (N1 : forall (l : list N), ~ In 10%N l -> ~ In 10%N (c :: l)) by (intros l G [G'|G']; [congruence|contradiction]).
  assert (N2 : forall (l : list N), ~ In 13%N l -> ~ In 13%N (c :: l)) by (intros l G [G'|G']; [congruence|contradiction]).
  destruct H as [l H1 H2|l s ls H1 H2 H|l s ls H1 H2 H|l s ls H1 H2 Hh H]; do 2 eexists; (split; [reflexivity|]).
  - apply tl_last; auto.
  - apply (tl_lf (c :: l)); auto.
  - apply (tl_crlf (c :: l)); auto.
  - apply (tl_cr (c :: l)); auto.
Qed.
Lemma text_lines_exists s : exists ls, text_lines s ls.
Proof.
  remember (List.length s) as n eqn:En. revert s En. induction n as [n IH] using lt_wf_ind. intros s En.
  destruct s as [|c s]; [exists [[]]; apply tl_last; easy|]. cbn in En.
  destruct (IH (List.length s) ltac:(lia) s eq_refl) as (ls & Hls).
  destruct (N.eq_dec c 10); [subst; exists ([] :: ls); apply (tl_lf []); easy|].
  destruct (N.eq_dec c 13).
  - subst c. destruct s as [|d s].
    + exists ([] :: ls). apply (tl_cr [] []); try easy.
    + destruct (N.eq_dec d 10).
      * subst d. cbn in En. destruct (IH (List.length s) ltac:(lia) s eq_refl) as (ls' & Hls').
        exists ([] :: ls'). apply (tl_crlf []); easy.
      * exists ([] :: ls). apply (tl_cr []); try easy. 
  - destruct (text_lines_cons c s ls) as (l & r & _ & H); eauto.
Qed.
Lemma text_lines_content s ls : text_lines s ls -> Forall (fun l => ~ In 10%N l /\ ~ In 13%N l) ls.
Proof. induction 1; constructor; auto. Qed.
Lemma nle_no_cr s : ~ In 13%N (nle s).
Proof.
  rewrite nle_eq. unfold cr2lf. intros H. apply in_map_iff in H as (x & Hx & _). destruct (N.eqb_spec x 13); congruence.
Qed.
Lemma nle_id s : ~ In 13%N s -> nle s = s.
Proof.
  rewrite nle_eq. induction s as [|c s IH]; intros H; [reflexivity|].
  assert (c <> 13%N) by (intros ->; apply H; left; reflexivity).
  rewrite rcl_other by auto. unfold cr2lf in *. cbn [map]. destruct (N.eqb_spec c 13); [congruence|].
  f_equal. apply IH. intros G. apply H. right. exact G.
Qed.
Lemma nle_idem s : nle (nle s) = nle s.
Proof. apply nle_id, nle_no_cr. Qed.
Lemma nle_other s : filter (fun c => negb (is_crlf c)) (nle s) = filter (fun c => negb (is_crlf c)) s.
Proof.
  rewrite nle_eq. remember (List.length s) as n eqn:En. revert s En. induction n as [n IH] using lt_wf_ind. intros s En.
  destruct s as [|c s]; [reflexivity|]. cbn in En.
  destruct (N.eq_dec c 13).
  - subst c. destruct s as [|d s]; [reflexivity|]. destruct (N.eq_dec d 10).
    + subst d. rewrite rcl_crlf. cbn. apply (IH (List.length s)); cbn in *; lia.
    + rewrite rcl_other by (right; cbn; congruence).
      change (filter (fun c => negb (is_crlf c)) (cr2lf (rcl (d :: s))) = filter (fun c => negb (is_crlf c)) (d :: s)).
      apply (IH (List.length (d :: s))); cbn in *; lia.
  - rewrite rcl_other by auto. unfold cr2lf. cbn [map filter]. destruct (N.eqb_spec c 13); [congruence|].
    fold (cr2lf (rcl s)). rewrite (IH (List.length s)) by (cbn in *; lia). reflexivity.
Qed.


(* ---- whitespace ---- *)
Lemma ws_to_space_ws c : is_ws (ws_to_space c) = true -> ws_to_space c = 32%N \/ ws_to_space c = 10%N \/ ws_to_space c = 9%N.
Proof.
  unfold ws_to_space. intros H. destruct (is_ws c) eqn:E; cbn [andb] in *; [|congruence].
  destruct (N.eqb_spec c 10); [subst; auto|]. destruct (N.eqb_spec c 9); [subst; auto|]. auto.
Qed.
Lemma collapse_in p s c : In c (collapse_go p s) -> In c s.
Proof.
  revert p. induction s as [|x s IH]; intros p H; [exact H|]. cbn [collapse_go] in H.
  destruct (x =? 32)%N; [destruct p|]; [right; eauto| |]; (destruct H as [<-|H]; [left; reflexivity|right; eauto]).
Qed.
Lemma visible_collapse p s : visible (collapse_go p s) = visible s.
Proof.
  revert p. induction s as [|x s IH]; intros p; [reflexivity|]. cbn [collapse_go].
  destruct (N.eqb_spec x 32).
  - subst. destruct p; unfold visible in *; cbn [filter]; change (is_ws 32) with true; cbn [negb]; apply IH.
  - unfold visible in *. cbn [filter]. rewrite IH. reflexivity.
Qed.
Lemma visible_map s : visible (map ws_to_space s) = visible s.
Proof.
  unfold visible. induction s as [|c s IH]; [reflexivity|]. cbn [map filter].
  unfold ws_to_space at 1 2. destruct (is_ws c) eqn:E; cbn [andb negb].
  - destruct (N.eqb_spec c 10); [subst; cbn; exact IH|]. destruct (N.eqb_spec c 9); [subst; cbn; exact IH|]. cbn. exact IH.
  - rewrite E. cbn [negb]. f_equal. exact IH.
Qed.
Lemma collapse_head p s : p = true -> hd 0%N (collapse_go p s) <> 32%N.
Proof.
  intros ->. induction s as [|x s IH]; cbn [collapse_go]; [cbn; lia|]. destruct (N.eqb_spec x 32); [exact IH|cbn; congruence].
Qed.
Lemma collapse_no_double p s : ~ exists a b, collapse_go p s = a ++ [32%N; 32%N] ++ b.
Proof.
  revert p. induction s as [|x s IH]; intros p (a & b & H).
  - destruct a; discriminate.
  - cbn [collapse_go] in H. destruct (N.eqb_spec x 32).
    + destruct p; [eapply IH; exists a, b; exact H|]. destruct a as [|y a].
      * cbn in H. injection H as H0 H1. pose proof (collapse_head true s eq_refl) as G. rewrite H1 in G. cbn in G. congruence.
      * cbn in H. injection H as H0 H1. eapply IH; exists a, b; exact H1.
    + destruct a as [|y a].
      * cbn in H. injection H as H0 H1. congruence.
      * cbn in H. injection H as H0 H1. eapply IH; exists a, b; exact H1.
Qed.
Lemma collapse_id s : (~ exists a b, s = a ++ [32%N; 32%N] ++ b) -> forall p, (p = true -> hd 0%N s <> 32%N) -> collapse_go p s = s.
Proof.
  induction s as [|x s IH]; intros H p Hp; [reflexivity|]. cbn [collapse_go].
  assert (H' : ~ exists a b, s = a ++ [32%N; 32%N] ++ b).
  { intros (a & b & ->). apply H. exists (x :: a), b. reflexivity. }
  destruct (N.eqb_spec x 32).
  - subst. destruct p; [exfalso; apply Hp; reflexivity|]. f_equal. apply IH; [exact H'|]. intros _ G.
    destruct s as [|y s]; [cbn in G; lia|]. cbn in G. subst. apply H. exists [], s. reflexivity.
  - f_equal. apply IH; [exact H'|discriminate].
Qed.
Lemma map_ws_idem s : map ws_to_space (map ws_to_space s) = map ws_to_space s.
Proof.
  rewrite map_map. apply map_ext. intros c. unfold ws_to_space. destruct (is_ws c) eqn:E; cbn [andb]; [|rewrite E; reflexivity].
  destruct (N.eqb_spec c 10); cbn [negb andb]; [subst; reflexivity|]. destruct (N.eqb_spec c 9); cbn [negb]; [subst; reflexivity|reflexivity].
Qed.
Lemma ws_to_space_fix_in s c : In c (map ws_to_space s) -> ws_to_space c = c.
Proof.
  intros H. apply in_map_iff in H as (x & <- & _). unfold ws_to_space.
  destruct (is_ws x) eqn:E; cbn [andb]; [|rewrite E; reflexivity].
  destruct (N.eqb_spec x 10); cbn [negb andb]; [subst; reflexivity|]. destruct (N.eqb_spec x 9); cbn [negb]; [subst; reflexivity|reflexivity].
Qed.
Lemma normalize_ws_idem s b : normalize_whitespace (normalize_whitespace s b) b = normalize_whitespace s b.
Proof.
  unfold normalize_whitespace. destruct b; cbv zeta; [|apply map_ws_idem].
  unfold collapse_consecutive_spaces. set (t := map ws_to_space s).
  assert (E : map ws_to_space (collapse_go false t) = collapse_go false t).
  { rewrite <- (map_id (collapse_go false t)) at 2. apply map_ext_in. intros c Hc. apply collapse_in in Hc. eapply ws_to_space_fix_in; eauto. }
  rewrite E. apply collapse_id; [apply collapse_no_double|discriminate].
Qed.
Lemma normalize_ws_chars s b c : In c (normalize_whitespace s b) -> is_ws c = true -> c = 32%N \/ c = 10%N \/ c = 9%N.
Proof.
  unfold normalize_whitespace. cbv zeta. intros H Hw.
  assert (G : In c (map ws_to_space s)) by (destruct b; [eapply collapse_in; eauto|exact H]).
  apply in_map_iff in G as (x & <- & _). apply ws_to_space_ws. exact Hw.
Qed.
Lemma normalize_ws_visible s b : visible (normalize_whitespace s b) = visible s.
Proof.
  unfold normalize_whitespace. cbv zeta. destruct b; unfold collapse_consecutive_spaces; rewrite ?visible_collapse; apply visible_map.
Qed.
Lemma normalize_ws_no_double s : ~ exists a b, normalize_whitespace s true = a ++ [32%N; 32%N] ++ b.
Proof. apply collapse_no_double. Qed.

(* ---- truncation ---- *)
Lemma back_spec text n : is_boundary text (back_to_boundary text n) = true /\ back_to_boundary text n <= n /\
  forall m, m <= n -> is_boundary text m = true -> m <= back_to_boundary text n.
Proof.
  induction n as [|n (H1 & H2 & H3)]; cbn [back_to_boundary].
  - split; [|split; [lia|intros; lia]]. unfold is_boundary. rewrite cut_0. reflexivity.
  - destruct (is_boundary text (S n)) eqn:E.
    + split; [exact E|]. split; [lia|]. intros; lia.
    + split; [exact H1|]. split; [lia|]. intros m Hm Hb. destruct (Nat.eq_dec m (S n)); [subst; congruence|]. apply H3; [lia|exact Hb].
Qed.
Lemma truncate_spec text n : exists p b, truncate_at_char_boundary text n = Ok (p, b) /\
  (exists r, text = p ++ r) /\ blen p <= n /\
  (forall q r, text = q ++ r -> blen q <= n -> blen q <= blen p) /\
  (b = true <-> p <> text).
Proof.
  unfold truncate_at_char_boundary. destruct (Nat.leb_spec (blen text) n).
  - exists text, false. split; [reflexivity|]. split; [exists []; symmetry; apply app_nil_r|]. split; [lia|].
    split; [|split; [discriminate|congruence]]. intros q r -> _. rewrite blen_app. lia.
  - destruct (back_spec text n) as (H1 & H2 & H3). apply is_boundary_spec in H1 as (a & b & Hab & Ha).
    exists a, true. rewrite <- Ha. rewrite Hab at 1. rewrite slice_to_app. split; [reflexivity|].
    split; [eauto|]. split; [lia|]. split.
    + intros q r Hq Hl. rewrite Ha. apply H3; [exact Hl|]. apply is_boundary_spec. eauto.
    + split; [|reflexivity]. intros _ ->. lia.
Qed.

(* ---- validation ---- *)
Lemma valid_char_same c : is_ascii_graphic c || ((c =? 32)%N || (c =? 9)%N || (c =? 10)%N || (c =? 13)%N)
       || (negb (c <? 128)%N && negb (is_control c)) = valid_ass_char c.
Proof. unfold valid_ass_char. rewrite !orb_assoc. reflexivity. Qed.
Lemma first_invalid_some pos text p : first_invalid pos text = Some p <->
  exists a c r, text = a ++ c :: r /\ is_valid_ass_text a = true /\ valid_ass_char c = false /\ p = pos + blen a.
Proof.
  revert pos. induction text as [|c text IH]; intros pos; cbn [first_invalid].
  - split; [discriminate|]. intros ([|] & ? & ? & H & _); discriminate.
  - rewrite valid_char_same. destruct (valid_ass_char c) eqn:E.
    + rewrite IH. split.
      * intros (a & d & r & -> & H1 & H2 & ->). exists (c :: a), d, r. unfold is_valid_ass_text in *. cbn [forallb blen]. rewrite E, H1.
        repeat split; auto. lia.
      * intros ([|x a] & d & r & H & H1 & H2 & ->); cbn in H; inversion H; subst; [congruence|].
        exists a, d, r. unfold is_valid_ass_text in *. cbn [forallb] in H1. apply andb_prop in H1 as [_ H1]. repeat split; auto. cbn [blen]. lia.
    + split.
      * intros H. inversion H; subst. exists [], c, text. repeat split; auto.
      * intros ([|x a] & d & r & H & H1 & H2 & ->); cbn in H; inversion H; subst.
        -- f_equal. cbn. lia.
        -- unfold is_valid_ass_text in H1. cbn [forallb] in H1. rewrite E in H1. discriminate.
Qed.
Lemma first_invalid_none pos text : first_invalid pos text = None <-> is_valid_ass_text text = true.
Proof.
  revert pos. unfold is_valid_ass_text. induction text as [|c text IH]; intros pos; cbn [first_invalid forallb]; [easy|].
  rewrite valid_char_same. destruct (valid_ass_char c); cbn [andb]; [apply IH|split; discriminate].
Qed.
Lemma valid_no_controls text : is_valid_ass_text text = true -> remove_control_chars text = text.
Proof.
  unfold is_valid_ass_text, remove_control_chars. induction text as [|c text IH]; [reflexivity|]. cbn [forallb filter].
  intros H. apply andb_prop in H as [H1 H2]. rewrite (IH H2).
  assert (negb (is_control c) || (c =? 10)%N || (c =? 9)%N || (c =? 13)%N = true) as ->; [|reflexivity].
  unfold valid_ass_char, is_ascii_graphic, is_control in *. lia.
Qed.
Lemma removed_valid text : is_valid_ass_text (remove_control_chars text) = true.
Proof.
  unfold is_valid_ass_text, remove_control_chars. apply forallb_forall. intros c H. apply filter_In in H as [_ H].
  unfold valid_ass_char, is_ascii_graphic, is_control in *. lia.
Qed.
Lemma remove_kept s : kept (fun c => ~ control_code c \/ tab_or_newline c) s (remove_control_chars s).
Proof.
  unfold remove_control_chars. induction s as [|c s IH]; [constructor|]. cbn [filter].
  destruct (negb (is_control c) || (c =? 10)%N || (c =? 9)%N || (c =? 13)%N) eqn:E.
  - constructor; [|exact IH]. unfold is_control, control_code, tab_or_newline in *. lia.
  - constructor; [|exact IH]. unfold is_control, control_code, tab_or_newline in *. lia.
Qed.
Lemma kept_fun K s t t' : kept K s t -> kept K s t' -> t = t'.
Proof.
  intros H. revert t'. induction H; intros t' H'; inversion H'; subst; try contradiction; try reflexivity; [f_equal|]; auto.
Qed.
Lemma collapse_squeezed s : squeezed s (collapse_go false s) /\
  forall n, squeezed (repeat 32%N (S n) ++ s) (32%N :: collapse_go true s).
Proof.
  induction s as [|c s [IH1 IH2]].
  - split; [constructor|]. intros n. apply sq_run; [cbn; lia|constructor].
  - cbn [collapse_go]. destruct (N.eqb_spec c 32).
    + subst c. split; [exact (IH2 0)|]. intros n. specialize (IH2 (S n)).
      replace (repeat 32%N (S n) ++ 32%N :: s) with (repeat 32%N (S (S n)) ++ s); [exact IH2|].
      clear. induction n as [|n IH]; [reflexivity|]. cbn [repeat app] in *. f_equal. exact IH.
    + split; [constructor; assumption|]. intros k. apply sq_run; [cbn; congruence|]. constructor; assumption.
Qed.

(* ---- trim_lines ---- *)
Lemma between_join ws : join [10%N] ws = between_newlines ws.
Proof. induction ws as [|w [|v r] IH]; [reflexivity|reflexivity|]. cbn [between_newlines join] in *. now rewrite IH. Qed.
Lemma raw_first l r : no_newline l -> lines_raw (l ++ 10%N :: r) = (l, true) :: lines_raw r.
Proof.
  unfold no_newline. induction l as [|c l IH]; [reflexivity|]. intros H. cbn [app lines_raw]. replace (is_nl c) with false; [rewrite IH; [reflexivity|]|].
  - intros I. apply H. now right.
  - symmetry. unfold is_nl. apply N.eqb_neq. intros ->. apply H. now left.
Qed.
Lemma raw_last l : no_newline l -> lines_raw l = match l with [] => [] | _ => [(l, false)] end.
Proof.
  unfold no_newline. induction l as [|c l IH]; [reflexivity|]. intros H. cbn [lines_raw]. replace (is_nl c) with false; [rewrite IH; [destruct l; reflexivity|]|].
  - intros I. apply H. now right.
  - symmetry. unfold is_nl. apply N.eqb_neq. intros ->. apply H. now left.
Qed.
Lemma trim_no_cr l : trim (strip_cr l) = trim l.
Proof.
  unfold strip_cr. destruct (rev l) as [|c r] eqn:E; [reflexivity|]. assert (L : l = rev r ++ [c]) by (rewrite <- (rev_involutive l), E; reflexivity).
  destruct (N.eqb_spec c 13) as [->|_]; [|reflexivity]. rewrite L. destruct (trim_spec (rev r)) as (a & b & S & A & B). rewrite S at 2. rewrite <- !app_assoc. symmetry. rewrite trim_app_ws; [reflexivity|exact A| |unfold trimmed; apply trim_idem]. rewrite forallb_app, B. reflexivity.
Qed.
Lemma between_cons w r : r <> [] -> between_newlines (w :: r) = w ++ 10%N :: between_newlines r.
Proof. destruct r; [congruence|reflexivity]. Qed.
Lemma trim_lines_pieces ws last : Forall no_newline (ws ++ [last]) -> map trim (lines (between_newlines (ws ++ [last]))) = map trim ws ++ match last with [] => [] | _ => [trim last] end.
Proof.
  induction ws as [|w ws IH]; intros H; cbn [app] in *.
  - unfold lines. cbn [between_newlines]. rewrite raw_last by (now inversion H). destruct last; reflexivity.
  - inversion H as [|? ? Hw Hs]; subst. rewrite between_cons by (destruct ws; discriminate). unfold lines in *. rewrite raw_first by exact Hw. cbn [map app]. rewrite trim_no_cr. now rewrite IH.
Qed.
Lemma trim_lines_of ws last : Forall no_newline (ws ++ [last]) -> trim_lines (between_newlines (ws ++ [last])) = between_newlines (map trim ws ++ match last with [] => [] | _ => [trim last] end).
Proof. intros H. unfold trim_lines. now rewrite trim_lines_pieces, between_join. Qed.
Lemma text_newlines s : exists ws last, Forall no_newline (ws ++ [last]) /\ s = between_newlines (ws ++ [last]).
Proof.
  induction s as [|c s (ws & l & F & ->)]; [exists [], []; split; [repeat constructor; intros []|reflexivity]|].
  destruct (N.eq_dec c 10) as [->|D].
  - exists ([] :: ws), l. split; [constructor; [intros []|exact F]|]. cbn [app]. rewrite between_cons by (destruct ws; discriminate). reflexivity.
  - destruct ws as [|w ws]; cbn [app] in *.
    + exists [], (c :: l). split; [|reflexivity]. inversion F; subst. repeat constructor. intros [E|I]; [congruence|contradiction].
    + exists ((c :: w) :: ws), l. split; [inversion F; subst; constructor; [intros [E|I]; [congruence|contradiction]|assumption]|]. cbn [app]. rewrite !between_cons by (destruct ws; discriminate). reflexivity.
Qed.
Lemma trim_keeps l : no_newline l -> no_newline (trim l).
Proof. intros H I. apply H. destruct (trim_spec l) as (a & b & E & _). rewrite E. apply in_or_app. right. apply in_or_app. now left. Qed.
Lemma between_snoc qs q : qs <> [] -> between_newlines (qs ++ [q]) = between_newlines qs ++ 10%N :: q.
Proof.
  induction qs as [|w qs IH]; [congruence|]. intros _. destruct qs as [|v qs]; [reflexivity|]. cbn [app]. rewrite (between_cons w (v :: qs ++ [q])) by discriminate. rewrite (between_cons w (v :: qs)) by discriminate. cbn [app] in IH. rewrite IH by discriminate. now rewrite <- app_assoc.
Qed.
Lemma trim_again s : (forall u, trim_lines s = u ++ [10%N] -> trim_lines (trim_lines s) = u) /\ ((forall u, trim_lines s <> u ++ [10%N]) -> trim_lines (trim_lines s) = trim_lines s).
Proof.
  assert (X : exists ps, Forall (fun p => no_newline p /\ trim p = p) ps /\ trim_lines s = between_newlines ps).
  { destruct (text_newlines s) as (ws & l & F & ->). rewrite trim_lines_of by exact F. eexists. split; [|reflexivity]. apply Forall_app in F as [F1 F2]. apply Forall_app. split.
    - apply Forall_map. eapply Forall_impl; [|exact F1]. intros w Hw. cbn. split; [now apply trim_keeps|apply trim_idem].
    - destruct l; constructor; [|constructor]. split; [apply trim_keeps; now inversion F2|apply trim_idem]. }
  destruct X as (ps & F & ->). destruct ps as [|q qs _] using rev_ind; [split; [intros u E; destruct u; discriminate E|reflexivity]|].
  apply Forall_app in F as [F1 F2]. inversion F2 as [|? ? [Q1 Q2] _]; subst.
  assert (N1 : Forall no_newline (qs ++ [q])). { apply Forall_app. split; [eapply Forall_impl; [|exact F1]; now intros ? []|now repeat constructor]. }
  rewrite trim_lines_of by exact N1. assert (M : map trim qs = qs). { clear -F1. induction F1 as [|p l [_ E] _ IH]; cbn; [reflexivity|now rewrite E, IH]. } rewrite M, Q2.
  destruct q as [|c q].
  - rewrite app_nil_r. destruct qs as [|w qs]; [split; [intros u E; destruct u; discriminate E|reflexivity]|]. rewrite between_snoc by discriminate. split.
    + intros u E. now apply app_inj_tail in E as [-> _].
    + intros H. now destruct (H (between_newlines (w :: qs))).
  - split; [|reflexivity]. intros u E. exfalso. apply Q1. destruct (@exists_last _ (c :: q)) as (i & d & D); [discriminate|]. rewrite D in *.
    assert (K : exists z, between_newlines (qs ++ [i ++ [d]]) = z ++ [d]). { destruct qs as [|w qs]; [now exists i|]. rewrite between_snoc by discriminate. exists (between_newlines (w :: qs) ++ 10%N :: i). now rewrite <- app_assoc. }
    destruct K as (z & K). rewrite K in E. apply app_inj_tail in E as [_ ->]. apply in_or_app. right. now left.
Qed.
