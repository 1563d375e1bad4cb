From Verif Require Import Base BaseLemmas PluginModel PluginProofs HighlightModel HighlightSpec.

Lemma token_le a b k i : a <= b -> token_at a b k i = Token a b k i.
Proof. intros H. unfold token_at. now apply Nat.leb_le in H as ->. Qed.
Lemma lacks_forallb p s : lacks p s <-> forallb (fun c => negb (p c)) s = true.
Proof.
  rewrite forallb_forall. unfold lacks. split; intros H c I; specialize (H c I); [now rewrite H|now apply negb_true_iff].
Qed.
Lemma blank_forallb s : blank s <-> forallb is_ws s = true.
Proof. now rewrite forallb_forall. Qed.
Lemma lacks_app p a b : lacks p (a ++ b) <-> lacks p a /\ lacks p b.
Proof. unfold lacks. split; [intros H; split; intros c I; apply H, in_or_app; auto|intros [A B] c I; apply in_app_or in I; destruct I; auto]. Qed.
Lemma placed_app o a b : placed o (a ++ b) = placed o a ++ placed (o + blen (painted a)) b.
Proof.
  revert o. induction a as [|[s [[k i]|]] a IH]; intros o; cbn [app placed]; unfold painted; cbn [map concat fst].
  - cbn [blen]. now rewrite Nat.add_0_r.
  - rewrite IH, blen_app. unfold painted. now rewrite Nat.add_assoc.
  - rewrite IH, blen_app. unfold painted. now rewrite Nat.add_assoc.
Qed.
Lemma painted_app a b : painted (a ++ b) = painted a ++ painted b.
Proof. unfold painted. now rewrite map_app, concat_app. Qed.
Lemma colours_app a b : colours (a ++ b) = colours a ++ colours b.
Proof. unfold colours. apply flat_map_app. Qed.
Lemma placed_length o l : List.length (placed o l) = List.length (colours l).
Proof. revert o. induction l as [|[s [[k i]|]] l IH]; intros o; cbn [placed colours flat_map snd fst]; [reflexivity| |]; cbn [app List.length]; [f_equal|]; apply IH. Qed.

(* ---- fields ---- *)
Lemma style_fields_placed fs : forall i o, style_fields i o fs = placed o (fields_painted style_colour i fs).
Proof.
  induction fs as [|f fs IH]; intros i o; [reflexivity|]. cbn [style_fields]. rewrite !token_le by lia. rewrite IH.
  destruct fs as [|g fs]; [destruct i; reflexivity|]. change (fields_painted style_colour i (f :: g :: fs)) with ((f, style_colour i f) :: (lit ",", None) :: fields_painted style_colour (S i) (g :: fs)).
  cbn [placed]. destruct i; reflexivity.
Qed.
Lemma event_fields_placed fs : forall i o, event_fields i o fs = placed o (fields_painted event_colour i fs).
Proof.
  induction fs as [|f fs IH]; intros i o; [reflexivity|]. cbn [event_fields]. rewrite !token_le by lia. rewrite IH.
  destruct fs as [|g fs]; [destruct i as [|[|[|[|i]]]]; reflexivity|]. change (fields_painted event_colour i (f :: g :: fs)) with ((f, event_colour i f) :: (lit ",", None) :: fields_painted event_colour (S i) (g :: fs)).
  cbn [placed]. destruct i as [|[|[|[|i]]]]; reflexivity.
Qed.
Lemma fields_text colour fs : forall i, painted (fields_painted colour i fs) = join (lit ",") fs.
Proof.
  induction fs as [|f fs IH]; intros i; [reflexivity|]. destruct fs as [|g fs]; [cbn; now rewrite app_nil_r|].
  change (fields_painted colour i (f :: g :: fs)) with ((f, colour i f) :: (lit ",", None) :: fields_painted colour (S i) (g :: fs)).
  unfold painted. cbn [map concat fst]. change (concat (map fst (fields_painted colour (S i) (g :: fs)))) with (painted (fields_painted colour (S i) (g :: fs))). now rewrite IH.
Qed.
Lemma fields_snoc colour fs g : fs <> [] -> forall i, fields_painted colour i (fs ++ [g]) = fields_painted colour i fs ++ [(lit ",", None); (g, colour (i + List.length fs) g)].
Proof.
  intros N. induction fs as [|f fs IH]; [contradiction|]. intros i. destruct fs as [|h fs]; [cbn; now rewrite Nat.add_1_r|].
  change ((f :: h :: fs) ++ [g]) with (f :: ((h :: fs) ++ [g])). 
  assert (E : fields_painted colour i (f :: ((h :: fs) ++ [g])) = (f, colour i f) :: (lit ",", None) :: fields_painted colour (S i) ((h :: fs) ++ [g])) by reflexivity.
  rewrite E, IH by discriminate. change (fields_painted colour i (f :: h :: fs)) with ((f, colour i f) :: (lit ",", None) :: fields_painted colour (S i) (h :: fs)). cbn [app List.length]. now replace (i + S (S (List.length fs))) with (S i + S (List.length fs)) by lia.
Qed.
Lemma join_snoc fs g : fs <> [] -> join (lit ",") (fs ++ [g]) = join (lit ",") fs ++ lit "," ++ g.
Proof.
  intros N. induction fs as [|f fs IH]; [contradiction|]. destruct fs as [|h fs]; [reflexivity|].
  change ((f :: h :: fs) ++ [g]) with (f :: ((h :: fs) ++ [g])). rewrite join_cons by discriminate. rewrite IH by discriminate. rewrite (join_cons _ f (h :: fs)) by discriminate. now rewrite <- !app_assoc.
Qed.
Lemma split_commas fs : fs <> [] -> (forall f, In f fs -> lacks is_comma f) -> split_on is_comma (join (lit ",") fs) = fs.
Proof. intros N H. apply (split_on_join is_comma 44%N fs eq_refl N). apply Forall_forall. intros f I. now apply lacks_forallb, H. Qed.

(* ---- commas of an event line ---- *)
Lemma after_commas_skip n a s : lacks is_comma a -> after_commas n (a ++ s) = match after_commas n s with Some (p, q) => Some (a ++ p, q) | None => None end.
Proof.
  induction a as [|c a IH]; intros H; [cbn [app]; now destruct (after_commas n s) as [[p q]|]|]. cbn [app after_commas]. rewrite (H c (or_introl eq_refl)). rewrite IH by (intros d I; apply H; now right).
  now destruct (after_commas n s) as [[p q]|].
Qed.
Lemma after_commas_none n a : lacks is_comma a -> after_commas n a = None.
Proof. intros H. rewrite <- (app_nil_r a), after_commas_skip by exact H. reflexivity. Qed.
Lemma after_commas_fields fs t : fs <> [] -> (forall f, In f fs -> lacks is_comma f) -> after_commas (List.length fs) (join (lit ",") fs ++ lit "," ++ t) = Some (join (lit ",") fs ++ lit ",", t).
Proof.
  intros N. induction fs as [|f fs IH]; [contradiction|]. intros H. destruct fs as [|g fs].
  - cbn [join List.length]. rewrite after_commas_skip by (apply H; now left). cbn [lit app]. reflexivity.
  - rewrite join_cons by discriminate. rewrite <- !app_assoc, after_commas_skip by (apply H; now left). change (lit "," ++ join (lit ",") (g :: fs) ++ lit "," ++ t) with (44%N :: (join (lit ",") (g :: fs) ++ lit "," ++ t)).
    change (List.length (f :: g :: fs)) with (S (List.length (g :: fs))). cbn [after_commas is_comma]. change (is_comma 44) with true. cbn match. cbn [List.length] in *. rewrite IH; [|discriminate|intros x I; apply H; now right]. reflexivity.
Qed.
Lemma after_commas_short fs : fs <> [] -> (forall f, In f fs -> lacks is_comma f) -> forall n, List.length fs <= n -> after_commas n (join (lit ",") fs) = None.
Proof.
  intros N. induction fs as [|f fs IH]; [contradiction|]. intros H n L. destruct fs as [|g fs].
  - cbn [join]. apply after_commas_none. apply H; now left.
  - rewrite join_cons by discriminate. rewrite after_commas_skip by (apply H; now left). change (lit "," ++ join (lit ",") (g :: fs)) with (44%N :: join (lit ",") (g :: fs)).
    cbn [List.length] in L. destruct n as [|[|n]]; [lia|lia|]. cbn [after_commas]. change (is_comma 44) with true. cbn match. rewrite IH; [reflexivity|discriminate|intros x I; apply H; now right|cbn [List.length]; lia].
Qed.

Section Paint.
  Context (alnum : char -> bool).
  (* ---- tags between braces ---- *)
  Lemma skip_fuel content : forall f p, blen content - p <= f -> skip_backslashes (S f) content p = skip_backslashes f content p.
  Proof.
    induction f as [|f IH]; intros p H.
    - cbn [skip_backslashes]. destruct (Nat.ltb_spec p (blen content)) as [Q|Q]; [lia|reflexivity].
    - change (skip_backslashes (S (S f)) content p) with (if (p <? blen content) && backslash_at content p then skip_backslashes (S f) content (p + 1) else p).
      change (skip_backslashes (S f) content p) with (if (p <? blen content) && backslash_at content p then skip_backslashes f content (p + 1) else p).
      destruct ((p <? blen content) && backslash_at content p); [|reflexivity]. apply IH. lia.
  Qed.
  Lemma tag_parts_slash pre s cs parts : tag_parts alnum (pre ++ lit "\" ++ s) cs (blen pre) parts = tag_parts alnum (pre ++ lit "\" ++ s) cs (blen pre + 1) parts.
  Proof.
    destruct parts as [|part r]; [reflexivity|]. cbn [tag_parts]. set (content := pre ++ lit "\" ++ s).
    assert (E : skip_backslashes (blen content) content (blen pre) = skip_backslashes (blen content) content (blen pre + 1)); [|now rewrite E].
    rewrite <- (skip_fuel content (blen content)) by lia.
    change (skip_backslashes (S (blen content)) content (blen pre)) with (if (blen pre <? blen content) && backslash_at content (blen pre) then skip_backslashes (blen content) content (blen pre + 1) else blen pre).
    assert (L : blen pre <? blen content = true) by (apply Nat.ltb_lt; unfold content; rewrite !blen_app; cbn [lit blen]; pose proof (len_utf8_pos 92); change (N_of_ascii "\") with 92%N; lia).
    unfold backslash_at. unfold content at 2. rewrite cut_app, L. reflexivity.
  Qed.
  Lemma parts_slash s : filter is_nonempty (split_on is_backslash (lit "\" ++ s)) = filter is_nonempty (split_on is_backslash s).
  Proof. reflexivity. Qed.
  Lemma parts_tag t s : t <> [] -> lacks is_backslash t -> match s with [] => True | c :: _ => is_backslash c = true end ->
    filter is_nonempty (split_on is_backslash (t ++ s)) = t :: filter is_nonempty (split_on is_backslash s).
  Proof.
    intros N L H. apply lacks_forallb in L. destruct s as [|c s].
    - rewrite app_nil_r, split_on_none by exact L. cbn [split_on filter]. destruct t; [contradiction|reflexivity].
    - rewrite split_on_app by assumption. cbn [split_on]. rewrite H. cbn [filter is_nonempty]. destruct t; [contradiction|reflexivity].
  Qed.
  Lemma take_while_all (p : char -> bool) n r : (forall c, In c n -> p c = true) -> match r with [] => True | c :: _ => p c = false end -> take_while p (n ++ r) = n.
  Proof.
    induction n as [|c n IH]; intros H R; [cbn [app]; destruct r as [|c r]; [reflexivity|cbn [take_while]; now rewrite R]|].
    cbn [app take_while]. rewrite (H c (or_introl eq_refl)). f_equal. apply IH; [intros d I; apply H; now right|exact R].
  Qed.
  Lemma tag_painted_text t l : tag_painted alnum t l -> painted l = t.
  Proof. intros []; unfold painted; cbn; [|now rewrite app_nil_r]. destruct p; cbn; now rewrite ?app_nil_r. Qed.
  Lemma tags_painted_text s l : tags_painted alnum s l -> painted l = s.
  Proof.
    induction 1 as [|s l H IH|t lt s l N L E T H IH]; [reflexivity| |].
    - unfold painted in *. cbn [map concat fst]. now rewrite IH.
    - rewrite painted_app, IH. now rewrite (tag_painted_text t lt T).
  Qed.
  Lemma tags_placed s l : tags_painted alnum s l -> forall content cs pre pos, content = pre ++ s ->
    (pos = blen pre \/ pos = blen pre + 1 /\ exists s', s = lit "\" ++ s') ->
    tag_parts alnum content cs pos (filter is_nonempty (split_on is_backslash s)) = placed (cs + blen pre) l.
  Proof.
    induction 1 as [|s l H IH|t lt s l N L E T H IH]; intros content cs pre pos C P.
    - reflexivity.
    - rewrite parts_slash. cbn [placed]. assert (X : tag_parts alnum content cs pos (filter is_nonempty (split_on is_backslash s)) = tag_parts alnum content cs (blen pre + 1) (filter is_nonempty (split_on is_backslash s))).
      { destruct P as [->|[-> _]]; [|reflexivity]. subst content. apply tag_parts_slash. }
      rewrite X, (IH content cs (pre ++ lit "\") (blen pre + 1)).
      + f_equal. rewrite blen_app. cbn [lit blen]. change (len_utf8 (N_of_ascii "\")) with 1. lia.
      + now rewrite <- app_assoc.
      + left. rewrite blen_app. cbn [lit blen]. change (len_utf8 (N_of_ascii "\")) with 1. lia.
    - rewrite parts_tag by assumption. assert (P' : pos = blen pre).
      { destruct P as [->|[_ [s' Q]]]; [reflexivity|]. destruct t as [|c t]; [contradiction|]. cbn [lit app] in Q. injection Q as -> Q. specialize (L _ (or_introl eq_refl)). discriminate L. }
      subst pos. cbn [tag_parts].
      assert (Lt : blen pre < blen content) by (subst content; rewrite !blen_app; destruct t as [|c t]; [contradiction|]; rewrite blen_cons; pose proof (len_utf8_pos c); lia).
      assert (K : skip_backslashes (blen content) content (blen pre) = blen pre).
      { destruct (blen content) as [|f] eqn:F; [reflexivity|]. cbn [skip_backslashes]. rewrite F. unfold backslash_at. rewrite C at 1. rewrite cut_app. destruct t as [|c t]; [contradiction|]. cbn [app]. rewrite (L c (or_introl eq_refl)). now rewrite andb_false_r. }
      rewrite K. destruct (Nat.leb_spec (blen content) (blen pre)) as [Q|_]; [lia|].
      rewrite placed_app, (tag_painted_text t lt T). f_equal.
      + destruct T as [n p Nn A B|c r B].
        * rewrite (take_while_all alnum n p A B). assert (0 < blen n) by (destruct n as [|c n]; [contradiction|]; rewrite blen_cons; pose proof (len_utf8_pos c); lia).
          destruct (Nat.ltb_spec 0 (blen n)) as [_|Q]; [|lia]. rewrite token_le by lia. cbn [placed]. f_equal. rewrite blen_app. destruct p as [|c p].
          -- cbn [blen]. rewrite Nat.add_0_r, Nat.ltb_irrefl. reflexivity.
          -- rewrite blen_cons. pose proof (len_utf8_pos c). destruct (Nat.ltb_spec (blen n) (blen n + (len_utf8 c + blen p))) as [_|Q]; [|lia]. rewrite token_le by lia. cbn [placed]. rewrite blen_cons. f_equal. f_equal; lia.
        * cbn [take_while]. rewrite B. reflexivity.
      + destruct s as [|c s].
        * assert (l = []) as -> by (clear -H; remember [] as s eqn:Es in H; destruct H; [reflexivity|discriminate Es|apply app_eq_nil in Es; destruct Es; contradiction]). reflexivity.
        * rewrite (IH content cs (pre ++ t) (blen pre + blen t + 1)).
          -- rewrite blen_app. f_equal. lia.
          -- now rewrite <- app_assoc.
          -- right. rewrite blen_app. split; [lia|]. exists s. unfold is_backslash in E. apply N.eqb_eq in E. now subst.
  Qed.
  Lemma first_split (p : char -> bool) s : s <> [] -> match s with [] => True | c :: _ => p c = false end -> exists t r, s = t ++ r /\ t <> [] /\ lacks p t /\ match r with [] => True | c :: _ => p c = true end.
  Proof.
    induction s as [|c s IH]; [contradiction|]. intros _ H. destruct s as [|d s].
    - exists [c], []. repeat split; [discriminate|]. intros x [<-|[]]. exact H.
    - destruct (p d) eqn:E.
      + exists [c], (d :: s). repeat split; [discriminate| |exact E]. intros x [<-|[]]. exact H.
      + destruct (IH ltac:(discriminate) eq_refl) as (t & r & Q & N & L & B). exists (c :: t), r. split; [cbn [app]; now rewrite <- Q|]. split; [discriminate|]. split; [|exact B]. intros x [<-|I]; [exact H|now apply L].
  Qed.
  Lemma tag_total t : t <> [] -> exists l, tag_painted alnum t l.
  Proof.
    destruct t as [|c t]; [contradiction|]. intros _. destruct (alnum c) eqn:E; [|eexists; now constructor].
    destruct (first_split (fun x => negb (alnum x)) (c :: t) ltac:(discriminate)) as (n & r & Q & N & L & B); [now rewrite E|].
    rewrite Q. eexists. apply tag_named; [exact N| |].
    - intros x I. specialize (L x I). now apply negb_false_iff in L.
    - destruct r; [exact I|now apply negb_true_iff].
  Qed.
  Lemma tags_total : forall n s, List.length s <= n -> exists l, tags_painted alnum s l.
  Proof.
    induction n as [|n IH]; intros s H.
    - destruct s; [|cbn in H; lia]. exists []. constructor.
    - destruct s as [|c s]; [exists []; constructor|]. destruct (is_backslash c) eqn:E.
      + destruct (IH s ltac:(cbn in H; lia)) as [l Hl]. exists ((lit "\", None) :: l). unfold is_backslash in E. apply N.eqb_eq in E. subst c. now apply (tags_slash alnum s l).
      + destruct (first_split is_backslash (c :: s) ltac:(discriminate) E) as (t & r & Q & N & L & B). rewrite Q in *. destruct (tag_total t N) as [lt T].
        destruct (IH r) as [l Hl]; [rewrite app_length in H; destruct t; [contradiction|cbn in H; lia]|]. exists (lt ++ l). now constructor.
  Qed.
  Lemma content_placed t l cs : tags_painted alnum t l -> tokenize_tag_content alnum t cs = placed cs l.
  Proof. intros H. unfold tokenize_tag_content. rewrite (tags_placed t l H t cs [] 0 eq_refl (or_introl eq_refl)). cbn [blen]. now rewrite Nat.add_0_r. Qed.

  (* ---- the text of an event ---- *)
  Lemma text_painted_text s l : text_painted alnum s l -> painted l = s.
  Proof.
    induction 1 as [|t s l N L E H IH|t lt s l L T H IH|t L]; [reflexivity| | |cbn; now rewrite app_nil_r].
    - unfold painted in *. cbn [map concat fst]. now rewrite IH.
    - change (painted ((lit "{", Some (OverrideTag, None)) :: lt ++ (lit "}", Some (OverrideTag, None)) :: l)) with (lit "{" ++ painted (lt ++ (lit "}", Some (OverrideTag, None)) :: l)).
      rewrite painted_app, (tags_painted_text t lt T). change (painted ((lit "}", Some (OverrideTag, None)) :: l)) with (lit "}" ++ painted l). now rewrite IH.
  Qed.
  Lemma text_placed s l : text_painted alnum s l -> forall f o, List.length s < f -> text_loop alnum f s o = Some (placed o l).
  Proof.
    induction 1 as [|t s l N L E H IH|t lt s l L T H IH|t L]; intros f o F; (destruct f as [|f]; [lia|]).
    - reflexivity.
    - destruct t as [|c t]; [contradiction|]. cbn [app]. cbn [text_loop]. rewrite (L c (or_introl eq_refl)).
      change (c :: t ++ s) with ((c :: t) ++ s). assert (A : forallb (fun c => negb (is_open c)) (c :: t) = true) by now apply lacks_forallb.
      assert (F1 : match find_char is_open ((c :: t) ++ s) with Some p => p | None => ((c :: t) ++ s, []) end = (c :: t, s)).
      { destruct s as [|d s]; [rewrite app_nil_r, (proj2 (find_char_none is_open (c :: t)) A); reflexivity|].
        rewrite (proj2 (find_char_some is_open ((c :: t) ++ d :: s) (c :: t) (d :: s))); [reflexivity|]. repeat split; [exact A|]. exists d, s. split; [reflexivity|exact E]. }
      rewrite F1, IH by (rewrite app_length in F; cbn in F; lia). rewrite token_le by lia. reflexivity.
    - change (lit "{" ++ t ++ lit "}" ++ s) with (123%N :: t ++ 125%N :: s). cbn [text_loop]. change (is_open 123) with true. cbn match.
      rewrite (proj2 (find_char_some is_close (123%N :: t ++ 125%N :: s) (123%N :: t) (125%N :: s))).
      2: { split; [reflexivity|]. split; [cbn [forallb]; change (negb (is_close 123)) with true; now apply lacks_forallb|]. exists 125%N, s. split; reflexivity. }
      cbn [tl]. rewrite IH by (cbn in F; rewrite app_length in F; cbn in F; lia). rewrite (content_placed t lt (o + 1) T). rewrite !token_le by lia.
      cbn [placed]. f_equal. f_equal. rewrite placed_app, (tags_painted_text t lt T). cbn [placed lit blen]. change (len_utf8 (N_of_ascii "{")) with 1. change (len_utf8 (N_of_ascii "}")) with 1. change (len_utf8 123) with 1. rewrite !Nat.add_0_r.
      f_equal. replace (o + (1 + blen t)) with (o + 1 + blen t) by lia. reflexivity.
    - change (lit "{" ++ t) with (123%N :: t). cbn [text_loop]. change (is_open 123) with true. cbn match.
      rewrite (proj2 (find_char_none is_close (123%N :: t))) by (cbn [forallb]; change (negb (is_close 123)) with true; now apply lacks_forallb).
      rewrite token_le by lia. reflexivity.
  Qed.
  Lemma text_total : forall n s, List.length s <= n -> exists l, text_painted alnum s l.
  Proof.
    induction n as [|n IH]; intros s H.
    - destruct s; [|cbn in H; lia]. exists []. constructor.
    - destruct s as [|c s]; [exists []; constructor|]. destruct (is_open c) eqn:E.
      + unfold is_open in E. apply N.eqb_eq in E. subst c. destruct (find_char is_close s) as [[t r]|] eqn:F.
        * apply find_char_some in F. destruct F as (-> & L & d & u & -> & Q). unfold is_close in Q. apply N.eqb_eq in Q. subst d. apply lacks_forallb in L.
          destruct (tags_total (List.length t) t (le_n _)) as [lt T]. destruct (IH u) as [l Hl]; [cbn in H; rewrite app_length in H; cbn in H; lia|]. eexists. apply (text_tags alnum t lt u l L T Hl).
        * apply find_char_none, lacks_forallb in F. eexists. apply (text_unclosed alnum s F).
      + destruct (first_split is_open (c :: s) ltac:(discriminate) E) as (t & r & Q & N & L & B). rewrite Q in *.
        destruct (IH r) as [l Hl]; [rewrite app_length in H; destruct t; [contradiction|cbn in H; lia]|]. eexists. now apply (text_plain alnum t r l).
  Qed.
End Paint.
