(* Where the tokens of a document are, and the cache. *)
From Verif Require Import Base BaseLemmas PluginModel PluginProofs HighlightModel HighlightSpec HighlightProofs HighlightLine.

Lemma orderly_app l1 l2 : forall a b c, orderly a b l1 -> orderly b c l2 -> orderly a c (l1 ++ l2).
Proof.
  induction l1 as [|t l1 IH]; intros a b c H1 H2; cbn [app orderly] in *.
  - destruct l2 as [|u l2]; cbn [orderly] in *; [lia|]. split; [lia|tauto].
  - split; [tauto|]. apply (IH _ b); tauto.
Qed.
Lemma orderly_more l : forall a b c, orderly a b l -> b <= c -> orderly a c l.
Proof. induction l as [|t l IH]; intros a b c H L; cbn [orderly] in *; [lia|]. split; [tauto|]. now apply (IH _ b). Qed.
Lemma placed_orderly l : forall o, orderly o (o + blen (painted l)) (placed o l).
Proof.
  induction l as [|[s [[k i]|]] l IH]; intros o.
  - cbn. lia.
  - change (painted ((s, Some (k, i)) :: l)) with (s ++ painted l). cbn [placed orderly t_start t_end]. split; [lia|]. rewrite blen_app. eapply orderly_more; [apply IH|lia].
  - change (painted ((s, None) :: l)) with (s ++ painted l). cbn [placed]. rewrite blen_app. specialize (IH (o + blen s)). replace (o + (blen s + blen (painted l))) with (o + blen s + blen (painted l)) by lia.
    destruct (placed (o + blen s) l) as [|t r]; cbn [orderly] in *; [lia|]. split; [lia|tauto].
Qed.
Definition newline : str := [10%N].
Lemma raw_nil s : lines_raw s = [] -> s = [].
Proof. destruct s as [|c s]; [reflexivity|]. cbn [lines_raw]. destruct (is_nl c); [discriminate|]. destruct (lines_raw s) as [|[w t] ws]; discriminate. Qed.
Lemma raw_join s : exists tail, s = join newline (map fst (lines_raw s)) ++ tail.
Proof.
  induction s as [|c s [tail IH]]; [now exists []|]. cbn [lines_raw]. destruct (is_nl c) eqn:E.
  - unfold is_nl in E. apply N.eqb_eq in E. subst c. destruct (lines_raw s) as [|x ws] eqn:R.
    + apply raw_nil in R. subst s. now exists newline.
    + cbn [map]. rewrite join_cons by discriminate. exists tail. cbn [fst app newline]. unfold newline at 1. cbn [app]. f_equal. exact IH.
  - destruct (lines_raw s) as [|[w t] ws] eqn:R.
    + apply raw_nil in R. subst s. now exists [].
    + cbn [map fst] in *. exists tail. destruct ws as [|y ws]; [cbn in *; now rewrite <- IH|]. cbn [map] in *. rewrite join_cons in * by discriminate. rewrite IH at 1. cbn [app]. now rewrite <- !app_assoc.
Qed.
Lemma strip_cr_le w : blen (strip_cr w) <= blen w.
Proof.
  unfold strip_cr. destruct (rev w) as [|c r] eqn:E; [lia|]. destruct (c =? 13)%N; [|lia].
  assert (Q : w = rev r ++ [c]) by (now rewrite <- (rev_involutive w), E). rewrite Q, blen_app. lia.
Qed.
Lemma join_le (f : str * bool -> str) l : (forall x, blen (f x) <= blen (fst x)) -> blen (join newline (map f l)) <= blen (join newline (map fst l)).
Proof.
  intros H. induction l as [|x l IH]; [cbn; lia|]. destruct l as [|y l]; [cbn; apply H|].
  cbn [map] in *. rewrite (join_cons newline (f x)), (join_cons newline (fst x)) by discriminate. rewrite !blen_app. specialize (H x). lia.
Qed.
Lemma lines_le s : blen (join newline (lines s)) <= blen s.
Proof.
  destruct (raw_join s) as [tail E]. rewrite E at 2. rewrite blen_app. unfold lines.
  pose proof (join_le (fun wt : str * bool => let (w, t) := wt in if t then strip_cr w else w) (lines_raw s)) as J.
  assert (A : forall x : str * bool, blen (let (w, t) := x in if t then strip_cr w else w) <= blen (fst x)) by (intros [w []]; cbn [fst]; [apply strip_cr_le|lia]).
  specialize (J A). lia.
Qed.
Lemma raw_chars s : forall w t c, In (w, t) (lines_raw s) -> In c w -> In c s.
Proof.
  induction s as [|d s IH]; intros w t c H I; cbn [lines_raw] in H; [contradiction|].
  destruct (is_nl d).
  - destruct H as [E|H]; [injection E as <- <-; contradiction|]. right. eapply IH; eauto.
  - destruct (lines_raw s) as [|[w' t'] ws] eqn:R.
    + destruct H as [E|[]]. injection E as <- <-. destruct I as [<-|[]]. now left.
    + destruct H as [E|H].
      * injection E as <- <-. destruct I as [<-|I]; [now left|]. right. eapply IH; [left; reflexivity|exact I].
      * right. eapply IH; [right; exact H|exact I].
Qed.
Lemma lines_lf s : ~ In 13%N s -> exists tail, s = join newline (lines s) ++ tail.
Proof.
  intros H. destruct (raw_join s) as [tail E]. exists tail. rewrite E at 1. f_equal. f_equal. unfold lines. apply map_ext_in. intros [w t] I. cbn [fst]. destruct t; [|reflexivity].
  unfold strip_cr. destruct (rev w) as [|c r] eqn:R; [reflexivity|]. destruct (c =? 13)%N eqn:Q; [|reflexivity]. apply N.eqb_eq in Q. subst c. exfalso. apply H. eapply raw_chars; [exact I|]. apply in_rev. rewrite R. now left.
Qed.
Fixpoint above (L : list painted_line) : str := match L with [] => [] | x :: r => the_line x ++ newline ++ above r end.
Lemma page_app A : forall o B, page o (A ++ B) = page o A ++ page (o + blen (above A)) B.
Proof.
  induction A as [|x A IH]; intros o B; cbn [app page above].
  - cbn [blen]. now rewrite Nat.add_0_r.
  - rewrite IH, <- app_assoc, !blen_app. change (blen newline) with 1. do 3 f_equal. lia.
Qed.
Lemma page_length A : forall o, List.length (page o A) = List.length (flat_map (fun x => colours (pieces x)) A).
Proof. induction A as [|x A IH]; intros o; cbn [page flat_map]; [reflexivity|]. now rewrite !app_length, placed_length, IH. Qed.
Lemma placed_under pre l post : map (under (pre ++ painted l ++ post)) (placed (blen pre) l) = map (fun p => (Some (fst p), snd p)) (colours l).
Proof.
  revert pre. induction l as [|p l IH]; intros pre; [reflexivity|].
  assert (E : pre ++ painted (p :: l) ++ post = (pre ++ fst p) ++ painted l ++ post) by (unfold painted; cbn [map concat fst]; now rewrite <- !app_assoc).
  rewrite E. clear E. destruct p as [s [[k i]|]]; cbn [placed map fst].
  - change (colours ((s, Some (k, i)) :: l)) with ((s, (k, i)) :: colours l). cbn [map fst snd]. rewrite <- blen_app, (IH (pre ++ s)). f_equal.
    unfold under. cbn [t_start t_end t_kind t_info]. f_equal. rewrite blen_app, <- app_assoc. apply slice_app.
  - rewrite <- blen_app. exact (IH (pre ++ s)).
Qed.

Section Doc.
  Variable alnum : char -> bool.
  Variable cfg : config.
  Lemma doc_prefix n sec ls L : doc_painted alnum cfg n sec ls L -> exists rest, ls = map the_line L ++ rest.
  Proof.
    induction 1 as [n sec|n sec s b l sec' ls L H M D [rest IH]|n sec s b l sec' ls H M]; [now exists []|exists rest; cbn; now rewrite IH|now exists ls].
  Qed.
  Lemma doc_lines n sec ls L x : doc_painted alnum cfg n sec ls L -> In x L -> exists sec' sec'', line_painted alnum cfg sec' (the_line x) (shifted x) (pieces x) sec''.
  Proof.
    induction 1 as [n sec|n sec s b l sec' ls L H M D IH|n sec s b l sec' ls H M]; [contradiction| |]; (intros [<-|I]; [now exists sec, sec'|]).
    - now apply IH.
    - destruct I.
  Qed.
  Lemma page_orderly n sec ls L : doc_painted alnum cfg n sec ls L -> forall o, orderly o (o + blen (join newline ls)) (page o L).
  Proof.
    induction 1 as [n sec|n sec s b l sec' ls L H M D IH|n sec s b l sec' ls H M]; intros o; cbn [page pieces the_line].
    - cbn. lia.
    - apply (orderly_app _ _ o (o + blen s)).
      + eapply orderly_more; [apply placed_orderly|]. pose proof (proj2 (line_text _ _ _ _ _ _ _ H)). lia.
      + destruct ls as [|t ls].
        * inversion D; subst. cbn. lia.
        * rewrite join_cons by discriminate. rewrite !blen_app. change (blen newline) with 1. specialize (IH (o + blen s + 1)).
          replace (o + (blen s + (1 + blen (join newline (t :: ls))))) with (o + blen s + 1 + blen (join newline (t :: ls))) by lia.
          destruct (page (o + blen s + 1) L); cbn [orderly] in *; [lia|]. split; [lia|tauto].
    - rewrite app_nil_r. eapply orderly_more; [apply placed_orderly|]. pose proof (proj2 (line_text _ _ _ _ _ _ _ H)).
      destruct ls as [|t ls]; [cbn; lia|]. rewrite join_cons by discriminate. rewrite !blen_app. lia.
  Qed.
  Lemma tokens_orderly text toks : tokenize alnum cfg text = Some toks -> orderly 0 (blen text) toks.
  Proof.
    intros H. apply highlighted in H. destruct H as (L & D & ->). eapply orderly_more; [apply (page_orderly _ _ _ _ D)|]. apply lines_le.
  Qed.
  Lemma join_above A x r : exists post, join newline (map the_line (A ++ x :: r)) = above A ++ the_line x ++ post.
  Proof.
    induction A as [|y A [post IH]]; cbn [app map above].
    - destruct r as [|z r]; [exists []; cbn; now rewrite app_nil_r|]. cbn [map]. rewrite join_cons by discriminate. eauto.
    - rewrite join_cons by (destruct A; discriminate). exists post. rewrite IH. now rewrite <- !app_assoc.
  Qed.
  Lemma join_prefix a b : exists post, join newline (a ++ b) = join newline a ++ post.
  Proof.
    induction a as [|x a [post IH]]; [now exists (join newline b)|]. cbn [app]. destruct a as [|y a].
    - destruct b; [exists []; cbn; now rewrite app_nil_r|]. cbn [app]. rewrite join_cons by discriminate. eauto.
    - cbn [app] in *. rewrite join_cons by discriminate. rewrite IH, (join_cons newline x (y :: a)) by discriminate. exists post. now rewrite <- !app_assoc.
  Qed.
  Lemma line_reads text A x B : ~ In 13%N text -> doc_painted alnum cfg 0 None (lines text) (A ++ x :: B) -> shifted x = false ->
    exists ta tx tb, tokenize alnum cfg text = Some (ta ++ tx ++ tb) /\ List.length ta = List.length (flat_map (fun y => colours (pieces y)) A) /\
      map (under text) tx = map (fun p => (Some (fst p), snd p)) (colours (pieces x)).
  Proof.
    intros C D S. exists (page 0 A), (placed (blen (above A)) (pieces x)), (page (blen (above A) + blen (the_line x) + 1) B). split; [|split; [apply page_length|]].
    - apply highlighted. eexists. split; [exact D|]. rewrite page_app. reflexivity.
    - destruct (doc_lines _ _ _ _ x D) as (s1 & s2 & P); [apply in_or_app; right; now left|]. rewrite S in P. pose proof (proj1 (line_text _ _ _ _ _ _ _ P) eq_refl) as T.
      destruct (doc_prefix _ _ _ _ D) as [rest E]. destruct (lines_lf text C) as [tail F]. destruct (join_prefix (map the_line (A ++ x :: B)) rest) as [q Q]. destruct (join_above A x B) as [post J].
      rewrite E, Q, J, <- !app_assoc, <- T in F. rewrite F. apply placed_under.
  Qed.

  (* ---- the cache ---- *)
  Lemma calls_state past : let h := calls_run alnum (rev past) in
    h_config h = settings past /\ forall id, hm_get id (token_cache h) = match first_seen id past with Some (text, c) => tokenize alnum c text | None => None end.
  Proof.
    induction past as [|c past [IH1 IH2]]; [split; reflexivity|]. cbn [rev]. unfold calls_run in *. rewrite fold_left_app. cbn [fold_left].
    set (h := fold_left _ (rev past) new_highlighter) in *. destruct c as [id text| |id|c]; cbn [call_step settings first_seen].
    - destruct (hm_get id (token_cache h)) as [l|] eqn:G.
      + cbn [fst]. split; [exact IH1|]. intros j. rewrite IH2. destruct (first_seen j past) as [[t c]|] eqn:F; [reflexivity|]. destruct (str_eqb id j) eqn:E; [|reflexivity]. apply str_eqb_eq in E. subst j. rewrite IH2, F in G. discriminate G.
      + destruct (always_tokens alnum (h_config h) text) as [l Hl]. rewrite Hl. cbn [fst h_config token_cache]. split; [exact IH1|]. intros j. rewrite get_inserted. rewrite IH2 in G |- *.
        destruct (str_eqb id j) eqn:E.
        * assert (Q : id = j) by (now apply str_eqb_eq). subst j. destruct (first_seen id past) as [[t c]|] eqn:F.
          -- destruct (always_tokens alnum c t) as [u Hu]. congruence.
          -- now rewrite <- IH1, Hl.
        * destruct (first_seen j past) as [[t c]|]; reflexivity.
    - split; [exact IH1|]. reflexivity.
    - cbn [fst h_config token_cache]. split; [exact IH1|]. intros j. rewrite get_without, IH2. now destruct (str_eqb id j).
    - cbn [fst h_config token_cache]. split; [reflexivity|exact IH2].
  Qed.
  Lemma cached_answer past id text : snd (call_step alnum (calls_run alnum (rev past)) (Tokenize id text)) =
    match first_seen id past with Some (text0, c) => tokenize alnum c text0 | None => tokenize alnum (settings past) text end.
  Proof.
    destruct (calls_state past) as [H1 H2]. cbn [call_step]. rewrite H2. destruct (first_seen id past) as [[t c]|].
    - destruct (always_tokens alnum c t) as [l Hl]. now rewrite Hl.
    - rewrite H1. destruct (always_tokens alnum (settings past) text) as [l Hl]. now rewrite Hl.
  Qed.
End Doc.
