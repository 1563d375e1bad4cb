(* The lines of a document against the highlighter. *)
From Verif Require Import Base BaseLemmas PluginModel PluginProofs HighlightModel HighlightSpec HighlightProofs.
From Verif Require QueryProofs.

Lemma header_spec s : is_header s = true <-> is_header_text s.
Proof.
  unfold is_header, is_header_text. rewrite andb_true_iff, starts_with_spec, ends_with_spec. split.
  - intros [[a ->] [b E]]. destruct b as [|x b]; [destruct a; discriminate E|]. injection E as Ex Ea. subst. exists b. reflexivity.
  - intros [n ->]. split; [eauto|]. exists (lit "[" ++ n). now rewrite <- app_assoc.
Qed.
Lemma header_not s : ~ is_header_text s -> is_header s = false.
Proof. intros H. apply not_true_is_false. now rewrite header_spec. Qed.
Lemma begins_spec p s : starts_with (lit p) s = true <-> begins p s.
Proof. apply starts_with_spec. Qed.
Lemma begins_not p s : ~ begins p s -> starts_with (lit p) s = false.
Proof. intros H. apply not_true_is_false. now rewrite begins_spec. Qed.
Lemma name_of_header n : header_name (lit "[" ++ n ++ lit "]") = n.
Proof. unfold header_name. cbn [lit app tl]. apply removelast_last. Qed.
Lemma trim_blank v : trim_start v = [] <-> blank v.
Proof.
  rewrite blank_forallb. unfold trim_start. split.
  - intros H. destruct (drop_while_spec is_ws v) as (a & E & A & _). rewrite H, app_nil_r in E. now subst.
  - intros H. rewrite <- (app_nil_r v). now rewrite drop_while_app_all.
Qed.
Lemma find_colon n v : lacks is_colon n -> find_char is_colon (n ++ lit ":" ++ v) = Some (n, lit ":" ++ v).
Proof. intros H. apply find_char_some. split; [reflexivity|]. split; [now apply lacks_forallb|]. exists 58%N, v. split; reflexivity. Qed.
Lemma info_line n v o : lacks is_colon n ->
  tokenize_info_line (n ++ lit ":" ++ v) o = placed o [(n ++ lit ":", Some (FieldName, Some n)); (v, match trim_start v with [] => None | _ => Some (FieldValue, None) end)].
Proof.
  intros H. unfold tokenize_info_line. rewrite find_colon by exact H. change (tl (lit ":" ++ v)) with v. rewrite !blen_app. change (blen (lit ":")) with 1.
  rewrite !token_le by lia. destruct (trim_start v); cbn [placed]; rewrite blen_app; change (blen (lit ":")) with 1; rewrite !Nat.add_assoc; reflexivity.
Qed.
Lemma one_of_in l s : one_of l s = true <-> In s (map lit l).
Proof. unfold one_of. rewrite existsb_exists, in_map_iff. split; intros (x & A & B); exists x; [apply str_eqb_eq in B|rewrite str_eqb_eq]; tauto. Qed.

Section Line.
  Variable alnum : char -> bool.
  Variable cfg : config.

  (* the pieces are the line, except for the blanks a style line leaves out *)
  Lemma line_text sec s b l sec' : line_painted alnum cfg sec s b l sec' ->
    (b = false -> painted l = s) /\ blen (painted l) <= blen s.
  Proof.
    intros H. assert (K : (b = false -> painted l = s) /\ (b = true -> blen (painted l) <= blen s)).
    { destruct H as [| | | | | | |b fs Hs Hb Hf Hc Hj| |key fs t l Hs Hk Hn Hc Ht|key fs Hs Hk Hn Hc| |]; try (split; [intros _; unfold painted; cbn [map concat fst]; rewrite ?app_nil_r, <- ?app_assoc; reflexivity|discriminate]).
      - cbn [painted map concat fst]. change (concat (map fst (fields_painted style_colour 0 fs))) with (painted (fields_painted style_colour 0 fs)). rewrite fields_text. split.
        + destruct b; [reflexivity|discriminate].
        + intros _. rewrite !blen_app. lia.
      - split; [intros _|discriminate].
        change ((key ++ lit ":", Some (EventType, Some key)) :: fields_painted event_colour 0 fs ++ (lit ",", None) :: ([], Some (FieldValue, None)) :: l) with ([(key ++ lit ":", Some (EventType, Some key))] ++ fields_painted event_colour 0 fs ++ [(lit ",", None : paint); ([], Some (FieldValue, None))] ++ l).
        rewrite !painted_app, fields_text. unfold painted at 1 2. cbn [map concat fst app]. rewrite !app_nil_r, <- app_assoc.
        assert (E : painted l = t) by (destruct (highlight_tags cfg); [now apply (text_painted_text alnum)|subst l; apply app_nil_r]). rewrite E. reflexivity. }
    destruct K as [A B]. split; [exact A|]. destruct b; [auto|]. rewrite A by reflexivity. lia.
  Qed.

  Lemma line_placed sec s b l sec' : line_painted alnum cfg sec s b l sec' -> forall o, tokenize_line alnum cfg sec s o = Some (placed o l, sec').
  Proof.
    intros H o. unfold tokenize_line. destruct H as [n|s|s Hs Hh Hc|n v Hs Hh Hc Hn Hv|n v Hs Hh Hc Hn Hv|s Hs Hh Hc Hn|s Hs|b fs Hs Hb Hf Hc Hj|s Hs Hh Hc H1 H2|key fs t l Hs Hk Hn Hc Ht|key fs Hs Hk Hn Hc|s Hs Hh Hc H1 H2 H3|n s Hs Hi Hh Hc].
    - rewrite (proj2 (header_spec _)) by (now exists n). rewrite name_of_header, token_le by lia. reflexivity.
    - change (is_header (lit ";" ++ s)) with false. change (starts_with (lit ";") (lit ";" ++ s)) with true. rewrite !token_le by lia. reflexivity.
    - rewrite header_not, (begins_not ";") by assumption. now subst sec.
    - rewrite header_not, (begins_not ";") by assumption. rewrite info_line by exact Hn. destruct (trim_start v) eqn:E; [apply trim_blank in E; contradiction|]. destruct Hs as [<-|[<-|[]]]; reflexivity.
    - rewrite header_not, (begins_not ";") by assumption. rewrite info_line by exact Hn. rewrite (proj2 (trim_blank v) Hv). destruct Hs as [<-|[<-|[]]]; reflexivity.
    - rewrite header_not, (begins_not ";") by assumption. apply lacks_forallb in Hn. apply find_char_none in Hn. destruct Hs as [<-|[<-|[]]]; cbn [one_of existsb]; rewrite ?str_eqb_refl, ?orb_true_r; unfold tokenize_info_line; rewrite Hn; reflexivity.
    - assert (A : is_header (lit "Format:" ++ s) = false) by reflexivity. rewrite A. clear A.
      assert (B : tokenize_format_line (lit "Format:" ++ s) o = placed o [(lit "Format:", Some (FieldName, Some (lit "Format"))); (s, Some (FieldValue, None))]).
      { unfold tokenize_format_line. rewrite !token_le by (rewrite ?blen_app; change (blen (lit "Format:")) with 7; lia). cbn [placed]. rewrite blen_app. change (blen (lit "Format:")) with 7. now rewrite !Nat.add_assoc. }
      destruct Hs as [<-|[<-|[<-|[]]]]; cbn -[tokenize_format_line placed lit app]; change (starts_with (lit "Format:") (lit "Format:" ++ s)) with true; change (starts_with (lit ";") (lit "Format:" ++ s)) with false; cbv iota; now rewrite B.
    - set (line := lit "Style:" ++ b ++ join (lit ",") fs).
      assert (B : tokenize_style_line line o = placed o ((lit "Style:", Some (FieldName, Some (lit "Style"))) :: fields_painted style_colour 0 fs)).
      { unfold tokenize_style_line. rewrite token_le by lia. change (skipn 6 line) with (b ++ join (lit ",") fs). unfold trim_start.
        rewrite drop_while_app_all, drop_while_id, split_commas, style_fields_placed by (assumption || now apply blank_forallb). reflexivity. }
      destruct Hs as [<-|[<-|[]]]; cbn -[tokenize_style_line placed lit app line]; change (is_header line) with false; change (starts_with (lit "Format:") line) with false; change (starts_with (lit "Style:") line) with true; change (starts_with (lit ";") line) with false; cbv iota; now rewrite B.
    - rewrite header_not, (begins_not ";") by assumption. destruct Hs as [<-|[<-|[]]]; cbn -[tokenize_style_line tokenize_format_line placed lit]; rewrite (begins_not "Format:"), (begins_not "Style:") by assumption; reflexivity.
    - subst sec. set (line := key ++ lit ":" ++ join (lit ",") fs ++ lit "," ++ t).
      assert (K : is_header line = false /\ starts_with (lit ";") line = false /\ starts_with (lit "Format:") line = false /\ starts_with (lit "Dialogue:") line || starts_with (lit "Comment:") line = true) by (destruct Hk as [<-|[<-|[]]]; repeat split; reflexivity).
      destruct K as (-> & -> & K1 & K2). cbn -[placed lit line starts_with tokenize_event_line]. rewrite K1, K2.
      assert (K3 : (if starts_with (lit "Dialogue:") line then lit "Dialogue" else lit "Comment") = key) by (destruct Hk as [<-|[<-|[]]]; reflexivity).
      assert (K4 : skipn (blen key + 1) line = join (lit ",") fs ++ lit "," ++ t) by (destruct Hk as [<-|[<-|[]]]; reflexivity).
      assert (N : fs <> []) by (intros ->; discriminate Hn).
      unfold tokenize_event_line. rewrite K3, K4. rewrite <- Hn, after_commas_fields by assumption.
      assert (Q : split_on is_comma (join (lit ",") fs ++ lit ",") = fs ++ [[]]).
      { replace (join (lit ",") fs ++ lit ",") with (join (lit ",") (fs ++ [[]])) by (now rewrite join_snoc). apply split_commas; [destruct fs; discriminate|]. intros f I. apply in_app_iff in I. destruct I as [I|[<-|[]]]; [now apply Hc|intros c []]. }
      assert (G : forall l2, token_at o (o + (blen key + 1)) EventType (Some key) :: event_fields 0 (o + (blen key + 1)) (split_on is_comma (join (lit ",") fs ++ lit ",")) ++ placed (o + (blen key + 1) + blen (join (lit ",") fs ++ lit ",")) l2 =
        placed o ((key ++ lit ":", Some (EventType, Some key)) :: fields_painted event_colour 0 fs ++ (lit ",", None) :: ([], Some (FieldValue, None)) :: l2)).
      { intros l2. rewrite Q, event_fields_placed, fields_snoc by exact N. rewrite token_le by lia. cbn [placed]. rewrite (blen_app key). change (blen (lit ":")) with 1. f_equal.
        rewrite !placed_app, fields_text, blen_app, <- app_assoc. f_equal. rewrite Hn. cbn [placed event_colour blen app plus]. change (blen (lit ",")) with 1. now rewrite !Nat.add_0_r, ?Nat.add_assoc. }
      destruct (highlight_tags cfg) eqn:T.
      + unfold tokenize_text_with_tags. rewrite (text_placed alnum t l Ht) by lia. now rewrite G.
      + subst l. rewrite <- G. cbn [placed]. assert (E : o + blen line = o + (blen key + 1) + blen (join (lit ",") fs ++ lit ",") + blen t) by (unfold line; rewrite !blen_app; change (blen (lit ":")) with 1; lia). rewrite E, (token_le (_ + blen _)) by lia. reflexivity.
    - subst sec. set (line := key ++ lit ":" ++ join (lit ",") fs).
      assert (K : is_header line = false /\ starts_with (lit ";") line = false /\ starts_with (lit "Format:") line = false /\ starts_with (lit "Dialogue:") line || starts_with (lit "Comment:") line = true) by (destruct Hk as [<-|[<-|[]]]; repeat split; reflexivity).
      destruct K as (-> & -> & K1 & K2). cbn -[placed lit line starts_with tokenize_event_line]. rewrite K1, K2.
      assert (K3 : (if starts_with (lit "Dialogue:") line then lit "Dialogue" else lit "Comment") = key) by (destruct Hk as [<-|[<-|[]]]; reflexivity).
      assert (K4 : skipn (blen key + 1) line = join (lit ",") fs) by (destruct Hk as [<-|[<-|[]]]; reflexivity).
      assert (N : fs <> []) by (intros ->; cbn in Hn; lia).
      unfold tokenize_event_line. rewrite K3, K4. rewrite after_commas_short by (assumption || lia). rewrite token_le by lia. cbn [placed]. rewrite blen_app. change (blen (lit ":")) with 1. reflexivity.
    - rewrite header_not, (begins_not ";") by assumption. subst sec. cbn -[tokenize_format_line placed lit]. rewrite (begins_not "Format:"), (begins_not "Dialogue:"), (begins_not "Comment:") by assumption. reflexivity.
    - rewrite header_not, (begins_not ";") by assumption. subst sec. cbn [map In] in Hi.
      assert (A : one_of ["Script Info"; "Aegisub Project Garbage"]%string n = false /\ one_of ["V4+ Styles"; "V4 Styles"]%string n = false /\ one_of ["Events"]%string n = false).
      { repeat split; apply not_true_is_false; rewrite one_of_in; cbn [map In]; tauto. }
      destruct A as (-> & -> & ->). rewrite token_le by lia. reflexivity.
  Qed.

  Lemma fields_exist s : exists fs, fs <> [] /\ (forall f, In f fs -> lacks is_comma f) /\ join (lit ",") fs = s.
  Proof.
    exists (split_on is_comma s). assert (J : join (lit ",") (split_on is_comma s) = s) by (apply (join_split_on is_comma 44%N); intros x; apply N.eqb_eq). split; [|split; [|exact J]].
    - intros E. rewrite E in J. cbn in J. subst s. discriminate E.
    - intros f I c Ic. pose proof (QueryProofs.pieces_free is_comma 44%N s eq_refl) as P. rewrite Forall_forall in P. specialize (P f I).
      apply not_true_is_false. intros E. apply N.eqb_eq in E. subst c. contradiction.
  Qed.
  Lemma section_class (sec : option str) :
    sec = None \/ In sec [Some (lit "Script Info"); Some (lit "Aegisub Project Garbage")] \/ In sec [Some (lit "V4+ Styles"); Some (lit "V4 Styles")] \/ sec = Some (lit "Events") \/
    exists n, sec = Some n /\ ~ In n (map lit ["Script Info"; "Aegisub Project Garbage"; "V4+ Styles"; "V4 Styles"; "Events"]%string).
  Proof.
    destruct sec as [n|]; [right|now left]. destruct (in_dec (list_eq_dec N.eq_dec) n (map lit ["Script Info"; "Aegisub Project Garbage"; "V4+ Styles"; "V4 Styles"; "Events"]%string)) as [I|I].
    - cbn [map In] in I |- *. destruct I as [<-|[<-|[<-|[<-|[<-|[]]]]]]; tauto.
    - right; right; right. now exists n.
  Qed.
  Lemma begins_dec p s : begins p s \/ ~ begins p s.
  Proof. destruct (starts_with (lit p) s) eqn:E; [left|right; intros H; apply begins_spec in H; congruence]. now apply begins_spec. Qed.
  Lemma header_dec s : is_header_text s \/ ~ is_header_text s.
  Proof. destruct (is_header s) eqn:E; [left|right; intros H; apply header_spec in H; congruence]. now apply header_spec. Qed.
  Lemma blank_dec s : blank s \/ ~ blank s.
  Proof. destruct (forallb is_ws s) eqn:E; [left|right; intros H; apply blank_forallb in H; congruence]. now apply blank_forallb. Qed.
  Lemma event_total key s : In key [lit "Dialogue"; lit "Comment"] -> exists b l sec', line_painted alnum cfg (Some (lit "Events")) (key ++ lit ":" ++ s) b l sec'.
  Proof.
    intros K. destruct (fields_exist s) as (fs & N & C & <-). destruct (le_lt_dec (List.length fs) 9) as [H|H].
    - do 3 eexists. apply p_event_short; auto. destruct fs; [contradiction|cbn in *; lia].
    - assert (E : exists a g, fs = a ++ g /\ List.length a = 9 /\ g <> []).
      { exists (firstn 9 fs), (skipn 9 fs). split; [now rewrite firstn_skipn|]. split; [apply firstn_length_le; lia|]. intros Q. apply (f_equal (@List.length _)) in Q. rewrite skipn_length in Q. cbn in Q. lia. }
      destruct E as (a & g & -> & La & Ng). set (t := join (lit ",") g).
      assert (J : join (lit ",") (a ++ g) = join (lit ",") a ++ lit "," ++ t).
      { unfold t. assert (Na : a <> []) by (intros ->; discriminate La). clear -Na Ng. induction a as [|x a IH]; [contradiction|]. destruct a as [|y a].
        - cbn [app]. destruct g; [contradiction|]. reflexivity.
        - change ((x :: y :: a) ++ g) with (x :: ((y :: a) ++ g)). rewrite (join_cons (lit ",") x ((y :: a) ++ g)) by discriminate. rewrite IH by discriminate. rewrite (join_cons (lit ",") x (y :: a)) by discriminate. now rewrite <- !app_assoc. }
      rewrite J. assert (T : exists l, if highlight_tags cfg then text_painted alnum t l else l = [(t, Some (Text, None))]).
      { destruct (highlight_tags cfg); [apply (text_total alnum (List.length t)); lia|eauto]. }
      destruct T as [l T]. do 3 eexists. apply (p_event alnum cfg (Some (lit "Events")) key a t l); auto. intros f I. apply C, in_app_iff. now left.
  Qed.
  Lemma line_total sec s : exists b l sec', line_painted alnum cfg sec s b l sec'.
  Proof.
    destruct (header_dec s) as [[n ->]|Hh]; [do 3 eexists; apply p_header|].
    destruct (begins_dec ";" s) as [[r ->]|Hc]; [do 3 eexists; apply p_comment|].
    destruct (section_class sec) as [->|[Hs|[Hs|[->|(n & -> & Hs)]]]].
    - do 3 eexists. now apply p_outside.
    - destruct (find_char is_colon s) as [[a r]|] eqn:F.
      + apply find_char_some in F. destruct F as (-> & L & d & u & -> & Q). unfold is_colon in Q. apply N.eqb_eq in Q. subst d. apply lacks_forallb in L.
        destruct (blank_dec u) as [B|B]; do 3 eexists; [apply (p_info_blank alnum cfg sec a u)|apply (p_info alnum cfg sec a u)]; assumption.
      + apply find_char_none, lacks_forallb in F. do 3 eexists. now apply p_info_other.
    - destruct (begins_dec "Format:" s) as [[r ->]|H1]; [do 3 eexists; apply p_format; cbn in *; tauto|].
      destruct (begins_dec "Style:" s) as [[r ->]|H2]; [|do 3 eexists; now apply p_style_other].
      destruct (drop_while_spec is_ws r) as (a & E & A & B). destruct (fields_exist (drop_while is_ws r)) as (fs & N & C & J). rewrite E, <- J. do 3 eexists. apply p_style; auto; [now apply blank_forallb|now rewrite J].
    - destruct (begins_dec "Format:" s) as [[r ->]|H1]; [do 3 eexists; apply p_format; cbn in *; tauto|].
      destruct (begins_dec "Dialogue:" s) as [[r ->]|H2]; [apply (event_total (lit "Dialogue") r); cbn; tauto|].
      destruct (begins_dec "Comment:" s) as [[r ->]|H3]; [apply (event_total (lit "Comment") r); cbn; tauto|].
      do 3 eexists. now apply p_event_other.
    - do 3 eexists. now apply (p_unknown alnum cfg (Some n) n s).
  Qed.

  Lemma lines_placed n sec ls L : doc_painted alnum cfg n sec ls L -> forall toks o, n = List.length toks -> lines_loop alnum cfg toks sec o ls = Some (toks ++ page o L).
  Proof.
    induction 1 as [n sec|n sec s b l sec' ls L H M D IH|n sec s b l sec' ls H M]; intros toks o ->; cbn [lines_loop].
    - now rewrite app_nil_r.
    - rewrite (line_placed _ _ _ _ _ H). rewrite app_length, placed_length. destruct ((0 <? max_tokens cfg) && (max_tokens cfg <=? List.length toks + List.length (colours l))) eqn:E.
      + apply andb_true_iff in E. destruct E as [E1 E2]. apply Nat.ltb_lt in E1. apply Nat.leb_le in E2. lia.
      + rewrite IH by (now rewrite app_length, placed_length). cbn [page pieces the_line]. now rewrite <- app_assoc.
    - rewrite (line_placed _ _ _ _ _ H). rewrite app_length, placed_length. rewrite (proj2 (Nat.ltb_lt _ _)), (proj2 (Nat.leb_le _ _)) by lia. cbn [andb page pieces]. now rewrite app_nil_r.
  Qed.
  Lemma doc_total ls : forall n sec, exists L, doc_painted alnum cfg n sec ls L.
  Proof.
    induction ls as [|s ls IH]; intros n sec; [eexists; constructor|]. destruct (line_total sec s) as (b & l & sec' & H).
    destruct (IH (n + List.length (colours l)) sec') as [L D].
    destruct (Nat.eq_dec (max_tokens cfg) 0) as [Z|Z]; [eexists; eapply doc_line; eauto|].
    destruct (le_lt_dec (max_tokens cfg) (n + List.length (colours l))); [eexists; eapply doc_stop; [eassumption|lia]|eexists; eapply doc_line; eauto].
  Qed.
  Lemma highlighted text toks : tokenize alnum cfg text = Some toks <-> exists L, doc_painted alnum cfg 0 None (lines text) L /\ toks = page 0 L.
  Proof.
    unfold tokenize. split.
    - intros H. destruct (doc_total (lines text) 0 None) as [L D]. exists L. split; [exact D|]. rewrite (lines_placed _ _ _ _ D) in H by reflexivity. now injection H as <-.
    - intros (L & D & ->). now rewrite (lines_placed _ _ _ _ D).
  Qed.
  Lemma always_tokens text : exists toks, tokenize alnum cfg text = Some toks.
  Proof. destruct (doc_total (lines text) 0 None) as [L D]. exists (page 0 L). apply highlighted. eauto. Qed.
End Line.
