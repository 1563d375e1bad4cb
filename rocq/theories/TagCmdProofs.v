From Verif Require Import Base BaseLemmas DocModel DocSpec DocProofs ParseModel TagModel TagSpec TagProofs TagCmdModel TagCmdSpec.

(* ---- reading blocks ---- *)
Lemma scan_closed r : forall x k, (forall p q, x = p ++ q -> (0 < k + braces p)%Z) -> (k + braces x = 1)%Z -> scan_block (x ++ 125%N :: r) k = (x, true, r).
Proof.
  intros x. induction x as [|c x IH]; intros k H E; cbn [app scan_block].
  - cbn [braces] in E. change (125 =? open_brace)%N with false. change (125 =? close_brace)%N with true. cbn iota.
    replace (k - 1 =? 0)%Z with true by (symmetry; apply Z.eqb_eq; lia). reflexivity.
  - unfold open_brace, close_brace. pose proof (H [c] x eq_refl) as H1. cbn [braces] in E, H1.
    assert (HH : forall k', (k' = k + (if (c =? 123)%N then 1 else if (c =? 125)%N then -1 else 0))%Z -> scan_block (x ++ 125%N :: r) k' = (x, true, r)).
    { intros k' ->. apply IH; [|lia]. intros p q ->. specialize (H (c :: p) q eq_refl). cbn [braces] in H. lia. }
    destruct (N.eqb_spec c 123) as [->|N1]; [rewrite HH by lia; reflexivity|]. destruct (N.eqb_spec c 125) as [->|N2]; [|rewrite HH by lia; reflexivity].
    destruct (Z.eqb_spec (k - 1) 0) as [Z0|Z0]; [lia|]. rewrite HH by lia. reflexivity.
Qed.
Lemma scan_open : forall x k, (forall p q, x = p ++ q -> (0 < k + braces p)%Z) -> scan_block x k = (x, false, []).
Proof.
  intros x. induction x as [|c x IH]; intros k H; cbn [scan_block]; [reflexivity|].
  unfold open_brace, close_brace. pose proof (H [c] x eq_refl) as H1. cbn [braces] in H1.
  assert (HH : forall k', (k' = k + (if (c =? 123)%N then 1 else if (c =? 125)%N then -1 else 0))%Z -> scan_block x k' = (x, false, [])).
  { intros k' ->. apply IH. intros p q ->. specialize (H (c :: p) q eq_refl). cbn [braces] in H. lia. }
  destruct (N.eqb_spec c 123) as [->|N1]; [rewrite HH by lia; reflexivity|]. destruct (N.eqb_spec c 125) as [->|N2]; [|rewrite HH by lia; reflexivity].
  destruct (Z.eqb_spec (k - 1) 0) as [Z0|Z0]; [lia|]. rewrite HH by lia. reflexivity.
Qed.
Lemma scan_parts : forall r k, (0 < k)%Z -> let '(x, b, t) := scan_block r k in
  (forall p q, x = p ++ q -> (0 < k + braces p)%Z) /\
  if b then r = x ++ 125%N :: t /\ (k + braces x = 1)%Z else r = x /\ t = [].
Proof.
  intros r. induction r as [|c r IH]; intros k K; cbn [scan_block].
  - split; [|auto]. intros p q E. symmetry in E. apply app_eq_nil in E as [-> _]. cbn. lia.
  - unfold open_brace, close_brace.
    assert (HH : forall k', (k' = k + (if (c =? 123)%N then 1 else if (c =? 125)%N then -1 else 0))%Z -> (0 < k')%Z ->
      let '(x, b, t) := (let '(x, b, t) := scan_block r k' in (c :: x, b, t)) in
      (forall p q, x = p ++ q -> (0 < k + braces p)%Z) /\ if b then c :: r = x ++ 125%N :: t /\ (k + braces x = 1)%Z else c :: r = x /\ t = []).
    { intros k' -> K'. specialize (IH _ K'). destruct (scan_block r _) as [[x b] t]. destruct IH as [I J]. split.
      - intros [|y p] q E; [cbn; lia|]. injection E as <- E. specialize (I p q E). cbn [braces]. lia.
      - destruct b; [destruct J as [-> J]; split; [reflexivity|cbn [braces]; lia]|destruct J as [-> ->]; auto]. }
    destruct (N.eqb_spec c 123) as [->|N1]; [apply HH; lia|]. destruct (N.eqb_spec c 125) as [->|N2]; [|apply HH; lia].
    destruct (Z.eqb_spec (k - 1) 0) as [Z0|Z0]; [|apply HH; lia].
    split; [|split; [reflexivity|cbn; lia]]. intros p q E. symmetry in E. apply app_eq_nil in E as [-> _]. cbn. lia.
Qed.
Lemma unclosed_one x : unclosed x -> forall p q, x = p ++ q -> (0 < 1 + braces p)%Z.
Proof. intros U p q E. specialize (U p q E). lia. Qed.
Lemma blk_scan ps r : part_ok (Blk ps) -> scan_block (pieces_text ps ++ 125%N :: r) 1 = (pieces_text ps, true, r).
Proof. intros (_ & U & E). apply scan_closed; [now apply unclosed_one|lia]. Qed.
Lemma tail_scan ps : tail_ok (Some ps) -> scan_block (pieces_text ps) 1 = (pieces_text ps, false, []).
Proof. intros (_ & U). apply scan_open. now apply unclosed_one. Qed.

Lemma whole_cons p l t : whole (p :: l) t = part_text p ++ whole l t.
Proof. unfold whole. cbn [flat_map]. now rewrite app_assoc. Qed.
Lemma blk_text ps s : part_text (Blk ps) ++ s = 123%N :: pieces_text ps ++ 125%N :: s.
Proof. cbn [part_text app]. now rewrite <- app_assoc. Qed.
Lemma text_parts : forall n s, List.length s <= n -> exists l t, s = whole l t /\ Forall part_ok l /\ tail_ok t.
Proof.
  intros n. induction n as [|n IH]; intros s L.
  - destruct s; [|cbn in L; lia]. exists [], None. repeat constructor.
  - destruct s as [|c r]; [exists [], None; repeat constructor|]. destruct (N.eq_dec c 123) as [->|N].
    + pose proof (scan_parts r 1 eq_refl) as S. destruct (scan_block r 1) as [[x b] u]. destruct S as [U S].
      assert (UC : unclosed x) by (intros p q E; specialize (U p q E); lia).
      destruct (block_pieces x) as (ps & Ex & K). destruct b.
      * destruct S as [-> S]. cbn [List.length] in L. rewrite app_length in L. cbn [List.length] in L. destruct (IH u) as (l & t & -> & F & T); [lia|].
        exists (Blk ps :: l), t. split; [rewrite whole_cons, blk_text, <- Ex; reflexivity|]. split; [|exact T]. constructor; [|exact F]. split; [exact K|]. rewrite <- Ex. split; [exact UC|lia].
      * destruct S as [-> ->]. exists [], (Some ps). split; [cbn; now rewrite <- Ex|]. split; [constructor|]. split; [exact K|]. now rewrite <- Ex.
    + destruct (IH r) as (l & t & -> & F & T); [cbn in L; lia|]. exists (Plain c :: l), t. split; [reflexivity|]. split; [constructor; [exact N|exact F]|exact T].
Qed.
Lemma parts_unique : forall l t l' t', Forall part_ok l -> tail_ok t -> Forall part_ok l' -> tail_ok t' -> whole l t = whole l' t' -> l = l' /\ t = t'.
Proof.
  intros l. induction l as [|p l IH]; intros t l' t' F T F' T' E.
  - destruct l' as [|p' l'].
    + destruct t as [ps|], t' as [ps'|]; cbn in E; try discriminate E; [|auto]. injection E as E. split; [reflexivity|]. f_equal. apply (pieces_unique _ _ (proj1 T) (proj1 T') E).
    + exfalso. rewrite whole_cons in E. inversion F' as [|? ? Q F1]; subst. destruct t as [ps|]; [|cbn in E; destruct p'; discriminate E].
      destruct p' as [c|ps']; [cbn in E; injection E as E _; apply Q; now symmetry|]. rewrite blk_text in E. cbn in E. injection E as E.
      pose proof (tail_scan ps T) as S. rewrite E, (blk_scan _ _ Q) in S. discriminate S.
  - inversion F as [|? ? P F1]; subst. rewrite whole_cons in E. destruct l' as [|p' l'].
    + exfalso. destruct t' as [ps'|]; [|cbn in E; destruct p; discriminate E].
      destruct p as [c|ps]; [cbn in E; injection E as E _; now apply P|]. rewrite blk_text in E. cbn in E. injection E as E.
      pose proof (tail_scan ps' T') as S. rewrite <- E, (blk_scan _ _ P) in S. discriminate S.
    + inversion F' as [|? ? Q F2]; subst. rewrite whole_cons in E.
      destruct p as [c|ps], p' as [c'|ps']; rewrite ?blk_text in E.
      * cbn in E. injection E as -> E. destruct (IH _ _ _ F1 T F2 T' E) as [-> ->]. auto.
      * exfalso. cbn in E. injection E as E _. now apply P.
      * exfalso. cbn in E. injection E as E _. apply Q. now symmetry.
      * injection E as E. pose proof (blk_scan ps (whole l t) P) as S. rewrite E, (blk_scan _ _ Q) in S. injection S as S1 S2.
        apply (pieces_unique _ _ (proj1 Q) (proj1 P)) in S1. subst ps'. destruct (IH _ _ _ F1 T F2 T' (eq_sym S2)) as [-> ->]. auto.
Qed.

(* ---- the tags of a block ---- *)
Definition at_pair (t : tag) : nat * (str * str) := (tg_pos t, (tg_name t, tg_args t)).
Lemma reported_at o ps ts ds : reported o ps ts ds -> map at_pair ts = tags_at o ps.
Proof.
  intros R. induction R as [o|o c r ts ds R IH|o n a v r ts ds V R IH|o d r ts ds R IH]; cbn [tags_at piece_tag map app piece_text blen]; [reflexivity| | |exact IH].
  - rewrite Nat.add_0_r. exact IH.
  - unfold at_pair at 1. cbn [tg_pos tg_name tg_args]. f_equal. exact IH.
Qed.
Lemma tags_at_in ps : forall o, map snd (tags_at o ps) = tags_in ps.
Proof.
  induction ps as [|p r IH]; intros o; [reflexivity|]. cbn [tags_at tags_in flat_map]. rewrite map_app, IH. f_equal. destruct p; reflexivity.
Qed.
Lemma block_tags ps o : pieces_ok ps ->
  (Exists splits_char ps /\ parse_override_block (pieces_text ps) o = Crash) \/
  (Forall (fun p => ~ splits_char p) ps /\ exists ts ds, parse_override_block (pieces_text ps) o = Done (ts, ds) /\ map at_pair ts = tags_at o ps).
Proof.
  intros K. destruct (block_exact ps o K) as [H|[F (ts & ds & E & R)]]; [now left|right]. split; [exact F|]. exists ts, ds. split; [exact E|].
  rewrite Nat.add_0_r in R. exact (reported_at _ _ _ _ R).
Qed.
Lemma no_exists ps : Forall (fun p => ~ splits_char p) ps -> ~ Exists splits_char ps.
Proof. intros F E. apply Exists_exists in E as (x & I & S). rewrite Forall_forall in F. exact (F x I S). Qed.
Lemma pairs_of ts o ps : map at_pair ts = tags_at o ps -> map (fun t => (tg_name t, tg_args t)) ts = tags_in ps.
Proof. intros H. rewrite <- (tags_at_in ps o), <- H, map_map. reflexivity. Qed.
Lemma full_written t : tag_full t = written (tg_name t, tg_args t).
Proof. reflexivity. Qed.
Lemma prefixed_iff p s : prefixed p s = true <-> exists r, s = p ++ r.
Proof.
  unfold prefixed. rewrite str_eqb_eq. split.
  - intros E. exists (skipn (List.length p) s). rewrite <- E at 1. symmetry. apply firstn_skipn.
  - intros (r & ->). rewrite firstn_app, Nat.sub_diag, firstn_all. cbn [firstn]. apply app_nil_r.
Qed.
Lemma prefixed_starts p s : starts_with p s = prefixed p s.
Proof. apply Bool.eq_iff_eq_true. rewrite starts_with_spec, prefixed_iff. reflexivity. Qed.

(* ---- removal ---- *)
Lemma word_of p : slice p 1 (blen p) = match p with [] => None | c :: r => if (c <? 128)%N then Some r else None end.
Proof.
  destruct p as [|c r]; [reflexivity|]. destruct (N.ltb_spec c 128) as [L|L].
  - apply slice_spec. exists [c], []. rewrite app_nil_r. split; [reflexivity|]. apply len1 in L. cbn [blen]. lia.
  - destruct (slice (c :: r) 1 (blen (c :: r))) as [m|] eqn:E; [|reflexivity]. exfalso. apply slice_spec in E as (a & b & E & A & M).
    destruct a as [|x a]; [cbn in A; lia|]. injection E as <- E. cbn [blen] in A. pose proof (len_utf8_pos c).
    assert (len_utf8 c = 1) by lia. apply len1 in H0. lia.
Qed.
Lemma keep_ok p : forall ts, (match p with [] => False | c :: _ => (c < 128)%N end) ->
  exists k, keep_tags p ts = Done k /\ flat_map tag_full k = flat_map written (filter (fun t => negb (prefixed (skipn 1 p) (fst t))) (map (fun t => (tg_name t, tg_args t)) ts)).
Proof.
  intros ts W. induction ts as [|t ts (k & E & F)]; [exists []; auto|]. cbn [keep_tags map filter fst]. rewrite word_of. destruct p as [|c r]; [destruct W|].
  replace (c <? 128)%N with true by (symmetry; now apply N.ltb_lt). cbn [need bind]. rewrite E. cbn [bind skipn]. rewrite prefixed_starts. destruct (prefixed r (tg_name t)); cbn [negb].
  - exists k. split; [reflexivity|exact F].
  - exists (t :: k). split; [reflexivity|]. cbn [flat_map]. cbn [skipn] in F. rewrite F. reflexivity.
Qed.
Lemma keep_panics p : forall ts, no_word p -> ts <> [] -> keep_tags p ts = Crash.
Proof.
  intros [|t ts] W N; [contradiction|]. cbn [keep_tags]. rewrite word_of. destruct p as [|c r]; [reflexivity|]. cbn in W.
  replace (c <? 128)%N with false by (symmetry; apply N.ltb_ge; lia). reflexivity.
Qed.
Lemma content_exact c ps : pieces_ok ps ->
  (remove_panics (rt_pattern c) ps /\ process_override_content c (pieces_text ps) = Crash) \/
  (~ remove_panics (rt_pattern c) ps /\ process_override_content c (pieces_text ps) = Done (kept (rt_pattern c) ps)).
Proof.
  intros K. unfold process_override_content, remove_panics, kept. destruct (rt_pattern c) as [p|]; [|right; split; [intros []|reflexivity]].
  destruct (block_tags ps 0 K) as [[X E]|[F (ts & ds & E & P)]]; rewrite E; cbn [bind fst]; [left; auto|].
  pose proof (pairs_of _ _ _ P) as Q. assert (W : no_word p \/ match p with [] => False | c :: _ => (c < 128)%N end) by (destruct p as [|x r]; [left; exact I|]; cbn; destruct (N.le_gt_cases 128 x); auto).
  destruct W as [W|W].
  - destruct ts as [|t ts].
    + right. cbn in Q. split; [intros [X|[_ X]]; [exact (no_exists _ F X)|now apply X]|]. cbn [keep_tags bind flat_map]. now rewrite <- Q.
    + left. split; [right; split; [exact W|rewrite <- Q; discriminate]|]. rewrite (keep_panics p (t :: ts) W) by discriminate. reflexivity.
  - right. split; [intros [X|[X _]]; [exact (no_exists _ F X)|destruct p; [exact W|cbn in X; lia]]|].
    destruct (keep_ok p ts W) as (k & E1 & E2). rewrite E1. cbn [bind]. now rewrite E2, Q.
Qed.
Lemma embraced_eq clean x : (if negb (is_nil x) || negb clean then open_brace :: x ++ [close_brace] else []) = embraced clean x.
Proof. destruct x, clean; reflexivity. Qed.
Lemma remove_exact c t : tail_ok t -> forall l, Forall part_ok l -> forall fuel, List.length (whole l t) <= fuel ->
  (Exists (remove_panics (rt_pattern c)) (blocks l t) /\ remove_loop fuel c (whole l t) = Crash) \/
  (Forall (fun ps => ~ remove_panics (rt_pattern c) ps) (blocks l t) /\ remove_loop fuel c (whole l t) = Done (removed (rt_pattern c) (rt_clean c) l t)).
Proof.
  intros T l. induction l as [|p l IH]; intros F fuel L.
  - destruct t as [ps|]; [|right; split; [constructor|destruct fuel; reflexivity]].
    cbn [whole flat_map tail_text app] in *. destruct fuel as [|f]; [cbn in L; lia|]. cbn [remove_loop]. change (123 =? open_brace)%N with true. cbn iota.
    rewrite (tail_scan ps T). cbn iota zeta. destruct (content_exact c ps (proj1 T)) as [[X E]|[X E]]; rewrite E; cbn [bind].
    + left. split; [constructor; exact X|reflexivity].
    + right. split; [repeat constructor; exact X|]. destruct f; cbn [remove_loop bind]; rewrite embraced_eq, app_nil_r; reflexivity.
  - inversion F as [|? ? P F1]; subst. rewrite whole_cons in *. destruct p as [ch|ps].
    + cbn [part_text app] in *. destruct fuel as [|f]; [cbn in L; lia|]. cbn [remove_loop]. replace (ch =? open_brace)%N with false by (symmetry; now apply N.eqb_neq).
      destruct (IH F1 f) as [[X E]|[X E]]; [cbn in L; lia| |]; rewrite E; cbn [bind]; [left|right]; split; auto.
    + rewrite blk_text in *. destruct fuel as [|f]; [cbn in L; lia|]. cbn [remove_loop]. change (123 =? open_brace)%N with true. cbn iota.
      rewrite (blk_scan ps _ P). cbn iota zeta. cbn [List.length] in L. rewrite app_length in L. cbn [List.length] in L.
      destruct (content_exact c ps (proj1 P)) as [[X E]|[X E]]; rewrite E; cbn [bind].
      * left. split; [constructor; exact X|reflexivity].
      * destruct (IH F1 f) as [[X' E']|[X' E']]; [lia| |]; rewrite E'; cbn [bind].
        -- left. split; [now constructor 2|reflexivity].
        -- right. split; [constructor; [exact X|exact X']|]. rewrite embraced_eq. unfold removed. cbn [flat_map]. now rewrite <- app_assoc.
Qed.
Lemma visible_plain l : Forall part_ok l -> Forall (fun c => c <> 123%N) (visible_chars l).
Proof. intros F. induction F as [|p l P F IH]; [constructor|]. destruct p; cbn [visible_chars flat_map app]; [constructor; [exact P|exact IH]|exact IH]. Qed.
Lemma removed_all l t : removed None true l t = visible_chars l.
Proof.
  unfold removed. cbn [kept embraced]. destruct t; rewrite app_nil_r; reflexivity.
Qed.

(* ---- replacement ---- *)
Lemma suffix_of find s : starts_with find s = true -> slice s (blen find) (blen s) = Some (skipn (List.length find) s).
Proof.
  intros H. apply starts_with_spec in H as (r & ->). rewrite skipn_app, skipn_all, Nat.sub_diag. cbn [app skipn]. apply slice_spec. exists find, []. rewrite app_nil_r. rewrite blen_app. auto.
Qed.
Lemma replace_tags_ok c : forall ts made, replace_in_tags c made ts = Done (replaced_tags (pt_find c) (pt_with c) (pt_all c) made (map (fun t => (tg_name t, tg_args t)) ts)).
Proof.
  intros ts. induction ts as [|t ts IH]; intros made; [reflexivity|]. cbn [replace_in_tags map replaced_tags]. rewrite full_written, prefixed_starts.
  destruct (prefixed (pt_find c) (written (tg_name t, tg_args t))) eqn:P; cbn [andb]; [destruct (pt_all c || (made =? 0))|].
  - rewrite suffix_of by (now rewrite prefixed_starts). cbn [need bind]. rewrite IH, Nat.add_1_r. cbn [bind]. destruct (replaced_tags _ _ _ _ _). reflexivity.
  - rewrite IH. cbn [bind]. destruct (replaced_tags _ _ _ _ _). reflexivity.
  - rewrite IH. cbn [bind]. destruct (replaced_tags _ _ _ _ _). reflexivity.
Qed.
(* the closed blocks that are read *)
Fixpoint read_blocks (find new : str) (all : bool) (made : nat) (l : list part) : list (list piece) :=
  match l with
  | [] => []
  | Plain c :: r => read_blocks find new all made r
  | Blk ps :: r =>
    if negb all && (0 <? made) then read_blocks find new all made r
    else ps :: read_blocks find new all (snd (replaced_tags find new all made (tags_in ps))) r
  end.
Lemma replace_exact c t : tail_ok t -> forall l, Forall part_ok l -> forall fuel made, List.length (whole l t) <= fuel ->
  (Exists (Exists splits_char) (read_blocks (pt_find c) (pt_with c) (pt_all c) made l) /\ replace_loop fuel c made (whole l t) = Crash) \/
  (Forall (fun ps => ~ Exists splits_char ps) (read_blocks (pt_find c) (pt_with c) (pt_all c) made l) /\
   replace_loop fuel c made (whole l t) = Done (replaced (pt_find c) (pt_with c) (pt_all c) made l ++ match t with None => [] | Some _ => [123%N] end)).
Proof.
  intros T l. induction l as [|p l IH]; intros F fuel made L.
  - right. split; [constructor|]. destruct t as [ps|]; [|destruct fuel; reflexivity].
    cbn [whole flat_map tail_text app] in *. destruct fuel as [|f]; [cbn in L; lia|]. cbn [replace_loop]. change (123 =? open_brace)%N with true. cbn iota.
    rewrite (tail_scan ps T). cbn iota zeta. destruct f; reflexivity.
  - inversion F as [|? ? P F1]; subst. rewrite whole_cons in *. destruct p as [ch|ps].
    + cbn [part_text app] in *. destruct fuel as [|f]; [cbn in L; lia|]. cbn [replace_loop]. replace (ch =? open_brace)%N with false by (symmetry; now apply N.eqb_neq).
      destruct (IH F1 f made) as [[X E]|[X E]]; [cbn in L; lia| |]; rewrite E; cbn [bind]; [left|right]; split; auto.
    + rewrite blk_text in *. destruct fuel as [|f]; [cbn in L; lia|]. cbn [replace_loop]. change (123 =? open_brace)%N with true. cbn iota.
      rewrite (blk_scan ps _ P). cbn iota zeta. cbn [List.length] in L. rewrite app_length in L. cbn [List.length] in L.
      unfold process_override_for_replacement. cbn [read_blocks replaced]. destruct (negb (pt_all c) && (0 <? made)).
      * cbn [bind fst snd]. destruct (IH F1 f made) as [[X E]|[X E]]; [lia| |]; rewrite E; cbn [bind]; [left|right]; split; auto.
        cbn [app]. now rewrite <- app_assoc.
      * destruct (block_tags ps 0 (proj1 P)) as [[X E]|[X (ts & ds & E & Q)]]; rewrite E; cbn [bind fst].
        -- left. split; [constructor; exact X|reflexivity].
        -- rewrite replace_tags_ok, (pairs_of _ _ _ Q). destruct (replaced_tags _ _ _ _ (tags_in ps)) as [s n] eqn:R. cbn [bind fst snd].
           destruct (IH F1 f n) as [[X' E']|[X' E']]; [lia| |]; rewrite E'; cbn [bind].
           ++ left. split; [now constructor 2|reflexivity].
           ++ right. split; [constructor; [now apply no_exists|exact X']|]. cbn [app]. now rewrite <- app_assoc.
Qed.
Lemma only_tags_text ps : only_tags ps -> flat_map written (tags_in ps) = pieces_text ps.
Proof. intros F. induction F as [|p ps (n & a & ->) F IH]; [reflexivity|]. cbn [tags_in flat_map piece_tag app pieces_text piece_text written]. fold (tags_in ps). now rewrite IH. Qed.
Lemma replaced_tags_none find new all : forall l made, (forall t, In t l -> prefixed find (written t) = false) -> replaced_tags find new all made l = (flat_map written l, made).
Proof.
  intros l. induction l as [|t l IH]; intros made H; [reflexivity|]. cbn [replaced_tags flat_map]. rewrite (H t (or_introl eq_refl)). cbn [andb]. rewrite IH; [reflexivity|]. intros x I. apply H. now right.
Qed.

(* ---- listing ---- *)
Fixpoint listed_by_chars (k : nat) (l : list part) (t : option (list piece)) : list (nat * (str * str)) :=
  match l with
  | [] => match t with None => [] | Some ps => tags_at k ps end
  | Plain c :: r => listed_by_chars (k + 1) r t
  | Blk ps :: r => tags_at k ps ++ listed_by_chars (k + 2 + List.length (pieces_text ps)) r t
  end.
Definition shown_as (ip : bool) (x : nat * (str * str)) (p : parsed_tag) : Prop :=
  pr_position p = (if ip then Some (fst x) else None) /\
  ((exists inner, parenthesised (snd (snd x)) inner /\ pr_tag p = 92%N :: fst (snd x) /\ pr_parameters p = match inner with [] => [] | _ => map trim (split_on (N.eqb 44) inner) end) \/
   ((forall inner, ~ parenthesised (snd (snd x)) inner) /\ pr_tag p = written (snd x) /\ pr_parameters p = [])).
Lemma paren_iff a : starts_with [40%N] a && ends_with [41%N] a = true <-> exists inner, parenthesised a inner.
Proof.
  unfold parenthesised. rewrite andb_true_iff, starts_with_spec, ends_with_spec. split.
  - intros [[r ->] [r' E]]. cbn [app] in *. destruct r' as [|x r']; [discriminate E|]. injection E as <- ->. now exists r'.
  - intros (i & ->). split; [now exists (i ++ [41%N])|exists (40%N :: i); reflexivity].
Qed.
Lemma parsed_ok ip start base t : exists p, parsed_of ip start base t = Done p /\ shown_as ip (start + base + tg_pos t, (tg_name t, tg_args t)) p.
Proof.
  unfold parsed_of, shown_as. cbn [fst snd]. destruct (starts_with [40%N] (tg_args t) && ends_with [41%N] (tg_args t)) eqn:E.
  - apply paren_iff in E as (i & Hi). assert (SL : slice (tg_args t) 1 (blen (tg_args t) - 1) = Some i).
    { rewrite Hi. apply slice_spec. exists [40%N], [41%N]. split; [reflexivity|]. split; [reflexivity|]. cbn [blen]. rewrite blen_app. change (len_utf8 40) with 1. cbn [blen]. change (len_utf8 41) with 1. lia. }
    rewrite SL. cbn [need bind]. eexists. split; [reflexivity|]. cbn [pr_position pr_tag pr_parameters]. split; [reflexivity|]. left. exists i. split; [exact Hi|]. split; [reflexivity|]. now destruct i.
  - eexists. split; [reflexivity|]. cbn [pr_position pr_tag pr_parameters]. split; [reflexivity|]. right. split; [|auto]. intros i Hi. rewrite (proj2 (paren_iff (tg_args t))) in E by (now exists i). discriminate.
Qed.
Lemma map_parsed ip start base : forall ts o ps, map at_pair ts = tags_at o ps -> exists l, map_run (parsed_of ip start base) ts = Done l /\ Forall2 (shown_as ip) (tags_at (start + base + o) ps) l.
Proof.
  intros ts o ps E. assert (Q : tags_at (start + base + o) ps = map (fun x => (start + base + fst x, snd x)) (tags_at o ps)).
  { clear. revert o. induction ps as [|p ps IH]; intros o; [reflexivity|]. cbn [tags_at]. rewrite map_app, map_map. cbn [fst snd]. f_equal. rewrite <- IH. f_equal. lia. }
  rewrite Q, <- E. clear Q E. rewrite map_map. induction ts as [|t ts (l & IH & F)]; [exists []; split; [reflexivity|constructor]|].
  destruct (parsed_ok ip start base t) as (p & E & S). exists (p :: l). cbn [map_run]. rewrite E. cbn [bind]. rewrite IH. cbn [bind map]. split; [reflexivity|constructor; [exact S|exact F]].
Qed.
Lemma parse_exact ip start t : tail_ok t -> forall l, Forall part_ok l -> forall fuel pos, List.length (whole l t) <= fuel ->
  (Exists (Exists splits_char) (blocks l t) /\ parse_loop fuel ip start pos (whole l t) = Crash) \/
  (Forall (fun ps => ~ Exists splits_char ps) (blocks l t) /\ exists out, parse_loop fuel ip start pos (whole l t) = Done out /\
     Forall2 (shown_as ip) (listed_by_chars (start + pos) l t) out).
Proof.
  intros T l. induction l as [|p l IH]; intros F fuel pos L.
  - destruct t as [ps|]; [|right; split; [constructor|]; exists []; split; [destruct fuel; reflexivity|constructor]].
    cbn [whole flat_map tail_text app] in *. destruct fuel as [|f]; [cbn in L; lia|]. cbn [parse_loop]. change (123 =? open_brace)%N with true. cbn iota.
    rewrite (tail_scan ps T). cbn iota zeta. destruct (block_tags ps 0 (proj1 T)) as [[X E]|[X (ts & ds & E & P)]]; rewrite E; cbn [bind fst].
    + left. split; [constructor; exact X|reflexivity].
    + right. split; [repeat constructor; now apply no_exists|]. destruct (map_parsed ip start pos ts 0 ps P) as (o & M & S). rewrite M. cbn [bind]. exists o.
      rewrite Nat.add_0_r in S. split; [destruct f; cbn [parse_loop bind]; now rewrite app_nil_r|exact S].
  - inversion F as [|? ? P F1]; subst. rewrite whole_cons in *. destruct p as [ch|ps].
    + cbn [part_text app] in *. destruct fuel as [|f]; [cbn in L; lia|]. cbn [parse_loop]. replace (ch =? open_brace)%N with false by (symmetry; now apply N.eqb_neq).
      destruct (IH F1 f (pos + 1)) as [[X E]|[X (o & E & S)]]; [cbn in L; lia| |]; rewrite E; [left; auto|right; split; [exact X|]].
      exists o. split; [reflexivity|]. cbn [listed_by_chars]. now rewrite <- Nat.add_assoc.
    + rewrite blk_text in *. destruct fuel as [|f]; [cbn in L; lia|]. cbn [parse_loop]. change (123 =? open_brace)%N with true. cbn iota.
      rewrite (blk_scan ps _ P). cbn iota zeta. cbn [List.length] in L. rewrite app_length in L. cbn [List.length] in L.
      destruct (block_tags ps 0 (proj1 P)) as [[X E]|[X (ts & ds & E & Q)]]; rewrite E; cbn [bind fst].
      * left. split; [constructor; exact X|reflexivity].
      * destruct (map_parsed ip start pos ts 0 ps Q) as (o1 & M & S1). rewrite M. cbn [bind].
        destruct (IH F1 f (pos + 1 + List.length (pieces_text ps) + 1)) as [[X' E']|[X' (o & E' & S)]]; [lia| |]; rewrite E'; cbn [bind].
        -- left. split; [now constructor 2|reflexivity].
        -- right. split; [constructor; [now apply no_exists|exact X']|]. exists (o1 ++ o). split; [reflexivity|]. cbn [listed_by_chars]. rewrite Nat.add_0_r in S1.
           apply Forall2_app; [exact S1|]. replace (start + pos + 2 + List.length (pieces_text ps)) with (start + (pos + 1 + List.length (pieces_text ps) + 1)) by lia. exact S.
Qed.
Lemma length_blen s : List.length s <= blen s.
Proof. induction s as [|c s IH]; [reflexivity|]. cbn [List.length blen]. pose proof (len_utf8_pos c). lia. Qed.
Lemma tags_at_shift ps : forall o k, tags_at (o + k) ps = map (fun x => (fst x + k, snd x)) (tags_at o ps).
Proof.
  induction ps as [|p ps IH]; intros o k; [reflexivity|]. cbn [tags_at]. rewrite map_app, map_map. cbn [fst snd]. f_equal. rewrite <- IH. f_equal. lia.
Qed.
Lemma positions_behind t : forall l o k, k <= o -> Forall2 (fun x y => snd x = snd y /\ fst y < fst x) (listed o l t) (listed_by_chars k l t).
Proof.
  assert (B : forall ps o k, k < o -> Forall2 (fun x y => snd x = snd y /\ fst y < fst x) (tags_at o ps) (tags_at k ps)).
  { intros ps. induction ps as [|p ps IH]; intros o k H; [constructor|]. cbn [tags_at]. apply Forall2_app; [destruct p; cbn [piece_tag map]; repeat constructor; assumption|]. apply IH. lia. }
  intros l. induction l as [|p l IH]; intros o k H; cbn [listed listed_by_chars].
  - destruct t; [apply B; lia|constructor].
  - destruct p as [c|ps]; [apply IH; pose proof (len_utf8_pos c); lia|]. apply Forall2_app; [apply B; lia|]. apply IH.
    cbn [part_text blen]. rewrite blen_app. change (len_utf8 123) with 1. cbn [blen]. change (len_utf8 125) with 1. pose proof (length_blen (pieces_text ps)). lia.
Qed.

(* ---- on the document ---- *)
Lemma rewrite_range_ok f r d a m b : text d = a ++ m ++ b -> r_start r = blen a -> r_end r = blen a + blen m ->
  rewrite_range f r d = match f m with
    | Done m' => OOk (set_text d (a ++ m' ++ b)) (success_with_change (mkRange (blen a) (blen a + blen m')) (blen a + blen m'))
    | _ => OPanic end.
Proof.
  intros T S E. unfold rewrite_range. rewrite (text_range_app d a m b r T S E). destruct (f m) as [m'| |]; [|reflexivity|reflexivity].
  rewrite (replace_raw_app d a m b r m' T S E). cbn [out_bind]. rewrite S, range_new_le by lia. reflexivity.
Qed.
Lemma wrap_ok c d a m b : text d = a ++ m ++ b -> r_start (wt_range c) = blen a -> r_end (wt_range c) = blen a + blen m ->
  let w := (123%N :: wt_opening c ++ [125%N]) ++ m ++ 123%N :: get_closing_tag c ++ [125%N] in
  exec_wrap_tag c d = OOk (set_text d (a ++ w ++ b)) (success_with_change (mkRange (blen a) (blen a + blen w)) (blen a + blen w)).
Proof.
  intros T S E w. unfold exec_wrap_tag. rewrite S, E. unfold open_brace, close_brace.
  set (cl := 123%N :: get_closing_tag c ++ [125%N]). set (op := 123%N :: wt_opening c ++ [125%N]).
  rewrite <- blen_app. rewrite (insert_raw_app d (a ++ m) b cl) by (now rewrite T, <- app_assoc). cbn [out_bind].
  rewrite (insert_raw_app _ a (m ++ cl ++ b) op) by (cbn [set_text text]; now rewrite <- app_assoc). cbn [out_bind].
  unfold usub. rewrite blen_app. replace (blen a <=? blen a + blen m) with true by (symmetry; apply Nat.leb_le; lia).
  assert (W : blen w = blen op + blen m + blen cl) by (unfold w; rewrite !blen_app; fold op cl; lia).
  replace (blen a + (blen op + (blen a + blen m - blen a) + blen cl)) with (blen a + blen w) by lia.
  rewrite range_new_le by lia. unfold w. fold op cl. rewrite <- !app_assoc. unfold set_text. cbn [history]. reflexivity.
Qed.

(* Concrete texts. *)
Lemma plain_name c w after : letter c -> Forall letter w -> c <> 114%N -> c <> 102%N -> ~ starts letter after -> name_of (c :: w) after.
Proof.
  intros L F N1 N2 S. split; [|split; [|right; exact S]].
  - split; [discriminate|]. exists [], (c :: w). split; [reflexivity|]. split; [left; reflexivity|]. now constructor.
  - intros p q E _ [->| ->]; [change (lit "r") with [114%N] in E|change (lit "fn") with [102%N; 110%N] in E]; cbn [app] in E; injection E as E _; contradiction.
Qed.
Lemma plain_args n a after : n <> lit "t" -> ~ In 92%N a -> (after = [] \/ exists r, after = 92%N :: r) -> args_of n a after.
Proof. intros N I H. right. split; [intros [E _]; contradiction|]. split; [exact I|]. destruct H as [->|(r & ->)]; [now left|right; exists 92%N, r; auto]. Qed.
Lemma no_braces x : ~ In 123%N x -> ~ In 125%N x -> unclosed x /\ braces x = 0%Z.
Proof.
  assert (B : forall y, ~ In 123%N y -> ~ In 125%N y -> braces y = 0%Z).
  { intros y. induction y as [|c y IH]; intros A C; [reflexivity|]. cbn [braces]. rewrite IH; [|intros I; apply A; now right|intros I; apply C; now right].
    destruct (N.eqb_spec c 123) as [->|_]; [exfalso; apply A; now left|]. destruct (N.eqb_spec c 125) as [->|_]; [exfalso; apply C; now left|reflexivity]. }
  intros A C. split; [|now apply B]. intros p q ->. rewrite B; [lia| |]; intros I; [apply A|apply C]; apply in_app_iff; now left.
Qed.
