From Coq Require Import Sorted.
From Verif Require Import BaseLemmas TagSpec.

(* ---- characters ---- *)
Lemma letter_iff c : is_alpha c = true <-> letter c.
Proof. unfold is_alpha, is_upper, is_lower, letter. lia. Qed.
Lemma digit_iff c : is_digit c = true <-> digit c.
Proof. unfold is_digit, digit. lia. Qed.
Lemma bs_iff c : is_bs c = true <-> c = 92%N.
Proof. unfold is_bs. lia. Qed.
Lemma letter_len c : letter c -> len_utf8 c = 1.
Proof. unfold letter, len_utf8. intros H. destruct (N.ltb_spec c 128); [reflexivity|lia]. Qed.
Lemma digit_len c : digit c -> len_utf8 c = 1.
Proof. unfold digit, len_utf8. intros H. destruct (N.ltb_spec c 128); [reflexivity|lia]. Qed.
Lemma len1 c : len_utf8 c = 1 <-> (c < 128)%N.
Proof. unfold len_utf8. destruct (N.ltb_spec c 128); [split; auto|]. destruct (c <? 2048)%N, (c <? 65536)%N; split; lia. Qed.
Lemma slice_at (u m v : str) i j : i = blen u -> j = blen u + blen m -> slice (u ++ m ++ v) i j = Some m.
Proof. intros -> ->. apply slice_app. Qed.

(* ---- names ---- *)
Definition partial_name (m : str) : Prop :=
  (exists d w, m = d ++ w /\ (d = [] \/ exists c, d = [c] /\ digit c) /\ Forall letter w) /\ (forall p q, m = p ++ q -> ~ stops p).
Lemma partial_snoc m c : partial_name m -> letter c -> ~ stops (m ++ [c]) -> partial_name (m ++ [c]).
Proof.
  intros [(d & w & -> & D & W) S] L N. split.
  - exists d, (w ++ [c]). split; [now rewrite app_assoc|]. split; [exact D|]. apply Forall_app. split; [exact W|]. constructor; [exact L|constructor].
  - intros p q E. destruct q as [|x q'] using rev_ind.
    + rewrite app_nil_r in E. now subst p.
    + rewrite app_assoc in E. apply app_inj_tail in E as [E _]. now apply (S p q').
Qed.
Lemma stops_dec s : {stops s} + {~ stops s}.
Proof.
  unfold stops. destruct (list_eq_dec N.eq_dec s (lit "r")); [left; now left|]. destruct (list_eq_dec N.eq_dec s (lit "fn")); [left; now right|].
  right. tauto.
Defined.
Lemma stops_eqb s : str_eqb s (lit "r") || str_eqb s (lit "fn") = true <-> stops s.
Proof. rewrite orb_true_iff, !str_eqb_eq. reflexivity. Qed.
Lemma name_full m : partial_name m -> m <> [] -> forall after, ~ starts letter after -> name_of m after.
Proof.
  intros [Sh St] N after A. split; [split; assumption|]. split; [|now right].
  intros p q E _. exact (St p q E).
Qed.
Lemma scan_name_ok content u r : forall m bp ns len, content = u ++ m ++ r -> ns = blen u -> bp = blen u + blen m -> len = List.length m -> partial_name m ->
  exists n rest1, r = n ++ rest1 /\ scan_tag_name content r bp ns len = Done (rest1, bp + blen n) /\
    (m ++ n = [] /\ ~ starts letter rest1 /\ ~ starts digit rest1 \/ name_of (m ++ n) rest1).
Proof.
  induction r as [|c r IH]; intros m bp ns len C NS BP L P; cbn [scan_tag_name].
  - exists [], []. split; [reflexivity|]. split; [cbn [blen]; now rewrite Nat.add_0_r|]. rewrite app_nil_r.
    destruct m as [|x m]; [left|right; apply name_full; [exact P|discriminate|]]; repeat split; intros (? & ? & ? & _); discriminate.
  - destruct ((len =? 0) && is_digit c) eqn:E1.
    + apply andb_true_iff in E1 as [E1 D]. apply Nat.eqb_eq in E1. apply digit_iff in D. rewrite E1 in L. symmetry in L.
      apply length_zero_iff_nil in L. subst m len. cbn [app blen] in *.
      destruct (IH [c] (bp + 1) ns (0 + 1)) as (n & rest1 & -> & H & K).
      * exact C.
      * exact NS.
      * cbn [blen]. rewrite (digit_len c D). lia.
      * reflexivity.
      * split; [exists [c], []; split; [reflexivity|]; split; [right; now exists c|constructor]|].
        intros p q E. unfold stops. destruct p as [|x p]; [intros [?|?]; discriminate|]. injection E as -> E. destruct p; [|discriminate].
        unfold digit in D. intros [Q|Q]; [injection Q as Q; lia|discriminate].
      * exists (c :: n), rest1. split; [reflexivity|]. split; [rewrite H; cbn [blen]; rewrite (digit_len c D); do 2 f_equal; lia|].
        destruct K as [[K _]|K]; [discriminate|now right].
    + destruct (is_alpha c) eqn:A.
      * apply letter_iff in A. pose proof (letter_len c A) as LC.
        assert (SL : slice content ns (bp + 1) = Some (m ++ [c])).
        { rewrite C. replace (m ++ c :: r) with ((m ++ [c]) ++ r) by (now rewrite <- app_assoc).
          apply slice_at; [exact NS|]. rewrite blen_app. cbn [blen]. lia. }
        rewrite SL. cbn [or_crash bind].
        destruct (str_eqb (m ++ [c]) (lit "r") || str_eqb (m ++ [c]) (lit "fn")) eqn:St.
        -- apply stops_eqb in St. exists [c], r. split; [reflexivity|]. split; [cbn [blen]; do 2 f_equal; lia|]. right.
           destruct P as [(d & w & E & D & W) S]. split; [|split].
           ++ split; [destruct m; discriminate|]. exists d, (w ++ [c]). split; [rewrite E; now rewrite app_assoc|]. split; [exact D|].
              apply Forall_app. split; [exact W|constructor; [exact A|constructor]].
           ++ intros p q Q NQ. destruct q as [|x q'] using rev_ind; [congruence|]. rewrite app_assoc in Q. apply app_inj_tail in Q as [Q _]. exact (S p q' Q).
           ++ now left.
        -- assert (NS' : ~ stops (m ++ [c])) by (rewrite <- stops_eqb; congruence).
           destruct (IH (m ++ [c]) (bp + 1) ns (len + 1)) as (n & rest1 & -> & H & K).
           ++ rewrite C, <- !app_assoc. reflexivity.
           ++ exact NS.
           ++ rewrite blen_app. cbn [blen]. lia.
           ++ rewrite app_length. cbn. lia.
           ++ now apply partial_snoc.
           ++ exists (c :: n), rest1. split; [reflexivity|]. split; [rewrite H; cbn [blen]; do 2 f_equal; lia|].
              rewrite <- app_assoc in K. destruct K as [[K _]|K]; [destruct m; discriminate|now right].
      * exists [], (c :: r). split; [reflexivity|]. split; [cbn [blen]; now rewrite Nat.add_0_r|]. rewrite app_nil_r.
        assert (NL : ~ starts letter (c :: r)) by (intros (x & y & E & Lx); injection E as <- <-; apply letter_iff in Lx; congruence).
        destruct m as [|x m].
        -- left. split; [reflexivity|]. split; [exact NL|]. intros (y & z & E & Dy). injection E as <- <-. apply digit_iff in Dy.
           cbn in L. rewrite L, Dy in E1. discriminate.
        -- right. apply name_full; [exact P|discriminate|exact NL].
Qed.
Lemma partial_nil : partial_name [].
Proof.
  split; [exists [], []; repeat split; [now left|constructor]|].
  intros p q E. symmetry in E. apply app_eq_nil in E as [-> _]. intros [?|?]; discriminate.
Qed.

(* ---- arguments ---- *)
Lemma parens_app a b : parens (a ++ b) = (parens a + parens b)%Z.
Proof. induction a as [|c a IH]; [reflexivity|]. cbn [app parens]. rewrite IH. lia. Qed.
Lemma scan_parens_ok rest : forall m bp depth, depth = parens m -> (m = [] -> starts (eq 40%N) rest) -> open_throughout m ->
  exists a after, rest = a ++ after /\ scan_parens rest bp depth = (after, bp + blen a) /\
    (closes (m ++ a) \/ open_throughout (m ++ a) /\ after = []).
Proof.
  induction rest as [|c r IH]; intros m bp depth D S O; cbn [scan_parens].
  - exists [], []. split; [reflexivity|]. split; [cbn [blen]; f_equal; lia|]. rewrite app_nil_r. right. split; [exact O|reflexivity].
  - assert (STEP : (0 < parens (m ++ [c]))%Z -> exists a after, c :: r = a ++ after /\
       scan_parens r (bp + len_utf8 c) (parens (m ++ [c])) = (after, bp + blen a) /\ (closes (m ++ a) \/ open_throughout (m ++ a) /\ after = [])).
    { intros Pos. destruct (IH (m ++ [c]) (bp + len_utf8 c) _ eq_refl) as (a & after & -> & H & K).
      - intros E. destruct m; discriminate.
      - intros p q E NP. destruct q as [|x q'] using rev_ind; [rewrite app_nil_r in E; now subst p|].
        rewrite app_assoc in E. apply app_inj_tail in E as [E _]. exact (O p q' E NP).
      - exists (c :: a), after. split; [reflexivity|]. split; [rewrite H; cbn [blen]; f_equal; lia|]. rewrite <- app_assoc in K. exact K. }
    rewrite parens_app in STEP. cbn [parens] in STEP.
    assert (DM : m = [] /\ c = 40%N \/ m <> [] /\ (0 < depth)%Z).
    { destruct m as [|x m]; [left; split; [reflexivity|]; destruct (S eq_refl) as (y & z & E & Q); congruence|].
      right. split; [discriminate|]. rewrite D. apply (O (x :: m) []); [now rewrite app_nil_r|discriminate]. }
    destruct (c =? 40)%N eqn:E40.
    + rewrite D. replace (parens m + 1)%Z with (parens m + (1 + 0))%Z by lia. apply STEP. destruct DM as [[-> _]|[_ ?]]; cbn; lia.
    + apply N.eqb_neq in E40. destruct DM as [[_ ?]|[NM Pos]]; [congruence|]. destruct (c =? 41)%N eqn:E41.
      * apply N.eqb_eq in E41. destruct (Z.eqb_spec (depth - 1) 0) as [Z0|NZ].
        -- exists [c], r. split; [reflexivity|]. split; [subst c; cbn [blen]; reflexivity|]. left. split; [destruct m; discriminate|].
           split; [rewrite parens_app; cbn [parens]; subst c; change (41 =? 40)%N with false; change (41 =? 41)%N with true; cbv iota; lia|].
           intros p q E NP NQ. destruct q as [|x q'] using rev_ind; [congruence|]. rewrite app_assoc in E. apply app_inj_tail in E as [E _].
           exact (O p q' E NP).
        -- rewrite D. replace (parens m - 1)%Z with (parens m + (-1 + 0))%Z by lia. apply STEP. lia.
      * rewrite !Z.add_0_r in STEP. rewrite D. apply STEP. lia.
Qed.
Lemma scan_args_ok rest : forall bp, exists a after, rest = a ++ after /\ scan_args rest bp = (after, bp + blen a) /\
  ~ In 92%N a /\ (after = [] \/ starts (eq 92%N) after).
Proof.
  induction rest as [|c r IH]; intros bp; cbn [scan_args].
  - exists [], []. cbn [blen]. repeat split; [f_equal; lia|intros []|now left].
  - destruct (is_bs c) eqn:E.
    + apply bs_iff in E. exists [], (c :: r). cbn [blen]. repeat split; [f_equal; lia|intros []|right; exists c, r; now split].
    + destruct (IH (bp + len_utf8 c)) as (a & after & -> & H & N & K). exists (c :: a), after. split; [reflexivity|].
      split; [rewrite H; cbn [blen]; f_equal; lia|]. split; [|exact K].
      intros [Q|Q]; [apply bs_iff in Q; congruence|exact (N Q)].
Qed.
Lemma starts_paren_iff s : starts_paren s = true <-> starts (eq 40%N) s.
Proof.
  destruct s as [|c r]; cbn; [split; [discriminate|intros (? & ? & ? & _); discriminate]|]. rewrite N.eqb_eq.
  split; [intros ->; now exists 40%N, r|]. intros (x & y & E & Q). congruence.
Qed.
Lemma args_scan n rest1 bp : exists a after, rest1 = a ++ after /\
  (if str_eqb n (lit "t") && starts_paren rest1 then scan_parens rest1 bp 0 else scan_args rest1 bp) = (after, bp + blen a) /\ args_of n a after.
Proof.
  destruct (str_eqb n (lit "t") && starts_paren rest1) eqn:E.
  - apply andb_true_iff in E as [E1 E2]. apply str_eqb_eq in E1. apply starts_paren_iff in E2.
    destruct (scan_parens_ok rest1 [] bp 0 eq_refl (fun _ => E2)) as (a & after & E & H & K).
    { intros p q Q NP. symmetry in Q. apply app_eq_nil in Q as [-> _]. congruence. }
    exists a, after. split; [exact E|]. split; [exact H|]. left. rewrite <- E. auto.
  - destruct (scan_args_ok rest1 bp) as (a & after & Q & H & K). exists a, after. split; [exact Q|]. split; [exact H|]. right. split; [|exact K].
    rewrite <- Q. intros [A B]. apply str_eqb_eq in A. apply starts_paren_iff in B. rewrite A, B in E. discriminate.
Qed.

(* ---- values ---- *)
Lemma one_of_iff l s : one_of l s = true <-> In s (map lit l).
Proof.
  unfold one_of. rewrite existsb_exists, in_map_iff. split; intros (x & A & B); exists x; [rewrite str_eqb_eq in B|rewrite str_eqb_eq]; auto.
Qed.
Lemma one_of_false l s : one_of l s = false -> ~ In s (map lit l).
Proof. rewrite <- one_of_iff. congruence. Qed.
Ltac table_in H := apply one_of_iff in H; cbn [map In] in H; left;
  repeat (destruct H as [H|H]; [subst; cbn [In]; repeat (first [left; reflexivity | right])|]); destruct H.
Lemma complexity_valued n : valued complexity_table n (tag_complexity n).
Proof.
  unfold tag_complexity.
  destruct (one_of ["b"; "i"; "u"; "s"; "c"; "1c"; "2c"; "3c"; "4c"; "alpha"; "1a"; "2a"; "3a"; "4a"; "fn"; "fs"]%string n) eqn:E1; [table_in E1|].
  destruct (one_of ["move"; "fad"; "fade"; "frx"; "fry"; "frz"; "fscx"; "fscy"; "fsp"; "clip"; "iclip"]%string n) eqn:E2; [table_in E2|].
  destruct (one_of ["t"; "pbo"]%string n) eqn:E3; [table_in E3|].
  destruct (one_of ["p"]%string n) eqn:E4; [table_in E4|].
  right. split; [reflexivity|]. intros w I. apply one_of_false in E1, E2, E3, E4. apply (in_map fst) in I. cbn [fst] in I.
  match type of E1 with ~ In _ ?l1 => match type of E2 with ~ In _ ?l2 => match type of E3 with ~ In _ ?l3 => match type of E4 with ~ In _ ?l4 =>
    change (map fst complexity_table) with (l1 ++ l2 ++ l3 ++ l4) in I end end end end.
  rewrite !in_app_iff in I. destruct I as [I|[I|[I|I]]]; contradiction.
Qed.
Lemma score_valued n : valued score_table n (tag_score n).
Proof.
  unfold tag_score.
  destruct (one_of ["b"; "i"; "u"; "s"; "c"; "1c"; "2c"; "3c"; "4c"; "alpha"; "1a"; "2a"; "3a"; "4a"]%string n) eqn:E1; [table_in E1|].
  destruct (one_of ["frx"; "fry"; "frz"; "fscx"; "fscy"; "fsp"; "fad"; "fade"; "clip"; "iclip"]%string n) eqn:E2; [table_in E2|].
  destruct (one_of ["move"]%string n) eqn:E3; [table_in E3|].
  destruct (one_of ["t"; "pbo"]%string n) eqn:E4; [table_in E4|].
  destruct (one_of ["p"]%string n) eqn:E5; [table_in E5|].
  right. split; [reflexivity|]. intros w I. apply one_of_false in E1, E2, E3, E4, E5. apply (in_map fst) in I. cbn [fst] in I.
  match type of E1 with ~ In _ ?l1 => match type of E2 with ~ In _ ?l2 => match type of E3 with ~ In _ ?l3 => match type of E4 with ~ In _ ?l4 => match type of E5 with ~ In _ ?l5 =>
    change (map fst score_table) with (l1 ++ l2 ++ l3 ++ l4 ++ l5) in I end end end end end.
  rewrite !in_app_iff in I. destruct I as [I|[I|[I|[I|I]]]]; contradiction.
Qed.

(* ---- blocks ---- *)
Lemma pieces_app a b : pieces_text (a ++ b) = pieces_text a ++ pieces_text b.
Proof. apply flat_map_app. Qed.
Lemma name_trim n after : name_of n after -> exists x r, trim n = x :: r.
Proof.
  intros [[NE (d & w & E & D & W)] _].
  assert (A : Forall (fun c => is_ws c = false) n).
  { rewrite E. apply Forall_app. split.
    - destruct D as [->|(c & -> & D)]; [constructor|]. constructor; [|constructor]. unfold digit in D. unfold is_ws. lia.
    - eapply Forall_impl; [|exact W]. intros c L. unfold letter in L. unfold is_ws. lia. }
  assert (T : trim n = n).
  { unfold trim, trim_start, trim_end. destruct n as [|c n]; [congruence|]. cbn [drop_while]. rewrite (Forall_inv A). clear -A.
    induction (c :: n) as [|x s IH]; [reflexivity|]. cbn [drop_end]. rewrite (IH (Forall_inv_tail A)). destruct s; [now rewrite (Forall_inv A)|reflexivity]. }
  rewrite T. destruct n as [|c n]; [congruence|]. now exists c, n.
Qed.
Lemma record_plain n a after span pos : name_of n after -> record_tag no_registry n a span pos = ([Tag n a (tag_complexity n) pos], []).
Proof. intros H. unfold record_tag, no_registry. destruct (name_trim _ _ H) as (x & r & ->). reflexivity. Qed.

Lemma shorter (n rest1 : str) : Nat.ltb (List.length rest1) (List.length (n ++ rest1)) = match n with [] => false | _ => true end.
Proof. rewrite app_length. destruct n as [|c n]; cbn [List.length]; [apply Nat.ltb_ge; lia|apply Nat.ltb_lt; lia]. Qed.

(* the result of reading a block, for the piece decomposition it has *)
Definition block_result (start_pos bp : nat) (ps : list piece) (out : run (list tag * list tag_diag)) : Prop :=
  (Exists splits_char ps /\ out = Crash) \/
  (Forall (fun p => ~ splits_char p) ps /\ exists ts ds, out = Done (ts, ds) /\ reported (start_pos + bp) ps ts ds).

Lemma slice_mid (u : str) d v : (128 <= d)%N -> slice (u ++ 92%N :: d :: v) (blen u) (blen u + 2) = None.
Proof.
  intros H. destruct (slice (u ++ 92%N :: d :: v) (blen u) (blen u + 2)) as [m|] eqn:E; [|reflexivity]. exfalso.
  apply slice_spec in E as (a & b & E & A & M). assert (a = u) as ->.
  { clear -E A. revert a E A. induction u as [|x u IH]; intros [|y a] E A; cbn [blen] in A; try reflexivity.
    - pose proof (len_utf8_pos y). lia.
    - pose proof (len_utf8_pos x). lia.
    - injection E as -> E. f_equal. apply IH; [exact E|lia]. }
  apply app_inv_head in E. destruct m as [|x m]; [cbn in M; lia|]. injection E as <- E. cbn [blen] in M. change (len_utf8 92) with 1 in M.
  destruct m as [|y m]; [cbn in M; lia|]. injection E as <- E. cbn [blen] in M. pose proof (len_utf8_pos d). assert (len_utf8 d = 1) by lia. apply len1 in H1. lia.
Qed.

Lemma parse_block_ok start_pos : forall fuel content u rest bp, content = u ++ rest -> bp = blen u -> List.length rest <= fuel ->
  exists ps, rest = pieces_text ps /\ pieces_ok ps /\ block_result start_pos bp ps (parse_block fuel no_registry content start_pos rest bp).
Proof.
  induction fuel as [|f IH]; intros content u rest bp C BP L.
  - destruct rest as [|c r]; [|cbn in L; lia]. exists []. split; [reflexivity|]. split; [exact I|]. right. split; [constructor|]. exists [], []. split; [reflexivity|constructor].
  - destruct rest as [|c r].
    { exists []. split; [reflexivity|]. split; [exact I|]. right. split; [constructor|]. exists [], []. split; [reflexivity|constructor]. }
    cbn [parse_block]. destruct (is_bs c) eqn:B.
    + apply bs_iff in B. subst c.
      destruct (scan_name_ok content (u ++ [92%N]) r [] (bp + 1) (bp + 1) 0) as (n & rest1 & E & H & K).
      * rewrite C, <- app_assoc. reflexivity.
      * rewrite blen_app. cbn [blen]. change (len_utf8 92) with 1. lia.
      * rewrite blen_app. cbn [blen]. change (len_utf8 92) with 1. lia.
      * reflexivity.
      * exact partial_nil.
      * rewrite H. cbn [bind]. rewrite E, shorter. cbn [app] in K. cbn [List.length] in L. rewrite E, app_length in L.
        destruct n as [|n0 n'].
        -- (* no tag *)
           destruct K as [[_ [NL ND]]|[[? _] _]]; [|congruence]. cbn [blen]. rewrite Nat.add_0_r. cbn [app] in E. subst r.
           destruct rest1 as [|d r'].
           ++ replace (Nat.min (bp + 2) (blen content)) with (bp + 1) by (rewrite C, blen_app; cbn [blen]; change (len_utf8 92) with 1; lia).
              rewrite C, (slice_at u [92%N] []); [|exact BP|cbn [blen]; change (len_utf8 92) with 1; lia]. cbn [or_crash bind]. rewrite <- C.
              assert (PB : parse_block f no_registry content start_pos [] (bp + 1) = Done ([], [])) by (destruct f; reflexivity).
              rewrite PB. cbn [bind fst snd]. exists [PBad None]. split; [reflexivity|]. split; [now split|]. right.
              split; [constructor; [intros []|constructor]|]. exists [], [Diag [92%N] (start_pos + bp) EmptyOverride]. split; [reflexivity|].
              apply (rep_bad (start_pos + bp) None). constructor.
           ++ assert (ND' : ~ letter d /\ ~ digit d) by (split; intros Q; [apply NL|apply ND]; now exists d, r').
              destruct (IH content (u ++ [92%N; d]) r' (bp + 1 + len_utf8 d)) as (ps & -> & OK & R).
              ** rewrite C, <- app_assoc. reflexivity.
              ** rewrite blen_app. cbn [blen]. change (len_utf8 92) with 1. lia.
              ** cbn [List.length] in L. lia.
              ** exists (PBad (Some d) :: ps). split; [reflexivity|]. split; [now split|].
                 assert (MIN : Nat.min (bp + 2) (blen content) = bp + 2).
                 { rewrite C, blen_app. cbn [blen]. change (len_utf8 92) with 1. pose proof (len_utf8_pos d). lia. }
                 rewrite MIN. destruct (N.ltb_spec d 128) as [LT|GE].
                 --- rewrite C. change (92%N :: d :: pieces_text ps) with ([92%N; d] ++ pieces_text ps).
                     rewrite (slice_at u [92%N; d]); [|exact BP|cbn [blen]; change (len_utf8 92) with 1; apply len1 in LT; lia]. cbn [or_crash bind].
                     change (u ++ [92%N; d] ++ pieces_text ps) with (u ++ 92%N :: d :: pieces_text ps). rewrite <- C.
                     destruct R as [[X ->]|[X (ts & ds & -> & R)]].
                     +++ left. split; [now right|reflexivity].
                     +++ right. split; [constructor; [cbn; lia|exact X]|]. cbn [bind fst snd]. exists ts, (Diag [92%N; d] (start_pos + bp) EmptyOverride :: ds). split; [reflexivity|].
                         apply (rep_bad (start_pos + bp) (Some d)). cbn [piece_text blen]. change (len_utf8 92) with 1.
                         replace (start_pos + bp + (1 + (len_utf8 d + 0))) with (start_pos + (bp + 1 + len_utf8 d)) by lia. exact R.
                 --- left. split; [left; exact GE|]. rewrite C, BP, slice_mid by exact GE. reflexivity.
        -- (* a tag *)
           destruct K as [[K _]|K]; [discriminate|].
           set (n := n0 :: n') in *. assert (NN : n <> []) by discriminate.
           assert (CN : content = (u ++ [92%N]) ++ n ++ rest1) by (rewrite C, E, <- app_assoc; reflexivity).
           assert (BU : bp + 1 = blen (u ++ [92%N])) by (rewrite blen_app; cbn [blen]; change (len_utf8 92) with 1; lia).
           assert (SN : slice content (bp + 1) (bp + 1 + blen n) = Some n) by (rewrite CN; apply slice_at; lia).
           rewrite SN. cbn [or_crash bind].
           destruct (args_scan n rest1 (bp + 1 + blen n)) as (a & after & EA & HA & AA). rewrite HA.
           assert (SA : slice content (bp + 1 + blen n) (bp + 1 + blen n + blen a) = Some a).
           { rewrite CN, EA, app_assoc. apply slice_at; rewrite !blen_app in *; cbn [blen] in *; lia. }
           assert (SS : slice content bp (bp + 1 + blen n + blen a) = Some (92%N :: n ++ a)).
           { rewrite CN, EA. replace ((u ++ [92%N]) ++ n ++ a ++ after) with (u ++ (92%N :: n ++ a) ++ after) by (rewrite <- !app_assoc; cbn [app]; rewrite <- !app_assoc; reflexivity).
             apply slice_at; [exact BP|]. cbn [blen]. rewrite blen_app. change (len_utf8 92) with 1. lia. }
           rewrite SA. cbn [or_crash bind]. rewrite SS. cbn [or_crash bind].
           destruct (IH content (u ++ 92%N :: n ++ a) after (bp + 1 + blen n + blen a)) as (ps & -> & OK & R).
           ++ rewrite CN, EA, <- !app_assoc. cbn [app]. rewrite <- !app_assoc. reflexivity.
           ++ rewrite blen_app. cbn [blen]. rewrite blen_app. change (len_utf8 92) with 1. lia.
           ++ rewrite EA, app_length in L. lia.
           ++ exists (PTag n a :: ps). split; [rewrite EA; cbn [pieces_text flat_map piece_text app]; rewrite <- app_assoc; reflexivity|].
              split; [split; [|exact OK]; split; [rewrite <- EA; exact K|exact AA]|].
              destruct R as [[X ->]|[X (ts & ds & -> & R)]].
              ** left. split; [now right|reflexivity].
              ** right. split; [constructor; [intros []|exact X]|]. cbn [bind].
                 rewrite (record_plain n a rest1) by exact K. cbn [fst snd app]. exists (Tag n a (tag_complexity n) (start_pos + bp) :: ts), ds. split; [reflexivity|].
                 apply rep_tag; [apply complexity_valued|]. cbn [piece_text blen]. rewrite blen_app. change (len_utf8 92) with 1.
                 replace (start_pos + bp + (1 + (blen n + blen a))) with (start_pos + (bp + 1 + blen n + blen a)) by lia. exact R.
    + assert (NB : c <> 92%N) by (intros Q; apply bs_iff in Q; congruence).
      destruct (IH content (u ++ [c]) r (bp + len_utf8 c)) as (ps & -> & OK & R).
      * rewrite C, <- app_assoc. reflexivity.
      * rewrite blen_app. cbn [blen]. lia.
      * cbn [List.length] in L. lia.
      * exists (PChar c :: ps). split; [reflexivity|]. split; [now split|].
        destruct R as [[X ->]|[X (ts & ds & -> & R)]]; [left; split; [now right|reflexivity]|right].
        split; [constructor; [intros []|exact X]|]. exists ts, ds. split; [reflexivity|]. constructor. rewrite <- Nat.add_assoc. exact R.
Qed.

(* ---- the decomposition is unique ---- *)
Lemma name_longer n after n' after' z : name_of n after -> name_of n' after' -> n' = n ++ z -> after = z ++ after' -> z = [].
Proof.
  intros ([NE _] & _ & T) ([_ (d & w & E & D & W)] & P & _) Q A. destruct z as [|c z]; [reflexivity|exfalso].
  assert (NS : ~ stops n) by (apply (P n (c :: z) Q); discriminate). destruct T as [T|T]; [contradiction|]. apply T.
  exists c, (z ++ after'). split; [exact A|]. rewrite Q in E. rewrite Forall_forall in W. apply W.
  destruct n as [|x n]; [congruence|]. destruct D as [->|(y & -> & _)].
  - cbn [app] in E. rewrite <- E. right. apply in_or_app. right. now left.
  - cbn [app] in E. injection E as _ E. rewrite <- E. apply in_or_app. right. now left.
Qed.
Lemma name_unique n after n' after' : name_of n after -> name_of n' after' -> n ++ after = n' ++ after' -> n = n' /\ after = after'.
Proof.
  intros H H' E. apply app_eq_app in E as (z & [[E A]|[E A]]).
  - assert (z = []) as -> by (exact (name_longer _ _ _ _ _ H' H E A)). rewrite app_nil_r in E. now split.
  - assert (z = []) as -> by (exact (name_longer _ _ _ _ _ H H' E A)). rewrite app_nil_r in E. now split.
Qed.
Lemma args_longer n a after a' after' z : args_of n a after -> args_of n a' after' -> a' = a ++ z -> after = z ++ after' -> z = [].
Proof.
  intros H H' E A. destruct z as [|c z]; [reflexivity|exfalso].
  assert (SAME : a ++ after = a' ++ after') by (rewrite E, A, <- app_assoc; reflexivity).
  destruct H as [(N & S & H)|(N & I & H)], H' as [(N' & S' & H')|(N' & I' & H')].
  - destruct H as [(NE & Z0 & _)|[_ H]]; [|rewrite H in A; discriminate].
    assert (Pos : (0 < parens a)%Z); [|lia].
    destruct H' as [(_ & _ & H')|[H' _]]; [apply (H' a (c :: z) E NE); discriminate|exact (H' a (c :: z) E NE)].
  - rewrite SAME in S. apply N'. now split.
  - rewrite <- SAME in S'. apply N. now split.
  - destruct H as [H|(x & y & H & <-)]; [rewrite H in A; discriminate|]. rewrite H in A. injection A as <- A.
    apply I'. rewrite E. apply in_or_app. right. now left.
Qed.
Lemma args_unique n a after a' after' : args_of n a after -> args_of n a' after' -> a ++ after = a' ++ after' -> a = a' /\ after = after'.
Proof.
  intros H H' E. apply app_eq_app in E as (z & [[E A]|[E A]]).
  - assert (z = []) as -> by (exact (args_longer _ _ _ _ _ _ H' H E A)). rewrite app_nil_r in E. now split.
  - assert (z = []) as -> by (exact (args_longer _ _ _ _ _ _ H H' E A)). rewrite app_nil_r in E. now split.
Qed.
Lemma name_first n after : name_of n after -> exists c r, n = c :: r /\ (letter c \/ digit c).
Proof.
  intros ([NE (d & w & E & D & W)] & _). destruct D as [->|(c & -> & D)].
  - destruct w as [|c w]; [subst; cbn in NE; congruence|]. exists c, w. split; [exact E|]. left. exact (Forall_inv W).
  - exists c, w. split; [exact E|now right].
Qed.
Lemma pieces_unique ps : forall ps', pieces_ok ps -> pieces_ok ps' -> pieces_text ps = pieces_text ps' -> ps = ps'.
Proof.
  induction ps as [|p ps IH]; intros [|p' ps'] K K' E; [reflexivity| | |].
  - exfalso. destruct p' as [c|n a|[d|]]; discriminate.
  - exfalso. destruct p as [c|n a|[d|]]; discriminate.
  - destruct K as [K1 K2], K' as [K1' K2']. cbn [pieces_text flat_map] in E. fold (pieces_text ps) in E. fold (pieces_text ps') in E.
    assert (T : forall n a d X Y, piece_ok (PTag n a) X -> ~ letter d /\ ~ digit d -> (n ++ a) ++ X = d :: Y -> False).
    { intros n a d X Y [N _] [A B] Q. destruct (name_first _ _ N) as (x & y & -> & D). cbn [app] in Q. injection Q as -> _. tauto. }
    assert (T0 : forall n a X, piece_ok (PTag n a) X -> (n ++ a) ++ X = [] -> False).
    { intros n a X [N _] Q. destruct (name_first _ _ N) as (x & y & -> & D). discriminate. }
    destruct p as [c|n a|[d|]], p' as [c'|n' a'|[d'|]]; cbn [piece_text app piece_ok] in *;
      try (injection E as E1 E2; congruence).
    + injection E as -> E. f_equal. now apply IH.
    + injection E as E. rewrite <- !app_assoc in E. destruct K1 as [N A], K1' as [N' A'].
      destruct (name_unique _ _ _ _ N N' E) as [-> E']. destruct (args_unique _ _ _ _ _ A A' E') as [-> E'']. f_equal. now apply IH.
    + exfalso. injection E as E. exact (T _ _ _ _ _ K1 K1' E).
    + exfalso. injection E as E. rewrite K1' in E. exact (T0 _ _ _ K1 E).
    + exfalso. injection E as E. symmetry in E. exact (T _ _ _ _ _ K1' K1 E).
    + injection E as -> E. f_equal. now apply IH.
    + exfalso. injection E as E. rewrite K1' in E. discriminate.
    + exfalso. injection E as E. rewrite K1 in E. symmetry in E. exact (T0 _ _ _ K1' E).
    + exfalso. injection E as E. rewrite K1 in E. discriminate.
    + f_equal. injection E as E. now apply IH.
Qed.

Lemma block_pieces content : exists ps, content = pieces_text ps /\ pieces_ok ps.
Proof. destruct (parse_block_ok 0 (List.length content) content [] content 0 eq_refl eq_refl (le_n _)) as (ps & A & B & _). now exists ps. Qed.
Lemma block_exact ps start_pos : pieces_ok ps -> block_result start_pos 0 ps (parse_override_block (pieces_text ps) start_pos).
Proof.
  intros K. destruct (parse_block_ok start_pos (List.length (pieces_text ps)) (pieces_text ps) [] (pieces_text ps) 0 eq_refl eq_refl (le_n _)) as (ps' & A & B & C).
  apply (pieces_unique _ _ K B) in A. subst ps'. exact C.
Qed.

(* ---- tables ---- *)
Lemma valued_fun table n v w : NoDup (map fst table) -> valued table n v -> valued table n w -> v = w.
Proof.
  intros ND [A|[-> A]] [B|[-> B]]; [|exfalso; exact (B _ A)|exfalso; exact (A _ B)|reflexivity].
  induction table as [|[k x] t IH]; [destruct A|]. cbn [map fst] in ND. inversion ND as [|? ? N ND']. subst.
  destruct A as [A|A], B as [B|B]; try congruence.
  - injection A as -> ->. exfalso. apply N. apply in_map_iff. exists (n, w). now split.
  - injection B as -> ->. exfalso. apply N. apply in_map_iff. exists (n, v). now split.
  - now apply IH.
Qed.
Fixpoint nodupb (l : list str) : bool := match l with [] => true | x :: r => negb (existsb (str_eqb x) r) && nodupb r end.
Lemma nodupb_ok l : nodupb l = true -> NoDup l.
Proof.
  induction l as [|x r IH]; cbn [nodupb]; intros H; [constructor|]. apply andb_true_iff in H as [A B]. constructor; [|now apply IH].
  intros I. apply negb_true_iff in A. assert (existsb (str_eqb x) r = true) by (apply existsb_exists; exists x; split; [exact I|apply str_eqb_refl]). congruence.
Qed.
Lemma score_table_nodup : NoDup (map fst score_table).
Proof. apply nodupb_ok. vm_compute. reflexivity. Qed.
Lemma complexity_table_nodup : NoDup (map fst complexity_table).
Proof. apply nodupb_ok. vm_compute. reflexivity. Qed.

(* ---- positions ---- *)
Lemma blen_pieces p a : blen (pieces_text (p :: a)) = blen (piece_text p) + blen (pieces_text a).
Proof. unfold pieces_text. cbn [flat_map]. apply blen_app. Qed.
Lemma reported_tags o ps ts ds : reported o ps ts ds ->
  (forall t, In t ts <-> exists a n g b, ps = a ++ PTag n g :: b /\ tg_name t = n /\ tg_args t = g /\ valued complexity_table n (tg_complexity t) /\ tg_pos t = o + blen (pieces_text a)) /\
  (forall d, In d ds <-> exists a x b, ps = a ++ PBad x :: b /\ d = Diag (piece_text (PBad x)) (o + blen (pieces_text a)) EmptyOverride).
Proof.
  intros H. induction H as [o|o c r ts ds H [I1 I2]|o n a v r ts ds V H [I1 I2]|o d r ts ds H [I1 I2]].
  - split; intros x; (split; [intros []|]); [intros (a & n & g & b & E & _)|intros (a & y & b & E & _)]; destruct a; discriminate.
  - split; intros x; [rewrite I1|rewrite I2]; split.
    + intros (a & n & g & b & -> & A & B & C & D). exists (PChar c :: a), n, g, b. repeat split; try assumption. rewrite D. rewrite blen_pieces. cbn [piece_text blen]. lia.
    + intros (a & n & g & b & E & A & B & C & D). destruct a as [|p a]; [discriminate|]. injection E as <- ->. exists a, n, g, b. repeat split; try assumption.
      rewrite D. rewrite blen_pieces. cbn [piece_text blen]. lia.
    + intros (a & y & b & -> & ->). exists (PChar c :: a), y, b. split; [reflexivity|]. f_equal. rewrite blen_pieces. cbn [piece_text blen]. lia.
    + intros (a & y & b & E & ->). destruct a as [|p a]; [discriminate|]. injection E as <- ->. exists a, y, b. split; [reflexivity|]. f_equal. rewrite blen_pieces. cbn [piece_text blen]. lia.
  - split; intros x.
    + cbn [In]. rewrite I1. split.
      * intros [<-|(a' & n' & g & b & -> & A & B & C & D)].
        -- exists [], n, a, r. repeat split; [exact V|]. cbn. lia.
        -- exists (PTag n a :: a'), n', g, b. repeat split; try assumption. rewrite D. rewrite blen_pieces. lia.
      * intros (a' & n' & g & b & E & A & B & C & D). destruct a' as [|p a'].
        -- injection E as -> -> ->. left. destruct x as [xn xa xc xp]. cbn [tg_name tg_args tg_complexity tg_pos] in *. subst. f_equal; [|cbn; lia].
           exact (valued_fun _ _ _ _ complexity_table_nodup V C).
        -- injection E as <- ->. right. exists a', n', g, b. repeat split; try assumption. rewrite D. rewrite blen_pieces. lia.
    + rewrite I2. split.
      * intros (a' & y & b & -> & ->). exists (PTag n a :: a'), y, b. split; [reflexivity|]. f_equal. rewrite blen_pieces. lia.
      * intros (a' & y & b & E & ->). destruct a' as [|p a']; [discriminate|]. injection E as <- ->. exists a', y, b. split; [reflexivity|]. f_equal. rewrite blen_pieces. lia.
  - split; intros x.
    + rewrite I1. split.
      * intros (a & n & g & b & -> & A & B & C & D). exists (PBad d :: a), n, g, b. repeat split; try assumption. rewrite D. rewrite blen_pieces. lia.
      * intros (a & n & g & b & E & A & B & C & D). destruct a as [|p a]; [discriminate|]. injection E as <- ->. exists a, n, g, b. repeat split; try assumption.
        rewrite D. rewrite blen_pieces. lia.
    + cbn [In]. rewrite I2. split.
      * intros [<-|(a & y & b & -> & ->)].
        -- exists [], d, r. split; [reflexivity|]. f_equal. cbn. lia.
        -- exists (PBad d :: a), y, b. split; [reflexivity|]. f_equal. rewrite blen_pieces. lia.
      * intros (a & y & b & E & ->). destruct a as [|p a].
        -- injection E as -> ->. left. f_equal. cbn. lia.
        -- injection E as <- ->. right. exists a, y, b. split; [reflexivity|]. f_equal. rewrite blen_pieces. lia.
Qed.
Lemma piece_len p : 1 <= blen (piece_text p).
Proof.
  destruct p as [c|n a|[d|]]; cbn [piece_text blen]; [|change (len_utf8 92) with 1; lia..].
  pose proof (len_utf8_pos c). lia.
Qed.
Lemma reported_order o ps ts ds : reported o ps ts ds -> Forall (fun t => o <= tg_pos t) ts /\ StronglySorted lt (map tg_pos ts) /\ Forall (fun d => o <= dg_offset d) ds /\ StronglySorted lt (map dg_offset ds).
Proof.
  intros H. induction H as [o|o c r ts ds H (I1 & I2 & I3 & I4)|o n a v r ts ds V H (I1 & I2 & I3 & I4)|o d r ts ds H (I1 & I2 & I3 & I4)].
  - repeat split; constructor.
  - repeat split; try assumption; (eapply Forall_impl; [|eassumption]); cbn; intros; lia.
  - pose proof (piece_len (PTag n a)). split; [constructor; [cbn; lia|eapply Forall_impl; [|eassumption]; cbn beta; intros; lia]|].
    split; [cbn [map tg_pos]; constructor; [exact I2|apply Forall_map; eapply Forall_impl; [|exact I1]; cbn beta; intros; lia]|].
    split; [eapply Forall_impl; [|exact I3]; cbn beta; intros; lia|exact I4].
  - pose proof (piece_len (PBad d)). split; [eapply Forall_impl; [|exact I1]; cbn beta; intros; lia|]. split; [exact I2|].
    split; [constructor; [cbn; lia|eapply Forall_impl; [|exact I3]; cbn beta; intros; lia]|].
    cbn [map dg_offset]. constructor; [exact I4|apply Forall_map; eapply Forall_impl; [|exact I3]; cbn beta; intros; lia].
Qed.
Lemma block_spans content o ts ds : parse_override_block content o = Done (ts, ds) ->
  (forall t, In t ts -> exists u v, content = u ++ (92%N :: tg_name t ++ tg_args t) ++ v /\ tg_pos t = o + blen u) /\
  (forall d, In d ds -> exists u v, content = u ++ dg_span d ++ v /\ dg_offset d = o + blen u) /\
  StronglySorted lt (map tg_pos ts) /\ StronglySorted lt (map dg_offset ds).
Proof.
  intros H. destruct (block_pieces content) as (ps & -> & K). destruct (block_exact ps o K) as [[_ C]|[_ (ts' & ds' & C & R)]]; [congruence|].
  rewrite C in H. injection H as -> ->. rewrite Nat.add_0_r in R. destruct (reported_tags _ _ _ _ R) as [A B]. destruct (reported_order _ _ _ _ R) as (_ & S1 & _ & S2).
  split; [|split; [|split; assumption]].
  - intros t I. apply A in I as (a & n & g & b & -> & <- & <- & _ & P). exists (pieces_text a), (pieces_text b). split; [|exact P]. rewrite pieces_app. reflexivity.
  - intros d I. apply B in I as (a & x & b & -> & ->). exists (pieces_text a), (pieces_text b). split; [|reflexivity]. rewrite pieces_app. reflexivity.
Qed.
