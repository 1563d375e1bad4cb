From Verif Require Import Base BaseLemmas DocModel DocProofs ParseModel TagModel TagSpec TagProofs TagCmdModel TagCmdSpec TagCmdProofs FormatModel FloatModel
  KaraokeModel KaraokeSpec.

(* ---- small facts ---- *)
Lemma vowel_iff c : is_vowel c = true <-> vowel c.
Proof.
  unfold is_vowel, vowel. rewrite existsb_exists. split; [intros (x & I & E); apply N.eqb_eq in E; now subst|intros I; exists c; split; [exact I|apply N.eqb_refl]].
Qed.
Lemma space_dec c : {space c} + {~ space c}.
Proof. unfold space. destruct (is_ws c); [now left|right; discriminate]. Qed.
Lemma nospace c : ~ space c <-> is_ws c = false.
Proof. unfold space. destruct (is_ws c); split; congruence. Qed.
Lemma break_bool p c : is_ws c || syllable_boundary (Some p) c = true <-> break p c.
Proof.
  unfold break, space. cbn [syllable_boundary]. rewrite <- !vowel_iff. destruct (is_ws c); cbn [orb]; [split; auto|].
  rewrite andb_true_r. rewrite andb_true_iff, negb_true_iff. destruct (is_vowel c), (is_vowel p); intuition congruence.
Qed.
Lemma trim_blank s : Forall space s <-> trim s = [].
Proof.
  split.
  - intros H. unfold trim, trim_start. assert (E : drop_while is_ws s = []) by (induction H as [|c s H _ IH]; [reflexivity|]; cbn [drop_while]; now rewrite H). now rewrite E.
  - intros H. destruct (trim_spec s) as (a & b & E & Ha & Hb). rewrite H in E. cbn [app] in E. subst s. apply Forall_app. unfold space.
    split; apply Forall_forall; intros x Hx; [rewrite forallb_forall in Ha|rewrite forallb_forall in Hb]; auto.
Qed.
Lemma trim_filled s a c b : s = a ++ c :: b -> ~ space c -> is_nil (trim s) = false.
Proof.
  intros -> H. destruct (trim (a ++ c :: b)) eqn:E; [|reflexivity]. exfalso. apply trim_blank in E. apply Forall_app in E as [_ E]. inversion E. contradiction.
Qed.
Lemma sub_mid a m b i j : i = List.length a -> j = i + List.length m -> sub (a ++ m ++ b) i j = m.
Proof.
  intros -> ->. unfold sub. rewrite skipn_app, skipn_all, Nat.sub_diag. cbn [app skipn]. replace (List.length a + List.length m - List.length a) with (List.length m) by lia.
  rewrite firstn_app, firstn_all, Nat.sub_diag. cbn [firstn]. now rewrite app_nil_r.
Qed.

(* ---- the syllables of any text ---- *)
Definition finish (t : str) (p : list str * nat) : list str :=
  if snd p <? List.length t then if is_nil (trim (skipn (snd p) t)) then fst p else fst p ++ [skipn (snd p) t] else fst p.
Lemma split_finish t : t <> [] -> split_into_syllables true t = let l := finish t (syl_loop t t 0 0 None []) in if is_nil l then [t] else l.
Proof. intros H. unfold split_into_syllables, finish. destruct t; [congruence|]. cbn [negb is_nil]. destruct (syl_loop _ _ _ _ _ _). reflexivity. Qed.
Definition shape (cur rest : str) (prev : option char) : Prop :=
  (cur = [] /\ prev = None) \/
  (exists w, cur = [w] /\ space w /\ prev = Some w /\ match rest with [] => True | c :: _ => ~ space c end) \/
  (exists o body x, cur = o ++ body ++ [x] /\ Forall (fun c => ~ space c) (body ++ [x]) /\ prev = Some x /\ (o = [] \/ exists w, o = [w] /\ space w)).
Lemma inflated_nospace body rest : Forall (fun c => ~ space c) body -> inflated (body ++ rest) = body ++ inflated rest.
Proof. induction 1 as [|c body H _ IH]; [reflexivity|]. cbn [app inflated]. apply nospace in H. now rewrite H, IH. Qed.
Lemma inflated_shape o body x rest : Forall (fun c => ~ space c) (body ++ [x]) -> (o = [] \/ exists w, o = [w] /\ space w) ->
  inflated ((o ++ body ++ [x]) ++ rest) = (o ++ body ++ [x]) ++ inflated rest.
Proof.
  intros H [->|(w & -> & Hw)]; cbn [app]; [now apply inflated_nospace|]. cbn [inflated]. rewrite Hw. destruct ((body ++ [x]) ++ rest) as [|d r] eqn:E; [destruct body; discriminate E|].
  assert (Hd : is_ws d = false). { destruct body as [|b body]; cbn [app] in E, H; injection E as <- _; inversion H; now apply nospace. }
  rewrite Hd, <- E. rewrite inflated_nospace by exact H. reflexivity.
Qed.
Lemma take_head r : match r with [] => True | c :: _ => ~ space c end -> take_while is_ws r = [].
Proof. destruct r as [|c r]; [reflexivity|]. intros H. apply nospace in H. cbn [take_while]. now rewrite H. Qed.
Lemma take_split r : exists q, r = take_while is_ws r ++ q.
Proof. induction r as [|c r [q IH]]; [now exists []|]. cbn [take_while]. destruct (is_ws c); [exists q; cbn [app]; now rewrite <- IH|now exists (c :: r)]. Qed.
Lemma loop_text chars : forall rest,
  (forall pre cur prev acc, chars = pre ++ cur ++ rest -> shape cur rest prev ->
    concat (finish chars (syl_loop chars rest (List.length (pre ++ cur)) (List.length pre) prev acc)) = concat acc ++ inflated (cur ++ rest)) /\
  (forall c r pre prev acc start, rest = c :: r -> space c -> chars = pre ++ rest -> List.length pre <= start ->
    concat (finish chars (syl_loop chars rest (List.length pre) start prev acc)) = concat acc ++ inflated rest).
Proof.
  induction rest as [|c r [IHA IHB]].
  - split; [|intros c r pre prev acc start Q; discriminate Q]. intros pre cur prev acc E S. cbn [syl_loop]. unfold finish. cbn [fst snd]. rewrite app_nil_r in *.
    destruct S as [[-> _]|[(w & -> & Hw & _)|(o & body & x & -> & HB & _ & HO)]].
    + rewrite app_nil_r in E. subst. rewrite Nat.ltb_irrefl. cbn. now rewrite app_nil_r.
    + subst chars. rewrite app_length, skipn_app, skipn_all, Nat.sub_diag. cbn [List.length app skipn]. destruct (Nat.ltb_spec (List.length pre) (List.length pre + 1)) as [_|Q]; [|lia].
      assert (T : trim [w] = []) by (apply trim_blank; now repeat constructor). rewrite T. cbn [is_nil inflated]. rewrite Hw. now rewrite app_nil_r.
    + subst chars. rewrite app_length, skipn_app, skipn_all, Nat.sub_diag. cbn [app skipn].
      destruct (Nat.ltb_spec (List.length pre) (List.length pre + List.length (o ++ body ++ [x]))) as [_|Q]; [|rewrite !app_length in Q; cbn in Q; lia].
      rewrite (trim_filled _ (o ++ body) x []); [|now rewrite <- app_assoc|apply Forall_app in HB as [_ HB]; now inversion HB].
      rewrite concat_app. cbn [concat]. rewrite app_nil_r. f_equal. rewrite <- (app_nil_r (o ++ body ++ [x])) at 2. rewrite inflated_shape by assumption. cbn [inflated]. now rewrite app_nil_r.
  - (* what happens at a space, with the syllables so far already taken *)
    assert (SP : forall pre acc, space c -> chars = pre ++ c :: r ->
      concat (finish chars (let end_ := List.length pre + 1 + List.length (take_while is_ws r) in
        if List.length pre + 1 <? end_ then syl_loop chars r (List.length pre + 1) end_ (Some c) (acc ++ [sub chars (List.length pre) end_])
        else syl_loop chars r (List.length pre + 1) (List.length pre) (Some c) acc)) = concat acc ++ inflated (c :: r)).
    { intros pre acc Hc E. cbn zeta. cbn [inflated]. rewrite Hc. destruct r as [|d r].
      - cbn [take_while List.length]. rewrite Nat.add_0_r, Nat.ltb_irrefl. specialize (IHA pre [c] (Some c) acc). rewrite app_length in IHA. cbn [List.length] in IHA. rewrite IHA; [|exact E|right; left; now exists c].
        cbn [app inflated]. now rewrite Hc.
      - destruct (is_ws d) eqn:Hd.
        + destruct (Nat.ltb_spec (List.length pre + 1) (List.length pre + 1 + List.length (take_while is_ws (d :: r)))) as [_|Q]; [|cbn [take_while] in Q; rewrite Hd in Q; cbn [List.length] in Q; lia].
          specialize (IHB d r (pre ++ [c]) (Some c)). rewrite app_length in IHB. cbn [List.length] in IHB. rewrite IHB; [|reflexivity|exact Hd|rewrite E; now rewrite <- app_assoc|lia].
          rewrite concat_app. cbn [concat]. rewrite app_nil_r, <- app_assoc. f_equal. f_equal. destruct (take_split (d :: r)) as [q Q].
          rewrite E. rewrite Q at 1. apply (sub_mid pre (c :: take_while is_ws (d :: r)) q); [reflexivity|cbn [List.length]; lia].
        + cbn [take_while]. rewrite Hd. cbn [List.length]. rewrite Nat.add_0_r, Nat.ltb_irrefl. specialize (IHA pre [c] (Some c) acc). rewrite app_length in IHA. cbn [List.length] in IHA.
          rewrite IHA; [|exact E|right; left; exists c; repeat split; [exact Hc|now apply nospace]]. change ([c] ++ d :: r) with (c :: d :: r). cbn [inflated]. rewrite Hc, Hd. reflexivity. }
    split.
    + intros pre cur prev acc E S. cbn [syl_loop]. destruct (is_ws c || syllable_boundary prev c) eqn:B.
      * (* a break *)
        assert (P : (if List.length pre <? List.length (pre ++ cur) then let s := sub chars (List.length pre) (List.length (pre ++ cur)) in if is_nil (trim s) then acc else acc ++ [s] else acc) =
          match cur with [] => acc | _ => acc ++ [cur] end /\ inflated (cur ++ c :: r) = cur ++ inflated (c :: r)).
        { rewrite app_length. destruct S as [[-> _]|[(w & -> & Hw & -> & N)|(o & body & x & -> & HB & _ & HO)]].
          - cbn [List.length]. rewrite Nat.add_0_r, Nat.ltb_irrefl. split; reflexivity.
          - exfalso. apply nospace in N. rewrite N in B. cbn [orb syllable_boundary] in B. apply andb_true_iff in B as [B _]. apply andb_true_iff in B as [B _]. apply vowel_iff in B.
            assert (Q : forallb (fun v => negb (is_ws v)) (lit "aeiouAEIOU") = true) by reflexivity. rewrite forallb_forall in Q. apply Q in B. rewrite Hw in B. discriminate B.
          - split; [|now apply inflated_shape]. destruct (Nat.ltb_spec (List.length pre) (List.length pre + List.length (o ++ body ++ [x]))) as [_|Q]; [|rewrite !app_length in Q; cbn in Q; lia].
            cbn zeta. rewrite E. rewrite (sub_mid pre (o ++ body ++ [x]) (c :: r)) by reflexivity.
            rewrite (trim_filled _ (o ++ body) x []); [|now rewrite <- app_assoc|apply Forall_app in HB as [_ HB]; now inversion HB].
            destruct (o ++ body ++ [x]) eqn:Q; [destruct o; [destruct body; discriminate Q|discriminate Q]|reflexivity]. }
        destruct P as [P1 P2]. cbn zeta in P1 |- *. rewrite P1, P2. clear P1 P2 S.
        assert (C : concat acc ++ cur ++ inflated (c :: r) = concat (match cur with [] => acc | _ => acc ++ [cur] end) ++ inflated (c :: r)).
        { destruct cur; [reflexivity|]. rewrite concat_app. cbn [concat]. now rewrite app_nil_r, <- app_assoc. }
        rewrite C. set (acc1 := match cur with [] => acc | _ => acc ++ [cur] end). clearbody acc1. clear C acc.
        assert (E2 : chars = (pre ++ cur) ++ c :: r) by (rewrite E; now rewrite <- app_assoc). destruct (is_ws c) eqn:Hc.
        -- exact (SP (pre ++ cur) acc1 Hc E2).
        -- specialize (IHA (pre ++ cur) [c] (Some c) acc1). rewrite (app_length (pre ++ cur)) in IHA. cbn [List.length] in IHA. rewrite IHA; [reflexivity|exact E2|].
           right. right. exists [], [], c. cbn [app]. repeat split; [|now left]. constructor; [now apply nospace|constructor].
      * apply orb_false_iff in B as [Hc _]. apply nospace in Hc. specialize (IHA pre (cur ++ [c]) (Some c) acc).
        replace (List.length (pre ++ cur ++ [c])) with (List.length (pre ++ cur) + 1) in IHA by (rewrite !app_length; cbn [List.length]; lia).
        rewrite IHA; [now rewrite <- app_assoc|rewrite E; now rewrite <- app_assoc|]. right. right.
        destruct S as [[-> _]|[(w & -> & Hw & _)|(o & body & x & -> & HB & _ & HO)]].
        -- exists [], [], c. cbn [app]. repeat split; [|now left]. constructor; [exact Hc|constructor].
        -- exists [w], [], c. cbn [app]. repeat split; [|right; now exists w]. constructor; [exact Hc|constructor].
        -- exists o, (body ++ [x]), c. rewrite <- !app_assoc. cbn [app]. repeat split; [|exact HO]. replace (body ++ [x; c]) with ((body ++ [x]) ++ [c]) by (now rewrite <- app_assoc).
           apply Forall_app. split; [exact HB|constructor; [exact Hc|constructor]].
    + intros c' r' pre prev acc start Q Hc E L. injection Q as <- <-. cbn [syl_loop]. rewrite Hc. cbn [orb]. replace (start <? List.length pre) with false by (symmetry; apply Nat.ltb_ge; exact L).
      exact (SP pre acc Hc E).
Qed.
Lemma syllables_text t : let l := split_into_syllables true t in concat l = t /\ (l = [t]) \/ concat l = inflated t.
Proof.
  cbn zeta. destruct t as [|c t]; [left; split; reflexivity|]. rewrite split_finish by discriminate. cbn zeta.
  pose proof (proj1 (loop_text (c :: t) (c :: t)) [] [] None [] eq_refl (or_introl (conj eq_refl eq_refl))) as H. cbn [app List.length] in H. cbn [List.length concat app] in H.
  destruct (finish (c :: t) _) as [|s l] eqn:E; cbn [is_nil]; [left; cbn [concat]; now rewrite app_nil_r|right; exact H].
Qed.
Lemma inflated_nil t : inflated t = [] -> t = [] \/ exists w, t = [w] /\ space w.
Proof.
  destruct t as [|c [|d r]]; [now left| |]; cbn [inflated].
  - destruct (is_ws c) eqn:E; [right; now exists c|discriminate].
  - destruct (is_ws c); [|discriminate]. destruct (is_ws d); [cbn [app]|]; discriminate.
Qed.
Lemma syllables_exact t : t <> [] -> (forall w, t = [w] -> ~ space w) -> concat (split_into_syllables true t) = inflated t.
Proof.
  intros N1 N2. rewrite split_finish by exact N1. cbn zeta.
  pose proof (proj1 (loop_text t t) [] [] None [] eq_refl (or_introl (conj eq_refl eq_refl))) as H. cbn [app List.length] in H. cbn [List.length concat app] in H.
  destruct (finish t _) as [|s l] eqn:E; cbn [is_nil]; [|exact H]. exfalso. cbn [concat] in H. symmetry in H. apply inflated_nil in H as [H|(w & H & Q)]; [contradiction|exact (N2 w H Q)].
Qed.
Lemma syllables_short t : t = [] \/ (exists w, t = [w] /\ space w) -> split_into_syllables true t = [t].
Proof.
  intros [->|(w & -> & Hw)]; [reflexivity|]. rewrite split_finish by discriminate. cbn [syl_loop]. rewrite Hw. cbn [orb take_while List.length Nat.add Nat.ltb Nat.leb]. unfold finish. cbn [fst snd List.length Nat.ltb Nat.leb skipn].
  assert (T : trim [w] = []) by (apply trim_blank; now repeat constructor). rewrite T. reflexivity.
Qed.

(* ---- the syllables of a well-spaced text ---- *)
Fixpoint groups (prev : char) (cur s : str) : list str :=
  match s with
  | [] => [cur]
  | c :: r => if is_ws c || syllable_boundary (Some prev) c then cur :: groups c [c] r else groups c (cur ++ [c]) r
  end.
Lemma well_spaced_tail c s : well_spaced (c :: s) -> well_spaced s.
Proof. intros [H1 H2]. split; [intros a x y b E; apply (H1 (c :: a) x y b); now rewrite E|intros a x E; apply (H2 (c :: a) x); now rewrite E]. Qed.
Lemma inflated_well t : well_spaced t -> inflated t = t.
Proof.
  induction t as [|c t IH]; intros W; [reflexivity|]. cbn [inflated]. specialize (IH (well_spaced_tail _ _ W)). destruct W as [W1 W2]. destruct (is_ws c) eqn:Hc; [|now rewrite IH].
  destruct t as [|d r]; [exfalso; exact (W2 [] c eq_refl Hc)|]. pose proof (W1 [] c d r eq_refl Hc) as N. apply nospace in N. rewrite N. now rewrite IH.
Qed.
Lemma loop_groups chars : forall rest pre prev cur acc, chars = pre ++ (cur ++ [prev]) ++ rest -> well_spaced (prev :: rest) -> 
  (exists x, In x (cur ++ [prev]) /\ ~ space x) \/ (space prev /\ cur = []) ->
  finish chars (syl_loop chars rest (List.length (pre ++ cur ++ [prev])) (List.length pre) (Some prev) acc) = acc ++ groups prev (cur ++ [prev]) rest.
Proof.
  induction rest as [|c r IH]; intros pre prev cur acc E W X.
  - cbn [syl_loop groups]. unfold finish. cbn [fst snd]. subst chars. rewrite app_nil_r, app_length, skipn_app, skipn_all, Nat.sub_diag. cbn [app skipn].
    destruct (Nat.ltb_spec (List.length pre) (List.length pre + List.length (cur ++ [prev]))) as [_|Q]; [|rewrite app_length in Q; cbn in Q; lia].
    rewrite (trim_filled _ cur prev []); [reflexivity|reflexivity|]. destruct W as [_ W]. now apply (W [] prev).
  - cbn [syl_loop groups]. assert (XP : is_ws c || syllable_boundary (Some prev) c = true -> is_nil (trim (cur ++ [prev])) = false).
    { intros B. destruct X as [(x & I & N)|[Hp ->]]; [apply in_split in I as (a & b & ->); now rewrite (trim_filled _ a x b)|]. exfalso. destruct W as [W _].
      pose proof (W [] prev c r eq_refl Hp) as N. apply break_bool in B as [B|[B _]]; [contradiction|]. unfold vowel in B.
      assert (Q : forallb (fun v => negb (is_ws v)) (lit "aeiouAEIOU") = true) by reflexivity. rewrite forallb_forall in Q. apply Q in B. rewrite Hp in B. discriminate B. }
    destruct (is_ws c || syllable_boundary (Some prev) c) eqn:B.
    + specialize (XP eq_refl). replace (List.length pre <? List.length (pre ++ cur ++ [prev])) with true by (symmetry; apply Nat.ltb_lt; rewrite !app_length; cbn; lia).
      cbn zeta. assert (SB : sub chars (List.length pre) (List.length (pre ++ cur ++ [prev])) = cur ++ [prev]) by (rewrite E; apply sub_mid; [reflexivity|now rewrite app_length]).
      rewrite SB, XP. assert (G : finish chars (syl_loop chars r (List.length (pre ++ cur ++ [prev]) + 1) (List.length (pre ++ cur ++ [prev])) (Some c) (acc ++ [cur ++ [prev]])) =
        acc ++ (cur ++ [prev]) :: groups c [c] r).
      { specialize (IH (pre ++ cur ++ [prev]) c [] (acc ++ [cur ++ [prev]])). cbn [app] in IH. rewrite (app_length (pre ++ cur ++ [prev]) [c]) in IH. cbn [List.length] in IH. rewrite IH.
        - rewrite <- app_assoc. reflexivity.
        - rewrite E. now rewrite <- !app_assoc.
        - now apply well_spaced_tail in W.
        - destruct (space_dec c) as [H|H]; [right; split; [exact H|reflexivity]|left; exists c; split; [now left|exact H]]. }
      destruct (is_ws c) eqn:Hc; [|exact G]. rewrite take_head.
      * cbn [List.length]. rewrite Nat.add_0_r, Nat.ltb_irrefl. exact G.
      * destruct r as [|d r]; [exact I|]. apply well_spaced_tail in W. destruct W as [W _]. exact (W [] c d r eq_refl Hc).
    + clear XP. assert (Hc : ~ space c) by (apply orb_false_iff in B as [B _]; now apply nospace). specialize (IH pre c (cur ++ [prev]) acc).
      replace (List.length (pre ++ (cur ++ [prev]) ++ [c])) with (List.length (pre ++ cur ++ [prev]) + 1) in IH by (rewrite !app_length; cbn [List.length]; lia).
      rewrite IH; [reflexivity|rewrite E; now rewrite <- !app_assoc|now apply well_spaced_tail in W|]. left. exists c. split; [apply in_elt|exact Hc].
Qed.
Lemma groups_ok : forall s prev cur, unbroken (cur ++ [prev]) -> syllabified ((cur ++ [prev]) ++ s) (groups prev (cur ++ [prev]) s) /\
  exists q l, groups prev (cur ++ [prev]) s = ((cur ++ [prev]) ++ q) :: l.
Proof.
  assert (ONE : forall c, unbroken [c]). { intros c a x y b Q. destruct a as [|? [|? a]]; discriminate Q. }
  induction s as [|c r IH]; intros prev cur U; cbn [groups].
  - split; [|exists [], []; now rewrite app_nil_r]. split; [cbn [concat]; now rewrite !app_nil_r|]. split.
    + constructor; [split; [destruct cur; discriminate|exact U]|constructor].
    + intros l1 p x y q l2 Q. destruct l1 as [|? [|? l1]]; discriminate Q.
  - destruct (is_ws c || syllable_boundary (Some prev) c) eqn:B.
    + apply break_bool in B. destruct (IH c [] (ONE c)) as [(C & F & J) (q & l & G)]. cbn [app] in *. split; [|exists [], (groups c [c] r); now rewrite app_nil_r]. split; [|split].
      * cbn [concat]. rewrite C. reflexivity.
      * constructor; [split; [destruct cur; discriminate|exact U]|exact F].
      * intros l1 p x y q' l2 Q. destruct l1 as [|z l1]; cbn [app] in Q.
        -- injection Q as Q1 Q2. apply app_inj_tail in Q1 as [_ <-]. rewrite G in Q2. injection Q2 as <- _ _. exact B.
        -- injection Q as _ Q. exact (J l1 p x y q' l2 Q).
    + assert (NB : ~ break prev c) by (intros Q; apply break_bool in Q; congruence).
      assert (U2 : unbroken ((cur ++ [prev]) ++ [c])).
      { intros a x y b Q. destruct (exists_last (l := x :: y :: b)) as (z & e & Z); [discriminate|]. rewrite Z, app_assoc in Q. apply app_inj_tail in Q as [Q <-].
        destruct z as [|z1 z]; [discriminate Z|]. cbn [app] in Z. injection Z as <- Z. destruct z as [|z2 z]; cbn [app] in Z.
        - injection Z as -> _. apply app_inj_tail in Q as [_ <-]. exact NB.
        - injection Z as <- _. exact (U a x y z Q). }
      destruct (IH c (cur ++ [prev]) U2) as [(C & F & J) (q & l & G)]. split; [|exists (c :: q), l; rewrite G; now rewrite <- app_assoc].
      split; [rewrite C; now rewrite <- !app_assoc|]. split; [exact F|exact J].
Qed.
Lemma syllables_well t : t <> [] -> well_spaced t -> syllabified t (split_into_syllables true t).
Proof.
  intros N W. rewrite split_finish by exact N. destruct t as [|c t]; [congruence|].
  assert (G : finish (c :: t) (syl_loop (c :: t) t (0 + 1) 0 (Some c) []) = groups c [c] t).
  { rewrite (loop_groups (c :: t) t [] c [] []) at 1; [reflexivity|reflexivity|exact W|]. destruct (space_dec c) as [H|H]; [right; now split|left; exists c; split; [now left|exact H]]. }
  assert (E : finish (c :: t) (syl_loop (c :: t) (c :: t) 0 0 None []) = groups c [c] t).
  { cbn [syl_loop syllable_boundary]. rewrite orb_false_r. destruct (is_ws c) eqn:Hc; [|exact G].
    rewrite take_head; [exact G|]. destruct t as [|d r]; [exact I|]. destruct W as [W _]. exact (W [] c d r eq_refl Hc). }
  rewrite E. destruct (groups_ok t c []) as [S (q & l & Q)]; [intros a x y b Z; destruct a as [|? [|? a]]; discriminate Z|]. cbn [app] in S, Q.
  cbn zeta. rewrite Q at 1. cbn [is_nil]. exact S.
Qed.

(* ---- marks ---- *)
Lemma mark_text n d s : mark n d ++ s = flat_map part_text (timed n d s).
Proof.
  unfold timed. cbn [flat_map part_text pieces_text piece_text]. rewrite app_nil_r. unfold mark, open_brace, close_brace, bslash.
  assert (E : flat_map part_text (map Plain s) = s) by (induction s as [|c s IH]; [reflexivity|]; cbn [map flat_map part_text app]; now rewrite IH). rewrite E.
  repeat (cbn [app]; rewrite <- ?app_assoc). reflexivity.
Qed.
Lemma marked_list n d l : flat_map (fun x => mark n d ++ x) l = flat_map part_text (flat_map (timed n d) l).
Proof. induction l as [|x l IH]; [reflexivity|]. cbn [flat_map]. now rewrite flat_map_app, <- IH, mark_text. Qed.
Lemma digits_free n c : In c (to_dec n) -> (48 <= c <= 57)%N.
Proof. intros H. pose proof (to_dec_digits n) as D. rewrite forallb_forall in D. apply D in H. unfold is_digit in H. apply andb_true_iff in H as [A B]. apply N.leb_le in A, B. lia. Qed.
Lemma name_facts n : In n names -> exists w, n = 107%N :: w /\ Forall letter w.
Proof. intros H. cbn [names In] in H. unfold letter. destruct H as [<-|[<-|[<-|[<-|[]]]]]; eexists; (split; [reflexivity|]); repeat constructor; cbn; lia. Qed.
Lemma tag_string_name k : In (tag_string k) names.
Proof. destruct k; cbn; auto. Qed.
Lemma digits_start n : exists c r, to_dec n = c :: r /\ (48 <= c <= 57)%N.
Proof. destruct (to_dec n) as [|c r] eqn:E; [destruct (to_dec_nonempty n E)|]. exists c, r. split; [reflexivity|]. apply (digits_free n). rewrite E. now left. Qed.
Lemma timed_ok n d s : In n names -> ~ In 123%N s -> Forall part_ok (timed n d s).
Proof.
  intros Hn Hs. destruct (name_facts n Hn) as (w & -> & Hw). constructor.
  - cbn [part_ok pieces_ok]. assert (E : pieces_text [PTag (107%N :: w) (to_dec d)] = 92%N :: (107%N :: w) ++ to_dec d) by (cbn [pieces_text flat_map piece_text]; now rewrite app_nil_r). rewrite E.
    assert (F : forall c, In c (92%N :: (107%N :: w) ++ to_dec d) -> c <> 123%N /\ c <> 125%N).
    { intros c [<-|Q]; [split; discriminate|]. apply in_app_iff in Q as [[<-|Q]|Q]; [split; discriminate| |apply digits_free in Q; lia].
      rewrite Forall_forall in Hw. apply Hw in Q. unfold letter in Q. lia. }
    split; [split; [|exact I]|apply no_braces; intros Q; apply F in Q; intuition congruence].
    cbn [piece_ok pieces_text flat_map]. rewrite app_nil_r. destruct (digits_start d) as (c & r & E2 & H2). split.
    + apply plain_name; [unfold letter; lia|exact Hw|discriminate|discriminate|]. rewrite E2. intros (c' & r' & Q & L). injection Q as <- _. unfold letter in L. lia.
    + apply plain_args; [discriminate| |now left]. intros Q. apply digits_free in Q. lia.
  - apply Forall_forall. intros p Hp. apply in_map_iff in Hp as (c & <- & Hc). cbn [part_ok]. intros ->. contradiction.
Qed.
Lemma timed_list_ok n d l : In n names -> Forall (fun s => ~ In 123%N s) l -> Forall part_ok (flat_map (timed n d) l).
Proof. intros Hn H. induction H as [|s l H _ IH]; [constructor|]. cbn [flat_map]. apply Forall_app. split; [now apply timed_ok|exact IH]. Qed.
Lemma plain_text s : flat_map part_text (map Plain s) = s.
Proof. induction s as [|c s IH]; [reflexivity|]. cbn [map flat_map part_text app]. now rewrite IH. Qed.
Lemma visible_plain_text s : visible_chars (map Plain s) = s.
Proof. induction s as [|c s IH]; [reflexivity|]. unfold visible_chars in *. cbn [map flat_map app]. now rewrite IH. Qed.
Lemma visible_app a b : visible_chars (a ++ b) = visible_chars a ++ visible_chars b.
Proof. apply flat_map_app. Qed.
Lemma visible_one n d s : visible_chars (timed n d s) = s.
Proof. unfold timed. change (visible_chars (Blk [PTag n (to_dec d)] :: map Plain s)) with (visible_chars (map Plain s)). apply visible_plain_text. Qed.
Lemma visible_timed n d l : visible_chars (flat_map (timed n d) l) = concat l.
Proof. induction l as [|s l IH]; [reflexivity|]. cbn [flat_map concat]. now rewrite visible_app, visible_one, IH. Qed.

(* ---- generate ---- *)
Lemma nonblank t l : well_spaced t -> syllabified t l -> Forall (fun p => is_nil (trim p) = false) l.
Proof.
  intros [W1 W2] (C & F & J). apply Forall_forall. intros p Hp. rewrite Forall_forall in F. destruct (F p Hp) as [N _].
  destruct (trim p) eqn:T; [|reflexivity]. exfalso. apply trim_blank in T. destruct (exists_last N) as (p' & x & ->). apply Forall_app in T as [_ T]. inversion T as [|? ? Hx _]; subst.
  apply in_split in Hp as (l1 & l2 & ->). rewrite concat_app in W1, W2. cbn [concat] in W1, W2. destruct l2 as [|q l2].
  - cbn [concat] in W2. rewrite app_nil_r in W2. apply (W2 (concat l1 ++ p') x); [now rewrite <- app_assoc|exact Hx].
  - destruct (F q) as [Nq _]; [apply in_elt_inv || (apply in_app_iff; right; right; now left)|]. destruct q as [|y q]; [congruence|]. specialize (J l1 p' x y q l2 eq_refl).
    destruct J as [J|[J _]].
    + apply (W1 (concat l1 ++ p') x y (q ++ concat l2)); [cbn [concat]; repeat (rewrite <- ?app_assoc; cbn [app]); reflexivity|exact Hx|exact J].
    + unfold vowel in J. assert (Q : forallb (fun v => negb (is_ws v)) (lit "aeiouAEIOU") = true) by reflexivity. rewrite forallb_forall in Q. apply Q in J. rewrite Hx in J. discriminate J.
Qed.
Lemma text_marked n d l : Forall (fun p => is_nil (trim p) = false) l -> karaoke_text n d l = flat_map (fun x => mark n d ++ x) l.
Proof.
  intros H. destruct H as [|s l _ H]; [reflexivity|]. cbn [karaoke_text flat_map]. rewrite <- app_assoc. f_equal. f_equal. induction H as [|x l Hx _ IH]; [reflexivity|]. cbn [flat_map]. now rewrite Hx, IH.
Qed.
(* the visible text in general *)
Definition gen_part (n : str) (d : N) (x : str) : list part := if is_nil (trim x) then map Plain x else timed n d x.
Definition gen_parts (n : str) (d : N) (l : list str) : list part := match l with [] => [] | s :: r => timed n d s ++ flat_map (gen_part n d) r end.
Lemma gen_text n d l : karaoke_text n d l = whole (gen_parts n d l) None.
Proof.
  unfold whole, tail_text. rewrite app_nil_r. destruct l as [|s l]; [reflexivity|]. cbn [karaoke_text gen_parts]. rewrite flat_map_app, app_assoc, mark_text. f_equal.
  induction l as [|x l IH]; [reflexivity|]. cbn [flat_map]. rewrite flat_map_app, IH. f_equal. unfold gen_part. destruct (is_nil (trim x)); [now rewrite plain_text|now rewrite mark_text].
Qed.
Lemma gen_visible n d l : visible_chars (gen_parts n d l) = concat l.
Proof.
  pose proof (visible_one n d) as T.
  destruct l as [|s l]; [reflexivity|]. cbn [gen_parts concat]. rewrite visible_app, T. f_equal.
  induction l as [|x l IH]; [reflexivity|]. cbn [flat_map concat]. rewrite visible_app, IH. f_equal. unfold gen_part. destruct (is_nil (trim x)); [apply visible_plain_text|apply T].
Qed.
Lemma plain_ok s : ~ In 123%N s -> Forall part_ok (map Plain s).
Proof. intros H. apply Forall_forall. intros p Hp. apply in_map_iff in Hp as (c & <- & Hc). cbn [part_ok]. intros ->. contradiction. Qed.
Lemma gen_ok n d l : In n names -> Forall (fun s => ~ In 123%N s) l -> Forall part_ok (gen_parts n d l).
Proof.
  intros Hn H. destruct H as [|s l Hs H]; [constructor|]. cbn [gen_parts]. apply Forall_app. split; [now apply timed_ok|].
  induction H as [|x l Hx _ IH]; [constructor|]. cbn [flat_map]. apply Forall_app. split; [|exact IH]. unfold gen_part. destruct (is_nil (trim x)); [now apply plain_ok|now apply timed_ok].
Qed.
Lemma inflated_in t : forall c, In c (inflated t) -> In c t.
Proof.
  induction t as [|c t IH]; intros x H; [destruct H|]. cbn [inflated] in H. destruct (is_ws c); [|destruct H as [H|H]; [now left|right; now apply IH]].
  destruct t as [|d r]; [destruct H|]. destruct (is_ws d); [|destruct H as [H|H]; [now left|right; now apply IH]].
  apply in_app_iff in H as [[H|H]|H]; [now left| |right; now apply IH]. right. destruct (take_split (d :: r)) as [q Q]. rewrite Q. apply in_app_iff. now left.
Qed.
Lemma brace_iff t : has_brace t = true <-> In 123%N t \/ In 125%N t.
Proof.
  unfold has_brace, open_brace, close_brace. rewrite orb_true_iff, !existsb_exists. split.
  - intros [(x & I & E)|(x & I & E)]; apply N.eqb_eq in E; subst; auto.
  - intros [I|I]; [left; exists 123%N|right; exists 125%N]; now split.
Qed.
