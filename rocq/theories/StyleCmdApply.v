From Verif Require Import Base BaseLemmas DocModel DocSpec DocProofs ParseModel EventCmdModel EventCmdSpec EventCmdProofs StyleCmdModel StyleCmdSpec StyleCmdProofs.
From Verif Require Utf8Model.

(* ---- one line ---- *)
Lemma comma_false f : no_comma f -> forallb (fun c => negb (ParseModel.is_comma c)) f = true.
Proof. intros H. apply forallb_forall. intros c Hc. unfold ParseModel.is_comma. destruct (N.eqb_spec c 44); [subst; contradiction|reflexivity]. Qed.
Lemma split_free f s : In f (split_on ParseModel.is_comma s) -> no_comma f.
Proof.
  revert f. induction s as [|c s IH]; intros f H; cbn [split_on] in H.
  - destruct H as [<-|[]]. easy.
  - destruct (ParseModel.is_comma c) eqn:E.
    + destruct H as [<-|H]; [easy|now apply IH].
    + destruct (split_on ParseModel.is_comma s) as [|w ws] eqn:S; [now apply split_on_nonempty in S|]. destruct H as [<-|H].
      * intros [Q|Q]; [subst c; discriminate E|]. apply (IH w); [now left|exact Q].
      * apply IH. now right.
Qed.
Lemma split_comma1 f s : no_comma f -> split_on ParseModel.is_comma (f ++ lit "," ++ s) = f :: split_on ParseModel.is_comma s.
Proof. intros H. apply split_on_app; [now apply comma_false|reflexivity]. Qed.
Lemma has_style_spec old l : has_style old l = true <-> wears old l.
Proof.
  unfold has_style. rewrite andb_true_iff, str_eqb_eq. split.
  - intros [H1 H2]. apply Nat.ltb_lt in H1. pose proof (join_split_on ParseModel.is_comma 44%N l) as J.
    assert (F : forall f, In f (split_on ParseModel.is_comma l) -> no_comma f) by (intros f; apply split_free).
    destruct (split_on ParseModel.is_comma l) as [|f0 [|f1 [|f2 [|s [|g r]]]]]; try (cbn in H1; lia). cbn [nth] in H2.
    exists f0, f1, f2, s, (join [44%N] (g :: r)). split.
    + rewrite <- J; [reflexivity|]. intros x. unfold ParseModel.is_comma. apply N.eqb_eq.
    + repeat split; try (apply F; cbn; tauto). exact H2.
  - intros (f0 & f1 & f2 & s & r & -> & H0 & H1 & H2 & H3 & H4). rewrite !split_comma1 by assumption. cbn [nth].
    split; [|exact H4]. apply Nat.ltb_lt. cbn [List.length]. pose proof (split_on_nonempty ParseModel.is_comma r). destruct (split_on ParseModel.is_comma r); [congruence|cbn; lia].
Qed.
Lemma passes_spec filter l : passes filter l = true <-> chosen filter l.
Proof.
  destruct filter as [f|]; [|cbn; tauto]. cbn [passes chosen]. destruct (find_str f l) as [[a b]|] eqn:E.
  - destruct (find_present _ _ _ _ E) as (c & _ & ->). split; [|reflexivity]. intros _. now exists a, c.
  - split; [discriminate|]. intros H. destruct (has_find _ _ H) as [r Q]. congruence.
Qed.
Lemma restyled_wears old new l l' : restyled old new l l' -> wears old l.
Proof.
  intros (f0 & f1 & f2 & r & -> & _ & H0 & H1 & H2 & H3 & H4 & _). exists f0, f1, f2, old, r. rewrite <- !app_assoc. auto 10.
Qed.
Lemma restyled_swap old new l l' : restyled old new l l' -> swap_style old new l = l'.
Proof.
  intros (f0 & f1 & f2 & r & -> & -> & _ & _ & _ & _ & _ & HF & Hr). unfold swap_style. set (p := f0 ++ lit "," ++ f1 ++ lit "," ++ f2) in *.
  change (p ++ lit "," ++ old ++ lit "," ++ r) with (p ++ lit "," ++ (old ++ lit "," ++ r)).
  replace (p ++ lit "," ++ old ++ lit "," ++ r) with (p ++ (lit "," ++ old ++ lit ",") ++ r) by now rewrite <- !app_assoc.
  rewrite replace_first by (assumption || discriminate). rewrite replace_none by exact Hr. now rewrite <- !app_assoc.
Qed.

(* ---- the loop ---- *)
Lemma apply_step f sz old new flt d A l rest tot n :
  text d = A ++ l ++ rest -> in_section l -> after_line rest ->
  apply_loop (S f) sz old new flt d (blen A) tot n =
    if is_event_line l && (has_style old l && passes flt l) then
      and_then (of_out (doc_replace sz d (mkRange (blen A) (blen A + blen l)) (swap_style old new l))) (fun d1 _ =>
        let change := range_new (blen A) (blen A + blen (swap_style old new l)) in
        apply_loop f sz old new flt d1 (blen A + blen l + 1)
          (Some (match tot with Some r => range_union r change | None => change end)) (n + 1))
    else apply_loop f sz old new flt d (blen A + blen l + 1) tot n.
Proof.
  intros E (Hne & Hnl & Hh) Hr. cbn [apply_loop]. rewrite E. pose proof (blen_pos l Hne) as Hp.
  destruct (Nat.ltb_spec (blen A) (blen (A ++ l ++ rest))); [|rewrite !blen_app in *; lia].
  rewrite slice_from_app. cbn [need bind]. rewrite line_end_at by assumption.
  destruct (Nat.leb_spec (blen A + blen l) (blen A)); [lia|].
  rewrite slice_app. cbn [need bind]. rewrite range_new_le by lia.
  apply header_false in Hh. rewrite Hh. cbn [andb]. destruct (is_event_line l); [|reflexivity]. destruct (has_style old l && passes flt l); reflexivity.
Qed.
Lemma apply_stops f sz old new flt d A rest tot n : text d = A ++ rest ->
  rest = [] \/ (exists r, rest = 10%N :: r) \/ ((exists r, rest = lit "[" ++ r) /\ forall r, rest = lit "[Events]" ++ r -> ~ after_line r) ->
  apply_loop (S f) sz old new flt d (blen A) tot n = Done (d, Some (tot, n)).
Proof.
  intros E [->|[[r ->]|[[r ->] HE]]]; cbn [apply_loop]; rewrite E.
  - rewrite app_nil_r, Nat.ltb_irrefl. reflexivity.
  - destruct (Nat.ltb_spec (blen A) (blen (A ++ 10%N :: r))); [|reflexivity].
    rewrite slice_from_app. cbn [need bind]. unfold line_end. cbn [find_char]. change (is_nl 10) with true. cbn [blen].
    now rewrite Nat.add_0_r, Nat.leb_refl.
  - destruct (Nat.ltb_spec (blen A) (blen (A ++ lit "[" ++ r))); [|reflexivity].
    rewrite slice_from_app. cbn [need bind].
    destruct (line_of r) as (l & r' & -> & Hnl & Hr).
    change (lit "[" ++ l ++ r') with ((lit "[" ++ l) ++ r') in *.
    assert (Hnl' : ~ In 10%N (lit "[" ++ l)) by (intros [Q|Q]; [discriminate|contradiction]).
    rewrite line_end_at by assumption. destruct (Nat.leb_spec (blen A + blen (lit "[" ++ l)) (blen A)); [reflexivity|].
    rewrite slice_app. cbn [need bind]. rewrite starts_with_app.
    replace (is_event_line (lit "[" ++ l)) with false by reflexivity. cbn [andb].
    destruct (str_eqb (lit "[" ++ l) (lit "[Events]")) eqn:Q; [|reflexivity]. apply str_eqb_eq in Q. exfalso. apply (HE r'); [now rewrite Q|exact Hr].
Qed.
Lemma apply_ends f sz old new flt d A l rest tot n : text d = A ++ l ++ rest -> other_section rest ->
  apply_loop (S f) sz old new flt d (blen A + blen l + 1) tot n = Done (d, Some (tot, n)).
Proof.
  intros E [[->|H] HE].
  - cbn [apply_loop]. rewrite E. destruct (Nat.ltb_spec (blen A + blen l + 1) (blen (A ++ l ++ []))); [|reflexivity].
    exfalso. rewrite !blen_app in *. cbn [blen] in *. lia.
  - rewrite blen_line. destruct H as [->|[[r ->]|[r ->]]].
    + apply (apply_stops f sz old new flt d _ []); [rewrite E; now rewrite <- !app_assoc|now left].
    + apply (apply_stops f sz old new flt d _ (10%N :: r)); [rewrite E; now rewrite <- !app_assoc|right; left; eauto].
    + apply (apply_stops f sz old new flt d _ (lit "[" ++ r)); [rewrite E; now rewrite <- !app_assoc|right; right].
      split; [eauto|]. intros q Q. apply (HE q). now rewrite Q.
Qed.
Lemma restyles_nonempty old new flt ls ls' k : restyles old new flt ls ls' k -> ls <> [] -> ls' <> [].
Proof. intros H. destruct H; congruence. Qed.
Lemma apply_all sz old new flt :
  forall ls ls' k f d A rest tot n, reached sz d -> text d = A ++ join [10%N] ls ++ rest -> other_section rest ->
  ls <> [] -> Forall in_section ls -> restyles old new flt ls ls' k -> 2 * List.length ls + 1 <= f ->
  exists d' tot', apply_loop f sz old new flt d (blen A) tot n = Done (d', Some (tot', n + k)) /\
    text d' = A ++ join [10%N] ls' ++ rest /\ reached sz d'.
Proof.
  intros ls. induction ls as [|l ls IH]; intros ls' k f d A rest tot n H E Hr NE HF HC Hf; [congruence|].
  inversion HF as [|? ? Hl Hls]; subst. cbn [List.length] in Hf. destruct f as [|f]; [lia|].
  assert (J : forall x y, join [10%N] (x :: y) = x ++ match y with [] => [] | _ => 10%N :: join [10%N] y end).
  { intros x [|y1 y2]; cbn [join]; [now rewrite app_nil_r|reflexivity]. }
  set (tail := fun y : list str => match y with [] => [] | _ => 10%N :: join [10%N] y end ++ rest).
  assert (E0 : text d = A ++ l ++ tail ls) by (rewrite E, J; unfold tail; now rewrite <- !app_assoc).
  assert (AT : after_line (tail ls)).
  { unfold tail. destruct ls; [cbn [app]; apply section_end_after, Hr|right; eexists; reflexivity]. }
  rewrite (apply_step _ sz old new flt d A l (tail ls)) by assumption.
  assert (Next : forall f l' ls1 k1 d1 tot1 n1, 2 * List.length ls + 1 <= f -> reached sz d1 -> text d1 = A ++ l' ++ tail ls ->
    restyles old new flt ls ls1 k1 ->
    exists d' tot', apply_loop f sz old new flt d1 (blen A + blen l' + 1) tot1 n1 = Done (d', Some (tot', n1 + k1)) /\
      text d' = A ++ join [10%N] (l' :: ls1) ++ rest /\ reached sz d').
  { clear f Hf. intros f l' ls1 k1 d1 tot1 n1 Hf H1 E1 C1. destruct ls as [|l2 ls2].
    - inversion C1; subst. exists d1, tot1. rewrite Nat.add_0_r. destruct f as [|f]; [cbn in Hf; lia|].
      rewrite (apply_ends f sz old new flt d1 A l' rest); [|exact E1|exact Hr]. split; [reflexivity|]. split; [exact E1|exact H1].
    - rewrite blen_line.
      destruct (IH ls1 k1 f d1 (A ++ l' ++ [10%N]) rest tot1 n1 H1) as (d' & tot' & X1 & X2 & X3).
      + rewrite E1. unfold tail. rewrite <- !app_assoc. reflexivity.
      + exact Hr.
      + discriminate.
      + exact Hls.
      + exact C1.
      + lia.
      + exists d', tot'. split; [exact X1|]. split; [|exact X3]. rewrite X2. rewrite J.
        destruct ls1 as [|z zs]; [exfalso; eapply restyles_nonempty; [exact C1|discriminate|reflexivity]|].
        rewrite <- !app_assoc. reflexivity. }
  inversion HC as [|? l' ? ls1 k' Hev Hch Hrs Hre HC'|? ? ls1 k' Hno HC']; subst.
  - rewrite (proj2 (event_line_spec l) Hev), (proj2 (has_style_spec old l) (restyled_wears _ _ _ _ Hrs)), (proj2 (passes_spec flt l) Hch). cbn [andb].
    rewrite (restyled_swap _ _ _ _ Hrs).
    destruct (replace_ok sz d A l (tail ls) l' H E0) as (d1 & D & T1 & I1).
    rewrite D. cbn [of_out and_then bind fst snd]. replace (n + S k') with (n + 1 + k') by lia.
    destruct Hre as [Eb|(u & v & -> & Bu & Hv & Nv)].
    * rewrite <- Eb. apply (Next f l' ls1 k' d1 _ (n + 1)); try assumption. lia.
    * destruct f as [|f]; [lia|].
      replace (blen A + blen l + 1) with (blen (A ++ u)) by (rewrite blen_app; lia).
      rewrite (apply_step f sz old new flt d1 (A ++ u) v (tail ls)); [|rewrite T1; now rewrite <- !app_assoc|exact Hv|exact AT].
      rewrite (proj2 (event_line_false v) Nv). cbn [andb].
      replace (blen (A ++ u) + blen v + 1) with (blen A + blen (u ++ v) + 1) by (rewrite !blen_app; lia).
      apply (Next f (u ++ v) ls1 k' d1 _ (n + 1)); try assumption. lia.
  - replace (is_event_line l && (has_style old l && passes flt l)) with false; [apply (Next f l ls1 k d tot n); try assumption; lia|].
    symmetry. destruct (is_event_line l) eqn:Q1; [|reflexivity]. destruct (has_style old l) eqn:Q2; [|reflexivity]. destruct (passes flt l) eqn:Q3; [|reflexivity].
    exfalso. apply Hno. split; [now apply event_line_spec|]. split; [now apply has_style_spec|now apply passes_spec].
Qed.
Lemma top_found head body : events_top head -> first_event_start (head ++ body) = Done (Some (blen head)).
Proof.
  intros (a & m & f & -> & H1 & H2 & H3). unfold first_event_start. rewrite <- !app_assoc.
  rewrite find_first by (assumption || discriminate). rewrite (app_assoc (lit "[Events]") m).
  assert (Hm : ~ In 10%N (lit "[Events]" ++ m)) by (intros Q; apply in_app_iff in Q as [Q|Q]; [cbn in Q; intuition discriminate|contradiction]).
  cbn [app]. rewrite newline_of by exact Hm. rewrite blen_line.
  replace (a ++ (lit "[Events]" ++ m) ++ 10%N :: f ++ 10%N :: body) with ((a ++ (lit "[Events]" ++ m) ++ [10%N]) ++ f ++ 10%N :: body) by now rewrite <- !app_assoc.
  rewrite slice_from_app. cbn [need bind]. rewrite newline_of by exact H3. rewrite blen_line. do 2 f_equal. now rewrite <- !app_assoc.
Qed.

(* ---- it ends, unless the new name has a comma ---- *)
Definition seps (s : str) : nat := List.length (filter (fun c => (c =? 44)%N || (c =? 10)%N) s).
Lemma seps_app a b : seps (a ++ b) = seps a + seps b.
Proof. unfold seps. now rewrite filter_app, app_length. Qed.
Definition plain (s : str) : Prop := no_comma s /\ ~ In 10%N s.
Lemma seps_plain s : plain s -> seps s = 0.
Proof.
  intros [H1 H2]. unfold seps. replace (filter _ s) with (@nil N); [reflexivity|]. symmetry. induction s as [|c s IH]; [reflexivity|]. cbn [filter].
  destruct (N.eqb_spec c 44); [exfalso; apply H1; now left|]. destruct (N.eqb_spec c 10); [exfalso; apply H2; now left|]. cbn [orb]. apply IH; intros Q; [apply H1|apply H2]; now right.
Qed.
Lemma swap_seps old new l : plain old -> plain new -> seps (swap_style old new l) = seps l.
Proof.
  intros Ho Hn. unfold swap_style, Utf8Model.replace. set (pat := lit "," ++ old ++ lit ",").
  assert (G : forall n s k, List.length s <= n -> seps (Utf8Model.replace_go pat (lit "," ++ new ++ lit ",") s k) = seps (skipn k s)).
  { induction n as [|n IH]; intros s k Hs. { destruct s; [|cbn in Hs; lia]. now destruct k. }
    destruct s as [|c s]; [now destruct k|]. cbn [List.length] in Hs. destruct k as [|k]; [|cbn [Utf8Model.replace_go skipn]; apply IH; lia].
    cbn [Utf8Model.replace_go]. destruct (starts_with pat (c :: s)) eqn:E.
    - apply starts_with_spec in E as [r E]. rewrite seps_app, IH by lia. cbn [skipn]. unfold pat in E at 1. change (lit ",") with [44%N] in *. cbn [app] in E.
      injection E as -> E2. rewrite E2. unfold pat. cbn [app List.length]. rewrite app_length. cbn [List.length].
      replace (S (List.length old + 1) - 1) with (List.length (old ++ [44%N])) by (rewrite app_length; cbn; lia).
      rewrite skipn_app, skipn_all, Nat.sub_diag. cbn [skipn app].
      change (44%N :: (old ++ [44%N]) ++ r) with ([44%N] ++ (old ++ [44%N]) ++ r). change (44%N :: new ++ [44%N]) with ([44%N] ++ new ++ [44%N]).
      rewrite !seps_app, (seps_plain old Ho), (seps_plain new Hn). lia.
    - cbn [skipn]. change (c :: Utf8Model.replace_go pat (lit "," ++ new ++ lit ",") s 0) with ([c] ++ Utf8Model.replace_go pat (lit "," ++ new ++ lit ",") s 0).
      change (c :: s) with ([c] ++ s). rewrite !seps_app, IH by lia. reflexivity. }
  rewrite (G (List.length l)) by lia. reflexivity.
Qed.
(* up to the first comma nothing changes *)
Lemma swap_head old new f s : no_comma f -> exists s', swap_style old new (f ++ lit "," ++ s) = f ++ lit "," ++ s'.
Proof.
  intros Hf. unfold swap_style, Utf8Model.replace. induction f as [|c f IH].
  - cbn [app]. change (lit "," ++ s) with (44%N :: s). cbn [Utf8Model.replace_go]. destruct (starts_with _ _); [|eexists; reflexivity].
    eexists. change (lit ",") with [44%N]. cbn [app]. reflexivity.
  - destruct IH as [s' IH]; [intros Q; apply Hf; now right|]. exists s'. cbn [app Utf8Model.replace_go].
    assert (X : starts_with (lit "," ++ old ++ lit ",") (c :: f ++ lit "," ++ s) = false).
    { destruct (starts_with _ _) eqn:Q; [|reflexivity]. apply starts_with_spec in Q as [r Q]. injection Q as -> _. exfalso. apply Hf. now left. }
    rewrite X. f_equal. exact IH.
Qed.
Lemma cut_suffix s p b : slice_from s p = Some b -> exists a, s = a ++ b /\ blen a = p.
Proof. apply slice_from_spec. Qed.
(* what is left of the text from an offset on *)
Definition left (s : str) (p : nat) : nat := match slice_from s p with Some b => S (seps b) | None => 0 end.
Lemma prefix_of (a b c e : str) : a ++ b = c ++ e -> blen a <= blen c -> exists w, c = a ++ w /\ b = w ++ e.
Proof.
  intros E L. destruct (app_eq_app _ _ _ _ E) as [w [[E1 E2]|[E1 E2]]]; [|eauto].
  assert (w = []) as ->. { destruct w as [|x w]; [reflexivity|]. rewrite E1, blen_app, blen_cons in L. pose proof (len_utf8_pos x). lia. }
  rewrite app_nil_r in E1. subst a. exists []. rewrite app_nil_r. auto.
Qed.
Lemma apply_loop_ends sz old new flt : plain new -> forall fuel d start tot n, reached sz d -> left (text d) start < fuel ->
  apply_loop fuel sz old new flt d start tot n <> Stuck.
Proof.
  intros Hn fuel. induction fuel as [|f IH]; intros d start tot n HR Hf; [lia|]. cbn [apply_loop].
  destruct (Nat.ltb_spec start (blen (text d))) as [L|L]; [|discriminate].
  destruct (slice_from (text d) start) as [rest|] eqn:Er; [|discriminate]. cbn [need bind].
  unfold left in Hf. rewrite Er in Hf. apply slice_from_spec in Er as (A & E & <-).
  destruct (line_of rest) as (l & r & -> & Hl & Hr). rewrite E. rewrite line_end_at by assumption.
  destruct (Nat.leb_spec (blen A + blen l) (blen A)) as [L2|L2]; [discriminate|].
  rewrite slice_app. cbn [need bind].
  (* going on after the line *)
  assert (Skip : left (A ++ l ++ r) (blen A + blen l + 1) < f).
  { destruct Hr as [->|[r' ->]].
    - unfold left. destruct (slice_from (A ++ l ++ []) (blen A + blen l + 1)) as [b|] eqn:Q; [|cbn in Hf; lia].
      apply slice_from_spec in Q as (a & Q1 & Q2). apply (f_equal blen) in Q1. rewrite !blen_app in Q1. cbn [blen] in Q1. lia.
    - rewrite blen_line. replace (A ++ l ++ 10%N :: r') with ((A ++ l ++ [10%N]) ++ r') by now rewrite <- !app_assoc.
      unfold left. rewrite slice_from_app. rewrite seps_app in Hf. change (10%N :: r') with ([10%N] ++ r') in Hf. rewrite seps_app in Hf. change (seps [10%N]) with 1 in Hf. lia. }
  assert (Skip' : forall t m, apply_loop f sz old new flt d (blen A + blen l + 1) t m <> Stuck).
  { intros t m. apply IH; [exact HR|]. rewrite E. exact Skip. }
  destruct (is_event_line l) eqn:Ev.
  2: { destruct (starts_with (lit "[") l && negb (str_eqb l (lit "[Events]"))); [discriminate|apply Skip']. }
  destruct (has_style old l && passes flt l) eqn:Ch; [|apply Skip'].
  apply andb_true_iff in Ch as [Hs _]. apply has_style_spec in Hs as (f0 & f1 & f2 & s & q & El & H0 & H1 & H2 & H3 & H4).
  rewrite range_new_le by lia. set (l' := swap_style old new l).
  destruct (replace_ok sz d A l r l' HR E) as (d1 & D & T & R). rewrite D. cbn [of_out and_then bind fst snd].
  apply IH; [exact R|]. rewrite T. unfold left.
  destruct (slice_from (A ++ l' ++ r) (blen A + blen l + 1)) as [b|] eqn:Q; [|lia].
  apply slice_from_spec in Q as (a & Q1 & Q2).
  destruct (prefix_of A (l' ++ r) a b Q1 ltac:(lia)) as (w & -> & Q3). rewrite blen_app in Q2. assert (Bw : blen w = blen l + 1) by lia. clear Q1 Q2.
  assert (Po : plain old).
  { split.
    - rewrite <- H4. intros Q. apply H3. revert Q. unfold trim, trim_start, trim_end. intros Q.
      assert (D1 : forall p t c, In c (drop_while p t) -> In c t). { clear. induction t as [|x t IH]; intros c; cbn; [easy|]. destruct (p x); [intros Q; right; now apply IH|easy]. }
      assert (D2 : forall p t c, In c (drop_end p t) -> In c t). { clear. induction t as [|x t IH]; intros c; cbn [drop_end]; [easy|]. destruct (drop_end p t) as [|y r]; [destruct (p x); [easy|]; intros [->|[]]; now left|]. intros [->|Q]; [now left|right; now apply IH]. }
      eapply D1, D2. exact Q || (eapply D2, D1; exact Q).
    - rewrite <- H4. intros Q. apply Hl. rewrite El. rewrite !in_app_iff. do 6 right. left.
      revert Q. unfold trim, trim_start, trim_end.
      assert (D1 : forall p t c, In c (drop_while p t) -> In c t). { clear. induction t as [|x t IH]; intros c; cbn; [easy|]. destruct (p x); [intros Q; right; now apply IH|easy]. }
      assert (D2 : forall p t c, In c (drop_end p t) -> In c t). { clear. induction t as [|x t IH]; intros c; cbn [drop_end]; [easy|]. destruct (drop_end p t) as [|y r]; [destruct (p x); [easy|]; intros [->|[]]; now left|]. intros [->|Q]; [now left|right; now apply IH]. }
      intros Q. first [eapply D1, D2; exact Q | eapply D2, D1; exact Q]. }
  assert (S1 : seps l' = seps l) by now apply swap_seps.
  destruct (swap_head old new f0 (f1 ++ lit "," ++ f2 ++ lit "," ++ s ++ lit "," ++ q) H0) as [s' Es]. rewrite <- El in Es. fold l' in Es.
  (* the comma is before the place to go on from *)
  assert (W : 1 <= seps w).
  { assert (P : exists v, w = (f0 ++ lit ",") ++ v).
    { assert (Q4 : (f0 ++ lit ",") ++ (s' ++ r) = w ++ b) by (rewrite <- Q3, Es; now rewrite <- !app_assoc).
      destruct (prefix_of _ _ _ _ Q4) as (v & -> & _); [|eauto]. rewrite Bw, El, !blen_app. change (blen (lit ",")) with 1. lia. }
    destruct P as [v ->]. rewrite !seps_app. change (seps (lit ",")) with 1. lia. }
  rewrite seps_app in Hf. apply (f_equal seps) in Q3. rewrite !seps_app in Q3. lia.
Qed.
