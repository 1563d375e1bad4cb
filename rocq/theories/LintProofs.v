From Verif Require Import LintSpec BaseLemmas ColorProofs TimeSpec TimeProofs LintSpeedProofs.
Import ListNotations.

(* ---- lists ---- *)
Lemma each_iff {A B} (f : A -> run (list B)) R l r : (forall x a, In x l -> f x = Done a <-> R x a) -> each f l = Done r <-> in_turn R l r.
Proof.
  revert r. induction l as [|x l IH]; intros r H; cbn [each].
  - split; [intros [= <-]; constructor|intros I; inversion I; reflexivity].
  - split.
    + destruct (f x) as [a| |] eqn:F; try discriminate. cbn [bind]. destruct (each f l) as [b| |] eqn:E; try discriminate. intros [= <-]. constructor; [apply H; [now left|exact F]|]. apply IH; [|reflexivity]. intros y c Iy. apply H. now right.
    + intros I. inversion I as [|x' a l' r' Ra It]; subst. apply H in Ra; [|now left]. rewrite Ra. cbn [bind]. apply IH in It; [|intros y c Iy; apply H; now right]. rewrite It. reflexivity.
Qed.
Lemma flat_iff {A B} (f : A -> list B) (R : A -> list B -> Prop) l r : (forall x a, R x a <-> a = f x) -> in_turn R l r <-> r = flat_map f l.
Proof.
  intros H. revert r. induction l as [|x l IH]; intros r; cbn [flat_map].
  - split; [intros I; inversion I; reflexivity|intros ->; constructor].
  - split; [intros I; inversion I; subst; f_equal; [now apply H|now apply IH]|]. intros ->. constructor; [now apply H|now apply IH].
Qed.
Lemma each_not_stuck {A B} (f : A -> run (list B)) l : (forall x, f x <> Stuck) -> each f l <> Stuck.
Proof.
  intros H. induction l as [|x l IH]; cbn [each]; [discriminate|]. specialize (H x). destruct (f x); cbn [bind]; try congruence. destruct (each f l); cbn [bind]; congruence.
Qed.
Lemma when_iff {A} (P : Prop) (b : bool) (x : A) l : (b = true <-> P) -> when P x l <-> l = if b then [x] else [].
Proof.
  intros H. unfold when. destruct b.
  - split; [intros [[_ ->]|[N _]]; [reflexivity|exfalso; apply N, H; reflexivity]|]. intros ->. left. split; [now apply H|reflexivity].
  - split; [intros [[Y _]|[_ ->]]; [apply H in Y; discriminate|reflexivity]|]. intros ->. right. split; [|reflexivity]. intros Y. apply H in Y. discriminate.
Qed.
Lemma kept_iff {A} (P : A -> Prop) (p : A -> bool) l r : (forall x, p x = true <-> P x) -> kept P l r <-> r = filter p l.
Proof.
  intros H. revert r. induction l as [|x l IH]; intros r; cbn [filter].
  - split; [intros K; inversion K; reflexivity|intros ->; constructor].
  - split.
    + intros K. inversion K as [|x' l' r' Px K'|x' l' r' Px K']; subst.
      * rewrite (proj2 (H x) Px). f_equal. now apply IH.
      * destruct (p x) eqn:E; [exfalso; apply Px, H, E|now apply IH].
    + intros ->. destruct (p x) eqn:E; [constructor 2; [now apply H|now apply IH]|constructor 3; [|now apply IH]]. intros Y. apply H in Y. congruence.
Qed.

(* ---- sections ---- *)
Lemma events_of_spec sections l : script_events sections l <-> l = events_of sections.
Proof.
  unfold script_events, events_of. induction sections as [|s sections IH].
  - cbn. split; [intros [(l1 & l2 & E & _)|[-> _]]; [destruct l1; discriminate|reflexivity]|intros ->; right; split; [reflexivity|intros ? []]].
  - destruct s as [f c|st|ev|f|g]; cbn [find]; try (
    rewrite <- IH; split;
    [intros [(l1 & l2 & E & N)|[-> N]]; [destruct l1 as [|x l1]; [discriminate|]; injection E as _ E1; rewrite E1; left; exists l1, l2; split; [reflexivity|]; intros l' I; apply (N l'); now right|right; split; [reflexivity|]; intros l' I; apply (N l'); now right]
    |intros [(l1 & l2 & -> & N)|[-> N]]; [left; eexists (_ :: l1), l2; split; [reflexivity|]; intros l' [D|I]; [discriminate|now apply (N l')]|right; split; [reflexivity|]; intros l' [D|I]; [discriminate|now apply (N l')]]]).
    split; [|intros ->; left; exists [], sections; split; [reflexivity|intros ? []]].
    intros [(l1 & l2 & E & N)|[-> N]]; [|exfalso; apply (N ev); now left]. destruct l1 as [|x l1]; [now injection E as <- _|]. injection E as <- _. exfalso. apply (N ev). now left.
Qed.
Lemma styles_of_spec sections l : script_styles sections l <-> l = styles_of sections.
Proof.
  unfold script_styles, styles_of. induction sections as [|s sections IH].
  - cbn. split; [intros [(l1 & l2 & E & _)|[-> _]]; [destruct l1; discriminate|reflexivity]|intros ->; right; split; [reflexivity|intros ? []]].
  - destruct s as [f c|st|ev|f|g]; cbn [find]; try (
    rewrite <- IH; split;
    [intros [(l1 & l2 & E & N)|[-> N]]; [destruct l1 as [|x l1]; [discriminate|]; injection E as _ E1; rewrite E1; left; exists l1, l2; split; [reflexivity|]; intros l' I; apply (N l'); now right|right; split; [reflexivity|]; intros l' I; apply (N l'); now right]
    |intros [(l1 & l2 & -> & N)|[-> N]]; [left; eexists (_ :: l1), l2; split; [reflexivity|]; intros l' [D|I]; [discriminate|now apply (N l')]|right; split; [reflexivity|]; intros l' [D|I]; [discriminate|now apply (N l')]]]).
    split; [|intros ->; left; exists [], sections; split; [reflexivity|intros ? []]].
    intros [(l1 & l2 & E & N)|[-> N]]; [|exfalso; apply (N st); now left]. destruct l1 as [|x l1]; [now injection E as <- _|]. injection E as <- _. exfalso. apply (N st). now left.
Qed.
Lemma info_of_spec sections l : script_info sections l <-> l = info_of sections.
Proof.
  unfold script_info, info_of. induction sections as [|s sections IH].
  - cbn. split; [intros [(l1 & c & l2 & E & _)|[-> _]]; [destruct l1; discriminate|reflexivity]|intros ->; right; split; [reflexivity|intros ? ? []]].
  - destruct s as [f c|st|ev|f|g]; cbn [find]; try (
    rewrite <- IH; split;
    [intros [(l1 & c & l2 & E & N)|[-> N]]; [destruct l1 as [|x l1]; [discriminate|]; injection E as _ E1; rewrite E1; left; exists l1, c, l2; split; [reflexivity|]; intros l' c' I; apply (N l' c'); now right|right; split; [reflexivity|]; intros l' c' I; apply (N l' c'); now right]
    |intros [(l1 & c & l2 & -> & N)|[-> N]]; [left; eexists (_ :: l1), c, l2; split; [reflexivity|]; intros l' c' [D|I]; [discriminate|now apply (N l' c')]|right; split; [reflexivity|]; intros l' c' [D|I]; [discriminate|now apply (N l' c')]]]).
    split; [|intros ->; left; exists [], c, sections; split; [reflexivity|intros ? ? []]].
    intros [(l1 & c' & l2 & E & N)|[-> N]]; [|exfalso; apply (N f c); now left]. destruct l1 as [|x l1]; [now injection E as <- _ _|]. injection E as <- _. exfalso. apply (N f c). now left.
Qed.

(* ---- the rules ---- *)
Lemma both_times_cases e :
  (times_safe e /\ exists s t, times_are e s t /\ both_times e = Done (Some (s, t))) \/
  (times_safe e /\ (forall s t, ~ times_are e s t) /\ both_times e = Done None) \/
  (~ times_safe e /\ both_times e = Crash).
Proof.
  unfold times_safe, times_are, both_times. destruct (parse_ass_time (e_start e)) as [s| |], (parse_ass_time (e_end e)) as [t| |];
  try (right; right; split; [intros [? ?]; congruence|reflexivity]);
  try (right; left; split; [split; discriminate|]; split; [intros ? ? [? ?]; discriminate|reflexivity]).
  left. split; [split; discriminate|]. exists s, t. auto.
Qed.
Lemma times_unique e s t s' t' : times_are e s t -> times_are e s' t' -> s = s' /\ t = t'.
Proof. intros [A B] [C D]. split; congruence. Qed.
Lemma overlap_iff sections l : check_overlap sections = Done l <-> overlap_reports (events_of sections) l.
Proof.
  unfold check_overlap, overlap_reports. set (ev := events_of sections). assert (K : forall o, each (fun p : nat * nat => a <- or_crash (nth_error ev (fst p)) ;; b <- or_crash (nth_error ev (snd p)) ;; Done [overlap_issue (Overlapping (e_start a) (e_end a) (e_start b) (e_end b))]) o = Done l <-> in_turn (overlap_report ev) o l).
  { intros o. apply each_iff. intros p r _. unfold overlap_report, overlap_issue. destruct (nth_error ev (fst p)) as [a|]; cbn [or_crash bind]; [|split; [discriminate|intros (a & b & D & _); discriminate]].
    destruct (nth_error ev (snd p)) as [b|]; cbn [or_crash bind]; [|split; [discriminate|intros (a' & b & _ & D & _); discriminate]].
    split; [intros [= <-]; exists a, b; auto|]. intros (a' & b' & [= <-] & [= <-] & ->). reflexivity. }
  destruct (find_overlapping_events ev) as [o| |].
  - rewrite K. split; [intros H; left; eauto|]. intros [(o' & [= <-] & H)|[D _]]; [exact H|discriminate].
  - split; [intros [= <-]; right; auto|]. intros [(o' & D & H)|[_ ->]]; [discriminate|reflexivity].
  - split; [discriminate|]. intros [(o' & D & H)|[D _]]; discriminate.
Qed.
Lemma duration_iff sections l : check_duration sections = Done l <-> in_turn duration_report (events_of sections) l.
Proof.
  apply each_iff. intros e a _. unfold duration_report. destruct (both_times_cases e) as [(S & s & t & T & ->)|[(S & N & ->)|(S & ->)]]; cbn [bind].
  - rewrite (when_iff _ (t <=? s)%N); [split; [intros [= <-]; auto|intros [_ ->]; reflexivity]|]. rewrite N.leb_le. split; [intros L; exists s, t; auto|]. intros (s' & t' & T' & L). destruct (times_unique _ _ _ _ _ T T') as [-> ->]. exact L.
  - unfold when. split; [intros [= <-]; split; [exact S|]; right; split; [intros (s & t & T & _); now apply (N s t)|reflexivity]|]. intros [_ [[(s & t & T & _) _]|[_ ->]]]; [now apply N in T|reflexivity].
  - split; [discriminate|intros [X _]; contradiction].
Qed.
Lemma colour_ok_iff s : (exists q, parse_bgr_color s = Ok q) <-> a_colour s.
Proof.
  unfold a_colour. split.
  - intros (q & H). apply color_exact in H. destruct H as (d & v & D & V & L). exists d, v. split; [exact D|]. split; [exact V|]. destruct L as [[L _]|[L _]]; auto.
  - intros (d & v & D & V & [L|L]); eexists; apply color_exact; exists d, v; (split; [exact D|]; split; [exact V|]); [left|right]; split; [exact L|reflexivity|exact L|reflexivity].
Qed.
Lemma colour_cases s : (a_colour s /\ exists q, parse_bgr_color s = Ok q) \/ (~ a_colour s /\ parse_bgr_color s = Err).
Proof.
  destruct (parse_bgr_color s) as [q| |] eqn:E; [left; split; [apply colour_ok_iff|]; eauto|right|now apply color_no_panic in E]. split; [|reflexivity]. intros C. apply colour_ok_iff in C as [q C]. congruence.
Qed.
Lemma style_colour_iff f v l : check_style_color f v = Done l <-> when (~ a_colour v) (Lint LError Styling "invalid-color" (BadStyleColour f v)) l.
Proof.
  unfold check_style_color, when, colour_issue. destruct (colour_cases v) as [(C & q & ->)|(C & ->)].
  - split; [intros [= <-]; right; tauto|]. intros [[N _]|[_ ->]]; [contradiction|reflexivity].
  - split; [intros [= <-]; left; tauto|]. intros [[_ ->]|[N _]]; [reflexivity|contradiction].
Qed.
Lemma style_colours_iff s l :
  (p <- check_style_color "primary" (s_primary s) ;; q <- check_style_color "secondary" (s_secondary s) ;; r <- check_style_color "outline" (s_outlinec s) ;; t <- check_style_color "back" (s_back s) ;; Done (p ++ q ++ r ++ t)) = Done l <-> style_colour_report s l.
Proof.
  unfold style_colour_report. rewrite <- (each_iff (fun f : string * str => check_style_color (fst f) (snd f))) by (intros x a _; apply style_colour_iff). cbn [each fst snd].
  destruct (check_style_color "primary" _); cbn [bind]; [|split; discriminate..]. destruct (check_style_color "secondary" _); cbn [bind]; [|split; discriminate..].
  destruct (check_style_color "outline" _); cbn [bind]; [|split; discriminate..]. destruct (check_style_color "back" _); cbn [bind]; [|split; discriminate..]. rewrite app_nil_r. reflexivity.
Qed.
Lemma split_free p s : Forall (fun w => forall c, In c w -> p c = false) (split_on p s).
Proof.
  induction s as [|c s IH]; cbn [split_on]; [repeat constructor; intros ? []|]. destruct (p c) eqn:E; [constructor; [intros ? []|exact IH]|].
  destruct (split_on p s) as [|w ws]; [repeat constructor; intros x [<-|[]]; exact E|]. inversion IH; subst. constructor; [|assumption]. intros x [<-|I]; auto.
Qed.
Lemma parts_iff s parts : between_backslashes s parts <-> parts = split_on is_bs s.
Proof.
  assert (B : forall x, is_bs x = true <-> x = 92%N) by (intros x; apply N.eqb_eq). unfold between_backslashes. split.
  - intros (NE & F & ->). symmetry. apply split_on_join; [now apply B|exact NE|]. eapply Forall_impl; [|exact F]. intros p N. apply forallb_forall. intros c I. apply negb_true_iff, not_true_iff_false. intros E. apply B in E. subst. contradiction.
  - intros ->. split; [apply split_on_nonempty|]. split; [|symmetry; now apply join_split_on]. eapply Forall_impl; [|apply split_free]. intros w H I. apply H in I. discriminate.
Qed.
Lemma up_to_amp_spec s v : up_to_amp s = Some v <-> ~ In 38%N v /\ exists r, s = v ++ lit "&" ++ r.
Proof.
  revert v. induction s as [|c s IH]; intros v; cbn [up_to_amp].
  - split; [discriminate|]. intros (_ & r & E). destruct v; discriminate.
  - destruct (N.eqb_spec c 38) as [->|N].
    + split; [intros [= <-]; split; [intros []|now exists s]|]. intros (F & r & E). destruct v as [|x v]; [reflexivity|]. injection E as <- _. exfalso. apply F. now left.
    + split.
      * destruct (up_to_amp s) as [x|] eqn:U; [|discriminate]. intros [= <-]. destruct (proj1 (IH x) eq_refl) as (F & r & ->). split; [intros [->|I]; [now apply N|contradiction]|]. now exists r.
      * intros (F & r & E). destruct v as [|x v]; [injection E as -> _; now elim N|]. injection E as <- ->. rewrite (proj2 (IH v)); [reflexivity|]. split; [intros I; apply F; now right|now exists r].
Qed.
Lemma up_to_amp_unique a b r q : ~ In 38%N a -> ~ In 38%N b -> a ++ lit "&" ++ r = b ++ lit "&" ++ q -> a = b.
Proof.
  intros A B E. assert (X : up_to_amp (a ++ lit "&" ++ r) = Some a) by (apply up_to_amp_spec; eauto). rewrite E in X. assert (Y : up_to_amp (b ++ lit "&" ++ q) = Some b) by (apply up_to_amp_spec; eauto). congruence.
Qed.
Lemma colour_tag_cases part n v : colour_tag part n v <->
  (exists x, (strip_prefix (lit "c&H") part = Some x \/ strip_prefix (lit "c&h") part = Some x) /\ n = lit "c" /\ up_to_amp x = Some v) \/
  (exists d x, In d [49; 50; 51; 52]%N /\ part = d :: x /\ n = [d; 99]%N /\ exists y, strip_prefix (lit "c&H") x = Some y /\ up_to_amp y = Some v).
Proof.
  unfold colour_tag. split.
  - intros (F & rest & [(-> & [->| ->])|(d & I & -> & ->)]).
    + left. exists (v ++ lit "&" ++ rest). split; [left; reflexivity|]. split; [reflexivity|]. apply up_to_amp_spec. eauto.
    + left. exists (v ++ lit "&" ++ rest). split; [right; reflexivity|]. split; [reflexivity|]. apply up_to_amp_spec. eauto.
    + right. assert (D : exists c, In c [49; 50; 51; 52]%N /\ d = [c]). { destruct I as [<-|[<-|[<-|[<-|[]]]]]; eexists; (split; [|reflexivity]); cbn; tauto. } destruct D as (c & Ic & ->). exists c. eexists. split; [exact Ic|]. split; [reflexivity|]. split; [reflexivity|]. eexists. split; [reflexivity|]. apply up_to_amp_spec. eauto.
  - intros [(x & P & -> & U)|(d & x & I & -> & -> & y & P & U)].
    + apply up_to_amp_spec in U as (F & r & ->). split; [exact F|]. exists r. left. split; [reflexivity|]. destruct P as [P|P]; apply strip_prefix_some in P; [left|right]; rewrite P; reflexivity.
    + apply up_to_amp_spec in U as (F & r & ->). split; [exact F|]. exists r. right. exists [d]. apply strip_prefix_some in P. split; [|split; [reflexivity|rewrite P; reflexivity]]. destruct I as [<-|[<-|[<-|[<-|[]]]]]; cbn; tauto.
Qed.
Lemma colour_tag_unique part n v n' v' : colour_tag part n v -> colour_tag part n' v' -> n = n' /\ v = v'.
Proof.
  intros A B. apply colour_tag_cases in A, B.
  assert (Q : forall x y, strip_prefix (lit "c&H") part = Some x \/ strip_prefix (lit "c&h") part = Some x -> strip_prefix (lit "c&H") part = Some y \/ strip_prefix (lit "c&h") part = Some y -> x = y).
  { intros x y [P|P] [R|R]; try congruence; apply strip_prefix_some in P, R; rewrite P in R; discriminate. }
  assert (D : forall x d r, strip_prefix (lit "c&H") part = Some x \/ strip_prefix (lit "c&h") part = Some x -> In d [49; 50; 51; 52]%N -> part = d :: r -> False).
  { intros x d r [P|P] I E; apply strip_prefix_some in P; rewrite P in E; injection E as <- _; cbn in I; lia. }
  destruct A as [(x & P & -> & U)|(d & x & I & E & -> & y & P & U)], B as [(x' & P' & -> & U')|(d' & x' & I' & E' & -> & y' & P' & U')].
  - rewrite (Q x x' P P') in U. split; [reflexivity|congruence].
  - exfalso. eapply D; eauto.
  - exfalso. eapply D; eauto.
  - rewrite E in E'. injection E' as <- <-. split; [reflexivity|congruence].
Qed.
Lemma color_tag_run part : ~ wide_part part -> exists o, parse_color_tag part = Done o /\ forall n v, o = Some (n, v) <-> colour_tag part n v.
Proof.
  intros W. unfold parse_color_tag.
  assert (G : forall o, (forall n v, colour_tag part n v -> o = Some (n, v)) -> (forall n v, o = Some (n, v) -> colour_tag part n v) -> forall n v, o = Some (n, v) <-> colour_tag part n v) by (intros; split; auto).
  destruct (starts_with (lit "c&H") part || starts_with (lit "c&h") part) eqn:S.
  - unfold starts_with in S. eexists. split; [reflexivity|]. intros n v. rewrite colour_tag_cases. destruct (strip_prefix (lit "c&H") part) as [x|] eqn:P.
    + split.
      * destruct (up_to_amp x) as [w|] eqn:U; [|discriminate]. intros [= <- <-]. left. exists x. auto.
      * intros [(y & [Y|Y] & -> & U)|(d & y & I & E & _)].
        -- injection Y as <-. now rewrite U.
        -- apply strip_prefix_some in P, Y. rewrite P in Y. discriminate.
        -- apply strip_prefix_some in P. rewrite P in E. injection E as <- _. cbn in I. lia.
    + destruct (strip_prefix (lit "c&h") part) as [x|] eqn:P'; [|discriminate]. split.
      * destruct (up_to_amp x) as [w|] eqn:U; [|discriminate]. intros [= <- <-]. left. exists x. auto.
      * intros [(y & [Y|Y] & -> & U)|(d & y & I & E & _)].
        -- discriminate.
        -- injection Y as <-. now rewrite U.
        -- apply strip_prefix_some in P'. rewrite P' in E. injection E as <- _. cbn in I. lia.
  - apply orb_false_iff in S as [S1 S2]. unfold starts_with in S1, S2. destruct (strip_prefix (lit "c&H") part) as [x|] eqn:P1; [discriminate|]. destruct (strip_prefix (lit "c&h") part) as [x|] eqn:P2; [discriminate|].
    destruct (Nat.leb_spec 3 (blen part)) as [L|L].
    + destruct part as [|c r]; [cbn in L; lia|]. assert (C : (c < 128)%N). { apply N.nle_gt. intros H. apply W. exists c, r. auto. }
      assert (E1 : cut (c :: r) 1 = Some ([c], r)). { cbn [cut]. unfold len_utf8. destruct (N.ltb_spec c 128); [|lia]. destruct r; reflexivity. }
      rewrite E1. cbn [or_crash bind]. destruct (one_of ["1"; "2"; "3"; "4"]%string [c] && starts_with (lit "c&H") r) eqn:T.
      * apply andb_true_iff in T as [T1 T2]. eexists. split; [reflexivity|]. intros n v. rewrite colour_tag_cases. unfold starts_with in T2. destruct (strip_prefix (lit "c&H") r) as [y|] eqn:P; [|discriminate].
        assert (I : In c [49; 50; 51; 52]%N). { unfold one_of in T1. apply existsb_exists in T1 as (q & Iq & E). apply str_eqb_eq in E. cbn in Iq. destruct Iq as [<-|[<-|[<-|[<-|[]]]]]; injection E as <-; cbn; tauto. }
        split.
        -- destruct (up_to_amp y) as [w|] eqn:U; [|discriminate]. intros [= <- <-]. right. exists c, r. repeat split; eauto.
        -- intros [(z & [Y|Y] & -> & U)|(d & z & _ & E & -> & y' & P' & U)]; [congruence..|]. injection E as <- <-. rewrite P in P'. injection P' as <-. now rewrite U.
      * eexists. split; [reflexivity|]. intros n v. rewrite colour_tag_cases. split; [discriminate|]. intros [(z & [Y|Y] & -> & U)|(d & z & I & E & -> & y' & P' & U)]; [congruence..|]. injection E as <- <-. exfalso.
        apply andb_false_iff in T as [T|T]; [|unfold starts_with in T; rewrite P' in T; discriminate]. destruct I as [<-|[<-|[<-|[<-|[]]]]]; discriminate.
    + eexists. split; [reflexivity|]. intros n v. rewrite colour_tag_cases. split; [discriminate|]. intros [(z & [Y|Y] & -> & U)|(d & z & I & E & -> & y' & P' & U)]; [congruence..|]. exfalso. apply strip_prefix_some in P'. rewrite E, P' in L. cbn [blen] in L. rewrite blen_app in L. assert (B : blen (lit "c&H") = 3) by reflexivity. rewrite B in L. lia.
Qed.
Lemma wide_crash part : wide_part part -> parse_color_tag part = Crash.
Proof.
  intros (c & r & -> & H & L). unfold parse_color_tag. assert (S : starts_with (lit "c&H") (c :: r) || starts_with (lit "c&h") (c :: r) = false). { apply orb_false_iff. split; apply not_true_iff_false; intros T; apply starts_with_spec in T as [q T]; injection T as -> _; lia. }
  rewrite S. destruct (Nat.leb_spec 3 (blen (c :: r))); [|lia]. cbn [cut]. unfold len_utf8. destruct (N.ltb_spec c 128); [lia|]. destruct (c <? 2048)%N, (c <? 65536)%N; reflexivity.
Qed.
Lemma wide_dec part : wide_part part \/ ~ wide_part part.
Proof.
  destruct part as [|c r]; [right; intros (c & r & E & _); discriminate|]. destruct (N.le_gt_cases 128 c) as [H|H], (Nat.le_gt_cases 3 (blen (c :: r))) as [L|L]; [left; exists c, r; auto|right..]; intros (c' & r' & [= <- <-] & H' & L'); lia.
Qed.
Lemma part_iff part l : check_tag_part part = Done l <-> ~ wide_part part /\ part_report part l.
Proof.
  unfold check_tag_part, part_report. destruct (wide_dec part) as [W|W].
  - split; [|intros [N _]; contradiction]. destruct part as [|c r]; [destruct W as (? & ? & ? & _); discriminate|]. rewrite (wide_crash _ W). discriminate.
  - destruct (color_tag_run part W) as (o & E & H). assert (X : (match part with [] => Done [] | _ :: _ => t <- parse_color_tag part ;; match t with None => Done [] | Some (name, v) => match parse_bgr_color (lit "&H" ++ v ++ lit "&") with Ok _ => Done [] | Err => Done [colour_issue (BadTagColour name v)] | Panic => Crash end end end) = match o with None => Done [] | Some (name, v) => match parse_bgr_color (lit "&H" ++ v ++ lit "&") with Ok _ => Done [] | Err => Done [colour_issue (BadTagColour name v)] | Panic => Crash end end).
    { destruct part as [|c r]; [injection E as <-; reflexivity|]. rewrite E. reflexivity. }
    rewrite X. clear X. destruct o as [[n v]|].
    + pose proof (proj1 (H n v) eq_refl) as T. destruct (colour_cases (lit "&H" ++ v ++ lit "&")) as [(C & q & ->)|(C & ->)].
      * split; [intros [= <-]; split; [exact W|]; right; split; [|reflexivity]; intros n' v' T'; destruct (colour_tag_unique _ _ _ _ _ T T') as [<- <-]; exact C|].
        intros [_ [(n' & v' & T' & C' & _)|[_ ->]]]; [|reflexivity]. destruct (colour_tag_unique _ _ _ _ _ T T') as [<- <-]. contradiction.
      * split; [intros [= <-]; split; [exact W|]; left; exists n, v; auto|]. intros [_ [(n' & v' & T' & C' & ->)|[N ->]]]; [destruct (colour_tag_unique _ _ _ _ _ T T') as [<- <-]; reflexivity|]. exfalso. apply C, (N n v T).
    + split; [intros [= <-]; split; [exact W|]; right; split; [|reflexivity]; intros n v T; apply H in T; discriminate|]. intros [_ [(n & v & T & _)|[_ ->]]]; [apply H in T; discriminate|reflexivity].
Qed.
Lemma tag_iff t l : check_tags (bslash :: tg_name t ++ tg_args t) = Done l <-> tag_colour_report t l.
Proof.
  unfold check_tags, tag_colour_report. change (tl (split_on is_bs (bslash :: tg_name t ++ tg_args t))) with (split_on is_bs (tg_name t ++ tg_args t)).
  rewrite (each_iff _ (fun p l => ~ wide_part p /\ part_report p l)) by (intros x a _; apply part_iff). split.
  - intros I. eexists. split; [now apply parts_iff|]. induction I as [|x a ps r [W R] I [F T]]; [split; constructor|]. split; [now constructor|now constructor].
  - intros (parts & P & F & T). apply parts_iff in P. rewrite <- P. clear P. induction T as [|x a ps r R I IH]; [constructor|]. inversion F; subst. constructor; auto.
Qed.
Lemma colours_iff sections l : check_colors sections = Done l <-> colour_reports (styles_of sections) (events_of sections) l.
Proof.
  unfold check_colors, colour_reports.
  assert (A : forall r, each (fun s => p <- check_style_color "primary" (s_primary s) ;; q <- check_style_color "secondary" (s_secondary s) ;; r <- check_style_color "outline" (s_outlinec s) ;; t <- check_style_color "back" (s_back s) ;; Done (p ++ q ++ r ++ t)) (styles_of sections) = Done r <-> in_turn style_colour_report (styles_of sections) r) by (intros r; apply each_iff; intros x a _; apply style_colours_iff).
  assert (B : forall r, each (fun e => o <- analyze_text (e_text e) ;; match o with None => Done [] | Some ta => each (fun t => check_tags (bslash :: tg_name t ++ tg_args t)) (ta_tags ta) end) (events_of sections) = Done r <-> in_turn (text_report (fun ta => in_turn tag_colour_report (ta_tags ta))) (events_of sections) r).
  { intros r. apply each_iff. intros e a _. unfold text_report, text_is. destruct (analyze_text (e_text e)) as [[ta|]| |]; cbn [bind].
    - rewrite (each_iff _ tag_colour_report) by (intros x b _; apply tag_iff). split; [intros H; left; eauto|]. intros [(ta' & [= <-] & H)|[D _]]; [exact H|discriminate].
    - split; [intros [= <-]; right; auto|]. intros [(ta' & D & _)|[_ ->]]; [discriminate|reflexivity].
    - split; [discriminate|]. intros [(ta' & D & _)|[D _]]; discriminate.
    - split; [discriminate|]. intros [(ta' & D & _)|[D _]]; discriminate. }
  destruct (each _ (styles_of sections)) as [a| |]; cbn [bind].
  - destruct (each _ (events_of sections)) as [b| |]; cbn [bind].
    + split; [intros [= <-]; exists a, b; split; [now apply A|]; split; [now apply B|reflexivity]|]. intros (a' & b' & A' & B' & ->). apply A in A'. apply B in B'. congruence.
    + split; [discriminate|]. intros (a' & b' & A' & B' & ->). apply B in B'. discriminate.
    + split; [discriminate|]. intros (a' & b' & A' & B' & ->). apply B in B'. discriminate.
  - split; [discriminate|]. intros (a' & b' & A' & B' & ->). apply A in A'. discriminate.
  - split; [discriminate|]. intros (a' & b' & A' & B' & ->). apply A in A'. discriminate.
Qed.
Lemma memb_iff x l : memb x l = true <-> In x l.
Proof.
  unfold memb. rewrite existsb_exists. split; [intros (y & I & E); apply str_eqb_eq in E; congruence|]. intros I. exists x. split; [exact I|now apply str_eqb_eq].
Qed.
Lemma missing_iff names sections l : check_styles names sections = Done l <-> in_turn (style_report names) (events_of sections) l.
Proof.
  apply each_iff. intros e a _. unfold style_report. rewrite (when_iff _ (negb (memb (e_style e) names))).
  - destruct (memb (e_style e) names); cbn [negb]; split; congruence.
  - rewrite negb_true_iff, <- not_true_iff_false, memb_iff. reflexivity.
Qed.
Lemma diagnostics_iff sections l : check_diagnostics sections = Done l <-> in_turn (text_report diagnostic_report) (events_of sections) l.
Proof.
  apply each_iff. intros e a _. unfold text_report, text_is, diagnostic_report, diag_finding. destruct (analyze_text (e_text e)) as [[ta|]| |]; cbn [bind].
  - split; [intros [= <-]; left; eauto|]. intros [(ta' & [= <-] & ->)|[D _]]; [reflexivity|discriminate].
  - split; [intros [= <-]; right; auto|]. intros [(ta' & D & _)|[_ ->]]; [discriminate|reflexivity].
  - split; [discriminate|]. intros [(ta' & D & _)|[D _]]; discriminate.
  - split; [discriminate|]. intros [(ta' & D & _)|[D _]]; discriminate.
Qed.
Lemma performance_iff infos l : l = check_performance infos <-> performance_reports infos l.
Proof.
  unfold performance_reports, check_performance.
  match goal with |- context [flat_map ?f infos] => set (F := f) end.
  match goal with |- context [in_turn ?r infos _] => set (R := r) end.
  assert (H : forall r, in_turn R infos r <-> r = flat_map F infos).
  { intros r. apply flat_iff. intros d a. unfold R, F. split.
    - intros (x & y & X & Y & ->). apply (when_iff _ (Nat.ltb 500 (ta_chars (di_text d))) _ _ (Nat.ltb_lt _ _)) in X. apply (when_iff _ (Nat.ltb 20 (List.length (ta_tags (di_text d)))) _ _ (Nat.ltb_lt _ _)) in Y. now rewrite X, Y.
    - intros ->. eexists. eexists. split; [apply (when_iff _ (Nat.ltb 500 (ta_chars (di_text d))) _ _ (Nat.ltb_lt _ _)); reflexivity|]. split; [apply (when_iff _ (Nat.ltb 20 (List.length (ta_tags (di_text d)))) _ _ (Nat.ltb_lt _ _)); reflexivity|]. reflexivity. }
  split.
  - intros ->. eexists. eexists. split; [apply (when_iff _ (Nat.ltb 1000 (List.length infos)) _ _ (Nat.ltb_lt _ _)); reflexivity|]. split; [apply H; reflexivity|reflexivity].
  - intros (a & b & A & B & ->). apply (when_iff _ (Nat.ltb 1000 (List.length infos)) _ _ (Nat.ltb_lt _ _)) in A. apply H in B. now rewrite A, B.
Qed.
Lemma control_iff c : is_control c = true <-> control_char c.
Proof. unfold is_control, control_char. lia. Qed.
Lemma encoding_iff sections l : l = check_encoding sections <-> encoding_reports (events_of sections) (info_of sections) l.
Proof.
  unfold encoding_reports, check_encoding.
  match goal with |- context [flat_map ?f (events_of sections)] => set (F := f) end. match goal with |- context [flat_map ?f (info_of sections)] => set (G := f) end.
  assert (HF : forall r, in_turn event_encoding_report (events_of sections) r <-> r = flat_map F (events_of sections)).
  { intros r. apply flat_iff. intros e a. unfold event_encoding_report, F.
    assert (K1 : existsb (fun c => is_control c && negb (c =? 10)%N && negb (c =? 13)%N && negb (c =? 9)%N) (e_text e) = true <-> exists x, In x (e_text e) /\ control_char x /\ (x <> 9 /\ x <> 10 /\ x <> 13)%N).
    { rewrite existsb_exists. split; intros (x & I & H); exists x; (split; [exact I|]); rewrite <- control_iff in *; destruct (is_control x); [lia|discriminate|lia|destruct H; discriminate]. }
    assert (K2 : existsb (N.eqb 65533) (e_text e) = true <-> In 65533%N (e_text e)). { rewrite existsb_exists. split; [intros (x & I & H); apply N.eqb_eq in H; now subst|]. intros I. exists 65533%N. split; [exact I|reflexivity]. }
    assert (K3 : Nat.ltb 0 (List.length (e_text e)) && Nat.ltb (List.length (e_text e) * 3) (blen (e_text e)) = true <-> 3 * List.length (e_text e) < blen (e_text e)).
    { rewrite andb_true_iff, !Nat.ltb_lt. destruct (e_text e) as [|c q]; cbn; lia. }
    split.
    - intros (x & y & z & X & Y & Z & ->). apply (when_iff _ _ _ _ K1) in X. apply (when_iff _ _ _ _ K2) in Y. apply (when_iff _ _ _ _ K3) in Z. now rewrite X, Y, Z.
    - intros ->. eexists. eexists. eexists. split; [apply (when_iff _ _ _ _ K1); reflexivity|]. split; [apply (when_iff _ _ _ _ K2); reflexivity|]. split; [apply (when_iff _ _ _ _ K3); reflexivity|]. reflexivity. }
  assert (HG : forall r, in_turn info_encoding_report (info_of sections) r <-> r = flat_map G (info_of sections)).
  { intros r. apply flat_iff. intros kv a. unfold info_encoding_report, G. apply when_iff. rewrite existsb_exists. split; intros (x & I & H); exists x; (split; [exact I|]); rewrite <- control_iff in *; destruct (is_control x); [lia|discriminate|lia|destruct H; discriminate]. }
  split.
  - intros ->. eexists. eexists. split; [apply HF; reflexivity|]. split; [apply HG; reflexivity|reflexivity].
  - intros (a & b & A & B & ->). apply HF in A. apply HG in B. now rewrite A, B.
Qed.
Lemma time_bound t v : parse_ass_time t = Ok v -> (v <= u32_max)%N.
Proof.
  intros H. destruct (parse_time_inv t) as [E|(h & m & s & cs & X)]; [congruence|]. destruct (N.le_gt_cases (centis h m s cs) u32_max) as [L|L].
  - assert (parse_ass_time t = time_sum h m s cs) by tauto. rewrite time_sum_ok in * by exact L. congruence.
  - assert (parse_ass_time t = time_sum h m s cs) by tauto. rewrite time_sum_panic in * by exact L. congruence.
Qed.
Lemma short_iff e l : check_event_duration e = Done l <-> times_safe e /\
  ((exists s t, times_are e s t /\ (s <= t < s + 500)%N /\ l = [Lint LHint Accessibility "accessibility" (ShortEvent (t - s))]) \/
   ((forall s t, times_are e s t -> ~ (s <= t < s + 500)%N) /\ l = [])).
Proof.
  unfold check_event_duration, access_issue. destruct (both_times_cases e) as [(S & s & t & T & ->)|[(S & N & ->)|(S & ->)]]; cbn [bind].
  - destruct ((s <=? t) && (t - s <? 500))%N eqn:B.
    + split; [intros [= <-]; split; [exact S|]; left; exists s, t; split; [exact T|]; split; [lia|reflexivity]|]. intros [_ [(s' & t' & T' & _ & ->)|[N _]]]; [destruct (times_unique _ _ _ _ _ T T') as [-> ->]; reflexivity|]. exfalso. apply (N s t T). lia.
    + split; [intros [= <-]; split; [exact S|]; right; split; [|reflexivity]; intros s' t' T'; destruct (times_unique _ _ _ _ _ T T') as [<- <-]; lia|]. intros [_ [(s' & t' & T' & L & _)|[_ ->]]]; [|reflexivity]. destruct (times_unique _ _ _ _ _ T T') as [<- <-]. exfalso. lia.
  - split; [intros [= <-]; split; [exact S|]; right; split; [|reflexivity]; intros s t T; now apply N in T|]. intros [_ [(s & t & T & _)|[_ ->]]]; [now apply N in T|reflexivity].
  - split; [discriminate|]. intros [X _]. contradiction.
Qed.
Lemma fast_iff e l : text_safe e -> check_reading_speed e = Done l <-> times_safe e /\
  ((exists s t ta, times_are e s t /\ text_is e ta /\ too_fast (ta_chars ta) (t - s) /\ l = [Lint LHint Accessibility "accessibility" (FastReading (speed (ta_chars ta) (t - s)))]) \/
   ((forall s t ta, times_are e s t -> text_is e ta -> ~ too_fast (ta_chars ta) (t - s)) /\ l = [])).
Proof.
  intros [o O]. unfold check_reading_speed, access_issue, text_is. rewrite O. destruct (both_times_cases e) as [(S & s & t & T & ->)|[(S & N & ->)|(S & ->)]]; cbn [bind].
  - assert (NO : l = [] -> (forall ta, o = Some ta -> ~ too_fast (ta_chars ta) (t - s)) -> Done [] = Done l <-> times_safe e /\
      ((exists s t ta, times_are e s t /\ Done o = Done (Some ta) /\ too_fast (ta_chars ta) (t - s) /\ l = [Lint LHint Accessibility "accessibility" (FastReading (speed (ta_chars ta) (t - s)))]) \/
       ((forall s t ta, times_are e s t -> Done o = Done (Some ta) -> ~ too_fast (ta_chars ta) (t - s)) /\ l = []))).
    { intros -> H. split; [intros _|reflexivity]. split; [exact S|]. right. split; [|reflexivity]. intros s' t' ta T' [= E]. destruct (times_unique _ _ _ _ _ T T') as [<- <-]. now apply H. }
    assert (NE : (forall ta, o = Some ta -> ~ too_fast (ta_chars ta) (t - s)) -> Done [] = Done l <-> times_safe e /\
      ((exists s t ta, times_are e s t /\ Done o = Done (Some ta) /\ too_fast (ta_chars ta) (t - s) /\ l = [Lint LHint Accessibility "accessibility" (FastReading (speed (ta_chars ta) (t - s)))]) \/
       ((forall s t ta, times_are e s t -> Done o = Done (Some ta) -> ~ too_fast (ta_chars ta) (t - s)) /\ l = []))).
    { intros H. split; [intros [= <-]; now apply NO|]. intros [_ [(s' & t' & ta & T' & [= E] & F & _)|[_ ->]]]; [|reflexivity]. destruct (times_unique _ _ _ _ _ T T') as [<- <-]. exfalso. exact (H ta E F). }
    destruct (N.leb_spec s t) as [L|L].
    + destruct o as [ta|]; cbn [bind]; [|apply NE; discriminate].
      assert (SP : speed (ta_chars ta) (t - s) = reading_speed (ta_chars ta) (t - s)).
      { unfold speed, reading_speed. f_equal. f_equal. destruct (N.leb_spec (N.of_nat (ta_chars ta)) u32_max); [reflexivity|]. unfold u32_max in *. lia. }
      assert (TB : (t <= u32_max)%N) by (destruct T as [_ T]; exact (time_bound _ _ T)).
      assert (TF : (Nat.ltb 0 (ta_chars ta) && (0 <? t - s)%N && f_lt (f_of_N f64 20) (reading_speed (ta_chars ta) (t - s))) = true <-> too_fast (ta_chars ta) (t - s)).
      { rewrite !andb_true_iff, Nat.ltb_lt, N.ltb_lt. split.
        - intros [[C D] F]. apply speed_exact in F; [exact F|lia|exact C].
        - intros F. pose proof F as [D M]. assert (C : 0 < ta_chars ta) by lia. split; [auto|]. apply speed_exact; [lia|exact C|exact F]. }
      destruct (Nat.ltb 0 (ta_chars ta) && (0 <? t - s)%N && f_lt (f_of_N f64 20) (reading_speed (ta_chars ta) (t - s))).
      * pose proof (proj1 TF eq_refl) as F. rewrite <- SP. split; [intros [= <-]; split; [exact S|]; left; exists s, t, ta; auto|]. intros [_ [(s' & t' & ta' & T' & [= <-] & _ & ->)|[N _]]]; [destruct (times_unique _ _ _ _ _ T T') as [-> ->]; reflexivity|]. exfalso. exact (N s t ta T eq_refl F).
      * apply NE. intros ta' [= <-] F. apply TF in F. discriminate.
    + apply NE. intros ta _ [F _]. lia.
  - split; [intros [= <-]; split; [exact S|]; right; split; [|reflexivity]; intros s t ta T; now apply N in T|]. intros [_ [(s & t & ta & T & _)|[_ ->]]]; [now apply N in T|reflexivity].
  - split; [discriminate|]. intros [X _]. contradiction.
Qed.
Lemma long_iff e l : check_text_length e = Done l <-> text_safe e /\
  ((exists ta, text_is e ta /\ 200 < ta_chars ta /\ l = [Lint LHint Accessibility "accessibility" (LongText (ta_chars ta))]) \/
   ((forall ta, text_is e ta -> ta_chars ta <= 200) /\ l = [])).
Proof.
  unfold check_text_length, access_issue, text_is, text_safe. destruct (analyze_text (e_text e)) as [o| |]; cbn [bind].
  - split.
    + intros [= <-]. split; [eauto|]. destruct o as [ta|]; [|right; split; [discriminate|reflexivity]]. destruct (Nat.ltb_spec 200 (ta_chars ta)); [left; exists ta; auto|right; split; [|reflexivity]; intros ta' [= <-]; lia].
    + intros [_ [(ta & [= ->] & L & ->)|[N ->]]]; [destruct (Nat.ltb_spec 200 (ta_chars ta)); [reflexivity|lia]|]. destruct o as [ta|]; [|reflexivity]. specialize (N ta eq_refl). destruct (Nat.ltb_spec 200 (ta_chars ta)); [lia|reflexivity].
  - split; [discriminate|]. intros [[o D] _]. discriminate.
  - split; [discriminate|]. intros [[o D] _]. discriminate.
Qed.
Lemma accessibility_iff sections l : check_accessibility sections = Done l <-> in_turn accessibility_report (events_of sections) l.
Proof.
  apply each_iff. intros e r _. unfold accessibility_report.
  pose proof (short_iff e) as A. pose proof (fast_iff e) as B. pose proof (long_iff e) as C. split.
  - destruct (check_event_duration e) as [a| |]; try discriminate. cbn [bind]. destruct (check_reading_speed e) as [b| |]; try discriminate. cbn [bind]. destruct (check_text_length e) as [c| |]; try discriminate. cbn [bind]. intros [= <-].
    destruct (proj1 (A a) eq_refl) as [S A']. destruct (proj1 (C c) eq_refl) as [X C']. destruct (proj1 (B b X) eq_refl) as [_ B']. split; [exact S|]. split; [exact X|]. exists a, b, c. auto.
  - intros (S & X & a & b & c & A' & B' & C' & ->). rewrite (proj2 (A a)) by auto. cbn [bind]. rewrite (proj2 (B b X)) by auto. cbn [bind]. rewrite (proj2 (C c)) by auto. reflexivity.
Qed.
