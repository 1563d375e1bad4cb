From Coq Require Import Sorted.
From Verif Require Import Base BaseLemmas SortLib IncrModel CompleteModel CompleteSpec.

Lemma rfind_one c s : match rfind_str [c] s with Some (a, b) => s = a ++ b /\ exists r, b = c :: r /\ without c r | None => without c s end.
Proof.
  induction s as [|x s IH]; cbn [rfind_str]; [intros []|].
  destruct (rfind_str [c] s) as [[a b]|].
  - destruct IH as [-> R]. split; [reflexivity|exact R].
  - destruct (starts_with [c] (x :: s)) eqn:E.
    + apply starts_with_spec in E. destruct E as [r E]. injection E as -> ->. split; [reflexivity|]. exists r. split; [reflexivity|exact IH].
    + intros [Q|I]; [subst x|now apply IH]. assert (starts_with [c] (c :: s) = true) by (apply starts_with_spec; now exists s). congruence.
Qed.
Lemma rfind_last c a r : without c r -> rfind_str [c] (a ++ c :: r) = Some (a, c :: r).
Proof.
  intros W. pose proof (rfind_one c (a ++ c :: r)) as H. destruct (rfind_str [c] (a ++ c :: r)) as [[x y]|].
  - destruct H as [E (r' & -> & W')]. assert (Q : a = x /\ r = r').
    { clear -E W W'. revert x E. induction a as [|d a IH]; intros x E; destruct x as [|e x]; cbn [app] in E.
      - injection E as ->. split; reflexivity.
      - injection E as -> ->. exfalso. apply W. apply in_or_app. right. now left.
      - injection E as -> <-. exfalso. apply W'. apply in_or_app. right. now left.
      - injection E as -> E. destruct (IH x E) as [-> ->]. split; reflexivity. }
    destruct Q as [-> ->]. reflexivity.
  - exfalso. apply H. apply in_or_app. right. now left.
Qed.
Lemma rfind_no c s : without c s -> rfind_str [c] s = None.
Proof.
  intros W. pose proof (rfind_one c s) as H. destruct (rfind_str [c] s) as [[x y]|]; [|reflexivity].
  destruct H as [-> (r & -> & _)]. exfalso. apply W. apply in_or_app. right. now left.
Qed.
Lemma without_app c a b : without c (a ++ b) <-> without c a /\ without c b.
Proof. unfold without. rewrite in_app_iff. tauto. Qed.
Lemma without_dec c s : without c s \/ ~ without c s.
Proof. unfold without. destruct (in_dec N.eq_dec c s); tauto. Qed.
Lemma find_byte c s : find_char (fun x => (x =? c)%N) s = None <-> without c s.
Proof.
  rewrite find_char_none, forallb_forall. unfold without. split.
  - intros H I. specialize (H c I). rewrite N.eqb_refl in H. discriminate H.
  - intros H x I. destruct (N.eqb_spec x c) as [->|]; [contradiction|reflexivity].
Qed.
Lemma header_of_spec l n : header_of l = Some n <-> titled l n.
Proof.
  unfold header_of, titled. split.
  - destruct (starts_with (lit "[") l && ends_with (lit "]") l) eqn:E; [|discriminate]. apply andb_true_iff in E. rewrite starts_with_spec, ends_with_spec in E. destruct E as [[a ->] [b E]].
    intros H. injection H as <-. destruct b as [|x b]; [destruct a; discriminate E|]. injection E as Ex Ea. subst. cbn [lit app tl]. now rewrite removelast_last.
  - intros ->. assert (E : starts_with (lit "[") (lit "[" ++ n ++ lit "]") && ends_with (lit "]") (lit "[" ++ n ++ lit "]") = true).
    { apply andb_true_iff. rewrite starts_with_spec, ends_with_spec. split; [eauto|]. exists (lit "[" ++ n). now rewrite <- app_assoc. }
    rewrite E. cbn [lit app tl]. now rewrite removelast_last.
Qed.
Lemma last_header_spec ls sec : last_header (rev ls) = sec <->
  match sec with
  | Some n => exists before l after, ls = before ++ l :: after /\ titled l n /\ forall l' n', In l' after -> ~ titled l' n'
  | None => forall l' n', In l' ls -> ~ titled l' n'
  end.
Proof.
  revert sec. induction ls as [|x ls IH] using rev_ind; intros sec.
  - cbn. destruct sec as [n|]; split; try discriminate; try reflexivity.
    + intros (b & l & a & E & _). destruct b; discriminate E.
    + intros _ l' n' [].
  - rewrite rev_app_distr. cbn [rev app last_header]. destruct (header_of x) as [m|] eqn:E.
    + apply header_of_spec in E. destruct sec as [n|]; split.
      * intros Q. injection Q as <-. exists ls, x, []. split; [reflexivity|]. split; [exact E|]. intros l' n' [].
      * intros (b & l & a & Q & T & N). destruct a as [|y a] using rev_ind; [|].
        -- apply app_inj_tail in Q. destruct Q as [_ <-]. unfold titled in *. rewrite E in T. injection T as T. apply app_inv_tail in T. now subst.
        -- exfalso. change (b ++ l :: a ++ [y]) with (b ++ (l :: a) ++ [y]) in Q. rewrite app_assoc in Q. apply app_inj_tail in Q. destruct Q as [_ <-]. apply (N x m); [apply in_or_app; right; now left|exact E].
      * discriminate.
      * intros H. exfalso. apply (H x m); [apply in_or_app; right; now left|exact E].
    + assert (X : forall n', ~ titled x n') by (intros n' T; apply header_of_spec in T; congruence). rewrite (IH sec). destruct sec as [n|].
      * split.
        -- intros (b & l & a & -> & T & N). exists b, l, (a ++ [x]). split; [now rewrite <- app_assoc|]. split; [exact T|]. intros l' n' I. apply in_app_iff in I. destruct I as [I|[<-|[]]]; [now apply N|apply X].
        -- intros (b & l & a & Q & T & N). destruct a as [|y a] using rev_ind.
           ++ apply app_inj_tail in Q. destruct Q as [_ <-]. exfalso. now apply (X n).
           ++ change (b ++ l :: a ++ [y]) with (b ++ (l :: a) ++ [y]) in Q. rewrite app_assoc in Q. apply app_inj_tail in Q. destruct Q as [-> <-]. exists b, l, a. split; [reflexivity|]. split; [exact T|]. intros l' n' I. apply N. apply in_or_app. now left.
      * split; intros H l' n' I; [apply in_app_iff in I; destruct I as [I|[<-|[]]]; [now apply H|apply X]|apply H; apply in_or_app; now left].
Qed.
Lemma chosen_filter {A} (P : A -> Prop) (f : A -> bool) : (forall x, P x <-> f x = true) -> forall l m, chosen P l m <-> m = filter f l.
Proof.
  intros H l m. split.
  - induction 1 as [|x l m Hx C IH|x l m Hx C IH]; [reflexivity| |]; cbn [filter].
    + apply H in Hx. now rewrite Hx, IH.
    + destruct (f x) eqn:E; [exfalso; now apply Hx, H|exact IH].
  - intros ->. induction l as [|x l IH]; cbn [filter]; [constructor|]. destruct (f x) eqn:E; [apply ch_yes; [now apply H|exact IH]|apply ch_no; [rewrite H; congruence|exact IH]].
Qed.

(* ---- the cursor ---- *)
Lemma cursor_of content offset a b : cut content offset = Some (a, b) -> exists above la lb below, cursor content offset above la lb below.
Proof.
  intros C. apply cut_spec in C. destruct C as [-> <-].
  assert (A : exists above la, a = above ++ la /\ (above = [] \/ exists x, above = x ++ [10%N]) /\ without 10 la).
  { pose proof (rfind_one 10 a) as H. destruct (rfind_str [10%N] a) as [[x y]|].
    - destruct H as [-> (r & -> & W)]. exists (x ++ [10%N]), r. split; [now rewrite <- app_assoc|]. split; [right; eauto|exact W].
    - exists [], a. split; [reflexivity|]. split; [now left|exact H]. }
  assert (B : exists lb below, b = lb ++ below /\ without 10 lb /\ (below = [] \/ exists x, below = 10%N :: x)).
  { destruct (find_char is_nl b) as [[x y]|] eqn:F.
    - apply find_char_some in F. destruct F as (-> & W & d & r & -> & D). unfold is_nl in D. apply N.eqb_eq in D. subst d. exists x, (10%N :: r). split; [reflexivity|]. split; [|right; eauto].
      intros I. rewrite forallb_forall in W. specialize (W 10%N I). discriminate W.
    - exists b, []. split; [now rewrite app_nil_r|]. split; [now apply find_byte|now left]. }
  destruct A as (above & la & -> & A1 & A2), B as (lb & below & -> & B1 & B2). exists above, la, lb, below. repeat split; auto. now rewrite <- !app_assoc.
Qed.
Definition inside (la : str) : bool := match rfind_str (lit "{") la with Some (_, b) => match find_char (fun c => (c =? 125)%N) b with Some _ => false | None => true end | None => false end.
Definition tag_at (alnum : char -> bool) (la : str) : option str := if inside la then match rfind_str (lit "{") la with Some (_, b) => tag_of alnum (tl b) | None => None end else None.
Lemma context_at alnum content offset above la lb below : cursor content offset above la lb below ->
  get_context alnum content offset = Some (Context (la ++ lb) (blen la) (last_header (rev (lines above))) (inside la) (tag_at alnum la)).
Proof.
  intros (-> & <- & HA & WA & WB & HB). unfold get_context.
  assert (C : cut (above ++ la ++ lb ++ below) (blen (above ++ la)) = Some (above ++ la, lb ++ below)) by (rewrite (app_assoc above la); apply cut_app). rewrite C.
  assert (S : match rfind_str [10%N] (above ++ la) with Some (a, _) => blen a + 1 | None => 0 end = blen above).
  { destruct HA as [->|[x ->]]; [cbn [app]; now rewrite (rfind_no 10 la WA)|]. rewrite <- app_assoc. change ([10%N] ++ la) with (10%N :: la). rewrite (rfind_last 10 x la WA), blen_app. reflexivity. }
  assert (E : match find_char is_nl (lb ++ below) with Some (a, _) => blen (above ++ la) + blen a | None => blen (above ++ la ++ lb ++ below) end = blen above + blen (la ++ lb)).
  { destruct HB as [->|[x ->]].
    - rewrite app_nil_r. assert (Q : find_char is_nl lb = None) by (exact (proj2 (find_byte 10 lb) WB)). rewrite Q. now rewrite !blen_app.
    - rewrite (proj2 (find_char_some is_nl (lb ++ 10%N :: x) lb (10%N :: x))); [rewrite !blen_app; lia|]. split; [reflexivity|]. split; [|exists 10%N, x; split; reflexivity].
      apply find_char_none. now apply find_byte. }
  rewrite S, E. clear S E. rewrite (app_assoc la lb below). rewrite slice_app, slice_to_app. rewrite blen_app.
  replace (blen above + blen la - blen above) with (blen la) by lia. rewrite Nat.min_l by (rewrite blen_app; lia). rewrite slice_to_app. reflexivity.
Qed.
Lemma inside_spec la : inside la = true <-> exists y, in_tags la y.
Proof.
  unfold inside, in_tags. change (lit "{") with [123%N]. pose proof (rfind_one 123 la) as H. destruct (rfind_str [123%N] la) as [[a b]|].
  - destruct H as [-> (r & -> & W)]. destruct (find_char (fun c => (c =? 125)%N) (123%N :: r)) as [p|] eqn:F.
    + split; [discriminate|]. intros (y & x & E & W1 & W2). exfalso. assert (Q : y = r).
      { pose proof (rfind_last 123 a r W) as R1. rewrite E in R1. cbn [app] in R1. rewrite (rfind_last 123 x y W1) in R1. now injection R1. }
      subst y. assert (N : find_char (fun c => (c =? 125)%N) (123%N :: r) = None) by (apply find_byte; intros [Z|Z]; [discriminate Z|contradiction]). congruence.
    + split; [intros _|reflexivity]. apply find_byte in F. exists r, a. split; [reflexivity|]. split; [exact W|]. intros I. apply F. now right.
  - split; [discriminate|]. intros (y & x & -> & _). exfalso. apply H. apply in_or_app. right. now left.
Qed.
Lemma in_tags_find la y : in_tags la y -> exists x, la = x ++ lit "{" ++ y /\ rfind_str (lit "{") la = Some (x, lit "{" ++ y).
Proof. intros (x & -> & W & _). exists x. split; [reflexivity|]. apply (rfind_last 123 x y W). Qed.
Lemma tag_at_in alnum la y : in_tags la y -> tag_at alnum la = tag_of alnum y.
Proof. intros H. unfold tag_at. rewrite (proj2 (inside_spec la) (ex_intro _ y H)). destruct (in_tags_find la y H) as (x & _ & ->). reflexivity. Qed.
Lemma in_tags_one la y y' : in_tags la y -> in_tags la y' -> y = y'.
Proof.
  intros H H'. destruct (in_tags_find la y H) as (x & _ & E). destruct (in_tags_find la y' H') as (x' & _ & E'). rewrite E in E'. now injection E'.
Qed.
Lemma take_drop (p : char -> bool) s : exists r, s = take_while p s ++ r /\ (forall c, In c (take_while p s) -> p c = true) /\ match r with [] => True | c :: _ => p c = false end.
Proof.
  induction s as [|c s IH]; cbn [take_while]; [exists []; repeat split; contradiction|]. destruct (p c) eqn:E.
  - destruct IH as (r & Q & A & B). exists r. cbn [app]. rewrite <- Q. repeat split; [|exact B]. intros x [<-|I]; [exact E|now apply A].
  - exists (c :: s). repeat split; [intros x []|exact E].
Qed.
Lemma take_exact (p : char -> bool) n r : (forall c, In c n -> p c = true) -> match r with [] => True | c :: _ => p c = false end -> take_while p (n ++ r) = n.
Proof.
  induction n as [|c n IH]; intros A B; cbn [app].
  - destruct r as [|c r]; [reflexivity|]. cbn [take_while]. now rewrite B.
  - cbn [take_while]. rewrite (A c (or_introl eq_refl)). f_equal. apply IH; [|exact B]. intros x I. apply A. now right.
Qed.
Lemma tag_of_spec alnum y t : tag_of alnum y = Some t <-> typed_tag alnum y t.
Proof.
  unfold tag_of, typed_tag. change (lit "\") with [92%N]. split.
  - pose proof (rfind_one 92 y) as H. destruct (rfind_str [92%N] y) as [[a b]|]; [|discriminate]. destruct H as [-> (r & -> & W)]. cbn [tl]. intros E. injection E as <-.
    destruct (take_drop alnum r) as (q & Q & A & B). exists a, q. cbn [app]. rewrite <- Q. repeat split; auto.
  - intros (z & r & -> & W & A & B). cbn [app]. rewrite (rfind_last 92 z (t ++ r) W). cbn [tl]. now rewrite take_exact.
Qed.
Lemma tag_of_none alnum y : tag_of alnum y = None <-> without 92 y.
Proof.
  unfold tag_of. change (lit "\") with [92%N]. pose proof (rfind_one 92 y) as H. destruct (rfind_str [92%N] y) as [[a b]|]; split; try discriminate; auto.
  intros W. destruct H as [-> (r & -> & _)]. exfalso. apply W. apply in_or_app. right. now left.
Qed.
