(* The section boundary search used by partial reparsing: which byte offset it
   returns, for every text. *)
From Verif Require Import BaseLemmas ParseTracker ParseLines ParseProofs IncrSpec IncrParseProofs.

(* p occurs in s right after x *)
Definition occurs_at (p x s : str) : Prop := exists y, s = x ++ p ++ y.
Definition is_header (h : str) : Prop := In h [lit "[Script Info]"; lit "[V4+ Styles]"; lit "[Events]"; lit "[Fonts]"; lit "[Graphics]"].
(* k is the byte offset where the line containing the end of s starts *)
Definition line_start_at (s : str) (k : nat) : Prop :=
  exists u v, s = u ++ v /\ ~ In 10%N v /\ (u = [] \/ exists u', u = u' ++ [10%N]) /\ k = blen u.

Lemma starts_with_iff p s : starts_with p s = true <-> exists y, s = p ++ y.
Proof.
  unfold starts_with. revert s. induction p as [|x p IH]; intros s; cbn [strip_prefix].
  - split; [intros _; now exists s|reflexivity].
  - destruct s as [|y s]; [split; [discriminate|intros [? ?]; discriminate]|].
    destruct (N.eqb_spec x y) as [->|N].
    + rewrite IH. split; intros [z Z]; exists z; [now subst|now injection Z].
    + split; [discriminate|]. intros [z Z]. injection Z; congruence.
Qed.
Lemma find_str_first p s a b : find_str p s = Some (a, b) -> s = a ++ b /\ occurs_at p a s /\ forall x, occurs_at p x s -> List.length a <= List.length x.
Proof.
  revert a b. induction s as [|c r IH]; intros a b H; cbn [find_str] in H.
  - destruct (starts_with p []) eqn:E; [|discriminate]. injection H as <- <-.
    apply starts_with_iff in E. split; [reflexivity|]. split; [exact E|intros; cbn; lia].
  - destruct (starts_with p (c :: r)) eqn:E.
    + injection H as <- <-. apply starts_with_iff in E. split; [reflexivity|]. split; [exact E|intros; cbn; lia].
    + destruct (find_str p r) as [[a' b']|] eqn:F; [|discriminate]. injection H as <- <-.
      destruct (IH _ _ eq_refl) as (-> & (y & Y) & M). split; [reflexivity|]. split; [exists y; now rewrite Y|].
      intros x [z Z]. destruct x as [|d x].
      * exfalso. assert (starts_with p (c :: a' ++ b') = true) by (apply starts_with_iff; exists z; exact Z). congruence.
      * injection Z as -> Z. cbn [List.length]. enough (List.length a' <= List.length x) by lia. apply M. now exists z.
Qed.
Lemma find_str_none p s : find_str p s = None <-> forall x, ~ occurs_at p x s.
Proof.
  induction s as [|c r IH]; cbn [find_str].
  - destruct (starts_with p []) eqn:E.
    + split; [discriminate|]. intros H. exfalso. apply starts_with_iff in E. now apply (H []).
    + split; [|reflexivity]. intros _ x [y Y]. destruct x; [|discriminate].
      enough (starts_with p [] = true) by congruence. apply starts_with_iff. now exists y.
  - destruct (starts_with p (c :: r)) eqn:E.
    + split; [discriminate|]. intros H. exfalso. apply starts_with_iff in E. now apply (H []).
    + destruct (find_str p r) as [[a b]|] eqn:F.
      * split; [discriminate|]. intros H. exfalso. destruct (find_str_first _ _ _ _ F) as (_ & [y Y] & _).
        apply (H (c :: a)). exists y. cbn [app]. now rewrite <- Y.
      * split; [|reflexivity]. intros _ x [y Y]. destruct x as [|d x].
        -- enough (starts_with p (c :: r) = true) by congruence. apply starts_with_iff. now exists y.
        -- injection Y as -> Y. apply (proj1 IH eq_refl x). now exists y.
Qed.
Lemma rfind_str_last p s a b : rfind_str p s = Some (a, b) -> s = a ++ b /\ occurs_at p a s /\ forall x, occurs_at p x s -> List.length x <= List.length a.
Proof.
  revert a b. induction s as [|c r IH]; intros a b H; cbn [rfind_str] in H.
  - destruct (starts_with p []) eqn:E; [|discriminate]. injection H as <- <-.
    apply starts_with_iff in E. split; [reflexivity|]. split; [exact E|]. intros x [y Y]. destruct x; [cbn; lia|discriminate].
  - destruct (rfind_str p r) as [[a' b']|] eqn:F.
    + injection H as <- <-. destruct (IH _ _ eq_refl) as (-> & (y & Y) & M). split; [reflexivity|]. split; [exists y; now rewrite Y|].
      intros x [z Z]. destruct x as [|d x]; [cbn; lia|]. injection Z as -> Z. cbn [List.length].
      enough (List.length x <= List.length a') by lia. apply M. now exists z.
    + destruct (starts_with p (c :: r)) eqn:E; [|discriminate]. injection H as <- <-.
      apply starts_with_iff in E. split; [reflexivity|]. split; [exact E|].
      intros x [z Z]. destruct x as [|d x]; [cbn; lia|]. exfalso. injection Z as -> Z.
      clear -F Z. revert x z Z. induction r as [|c r IH]; intros x z Z; cbn [rfind_str] in F.
      * destruct (starts_with p []) eqn:E; [discriminate|]. destruct x; [|discriminate].
        enough (starts_with p [] = true) by congruence. apply starts_with_iff. now exists z.
      * destruct (rfind_str p r) as [[? ?]|]; [discriminate|].
        destruct (starts_with p (c :: r)) eqn:E; [discriminate|]. destruct x as [|e x].
        -- enough (starts_with p (c :: r) = true) by congruence. apply starts_with_iff. now exists z.
        -- injection Z as -> Z. exact (IH eq_refl x z Z).
Qed.
Lemma rfind_str_none p s : rfind_str p s = None -> forall x, ~ occurs_at p x s.
Proof.
  induction s as [|c r IH]; cbn [rfind_str]; intros H x [z Z].
  - destruct (starts_with p []) eqn:E; [discriminate|]. destruct x; [|discriminate].
    enough (starts_with p [] = true) by congruence. apply starts_with_iff. now exists z.
  - destruct (rfind_str p r) as [[? ?]|]; [discriminate|].
    destruct (starts_with p (c :: r)) eqn:E; [discriminate|]. destruct x as [|e x].
    + enough (starts_with p (c :: r) = true) by congruence. apply starts_with_iff. now exists z.
    + injection Z as -> Z. apply (IH eq_refl x). now exists z.
Qed.

Lemma start_of_line_ok s t : exists k, start_of_line (s ++ t) (blen s) = Ok k /\ line_start_at s k.
Proof.
  unfold start_of_line. rewrite slice_to_app. cbn [or_panic res_bind].
  destruct (rfind_str [10%N] s) as [[a b]|] eqn:F.
  - exists (blen a + 1). split; [reflexivity|]. destruct (rfind_str_last _ _ _ _ F) as (_ & [y Y] & M).
    exists (a ++ [10%N]), y. split; [now rewrite <- app_assoc|]. split.
    + intros Hin. apply in_split in Hin. destruct Hin as (y1 & y2 & ->).
      assert (occurs_at [10%N] (a ++ 10%N :: y1) s) as O by (exists y2; rewrite Y, <- !app_assoc; reflexivity).
      apply M in O. rewrite app_length in O. cbn in O. lia.
    + split; [right; now exists a|]. rewrite blen_app. reflexivity.
  - exists 0. split; [reflexivity|]. exists [], s. split; [reflexivity|]. split; [|split; [now left|reflexivity]].
    intros Hin. apply in_split in Hin. destruct Hin as (y1 & y2 & ->).
    apply (rfind_str_none _ _ F y1). now exists y2.
Qed.
Lemma line_start_unique s k k' : line_start_at s k -> line_start_at s k' -> k = k'.
Proof.
  intros (u & v & E & Nv & Hu & ->) (u' & v' & E' & Nv' & Hu' & ->). f_equal.
  assert (Q : forall u v u' v' : str, u ++ v = u' ++ v' -> ~ In 10%N v -> (u' = [] \/ exists w, u' = w ++ [10%N]) -> List.length u' <= List.length u).
  { clear. intros u v u' v' E Nv [->|[w ->]]; [cbn; lia|]. destruct (le_lt_dec (List.length (w ++ [10%N])) (List.length u)) as [|L]; [assumption|exfalso].
    rewrite app_length in L. cbn [List.length] in L. rewrite <- app_assoc in E.
    assert (exists z, w = u ++ z /\ v = z ++ [10%N] ++ v') as (z & -> & ->).
    { clear -E L. revert w E L. induction u as [|c u IH]; intros w E L; [exists w; auto|].
      destruct w as [|d w]; [cbn in L; lia|]. injection E as -> E. cbn in L. destruct (IH w E ltac:(lia)) as (z & -> & ->). exists z. auto. }
    apply Nv. apply in_or_app. right. now left. }
  rewrite E in E'. assert (L : List.length u = List.length u').
  { pose proof (Q _ _ _ _ E' Nv Hu'). pose proof (Q _ _ _ _ (eq_sym E') Nv' Hu). lia. }
  clear -E' L. revert u' E' L. induction u as [|c u IH]; intros [|d u'] E L; try discriminate; [reflexivity|].
  injection E as -> E. f_equal. injection L as L. now apply IH.
Qed.

(* the smallest of the first occurrences *)
Lemma min_fold text : forall hs m,
  match fold_left (fun m h => min_opt m (find_str h text)) hs m with
  | None => m = None /\ forall h, In h hs -> find_str h text = None
  | Some k => (m = Some k \/ exists h a b, In h hs /\ find_str h text = Some (a, b) /\ k = blen a)
              /\ (forall k', m = Some k' -> k <= k') /\ (forall h a b, In h hs -> find_str h text = Some (a, b) -> k <= blen a)
  end.
Proof.
  induction hs as [|h hs IH]; intros m; cbn [fold_left].
  - destruct m as [k|]; [|now split]. split; [now left|]. split; [intros k' E; injection E as ->; lia|intros ? ? ? []].
  - specialize (IH (min_opt m (find_str h text))).
    destruct (fold_left _ hs _) as [k|].
    + destruct IH as (W & L & M). split.
      * destruct W as [W|(h' & a & b & I & F & ->)]; [|right; exists h', a, b; split; [now right|now split]].
        unfold min_opt in W. destruct (find_str h text) as [[a b]|] eqn:F; [|now left].
        injection W as W. destruct m as [j|]; [|right; exists h, a, b; split; [now left|split; congruence]].
        destruct (Nat.min_spec j (blen a)) as [[Q E]|[Q E]]; rewrite E in W; [left; congruence|right; exists h, a, b; split; [now left|split; congruence]].
      * unfold min_opt in L. split.
        -- intros k' ->. destruct (find_str h text) as [[a b]|]; [specialize (L _ eq_refl); lia|now apply L].
        -- intros h' a b [<-|I] F; [|exact (M _ _ _ I F)]. rewrite F in L. specialize (L _ eq_refl). destruct m; lia.
    + destruct IH as [E N]. unfold min_opt in E. destruct (find_str h text) as [[a b]|] eqn:F; [discriminate|]. split; [exact E|].
      intros h' [<-|I]; [exact F|now apply N].
Qed.
Lemma is_header_in h : is_header h <-> In h all_headers.
Proof. reflexivity. Qed.

(* no header after the hint: the section runs to the end of the text;
   otherwise it ends at the start of the line holding the first header. *)
Lemma section_end_none a b : (forall h x, is_header h -> ~ occurs_at h x b) -> find_section_end (a ++ b) (blen a) = Ok (blen (a ++ b)).
Proof.
  intros H. unfold find_section_end. rewrite slice_from_app. cbn [or_panic res_bind].
  pose proof (min_fold b all_headers None) as M. destruct (fold_left _ all_headers None) as [k|]; [|reflexivity].
  exfalso. destruct M as ([E|(h & x & y & I & F & _)] & _); [discriminate|].
  destruct (find_str_first _ _ _ _ F) as (_ & O & _). exact (H h x I O).
Qed.
Lemma prefix_blen (x x' y y' : str) : x ++ y = x' ++ y' -> blen x <= blen x' -> List.length x <= List.length x'.
Proof.
  revert x'. induction x as [|c x IH]; intros x' E L; [cbn; lia|]. destruct x' as [|d x'].
  - cbn [blen] in L. pose proof (len_utf8_pos c). lia.
  - injection E as -> E. cbn [blen] in L. cbn [List.length]. enough (List.length x <= List.length x') by lia. apply IH; [exact E|lia].
Qed.
Lemma section_end_some a b : (exists h x, is_header h /\ occurs_at h x b) ->
  exists h x k, is_header h /\ occurs_at h x b /\ (forall h' x', is_header h' -> occurs_at h' x' b -> List.length x <= List.length x') /\
    line_start_at (a ++ x) k /\ find_section_end (a ++ b) (blen a) = Ok k.
Proof.
  intros (h0 & x0 & I0 & O0). unfold find_section_end. rewrite slice_from_app. cbn [or_panic res_bind].
  pose proof (min_fold b all_headers None) as M. destruct (fold_left _ all_headers None) as [k|].
  - destruct M as ([E|(h & x & y & I & F & ->)] & _ & M); [discriminate|].
    destruct (find_str_first _ _ _ _ F) as (E & O & _).
    rewrite E, app_assoc, <- (blen_app a x). destruct (start_of_line_ok (a ++ x) y) as (k & K & L).
    rewrite <- E. exists h, x, k. split; [exact I|]. split; [exact O|]. split; [|split; [exact L|exact K]].
    intros h' x' I' O'. destruct (find_str h' b) as [[x1 y1]|] eqn:F1; [|exfalso; exact (proj1 (find_str_none _ _) F1 x' O')].
    destruct (find_str_first _ _ _ _ F1) as (E1 & _ & M1). specialize (M1 _ O'). specialize (M _ _ _ I' F1).
    enough (List.length x <= List.length x1) by lia. apply (prefix_blen x x1 y y1); [congruence|lia].
  - exfalso. destruct M as [_ N]. specialize (N h0 I0). exact (proj1 (find_str_none _ _) N x0 O0).
Qed.

(* the header search looks at the text p ++ w ++ q through the window w *)
Lemma header_window p w q t hint : blen p = hint - (blen (section_header t) + 100) -> blen p + blen w = Nat.min hint (blen (p ++ w ++ q)) ->
  ((forall x, ~ occurs_at (section_header t) x w) -> find_section_header_start (p ++ w ++ q) hint t = Err) /\
  ((exists x, occurs_at (section_header t) x w) ->
   exists x k, occurs_at (section_header t) x w /\ (forall x', occurs_at (section_header t) x' w -> List.length x' <= List.length x) /\
     line_start_at (p ++ x) k /\ find_section_header_start (p ++ w ++ q) hint t = Ok k).
Proof.
  intros P W. unfold find_section_header_start. rewrite <- W, <- P, slice_app. cbn [or_panic res_bind]. split.
  - intros N. destruct (rfind_str (section_header t) w) as [[a b]|] eqn:F; [|reflexivity].
    exfalso. destruct (rfind_str_last _ _ _ _ F) as (_ & O & _). exact (N a O).
  - intros [x0 O0]. destruct (rfind_str (section_header t) w) as [[x y]|] eqn:F; [|exfalso; exact (rfind_str_none _ _ F x0 O0)].
    destruct (rfind_str_last _ _ _ _ F) as (E & O & M). destruct (start_of_line_ok (p ++ x) (y ++ q)) as (k & K & L).
    exists x, k. split; [exact O|]. split; [exact M|]. split; [exact L|].
    rewrite <- blen_app. rewrite <- K. f_equal. rewrite E, <- !app_assoc. reflexivity.
Qed.
