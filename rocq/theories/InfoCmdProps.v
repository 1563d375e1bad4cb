(* The script info commands: C95-C97. *)
From Verif Require Import Base BaseLemmas DocModel DocSpec DocProofs ParseModel EventCmdModel EventCmdSpec EventCmdLine
  StyleCmdSpec StyleCmdProps InfoCmdModel InfoCmdSpec InfoCmdProofs.

(* ---- C95: get, set, delete ---- *)
(* Every text with the header is made of a section and what surrounds it, *)
Theorem section_exists : forall t, has info t -> exists A m ls rest, sectioned info t A m ls rest.
Proof. intros t H. apply section_of; [discriminate|exact H]. Qed.
(* and without the header nothing is read or changed. *)
Theorem info_needs_section : forall sz p w d, ~ has info (text d) ->
  get_info p d = Done None /\ get_all_info d = Done None /\ set_info sz p w d = Done (d, None) /\ delete_info sz p d = Done (d, None).
Proof.
  intros sz p w d H. unfold get_info, get_all_info, set_info, delete_info. rewrite (no_section _ H). now repeat split.
Qed.
(* The first line of the name is read, without the white space around. *)
Theorem get_info_first : forall p d A m ls rest o, sectioned info (text d) A m ls rest -> ~ In 10%N p -> silent p (info ++ m) ->
  looked p ls o -> get_info p d = Done (Some (option_map trim o)).
Proof. exact get_looked. Qed.
(* It is set in place, or a line is added below the header; all else stays. *)
Theorem set_info_lines : forall sz p w d A m ls rest ls', handled sz d -> sectioned info (text d) A m ls rest ->
  info_name p -> ~ In 10%N w -> silent p (info ++ m) -> told p w ls ls' -> below ls rest ->
  exists d' r, set_info sz p w d = Done (d', Some r) /\ text d' = A ++ info ++ m ++ put ls' ++ rest /\ handled sz d' /\
    exists x y, m_range r = Some (mkRange x y) /\ n_cursor r = Some y /\
      (slice (text d') x y = Some (info_line p w) \/ slice (text d') x y = Some (info_line p w ++ [10%N])).
Proof.
  intros sz p w d A m ls rest ls' HR S Hp Hw Hm T B. destruct T as [H|X v Y -> H].
  - destruct (set_new sz p w d A m ls rest HR S (proj1 Hp) Hm H B) as (d' & D & T & R & _). exists d'. eexists. split; [exact D|]. split; [exact T|]. split; [exact R|].
    eexists. eexists. split; [reflexivity|]. split; [reflexivity|]. right. rewrite T.
    assert (Q : exists r, put ls ++ rest = 10%N :: r).
    { destruct ls as [|l ls]; [|rewrite put_cons; cbn [app]; eauto]. destruct B as [B|B]; [congruence|].
      destruct S as (_ & _ & _ & _ & [->|[r ->]]); [congruence|]. cbn [put flat_map app]. eauto. }
    destruct Q as [r Q]. replace (A ++ info ++ m ++ put (info_line p w :: ls) ++ rest) with ((A ++ info ++ m ++ [10%N]) ++ (info_line p w ++ [10%N]) ++ r).
    + rewrite (blen_app (A ++ info ++ m ++ [10%N])). apply slice_app.
    + rewrite put_cons. rewrite <- !app_assoc. cbn [app]. rewrite <- !app_assoc. rewrite Q. reflexivity.
  - destruct (set_some sz p w d A m X v Y rest HR S (proj1 Hp) Hm H) as (d' & D & T & R). exists d'. eexists. split; [exact D|]. split; [exact T|]. split; [exact R|].
    eexists. eexists. split; [reflexivity|]. split; [reflexivity|]. left. rewrite T.
    replace (A ++ info ++ m ++ put (X ++ info_line p w :: Y) ++ rest) with ((A ++ info ++ m ++ put X ++ [10%N]) ++ info_line p w ++ (put Y ++ rest)) by flat.
    rewrite (blen_app (A ++ info ++ m ++ put X ++ [10%N])). apply slice_app.
Qed.
(* Then it reads back, and any other name reads as before. *)
Theorem set_then_get : forall sz p w d A m ls rest o, handled sz d -> sectioned info (text d) A m ls rest ->
  info_name p -> info_value w -> silent p (info ++ m) -> looked p ls o -> below ls rest ->
  exists d' r, set_info sz p w d = Done (d', Some r) /\ get_info p d' = Done (Some (Some w)) /\
    forall q o', ~ In 10%N q -> silent q (info ++ m) -> (forall v v', info_line p v <> info_line q v') -> silent q (info_line p w) ->
      looked q ls o' -> get_info q d' = get_info q d.
Proof.
  intros sz p w d A m ls rest o HR S Hp [Hw Ht] Hm L B. destruct (looked_told p ls o w L) as (ls' & T & _).
  destruct (set_told sz p w d A m ls rest ls' HR S Hp Hw Hm T B) as (d' & r & D & S' & _). exists d', r. split; [exact D|]. split.
  - rewrite (get_looked p d' A m ls' rest (Some w) S' (proj1 Hp) Hm (told_looked _ _ _ _ T)). cbn [option_map]. now rewrite tight_trim.
  - intros q o' Hq Sq Dq Nq Lq. rewrite (get_looked q d A m ls rest o' S Hq Sq Lq).
    exact (get_looked q d' A m ls' rest o' S' Hq Sq (told_other _ _ _ _ _ _ T Dq Nq Lq)).
Qed.
(* Names without a colon never start the same line. *)
Theorem names_apart : forall p q, ~ In 58%N p -> ~ In 58%N q -> p <> q -> forall v v', info_line p v <> info_line q v'.
Proof.
  intros p q Hp Hq N v v' E. unfold info_line in E. change (lit ": ") with [58%N; 32%N] in E. apply N. clear N.
  revert q Hq E. induction p as [|c p IH]; intros [|k q] Hq E; [reflexivity| | |].
  - cbn [app] in E. injection E as E _. exfalso. apply Hq. now left.
  - cbn [app] in E. injection E as E _. exfalso. apply Hp. now left.
  - cbn [app] in E. injection E as -> E. f_equal. apply IH; [intros Q; apply Hp; now right|intros Q; apply Hq; now right|exact E].
Qed.
Example set_instance :
  let t := lns ["[Script Info]"; "; a comment"; "Title: old"; "PlayResX: 640"; "[Events]"; "Comment: 0"]%string in
  handled 0 (doc_of t) /\
  (exists A m ls rest, sectioned info t A m ls rest /\ info_name (lit "Title") /\ info_value (lit "A: new one") /\ silent (lit "Title") (info ++ m) /\
    looked (lit "Title") ls (Some (lit "old")) /\ looked (lit "PlayResX") ls (Some (lit "640")) /\ looked (lit "WrapStyle") ls None /\ below ls rest /\
    silent (lit "PlayResX") (info_line (lit "Title") (lit "A: new one"))) /\
  text_after (set_info 0 (lit "Title") (lit "A: new one") (doc_of t)) =
    Some (lns ["[Script Info]"; "; a comment"; "Title: A: new one"; "PlayResX: 640"; "[Events]"; "Comment: 0"]%string) /\
  text_after (set_info 0 (lit "WrapStyle") (lit "2") (doc_of t)) =
    Some (lns ["[Script Info]"; "WrapStyle: 2"; "; a comment"; "Title: old"; "PlayResX: 640"; "[Events]"; "Comment: 0"]%string).
Proof.
  cbv zeta. split; [constructor|]. split; [|split; vm_compute; reflexivity].
  exists [], [], (map lit ["; a comment"; "Title: old"; "PlayResX: 640"]%string), (10%N :: lns ["[Events]"; "Comment: 0"]%string).
  assert (F : forall p l, forallb (fun x => negb (has_b (p ++ lit ": ") x)) l = true -> Forall (silent p) l).
  { intros p l H. apply Forall_forall. intros x Hx. rewrite forallb_forall in H. specialize (H x Hx). apply negb_true_iff in H. now apply has_dec. }
  split; [|split; [|split; [|split; [|split; [|split; [|split; [|split]]]]]]].
  - split; [reflexivity|]. split; [apply first_at_dec; reflexivity|]. split; [easy|]. split; [|right; eexists; reflexivity].
    repeat constructor; try (cbn; intuition discriminate); intros r Q; discriminate Q.
  - split; [cbn; intuition discriminate|intros r Q; discriminate Q].
  - split; [cbn; intuition discriminate|]. apply EventCmdProps.tight_ends. split; reflexivity.
  - apply has_dec. reflexivity.
  - apply lk_some with (X := [lit "; a comment"]) (Y := [lit "PlayResX: 640"]); [reflexivity|]. apply F. reflexivity.
  - apply lk_some with (X := map lit ["; a comment"; "Title: old"]%string) (Y := []); [reflexivity|]. apply F. reflexivity.
  - apply lk_none. apply F. reflexivity.
  - left. discriminate.
  - apply has_dec. reflexivity.
Qed.
(* Deleting takes the line away, *)
Theorem delete_info_line : forall sz p d A m X v Y rest, handled sz d -> sectioned info (text d) A m (X ++ info_line p v :: Y) rest ->
  ~ In 10%N p -> silent p (info ++ m) -> Forall (silent p) X -> below Y rest ->
  exists d' r, delete_info sz p d = Done (d', Some r) /\ text d' = A ++ info ++ m ++ put (X ++ Y) ++ rest /\ handled sz d'.
Proof.
  intros sz p d A m X v Y rest HR S Hp Hm HX B. destruct (delete_some sz p d A m X v Y rest HR S Hp Hm HX) as (d' & D & T & H).
  exists d'. eexists. split; [exact D|]. split; [|exact H]. rewrite T. destruct Y as [|[|c y] [|y2 Y]]; try reflexivity.
  cbn [app]. destruct rest; [|reflexivity]. destruct B; congruence.
Qed.
(* leaving it empty at the end of the text, *)
Theorem delete_info_last : forall sz p d A m X v, handled sz d -> sectioned info (text d) A m (X ++ [info_line p v]) [] ->
  ~ In 10%N p -> silent p (info ++ m) -> Forall (silent p) X ->
  exists d' r, delete_info sz p d = Done (d', Some r) /\ text d' = A ++ info ++ m ++ put (X ++ [[]]) /\ handled sz d'.
Proof.
  intros sz p d A m X v HR S Hp Hm HX. destruct (delete_some sz p d A m X v [] [] HR S Hp Hm HX) as (d' & D & T & H).
  exists d'. eexists. split; [exact D|]. split; [|exact H]. rewrite T. cbn [app]. now rewrite app_nil_r.
Qed.
(* and nothing if there is none.  Then the name is not found. *)
Theorem delete_info_none : forall sz p d A m ls rest, sectioned info (text d) A m ls rest -> ~ In 10%N p -> silent p (info ++ m) ->
  Forall (silent p) ls -> exists r, delete_info sz p d = Done (d, Some r) /\ changed r = false.
Proof. intros. eexists. split; [eapply delete_none; eassumption|reflexivity]. Qed.
Theorem delete_then_get : forall sz p d A m X v Y rest, handled sz d -> sectioned info (text d) A m (X ++ info_line p v :: Y) rest ->
  ~ In 10%N p -> silent p (info ++ m) -> Forall (silent p) X -> Forall (silent p) Y ->
  exists d' r, delete_info sz p d = Done (d', Some r) /\ get_info p d' = Done (Some None).
Proof.
  intros sz p d A m X v Y rest HR S Hp Hm HX HY. destruct (delete_some sz p d A m X v Y rest HR S Hp Hm HX) as (d' & D & T & H).
  exists d'. eexists. split; [exact D|]. pose proof S as (_ & _ & _ & HI & _). apply Forall_app in HI as [I1 I2]. inversion I2 as [|? ? I3 I4]; subst.
  assert (E : inner [] /\ silent p []).
  { split; [split; [easy|intros r Q; discriminate Q]|]. intros (a & b & Q). destruct a; [destruct p; discriminate Q|discriminate Q]. }
  eapply get_none; [eapply section_text; [exact S| |exact T]|exact Hp|exact Hm|].
  - apply Forall_app. split; [exact I1|]. destruct (Y ++ [rest]) as [|[|c x] [|z r]]; try exact I4. constructor; [apply E|constructor].
  - apply Forall_app. split; [exact HX|]. destruct (Y ++ [rest]) as [|[|c x] [|z r]]; try exact HY. constructor; [apply E|constructor].
Qed.
Example delete_instance :
  let t := lns ["[Script Info]"; "Title: old"; "PlayResX: 640"]%string in
  text_after (delete_info 0 (lit "Title") (doc_of t)) = Some (lns ["[Script Info]"; "PlayResX: 640"]%string) /\
  text_after (delete_info 0 (lit "Timer") (doc_of t)) = Some t.
Proof. split; vm_compute; reflexivity. Qed.

(* What does not hold. *)
(* Without a line below the header, the new line goes into the header's. *)
Theorem set_bare_header : forall sz p w d A m, handled sz d -> sectioned info (text d) A m [] [] -> ~ In 10%N p -> silent p (info ++ m) ->
  exists d' r, set_info sz p w d = Done (d', Some r) /\ text d' = A ++ info ++ info_line p w ++ [10%N] ++ m.
Proof. exact set_bare. Qed.
Theorem set_bare_header_refuted : exists t d r, set_info 0 (lit "Title") (lit "x") (doc_of t) = Done (d, Some r) /\ t = lit "[Script Info]" /\
  text d = lit "[Script Info]Title: x" ++ nl /\ get_all_info d = Done (Some []).
Proof. exists (lit "[Script Info]"). eexists. eexists. split; [vm_compute; reflexivity|]. repeat split; vm_compute; reflexivity. Qed.
(* A name that ends another is taken for it, *)
Theorem set_suffix_refuted : exists t, t = lns ["[Script Info]"; "Original Script: me"]%string /\
  get_info (lit "Script") (doc_of t) = Done (Some (Some (lit "me"))) /\
  text_after (set_info 0 (lit "Script") (lit "x") (doc_of t)) = Some (lns ["[Script Info]"; "Original Script: x"]%string) /\
  text_after (delete_info 0 (lit "Script") (doc_of (t ++ lit "Title: a"))) = Some (lns ["[Script Info]"]%string ++ lit "Original Title: a").
Proof. eexists. split; [reflexivity|]. repeat split; vm_compute; reflexivity. Qed.
(* and so are comments, and values. *)
Theorem set_comment_refuted : exists t, t = lns ["[Script Info]"; "; Title: as below"; "Title: real"]%string /\
  get_info (lit "Title") (doc_of t) = Done (Some (Some (lit "as below"))) /\
  text_after (set_info 0 (lit "Title") (lit "x") (doc_of t)) = Some (lns ["[Script Info]"; "; Title: x"; "Title: real"]%string).
Proof. eexists. split; [reflexivity|]. split; vm_compute; reflexivity. Qed.
(* A line without a blank after the colon is not seen: the name comes twice. *)
Theorem set_blank_refuted : exists t, t = lns ["[Script Info]"; "Title:old"]%string /\ get_info (lit "Title") (doc_of t) = Done (Some None) /\
  text_after (set_info 0 (lit "Title") (lit "x") (doc_of t)) = Some (lns ["[Script Info]"; "Title: x"; "Title:old"]%string).
Proof. eexists. split; [reflexivity|]. split; vm_compute; reflexivity. Qed.
(* A new name is not in the history: undo takes back the edit before it, at
   the wrong place. *)
Theorem set_undo_refuted : exists t d1 d2 r d3 r2, t = lns ["[Script Info]"; "Title: abc"]%string /\
  doc_insert 0 (doc_of t) 24 (lit "d") = OOk d1 tt /\ text d1 = lns ["[Script Info]"; "Title: abcd"]%string /\
  set_info 0 (lit "Timer") (lit "100") d1 = Done (d2, Some r) /\ doc_undo d2 = OOk d3 r2 /\
  text d3 = lns ["[Script Info]"; "Timer: 100Title: abcd"]%string.
Proof.
  eexists. eexists. eexists. eexists. eexists. eexists. split; [reflexivity|]. split; [vm_compute; reflexivity|]. split; [vm_compute; reflexivity|].
  split; [vm_compute; reflexivity|]. split; vm_compute; reflexivity.
Qed.

(* ---- C96: all properties ---- *)
Theorem get_all_info_pairs : forall d A m ls rest l, sectioned info (text d) A m ls rest -> pairs ls l -> get_all_info d = Done (Some l).
Proof. exact get_all_pairs. Qed.
Theorem pairs_exist : forall ls, exists l, pairs ls l.
Proof.
  induction ls as [|x ls [l IH]]; [exists []; constructor|]. destruct (find_char (N.eqb 58) x) as [[a b]|] eqn:F.
  - apply find_char_some in F as (-> & Ha & c & b' & -> & Hc). apply N.eqb_eq in Hc as <-. exists ((trim a, trim b') :: l). constructor; [|exact IH].
    intros Q. rewrite forallb_forall in Ha. specialize (Ha _ Q). discriminate Ha.
  - exists l. constructor; [|exact IH]. intros Q. apply find_char_none in F. rewrite forallb_forall in F. specialize (F _ Q). discriminate F.
Qed.
Example get_all_instance :
  let t := lns ["[Script Info]"; "Title: a: b"; ""; "no colon"; "PlayResX:640  "; "[Events]"; "x: y"]%string in
  (exists A m ls rest l, sectioned info t A m ls rest /\ pairs ls l /\ l = [(lit "Title", lit "a: b"); (lit "PlayResX", lit "640")]) /\
  get_all_info (doc_of t) = Done (Some [(lit "Title", lit "a: b"); (lit "PlayResX", lit "640")]).
Proof.
  cbv zeta. split; [|vm_compute; reflexivity].
  exists [], [], (map lit ["Title: a: b"; ""; "no colon"; "PlayResX:640  "]%string), (10%N :: lns ["[Events]"; "x: y"]%string). eexists. split; [|split; [|reflexivity]].
  - split; [reflexivity|]. split; [apply first_at_dec; reflexivity|]. split; [easy|]. split; [|right; eexists; reflexivity].
    repeat constructor; try (cbn; intuition discriminate); intros r Q; discriminate Q.
  - apply (pr_pair (lit "Title") (lit " a: b")); [cbn; intuition discriminate|]. apply pr_none; [easy|]. apply pr_none; [cbn; intuition discriminate|].
    apply (pr_pair (lit "PlayResX") (lit "640  ")); [cbn; intuition discriminate|]. constructor.
Qed.
(* Comments with a colon are listed too. *)
Theorem get_all_comment_refuted : get_all_info (doc_of (lns ["[Script Info]"; "; see: http"; "Title: x"]%string)) =
  Done (Some [(lit "; see", lit "http"); (lit "Title", lit "x")]).
Proof. vm_compute. reflexivity. Qed.

(* ---- C97: typed properties ---- *)
Lemma no_char_silent p l c : In c (p ++ lit ": ") -> ~ In c l -> silent p l.
Proof. intros H N (a & b & ->). apply N. apply in_or_app. right. apply in_or_app. now left. Qed.
Lemma digits_in n c : In c (to_dec n) -> is_digit c = true.
Proof. pose proof (to_dec_digits n) as H. rewrite forallb_forall in H. apply H. Qed.
Lemma dec_value n : info_value (to_dec n).
Proof.
  split; [intros Q; apply digits_in in Q; discriminate Q|].
  assert (D : forall c, is_digit c = true -> is_ws c = false).
  { intros c H. unfold is_digit in H. apply andb_true_iff in H as [H1 H2]. apply N.leb_le in H1, H2.
    assert (C : (c = 48 \/ c = 49 \/ c = 50 \/ c = 51 \/ c = 52 \/ c = 53 \/ c = 54 \/ c = 55 \/ c = 56 \/ c = 57)%N) by lia.
    repeat (destruct C as [->|C]; [reflexivity|]). subst c. reflexivity. }
  split; intros c r E; apply D, (digits_in n); rewrite E; [now left|apply in_elt].
Qed.
Theorem resolution_round_trip : forall sz w h d A m ls rest o1 o2, handled sz d -> sectioned info (text d) A m ls rest -> below ls rest ->
  silent (lit "PlayResX") (info ++ m) -> silent (lit "PlayResY") (info ++ m) ->
  looked (lit "PlayResX") ls o1 -> looked (lit "PlayResY") ls o2 -> (w <= u32_max)%N -> (h <= u32_max)%N ->
  exists d', set_resolution sz w h d = Done (d', Some tt) /\ get_resolution d' = Done (Some (Some (w, h))).
Proof.
  intros sz w h d A m ls rest o1 o2 HR S B M1 M2 L1 L2 Hw Hh.
  assert (N1 : info_name (lit "PlayResX")) by (split; [cbn; intuition discriminate|intros r Q; discriminate Q]).
  assert (N2 : info_name (lit "PlayResY")) by (split; [cbn; intuition discriminate|intros r Q; discriminate Q]).
  assert (A1 : forall v v', info_line (lit "PlayResX") v <> info_line (lit "PlayResY") v') by (apply names_apart; [cbn; intuition discriminate|cbn; intuition discriminate|discriminate]).
  assert (A2 : forall v v', info_line (lit "PlayResY") v <> info_line (lit "PlayResX") v') by (intros v v' Q; exact (A1 v' v (eq_sym Q))).
  assert (K1 : silent (lit "PlayResY") (info_line (lit "PlayResX") (to_dec w))).
  { apply (no_char_silent _ _ 89%N); [cbn; tauto|]. unfold info_line. intros Q. apply in_app_iff in Q as [Q|Q]; [cbn in Q; intuition discriminate|].
    apply in_app_iff in Q as [Q|Q]; [cbn in Q; intuition discriminate|]. apply digits_in in Q. discriminate Q. }
  assert (K2 : silent (lit "PlayResX") (info_line (lit "PlayResY") (to_dec h))).
  { apply (no_char_silent _ _ 88%N); [cbn; tauto|]. unfold info_line. intros Q. apply in_app_iff in Q as [Q|Q]; [cbn in Q; intuition discriminate|].
    apply in_app_iff in Q as [Q|Q]; [cbn in Q; intuition discriminate|]. apply digits_in in Q. discriminate Q. }
  destruct (looked_told _ _ _ (to_dec w) L1) as (ls1 & T1 & E1).
  destruct (set_told sz _ _ d A m ls rest ls1 HR S N1 (proj1 (dec_value w)) M1 T1 B) as (d1 & r1 & D1 & S1 & H1).
  pose proof (told_other _ _ _ _ _ _ T1 A1 K1 L2) as L2'. destruct (looked_told _ _ _ (to_dec h) L2') as (ls2 & T2 & E2).
  destruct (set_told sz _ _ d1 A m ls1 rest ls2 H1 S1 N2 (proj1 (dec_value h)) M2 T2 (or_introl E1)) as (d2 & r2 & D2 & S2 & H2).
  pose proof (told_other _ _ _ _ _ _ T2 A2 K2 (told_looked _ _ _ _ T1)) as L1'.
  exists d2. split.
  - unfold set_resolution. rewrite D1. cbn [and_then bind fst snd]. rewrite D2. reflexivity.
  - unfold get_resolution. rewrite (get_looked _ _ _ _ _ _ _ S2 (proj1 N1) M1 L1'). cbn [option_map bind].
    rewrite (get_looked _ _ _ _ _ _ _ S2 (proj1 N2) M2 (told_looked _ _ _ _ T2)). cbn [option_map bind].
    rewrite !(tight_trim _ (proj2 (dec_value _))). now rewrite !parse_to_dec.
Qed.
Theorem wrap_style_round_trip : forall sz n d A m ls rest o, handled sz d -> sectioned info (text d) A m ls rest -> below ls rest ->
  silent (lit "WrapStyle") (info ++ m) -> looked (lit "WrapStyle") ls o -> (n <= 255)%N ->
  exists d' r, set_wrap_style sz n d = Done (d', Some r) /\ get_wrap_style d' = Done (Some (Some n)).
Proof.
  intros sz n d A m ls rest o HR S B M L Hn.
  assert (N1 : info_name (lit "WrapStyle")) by (split; [cbn; intuition discriminate|intros r Q; discriminate Q]).
  destruct (set_then_get sz _ (to_dec n) d A m ls rest o HR S N1 (dec_value n) M L B) as (d' & r & D & G & _).
  exists d', r. split; [exact D|]. unfold get_wrap_style. rewrite G. cbn [bind]. now rewrite parse_to_dec.
Qed.
Theorem scaled_round_trip : forall sz b d A m ls rest o, handled sz d -> sectioned info (text d) A m ls rest -> below ls rest ->
  silent (lit "ScaledBorderAndShadow") (info ++ m) -> looked (lit "ScaledBorderAndShadow") ls o ->
  exists d' r, set_scaled sz b d = Done (d', Some r) /\ get_scaled d' = Done (Some (Some b)).
Proof.
  intros sz b d A m ls rest o HR S B M L.
  assert (N1 : info_name (lit "ScaledBorderAndShadow")) by (split; [cbn; intuition discriminate|intros r Q; discriminate Q]).
  assert (V : info_value (if b then lit "yes" else lit "no")).
  { destruct b; (split; [cbn; intuition discriminate|apply EventCmdProps.tight_ends; split; reflexivity]). }
  destruct (set_then_get sz _ _ d A m ls rest o HR S N1 V M L B) as (d' & r & D & G & _).
  exists d', r. split; [exact D|]. unfold get_scaled. rewrite G. destruct b; reflexivity.
Qed.
(* "yes" in any case, and "1", mean yes; every other value means no. *)
Theorem scaled_reads : forall d b, get_scaled d = Done (Some (Some b)) <->
  exists v, get_info (lit "ScaledBorderAndShadow") d = Done (Some (Some v)) /\ (b = true <-> map lower v = lit "yes" \/ v = lit "1").
Proof.
  intros d b. unfold get_scaled. destruct (get_info (lit "ScaledBorderAndShadow") d) as [[[v|]|]| |]; cbn [bind option_map]; split; intros H; try discriminate H; try (destruct H as (w & H & _); discriminate H).
  - injection H as <-. exists v. split; [reflexivity|]. rewrite Bool.orb_true_iff, !str_eqb_eq. reflexivity.
  - destruct H as (w & H & B). injection H as <-. do 3 f_equal. apply Bool.eq_iff_eq_true. rewrite B, Bool.orb_true_iff, !str_eqb_eq. reflexivity.
Qed.
Example scaled_reads_case : map (fun v => get_scaled (doc_of (lns ["[Script Info]"; append "ScaledBorderAndShadow: " v]%string))) ["1"; "YES"; "no"; "0"; "2"]%string =
  map (fun b => Done (Some (Some b))) [true; true; false; false; false].
Proof. vm_compute. reflexivity. Qed.
Example typed_instance :
  let t := lns ["[Script Info]"; "PlayResY: 480"; "[Events]"]%string in
  (exists A m ls rest, sectioned info t A m ls rest /\ below ls rest /\ silent (lit "PlayResX") (info ++ m) /\ silent (lit "PlayResY") (info ++ m) /\
    looked (lit "PlayResX") ls None /\ looked (lit "PlayResY") ls (Some (lit "480"))) /\
  text_after (set_resolution 0 1920 1080 (doc_of t)) = Some (lns ["[Script Info]"; "PlayResX: 1920"; "PlayResY: 1080"; "[Events]"]%string).
Proof.
  cbv zeta. split; [|vm_compute; reflexivity]. exists [], [], [lit "PlayResY: 480"], (10%N :: lns ["[Events]"]%string).
  split; [|split; [left; discriminate|]].
  - split; [reflexivity|]. split; [apply first_at_dec; reflexivity|]. split; [easy|]. split; [|right; eexists; reflexivity].
    repeat constructor; try (cbn; intuition discriminate); intros r Q; discriminate Q.
  - split; [apply has_dec; reflexivity|]. split; [apply has_dec; reflexivity|]. split; [apply lk_none; repeat constructor; apply has_dec; reflexivity|].
    now apply lk_some with (X := []) (Y := []).
Qed.

Print Assumptions section_exists.
Print Assumptions info_needs_section.
Print Assumptions get_info_first.
Print Assumptions set_info_lines.
Print Assumptions set_then_get.
Print Assumptions names_apart.
Print Assumptions delete_info_line.
Print Assumptions delete_info_last.
Print Assumptions delete_info_none.
Print Assumptions delete_then_get.
Print Assumptions set_bare_header.
Print Assumptions set_bare_header_refuted.
Print Assumptions set_suffix_refuted.
Print Assumptions set_comment_refuted.
Print Assumptions set_blank_refuted.
Print Assumptions set_undo_refuted.
Print Assumptions get_all_info_pairs.
Print Assumptions pairs_exist.
Print Assumptions get_all_comment_refuted.
Print Assumptions resolution_round_trip.
Print Assumptions wrap_style_round_trip.
Print Assumptions scaled_round_trip.
