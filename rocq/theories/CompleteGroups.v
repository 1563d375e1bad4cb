(* The suggestions of each kind, and their order. *)
From Coq Require Import Sorted.
From Verif Require Import Base BaseLemmas SortLib IncrModel CompleteModel CompleteSpec CompleteProofs.

Definition is_empty (s : str) : bool := match s with [] => true | _ => false end.
Lemma prefix_spec (p q s : str) : p = [] \/ begins q s <-> match p with [] => true | _ => starts_with q s end = true.
Proof. unfold begins. rewrite <- starts_with_spec. destruct p; split; auto; intros [H|H]; [discriminate H|exact H]. Qed.
Lemma starts_bracket c q : starts_with (lit "[") (c :: q) = (c =? 91)%N.
Proof.
  destruct (N.eqb_spec c 91) as [->|N]; [reflexivity|]. apply not_true_is_false. intros H. apply starts_with_spec in H. destruct H as [r H]. injection H as H _. now apply N.
Qed.
Lemma lit_bracket r : lit "[" ++ r = 91%N :: r. Proof. reflexivity. Qed.

Section Groups.
  Variable alnum : char -> bool.
  Variable lower : str -> str.
  Variable cfg : config.
  Variable names : list str.

  (* ---- sections ---- *)
  Definition sec_list (la lb : str) : option (list (string * string)) :=
    match la with
    | [] => match lb with [] => Some section_table | c :: _ => if (c =? 91)%N then None else Some [] end
    | c :: p => if (c =? 91)%N then Some (filter (fun x => match p with [] => true | _ => starts_with (lower p) (lower (skipn 1 (lit (fst x)))) end) section_table) else Some []
    end.
  Lemma sec_list_spec la lb l : sections_for lower la lb l <-> sec_list la lb = Some l.
  Proof.
    assert (M : forall p l, chosen (fun x => p = [] \/ begins (lower p) (lower (tl (lit (fst x))))) section_table l <-> l = filter (fun x => match p with [] => true | _ => starts_with (lower p) (lower (skipn 1 (lit (fst x)))) end) section_table).
    { intros p. apply chosen_filter. intros x. apply prefix_spec. }
    split.
    - intros [Ha Hb|p l' Ha Hc|Hn Hh].
      + now subst.
      + subst la. rewrite lit_bracket. cbn [sec_list]. rewrite N.eqb_refl. apply M in Hc. now subst.
      + unfold sec_list. destruct la as [|c p].
        * destruct lb as [|c q]; [contradiction|]. destruct (N.eqb_spec c 91) as [->|]; [exfalso; apply (Hh q); reflexivity|reflexivity].
        * destruct (N.eqb_spec c 91) as [->|]; [exfalso; apply (Hh (p ++ lb)); reflexivity|reflexivity].
    - unfold sec_list. destruct la as [|c p].
      + destruct lb as [|c q]; [intros E; injection E as <-; now apply s_blank|]. destruct (N.eqb_spec c 91) as [->|N]; [discriminate|]. intros E. injection E as <-. apply s_none; [discriminate|]. intros r Q. rewrite lit_bracket in Q. cbn in Q. congruence.
      + destruct (N.eqb_spec c 91) as [->|N]; intros E; injection E as <-.
        * apply (s_typed lower (91%N :: p) lb p); [reflexivity|now apply M].
        * apply s_none; [discriminate|]. intros r Q. rewrite lit_bracket in Q. cbn in Q. congruence.
  Qed.
  Lemma sections_at la lb sec i t : let c := Context (la ++ lb) (blen la) sec i t in
    (match line c with [] => section_completions lower c | _ => if starts_with (lit "[") (line c) then section_completions lower c else Some [] end) =
    option_map (fun s => number_from 0 (map (pair_entry Section_) s)) (sec_list la lb).
  Proof.
    cbv zeta. cbn [line]. unfold section_completions, sec_list. cbn [line column]. destruct la as [|c p]; cbn [app].
    - destruct lb as [|c q]; [reflexivity|]. rewrite starts_bracket. destruct (N.eqb_spec c 91) as [->|]; reflexivity.
    - rewrite starts_bracket. destruct (N.eqb_spec c 91) as [->|]; [|reflexivity].
      rewrite Nat.min_l by (rewrite (blen_app (91%N :: p) lb : blen (91%N :: p ++ lb) = _); lia).
      assert (S : slice (91%N :: p ++ lb) 1 (blen (91%N :: p)) = Some p) by (exact (slice_app [91%N] p lb)). rewrite S. reflexivity.
  Qed.

  (* ---- fields ---- *)
  Definition fld_list (sec : option str) (la lb : str) : list (string * string) :=
    match sec with
    | Some n => if negb (inside la) && complete_fields cfg then
        filter (fun x => match trim_start (la ++ lb) with [] => true | _ => starts_with (lower (trim_start (la ++ lb))) (lower (lit (fst x))) end) (field_table n) else []
    | None => []
    end.
  Lemma fld_list_spec sec la lb l : fields_for lower cfg sec la lb l <-> l = fld_list sec la lb.
  Proof.
    assert (M : forall n l, chosen (fun x => trim_start (la ++ lb) = [] \/ begins (lower (trim_start (la ++ lb))) (lower (lit (fst x)))) (field_table n) l <-> l = filter (fun x => match trim_start (la ++ lb) with [] => true | _ => starts_with (lower (trim_start (la ++ lb))) (lower (lit (fst x))) end) (field_table n)).
    { intros n. apply chosen_filter. intros x. apply prefix_spec. }
    pose proof (inside_spec la) as I. unfold fld_list. split.
    - intros [n l' -> C N H|D].
      + rewrite C. destruct (inside la); [exfalso; destruct (proj1 I eq_refl) as [y Y]; now apply (N y)|]. now apply M in H.
      + destruct D as [->|[->|Y]]; [reflexivity| |].
        * destruct sec; [|reflexivity]. now rewrite andb_false_r.
        * apply I in Y. rewrite Y. now destruct sec.
    - intros ->. destruct sec as [n|]; [|apply f_none; tauto]. destruct (inside la); [apply f_none; right; right; now apply I|]. cbn [negb andb]. destruct (complete_fields cfg) eqn:C; [|apply f_none; tauto].
      apply (f_some _ _ _ _ _ n); [reflexivity|exact C| |now apply M]. intros y Y. assert (false = true) by (apply I; eauto). discriminate.
  Qed.

  (* ---- tags ---- *)
  Definition tag_list (la : str) : list (string * string * string) :=
    if inside la && complete_tags cfg then
      match tag_at alnum la with
      | Some t => filter (fun x => starts_with t (skipn 1 (lit (fst (fst x))))) tag_table
      | None => match rfind_str (lit "\") la with Some _ => [] | None => tag_table end
      end
    else [].
  Lemma tag_list_spec la l : tags_for alnum cfg la l <-> l = tag_list la.
  Proof.
    assert (M : forall t l, chosen (fun x => begins t (tl (lit (fst (fst x))))) tag_table l <-> l = filter (fun x => starts_with t (skipn 1 (lit (fst (fst x))))) tag_table).
    { intros t. apply chosen_filter. intros x. unfold begins. rewrite <- starts_with_spec. reflexivity. }
    pose proof (inside_spec la) as I. unfold tag_list. split.
    - intros [y t l' C Y T H|y C Y W|y C Y W W'|D].
      + rewrite (proj2 I (ex_intro _ y Y)), C, (tag_at_in alnum la y Y). apply tag_of_spec in T. rewrite T. now apply M.
      + rewrite (proj2 I (ex_intro _ y Y)), C, (tag_at_in alnum la y Y).
        assert (Wy : without 92 y) by (destruct Y as (x & -> & _); apply without_app in W; destruct W as [_ W]; apply without_app in W; tauto).
        rewrite (proj2 (tag_of_none alnum y) Wy). cbn [andb]. change (lit "\") with [92%N]. now rewrite (rfind_no 92 la W).
      + rewrite (proj2 I (ex_intro _ y Y)), C, (tag_at_in alnum la y Y). rewrite (proj2 (tag_of_none alnum y) W). cbn [andb]. change (lit "\") with [92%N].
        pose proof (rfind_one 92 la) as R. destruct (rfind_str [92%N] la) as [p|]; [reflexivity|contradiction].
      + destruct D as [->|D]; [now rewrite andb_false_r|]. destruct (inside la); [|reflexivity]. exfalso. destruct (proj1 I eq_refl) as [y Y]. now apply (D y).
    - intros ->. destruct (complete_tags cfg) eqn:C; [|rewrite andb_false_r; apply t_none; tauto]. rewrite andb_true_r. destruct (inside la) eqn:E.
      + destruct (proj1 I eq_refl) as [y Y]. rewrite (tag_at_in alnum la y Y). destruct (tag_of alnum y) as [t|] eqn:T.
        * apply (t_typed _ _ _ y t); auto; [now apply tag_of_spec|now apply M].
        * apply tag_of_none in T. change (lit "\") with [92%N]. pose proof (rfind_one 92 la) as R. destruct (rfind_str [92%N] la) as [[a b]|].
          -- apply (t_earlier _ _ _ y); auto. intros W. destruct R as [-> (r & -> & _)]. apply W. apply in_or_app. right. now left.
          -- now apply (t_all _ _ _ y).
      + apply t_none. right. intros y Y. assert (false = true) by (apply I; eauto). discriminate.
  Qed.
  Lemma tag_names_plain : forallb (fun x : string * string * string => forallb (fun c => negb (c =? 123)%N) (skipn 1 (lit (fst (fst x))))) tag_table = true.
  Proof. vm_compute. reflexivity. Qed.
  Lemma filter_none {A} (f : A -> bool) l : (forall x, In x l -> f x = false) -> filter f l = [].
  Proof. induction l as [|x l IH]; intros H; [reflexivity|]. cbn [filter]. rewrite (H x (or_introl eq_refl)). apply IH. intros y I. apply H. now right. Qed.
  Lemma filter_every {A} (f : A -> bool) l : (forall x, In x l -> f x = true) -> filter f l = l.
  Proof. induction l as [|x l IH]; intros H; [reflexivity|]. cbn [filter]. rewrite (H x (or_introl eq_refl)). f_equal. apply IH. intros y I. apply H. now right. Qed.
  Lemma tags_at la lb sec : let c := Context (la ++ lb) (blen la) sec (inside la) (tag_at alnum la) in
    (if in_override_tag c && complete_tags cfg then tag_completions c else Some []) = Some (number_from 0 (map tag_entry (tag_list la))).
  Proof.
    cbv zeta. cbn [in_override_tag]. unfold tag_list. destruct (inside la) eqn:I; [|reflexivity]. destruct (complete_tags cfg); [|reflexivity]. cbn [andb]. unfold tag_completions. cbn [current_tag line column].
    destruct (proj1 (inside_spec la) I) as [y Y]. pose proof (tag_at_in alnum la y Y) as T. destruct (tag_at alnum la) as [t|].
    - do 3 f_equal. apply filter_ext. intros x. destruct t; reflexivity.
    - symmetry in T. apply tag_of_none in T. rewrite slice_to_app. cbn [option_map]. change (lit "\") with [92%N]. pose proof (rfind_one 92 la) as R. destruct (rfind_str [92%N] la) as [[a b]|].
      + destruct R as [E (r & -> & W)]. cbn [tl].
        assert (Hr : In 123%N r).
        { destruct Y as (x & Ex & _). assert (In92 : ~ In 92%N (123%N :: y)) by (intros [Q|Q]; [discriminate Q|contradiction]). rewrite Ex in E. change (lit "{" ++ y) with (123%N :: y) in E.
          clear -E In92 W. revert a E. induction x as [|d x IH]; intros a E; destruct a as [|e a]; cbn [app] in E.
          - discriminate E.
          - exfalso. injection E as _ E. apply In92. right. rewrite E. apply in_or_app. right. now left.
          - injection E as _ E. rewrite <- E. apply in_or_app. right. now left.
          - injection E as _ E. now apply (IH a). }
        rewrite filter_none; [reflexivity|]. intros x Ix. destruct r as [|c r]; [contradiction|]. apply not_true_is_false. intros S. apply starts_with_spec in S. destruct S as [q Q].
        pose proof tag_names_plain as P. rewrite forallb_forall in P. specialize (P x Ix). rewrite Q, forallb_forall in P. specialize (P 123%N ltac:(apply in_or_app; now left)). discriminate P.
      + rewrite filter_every by reflexivity. reflexivity.
  Qed.

  (* ---- styles ---- *)
  Definition style_here (sec : option str) (la lb : str) : bool :=
    match sec with
    | Some s => str_eqb s (lit "Events") && (starts_with (lit "Dialogue:") (trim_start (la ++ lb)) || starts_with (lit "Comment:") (trim_start (la ++ lb))) && (List.length (filter (fun x => (x =? 44)%N) la) =? 3)
    | None => false
    end.
  Lemma style_at sec la lb i t : should_complete_style (Context (la ++ lb) (blen la) sec i t) = Some (style_here sec la lb).
  Proof.
    unfold should_complete_style, style_here. cbn [section line column]. destruct sec as [s|]; [|reflexivity]. destruct (str_eqb s (lit "Events")); [|reflexivity].
    cbn [andb]. destruct (starts_with (lit "Dialogue:") (trim_start (la ++ lb)) || starts_with (lit "Comment:") (trim_start (la ++ lb))); [|reflexivity]. now rewrite slice_to_app.
  Qed.
  Lemma commas_none s : List.length (filter (fun x => (x =? 44)%N) s) = 0 <-> without 44 s.
  Proof.
    rewrite length_zero_iff_nil. split.
    - intros H I. assert (Q : In 44%N (filter (fun x => (x =? 44)%N) s)) by (apply filter_In; split; [exact I|reflexivity]). rewrite H in Q. contradiction.
    - intros W. apply filter_none. intros x I. destruct (N.eqb_spec x 44) as [->|]; [contradiction|reflexivity].
  Qed.
  Lemma commas_more s n : List.length (filter (fun x => (x =? 44)%N) s) = S n <-> exists a r, s = a ++ lit "," ++ r /\ without 44 a /\ List.length (filter (fun x => (x =? 44)%N) r) = n.
  Proof.
    split.
    - induction s as [|c s IH]; cbn [filter]; [discriminate|]. destruct (N.eqb_spec c 44) as [->|N].
      + cbn [List.length]. intros E. injection E as E. exists [], s. split; [reflexivity|]. split; [intros []|exact E].
      + intros H. destruct (IH H) as (a & r & -> & W & E). exists (c :: a), r. split; [reflexivity|]. split; [intros [Q|I]; [congruence|contradiction]|exact E].
    - intros (a & r & -> & W & <-). apply commas_none, length_zero_iff_nil in W. rewrite filter_app, W. reflexivity.
  Qed.
  Lemma style_here_spec sec la lb : style_here sec la lb = true <-> at_style sec la lb.
  Proof.
    unfold style_here, at_style, begins. assert (K : (List.length (filter (fun x => (x =? 44)%N) la) =? 3) = true <-> exists a b c d, la = a ++ lit "," ++ b ++ lit "," ++ c ++ lit "," ++ d /\ without 44 a /\ without 44 b /\ without 44 c /\ without 44 d).
    { rewrite Nat.eqb_eq. split.
      - intros H. apply commas_more in H. destruct H as (a & r & -> & Wa & H). apply commas_more in H. destruct H as (b & r2 & -> & Wb & H). apply commas_more in H. destruct H as (c & d & -> & Wc & H). apply commas_none in H. exists a, b, c, d. repeat split; assumption.
      - intros (a & b & c & d & -> & Wa & Wb & Wc & Wd). apply commas_more. eexists a, _. split; [reflexivity|]. split; [exact Wa|]. apply commas_more. eexists b, _. split; [reflexivity|]. split; [exact Wb|]. apply commas_more. eexists c, _. split; [reflexivity|]. split; [exact Wc|]. now apply commas_none. }
    rewrite <- !starts_with_spec, <- K, <- orb_true_iff. destruct sec as [s|]; [|split; [discriminate|intros [H _]; discriminate H]]. rewrite !andb_true_iff, str_eqb_eq. split.
    - intros [[-> H] H2]. repeat split; assumption.
    - intros (E & H & H2). injection E as ->. repeat split; assumption.
  Qed.
  Definition sty_list (sec : option str) (la lb : str) : list str := if style_here sec la lb && complete_styles cfg then names else [].
  Lemma sty_list_spec sec la lb l : styles_for cfg names sec la lb l <-> l = sty_list sec la lb.
  Proof.
    unfold styles_for, sty_list. pose proof (style_here_spec sec la lb) as H. destruct (style_here sec la lb), (complete_styles cfg); cbn [andb]; split.
    - intros [(_ & _ & ->)|[N _]]; [reflexivity|exfalso; apply N; split; [reflexivity|now apply H]].
    - intros ->. left. split; [reflexivity|]. split; [now apply H|reflexivity].
    - intros [(E & _)|[_ ->]]; [discriminate E|reflexivity].
    - intros ->. right. split; [intros [E _]; discriminate E|reflexivity].
    - intros [(_ & A & _)|[_ ->]]; [apply H in A; discriminate A|reflexivity].
    - intros ->. right. split; [intros [_ A]; apply H in A; discriminate A|reflexivity].
    - intros [(_ & A & _)|[_ ->]]; [apply H in A; discriminate A|reflexivity].
    - intros ->. right. split; [intros [_ A]; apply H in A; discriminate A|reflexivity].
  Qed.
End Groups.
