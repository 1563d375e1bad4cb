(* One event or style line: what is read, and reading back what was written. *)
From Verif Require Import Base BaseLemmas ParseModel ParseSpec ParseLines.

Lemma comma_spec x : is_comma x = true <-> x = 44%N. Proof. apply N.eqb_eq. Qed.
Lemma comma_not_ws : is_ws 44%N = false. Proof. reflexivity. Qed.

(* ---- trimming a joined list ---- *)
Lemma trim_start_mid a c b : is_ws c = false -> trim_start (a ++ c :: b) = trim_start a ++ c :: b.
Proof.
  intros H. unfold trim_start. induction a as [|x a IH]; cbn [app drop_while]; [rewrite H; reflexivity|].
  destruct (is_ws x); [exact IH|reflexivity].
Qed.
Lemma trim_end_mid a c b : is_ws c = false -> trim_end (a ++ c :: b) = a ++ c :: trim_end b.
Proof.
  intros H. unfold trim_end. induction a as [|x a IH]; cbn [app drop_end].
  - destruct (drop_end is_ws b); [rewrite H|]; reflexivity.
  - rewrite IH. destruct a; reflexivity.
Qed.
Lemma trim_mid a c b : is_ws c = false -> trim (a ++ c :: b) = trim_start a ++ c :: trim_end b.
Proof. intros H. unfold trim. rewrite trim_start_mid, trim_end_mid by exact H. reflexivity. Qed.
Lemma trim_trim_start s : trim (trim_start s) = trim s.
Proof. unfold trim, trim_start. rewrite drop_while_idem. reflexivity. Qed.
Lemma trim_start_all s : forallb is_ws s = true -> trim_start s = [].
Proof. unfold trim_start. induction s as [|c s IH]; [reflexivity|]. cbn. destruct (is_ws c); [exact IH|discriminate]. Qed.
Lemma trim_trim_end s : trim (trim_end s) = trim s.
Proof.
  destruct (drop_end_spec is_ws s) as (b & E & Hb & _). fold (trim_end s) in E.
  destruct (drop_while_spec is_ws (trim_end s)) as (a & Ea & Ha & Hd). fold (trim_start (trim_end s)) in Ea, Hd.
  rewrite E at 2. unfold trim at 2.
  destruct (trim_start (trim_end s)) as [|c r] eqn:Et.
  - rewrite app_nil_r in Ea. rewrite Ea. unfold trim. rewrite (trim_start_all a Ha).
    rewrite trim_start_all by (rewrite forallb_app, Ha, Hb; reflexivity). reflexivity.
  - unfold trim. rewrite Et. rewrite Ea, <- app_assoc. unfold trim_start at 1. rewrite drop_while_app_all by exact Ha.
    cbn [app drop_while]. rewrite Hd. change (c :: r ++ b) with ((c :: r) ++ b). unfold trim_end.
    rewrite drop_end_app_all by exact Hb. reflexivity.
Qed.

Fixpoint trim_last (l : list str) : list str :=
  match l with [] => [] | [v] => [trim_end v] | v :: r => v :: trim_last r end.
Definition trim_ends (l : list str) : list str :=
  match l with [] => [] | [v] => [trim v] | v :: r => trim_start v :: trim_last r end.
Lemma trim_last_ne w r : trim_last (w :: r) <> [].
Proof. destruct r; discriminate. Qed.
Lemma trim_last_join l : l <> [] -> trim_end (join [44%N] l) = join [44%N] (trim_last l).
Proof.
  induction l as [|v [|w r] IH]; [congruence|reflexivity|]. intros _.
  change (join [44%N] (v :: w :: r)) with (v ++ 44%N :: join [44%N] (w :: r)). rewrite trim_end_mid by reflexivity.
  rewrite IH by discriminate. change (trim_last (v :: w :: r)) with (v :: trim_last (w :: r)).
  rewrite (join_cons [44%N] v _ (trim_last_ne w r)). reflexivity.
Qed.
Lemma trim_ends_join l : l <> [] -> trim (join [44%N] l) = join [44%N] (trim_ends l).
Proof.
  destruct l as [|v [|w r]]; [congruence|reflexivity|]. intros _.
  change (join [44%N] (v :: w :: r)) with (v ++ 44%N :: join [44%N] (w :: r)). rewrite trim_mid by reflexivity.
  rewrite trim_last_join by discriminate. change (trim_ends (v :: w :: r)) with (trim_start v :: trim_last (w :: r)).
  rewrite (join_cons [44%N] _ _ (trim_last_ne w r)). reflexivity.
Qed.
Lemma trim_last_length l : List.length (trim_last l) = List.length l.
Proof. induction l as [|v [|w r] IH]; [reflexivity|reflexivity|]. cbn [trim_last List.length] in *. rewrite IH. reflexivity. Qed.
Lemma trim_ends_length l : List.length (trim_ends l) = List.length l.
Proof. destruct l as [|v [|w r]]; [reflexivity|reflexivity|]. cbn [trim_ends]. cbn [List.length]. rewrite trim_last_length. reflexivity. Qed.
Lemma trim_last_trim l : map trim (trim_last l) = map trim l.
Proof.
  induction l as [|v [|w r] IH]; [reflexivity|cbn; rewrite trim_trim_end; reflexivity|].
  cbn [trim_last map] in *. rewrite IH. reflexivity.
Qed.
Lemma trim_ends_trim l : map trim (trim_ends l) = map trim l.
Proof.
  destruct l as [|v [|w r]]; [reflexivity|cbn; rewrite trim_idem; reflexivity|]. cbn [trim_ends map].
  rewrite trim_trim_start. change (trim_start v :: trim_last (w :: r)) with (trim_start v :: trim_last (w :: r)).
  pose proof (trim_last_trim (w :: r)) as H. cbn [map] in H. cbn [map]. rewrite H. reflexivity.
Qed.
Lemma forallb_part p (a b c : str) : forallb p (a ++ b ++ c) = true -> forallb p b = true.
Proof. rewrite !forallb_app. intros H. apply andb_prop in H. destruct H as [_ H]. apply andb_prop in H. tauto. Qed.
Lemma trim_free v : comma_free v -> comma_free (trim v).
Proof. unfold comma_free. intros H. destruct (trim_spec v) as (a & b & E & _). rewrite E in H. exact (forallb_part _ _ _ _ H). Qed.
Lemma trim_start_free v : comma_free v -> comma_free (trim_start v).
Proof.
  unfold comma_free. intros H. destruct (drop_while_spec is_ws v) as (a & E & _). rewrite E, forallb_app in H.
  apply andb_prop in H. tauto.
Qed.
Lemma trim_end_free v : comma_free v -> comma_free (trim_end v).
Proof.
  unfold comma_free. intros H. destruct (drop_end_spec is_ws v) as (a & E & _). rewrite E, forallb_app in H.
  apply andb_prop in H. tauto.
Qed.
Lemma trim_last_free l : Forall comma_free l -> Forall comma_free (trim_last l).
Proof.
  induction l as [|v [|w r] IH]; intros H; [constructor|constructor; [apply trim_end_free, (Forall_inv H)|constructor]|].
  constructor; [exact (Forall_inv H)|apply IH, (Forall_inv_tail H)].
Qed.
Lemma trim_ends_free l : Forall comma_free l -> Forall comma_free (trim_ends l).
Proof.
  destruct l as [|v [|w r]]; intros H; [constructor|constructor; [apply trim_free, (Forall_inv H)|constructor]|].
  constructor; [exact (trim_start_free _ (Forall_inv H))|apply trim_last_free, (Forall_inv_tail H)].
Qed.
Lemma trim_last_init l : removelast (trim_last l) = removelast l.
Proof.
  induction l as [|v [|w r] IH]; [reflexivity|reflexivity|].
  change (trim_last (v :: w :: r)) with (v :: trim_last (w :: r)).
  assert (Hn : trim_last (w :: r) <> []) by (destruct r; discriminate).
  change (removelast (v :: w :: r)) with (v :: removelast (w :: r)). rewrite <- IH.
  destruct (trim_last (w :: r)); [congruence|reflexivity].
Qed.
Lemma trim_ends_init l : Forall comma_free (removelast l) -> Forall comma_free (removelast (trim_ends l)).
Proof.
  destruct l as [|v [|w r]]; intros H; [constructor|constructor|]. cbn [trim_ends].
  assert (Hn : trim_last (w :: r) <> []) by (destruct r; discriminate).
  change (removelast (v :: w :: r)) with (v :: removelast (w :: r)) in H. rewrite <- trim_last_init in H.
  destruct (trim_last (w :: r)) as [|x l]; [congruence|].
  change (removelast (trim_start v :: x :: l)) with (trim_start v :: removelast (x :: l)).
  constructor; [exact (trim_start_free _ (Forall_inv H))|exact (Forall_inv_tail H)].
Qed.

(* ---- splitting ---- *)
Lemma splitn_join n l : l <> [] -> (List.length l = n /\ Forall comma_free (removelast l) \/ List.length l < n /\ Forall comma_free l) ->
  splitn n is_comma (join [44%N] l) = l.
Proof.
  revert n. induction l as [|v [|w r] IH]; intros n Hn H; [congruence| |].
  - cbn [join]. destruct n as [|[|n]]; cbn [List.length] in H.
    + destruct H as [[H _]|[H _]]; lia. + reflexivity.
    + destruct H as [[H _]|[_ H]]; [discriminate|]. cbn [splitn].
      apply Forall_inv in H. apply find_char_none in H. rewrite H. reflexivity.
  - destruct n as [|[|n]]; cbn [List.length] in H; [destruct H as [[H _]|[H _]]; lia|destruct H as [[H _]|[H _]]; lia|].
    change (join [44%N] (v :: w :: r)) with (v ++ 44%N :: join [44%N] (w :: r)).
    assert (Hv : find_char is_comma (v ++ 44%N :: join [44%N] (w :: r)) = Some (v, 44%N :: join [44%N] (w :: r))).
    { apply find_char_some. split; [reflexivity|]. split; [|eexists _, _; split; reflexivity]. destruct H as [[_ H]|[_ H]]; exact (Forall_inv H). }
    change (splitn (S (S n)) is_comma (v ++ 44%N :: join [44%N] (w :: r))) with
      (match find_char is_comma (v ++ 44%N :: join [44%N] (w :: r)) with Some (a, _ :: b) => a :: splitn (S n) is_comma b | _ => [v ++ 44%N :: join [44%N] (w :: r)] end).
    rewrite Hv, IH; [reflexivity|discriminate|]. destruct H as [[H1 H2]|[H1 H2]]; [left|right]; (split; [cbn [List.length] in *; lia|exact (Forall_inv_tail H2)]).
Qed.
Lemma splitn_rejoin n d : 1 <= n -> join [44%N] (splitn n is_comma d) = d /\ splitn n is_comma d <> [] /\
  (List.length (splitn n is_comma d) = n /\ Forall comma_free (removelast (splitn n is_comma d)) \/
   List.length (splitn n is_comma d) < n /\ Forall comma_free (splitn n is_comma d)).
Proof.
  revert d. induction n as [|n IH]; intros d Hn; [lia|]. destruct n as [|n].
  { cbn. repeat split; [discriminate|]. left. split; [reflexivity|constructor]. }
  change (splitn (S (S n)) is_comma d) with (match find_char is_comma d with Some (a, _ :: b) => a :: splitn (S n) is_comma b | _ => [d] end).
  destruct (find_char is_comma d) as [[a b]|] eqn:E.
  - apply find_char_some in E. destruct E as (Ed & Ha & (c & r & -> & Hb)). rename r into b. apply comma_spec in Hb. subst c.
    destruct (IH b) as (J & K & L); [lia|]. rewrite (join_cons [44%N] a _ K), J. split; [symmetry; exact Ed|]. split; [discriminate|].
    destruct L as [[L1 L2]|[L1 L2]]; [left|right].
    + split; [cbn [List.length]; lia|]. destruct (splitn (S n) is_comma b) as [|x l]; [congruence|].
      change (removelast (a :: x :: l)) with (a :: removelast (x :: l)). constructor; assumption.
    + split; [cbn [List.length]; lia|]. constructor; assumption.
  - apply find_char_none in E. cbn [join]. repeat split; [discriminate|]. right. split; [cbn [List.length]; lia|]. constructor; [exact E|constructor].
Qed.
Lemma split_comma_join l : l <> [] -> Forall comma_free l -> split_on is_comma (join [44%N] l) = l.
Proof.
  intros Hn H. apply split_on_join; [reflexivity|exact Hn|]. exact H.
Qed.

(* ---- looking a field up ---- *)
Lemma get_field_cons f fs v vs name : get_field (f :: fs) (v :: vs) name = if eq_nocase f name then trim v else get_field fs vs name.
Proof. unfold get_field. cbn [position]. destruct (eq_nocase f name); [reflexivity|]. destruct (position _ fs); reflexivity. Qed.
Lemma get_field_nil fmt name : get_field fmt [] name = [].
Proof. unfold get_field. destruct (position _ fmt) as [i|]; [destruct i|]; reflexivity. Qed.
Lemma get_under fmt : forall parts vals name, map trim parts = map trim vals -> get_field fmt parts name = under fmt vals name.
Proof.
  induction fmt as [|f fs IH]; intros [|p ps] [|v vs] name H; try discriminate; try reflexivity.
  - rewrite get_field_nil. reflexivity.
  - injection H as H1 H2. rewrite get_field_cons. cbn [under]. rewrite H1, (IH ps vs name H2). reflexivity.
Qed.
Lemma has_named fmt name : has_field fmt name = named fmt name.
Proof. unfold has_field. induction fmt as [|f fs IH]; [reflexivity|]. cbn. rewrite IH. reflexivity. Qed.
Lemma mk_event_of ty fmt parts vals sp : map trim parts = map trim vals -> mk_event ty fmt parts sp = event_of ty fmt vals sp.
Proof.
  intros H. unfold mk_event, event_of, gf, og, opt_field, under_opt. rewrite !has_named, !(get_under fmt parts vals _ H). reflexivity.
Qed.
Lemma mk_style_of parent fmt parts vals sp : map trim parts = map trim vals -> mk_style parent fmt parts sp = style_of parent fmt vals sp.
Proof.
  intros H. unfold mk_style, style_of, gf, og, opt_field, under_opt. rewrite !has_named, !(get_under fmt parts vals _ H). reflexivity.
Qed.

Lemma prefix_type ty d : event_prefix (event_type_str ty ++ lit ":" ++ d) = Some (ty, d).
Proof. destruct ty; vm_compute; reflexivity. Qed.
Lemma prefix_inv line ty d : event_prefix line = Some (ty, d) -> line = event_type_str ty ++ lit ":" ++ d.
Proof.
  unfold event_prefix.
  repeat match goal with |- context [strip_prefix (lit ?p) line] => let E := fresh in destruct (strip_prefix (lit p) line) eqn:E;
    [apply strip_prefix_some in E; intros K; injection K as <- <-; exact E|clear E] end.
  discriminate.
Qed.

Lemma event_parts_trim fmt vals : fmt <> [] -> event_values fmt vals ->
  event_parts fmt (trim (join [44%N] vals)) = trim_ends vals /\ List.length fmt <= List.length vals.
Proof.
  intros Hf. unfold event_values, event_parts. rewrite has_named. destruct (named fmt (lit "Text")).
  - intros [H1 H2]. assert (Hv : vals <> []) by (destruct fmt, vals; cbn in *; congruence).
    rewrite trim_ends_join by exact Hv. rewrite splitn_join; [split; [reflexivity|lia]| |].
    + intros E. apply (f_equal (@List.length str)) in E. rewrite trim_ends_length in E. destruct vals; [congruence|discriminate].
    + left. rewrite trim_ends_length. auto using trim_ends_init.
  - intros [H1 H2]. assert (Hv : vals <> []) by (destruct fmt, vals; cbn in *; [congruence|congruence|lia|discriminate]).
    rewrite trim_ends_join by exact Hv. rewrite splitn_join; [split; [reflexivity|lia]| |].
    + intros E. apply (f_equal (@List.length str)) in E. rewrite trim_ends_length in E. destruct vals; [congruence|discriminate].
    + rewrite trim_ends_length. destruct H2 as [[H2 H3]|[H2 H3]]; [right|left]; auto using trim_ends_init, trim_ends_free.
Qed.
Lemma format_or_ne d fmt : d <> [] -> format_or d fmt <> [].
Proof. destruct fmt; [auto|discriminate]. Qed.
Lemma default_events_ne : default_events_format <> []. Proof. discriminate. Qed.
Lemma default_styles_ne : default_styles_format <> []. Proof. discriminate. Qed.

Lemma event_line_ok ty fmt vals n : event_values (format_or default_events_format fmt) vals ->
  parse_event_line (event_type_str ty ++ lit ":" ++ join [44%N] vals) fmt n =
    Ok (event_of ty (format_or default_events_format fmt) vals (Span 0 0 n 1)).
Proof.
  intros H. unfold parse_event_line. rewrite prefix_type. cbv zeta. fold (format_or default_events_format fmt).
  destruct (event_parts_trim _ _ (format_or_ne _ fmt default_events_ne) H) as [E L]. rewrite E, trim_ends_length.
  destruct (Nat.ltb_spec (List.length vals) (List.length (format_or default_events_format fmt))); [lia|].
  f_equal. apply mk_event_of, trim_ends_trim.
Qed.
Lemma event_line_inv line fmt n e : parse_event_line line fmt n = Ok e -> exists ty vals,
  line = event_type_str ty ++ lit ":" ++ join [44%N] vals /\ event_values (format_or default_events_format fmt) vals /\
  e = event_of ty (format_or default_events_format fmt) vals (Span 0 0 n 1).
Proof.
  unfold parse_event_line. destruct (event_prefix line) as [[ty d]|] eqn:E; [|discriminate]. cbv zeta.
  fold (format_or default_events_format fmt). set (F := format_or default_events_format fmt) in *.
  assert (HF : F <> []) by apply (format_or_ne _ fmt default_events_ne).
  intros H. apply prefix_inv in E.
  set (k := if named F (lit "Text") then List.length F else 10).
  assert (Hk : 1 <= k) by (subst k; destruct (named F (lit "Text")); [destruct F; [congruence|cbn; lia]|lia]).
  destruct (splitn_rejoin k d Hk) as (J & N1 & V). set (vals := splitn k is_comma d) in *.
  assert (Ep : event_parts F (trim d) = trim_ends vals).
  { unfold event_parts. rewrite has_named. replace (if named F (lit "Text") then splitn (List.length F) is_comma (trim d) else splitn 10 is_comma (trim d))
      with (splitn k is_comma (trim d)) by (subst k; destruct (named F (lit "Text")); reflexivity).
    rewrite <- J. rewrite trim_ends_join by exact N1. apply splitn_join.
    + intros E'. apply (f_equal (@List.length str)) in E'. rewrite trim_ends_length in E'. destruct vals; [congruence|discriminate].
    + rewrite trim_ends_length. destruct V as [[V1 V2]|[V1 V2]]; [left|right]; auto using trim_ends_init, trim_ends_free. }
  rewrite Ep, trim_ends_length in H. destruct (Nat.ltb_spec (List.length vals) (List.length F)) as [L|L]; [discriminate|].
  injection H as <-. exists ty, vals. split; [rewrite J; exact E|]. split; [|apply mk_event_of, trim_ends_trim].
  unfold event_values. subst k. destruct (named F (lit "Text")).
  - destruct V as [[V1 V2]|[V1 V2]]; [auto|lia].
  - split; [exact L|]. destruct V as [V|V]; auto.
Qed.

(* ---- writing and reading again ---- *)
Definition spaced (vals : list str) : list str := match vals with [] => [] | v :: r => (32%N :: v) :: r end.
Lemma spaced_join vals : vals <> [] -> lit " " ++ join [44%N] vals = join [44%N] (spaced vals).
Proof. destruct vals as [|v [|w r]]; [congruence|reflexivity|]. reflexivity. Qed.
Lemma spaced_trim vals : map trim (spaced vals) = map trim vals.
Proof. destruct vals; reflexivity. Qed.
Lemma spaced_length vals : List.length (spaced vals) = List.length vals.
Proof. destruct vals; reflexivity. Qed.
Lemma spaced_free vals : Forall comma_free vals -> Forall comma_free (spaced vals).
Proof. destruct vals; [auto|]. intros H. constructor; [exact (Forall_inv H)|exact (Forall_inv_tail H)]. Qed.
Lemma spaced_init vals : Forall comma_free (removelast vals) -> Forall comma_free (removelast (spaced vals)).
Proof.
  destruct vals as [|v [|w r]]; [auto|constructor|]. intros H. cbn [spaced].
  change (removelast (v :: w :: r)) with (v :: removelast (w :: r)) in H.
  change (removelast ((32%N :: v) :: w :: r)) with ((32%N :: v) :: removelast (w :: r)).
  constructor; [exact (Forall_inv H)|exact (Forall_inv_tail H)].
Qed.
Lemma spaced_values fmt vals : event_values fmt vals -> event_values fmt (spaced vals).
Proof.
  unfold event_values. destruct (named fmt (lit "Text")); rewrite spaced_length.
  - intros [H1 H2]. auto using spaced_init.
  - intros [H1 [[H2 H3]|[H2 H3]]]; (split; [exact H1|]); [left|right]; auto using spaced_init, spaced_free.
Qed.
Lemma under_trims fmt : forall vals vals' name, map trim vals = map trim vals' -> under fmt vals name = under fmt vals' name.
Proof. intros vals vals' name H. rewrite <- (get_under fmt vals vals name eq_refl). apply get_under, H. Qed.
Lemma event_of_trims ty fmt vals vals' sp : map trim vals = map trim vals' -> event_of ty fmt vals sp = event_of ty fmt vals' sp.
Proof. intros H. unfold event_of, under_opt. rewrite !(under_trims fmt vals vals' _ H). reflexivity. Qed.
Lemma style_of_trims p fmt vals vals' sp : map trim vals = map trim vals' -> style_of p fmt vals sp = style_of p fmt vals' sp.
Proof. intros H. unfold style_of, under_opt. rewrite !(under_trims fmt vals vals' _ H). reflexivity. Qed.

Lemma str_neq_refl a : eq_nocase a a = true. Proof. unfold eq_nocase. apply str_eqb_refl. Qed.
Lemma under_trim fmt vals name : trim (under fmt vals name) = under fmt vals name.
Proof.
  revert vals. induction fmt as [|f fs IH]; intros [|v vs]; try reflexivity. cbn [under].
  destruct (eq_nocase f name); [apply trim_idem|apply IH].
Qed.
Lemma under_none fmt vals name : named fmt name = false -> under fmt vals name = [].
Proof.
  revert vals. induction fmt as [|f fs IH]; intros [|v vs] H; try reflexivity. cbn [under named] in *.
  destruct (eq_nocase f name); [discriminate|apply IH, H].
Qed.
Lemma under_map (columns fmt : list str) (g : str -> str) name :
  (forall f c, In f fmt -> In c columns -> eq_nocase f c = true -> g f = g c) -> In name columns ->
  under fmt (map g fmt) name = if named fmt name then trim (g name) else [].
Proof.
  intros H Hin. induction fmt as [|f fs IH]; [reflexivity|]. cbn [map under named].
  destruct (eq_nocase f name) eqn:E; cbn [orb].
  - rewrite (H f name (or_introl eq_refl) Hin E). reflexivity.
  - apply IH. intros f' c Hf. apply H. right. exact Hf.
Qed.
Lemma under_free fmt : forall vals name, Forall comma_free (firstn (List.length fmt) vals) -> comma_free (under fmt vals name).
Proof.
  induction fmt as [|f fs IH]; intros [|v vs] name H; try reflexivity. cbn [under]. cbn [List.length firstn] in H.
  destruct (eq_nocase f name); [exact (trim_free _ (Forall_inv H))|apply IH, (Forall_inv_tail H)].
Qed.
Lemma under_app a b : forall vals name, named a name = true -> List.length a <= List.length vals -> under (a ++ b) vals name = under a vals name.
Proof.
  induction a as [|f fs IH]; intros [|v vs] name H L; try discriminate; cbn [List.length] in L; [lia|]. cbn [app under named] in *.
  destruct (eq_nocase f name); [reflexivity|]. apply IH; [exact H|lia].
Qed.
Lemma named_in fmt f : In f fmt -> named fmt f = true.
Proof. induction fmt as [|x r IH]; [contradiction|]. intros [->|H]; cbn; [rewrite str_neq_refl; reflexivity|rewrite IH by exact H; apply orb_true_r]. Qed.
Lemma firstn_init {A} (P : A -> Prop) k (l : list A) : Forall P (removelast l) -> k < List.length l -> Forall P (firstn k l).
Proof.
  intros H Hk. rewrite removelast_firstn_len in H. replace (firstn k l) with (firstn k (firstn (pred (List.length l)) l)).
  - rewrite Forall_forall in *. intros x Hx. apply H. revert Hx. rewrite <- (firstn_skipn k (firstn (pred (List.length l)) l)) at 2. intros Hx. apply in_or_app. auto.
  - rewrite firstn_firstn. f_equal. lia.
Qed.
Lemma under_init_free fmt vals f : In f (removelast fmt) -> List.length vals = List.length fmt -> Forall comma_free (removelast vals) ->
  comma_free (under fmt vals f).
Proof.
  intros Hin L H. assert (Hn : fmt <> []) by (intros ->; contradiction).
  rewrite (app_removelast_last [] Hn) at 1.
  assert (Lf : List.length (removelast fmt) < List.length vals).
  { rewrite L. pose proof (f_equal (@List.length str) (app_removelast_last [] Hn)) as E.
    rewrite app_length in E. cbn in E. lia. }
  rewrite under_app by (try lia; apply named_in, Hin). apply under_free. apply firstn_init; [exact H|exact Lf].
Qed.

Lemma nil_free : comma_free []. Proof. reflexivity. Qed.
Ltac decide_names :=
  repeat (match goal with |- context [str_eqb (lit ?a) (lit ?b)] => let r := eval vm_compute in (str_eqb (lit a) (lit b)) in change (str_eqb (lit a) (lit b)) with r end; cbv iota).
Lemma event_value_column ty fmt vals sp c : In c event_columns -> named fmt c = true ->
  event_value (event_of ty fmt vals sp) c = under fmt vals c.
Proof.
  intros H Hn. unfold event_columns in H. cbn [map In] in H.
  repeat (destruct H as [<-|H]; [unfold event_value; cbn [assoc_str]; decide_names; cbn; unfold under_opt; rewrite ?Hn; reflexivity|]).
  contradiction.
Qed.
Lemma event_value_cases e f : In f event_columns \/ f = lit "Actor" /\ event_value e f = e_name e \/ event_value e f = [].
Proof.
  unfold event_value, assoc_str.
  repeat match goal with |- context [str_eqb f (lit ?a)] => let E := fresh in destruct (str_eqb f (lit a)) eqn:E; [apply str_eqb_eq in E; rewrite E; auto 20; left; cbn [event_columns map In]; auto 20|clear E] end.
  auto.
Qed.
Lemma removelast_map {A B} (g : A -> B) l : removelast (map g l) = map g (removelast l).
Proof. induction l as [|x [|y r] IH]; [reflexivity|reflexivity|]. cbn [map] in *. change (removelast (x :: y :: r)) with (x :: removelast (y :: r)).
  change (removelast (g x :: g y :: map g r)) with (g x :: removelast (g y :: map g r)). rewrite IH. reflexivity. Qed.
Lemma in_removelast {A} (x : A) l : In x (removelast l) -> In x l.
Proof. induction l as [|y [|z r] IH]; [auto|contradiction|]. change (removelast (y :: z :: r)) with (y :: removelast (z :: r)). intros [->|H]; [left; reflexivity|right; apply IH, H]. Qed.

Lemma event_rewrite ty fmt vals sp : fmt <> [] -> spelled event_columns fmt ->
  (In (lit "Actor") fmt -> named fmt (lit "Name") = false) -> event_values fmt vals ->
  let vals' := map (event_value (event_of ty fmt vals sp)) fmt in
  event_values fmt vals' /\ event_of ty fmt vals' sp = event_of ty fmt vals sp.
Proof.
  intros Hf Hs Ha Hv vals'.
  assert (Hfree : forall f, In f fmt -> comma_free (under fmt vals f) -> comma_free (event_value (event_of ty fmt vals sp) f)).
  { intros f Hin Hc. destruct (event_value_cases (event_of ty fmt vals sp) f) as [H|[[-> H]|H]].
    - rewrite event_value_column by (try exact H; apply named_in, Hin). exact Hc.
    - rewrite H. cbn. rewrite (under_none _ _ _ (Ha Hin)). reflexivity.
    - rewrite H. reflexivity. }
  assert (Hinit : List.length vals = List.length fmt -> Forall comma_free (removelast vals) -> Forall comma_free (removelast vals')).
  { intros L H. subst vals'. rewrite removelast_map. apply Forall_forall. intros x Hx. apply in_map_iff in Hx. destruct Hx as (f & <- & Hx).
    apply Hfree; [apply in_removelast, Hx|]. apply under_init_free; assumption. }
  assert (Hlen : List.length vals' = List.length fmt) by apply map_length.
  split.
  - unfold event_values in *. destruct (named fmt (lit "Text")).
    + destruct Hv as [H1 H2]. auto.
    + destruct Hv as [H1 H2]. split; [lia|]. rewrite Hlen.
      destruct (Nat.eq_dec (List.length fmt) 10) as [E|E].
      { right. split; [exact E|]. destruct H2 as [[H2 _]|[H2 H3]]; [lia|]. apply Hinit; [lia|exact H3]. }
      left. split; [lia|]. apply Forall_forall. intros x Hx. apply in_map_iff in Hx. destruct Hx as (f & <- & Hx).
      apply Hfree; [exact Hx|]. apply under_free. destruct H2 as [[H2 H3]|[H2 H3]].
      * rewrite Forall_forall in *. intros y Hy. apply H3. rewrite <- (firstn_skipn (List.length fmt) vals). apply in_or_app. auto.
      * apply firstn_init; [exact H3|lia].
  - assert (Hu : forall c, In c event_columns -> under fmt vals' c = under fmt vals c).
    { intros c Hc. unfold vals'. rewrite (under_map event_columns) by (try assumption; intros f c' Hf' Hc' E'; rewrite (Hs f c' Hf' Hc' E'); reflexivity). destruct (named fmt c) eqn:E.
      - rewrite event_value_column by assumption. apply under_trim.
      - symmetry. apply under_none, E. }
    clearbody vals'. unfold event_of, under_opt. rewrite !Hu by (cbn; auto 20). reflexivity.
Qed.
Lemma event_roundtrip line fmt n e : parse_event_line line fmt n = Ok e -> fmt <> [] -> spelled event_columns fmt ->
  (In (lit "Actor") fmt -> named fmt (lit "Name") = false) ->
  parse_event_line (event_to_string_with e fmt) fmt n = Ok e.
Proof.
  intros H Hf Hs Ha. apply event_line_inv in H. destruct H as (ty & vals & _ & Hv & ->).
  assert (EF : format_or default_events_format fmt = fmt) by (destruct fmt; [congruence|reflexivity]). rewrite EF in *.
  destruct (event_rewrite ty fmt vals (Span 0 0 n 1) Hf Hs Ha Hv) as [H1 H2].
  unfold event_to_string_with. set (e := event_of ty fmt vals (Span 0 0 n 1)) in *. set (vals' := map (event_value e) fmt) in *.
  change (lit ": ") with (lit ":" ++ lit " "). rewrite <- app_assoc. change (lit ",") with [44%N].
  rewrite spaced_join by (unfold vals'; destruct fmt; [congruence|discriminate]).
  change (e_type e) with ty. rewrite event_line_ok by (rewrite EF; apply spaced_values, H1). rewrite EF. f_equal.
  rewrite (event_of_trims ty fmt (spaced vals') vals') by apply spaced_trim. exact H2.
Qed.
Lemma event_default_string e : event_to_string e = event_to_string_with e default_events_format.
Proof.
  unfold event_to_string, event_to_string_with. f_equal.
Qed.
Lemma default_spelled : spelled event_columns default_events_format.
Proof.
  intros f c Hf Hc. revert Hf Hc. unfold default_events_format, event_columns. cbn [map In]. intros Hf Hc.
  repeat (destruct Hf as [<-|Hf]; [repeat (destruct Hc as [<-|Hc]; [vm_compute; congruence|]); contradiction|]). contradiction.
Qed.
Lemma event_roundtrip_default line n e : parse_event_line line [] n = Ok e -> parse_event_line (event_to_string e) [] n = Ok e.
Proof.
  intros H. rewrite event_default_string.
  change (parse_event_line (event_to_string_with e default_events_format) [] n) with (parse_event_line (event_to_string_with e default_events_format) default_events_format n).
  apply (event_roundtrip line); [exact H|discriminate|apply default_spelled|].
  intros K. exfalso. revert K. unfold default_events_format. cbn [map In]. intros K. repeat (destruct K as [K|K]; [vm_compute in K; discriminate|]). exact K.
Qed.

(* an event built in code *)
Ltac decide_nocase :=
  repeat (match goal with |- context [eq_nocase (lit ?a) (lit ?b)] => let r := eval vm_compute in (eq_nocase (lit a) (lit b)) in change (eq_nocase (lit a) (lit b)) with r end; cbv iota).
Lemma event_built e n : e_margin_t e = None -> e_margin_b e = None ->
  Forall comma_free [e_layer e; e_start e; e_end e; e_style e; e_name e; e_margin_l e; e_margin_r e; e_margin_v e; e_effect e] ->
  Forall trimmed [e_layer e; e_start e; e_end e; e_style e; e_name e; e_margin_l e; e_margin_r e; e_margin_v e; e_effect e; e_text e] ->
  parse_event_line (event_to_string e) [] n = Ok (set_event_span e (Span 0 0 n 1)).
Proof.
  intros Ht Hb Hc Htr. unfold event_to_string. change (lit ": ") with (lit ":" ++ lit " "). rewrite <- app_assoc. change (lit ",") with [44%N].
  rewrite spaced_join by discriminate. rewrite event_line_ok.
  - f_equal. rewrite (event_of_trims _ _ (spaced _) _ _ (spaced_trim _)). destruct e as [x1 x2 x3 x4 x5 x6 x7 x8 x9 x10 x11 x12 x13 x14]. cbn [e_type e_layer e_start e_end e_style e_name e_margin_l e_margin_r e_margin_v e_margin_t e_margin_b e_effect e_text] in *. subst.
    unfold event_of, under_opt, set_event_span. cbn [format_or]. unfold default_events_format. cbn [map under named e_type e_layer e_start e_end e_style e_name e_margin_l e_margin_r e_margin_v e_margin_t e_margin_b e_effect e_text]. decide_nocase. cbn [orb].
    repeat match goal with H : Forall trimmed (_ :: _) |- _ => let K := fresh in pose proof (Forall_inv H) as K; apply Forall_inv_tail in H; unfold trimmed in K; rewrite K; clear K end.
    reflexivity.
  - apply spaced_values. unfold event_values. replace (named (format_or default_events_format []) (lit "Text")) with true by (vm_compute; reflexivity).
    split; [reflexivity|exact Hc].
Qed.

(* ---- styles ---- *)
Lemma star_mid a b : star (a ++ 44%N :: b) = star a.
Proof.
  unfold star. rewrite trim_start_mid by reflexivity. destruct (trim_start a) as [|c r]; [reflexivity|].
  unfold starts_with. cbn [lit strip_prefix app]. destruct (N_of_ascii _ =? c)%N; reflexivity.
Qed.
Lemma star_join v r : star (join [44%N] (v :: r)) = star v.
Proof. destruct r as [|w r]; [reflexivity|]. change (join [44%N] (v :: w :: r)) with (v ++ 44%N :: join [44%N] (w :: r)). apply star_mid. Qed.
Lemma parent_none l : style_parent l = (l, None) <-> star l = false \/ comma_free l.
Proof.
  unfold style_parent, star, comma_free. destruct (starts_with (lit "*") (trim_start l)).
  - destruct (find_char is_comma l) as [[a b]|] eqn:E.
    + pose proof E as E'. apply find_char_some in E'. destruct E' as (-> & H1 & (c & r & -> & H2)). split; [discriminate|]. intros [H|H]; [discriminate|].
      rewrite forallb_app in H. cbn in H. rewrite H2 in H. rewrite andb_false_r in H. discriminate.
    + apply find_char_none in E. split; auto.
  - split; auto.
Qed.
Lemma parent_some a b : comma_free a -> star a = true -> style_parent (a ++ 44%N :: b) = (b, Some (parent_name a)).
Proof.
  intros H1 H2. unfold style_parent. fold (star (a ++ 44%N :: b)). rewrite star_mid, H2.
  assert (E : find_char is_comma (a ++ 44%N :: b) = Some (a, 44%N :: b)).
  { apply find_char_some. split; [reflexivity|]. split; [exact H1|]. eexists _, _. split; reflexivity. }
  rewrite E. reflexivity.
Qed.
Lemma parent_cases l : style_parent l = (l, None) \/ exists a b, l = a ++ 44%N :: b /\ comma_free a /\ star a = true.
Proof.
  destruct (star l) eqn:Es; [|left; apply parent_none; auto]. destruct (find_char is_comma l) as [[a b]|] eqn:E.
  - apply find_char_some in E. destruct E as (-> & H1 & (c & r & -> & H2)). apply comma_spec in H2. subst c.
    right. exists a, r. rewrite star_mid in Es. auto.
  - apply find_char_none in E. left. apply parent_none. auto.
Qed.

Lemma style_line_ok fmt vals n : vals <> [] -> Forall comma_free vals -> star (hd [] vals) = false \/ List.length vals = 1 ->
  List.length (format_or default_styles_format fmt) <= List.length vals ->
  parse_style_line (join [44%N] vals) fmt n = Ok (style_of None (format_or default_styles_format fmt) vals (Span 0 0 n 1)).
Proof.
  intros Hv Hc Hp L. unfold parse_style_line.
  assert (E : style_parent (join [44%N] vals) = (join [44%N] vals, None)).
  { apply parent_none. destruct vals as [|v r]; [congruence|]. rewrite star_join. destruct Hp as [Hp|Hp]; [auto|].
    destruct r; [|discriminate]. right. exact (Forall_inv Hc). }
  rewrite E, split_comma_join by assumption. cbv zeta. fold (format_or default_styles_format fmt).
  destruct (Nat.ltb_spec (List.length vals) (List.length (format_or default_styles_format fmt))); [lia|].
  f_equal. apply mk_style_of. reflexivity.
Qed.
Lemma style_line_parent fmt a vals n : vals <> [] -> Forall comma_free vals -> comma_free a -> star a = true ->
  List.length (format_or default_styles_format fmt) <= List.length vals ->
  parse_style_line (join [44%N] (a :: vals)) fmt n = Ok (style_of (Some (parent_name a)) (format_or default_styles_format fmt) vals (Span 0 0 n 1)).
Proof.
  intros Hv Hc Ha Hs L. unfold parse_style_line. rewrite (join_cons [44%N] a vals Hv). change (a ++ [44%N] ++ join [44%N] vals) with (a ++ 44%N :: join [44%N] vals).
  rewrite parent_some by assumption. rewrite split_comma_join by assumption. cbv zeta. fold (format_or default_styles_format fmt).
  destruct (Nat.ltb_spec (List.length vals) (List.length (format_or default_styles_format fmt))); [lia|].
  f_equal. apply mk_style_of. reflexivity.
Qed.
Lemma split_comma d : join [44%N] (split_on is_comma d) = d /\ split_on is_comma d <> [] /\ Forall comma_free (split_on is_comma d).
Proof.
  split; [apply join_split_on, comma_spec|]. split; [apply split_on_nonempty|].
  induction d as [|c d IH]; [repeat constructor|]. cbn [split_on]. destruct (is_comma c) eqn:E; [constructor; [reflexivity|exact IH]|].
  destruct (split_on is_comma d) as [|w ws]; [constructor; [|constructor]; unfold comma_free; cbn; rewrite E; reflexivity|].
  constructor; [|exact (Forall_inv_tail IH)]. unfold comma_free. cbn. rewrite E. exact (Forall_inv IH).
Qed.
Lemma style_line_inv line fmt n s : parse_style_line line fmt n = Ok s -> exists vals, vals <> [] /\ Forall comma_free vals /\
  List.length (format_or default_styles_format fmt) <= List.length vals /\
  (line = join [44%N] vals /\ (star (hd [] vals) = false \/ List.length vals = 1) /\
     s = style_of None (format_or default_styles_format fmt) vals (Span 0 0 n 1) \/
   exists a, line = join [44%N] (a :: vals) /\ comma_free a /\ star a = true /\
     s = style_of (Some (parent_name a)) (format_or default_styles_format fmt) vals (Span 0 0 n 1)).
Proof.
  unfold parse_style_line. destruct (parent_cases line) as [E|(a & b & -> & Ha & Hs)].
  - rewrite E. cbv zeta. fold (format_or default_styles_format fmt).
    destruct (Nat.ltb_spec (List.length (split_on is_comma line)) (List.length (format_or default_styles_format fmt))) as [L|L]; [discriminate|].
    intros H. injection H as <-. destruct (split_comma line) as (J & N1 & F). exists (split_on is_comma line). split; [exact N1|]. split; [exact F|].
    split; [exact L|]. left. split; [symmetry; exact J|]. split; [|apply mk_style_of; reflexivity].
    apply parent_none in E. destruct (split_on is_comma line) as [|v r] eqn:Es; [congruence|]. cbn [hd].
    destruct E as [E|E].
    + rewrite <- J, star_join in E. auto.
    + rewrite split_on_none in Es by exact E. injection Es as <- <-. auto.
  - rewrite parent_some by assumption. cbv zeta. fold (format_or default_styles_format fmt).
    destruct (Nat.ltb_spec (List.length (split_on is_comma b)) (List.length (format_or default_styles_format fmt))) as [L|L]; [discriminate|].
    intros H. injection H as <-. destruct (split_comma b) as (J & N1 & F). exists (split_on is_comma b). split; [exact N1|]. split; [exact F|].
    split; [exact L|]. right. exists a. rewrite (join_cons [44%N] a _ N1), J. split; [reflexivity|]. repeat split; auto. apply mk_style_of. reflexivity.
Qed.

Lemma style_value_column p fmt vals sp c : In c style_columns -> named fmt c = true ->
  style_value (style_of p fmt vals sp) c = under fmt vals c.
Proof.
  intros H Hn. unfold style_columns in H. cbn [map In] in H.
  repeat (destruct H as [<-|H]; [unfold style_value; cbn [assoc_str]; decide_names; cbn; unfold under_opt; rewrite ?Hn; reflexivity|]).
  contradiction.
Qed.
Lemma style_value_cases s f : In f style_columns \/ f = lit "TertiaryColour" /\ style_value s f = s_outlinec s \/
  f = lit "Strikeout" /\ style_value s f = s_strikeout s \/ style_value s f = [].
Proof.
  unfold style_value, assoc_str.
  repeat match goal with |- context [str_eqb f (lit ?a)] => let E := fresh in destruct (str_eqb f (lit a)) eqn:E; [apply str_eqb_eq in E; rewrite E; auto 30; left; cbn [style_columns map In]; auto 30|clear E] end.
  auto.
Qed.
Lemma named_nocase fmt a b : eq_nocase a b = true -> named fmt a = named fmt b.
Proof.
  unfold eq_nocase. intros H. apply str_eqb_eq in H. induction fmt as [|f fs IH]; [reflexivity|]. cbn [named]. unfold eq_nocase. rewrite H, IH. reflexivity.
Qed.
Lemma style_rewrite fmt vals sp : fmt <> [] -> spelled_style fmt ->
  (In (lit "TertiaryColour") fmt -> named fmt (lit "OutlineColour") = false) ->
  Forall comma_free vals -> star (hd [] vals) = false \/ List.length vals = 1 -> List.length fmt <= List.length vals ->
  let vals' := map (style_value (style_of None fmt vals sp)) fmt in
  Forall comma_free vals' /\ (star (hd [] vals') = false \/ List.length vals' = 1) /\ style_of None fmt vals' sp = style_of None fmt vals sp.
Proof.
  intros Hf Hs Ht Hc Hp L vals'.
  assert (Hall : Forall comma_free (firstn (List.length fmt) vals)).
  { rewrite Forall_forall in *. intros y Hy. apply Hc. rewrite <- (firstn_skipn (List.length fmt) vals). apply in_or_app. auto. }
  assert (Hval : forall f, In f fmt -> style_value (style_of None fmt vals sp) f = [] \/ style_value (style_of None fmt vals sp) f = under fmt vals f).
  { intros f Hin. destruct (style_value_cases (style_of None fmt vals sp) f) as [H|[[-> H]|[[-> H]|H]]].
    - right. apply style_value_column; [exact H|apply named_in, Hin].
    - left. rewrite H. cbn. rewrite (under_none _ _ _ (Ht Hin)). reflexivity.
    - right. rewrite H. cbn [style_of s_strikeout]. clear. revert vals. induction fmt as [|f fs IH]; intros [|v vs]; try reflexivity. cbn [under].
      rewrite IH. unfold eq_nocase. replace (map ascii_lower (lit "StrikeOut")) with (map ascii_lower (lit "Strikeout")) by (vm_compute; reflexivity). reflexivity.
    - auto. }
  split; [|split].
  - apply Forall_forall. intros x Hx. apply in_map_iff in Hx. destruct Hx as (f & <- & Hx). destruct (Hval f Hx) as [-> | ->]; [reflexivity|].
    apply under_free, Hall.
  - destruct fmt as [|f0 fs]; [congruence|]. destruct fs as [|f1 fs]; [right; reflexivity|]. left.
    destruct vals as [|v [|w r]]; cbn [List.length] in L; [lia|lia|]. destruct Hp as [Hp|Hp]; [|discriminate]. cbn [hd] in Hp.
    unfold vals'. cbn [map hd]. destruct (Hval f0 (or_introl eq_refl)) as [E|E]; rewrite E; [reflexivity|]. cbn [under]. rewrite str_neq_refl.
    unfold star, trim in *. destruct (trim_start v) as [|c t] eqn:Et; [reflexivity|].
    pose proof (trim_end_start_head (c :: t)) as Hh. destruct (trim_end (c :: t)) as [|c' t'] eqn:Et2; [reflexivity|]. subst c'.
    assert (Hw : is_ws c = false).
    { destruct (drop_while_spec is_ws v) as (a & _ & _ & Hd). fold (trim_start v) in Hd. rewrite Et in Hd. exact Hd. }
    unfold trim_start. cbn [drop_while]. rewrite Hw. unfold starts_with in *. cbn [lit strip_prefix] in *. destruct (N_of_ascii _ =? c)%N; [discriminate Hp|reflexivity].
  - assert (Hu : forall c, In c style_columns -> under fmt vals' c = under fmt vals c).
    { intros c Hcol. unfold vals'. rewrite (under_map style_columns); [|intros f c' Hf' Hc' E'; destruct (Hs f c' Hf' Hc' E') as [->|[-> ->]]; reflexivity|exact Hcol].
      destruct (named fmt c) eqn:E.
      - rewrite style_value_column by assumption. apply under_trim.
      - symmetry. apply under_none, E. }
    clearbody vals'. unfold style_of, under_opt. rewrite !Hu by (cbn; auto 40). reflexivity.
Qed.
Lemma style_data d : d = lit "Style:" ++ lit " " -> d = lit "Style: ". Proof. intros ->. reflexivity. Qed.
Lemma trim_ends_ne l : l <> [] -> trim_ends l <> [].
Proof. intros H E. apply (f_equal (@List.length str)) in E. rewrite trim_ends_length in E. destruct l; [congruence|discriminate]. Qed.
Lemma spaced_ne l : l <> [] -> spaced l <> []. Proof. destruct l; [congruence|discriminate]. Qed.
Lemma star_trim v : star (trim v) = star v.
Proof.
  unfold star, trim. destruct (trim_start v) as [|c t] eqn:Et; [reflexivity|].
  assert (Hw : is_ws c = false).
  { destruct (drop_while_spec is_ws v) as (a & _ & _ & Hd). fold (trim_start v) in Hd. rewrite Et in Hd. exact Hd. }
  change (c :: t) with ([] ++ c :: t). rewrite (trim_end_mid [] c t Hw). cbn [app]. unfold trim_start. cbn [drop_while]. rewrite Hw.
  unfold starts_with. cbn [lit strip_prefix]. destruct (N_of_ascii _ =? c)%N; reflexivity.
Qed.
Lemma star_trims a b : trim a = trim b -> star a = star b.
Proof. intros H. rewrite <- (star_trim a), <- (star_trim b), H. reflexivity. Qed.
Lemma hd_trims l m : map trim l = map trim m -> star (hd [] l) = star (hd [] m).
Proof. destruct l, m; try discriminate; [reflexivity|]. intros H. injection H as H _. cbn [hd]. apply star_trims, H. Qed.

(* reading "Style: v1,v2,..." *)
Lemma style_text_ok fmt vals n : vals <> [] -> Forall comma_free vals -> star (hd [] vals) = false \/ List.length vals = 1 ->
  List.length (format_or default_styles_format fmt) <= List.length vals ->
  parse_style_line (trim (lit " " ++ join [44%N] vals)) fmt n = Ok (style_of None (format_or default_styles_format fmt) vals (Span 0 0 n 1)).
Proof.
  intros Hv Hc Hp L. rewrite spaced_join by exact Hv. rewrite trim_ends_join by (apply spaced_ne, Hv).
  assert (Et : map trim (trim_ends (spaced vals)) = map trim vals) by (rewrite trim_ends_trim; apply spaced_trim).
  rewrite style_line_ok.
  - f_equal. apply style_of_trims, Et.
  - apply trim_ends_ne, spaced_ne, Hv.
  - apply trim_ends_free, spaced_free, Hc.
  - rewrite (hd_trims _ _ Et), trim_ends_length, spaced_length. exact Hp.
  - rewrite trim_ends_length, spaced_length. exact L.
Qed.
Lemma style_roundtrip line fmt n s : parse_style_line line fmt n = Ok s -> s_parent s = None -> fmt <> [] -> spelled_style fmt ->
  (In (lit "TertiaryColour") fmt -> named fmt (lit "OutlineColour") = false) ->
  exists d, strip_prefix (lit "Style:") (style_to_string_with s fmt) = Some d /\ parse_style_line (trim d) fmt n = Ok s.
Proof.
  intros H Hpar Hf Hs Ht. apply style_line_inv in H. destruct H as (vals & Hv & Hc & L & [(_ & Hp & ->)|(a & _ & _ & _ & ->)]); [|discriminate].
  assert (EF : format_or default_styles_format fmt = fmt) by (destruct fmt; [congruence|reflexivity]). rewrite EF in *.
  destruct (style_rewrite fmt vals (Span 0 0 n 1) Hf Hs Ht Hc Hp L) as (H1 & H2 & H3).
  unfold style_to_string_with. set (s := style_of None fmt vals (Span 0 0 n 1)) in *. set (vals' := map (style_value s) fmt) in *.
  exists (lit " " ++ join [44%N] vals'). split; [apply strip_prefix_some; change (lit "Style: ") with (lit "Style:" ++ lit " "); rewrite <- app_assoc; reflexivity|].
  rewrite style_text_ok.
  - rewrite EF. f_equal. exact H3.
  - unfold vals'. destruct fmt; [congruence|discriminate].
  - exact H1.
  - exact H2.
  - rewrite EF. unfold vals'. rewrite map_length. lia.
Qed.
Lemma style_default_string s : style_to_string s = style_to_string_with s default_styles_format.
Proof. reflexivity. Qed.
Lemma default_spelled_style : spelled_style default_styles_format.
Proof.
  intros f c Hf Hc. revert Hf Hc. unfold default_styles_format, style_columns. cbn [map In]. intros Hf Hc.
  repeat (destruct Hf as [<-|Hf]; [repeat (destruct Hc as [<-|Hc]; [vm_compute; intuition congruence|]); contradiction|]). contradiction.
Qed.
Lemma style_roundtrip_default line n s : parse_style_line line [] n = Ok s -> s_parent s = None ->
  exists d, strip_prefix (lit "Style:") (style_to_string s) = Some d /\ parse_style_line (trim d) [] n = Ok s.
Proof.
  intros H Hp. rewrite style_default_string.
  destruct (style_roundtrip line default_styles_format n s H Hp) as (d & D1 & D2); [discriminate|apply default_spelled_style| |eauto].
  intros K. exfalso. revert K. unfold default_styles_format. cbn [map In]. intros K. repeat (destruct K as [K|K]; [vm_compute in K; discriminate|]). exact K.
Qed.

Lemma named_app a b name : named (a ++ b) name = named a name || named b name.
Proof. induction a as [|f a IH]; [reflexivity|]. cbn. rewrite IH, orb_assoc. reflexivity. Qed.
Lemma under_last columns vals f v name : List.length vals = List.length columns -> named columns name = false -> eq_nocase f name = true ->
  under (columns ++ [f]) (vals ++ [v]) name = trim v.
Proof.
  revert vals. induction columns as [|c columns IH]; intros [|w vals] L H E; try discriminate; cbn [app under]; [rewrite E; reflexivity|].
  cbn [named] in H. destruct (eq_nocase c name); [discriminate|]. apply IH; [injection L as L; exact L|exact H|exact E].
Qed.
Lemma under_init columns vals f v name : List.length vals = List.length columns -> eq_nocase f name = false ->
  under (columns ++ [f]) (vals ++ [v]) name = under columns vals name.
Proof.
  revert vals. induction columns as [|c columns IH]; intros [|w vals] L E; try discriminate; cbn [app under]; [rewrite E; reflexivity|].
  destruct (eq_nocase c name); [reflexivity|]. apply IH; [injection L as L; exact L|exact E].
Qed.
Lemma event_text_commas ty columns text vals n : Forall comma_free vals -> List.length vals = List.length columns ->
  named columns (lit "Text") = false ->
  exists e, parse_event_line (event_type_str ty ++ lit ":" ++ join [44%N] (vals ++ [text])) (columns ++ [lit "Text"]) n = Ok e /\
    e_text e = trim text /\ e_start e = under columns vals (lit "Start").
Proof.
  intros Hv L Hn. assert (EF : format_or default_events_format (columns ++ [lit "Text"]) = columns ++ [lit "Text"]) by (destruct columns; reflexivity).
  eexists. split; [apply event_line_ok|].
  - rewrite EF. unfold event_values. rewrite named_app, Hn. change (named [lit "Text"] (lit "Text")) with true. cbn [orb].
    rewrite !app_length, L. split; [reflexivity|]. rewrite removelast_last. exact Hv.
  - rewrite EF. unfold event_of. cbn [e_text e_start]. split; [apply under_last; [exact L|exact Hn|reflexivity]|apply under_init; [exact L|reflexivity]].
Qed.
