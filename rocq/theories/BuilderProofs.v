From Verif Require Import Base BaseLemmas NumProofs ParseModel ParseSpec ParseLineProofs FloatModel BuilderModel BuilderSpec.

Lemma latest_app c v : forall w col d, latest (w ++ [(c, v)]) col d = if String.eqb c col then v else latest w col d.
Proof.
  intros w. induction w as [|[c' v'] w IH]; intros col d; [cbn; now destruct (String.eqb c col)|]. cbn [app latest]. apply IH.
Qed.
Lemma latest_cases w col d : latest w col d = d \/ exists v, In (col, v) w /\ latest w col d = v.
Proof.
  revert d. induction w as [|[c v] w IH]; intros d; [now left|]. cbn [latest]. destruct (String.eqb_spec c col) as [->|N].
  - right. destruct (IH v) as [E|(x & I & E)]; [exists v; split; [now left|exact E]|exists x; split; [now right|exact E]].
  - destruct (IH d) as [E|(x & I & E)]; [now left|right; exists x; split; [now right|exact E]].
Qed.
Ltac each := repeat match goal with H : In _ (_ :: _) |- _ => destruct H as [<-|H]; [|] | H : In _ [] |- _ => destruct H end.

(* ---- events ---- *)
Lemma event_value_step b c col : In col event_names ->
  event_builder_value (set_event b c) (lit col) = if String.eqb (fst (writes c)) col then Some (snd (writes c)) else event_builder_value b (lit col).
Proof.
  intros H. unfold event_names in H. destruct b. destruct c; each; reflexivity.
Qed.
Lemma event_value_calls col : In col event_names -> forall calls b v, event_builder_value b (lit col) = Some v ->
  event_builder_value (fold_left set_event calls b) (lit col) = Some (latest (map writes calls) col v).
Proof.
  intros H calls. induction calls as [|c calls IH]; intros b v E; [exact E|]. cbn [fold_left map latest].
  destruct (writes c) as [k w] eqn:W. apply IH. rewrite event_value_step by exact H. rewrite W. cbn [fst snd]. destruct (String.eqb k col); [reflexivity|exact E].
Qed.
Lemma event_told ty calls col : In col event_names -> event_builder_value (event_builder_of ty calls) (lit col) = Some (told calls col).
Proof.
  intros H. apply event_value_calls; [exact H|]. unfold event_names in H. each; reflexivity.
Qed.
Lemma event_type_kept ty calls : eb_type (event_builder_of ty calls) = ty.
Proof.
  unfold event_builder_of. assert (G : forall calls b, eb_type (fold_left set_event calls b) = eb_type b).
  { intros l. induction l as [|c l IH]; intros b; [reflexivity|]. cbn [fold_left]. rewrite IH. destruct b, c; reflexivity. }
  rewrite G. reflexivity.
Qed.
Lemma map_all_map {A B} (f : A -> option B) (g : A -> B) l : (forall x, In x l -> f x = Some (g x)) -> map_all f l = Some (map g l).
Proof.
  induction l as [|x l IH]; intros H; [reflexivity|]. cbn [map_all map]. rewrite (H x (or_introl eq_refl)), IH; [reflexivity|]. intros y I. apply H. now right.
Qed.
Lemma event_default_ok col : comma_free (event_default col) /\ trim_ok (event_default col).
Proof.
  unfold event_default, trim_ok, comma_free. repeat match goal with |- context [if ?b then _ else _] => destruct b end; split; vm_compute; reflexivity.
Qed.
Lemma told_trim calls col : Forall call_ok calls -> trim_ok (told calls col).
Proof.
  intros H. unfold told. destruct (latest_cases (map writes calls) col (event_default col)) as [->|(v & I & ->)]; [apply event_default_ok|].
  apply in_map_iff in I as (c & W & I). rewrite Forall_forall in H. destruct (H c I) as [_ T]. now rewrite W in T.
Qed.
Lemma told_free calls col : Forall call_ok calls -> col <> "Text"%string -> comma_free (told calls col).
Proof.
  intros H N. unfold told. destruct (latest_cases (map writes calls) col (event_default col)) as [->|(v & I & ->)]; [apply event_default_ok|].
  apply in_map_iff in I as (c & W & I). rewrite Forall_forall in H. destruct (H c I) as [[T|T] _]; rewrite W in T; [now destruct N|exact T].
Qed.
(* column names differ without case too *)
Lemma lit_inj a b : lit a = lit b -> a = b.
Proof.
  revert b. induction a as [|x a IH]; intros [|y b] E; try discriminate; [reflexivity|]. cbn in E. injection E as E1 E2. f_equal; [|now apply IH].
  apply (f_equal ascii_of_N) in E1. now rewrite !ascii_N_embedding in E1.
Qed.
Lemma event_names_nocase a b : In a ("Marked"%string :: event_names) -> In b event_names -> eq_nocase (lit a) (lit b) = String.eqb a b.
Proof.
  intros A B. unfold event_names in *. repeat (destruct A as [<-|A]; [repeat (destruct B as [<-|B]; [vm_compute; reflexivity|]); destruct B|]). destruct A.
Qed.
Lemma named_has cols c : incl cols ("Marked"%string :: event_names) -> In c event_names -> named (map lit cols) (lit c) = existsb (String.eqb c) cols.
Proof.
  intros I C. induction cols as [|x cols IH]; [reflexivity|]. cbn [map named existsb]. rewrite event_names_nocase; [|apply I; now left|exact C].
  rewrite IH by (intros y Y; apply I; now right). f_equal. rewrite String.eqb_sym. reflexivity.
Qed.
Lemma under_told (g : string -> str) cols c : incl cols ("Marked"%string :: event_names) -> In c event_names ->
  under (map lit cols) (map g cols) (lit c) = if existsb (String.eqb c) cols then trim (g c) else [].
Proof.
  intros I C. induction cols as [|x cols IH]; [reflexivity|]. cbn [map under existsb]. rewrite event_names_nocase; [|apply I; now left|exact C].
  rewrite (String.eqb_sym c x). destruct (String.eqb_spec x c) as [->|N]; [reflexivity|]. cbn [orb]. apply IH. intros y Y. apply I. now right.
Qed.
(* Under the columns cols, ending in Text, the line of the values g reads as g. *)
Lemma event_of_told ty cols calls n (g : string -> str) : Forall call_ok calls -> incl cols ("Marked"%string :: event_names) ->
  (forall c, In c event_names -> In c cols -> g c = told calls c) ->
  event_of ty (map lit cols) (map g cols) (Span 0 0 n 1) = told_event ty cols calls n.
Proof.
  intros H I G. unfold event_of, told_event, under_opt.
  assert (U : forall c, In c event_names -> under (map lit cols) (map g cols) (lit c) = if existsb (String.eqb c) cols then told calls c else []).
  { intros c C. rewrite under_told by assumption. destruct (existsb (String.eqb c) cols) eqn:E; [|reflexivity].
    apply existsb_exists in E as (x & X & E). apply String.eqb_eq in E. subst x. rewrite (G c C X). apply told_trim, H. }
  assert (O : forall c, In c event_names -> (if named (map lit cols) (lit c) then Some (under (map lit cols) (map g cols) (lit c)) else None) =
    if existsb (String.eqb c) cols then Some (told calls c) else None).
  { intros c C. rewrite named_has by assumption. rewrite U by exact C. now destruct (existsb (String.eqb c) cols). }
  cbv zeta. rewrite !O by (unfold event_names; cbn [In]; intuition). rewrite !U by (unfold event_names; cbn [In]; intuition). reflexivity.
Qed.
Lemma told_line ty cols calls n (g : string -> str) : Forall call_ok calls -> incl cols ("Marked"%string :: event_names) -> ~ In "Text"%string cols ->
  g "Text"%string = told calls "Text" -> (forall c, In c cols -> comma_free (g c)) -> (forall c, In c event_names -> In c cols -> g c = told calls c) ->
  parse_event_line (event_type_str ty ++ lit ": " ++ join (lit ",") (map g (cols ++ ["Text"%string]))) (map lit (cols ++ ["Text"%string])) n =
    Ok (told_event ty (cols ++ ["Text"%string]) calls n).
Proof.
  intros H I NT GT GF G. change (lit ": ") with (lit ":" ++ lit " "). rewrite <- app_assoc. change (lit ",") with [44%N].
  assert (NE : map g (cols ++ ["Text"%string]) <> []) by (destruct cols; discriminate).
  assert (EF : format_or default_events_format (map lit (cols ++ ["Text"%string])) = map lit (cols ++ ["Text"%string])) by (destruct cols; reflexivity).
  rewrite spaced_join by exact NE. rewrite event_line_ok.
  - rewrite EF. f_equal. rewrite (event_of_trims _ _ (spaced _) _ _ (spaced_trim _)). apply event_of_told; [exact H| |].
    + intros c C. apply in_app_iff in C as [C|[<-|[]]]; [apply I, C|]. right. unfold event_names. cbn [In]. intuition.
    + intros c C1 C2. apply in_app_iff in C2 as [C2|[<-|[]]]; [now apply G|exact GT].
  - rewrite EF. apply spaced_values. unfold event_values. rewrite map_app, named_app. cbn [map named].
    replace (eq_nocase (lit "Text") (lit "Text")) with true by reflexivity. rewrite Bool.orb_true_r. cbn [orb]. rewrite !map_app, !app_length, !map_length. split; [reflexivity|].
    cbn [map]. rewrite removelast_last. apply Forall_forall. intros v V. apply in_map_iff in V as (c & <- & C). now apply GF.
Qed.
Lemma format_built ty cols calls : cols <> [] -> incl cols event_names ->
  build_event_format (event_builder_of ty calls) (map lit cols) = Some (event_type_str (type_or ty) ++ lit ": " ++ join (lit ",") (map (told calls) cols)).
Proof.
  intros NE I. unfold build_event_format. destruct (map lit cols) as [|f fs] eqn:F; [destruct cols; [congruence|discriminate]|]. rewrite <- F.
  assert (M : map_all (event_builder_value (event_builder_of ty calls)) (map lit cols) = Some (map (told calls) cols)).
  { clear F NE. induction cols as [|c cols IH]; [reflexivity|]. cbn [map map_all]. rewrite event_told by (apply I; now left). rewrite IH by (intros x X; apply I; now right). reflexivity. }
  rewrite M. cbn [option_map]. rewrite event_type_kept. destruct ty; reflexivity.
Qed.
Lemma lookup_none k l : lookup k l = None <-> ~ In k (map (fun p => lit (fst p)) l).
Proof.
  induction l as [|[n v] l IH]; [cbn; intuition|]. cbn [lookup map fst In]. destruct (str_eqb k (lit n)) eqn:E.
  - apply str_eqb_eq in E. split; [discriminate|]. intros H. exfalso. apply H. left. now symmetry.
  - rewrite IH. split; [intros H [Q|Q]; [|now apply H]|intuition]. subst k. now rewrite str_eqb_refl in E.
Qed.
Lemma map_all_none {A B} (f : A -> option B) l : map_all f l = None <-> exists x, In x l /\ f x = None.
Proof.
  induction l as [|x l IH]; [cbn; split; [discriminate|intros (x & [] & _)]|]. cbn [map_all]. destruct (f x) eqn:E.
  - destruct (map_all f l) eqn:M; cbn [option_map].
    + split; [discriminate|]. intros (y & [<-|Y] & F); [congruence|]. exfalso. assert (Q : Some l0 = None) by (apply IH; eauto). discriminate Q.
    + split; [intros _|reflexivity]. destruct (proj1 IH eq_refl) as (y & Y & F). exists y. split; [now right|exact F].
  - split; [intros _; exists x; split; [now left|exact E]|reflexivity].
Qed.
Lemma event_version_values ty calls v :
  build_event_version (event_builder_of ty calls) v =
    event_type_str (type_or ty) ++ lit ": " ++ join (lit ",") ((match v with SsaV4 => lit "Marked=0" | _ => told calls "Layer" end)
      :: map (told calls) ["Start"; "End"; "Style"; "Name"; "MarginL"; "MarginR"; "MarginV"; "Effect"; "Text"]%string).
Proof.
  assert (V : forall col w, In col event_names -> event_builder_value (event_builder_of ty calls) (lit col) = Some w -> told calls col = w).
  { intros col w C E. rewrite event_told in E by exact C. congruence. }
  cbn [map]. rewrite (V "Layer"%string _ ltac:(cbn; intuition) eq_refl), (V "Start"%string _ ltac:(cbn; intuition) eq_refl), (V "End"%string _ ltac:(cbn; intuition) eq_refl),
    (V "Style"%string _ ltac:(cbn; intuition) eq_refl), (V "Name"%string _ ltac:(cbn; intuition) eq_refl), (V "MarginL"%string _ ltac:(cbn; intuition) eq_refl),
    (V "MarginR"%string _ ltac:(cbn; intuition) eq_refl), (V "MarginV"%string _ ltac:(cbn; intuition) eq_refl), (V "Effect"%string _ ltac:(cbn; intuition) eq_refl),
    (V "Text"%string _ ltac:(cbn; intuition) eq_refl).
  unfold build_event_version. rewrite event_type_kept. destruct ty, v; reflexivity.
Qed.

(* ---- styles ---- *)
Lemma style_value_step show b c col : In col style_names ->
  style_builder_value show (set_style b c) (lit col) = if String.eqb (fst (style_writes show c)) col then Some (snd (style_writes show c)) else style_builder_value show b (lit col).
Proof.
  intros H. unfold style_names in H. destruct b. destruct c; each; reflexivity.
Qed.
Lemma style_value_calls show col : In col style_names -> forall calls b v, style_builder_value show b (lit col) = Some v ->
  style_builder_value show (fold_left set_style calls b) (lit col) = Some (latest (map (style_writes show) calls) col v).
Proof.
  intros H calls. induction calls as [|c calls IH]; intros b v E; [exact E|]. cbn [fold_left map latest].
  destruct (style_writes show c) as [k w] eqn:W. apply IH. rewrite style_value_step by exact H. rewrite W. cbn [fst snd]. destruct (String.eqb k col); [reflexivity|exact E].
Qed.
Lemma style_told_value show start calls col : start = new_style \/ start = default_style -> In col style_names ->
  style_builder_value show (style_builder_of start calls) (lit col) = Some (style_told show calls col).
Proof.
  intros S H. apply style_value_calls; [exact H|]. unfold style_names in H. destruct S as [->| ->]; each; reflexivity.
Qed.
Lemma style_names_nocase a b : In a style_names -> In b style_names -> eq_nocase (lit a) (lit b) = String.eqb a b.
Proof.
  intros A B. unfold style_names in *. repeat (destruct A as [<-|A]; [repeat (destruct B as [<-|B]; [vm_compute; reflexivity|]); destruct B|]). destruct A.
Qed.
Lemma style_named_has cols c : incl cols style_names -> In c style_names -> named (map lit cols) (lit c) = existsb (String.eqb c) cols.
Proof.
  intros I C. induction cols as [|x cols IH]; [reflexivity|]. cbn [map named existsb]. rewrite style_names_nocase; [|apply I; now left|exact C].
  rewrite IH by (intros y Y; apply I; now right). f_equal. rewrite String.eqb_sym. reflexivity.
Qed.
Lemma style_under_told (g : string -> str) cols c : incl cols style_names -> In c style_names ->
  under (map lit cols) (map g cols) (lit c) = if existsb (String.eqb c) cols then trim (g c) else [].
Proof.
  intros I C. induction cols as [|x cols IH]; [reflexivity|]. cbn [map under existsb]. rewrite style_names_nocase; [|apply I; now left|exact C].
  rewrite (String.eqb_sym c x). destruct (String.eqb_spec x c) as [->|N]; [reflexivity|]. cbn [orb]. apply IH. intros y Y. apply I. now right.
Qed.
Lemma style_default_ok show col : (forall x, cell (show x)) -> cell (style_default show col).
Proof.
  intros S. unfold style_default. repeat match goal with |- context [if ?b then _ else _] => destruct b end; try apply S; repeat split; vm_compute; reflexivity.
Qed.
Lemma style_told_ok show calls col : (forall x, cell (show x)) -> Forall (style_call_ok show) calls -> cell (style_told show calls col).
Proof.
  intros S H. unfold style_told. destruct (latest_cases (map (style_writes show) calls) col (style_default show col)) as [->|(v & I & ->)]; [now apply style_default_ok|].
  apply in_map_iff in I as (c & W & I). rewrite Forall_forall in H. pose proof (H c I) as T. unfold style_call_ok in T. now rewrite W in T.
Qed.
Lemma style_line_told show cols calls n : (forall x, cell (show x)) -> Forall (style_call_ok show) calls -> cols <> [] -> incl cols style_names ->
  parse_style_line (trim (lit " " ++ join (lit ",") (map (style_told show calls) cols))) (map lit cols) n = Ok (style_told_as show cols calls n).
Proof.
  intros S H NE I. change (lit ",") with [44%N]. 
  assert (EF : format_or default_styles_format (map lit cols) = map lit cols) by (destruct cols; [congruence|reflexivity]).
  rewrite style_text_ok.
  - rewrite EF. f_equal. unfold style_of, style_told_as, under_opt.
    assert (U : forall c, In c style_names -> under (map lit cols) (map (style_told show calls) cols) (lit c) = if existsb (String.eqb c) cols then style_told show calls c else []).
    { intros c C. rewrite style_under_told by assumption. destruct (style_told_ok show calls c S H) as (_ & T & _). now rewrite T. }
    assert (O : forall c, In c style_names -> (if named (map lit cols) (lit c) then Some (under (map lit cols) (map (style_told show calls) cols) (lit c)) else None) =
      if existsb (String.eqb c) cols then Some (style_told show calls c) else None).
    { intros c C. rewrite style_named_has by assumption. rewrite U by exact C. now destruct (existsb (String.eqb c) cols). }
    cbv zeta. rewrite !O by (unfold style_names; cbn [In]; tauto). rewrite !U by (unfold style_names; cbn [In]; tauto). reflexivity.
  - destruct cols; [congruence|discriminate].
  - apply Forall_forall. intros v V. apply in_map_iff in V as (c & <- & _). now apply style_told_ok.
  - left. destruct cols as [|c cols]; [congruence|]. cbn [map hd]. now apply style_told_ok.
  - rewrite EF, !map_length. lia.
Qed.
Lemma style_format_built show start cols calls : start = new_style \/ start = default_style -> cols <> [] -> incl cols style_names ->
  build_style_format show (style_builder_of start calls) (map lit cols) = Some (lit "Style: " ++ join (lit ",") (map (style_told show calls) cols)).
Proof.
  intros S NE I. unfold build_style_format. destruct (map lit cols) as [|f fs] eqn:F; [destruct cols; [congruence|discriminate]|]. rewrite <- F.
  assert (M : map_all (style_builder_value show (style_builder_of start calls)) (map lit cols) = Some (map (style_told show calls) cols)).
  { clear F NE. induction cols as [|c cols IH]; [reflexivity|]. cbn [map map_all]. rewrite style_told_value by (try exact S; apply I; now left). rewrite IH by (intros x X; apply I; now right). reflexivity. }
  rewrite M. reflexivity.
Qed.
