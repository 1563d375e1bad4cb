(* C168-C169: auto-completion. *)
From Coq Require Import Sorted.
From Verif Require Import Base BaseLemmas SortLib IncrModel CompleteModel CompleteSpec CompleteProofs CompleteGroups.

(* ---- the order ---- *)
Definition by_order (a b : item) : bool := (it_order a <=? it_order b)%N.
Definition lawful (e : entry) : Prop := forall i, it_order (e i) = i.
Lemma same_order a b : same by_order a b = (it_order a =? it_order b)%N.
Proof.
  unfold same, by_order. destruct (N.eqb_spec (it_order a) (it_order b)) as [E|N]; [rewrite E, N.leb_refl; reflexivity|].
  destruct (N.leb_spec (it_order a) (it_order b)), (N.leb_spec (it_order b) (it_order a)); try reflexivity. lia.
Qed.
Lemma number_from_ge l : Forall lawful l -> forall i x, In x (number_from i l) -> (N.of_nat i <= it_order x)%N.
Proof.
  induction 1 as [|e l He Hl IH]; intros i x I; cbn [number_from] in I; [contradiction|]. destruct I as [<-|I]; [rewrite He; lia|]. specialize (IH (S i) x I). lia.
Qed.
Lemma tl_number l i : tl (number_from i l) = number_from (S i) (tl l).
Proof. destruct l; reflexivity. Qed.
Lemma turn_ge n : forall es i x, Forall (Forall lawful) es -> In x (in_turn n (map (number_from i) es)) -> (N.of_nat i <= it_order x)%N.
Proof.
  induction n as [|n IH]; intros es i x F I; cbn [in_turn] in I; [contradiction|]. apply in_app_iff in I. destruct I as [I|I].
  - unfold heads in I. apply in_flat_map in I. destruct I as (g & Ig & Ix). apply in_map_iff in Ig. destruct Ig as (l & <- & Il). rewrite Forall_forall in F. apply (number_from_ge l (F l Il) i). destruct (number_from i l); [contradiction|]. destruct Ix as [<-|[]]. now left.
  - rewrite map_map in I. rewrite (map_ext _ (fun l => number_from (S i) (tl l))) in I by (intros l; apply tl_number). rewrite <- (map_map (@tl entry) (number_from (S i))) in I.
    specialize (IH (map (@tl entry) es) (S i) x). assert (N.of_nat (S i) <= it_order x)%N; [|lia]. apply IH; [|exact I].
    clear -F. induction F as [|l es Hl F IH]; cbn [map]; constructor; [|exact IH]. destruct Hl; cbn [tl]; auto.
Qed.
Lemma heads_order es i : Forall (Forall lawful) es -> forall x, In x (heads (map (number_from i) es)) -> it_order x = N.of_nat i.
Proof.
  intros F x I. unfold heads in I. apply in_flat_map in I. destruct I as (g & Ig & Ix). apply in_map_iff in Ig. destruct Ig as (l & <- & Il). rewrite Forall_forall in F. specialize (F l Il). destruct F as [|e l He Hl]; [contradiction|]. cbn [number_from] in Ix. destruct Ix as [<-|[]]. apply He.
Qed.
Lemma sorted_app (l1 l2 : list item) : StronglySorted (fun a b => by_order a b = true) l1 -> StronglySorted (fun a b => by_order a b = true) l2 -> (forall a b, In a l1 -> In b l2 -> by_order a b = true) -> StronglySorted (fun a b => by_order a b = true) (l1 ++ l2).
Proof.
  induction l1 as [|x l1 IH]; intros H1 H2 H; cbn [app]; [exact H2|]. inversion H1 as [|? ? S1 F1]; subst. constructor.
  - apply IH; auto. intros a b Ia Ib. apply H; [now right|exact Ib].
  - apply Forall_forall. intros y Iy. apply in_app_iff in Iy. destruct Iy as [Iy|Iy]; [rewrite Forall_forall in F1; now apply F1|apply H; [now left|exact Iy]].
Qed.
Lemma tails es i : map (@tl item) (map (number_from i) es) = map (number_from (S i)) (map (@tl entry) es).
Proof. rewrite !map_map. apply map_ext. intros l. apply tl_number. Qed.
Lemma tails_lawful es : Forall (Forall lawful) es -> Forall (Forall lawful) (map (@tl entry) es).
Proof. induction 1 as [|l es Hl F IH]; cbn [map]; constructor; [|exact IH]. destruct Hl; cbn [tl]; auto. Qed.
Lemma same_sorted (l : list item) k : (forall x, In x l -> it_order x = k) -> StronglySorted (fun a b => by_order a b = true) l.
Proof.
  induction l as [|x l IH]; intros H; constructor.
  - apply IH. intros y I. apply H. now right.
  - apply Forall_forall. intros y I. unfold by_order. rewrite (H x (or_introl eq_refl)), (H y (or_intror I)). apply N.leb_refl.
Qed.
Lemma turn_sorted n : forall es i, Forall (Forall lawful) es -> StronglySorted (fun a b => by_order a b = true) (in_turn n (map (number_from i) es)).
Proof.
  induction n as [|n IH]; intros es i F; cbn [in_turn]; [constructor|]. rewrite tails. apply sorted_app.
  - apply (same_sorted _ (N.of_nat i)). now apply heads_order.
  - apply IH. now apply tails_lawful.
  - intros a b Ia Ib. unfold by_order. rewrite (heads_order es i F a Ia). apply turn_ge in Ib; [|now apply tails_lawful]. apply N.leb_le. lia.
Qed.
Lemma class_step es : Forall (Forall lawful) es -> forall i k, filter (fun x => (k =? it_order x)%N) (flat_map (number_from i) es) =
  if (k =? N.of_nat i)%N then heads (map (number_from i) es) else filter (fun x => (k =? it_order x)%N) (flat_map (number_from (S i)) (map (@tl entry) es)).
Proof.
  induction 1 as [|l es Hl F IH]; intros i k.
  - cbn. now destruct (k =? N.of_nat i)%N.
  - cbn [flat_map map]. rewrite filter_app, IH. unfold heads. cbn [flat_map]. destruct (k =? N.of_nat i)%N eqn:E.
    + f_equal. destruct Hl as [|e l He Hl]; [reflexivity|]. cbn [number_from filter]. rewrite He, E. f_equal. apply N.eqb_eq in E. subst k.
      apply filter_none. intros x I. apply (number_from_ge l Hl) in I. apply N.eqb_neq. lia.
    + rewrite filter_app. f_equal. destruct Hl as [|e l He Hl]; [reflexivity|]. cbn [number_from filter tl]. now rewrite He, E.
Qed.
Lemma turn_class n : forall es i k, Forall (Forall lawful) es -> (forall l, In l es -> List.length l <= n) ->
  filter (fun x => (k =? it_order x)%N) (in_turn n (map (number_from i) es)) = filter (fun x => (k =? it_order x)%N) (flat_map (number_from i) es).
Proof.
  induction n as [|n IH]; intros es i k F L; cbn [in_turn].
  - assert (E : flat_map (number_from i) es = []); [|now rewrite E]. clear F. induction es as [|l es IH]; [reflexivity|]. cbn [flat_map]. specialize (L l (or_introl eq_refl)) as Ll. destruct l; [|cbn in Ll; lia]. cbn. apply IH. intros l' I. apply L. now right.
  - rewrite filter_app, tails, (class_step es F i k). rewrite IH; [|now apply tails_lawful|].
    2: { intros l I. apply in_map_iff in I. destruct I as (l' & <- & I). specialize (L l' I). destruct l'; cbn [tl List.length] in *; lia. }
    destruct (k =? N.of_nat i)%N eqn:E.
    + apply N.eqb_eq in E. subst k. rewrite filter_every by (intros x I; apply N.eqb_eq; symmetry; now apply (heads_order es i)).
      rewrite filter_none; [apply app_nil_r|]. intros x I. apply N.eqb_neq. apply in_flat_map in I. destruct I as (l & Il & Ix). pose proof (tails_lawful es F) as T. rewrite Forall_forall in T. apply (number_from_ge l (T l Il)) in Ix. lia.
    + rewrite filter_none; [reflexivity|]. intros x I. rewrite (heads_order es i F x I). exact E.
Qed.
Lemma sort_in_turn es n : Forall (Forall lawful) es -> (forall l, In l es -> List.length l <= n) -> stable_sort by_order (flat_map (number_from 0) es) = in_turn n (map (number_from 0) es).
Proof.
  intros F L. apply sort_unique.
  - intros x y. unfold by_order. destruct (N.leb_spec (it_order x) (it_order y)); [now left|right]. apply N.leb_le. lia.
  - intros x y z. unfold by_order. rewrite !N.leb_le. lia.
  - now apply turn_sorted.
  - intros k. rewrite !(filter_ext _ _ (fun x => same_order k x)). now apply turn_class.
Qed.

Lemma number_ranked {A} (f : A -> entry) (l : list A) : forall i, number_from i (map f l) = map (fun x => f (fst x) (N.of_nat (snd x))) (combine l (seq i (List.length l))).
Proof. induction l as [|x l IH]; intros i; [reflexivity|]. cbn [map number_from List.length seq combine fst snd]. now rewrite IH. Qed.
Lemma tag_ranked (l : list (string * string * string)) : ranked with_example l = number_from 0 (map tag_entry l).
Proof. rewrite number_ranked. unfold ranked. apply map_ext. intros [[[a b] c] i]. reflexivity. Qed.

Section Complete.
  Variable alnum : char -> bool.
  Variable lower : str -> str.
  Variable cfg : config.
  Variable names : list str.
  Lemma suggested_exact above la lb items : suggested alnum lower cfg names above la lb items <->
    exists s, sec_list lower la lb = Some s /\
    items = (let sec := last_header (rev (lines above)) in let f := fld_list lower cfg sec la lb in let t := tag_list alnum cfg la in let st := sty_list cfg names sec la lb in
      firstn (max_suggestions cfg) (in_turn (List.length s + List.length f + List.length t + List.length st)
      [number_from 0 (map (pair_entry Section_) s); number_from 0 (map (pair_entry Field) f); number_from 0 (map tag_entry t); number_from 0 (map style_entry st)])).
  Proof.
    assert (R : forall s f t st, [ranked (plain Section_) s; ranked (plain Field) f; ranked with_example t; ranked style_name st] =
      [number_from 0 (map (pair_entry Section_) s); number_from 0 (map (pair_entry Field) f); number_from 0 (map tag_entry t); number_from 0 (map style_entry st)]).
    { intros s f t st. rewrite tag_ranked. rewrite !number_ranked. reflexivity. }
    unfold suggested. split.
    - intros (sec & s & f & t & st & Hsec & Hs & Hf & Ht & Hst & ->). rewrite R. apply sec_list_spec in Hs. apply fld_list_spec in Hf. apply (tag_list_spec alnum lower cfg) in Ht. apply sty_list_spec in Hst.
      assert (E : last_header (rev (lines above)) = sec) by (apply (last_header_spec (lines above) sec); exact Hsec). exists s. split; [exact Hs|]. cbv zeta. rewrite E. now subst.
    - intros (s & Hs & ->). cbv zeta. set (sec := last_header (rev (lines above))). exists sec, s, (fld_list lower cfg sec la lb), (tag_list alnum cfg la), (sty_list cfg names sec la lb).
      split; [exact (proj1 (last_header_spec (lines above) sec) eq_refl)|]. split; [now apply sec_list_spec|]. split; [now apply fld_list_spec|]. split; [now apply (tag_list_spec alnum lower cfg)|]. split; [now apply sty_list_spec|now rewrite R].
  Qed.
  Lemma completions_at content offset above la lb below : cursor content offset above la lb below ->
    get_completions alnum lower cfg names content offset =
    match sec_list lower la lb with
    | None => None
    | Some s => Some (let sec := last_header (rev (lines above)) in let f := fld_list lower cfg sec la lb in let t := tag_list alnum cfg la in let st := sty_list cfg names sec la lb in
      firstn (max_suggestions cfg) (in_turn (List.length s + List.length f + List.length t + List.length st)
      [number_from 0 (map (pair_entry Section_) s); number_from 0 (map (pair_entry Field) f); number_from 0 (map tag_entry t); number_from 0 (map style_entry st)]))
    end.
  Proof.
    intros H. unfold get_completions. rewrite (context_at alnum _ _ _ _ _ _ H). set (sec := last_header (rev (lines above))).
    pose proof (sections_at lower la lb sec (inside la) (tag_at alnum la)) as E1. cbv zeta in E1. rewrite E1. pose proof (tags_at alnum cfg la lb sec) as E2. cbv zeta in E2. rewrite E2. rewrite style_at. destruct (sec_list lower la lb) as [s|]; [|reflexivity]. cbn [option_map section in_override_tag].
    f_equal. cbv zeta. f_equal.
    assert (Ef : match sec with Some n => if negb (inside la) && complete_fields cfg then field_completions lower n (Context (la ++ lb) (blen la) sec (inside la) (tag_at alnum la)) else [] | None => [] end = number_from 0 (map (pair_entry Field) (fld_list lower cfg sec la lb))).
    { unfold fld_list, field_completions. cbn [line]. destruct sec; [|reflexivity]. now destruct (negb (inside la) && complete_fields cfg). }
    assert (Es : (if style_here sec la lb && complete_styles cfg then number_from 0 (map style_entry names) else []) = number_from 0 (map style_entry (sty_list cfg names sec la lb))).
    { unfold sty_list. now destruct (style_here sec la lb && complete_styles cfg). }
    rewrite Ef, Es. set (f := fld_list lower cfg sec la lb). set (t := tag_list alnum cfg la). set (st := sty_list cfg names sec la lb).
    pose proof (sort_in_turn [map (pair_entry Section_) s; map (pair_entry Field) f; map tag_entry t; map style_entry st] (List.length s + List.length f + List.length t + List.length st)) as Q.
    cbn [flat_map map] in Q. rewrite app_nil_r in Q. apply Q.
    - assert (G : forall {A} (g : A -> entry) (l : list A), (forall x, lawful (g x)) -> Forall lawful (map g l)) by (intros A g l Hg; induction l; cbn [map]; constructor; auto).
      repeat constructor; apply G; intros x i; try reflexivity. destruct x as [[a b] c]. reflexivity.
    - intros l [<-|[<-|[<-|[<-|[]]]]]; rewrite map_length; lia.
  Qed.
  Lemma completions_exact content offset items : get_completions alnum lower cfg names content offset = Some items <->
    exists above la lb below, cursor content offset above la lb below /\ suggested alnum lower cfg names above la lb items.
  Proof.
    split.
    - intros H. assert (C : exists a b, cut content offset = Some (a, b)).
      { unfold get_completions, get_context in H. destruct (cut content offset) as [[a b]|]; [eauto|discriminate H]. }
      destruct C as (a & b & C). destruct (cursor_of _ _ _ _ C) as (above & la & lb & below & K). exists above, la, lb, below. split; [exact K|].
      rewrite (completions_at _ _ _ _ _ _ K) in H. apply suggested_exact. destruct (sec_list lower la lb) as [s|]; [|discriminate H]. exists s. split; [reflexivity|]. injection H as <-. reflexivity.
    - intros (above & la & lb & below & K & S). rewrite (completions_at _ _ _ _ _ _ K). apply suggested_exact in S. destruct S as (s & -> & ->). reflexivity.
  Qed.
  Lemma completions_panic content offset : get_completions alnum lower cfg names content offset = None <->
    cut content offset = None \/ exists above lb below, cursor content offset above [] lb below /\ begins (lit "[") lb.
  Proof.
    split.
    - intros H. destruct (cut content offset) as [[a b]|] eqn:C; [right|now left]. destruct (cursor_of _ _ _ _ C) as (above & la & lb & below & K). rewrite (completions_at _ _ _ _ _ _ K) in H. destruct (sec_list lower la lb) as [s|] eqn:E; [discriminate H|].
      unfold sec_list in E. destruct la as [|c p]; [|destruct (c =? 91)%N; discriminate E]. destruct lb as [|c q]; [discriminate E|]. destruct (N.eqb_spec c 91) as [->|]; [|discriminate E]. exists above, (91%N :: q), below. split; [exact K|now exists q].
    - intros [C|(above & lb & below & K & [r ->])].
      + unfold get_completions, get_context. now rewrite C.
      + rewrite (completions_at _ _ _ _ _ _ K). reflexivity.
  Qed.
End Complete.

(* ---- C168: what is suggested ---- *)
Theorem complete_exact (alnum : char -> bool) (lower : str -> str) (cfg : config) (names : list str) (content : str) (offset : nat) (items : list item) :
  get_completions alnum lower cfg names content offset = Some items <->
  exists above la lb below, cursor content offset above la lb below /\ suggested alnum lower cfg names above la lb items.
Proof. exact (completions_exact alnum lower cfg names content offset items). Qed.
Definition low : str -> str := SearchModel.lower SearchModel.ascii.
Definition alphanum : char -> bool := SearchModel.alnum SearchModel.ascii.
Definition nl : str := [10%N].
Example complete_sections : option_map (map it_label) (get_completions alphanum low default_config [] (lit "[v4") 3) = Some [lit "[V4+ Styles]"; lit "[V4 Styles]"].
Proof. vm_compute. reflexivity. Qed.
Example complete_mixed : let text := lit "[V4+ Styles]" ++ nl in
  option_map (map it_label) (get_completions alphanum low (Config true true true 5) [] text (blen text)) = Some [lit "[Script Info]"; lit "Format:"; lit "[V4+ Styles]"; lit "Style:"; lit "[V4 Styles]"].
Proof. vm_compute. reflexivity. Qed.
Example complete_tag : let text := lit "[Events]" ++ nl ++ lit "Dialogue: 0,0:00:00.00,0:00:01.00,Default,,0,0,0,,{\b1\fsc" in
  option_map (map it_insert) (get_completions alphanum low default_config [] text (blen text)) = Some [lit "\fscx100"; lit "\fscy100"].
Proof. vm_compute. reflexivity. Qed.
Example complete_style : let text := lit "[Events]" ++ nl ++ lit "Dialogue: 0,0:00:00.00,0:00:01.00," in
  option_map (map it_insert) (get_completions alphanum low default_config [lit "Default"; lit "Alt"] text (blen text)) = Some [lit "Default"; lit "Alt"].
Proof. vm_compute. reflexivity. Qed.
(* an open brace after a line break tag on the same line: no tags are suggested *)
Theorem complete_after_break_refuted :
  let text := lit "[Events]" ++ nl ++ lit "Dialogue: 0,0:00:00.00,0:00:01.00,Default,,0,0,0,,a\Nb{" in
  get_completions alphanum low default_config [] text (blen text) = Some [] /\
  let text' := lit "[Events]" ++ nl ++ lit "Dialogue: 0,0:00:00.00,0:00:01.00,Default,,0,0,0,,a b{" in
  option_map (@List.length _) (get_completions alphanum low default_config [] text' (blen text')) = Some 20.
Proof. split; vm_compute; reflexivity. Qed.
(* on a blank line ended by a carriage return and a line feed no section is suggested *)
Theorem complete_crlf_refuted :
  option_map (map it_kind) (get_completions alphanum low (Config false true true 5) [] (lit "a" ++ [10%N] ++ [10%N]) 2) = Some [Section_; Section_; Section_; Section_; Section_] /\
  get_completions alphanum low (Config false true true 5) [] (lit "a" ++ [13%N; 10%N] ++ [13%N; 10%N]) 3 = Some [].
Proof. split; vm_compute; reflexivity. Qed.

(* ---- C169: where it stops the program ---- *)
Theorem complete_panics_iff (alnum : char -> bool) (lower : str -> str) (cfg : config) (names : list str) (content : str) (offset : nat) :
  get_completions alnum lower cfg names content offset = None <->
  cut content offset = None \/ exists above lb below, cursor content offset above [] lb below /\ begins (lit "[") lb.
Proof. exact (completions_panic alnum lower cfg names content offset). Qed.
Theorem complete_no_panic_refuted : ~ (forall alnum lower cfg names content offset, offset <= blen content -> is_boundary content offset = true -> get_completions alnum lower cfg names content offset <> None).
Proof. intros H. apply (H alphanum low default_config [] (lit "[Events]") 0 ltac:(cbn; lia) eq_refl). vm_compute. reflexivity. Qed.
(* the command: at the end of the document unless a position is given; it stops only with such a position *)
Theorem trigger_exact (alnum : char -> bool) (lower : str -> str) (cfg : config) (names : str -> list str) (content : str) (position : option str) (n : nat) (l : list str) :
  trigger alnum lower cfg names (Some content) position = Some (Some (n, l)) <->
  exists offset items, (match position with Some p => match parse_uint 18446744073709551615%N 10%N p with Some k => offset = N.to_nat k | None => offset = blen content end | None => offset = blen content end) /\
    get_completions alnum lower cfg (names content) content offset = Some items /\ n = List.length items /\ l = map it_insert (firstn 10 items).
Proof.
  unfold trigger. set (o := match position with Some p => match parse_uint 18446744073709551615%N 10%N p with Some k => N.to_nat k | None => blen content end | None => blen content end). split.
  - destruct (get_completions alnum lower cfg (names content) content o) as [items|] eqn:E; [|discriminate]. intros Q. injection Q as <- <-. exists o, items. split; [|repeat split; exact E].
    unfold o. destruct position as [p|]; [|reflexivity]. now destruct (parse_uint _ _ p).
  - intros (offset & items & Ho & G & -> & ->). assert (E : o = offset) by (unfold o; destruct position as [p|]; [destruct (parse_uint _ _ p)|]; congruence). now rewrite E, G.
Qed.
Theorem trigger_end_answers (alnum : char -> bool) (lower : str -> str) (cfg : config) (names : str -> list str) (content : str) : trigger alnum lower cfg names (Some content) None <> None.
Proof.
  unfold trigger. destruct (get_completions alnum lower cfg (names content) content (blen content)) as [items|] eqn:E; [discriminate|]. exfalso. apply completions_panic in E. rewrite cut_all in E. destruct E as [E|(above & lb & below & (K & L & _) & [r ->])]; [discriminate E|].
  rewrite app_nil_r in L. rewrite K in L. rewrite !blen_app in L. cbn [app blen] in L. pose proof (len_utf8_pos 91%N). change (blen (lit "[")) with 1 in L. lia.
Qed.
Example trigger_instance : trigger alphanum low default_config (fun _ => []) (Some (lit "[e")) None = Some (Some (1, [lit "[Events]"])) /\
  trigger alphanum low default_config (fun _ => []) (Some (lit "[e")) (Some (lit "x")) = Some (Some (1, [lit "[Events]"])).
Proof. split; vm_compute; reflexivity. Qed.

Print Assumptions complete_exact.
Print Assumptions complete_after_break_refuted.
Print Assumptions complete_crlf_refuted.
Print Assumptions complete_panics_iff.
Print Assumptions complete_no_panic_refuted.
Print Assumptions trigger_exact.
Print Assumptions trigger_end_answers.
