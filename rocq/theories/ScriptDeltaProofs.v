From Verif Require Import Base BaseLemmas DocModel DocProofs ParseModel ParseSpec ParseProofs IncrModel IncrBounds IncrProofs IncrSpec IncrParseProofs EventCmdSpec EventCmdProofs StyleCmdSpec StyleCmdProofs SortLib ScriptDeltaModel ScriptDeltaSpec.
From Coq Require Import Permutation.

(* ---- headers in concatenations ---- *)
Lemma header_head ty : exists r, section_header ty = 91%N :: r /\ ~ In 91%N r.
Proof. destruct ty; eexists; (split; [reflexivity|]); vm_compute; intros Q; repeat (destruct Q as [Q|Q]; [discriminate Q|]); exact Q. Qed.
Lemma header_ne ty : section_header ty <> [].
Proof. destruct (header_head ty) as (r & -> & _). discriminate. Qed.
Lemma header_distinct a b x y : section_header a ++ x = section_header b ++ y -> a = b.
Proof. destruct a, b; try reflexivity; intros H; vm_compute in H; discriminate H. Qed.
Lemma skip_clean p ty : forall s u v, ~ In 91%N p -> p ++ s = u ++ section_header ty ++ v -> exists w, u = p ++ w /\ s = w ++ section_header ty ++ v.
Proof.
  induction p as [|c p IH]; intros s u v H E; [exists u; now split|]. destruct u as [|d u].
  - exfalso. destruct (header_head ty) as (r & R & _). rewrite R in E. cbn [app] in E. injection E as -> _. apply H. now left.
  - cbn [app] in E. injection E as <- E. destruct (IH s u v) as (w & -> & W); [intros Q; apply H; now right|exact E|]. exists w. now split.
Qed.
Definition bracketed (y : str) : Prop := y = [] \/ exists r, y = 91%N :: r.
Lemma split_header ty x y u v : bracketed y -> x ++ y = u ++ section_header ty ++ v ->
  (exists w, x = u ++ section_header ty ++ w /\ v = w ++ y) \/ (exists w, u = x ++ w /\ y = w ++ section_header ty ++ v).
Proof.
  intros B E. apply app_eq_app in E as (l & [[-> E]|[-> E]]); [|right; now exists l]. symmetry in E. apply app_eq_app in E as (k & [[-> E]|[E1 E2]]).
  - left. exists k. now rewrite E.
  - destruct l as [|c l]; [right; exists []; rewrite !app_nil_r; split; [reflexivity|]; cbn in E1; subst k; exact E2|].
    destruct k as [|e k]; [left; exists []; rewrite app_nil_r in E1; rewrite E1, app_nil_r; split; [reflexivity|exact (eq_sym E2)]|].
    exfalso. destruct (header_head ty) as (r & R & N). rewrite R in E1. cbn [app] in E1. injection E1 as _ Er. destruct B as [->|[q ->]]; [discriminate E2|]. cbn [app] in E2. injection E2 as <- _. apply N. rewrite Er. apply in_elt.
Qed.
Lemma render_bracketed bs : bracketed (render bs).
Proof.
  destruct bs as [|[ty body] bs]; [now left|right]. destruct (header_head ty) as (r & R & _). cbn [render flat_map]. unfold block_text. cbn [fst snd]. rewrite R. cbn [app]. eauto.
Qed.
Lemma render_app a b : render (a ++ b) = render a ++ render b.
Proof. apply flat_map_app. Qed.
Lemma render_cons b bs : render (b :: bs) = block_text b ++ render bs.
Proof. reflexivity. Qed.
Lemma block_has ty k body : headless body -> has (section_header ty) (section_header k ++ body) -> ty = k.
Proof.
  intros H (u & v & E). destruct (header_head k) as (r & R & N). destruct u as [|c u]; [symmetry; exact (header_distinct _ _ _ _ E)|].
  rewrite R in E. cbn [app] in E. injection E as _ E. apply skip_clean in E as (w & _ & E); [|exact N]. destruct (H ty). now exists w, v.
Qed.
Lemma has_split ty x y : bracketed y -> has (section_header ty) (x ++ y) -> has (section_header ty) x \/ has (section_header ty) y.
Proof.
  intros B (u & v & E). apply split_header in E as [(w & E & _)|(w & _ & E)]; [| |exact B]; [left; now exists u, w|right; now exists w, v].
Qed.
Lemma render_has ty bs : Forall (fun b => headless (snd b)) bs -> has (section_header ty) (render bs) -> In ty (map fst bs).
Proof.
  induction bs as [|[k body] bs IH]; intros F H.
  - destruct H as (u & v & E). destruct u; [|discriminate E]. destruct (header_head ty) as (r & R & _). rewrite R in E. discriminate E.
  - apply Forall_cons_iff in F as [F1 F2]. rewrite render_cons in H. apply has_split in H as [H|H]; [| |apply render_bracketed].
    + left. symmetry. exact (block_has _ _ _ F1 H).
    + right. exact (IH F2 H).
Qed.
Lemma pre_has ty pre bs : headless pre -> Forall (fun b => headless (snd b)) bs -> ~ In ty (map fst bs) -> ~ has (section_header ty) (pre ++ render bs).
Proof. intros P F N H. apply has_split in H as [H|H]; [exact (P ty H)| |apply render_bracketed]. exact (N (render_has _ _ F H)). Qed.
Lemma first_missing ty x : ~ has (section_header ty) x -> first_at (section_header ty) x.
Proof.
  intros N u v E. destruct (header_head ty) as (r & R & _). apply split_header in E as [(w & E & _)|(w & _ & E)]; [| |right; rewrite R; eauto].
  - destruct N. now exists u, w.
  - assert (L : List.length (section_header ty) = List.length (w ++ section_header ty ++ v)) by (rewrite <- E; reflexivity). rewrite !app_length in L. destruct v; [reflexivity|]. cbn [List.length] in L. lia.
Qed.
Lemma find_header ty x y : ~ has (section_header ty) x -> find_str (section_header ty) (x ++ section_header ty ++ y) = Some (x, section_header ty ++ y).
Proof. intros N. apply find_first; [apply header_ne|now apply first_missing]. Qed.

(* ---- the range of a section ---- *)
Lemma blen_pos c s : 0 < blen (c :: s).
Proof. rewrite blen_cons. pose proof (len_utf8_pos c). lia. Qed.
Lemma fold_low content L l : forall e, L <= e -> (forall h a b, In h l -> find_str h content = Some (a, b) -> a = [] \/ L <= blen a) -> L <= fold_left (end_step content) l e.
Proof.
  induction l as [|h l IH]; intros e E H; [exact E|]. cbn [fold_left]. apply IH; [|intros h' a b I; apply H; now right].
  unfold end_step. destruct (find_str h content) as [[a b]|] eqn:F; [|exact E]. destruct (Nat.ltb_spec 0 (blen a)); [|exact E].
  destruct (H h a b (or_introl eq_refl) F) as [->|]; [cbn in *; lia|lia].
Qed.
Lemma fold_le content l : forall e, fold_left (end_step content) l e <= e.
Proof.
  induction l as [|h l IH]; intros e; [cbn; lia|]. cbn [fold_left]. etransitivity; [apply IH|]. unfold end_step. destruct (find_str h content) as [[a b]|]; [|lia]. destruct (0 <? blen a); lia.
Qed.
Lemma fold_hit content l h a b : forall e, In h l -> find_str h content = Some (a, b) -> 0 < blen a -> fold_left (end_step content) l e <= blen a.
Proof.
  induction l as [|k l IH]; intros e I F P; [destruct I|]. cbn [fold_left]. destruct I as [->|I]; [|now apply IH].
  etransitivity; [apply fold_le|]. unfold end_step. rewrite F. destruct (Nat.ltb_spec 0 (blen a)); lia.
Qed.
Lemma headers_all ty : In (section_header ty) all_headers.
Proof. destruct ty; cbn [all_headers map In]; tauto. Qed.
Lemma headers_inv h : In h all_headers -> exists ty, h = section_header ty.
Proof. intros I. apply in_map_iff in I as (ty & <- & _). now exists ty. Qed.
Lemma section_end_at k body bs : headless body -> ~ In k (map fst bs) ->
  let content := block_text (k, body) ++ render bs in fold_left (end_step content) all_headers (blen content) = blen (block_text (k, body)).
Proof.
  intros Hb Nk content. apply Nat.le_antisymm.
  - destruct bs as [|[j b2] bs].
    + unfold content. cbn [render flat_map]. rewrite app_nil_r. apply fold_le.
    + apply (fold_hit content all_headers (section_header j) (block_text (k, body)) (section_header j ++ b2 ++ render bs)); [apply headers_all| |].
      * unfold content. rewrite render_cons. unfold block_text at 2. cbn [fst snd]. rewrite <- app_assoc. apply find_header. intros H. apply block_has in H; [|exact Hb]. subst j. apply Nk. now left.
      * unfold block_text. cbn [fst]. destruct (header_head k) as (r & -> & _). apply blen_pos.
  - apply fold_low; [unfold content; rewrite blen_app; lia|]. intros h a b I F. destruct (headers_inv h I) as [ty ->]. apply find_present in F as (c & _ & F). unfold content in F. apply split_header in F as [(w & F & _)|(w & -> & _)]; [| |apply render_bracketed].
    + left. destruct a as [|x a]; [reflexivity|exfalso]. unfold block_text in F. cbn [fst snd] in F. destruct (header_head k) as (r & R & N). rewrite R in F. cbn [app] in F. injection F as _ F. apply skip_clean in F as (z & _ & F); [|exact N]. apply (Hb ty). now exists z, w.
    + right. rewrite blen_app. lia.
Qed.
Lemma section_range_at pre bs1 bs2 body s : headless pre -> Forall (fun b => headless (snd b)) (bs1 ++ (section_type_of s, body) :: bs2) -> NoDup (map fst (bs1 ++ (section_type_of s, body) :: bs2)) ->
  section_range (pre ++ render (bs1 ++ (section_type_of s, body) :: bs2)) s =
    Some (mkRange (blen (pre ++ render bs1)) (blen (pre ++ render bs1) + blen (block_text (section_type_of s, body)))).
Proof.
  intros P F N. set (k := section_type_of s) in *. rewrite Forall_app, Forall_cons_iff in F. destruct F as (F1 & Fb & F2). rewrite map_app in N. cbn [map fst] in N. apply NoDup_remove in N as [N N2]. rewrite in_app_iff in N2.
  assert (Q : find_str (header_of s) (pre ++ render (bs1 ++ (k, body) :: bs2)) = Some (pre ++ render bs1, block_text (k, body) ++ render bs2)).
  { rewrite render_app, render_cons, app_assoc. unfold block_text, header_of. cbn [fst snd]. fold k. rewrite <- (app_assoc (section_header k)). apply find_header. apply pre_has; tauto. }
  unfold section_range, section_start, section_end. rewrite Q. rewrite section_end_at; [|exact Fb|tauto]. unfold range_new. destruct (Nat.leb_spec (blen (pre ++ render bs1)) (blen (pre ++ render bs1) + blen (block_text (k, body)))); [reflexivity|lia].
Qed.

(* ---- raw edits ---- *)
Lemma raw_delete d a m b r : it d = a ++ m ++ b -> r = mkRange (blen a) (blen a + blen m) -> raw d (fun k => delete_raw k r) = IOk (with_text d (a ++ b)) tt.
Proof. intros T ->. unfold raw. rewrite (delete_raw_app _ a m b) by (cbn; auto). reflexivity. Qed.
Lemma raw_replace d a m b r x : it d = a ++ m ++ b -> r = mkRange (blen a) (blen a + blen m) -> raw d (fun k => replace_raw k r x) = IOk (with_text d (a ++ x ++ b)) tt.
Proof. intros T ->. unfold raw. rewrite (replace_raw_app _ a m b) by (cbn; auto). reflexivity. Qed.
Lemma raw_insert d a b x : it d = a ++ b -> raw d (fun k => insert_raw k (blen a) x) = IOk (with_text d (a ++ x ++ b)) tt.
Proof. intros T. unfold raw. rewrite (insert_raw_app _ a b) by (cbn; auto). reflexivity. Qed.
Lemma with_text_twice d a b : with_text (with_text d a) b = with_text d b.
Proof. reflexivity. Qed.
Lemma with_text_same d : with_text d (it d) = d.
Proof. now destruct d. Qed.

(* ---- removal and modification ---- *)
Lemma in_split_block ty (bs : list block) : In ty (map fst bs) -> exists bs1 body bs2, bs = bs1 ++ (ty, body) :: bs2.
Proof. intros I. apply in_map_iff in I as ([k body] & <- & I). apply in_split in I as (a & b & ->). now exists a, body, b. Qed.
Lemma type_neq a b : a <> b -> section_type_eqb a b = false.
Proof. intros H. destruct (section_type_eqb a b) eqn:E; [|reflexivity]. apply section_type_eqb_eq in E. contradiction. Qed.
Lemma type_refl a : section_type_eqb a a = true.
Proof. now apply section_type_eqb_eq. Qed.
Lemma filter_all {A} (f : A -> bool) l : (forall x, In x l -> f x = true) -> filter f l = l.
Proof. induction l as [|x l IH]; intros H; [reflexivity|]. cbn [filter]. rewrite (H x) by now left. f_equal. apply IH. intros y I. apply H. now right. Qed.
Lemma drop_block ty bs1 body bs2 : NoDup (map fst (bs1 ++ (ty, body) :: bs2)) -> filter (fun b : block => negb (section_type_eqb ty (fst b))) (bs1 ++ (ty, body) :: bs2) = bs1 ++ bs2.
Proof.
  intros N. rewrite map_app in N. cbn [map fst] in N. apply NoDup_remove in N as [_ N]. rewrite in_app_iff in N. rewrite filter_app. cbn [filter fst]. rewrite type_refl. cbn [negb].
  rewrite !filter_all; [reflexivity| |]; intros b I; rewrite type_neq; auto; intros ->; apply N; [right|left]; now apply in_map.
Qed.
Lemma filter_two {A} (f g h : A -> bool) l : (forall x, In x l -> h x = f x && g x) -> filter g (filter f l) = filter h l.
Proof.
  induction l as [|x l IH]; intros H; [reflexivity|]. cbn [filter]. rewrite (H x) by now left. assert (IH' := IH (fun y I => H y (or_intror I))). destruct (f x); cbn [filter andb]; [destruct (g x)|]; now rewrite IH'.
Qed.
Lemma nth_type_inj (kinds : list section_type) i j k : NoDup kinds -> nth_error kinds i = Some k -> nth_error kinds j = Some k -> i = j.
Proof. intros N I J. apply (proj1 (NoDup_nth_error kinds) N); [apply nth_error_Some; congruence|congruence]. Qed.
Lemma removed_ok pre kinds l : headless pre -> NoDup kinds -> map section_type_of l = kinds -> forall is d bs, it d = pre ++ render bs -> Forall (fun b => headless (snd b)) bs -> NoDup (map fst bs) -> NoDup is ->
  (forall i k, In i is -> nth_error kinds i = Some k -> In k (map fst bs)) ->
  apply_removed d l is = IOk (with_text d (pre ++ render (filter (fun b => negb (existsb (names kinds (fst b)) is)) bs))) tt.
Proof.
  intros P NK L. induction is as [|i is IH]; intros d bs T F N NI H.
  - cbn [apply_removed existsb]. rewrite filter_all by reflexivity. now rewrite <- T, with_text_same.
  - apply NoDup_cons_iff in NI as [NI1 NI2]. cbn [apply_removed]. assert (E : nth_error kinds i = option_map section_type_of (nth_error l i)) by (rewrite <- L; apply nth_error_map).
    destruct (nth_error l i) as [s|]; cbn [option_map] in E.
    + destruct (in_split_block (section_type_of s) bs) as (bs1 & body & bs2 & ->); [apply (H i); [now left|exact E]|].
      rewrite T, (section_range_at pre bs1 bs2 body s P F N). rewrite (raw_delete d (pre ++ render bs1) (block_text (section_type_of s, body)) (render bs2)); [|rewrite T, render_app, render_cons, app_assoc; reflexivity|reflexivity].
      cbn [ibind]. rewrite <- app_assoc, <- render_app, <- (drop_block _ _ _ _ N).
      rewrite (IH _ (filter (fun b : block => negb (section_type_eqb (section_type_of s) (fst b))) (bs1 ++ (section_type_of s, body) :: bs2))); [|reflexivity| | |exact NI2|].
      * rewrite with_text_twice. do 3 f_equal. rewrite (filter_two _ _ (fun b : block => negb (existsb (names kinds (fst b)) (i :: is)))); [reflexivity|]. intros b _. cbn [existsb]. unfold names at 1. rewrite E. now rewrite negb_orb.
      * apply Forall_forall. intros b I. apply filter_In in I as [I _]. rewrite Forall_forall in F. now apply F.
      * rewrite (drop_block _ _ _ _ N). rewrite map_app in *. cbn [map fst] in N. now apply NoDup_remove_1 in N.
      * intros j k J K. assert (section_type_of s <> k) by (intros <-; apply NI1; rewrite (nth_type_inj kinds i j _ NK E K); exact J).
        specialize (H j k (or_intror J) K). apply in_map_iff in H as (b & <- & B). apply in_map. apply filter_In. split; [exact B|]. now rewrite type_neq.
    + rewrite (IH d bs T F N NI2) by (intros j k J; apply (H j k); now right). do 4 f_equal. apply filter_ext. intros b. cbn [existsb]. unfold names at 2. now rewrite E.
Qed.
Lemma modified_ok pre kinds l : headless pre -> NoDup kinds -> map section_type_of l = kinds -> forall ms d bs, it d = pre ++ render bs -> Forall (fun b => headless (snd b)) bs -> NoDup (map fst bs) -> NoDup (map fst ms) ->
  Forall (fun p => headless (snd p)) ms -> (forall i k, In i (map fst ms) -> nth_error kinds i = Some k -> In k (map fst bs)) ->
  apply_modified d l (with_headers kinds ms) = IOk (with_text d (pre ++ render (map (rewritten kinds ms) bs))) tt.
Proof.
  intros P NK L. induction ms as [|[i x] ms IH]; intros d bs T F N NM C H.
  - cbn [with_headers map apply_modified]. replace (map (rewritten kinds []) bs) with bs; [now rewrite <- T, with_text_same|]. symmetry. apply map_id.
  - cbn [map fst] in NM. apply NoDup_cons_iff in NM as [NM1 NM2]. apply Forall_cons_iff in C as [C1 C2]. cbn [snd] in C1. unfold with_headers. cbn [map fst snd apply_modified]. unfold header_at at 1. fold (with_headers kinds ms). assert (E : nth_error kinds i = option_map section_type_of (nth_error l i)) by (rewrite <- L; apply nth_error_map).
    destruct (nth_error l i) as [s|]; cbn [option_map] in E.
    + destruct (in_split_block (section_type_of s) bs) as (bs1 & body & bs2 & ->); [apply (H i); [now left|exact E]|].
      rewrite T, (section_range_at pre bs1 bs2 body s P F N), E. rewrite (raw_replace d (pre ++ render bs1) (block_text (section_type_of s, body)) (render bs2)); [|rewrite T, render_app, render_cons, app_assoc; reflexivity|reflexivity].
      cbn [ibind]. change (section_header (section_type_of s) ++ x) with (block_text (section_type_of s, x)). rewrite <- app_assoc, <- render_cons, <- render_app.
      assert (TY : map fst (bs1 ++ (section_type_of s, x) :: bs2) = map fst (bs1 ++ (section_type_of s, body) :: bs2)) by (rewrite !map_app; reflexivity).
      rewrite (IH _ (bs1 ++ (section_type_of s, x) :: bs2)); [|reflexivity| |rewrite TY; exact N|exact NM2|exact C2|].
      * rewrite with_text_twice. do 4 f_equal. rewrite !map_app. cbn [map]. rewrite map_app in N. cbn [map fst] in N. apply NoDup_remove in N as [_ N]. rewrite in_app_iff in N.
        assert (O : forall b : block, fst b <> section_type_of s -> rewritten kinds ms b = rewritten kinds ((i, x) :: ms) b).
        { intros b B. unfold rewritten. cbn [find fst]. unfold names at 2. rewrite E, type_neq by (intros Q; apply B; now rewrite Q). reflexivity. }
        f_equal; [apply map_ext_in; intros b B; apply O; intros Q; apply N; left; rewrite <- Q; now apply in_map|]. f_equal; [|apply map_ext_in; intros b B; apply O; intros Q; apply N; right; rewrite <- Q; now apply in_map].
        unfold rewritten. cbn [find fst]. unfold names at 2. rewrite E, type_refl.
        assert (Z : find (fun p => names kinds (section_type_of s) (fst p)) ms = None); [|now rewrite Z].
        destruct (find _ ms) as [[j y]|] eqn:Q; [|reflexivity]. exfalso. apply find_some in Q as [Q1 Q2]. unfold names in Q2. cbn [fst] in Q2. destruct (nth_error kinds j) as [k|] eqn:K; [|discriminate Q2]. apply section_type_eqb_eq in Q2. subst k. apply NM1. rewrite (nth_type_inj kinds i j _ NK E K). apply (in_map fst _ _ Q1).
      * rewrite Forall_app, Forall_cons_iff in *. tauto.
      * intros j k J K. rewrite TY. apply (H j k); [now right|exact K].
    + rewrite (IH d bs T F N NM2 C2) by (intros j k J; apply (H j k); now right). do 4 f_equal. apply map_ext. intros b. unfold rewritten. cbn [find fst]. unfold names at 2. now rewrite E.
Qed.

(* ---- added sections ---- *)
Lemma unsnoc_last {A} (l : list A) (x d : A) : unsnoc (l ++ [x]) = Some (l, x) /\ last (l ++ [x]) d = x.
Proof.
  split; [|apply last_last]. induction l as [|y l IH]; [reflexivity|]. cbn [app unsnoc]. now rewrite IH.
Qed.
Lemma ended_ok t : t <> [] -> ended t = if ends_nl t then t else t ++ [10%N].
Proof.
  intros N. destruct (exists_last N) as (l & c & ->). unfold ended, ends_nl. destruct (unsnoc_last l c 0%N) as [-> ->]. destruct (l ++ [c]) eqn:E; [destruct l; discriminate E|]. rewrite <- E. destruct (N.eqb_spec c 10) as [->|Q]; [reflexivity|].
  destruct c as [|p]; [reflexivity|]. repeat (destruct p as [p|p|]; try reflexivity). destruct Q. reflexivity.
Qed.
Lemma append_ok d x : append d x = IOk (with_text d (it d ++ x)) tt.
Proof. unfold append. rewrite (raw_insert d (it d) [] x) by now rewrite app_nil_r. now rewrite app_nil_r. Qed.
Lemma append_section_ok d x : append_section d x = IOk (with_text d (add_section (it d) x)) tt.
Proof.
  unfold append_section. assert (E : (if (0 <? blen (it d)) && negb (ends_nl (it d)) then append d [10%N] else IOk d tt) = IOk (with_text d (ended (it d))) tt).
  { destruct (it d) as [|c t] eqn:T; [change (0 <? blen []) with false; cbn [andb ended]; now rewrite <- T, with_text_same|]. rewrite <- T, ended_ok by (rewrite T; discriminate).
    destruct (Nat.ltb_spec 0 (blen (it d))) as [_|Q]; [|rewrite T in Q; pose proof (blen_pos c t); lia]. cbn [andb]. destruct (ends_nl (it d)); cbn [negb]; [now rewrite with_text_same|apply append_ok]. }
  rewrite E. cbn [ibind]. rewrite append_ok. cbn [ibind with_text it]. unfold add_section. destruct x as [|c x]; [change (ends_nl []) with false; cbv iota; rewrite append_ok; cbn [with_text it]; now rewrite app_nil_r, with_text_twice|].
  rewrite (ended_ok (c :: x)) by discriminate. destruct (ends_nl (c :: x)); [reflexivity|]. rewrite append_ok. cbn [with_text it]. now rewrite <- app_assoc.
Qed.
Lemma added_ok l : forall d, apply_added d l = IOk (with_text d (fold_left add_section l (it d))) tt.
Proof.
  induction l as [|x l IH]; intros d; [cbn; now rewrite with_text_same|]. cbn [apply_added fold_left]. rewrite append_section_ok. cbn [ibind]. rewrite IH. reflexivity.
Qed.
Lemma iparse_ok {A} d (f : script -> iout A) sc : parse (it d) = Done sc -> iparse d f = f sc.
Proof. intros E. unfold iparse. now rewrite E. Qed.

Lemma kept_sub removed (bs : list block) k : In k (map fst (kept removed bs)) -> In k (map fst bs).
Proof. intros I. apply in_map_iff in I as (b & <- & I). apply filter_In in I as [I _]. now apply in_map. Qed.
Lemma NoDup_filter_map (f : block -> bool) bs : NoDup (map fst bs) -> NoDup (map fst (filter f bs)).
Proof.
  induction bs as [|b bs IH]; intros N; [constructor|]. cbn [map] in N. apply NoDup_cons_iff in N as [N1 N2]. cbn [filter]. destruct (f b); [|now apply IH]. cbn [map]. constructor; [|now apply IH]. intros I. apply N1. apply in_map_iff in I as (c & E & I). apply filter_In in I as [I _]. rewrite <- E. now apply in_map.
Qed.
Lemma apply_delta_ok d pre bs sc removed ms added : cut_into (it d) pre bs -> parse (it d) = Done sc -> map section_type_of (sc_sections sc) = map fst bs ->
  NoDup removed -> NoDup (map fst ms) -> (forall i, In i removed -> ~ In i (map fst ms)) -> Forall (fun p => headless (snd p)) ms ->
  apply_script_delta d (Owned added (with_headers (map fst bs) ms) removed) =
    IOk (with_text d (fold_left add_section added (pre ++ render (map (rewritten (map fst bs) ms) (kept removed bs))))) tt.
Proof.
  intros (T & P & F & N) E K NR NM D C. unfold apply_script_delta. rewrite (iparse_ok d _ sc E). unfold apply_internal. rewrite (iparse_ok d _ sc E). cbn [ow_removed ow_modified ow_added].
  pose proof (sort_perm (fun a b => b <=? a) removed) as S. fold (descending removed) in S.
  rewrite (removed_ok pre (map fst bs) _ P N K _ d bs T F N); [|now apply (Permutation_NoDup S)|intros i k _ I; exact (nth_error_In _ _ I)].
  cbn [ibind].
  assert (X : filter (fun b : block => negb (existsb (names (map fst bs) (fst b)) (descending removed))) bs = kept removed bs).
  { apply filter_ext. intros b. f_equal. apply Bool.eq_iff_eq_true. rewrite !existsb_exists. split; intros (i & I & Q); exists i; (split; [|exact Q]); [now apply (Permutation_in _ (Permutation_sym S))|now apply (Permutation_in _ S)]. }
  rewrite X. rewrite (modified_ok pre (map fst bs) _ P N K ms _ (kept removed bs)); [|reflexivity| |now apply NoDup_filter_map|exact NM|exact C|].
  - cbn [ibind]. rewrite with_text_twice, added_ok. cbn [ibind with_text it]. destruct (parse_done None (fold_left add_section added (pre ++ render (map (rewritten (map fst bs) ms) (kept removed bs))))) as (sc2 & E2). rewrite (iparse_ok _ _ sc2) by exact E2. reflexivity.
  - apply Forall_forall. intros b I. apply filter_In in I as [I _]. rewrite Forall_forall in F. now apply F.
  - intros i k I J. assert (M : In k (map fst bs)) by exact (nth_error_In _ _ J). apply in_map_iff in M as (b & <- & M). apply in_map. apply filter_In. split; [exact M|]. apply negb_true_iff. destruct (existsb _ removed) eqn:Q; [|reflexivity]. exfalso.
    apply existsb_exists in Q as (j & Q1 & Q2). unfold names in Q2. destruct (nth_error (map fst bs) j) as [k|] eqn:JK; [|discriminate Q2]. apply section_type_eqb_eq in Q2. subst k. apply (D j Q1). rewrite (nth_type_inj _ j i _ N JK J). exact I.
Qed.

(* ---- incremental edits ---- *)
Lemma line_range_fine s : forall cur a b line start, (line + newlines s <= u32_max)%N -> exists v, line_range_loop s cur a b line start = Ok v.
Proof.
  induction s as [|c s IH]; intros cur a b line start H; [cbn; eauto|]. cbn [line_range_loop]. destruct (b <=? cur); [eauto|]. unfold newlines in H. cbn [filter] in H. destruct (is_nl c).
  - cbn [List.length] in H. unfold u32_add. destruct (N.ltb_spec u32_max (line + 1)) as [L|L]; [lia|]. cbn [res_bind]. apply IH. unfold newlines. lia.
  - apply IH. exact H.
Qed.
Lemma irange_ok d a m b : it d = a ++ m ++ b -> irange d (mkRange (blen a) (blen a + blen m)) = Ok m.
Proof. intros T. unfold irange. apply (text_range_app _ a m b); auto. Qed.
Lemma boundary_at s n a b : s = a ++ b -> blen a = n -> is_boundary s n = true.
Proof. intros E L. apply is_boundary_spec. now exists a, b. Qed.
Definition fits (c : str) (n k : nat) : Prop := exists a m b, c = a ++ m ++ b /\ blen a = n /\ blen m = k.
Lemma build_fits c a m b x : c = a ++ m ++ b -> build_modified_source c (blen a) (blen a + blen m) x = Ok (a ++ x ++ b).
Proof.
  intros ->. unfold build_modified_source. destruct (Nat.ltb_spec (blen a + blen m) (blen a)); [lia|]. destruct (Nat.ltb_spec (blen (a ++ m ++ b)) (blen a + blen m - blen a)) as [Q|_]; [rewrite !blen_app in Q; lia|].
  rewrite slice_to_app. cbn [or_panic res_bind]. rewrite app_assoc, <- blen_app, slice_from_app. reflexivity.
Qed.
Lemma build_unfit c n k x : ~ fits c n k -> build_modified_source c n (n + k) x = Panic.
Proof.
  intros H. unfold build_modified_source. destruct (Nat.ltb_spec (n + k) n); [lia|]. destruct (blen c <? n + k - n); [reflexivity|].
  destruct (slice_to c n) as [p|] eqn:P; [|reflexivity]. cbn [or_panic res_bind]. destruct (slice_from c (n + k)) as [q|] eqn:Q; [|reflexivity]. exfalso. apply H.
  apply slice_from_spec in Q as (u & -> & U). unfold slice_to in P. destruct (cut (u ++ q) n) as [[a b]|] eqn:C; [|discriminate P]. injection P as <-. apply cut_spec in C as [C L].
  apply app_eq_app in C as (w & [[-> C]|[-> C]]).
  - exists a, w, q. rewrite blen_app in U. repeat split; [now rewrite <- app_assoc|exact L|lia].
  - rewrite blen_app in L. assert (k = 0 /\ blen w = 0) as [-> W] by lia. destruct w as [|c w]; [|pose proof (blen_pos c w); lia]. exists u, [], q. cbn [app blen]. repeat split. lia.
Qed.
Section Show.
Context (show : section -> str).
Lemma partial_fits c sc a m b x : c = a ++ m ++ b -> (1 + newlines c <= u32_max)%N -> exists dl, parse_partial c sc (mkRange (blen a) (blen a + blen m)) x = Done (a ++ x ++ b, dl).
Proof.
  intros E L. unfold parse_partial. cbn [r_start r_end]. rewrite (build_fits c a m b x E). unfold calculate_line_range. destruct (line_range_fine c 0 (blen a) (blen a + blen m) 1 0 L) as [v ->].
  destruct (incremental_done sc (a ++ x ++ b) (Change (blen a) (blen a + blen m) x)) as [sc' ->]; [cbn; lia|]. cbn [bind]. eauto.
Qed.
Lemma reparse_ok d t : exists o, full_reparse show d t = IOk (with_cache d (Some t) 0 0) o.
Proof.
  unfold full_reparse. destruct (parse_done None t) as [sc E]. unfold parse. rewrite E. destruct (ic d) as [c|]; [|eauto]. destruct (parse_done None c) as [sc' E']. rewrite E'. eauto.
Qed.
Definition usable (d : idoc) (n k : nat) : Prop :=
  ic d = None \/ ithreshold d <= ichanged d \/ exists c, ic d = Some c /\ fits c n k /\ (1 + newlines c <= u32_max)%N.
Lemma change_ok d a m b x : it d = a ++ m ++ b -> usable d (blen a) (blen m) -> exists c n p o, apply_change show d (mkRange (blen a) (blen a + blen m)) x = IOk (with_cache d c n p) o.
Proof.
  intros T U. unfold apply_change. destruct (ic d) as [c|] eqn:C.
  - destruct (Nat.leb_spec (ithreshold d) (ichanged d)) as [L|L].
    + destruct (reparse_ok d (it d)) as [o ->]. eauto 6.
    + destruct U as [U|[U|(c' & E & (a' & m' & b' & F & F1 & F2) & N)]]; [congruence|lia|]. rewrite C in E. injection E as <-.
      cbn [r_start r_end]. destruct (Nat.ltb_spec (blen (it d)) (blen a + blen m)) as [Q|_]; [rewrite T, !blen_app in Q; lia|]. destruct (Nat.ltb_spec (blen a + blen m) (blen a)); [lia|]. cbn [orb].
      rewrite (boundary_at (it d) (blen a) a (m ++ b)) by auto. rewrite (boundary_at (it d) (blen a + blen m) (a ++ m) b) by (rewrite ?blen_app, <- ?app_assoc; auto). cbn [negb orb].
      rewrite T, slice_app. destruct (parse_done None c) as [sc E]. unfold parse. rewrite E. rewrite <- F1, <- F2. destruct (partial_fits c sc a' m' b' x F N) as [dl ->]. eauto 6.
  - destruct (reparse_ok d (it d)) as [o ->]. eauto 6.
Qed.
Lemma delta_of_ok d a m b x : it d = a ++ m ++ b -> usable d (blen a) (blen m) -> exists c n p o, delta_of show d (mkRange (blen a) (blen a + blen m)) x = IOk (with_cache d c n p) o.
Proof. intros T U. unfold delta_of. destruct (change_ok d a m b x T U) as (c & n & p & o & ->). eauto 6. Qed.
Lemma slow_ok d a m b x c n p o : it d = a ++ m ++ b -> is_simple_edit (mkRange (blen a) (blen a + blen m)) x = false ->
  delta_of show d (mkRange (blen a) (blen a + blen m)) x = IOk (with_cache d c n p) o ->
  exists sc, parse (it d) = Done sc /\ edit_incremental show d (mkRange (blen a) (blen a + blen m)) x =
    IOk (IDoc (a ++ x ++ b) (DeltaOp o (capture (it d) sc o) :: iu d) [] c n (ithreshold d) p) o.
Proof.
  intros T S D. destruct (parse_done None (it d)) as [sc E]. exists sc. split; [exact E|]. unfold edit_incremental. rewrite S, (irange_ok d a m b T), D. cbn [ibind]. rewrite (iparse_ok _ _ sc) by exact E. cbv zeta. rewrite (raw_replace _ a m b _ x) by (try exact T; reflexivity). reflexivity.
Qed.
Lemma fast_ok d a m b x : it d = a ++ m ++ b -> exists o, fast_path d (mkRange (blen a) (blen a + blen m)) x = IOk (record (with_text d (a ++ x ++ b)) (Simple (OpReplace (mkRange (blen a) (blen a + blen m)) m x))) o.
Proof.
  intros T. unfold fast_path. cbn [r_start r_end]. rewrite (boundary_at (it d) (blen a) a (m ++ b)) by auto. rewrite (boundary_at (it d) (blen a + blen m) (a ++ m) b) by (rewrite ?blen_app, <- ?app_assoc; auto). cbn [negb orb].
  assert (M : (if range_is_empty (mkRange (blen a) (blen a + blen m)) then Ok [] else irange d (mkRange (blen a) (blen a + blen m))) = Ok m).
  { unfold range_is_empty. cbn [r_start r_end]. destruct (Nat.eqb_spec (blen a) (blen a + blen m)) as [Q|_]; [|now apply (irange_ok d a m b)]. destruct m as [|c m]; [reflexivity|]. pose proof (blen_pos c m). lia. }
  rewrite M. rewrite (raw_replace d a m b _ x T eq_refl). cbn [ibind]. eauto.
Qed.
Lemma panics_ok d a m b x c : it d = a ++ m ++ b -> is_simple_edit (mkRange (blen a) (blen a + blen m)) x = false -> ic d = Some c -> ichanged d < ithreshold d -> ~ fits c (blen a) (blen m) ->
  edit_incremental show d (mkRange (blen a) (blen a + blen m)) x = IPanic.
Proof.
  intros T S C L F. unfold edit_incremental. rewrite S, (irange_ok d a m b T). unfold delta_of, apply_change. rewrite C. destruct (Nat.leb_spec (ithreshold d) (ichanged d)); [lia|].
  cbn [r_start r_end]. destruct (Nat.ltb_spec (blen (it d)) (blen a + blen m)) as [Q|_]; [rewrite T, !blen_app in Q; lia|]. destruct (Nat.ltb_spec (blen a + blen m) (blen a)); [lia|]. cbn [orb].
  rewrite (boundary_at (it d) (blen a) a (m ++ b)) by auto. rewrite (boundary_at (it d) (blen a + blen m) (a ++ m) b) by (rewrite ?blen_app, <- ?app_assoc; auto). cbn [negb orb].
  rewrite T, slice_app. destruct (parse_done None c) as [sc E]. unfold parse. rewrite E. unfold parse_partial. cbn [r_start r_end]. rewrite build_unfit by exact F. reflexivity.
Qed.
End Show.
