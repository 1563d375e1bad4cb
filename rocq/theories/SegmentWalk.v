(* The walk over the text of an event. *)
From Verif Require Import Base BaseLemmas SegmentModel SegmentSpec SegmentProofs SegmentBlock TagProofs TextProofs.

Definition rest_text (rest : list (str * list seg)) : str := flat_map (fun b => seg_text (Block (fst b)) ++ source (snd b)) rest.
Lemma runs_source l : source l = source (fst (runs l)) ++ rest_text (snd (runs l)).
Proof.
  induction l as [|s l IH]; [reflexivity|]. destruct s as [c|d|x]; cbn [runs fst snd].
  - unfold source in *. cbn [flat_map]. rewrite IH. now rewrite app_assoc.
  - unfold source in *. cbn [flat_map]. rewrite IH. now rewrite app_assoc.
  - unfold source in *. cbn [flat_map rest_text fst snd app]. rewrite IH, <- !app_assoc. reflexivity.
Qed.
Lemma runs_ok l : Forall seg_ok l -> Forall (fun s => seg_ok s /\ not_block s) (fst (runs l)) /\
  Forall (fun b => seg_ok (Block (fst b)) /\ Forall (fun s => seg_ok s /\ not_block s) (snd b)) (snd (runs l)).
Proof.
  induction 1 as [|s l S F [A B]]; [cbn; auto|]. destruct s as [c|d|x]; cbn [runs fst snd].
  - split; [constructor; [split; [exact S|intros x; discriminate]|exact A]|exact B].
  - split; [constructor; [split; [exact S|intros x; discriminate]|exact A]|exact B].
  - split; [constructor|]. constructor; [split; [exact S|exact A]|exact B].
Qed.
Lemma runs_blocks l : map fst (snd (runs l)) = flat_map (fun s => match s with Block x => [x] | _ => [] end) l.
Proof. induction l as [|s l IH]; [reflexivity|]. destruct s; cbn [runs fst snd flat_map app map]; congruence. Qed.

Lemma walk_run all l : forall rest segs t last cur pos ts d, Forall (fun s => seg_ok s /\ not_block s) l ->
  walk_text all (source l ++ rest) (Walk segs t last cur pos false ts d) = walk_text all rest (Walk segs t last (cur ++ seen l) (pos + blen (source l)) false ts d).
Proof.
  induction l as [|s l IH]; intros rest segs t last cur pos ts d F.
  - cbn. rewrite app_nil_r, Nat.add_0_r. reflexivity.
  - inversion F as [|? ? [OK NB] F']; subst. unfold source, seen in *. destruct s as [c|c|x]; [| |exfalso; exact (NB x eq_refl)].
    + destruct OK as [N1 N2]. cbn [flat_map seg_text shown app walk_text]. apply N.eqb_neq in N1. rewrite N1. cbn [negb andb].
      destruct (c =? 125)%N; cbn [andb]; unfold is_bs; apply N.eqb_neq in N2; rewrite N2; rewrite (IH rest) by exact F'; rewrite <- app_assoc; cbn [blen app]; f_equal; f_equal; lia.
    + cbn [flat_map seg_text shown app walk_text]. change (92 =? 123)%N with false. change (92 =? 125)%N with false. cbn [andb negb]. change (is_bs 92) with true. cbv iota.
      rewrite (IH rest) by exact F'. rewrite <- app_assoc. cbn [blen]. change (len_utf8 92) with 1. rewrite orb_comm. f_equal. f_equal. lia.
Qed.
Lemma walk_inside all x : forall rest segs t last pos ts d, 1 <= d -> ins (Z.of_nat d - 1) x ->
  walk_text all (x ++ rest) (Walk segs t last [] pos true ts d) = walk_text all rest (Walk segs t last [] (pos + blen x) true ts (Z.to_nat (Z.of_nat d + braces x))).
Proof.
  induction x as [|c x IH]; intros rest segs t last pos ts d D K.
  - cbn [app blen braces]. rewrite Nat.add_0_r, Z.add_0_r, Nat2Z.id. reflexivity.
  - apply ins_cons in K as [K1 K2]. pose proof (K2 [] x eq_refl) as K3. cbn [braces] in K3. cbn [app walk_text blen braces]. destruct (c =? 123)%N eqn:E1.
    + cbn [negb]. rewrite (IH rest); [|lia|replace (Z.of_nat (d + 1) - 1)%Z with (Z.of_nat d - 1 + 1)%Z by lia; exact K2].
      f_equal. f_equal; lia.
    + destruct (c =? 125)%N eqn:E2; cbn [andb negb].
      * destruct (Nat.eqb_spec (d - 1) 0) as [Q|Q]; [lia|].
        rewrite (IH rest); [|lia|replace (Z.of_nat (d - 1) - 1)%Z with (Z.of_nat d - 1 + -1)%Z by lia; exact K2]. f_equal. f_equal; lia.
      * rewrite (IH rest); [|lia|replace (Z.of_nat d - 1)%Z with (Z.of_nat d - 1 + 0)%Z by lia; exact K2]. f_equal. f_equal; lia.
Qed.
Definition flush (segs : list segment) (cur : str) (last pos : nat) (t : tags) : list segment := match cur with [] => segs | _ => segs ++ [Segment cur last pos t] end.
Lemma walk_block all u x rest segs t last cur ts d : all = u ++ seg_text (Block x) ++ rest -> seg_ok (Block x) ->
  walk_text all (seg_text (Block x) ++ rest) (Walk segs t last cur (blen u) false ts d) =
  bind (process_tag_block x t) (fun t' => walk_text all rest (Walk (flush segs cur last (blen u) t) t' (blen u + blen (seg_text (Block x))) [] (blen u + blen (seg_text (Block x))) false (blen u) 0)).
Proof.
  intros A [I B]. cbn [seg_text app walk_text]. change (123 =? 123)%N with true. cbn [negb]. change (len_utf8 123) with 1.
  assert (SL : slice all (blen u + 1) (blen u + 1 + blen x) = Some x).
  { rewrite A. cbn [seg_text app]. rewrite <- app_assoc. pose proof (slice_app (u ++ [123%N]) x ([125%N] ++ rest)) as K. rewrite blen_app in K. rewrite <- app_assoc in K. exact K. }
  assert (MAIN : forall segs2 last2, walk_text all ((x ++ [125%N]) ++ rest) (Walk segs2 t last2 [] (blen u + 1) true (blen u) 1) =
    bind (process_tag_block x t) (fun t' => walk_text all rest (Walk segs2 t' (blen u + S (blen (x ++ [125%N]))) [] (blen u + S (blen (x ++ [125%N]))) false (blen u) 0))).
  { intros segs2 last2. rewrite <- app_assoc. rewrite walk_inside; [|lia|exact I]. rewrite B. cbn [app walk_text]. change (125 =? 123)%N with false. change (125 =? 125)%N with true.
    cbn [andb negb]. change (Z.to_nat (Z.of_nat 1 + 0) - 1 =? 0) with true. cbv iota. rewrite SL. cbn [or_crash bind]. cbv zeta. rewrite blen_app. cbn [blen]. change (len_utf8 125) with 1.
    destruct (process_tag_block x t); cbn [bind]; [|reflexivity|reflexivity].
    replace (blen u + 1 + blen x + 1) with (blen u + S (blen x + (1 + 0))) by lia. reflexivity. }
  cbn [blen]. change (len_utf8 123) with 1. cbn [Nat.add] in MAIN |- *. destruct cur as [|c cur]; cbn [flush]; apply MAIN.
Qed.
Definition outputs (w : walk) (n : nat) : list segment := flush (wk_segments w) (wk_text w) (wk_last w) n (wk_tags w).
Lemma walk_rest all e : forall rest m u segs t ts d, ending_ok e -> all = u ++ source m ++ rest_text rest ++ ending_text e ->
  Forall (fun s => seg_ok s /\ not_block s) m -> Forall (fun b => seg_ok (Block (fst b)) /\ Forall (fun s => seg_ok s /\ not_block s) (snd b)) rest ->
  let r := walk_text all (source m ++ rest_text rest ++ ending_text e) (Walk segs t (blen u) [] (blen u) false ts d) in
  (Exists (fun b => fatal_block (fst b)) rest /\ r = Crash) \/
  (Forall (fun b => ~ fatal_block (fst b)) rest /\ exists new t' w, cut_up e (blen u) t m rest new t' /\ r = Done w /\ outputs w (blen all) = segs ++ new /\ wk_tags w = t' /\
     (new = [] -> wk_last w = blen all - blen (ending_text e) /\ wk_text w = [])).
Proof.
  induction rest as [|[x m2] rest IH]; intros m u segs t ts d OE A M R r.
  - right. split; [constructor|]. unfold r. clear r. cbn [rest_text flat_map app] in *. rewrite walk_run by exact M. cbn [app].
    pose proof (cu_last e (blen u) t m) as CU.
    destruct e as [| |x]; cbn [ending_text slash] in *.
    + cbn [walk_text]. rewrite !app_nil_r in *. eexists _, t, _. split; [exact CU|]. split; [reflexivity|]. unfold outputs, flush. cbn [wk_segments wk_text wk_last wk_tags].
      split; [rewrite A, blen_app; destruct (seen m); [now rewrite app_nil_r|reflexivity]|]. split; [reflexivity|]. destruct (seen m) eqn:SM; [|discriminate]. intros _. split; [|reflexivity].
      assert (m = []) as ->. { destruct m as [|s m]; [reflexivity|]. exfalso. inversion M as [|? ? [_ NB] _]; subst. unfold seen in SM. cbn [flat_map] in SM. destruct s as [c|c|y]; [discriminate SM| |exact (NB y eq_refl)].
        cbn [shown] in SM. destruct ((c =? 110)%N || (c =? 78)%N); [discriminate SM|]. destruct (c =? 104)%N; discriminate SM. }
      rewrite A. cbn. rewrite app_nil_r. lia.
    + cbn [walk_text]. change (92 =? 123)%N with false. change (92 =? 125)%N with false. cbn [andb negb]. change (is_bs 92) with true. cbv iota.
      eexists _, t, _. split; [exact CU|]. split; [reflexivity|]. unfold outputs, flush. cbn [wk_segments wk_text wk_last wk_tags].
      split; [rewrite A, !blen_app; destruct (seen m); reflexivity|]. split; [reflexivity|]. destruct (seen m); discriminate.
    + rewrite !app_nil_r in CU. cbn [walk_text]. change (123 =? 123)%N with true. cbn [negb].
      assert (EQ : forall segs2 last2, walk_text all x (Walk segs2 t last2 [] (blen u + blen (source m) + len_utf8 123) true (blen u + blen (source m)) 1) =
        Done (Walk segs2 t last2 [] (blen u + blen (source m) + len_utf8 123 + blen x) true (blen u + blen (source m)) (Z.to_nat (1 + braces x)))).
      { intros segs2 last2. pose proof (walk_inside all x [] segs2 t last2 (blen u + blen (source m) + len_utf8 123) (blen u + blen (source m)) 1 (le_n 1) OE) as K. rewrite app_nil_r in K. exact K. }
      destruct (seen m) as [|c cur] eqn:SM; rewrite EQ; (eexists _, t, _; split; [exact CU|]; split; [reflexivity|]; unfold outputs, flush; cbn [wk_segments wk_text wk_last wk_tags]; split; [|split; [reflexivity|]]).
      * now rewrite app_nil_r.
      * intros _. split; [|reflexivity].
        assert (m = []) as ->. { destruct m as [|s m]; [reflexivity|]. exfalso. inversion M as [|? ? [_ NB] _]; subst. unfold seen in SM. cbn [flat_map] in SM. destruct s as [c|c|y]; [discriminate SM| |exact (NB y eq_refl)].
          cbn [shown] in SM. destruct ((c =? 110)%N || (c =? 78)%N); [discriminate SM|]. destruct (c =? 104)%N; discriminate SM. }
        rewrite A, !blen_app. cbn. lia.
      * reflexivity.
      * discriminate.
  - inversion R as [|? ? [BX M2] R']; subst x0 l. cbn [fst snd] in *. unfold r. clear r. cbn [rest_text flat_map fst snd] in *. fold (rest_text rest) in *.
    rewrite walk_run by exact M. cbn [app].
    assert (P : blen u + blen (source m) = blen (u ++ source m)) by now rewrite blen_app. rewrite P. rewrite <- !app_assoc. rewrite <- !app_assoc in A.
    rewrite walk_block; [|rewrite A, <- !app_assoc; reflexivity|exact BX].
    destruct (block_is x t) as [[F H]|[F (t1 & H & BD)]]; rewrite H; cbn [bind]; [left; split; [now left|reflexivity]|].
    assert (P2 : blen (u ++ source m) + blen (seg_text (Block x)) = blen (u ++ source m ++ seg_text (Block x))) by (rewrite !blen_app; lia). rewrite P2.
    destruct (IH m2 (u ++ source m ++ seg_text (Block x)) (flush segs (seen m) (blen u) (blen (u ++ source m)) t) t1 (blen (u ++ source m)) 0 OE) as [[X K]|[X (new & t' & w & CU & K & O & T & L)]].
    + rewrite A, <- !app_assoc. reflexivity.
    + exact M2.
    + exact R'.
    + left. split; [now right|exact K].
    + right. split; [now constructor|]. eexists _, t', w. split; [eapply cu_block; [exact BD|]; rewrite P, P2; exact CU|]. split; [exact K|].
      rewrite O, <- P. destruct (seen m) as [|c cur] eqn:SM; cbn [flush]; [auto|]. split; [rewrite <- app_assoc; reflexivity|]. split; [exact T|discriminate].
Qed.

(* ---- the whole text ---- *)
Lemma reported_tags o ps ts ds : reported o ps ts ds -> (ts <> [] <-> exists n a, In (PTag n a) ps).
Proof.
  induction 1 as [o|o c r ts ds R IH|o n a v r ts ds V R IH|o d r ts ds R IH].
  - split; [contradiction|intros (n & a & [])].
  - rewrite IH. split; intros (n & a & H); exists n, a; [now right|destruct H as [H|H]; [discriminate H|exact H]].
  - split; [intros _; exists n, a; now left|discriminate].
  - rewrite IH. split; intros (n & a & H); exists n, a; [now right|destruct H as [H|H]; [discriminate H|exact H]].
Qed.
Lemma has_tag_iff x ps : x = pieces_text ps -> pieces_ok ps -> (has_tag x <-> exists n a, In (PTag n a) ps).
Proof.
  intros E K. split; [intros (ps' & n & a & E' & K' & I)|intros (n & a & I); exists ps, n, a; auto].
  assert (ps' = ps) as -> by (apply pieces_unique; congruence). eauto.
Qed.
Lemma nil_no_tag : ~ has_tag [].
Proof. intros (ps & n & a & E & K & I). destruct ps as [|p ps]; [exact I|]. cbn in E. destruct p as [c|m b|[d|]]; discriminate E. Qed.
Lemma tagged_tags o l ts ds : tagged o l ts ds -> (ts <> [] <-> Exists (fun s => match s with Block x => has_tag x | _ => False end) l).
Proof.
  induction 1 as [o|o x ps r ts ds ts' ds' NE E K R T IH|o r ts ds T IH|o s r ts ds NB T IH].
  - split; [contradiction|intros H; inversion H].
  - rewrite Exists_cons, <- IH, (has_tag_iff x ps E K), <- (reported_tags _ _ _ _ R).
    destruct ts as [|t ts]; [cbn [app]; split; [intros H; right; exact H|intros [H|H]; [contradiction|exact H]]|]. cbn [app]. split; [intros _; left; discriminate|discriminate].
  - rewrite Exists_cons, <- IH. split; [intros H; right; exact H|intros [H|H]; [exfalso; exact (nil_no_tag H)|exact H]].
  - rewrite Exists_cons, <- IH. destruct s as [c|d|x]; [| |exfalso; exact (NB x eq_refl)]; tauto.
Qed.
Lemma tagged_end_tags o e ts ds : tagged_end o e ts ds -> (ts <> [] <-> match e with EndOpen x => has_tag (removelast x) | _ => False end).
Proof.
  intros T. destruct T as [o|o|o c C|o x c ps ts ds C NE E K R].
  - tauto.
  - tauto.
  - cbn [removelast]. split; [contradiction|]. intros H. exfalso. exact (nil_no_tag H).
  - rewrite removelast_last, (has_tag_iff x ps E K). now apply reported_tags in R.
Qed.
Lemma fatal_blocks l : Exists (fun b => fatal_block (fst b)) (snd (runs l)) <-> Exists fatal_seg l.
Proof.
  induction l as [|s l IH]; [split; intros H; inversion H|]. destruct s as [c|d|x]; cbn [runs fst snd].
  - rewrite IH, Exists_cons. cbn. tauto.
  - rewrite IH, Exists_cons. cbn. tauto.
  - rewrite !Exists_cons, IH. reflexivity.
Qed.
Lemma segment_tagged l e : Forall seg_ok l -> ending_ok e -> Forall safe_seg l -> safe_end e -> tagged_text l e ->
  (Exists fatal_seg l /\ segment_text (event_text l e) = Crash) \/
  (~ Exists fatal_seg l /\ exists segs last, cut_up e 0 no_tags (fst (runs l)) (snd (runs l)) segs last /\
     segment_text (event_text l e) = Done (Some (all_segments l e segs last))).
Proof.
  intros OK OE SF SE TT. destruct (analyze_safe l e OK OE SF SE) as (plain & m & ts & ds & ts' & ds' & V & T & TE & AN).
  assert (NT : ts ++ ts' <> []).
  { destruct TT as [TT|TT]; [apply (tagged_tags _ _ _ _ T) in TT|apply (tagged_end_tags _ _ _ _ TE) in TT]; destruct ts; [contradiction|discriminate|exact TT|discriminate]. }
  unfold segment_text. rewrite AN. cbn [bind]. unfold finished. cbn [ta_tags ta_plain]. destruct (ts ++ ts') as [|t0 tr]; [contradiction|].
  destruct (runs_ok l OK) as [RM RR].
  assert (A : event_text l e = [] ++ source (fst (runs l)) ++ rest_text (snd (runs l)) ++ ending_text e).
  { unfold event_text. cbn [app]. rewrite app_assoc, <- runs_source. reflexivity. }
  pose proof (walk_rest (event_text l e) e (snd (runs l)) (fst (runs l)) [] [] no_tags 0 0 OE A RM RR) as W. cbv zeta in W. cbn [app] in A. rewrite <- A in W. cbn [blen] in W.
  rewrite fatal_blocks in W. destruct W as [[X W]|[X (new & t' & w & CU & W & O & TW & L)]]; rewrite W; cbn [bind].
  - left. split; [exact X|reflexivity].
  - right. split; [rewrite <- fatal_blocks; intros E; apply Exists_exists in E as (b & I & E); rewrite Forall_forall in X; exact (X b I E)|].
    exists new, t'. split; [exact CU|]. do 2 f_equal. cbn [app] in O. unfold outputs, flush in O. unfold all_segments. destruct new as [|s0 new].
    + destruct (L eq_refl) as [L1 L2]. rewrite L2 in O |- *. rewrite O. cbn [app]. rewrite L1, TW. do 2 f_equal. unfold event_text. rewrite blen_app. unfold source. lia.
    + destruct (wk_text w) as [|c cur]; [rewrite O; reflexivity|]. exact O.
Qed.
Lemma segment_untagged l e : Forall seg_ok l -> ending_ok e -> Forall safe_seg l -> safe_end e -> ~ tagged_text l e ->
  exists plain m, visible false l plain m /\ segment_text (event_text l e) = Done (Some [Segment plain 0 (blen (event_text l e)) no_tags]).
Proof.
  intros OK OE SF SE TT. destruct (analyze_safe l e OK OE SF SE) as (plain & m & ts & ds & ts' & ds' & V & T & TE & AN).
  assert (NT : ts ++ ts' = []).
  { destruct ts as [|t0 ts]; [|exfalso; apply TT; left; apply (tagged_tags _ _ _ _ T); discriminate]. destruct ts' as [|t0 ts']; [reflexivity|]. exfalso. apply TT. right. apply (tagged_end_tags _ _ _ _ TE). discriminate. }
  exists plain, m. split; [exact V|]. unfold segment_text. rewrite AN. cbn [bind]. unfold finished. cbn [ta_tags ta_plain]. rewrite NT. reflexivity.
Qed.
Lemma segment_fails l e : Forall seg_ok l -> ending_ok e -> ~ (Forall safe_seg l /\ safe_end e) -> segment_text (event_text l e) = Crash.
Proof. intros OK OE N. unfold segment_text. rewrite analyze_unsafe by assumption. reflexivity. Qed.
Lemma segment_deep l tail : Forall seg_ok l -> Forall safe_seg l -> too_deep tail -> segment_text (flat_map seg_text l ++ tail) = Done None.
Proof. intros OK S D. unfold segment_text. rewrite analyze_deep by assumption. reflexivity. Qed.
Lemma segment_deep_fails l tail : Forall seg_ok l -> ~ Forall safe_seg l -> segment_text (flat_map seg_text l ++ tail) = Crash.
Proof. intros OK S. unfold segment_text. rewrite analyze_unsafe_before by assumption. reflexivity. Qed.

(* ---- the segments together ---- *)
Definition rest_seen (rest : list (str * list seg)) : str := flat_map (fun b => seen (snd b)) rest.
Lemma runs_seen l : seen l = seen (fst (runs l)) ++ rest_seen (snd (runs l)).
Proof.
  unfold seen. induction l as [|s l IH]; [reflexivity|]. destruct s as [c|d|x]; cbn [runs fst snd flat_map].
  - rewrite IH. now rewrite app_assoc.
  - rewrite IH. now rewrite app_assoc.
  - cbn [shown app rest_seen flat_map fst snd]. exact IH.
Qed.
Lemma cut_text e o t m rest segs last : cut_up e o t m rest segs last -> flat_map sg_text segs = seen m ++ rest_seen rest ++ slash e.
Proof.
  induction 1 as [o t m|o t m x m2 rest t' segs last B C IH].
  - cbn [rest_seen flat_map app]. destruct (seen m ++ slash e) as [|c s] eqn:E; [reflexivity|]. cbn [flat_map sg_text]. now rewrite app_nil_r.
  - cbn [rest_seen flat_map snd]. fold (rest_seen rest). destruct (seen m) as [|c s]; cbn [flat_map sg_text app]; rewrite IH, <- ?app_assoc; reflexivity.
Qed.
Lemma placed_down n o o' l : placed n o l -> o' <= o -> placed n o' l.
Proof. intros P L. destruct P as [o P|o s r A B C P]; constructor; try assumption; lia. Qed.
Lemma seen_source m : Forall (fun s => seg_ok s /\ not_block s) m -> seen m <> [] -> 1 <= blen (source m).
Proof.
  intros F NE. destruct m as [|s m]; [contradiction|]. unfold source. cbn [flat_map]. rewrite blen_app. destruct s as [c|c|x]; cbn [seg_text blen].
  - pose proof (len_utf8_pos c). lia.
  - pose proof (len_utf8_pos 92). lia.
  - pose proof (len_utf8_pos 123). lia.
Qed.
Lemma cut_placed e o t m rest segs last : cut_up e o t m rest segs last -> Forall (fun s => seg_ok s /\ not_block s) m ->
  Forall (fun b => seg_ok (Block (fst b)) /\ Forall (fun s => seg_ok s /\ not_block s) (snd b)) rest ->
  placed (o + blen (source m ++ rest_text rest ++ slash e)) o segs.
Proof.
  induction 1 as [o t m|o t m x m2 rest t' segs last B C IH]; intros M R.
  - cbn [rest_text flat_map app]. destruct (seen m ++ slash e) as [|c s] eqn:E; [constructor; lia|].
    constructor; cbn [sg_start sg_end sg_text]; [lia| |discriminate|constructor; lia]. rewrite blen_app. destruct (seen m) as [|d u] eqn:SM.
    + cbn [app] in E. rewrite E. cbn [blen]. pose proof (len_utf8_pos c). lia.
    + pose proof (seen_source m M). rewrite SM in H. specialize (H ltac:(discriminate)). lia.
  - inversion R as [|? ? [BX M2] R']; subst. cbn [fst snd] in *. specialize (IH M2 R').
    assert (EQ : o + blen (source m) + blen (seg_text (Block x)) + blen (source m2 ++ rest_text rest ++ slash e) = o + blen (source m ++ rest_text ((x, m2) :: rest) ++ slash e)).
    { cbn [rest_text flat_map fst snd]. fold (rest_text rest). rewrite !blen_app. lia. }
    rewrite EQ in IH. destruct (seen m) as [|c u] eqn:SM; [eapply placed_down; [exact IH|lia]|].
    constructor; cbn [sg_start sg_end sg_text]; [lia| |discriminate|eapply placed_down; [exact IH|lia]]. pose proof (seen_source m M). rewrite SM in H. specialize (H ltac:(discriminate)). lia.
Qed.
Lemma cut_shows e : forall rest o t m segs last u all, cut_up e o t m rest segs last -> Forall (fun s => seg_ok s /\ not_block s) m ->
  Forall (fun b => seg_ok (Block (fst b)) /\ Forall (fun s => seg_ok s /\ not_block s) (snd b)) rest -> o = blen u ->
  (exists v, all = u ++ source m ++ rest_text rest ++ slash e ++ v) -> Forall (shows all) segs.
Proof.
  induction rest as [|[x m2] rest IH]; intros o t m segs last u all C M R O (v & A); inversion C as [? ? ?|? ? ? ? ? ? t' segs' ? B C']; subst.
  - destruct (seen m ++ slash e) as [|c s] eqn:E; [constructor|]. constructor; [|constructor]. exists u, (source m ++ slash e), v. cbn [sg_start sg_end sg_text].
    split; [cbn [rest_text flat_map app]; now rewrite <- app_assoc|]. split; [reflexivity|]. split; [reflexivity|].
    exists m, (match e with EndSlash => true | _ => false end). split; [exact M|]. rewrite <- E. destruct e; auto.
  - inversion R as [|? ? [BX M2] R']; subst. cbn [fst snd] in *.
    assert (F : Forall (shows (u ++ source m ++ rest_text ((x, m2) :: rest) ++ slash e ++ v)) segs').
    { eapply (IH _ t' m2 segs' last (u ++ source m ++ seg_text (Block x)) _ C' M2 R'); [rewrite !blen_app; lia|].
      exists v. cbn [rest_text flat_map fst snd]. fold (rest_text rest). rewrite <- !app_assoc. reflexivity. }
    destruct (seen m) as [|c s] eqn:SM; [exact F|]. constructor; [|exact F]. exists u, (source m), (rest_text ((x, m2) :: rest) ++ slash e ++ v). cbn [sg_start sg_end sg_text].
    split; [reflexivity|]. split; [reflexivity|]. split; [reflexivity|]. exists m, false. split; [exact M|]. rewrite !app_nil_r, SM. auto.
Qed.
