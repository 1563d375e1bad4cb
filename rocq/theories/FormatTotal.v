(* Which calls can stop, and how many events come out. *)
From Verif Require Import Base BaseLemmas NumSpec NumProofs Utf8Model Utf8Proofs ParseModel ParseSpec ParseLineProofs ParseProofs StyleModel FormatModel FormatSpec FormatText FormatFile FormatProofs.

(* ---- FormatConverter import ---- *)
Lemma of_opt_calm {A} (o : option A) : of_opt o <> Panic. Proof. destruct o; discriminate. Qed.
Lemma bind_calm {A B} (r : res A) (f : A -> res B) : r <> Panic -> (forall a, r = Ok a -> f a <> Panic) -> (x <~ r ; f x) <> Panic.
Proof. destruct r as [a| |]; cbn [res_bind]; intros H1 H2; [apply H2; reflexivity|discriminate|congruence]. Qed.
Lemma split_on_ne p s : split_on p s <> [].
Proof. induction s as [|c s IH]; [discriminate|]. cbn [split_on]. destruct (p c); [discriminate|]. destruct (split_on p s); discriminate. Qed.
Lemma dot_time_calm h m s : dot_time h m s <> Panic.
Proof.
  unfold dot_time. destruct (split_on (is_c 46) s) eqn:E; [exfalso; exact (split_on_ne _ _ E)|]. apply bind_calm; [apply of_opt_calm|discriminate].
Qed.
Lemma conv_srt_time_calm t : conv_srt_time t <> Panic.
Proof.
  unfold conv_srt_time. destruct (split_on is_colon _) as [|a [|b [|c [|d r]]]]; try discriminate.
  apply bind_calm; [apply of_opt_calm|intros h _]. apply bind_calm; [apply of_opt_calm|intros m _]. apply dot_time_calm.
Qed.
Lemma conv_vtt_time_calm t : conv_vtt_time t <> Panic.
Proof.
  unfold conv_vtt_time. destruct (split_on is_colon _) as [|a [|b [|c [|d r]]]]; try discriminate;
  (apply bind_calm; [apply of_opt_calm|intros m _]; apply dot_time_calm).
Qed.
Lemma fold_calm {A B} (f : A -> B -> res A) : (forall a x, f a x <> Panic) -> forall l a, fold_res f l a <> Panic.
Proof. intros H l. induction l as [|x l IH]; intros a; [discriminate|]. cbn [fold_res]. apply bind_calm; [apply H|intros; apply IH]. Qed.
Lemma srt_line_calm st l : srt_line st l <> Panic.
Proof.
  unfold srt_line. destruct (negb (nonempty (trim l))); [discriminate|]. destruct (_ && _); [discriminate|]. destruct (contains _ _); [|destruct (st_text st); discriminate].
  destruct (st_cur st); [|discriminate]. destruct (split_str _ _) as [|a [|b [|c r]]]; try discriminate.
  apply bind_calm; [apply conv_srt_time_calm|intros x _]. apply bind_calm; [apply conv_srt_time_calm|discriminate].
Qed.
Lemma vtt_line_calm st l : vtt_line st l <> Panic.
Proof.
  unfold vtt_line. destruct (_ || _); [discriminate|]. destruct (contains _ _); [|destruct (st_text st); discriminate].
  destruct (split_str _ _) as [|a [|b r]]; try discriminate.
  apply bind_calm; [apply conv_vtt_time_calm|intros x _]. apply bind_calm; [apply conv_vtt_time_calm|discriminate].
Qed.
Lemma import_calm content f : import content f <> Panic.
Proof.
  unfold import. destruct (match f with Some x => x | None => from_content content end); try discriminate.
  - unfold import_srt, conv_srt_entries. apply bind_calm; [apply bind_calm; [apply fold_calm, srt_line_calm|discriminate]|discriminate].
  - unfold import_webvtt, conv_vtt_entries. apply bind_calm; [apply bind_calm; [apply fold_calm, vtt_line_calm|discriminate]|discriminate].
Qed.

(* ---- formats/ import ---- *)
Lemma skip_short p ls : List.length (skip_lines p ls) <= List.length ls.
Proof. induction ls as [|l ls IH]; [reflexivity|]. cbn [skip_lines]. destruct (p l); cbn [List.length] in *; lia. Qed.
Lemma text_block_short ls : List.length (snd (text_block ls)) <= List.length ls.
Proof. induction ls as [|l ls IH]; [reflexivity|]. cbn [text_block]. destruct (blank_text l); [reflexivity|]. destruct (text_block ls); cbn [snd List.length] in *; lia. Qed.
Lemma srt_time_in_calm t : srt_time_in t <> Panic.
Proof. unfold srt_time_in. destruct (upto 44 (trim t)) as [[a b]|]; [|discriminate]. apply bind_calm; [apply of_opt_calm|discriminate]. Qed.
Lemma vtt_time_in_calm t : vtt_time_in t <> Panic.
Proof.
  unfold vtt_time_in. destruct (split_on (is_c 46) (trim t)) as [|a [|b [|c r]]]; try discriminate. apply bind_calm; [apply of_opt_calm|intros m _].
  destruct (split_on is_colon a) as [|x [|y [|z [|w r]]]]; discriminate.
Qed.
Lemma srt_subtitle_calm ls : srt_subtitle ls <> Panic.
Proof.
  unfold srt_subtitle. destruct (skip_lines blank_text ls) as [|x [|s r]]; try discriminate. destruct (split_str _ _) as [|a [|b [|c q]]]; try discriminate.
  apply bind_calm; [apply srt_time_in_calm|intros u _]. apply bind_calm; [apply srt_time_in_calm|intros v _]. destruct (text_block r) as [[|t ts] w]; discriminate.
Qed.
Lemma srt_subtitle_short ls e rest : srt_subtitle ls = Ok (e, rest) -> List.length rest < List.length ls.
Proof.
  unfold srt_subtitle. pose proof (skip_short blank_text ls) as K. destruct (skip_lines blank_text ls) as [|x [|s r]]; try discriminate. destruct (split_str _ _) as [|a [|b [|c q]]]; try discriminate.
  destruct (srt_time_in a); cbn [res_bind]; try discriminate. destruct (srt_time_in b); cbn [res_bind]; try discriminate. pose proof (text_block_short r) as K2.
  destruct (text_block r) as [[|t ts] w]; [discriminate|]. cbn [snd List.length] in *. intros E. injection E as _ <-. lia.
Qed.
Lemma loop_total (ok : list str -> Prop) one : (forall l ls, ok (l :: ls) -> ok ls) -> (forall l ls, ok (l :: ls) -> one (l :: ls) <> Panic) ->
  (forall l ls e rest, ok (l :: ls) -> one (l :: ls) = Ok (e, rest) -> ok rest /\ List.length rest < List.length (l :: ls)) ->
  forall fuel ls, ok ls -> List.length ls < fuel -> exists p, import_loop fuel one ls = Ok p.
Proof.
  intros H0 H1 H2. induction fuel as [|k IH]; intros ls Hok L; [lia|]. destruct ls as [|l ls]; [eexists; reflexivity|]. cbn [import_loop].
  pose proof (H1 l ls Hok) as NP. pose proof (H2 l ls) as SH. destruct (one (l :: ls)) as [[e rest]| |]; [| |congruence].
  - destruct (SH e rest Hok eq_refl) as [O2 L2]. destruct (IH rest O2 ltac:(lia)) as [p ->]. eexists; reflexivity.
  - destruct (IH ls (H0 l ls Hok) ltac:(cbn [List.length] in L; lia)) as [p ->]. eexists; reflexivity.
Qed.
Lemma srt_import_total content : exists x, srt_import content = Ok x.
Proof.
  unfold srt_import. destruct (loop_total (fun _ => True) srt_subtitle) with (fuel := S (List.length (lines content))) (ls := lines content) as [p ->]; auto.
  - intros. apply srt_subtitle_calm.
  - intros l ls e rest _ E. split; [exact I|exact (srt_subtitle_short _ _ _ E)].
  - eexists. reflexivity.
Qed.
Lemma split_str_head p s : p <> [] -> split_str_go p s 0 = [s] \/ exists a r, s = a ++ p ++ r /\ split_str_go p s 0 = a :: split_str_go p r 0.
Proof.
  intros Hp. induction s as [|c s IH]; [left; reflexivity|]. cbn [split_str_go]. destruct (starts_with p (c :: s)) eqn:E.
  - right. apply IncrBounds.starts_with_iff in E as [r E]. destruct p as [|z p]; [congruence|]. cbn [app] in E. injection E as <- ->. exists [], r. split; [reflexivity|].
    cbn [List.length]. rewrite Nat.sub_0_r || replace (S (List.length p) - 1) with (List.length p) by lia. rewrite split_str_skip. reflexivity.
  - destruct IH as [-> | (a & r & -> & ->)]; [left; reflexivity|]. right. exists (c :: a), r. split; reflexivity.
Qed.
Lemma words_some x c y : is_ws c = false -> words (x ++ c :: y) <> [].
Proof.
  intros Hc. unfold words. assert (G : exists w, In w (split_on is_ws (x ++ c :: y)) /\ nonempty w = true).
  { induction x as [|z x IH].
    - cbn [app split_on]. rewrite Hc. destruct (split_on is_ws y); eexists; (split; [left; reflexivity|reflexivity]).
    - cbn [app split_on]. destruct IH as (w & I & N). destruct (is_ws z); [exists w; split; [right; exact I|exact N]|].
      destruct (split_on is_ws (x ++ c :: y)) as [|u r]; [destruct I|]. destruct I as [->|I]; eexists; (split; [|]); [left; reflexivity|reflexivity|right; exact I|exact N]. }
  destruct G as (w & I & N). intros E. assert (F : In w (filter nonempty (split_on is_ws (x ++ c :: y)))) by (apply filter_In; auto). rewrite E in F. exact F.
Qed.
Lemma timed_words l a b r : timed_line l -> split_str (lit "-->") l = a :: b :: r -> words b <> [].
Proof.
  intros H E. unfold split_str in E. destruct (split_str_head (lit "-->") l ltac:(discriminate)) as [K|(u & v & -> & K)]; rewrite K in E; [discriminate|]. assert (EA : u = a) by (injection E; auto). subst u.
  assert (E2 : split_str_go (lit "-->") v 0 = b :: r) by (revert E; generalize (split_str_go (lit "-->") v 0); intros g E; injection E; auto). clear E. rename E2 into E.
  destruct (H a v eq_refl) as (x & c & y & -> & WX & WC & NC). change (x ++ c :: y) with (x ++ [c] ++ y) in E. rewrite app_assoc in E.
  assert (W : without 45 (x ++ [c])).
  { apply without_app. split; [|unfold without; cbn [forallb]; destruct (N.eqb_spec c 45); [congruence|reflexivity]]. unfold without. clear - WX. induction x as [|z x IH]; [reflexivity|].
    cbn [forallb] in *. apply andb_prop in WX as [Z WX]. rewrite (IH WX), andb_true_r. destruct (N.eqb_spec z 45); [subst; discriminate|reflexivity]. }
  rewrite split_str_over in E by exact (nowhere_without 45 (lit "->") _ W). destruct (split_str_go (lit "-->") y 0) as [|w ws]; injection E as E _; rewrite <- E; [apply (words_some x c []); exact WC|].
  rewrite <- app_assoc. apply words_some. exact WC.
Qed.
Lemma skip_in p ls l : In l (skip_lines p ls) -> In l ls.
Proof. induction ls as [|x ls IH]; [trivial|]. cbn [skip_lines]. destruct (p x); [intros H; right; exact (IH H)|trivial]. Qed.
Lemma skip_timed p ls : Forall timed_line ls -> Forall timed_line (skip_lines p ls).
Proof. rewrite !Forall_forall. intros H l I. apply H, (skip_in p), I. Qed.
Lemma block_timed ls : Forall timed_line ls -> Forall timed_line (snd (text_block ls)).
Proof. induction 1 as [|l ls H HF IH]; [constructor|]. cbn [text_block]. destruct (blank_text l); [constructor; assumption|]. destruct (text_block ls). exact IH. Qed.
Lemma vtt_arrow_line k ls l r : skip_lines skipped_vtt ls = l :: r -> contains (lit "-->") l = true -> Forall timed_line ls ->
  vtt_cue (S k) ls <> Panic /\ forall e rest, vtt_cue (S k) ls = Ok (e, rest) -> Forall timed_line rest /\ List.length rest < List.length ls.
Proof.
  intros E C T. pose proof (skip_timed skipped_vtt ls T) as T2. pose proof (skip_short skipped_vtt ls) as K. rewrite E in T2, K. inversion T2 as [|? ? TL TR]; subst. cbn [vtt_cue]. rewrite E, C.
  destruct (contains_split l C) as (a & b & q & Q). rewrite Q. pose proof (timed_words l a b q TL Q) as W.
  pose proof (vtt_time_in_calm a) as C1. destruct (vtt_time_in a); cbn [res_bind]; [|split; [discriminate|intros; discriminate]|congruence].
  destruct (words b) as [|e0 more]; [congruence|]. pose proof (vtt_time_in_calm e0) as C2. destruct (vtt_time_in e0); cbn [res_bind]; [|split; [discriminate|intros; discriminate]|congruence].
  pose proof (block_timed r TR) as BT. pose proof (text_block_short r) as BS. destruct (text_block r) as [[|t ts] w]; [split; [discriminate|intros; discriminate]|].
  split; [discriminate|]. cbn [snd List.length] in *. intros e rest X. injection X as _ <-. split; [exact BT|lia].
Qed.
Lemma vtt_cue_safe : forall fuel ls, List.length ls < fuel -> Forall timed_line ls ->
  vtt_cue fuel ls <> Panic /\ forall e rest, vtt_cue fuel ls = Ok (e, rest) -> Forall timed_line rest /\ List.length rest < List.length ls.
Proof.
  induction fuel as [|k IH]; intros ls L T; [lia|]. destruct (skip_lines skipped_vtt ls) as [|l r] eqn:E.
  - cbn [vtt_cue]. rewrite E. split; [discriminate|intros; discriminate].
  - destruct (contains (lit "-->") l) eqn:C; [exact (vtt_arrow_line k ls l r E C T)|].
    pose proof (skip_timed skipped_vtt ls T) as T2. pose proof (skip_short skipped_vtt ls) as K. rewrite E in T2, K. inversion T2 as [|? ? TL TR]; subst.
    cbn [vtt_cue]. rewrite E, C. destruct r as [|n r]; [split; [discriminate|intros; discriminate]|]. destruct (contains (lit "-->") n) eqn:C2; [|split; [discriminate|intros; discriminate]].
    cbn [List.length] in *. destruct (IH (n :: r) ltac:(cbn [List.length]; lia) TR) as [A B]. split; [exact A|]. intros e rest X. destruct (B e rest X) as [B1 B2]. split; [exact B1|]. cbn [List.length] in *. lia.
Qed.
Lemma vtt_import_total content : Forall timed_line (lines content) -> exists x, vtt_import content = Ok x.
Proof.
  intros T. unfold vtt_import. assert (G : forall ls, Forall timed_line ls -> exists p, import_loop (S (List.length ls)) (fun x => vtt_cue (S (List.length x)) x) ls = Ok p).
  { intros ls TL. apply (loop_total (Forall timed_line)); [|intros l r H|intros l r e rest H E|exact TL|lia].
    - intros l r H. inversion H; assumption.
    - exact (proj1 (vtt_cue_safe (S (List.length (l :: r))) (l :: r) ltac:(lia) H)).
    - exact (proj2 (vtt_cue_safe (S (List.length (l :: r))) (l :: r) ltac:(lia) H) e rest E). }
  destruct (lines content) as [|h r]; [eexists; reflexivity|]. inversion T as [|? ? T1 T2]; subst.
  destruct (starts_with (lit "WEBVTT") (trim h)); [destruct (G r T2) as [p ->]|destruct (G (h :: r) T) as [p ->]]; eexists; reflexivity.
Qed.

(* ---- the events of an imported file ---- *)
Lemma without_forall k s : without k s <-> Forall (fun c => c <> k) s.
Proof.
  unfold without. rewrite forallb_forall, Forall_forall. split; intros H c I; specialize (H c I); [apply negb_true_iff, N.eqb_neq in H|apply negb_true_iff, N.eqb_neq]; exact H.
Qed.
Lemma without_sub k s t : (forall c, In c t -> In c s) -> without k s -> without k t.
Proof. rewrite !without_forall, !Forall_forall. intros H1 H2 c I. apply H2, H1, I. Qed.
Lemma lines_no_nl s : Forall (without 10) (lines s).
Proof.
  unfold lines. assert (R : Forall (fun x => without 10 (fst x)) (lines_raw s)).
  { induction s as [|c s IH]; [constructor|]. cbn [lines_raw]. destruct (is_nl c) eqn:C; [constructor; [reflexivity|exact IH]|]. unfold is_nl in C.
    destruct (lines_raw s) as [|[l b] r]; [constructor; [unfold without; cbn; rewrite C; reflexivity|constructor]|]. inversion IH as [|? ? I1 I2]; subst. constructor; [|exact I2].
    unfold without in *. cbn [fst forallb] in *. rewrite C, I1. reflexivity. }
  rewrite Forall_map. eapply Forall_impl; [|exact R]. intros [l b] W. cbn [fst] in *. destruct b; [|exact W].
  unfold strip_cr. destruct (rev l) as [|c r] eqn:E; [exact W|]. destruct (c =? 13)%N; [|exact W]. revert W. apply without_sub. intros x I. apply in_rev. rewrite E. right. apply in_rev in I. exact I.
Qed.
Lemma in_drop_while p c s : In c (drop_while p s) -> In c s.
Proof. induction s as [|x s IH]; [trivial|]. cbn [drop_while]. destruct (p x); [intros H; right; exact (IH H)|trivial]. Qed.
Lemma in_drop_end p c s : In c (drop_end p s) -> In c s.
Proof.
  induction s as [|x s IH]; [trivial|]. cbn [drop_end]. destruct (drop_end p s) as [|y r].
  - destruct (p x); [contradiction|intros [->|[]]; left; reflexivity].
  - intros [->|H]; [left; reflexivity|right; exact (IH H)].
Qed.
Lemma trim_without k s : without k s -> without k (trim s).
Proof. apply without_sub. intros c I. exact (in_drop_while is_ws c s (in_drop_end is_ws c _ I)). Qed.
Lemma replace_without k pat rep s : without k rep -> without k s -> without k (replace pat rep s).
Proof.
  intros HR. unfold replace. generalize 0. induction s as [|c s IH]; intros n H; [reflexivity|]. apply (proj1 (without_app k [c] s)) in H as [H1 H2]. cbn [replace_go]. destruct n; [|exact (IH n H2)].
  destruct (starts_with pat (c :: s)); [apply without_app; split; [exact HR|exact (IH _ H2)]|].
  apply (proj2 (without_app k [c] _)). split; [exact H1|exact (IH 0 H2)].
Qed.
Lemma rewrite_without k m s : (forall s r rest, m s = Some (r, rest) -> without k s -> without k r) -> without k s -> without k (rewrite_all m s).
Proof.
  intros HM. unfold rewrite_all. generalize 0. induction s as [|c s IH]; intros n H; [reflexivity|]. pose proof H as H0. apply (proj1 (without_app k [c] s)) in H as [H1 H2]. cbn [rewrite_go]. destruct n; [|exact (IH n H2)].
  destruct (m (c :: s)) as [[r rest]|] eqn:E; [apply without_app; split; [exact (HM _ _ _ E H0)|exact (IH _ H2)]|].
  apply (proj2 (without_app k [c] _)). split; [exact H1|exact (IH 0 H2)].
Qed.
Lemma fold_without k (l : list (string * string)) : Forall (fun p => without k (lit (snd p))) l -> forall s, without k s ->
  without k (fold_left (fun s p => replace (lit (fst p)) (lit (snd p)) s) l s).
Proof. induction 1 as [|p l H _ IH]; intros s Hs; [exact Hs|]. cbn [fold_left]. apply IH, replace_without; assumption. Qed.
Lemma biu_in_nl s : without 10 s -> without 10 (biu_in s).
Proof. apply fold_without. repeat constructor. Qed.
Lemma bius_in_nl b s : without 10 s -> without 10 (bius_in b s).
Proof. apply fold_without. destruct b; repeat constructor. Qed.
Lemma m_tag_nl k s r rest : m_tag s = Some (r, rest) -> without k s -> without k r.
Proof. unfold m_tag. destruct (strip_prefix _ s); [|discriminate]. destruct (upto1 62 l); [|discriminate]. intros E. injection E as <- _. reflexivity. Qed.
Lemma m_voice_open_nl k s r rest : m_voice_open s = Some (r, rest) -> without k s -> without k r.
Proof. unfold m_voice_open. destruct (m_voice_split s); [|discriminate]. intros E. injection E as <- _. reflexivity. Qed.
Lemma conv_srt_text_nl s : without 10 s -> without 10 (conv_srt_text s).
Proof. intros H. apply rewrite_without; [apply m_tag_nl|apply biu_in_nl, H]. Qed.
Lemma conv_vtt_text_nl s : without 10 s -> without 10 (conv_vtt_text s).
Proof.
  intros H. apply rewrite_without; [apply m_tag_nl|]. apply replace_without; [reflexivity|]. apply rewrite_without; [apply m_voice_open_nl|apply biu_in_nl, H].
Qed.
Lemma strip_prefix_sub p s r : strip_prefix p s = Some r -> forall c, In c r -> In c s.
Proof. intros E c I. apply strip_prefix_some in E. subst s. apply in_or_app. right. exact I. Qed.
Lemma upto_sub k s a b : upto k s = Some (a, b) -> s = a ++ k :: b /\ without k a.
Proof.
  unfold upto. destruct (find_char (is_c k) s) as [[x y]|] eqn:F; [|discriminate]. apply find_char_some in F as (E & W & (c & q & -> & C)). unfold is_c in C. apply N.eqb_eq in C. subst c.
  intros X. injection X as <- <-. split; [exact E|exact W].
Qed.
Lemma upto1_sub k s p : upto1 k s = Some p -> s = fst p ++ k :: snd p.
Proof. unfold upto1. destruct (upto k s) as [[[|x a] b]|] eqn:E; try discriminate. intros X. injection X as <-. exact (proj1 (upto_sub k s _ _ E)). Qed.
Lemma opt_char_sub k s c : In c (opt_char k s) -> In c s.
Proof. destruct s as [|x s]; [trivial|]. cbn [opt_char]. destruct (x =? k)%N; [intros H; right; exact H|trivial]. Qed.
Lemma m_font_color_nl s r rest : m_font_color s = Some (r, rest) -> without 10 s -> without 10 r.
Proof.
  unfold m_font_color. destruct (strip_prefix _ s) as [q|] eqn:E1; [|discriminate]. unfold six_hex. destruct (_ && _); [|discriminate]. cbn [fst snd].
  destruct (strip_prefix (lit ">") _); [|discriminate]. intros X W. assert (R : r = lit "{\c&H" ++ firstn 6 (opt_char 35 (opt_char 34 q)) ++ lit "&}") by congruence. rewrite R. apply without_app. split; [reflexivity|]. apply without_app. split; [|reflexivity].
  revert W. apply without_sub. intros c I. apply (strip_prefix_sub _ _ _ E1), (opt_char_sub 34), (opt_char_sub 35). rewrite <- (firstn_skipn 6 (opt_char 35 (opt_char 34 q))). apply in_or_app. left. exact I.
Qed.
Lemma m_font_face_nl s r rest : m_font_face s = Some (r, rest) -> without 10 s -> without 10 r.
Proof.
  unfold m_font_face. destruct (strip_prefix _ s) as [q|] eqn:E1; [|discriminate]. destruct (upto1 34 q) as [p|] eqn:E2; [|discriminate]. destruct (strip_prefix (lit ">") _); [|discriminate].
  intros X W. assert (R : r = lit "{\fn" ++ fst p ++ lit "}") by congruence. rewrite R. apply without_app. split; [reflexivity|]. apply without_app. split; [|reflexivity].
  revert W. apply without_sub. intros c I. apply (strip_prefix_sub _ _ _ E1). rewrite (upto1_sub _ _ _ E2). apply in_or_app. left. exact I.
Qed.
Lemma srt_styling_nl s : without 10 s -> without 10 (srt_styling_in s).
Proof.
  intros H. apply rewrite_without; [apply m_font_face_nl|]. apply replace_without; [reflexivity|]. apply rewrite_without; [apply m_font_color_nl|apply bius_in_nl, H].
Qed.
Lemma join_nl l : Forall (without 10) l -> without 10 (join break l).
Proof.
  induction 1 as [|x l H HF IH]; [reflexivity|]. destruct l as [|y l]; [exact H|]. rewrite join_cons by discriminate. repeat rewrite without_app. repeat split; assumption.
Qed.
Lemma split_str_sub p s : forall k w, In w (split_str_go p s k) -> forall c, In c w -> In c s.
Proof.
  induction s as [|x s IH]; intros k w Hw c Hc; [cbn in Hw; destruct Hw as [<-|[]]; exact Hc|]. cbn [split_str_go] in Hw. destruct k; [|right; exact (IH k w Hw c Hc)].
  destruct (starts_with p (x :: s)); [destruct Hw as [<-|Hw]; [destruct Hc|right; exact (IH _ w Hw c Hc)]|].
  pose proof (IH 0) as I0. destruct (split_str_go p s 0) as [|u r]; [destruct Hw as [<-|[]]; destruct Hc as [->|[]]; left; reflexivity|].
  destruct Hw as [<-|Hw]; [destruct Hc as [->|Hc]; [left; reflexivity|right; exact (I0 u (or_introl eq_refl) c Hc)]|right; exact (I0 w (or_intror Hw) c Hc)].
Qed.
Lemma drop_zero_sub s c : In c (drop_zero s) -> In c s.
Proof.
  unfold drop_zero. destruct s as [|x [|y r]]; [trivial| |].
  - destruct x as [|p]; [trivial|]. repeat (destruct p; trivial).
  - intros H. destruct (N.eq_dec x 48) as [->|NE]; [right; exact H|]. rewrite (drop_zero_id x (y :: r) NE : match x :: y :: r with 48%N :: _ :: _ => tl (x :: y :: r) | _ => x :: y :: r end = _) in H. exact H.
Qed.
Definition time_fit (t : str) : Prop := without 10 t /\ comma_free t.
Lemma srt_time_in_fit s t : without 10 s -> srt_time_in s = Ok t -> time_fit t.
Proof.
  intros H. unfold srt_time_in. destruct (upto 44 (trim s)) as [[a b]|] eqn:U; [|discriminate]. apply upto_sub in U as [U W]. destruct (parse_u32 b) as [v|]; cbn [of_opt res_bind]; [|discriminate]. intros E. assert (R : t = drop_zero a ++ lit "." ++ dec_pad 2 (v / 10)) by congruence. rewrite R. clear E R.
  assert (WA : without 10 a) by (pose proof (trim_without 10 s H) as T; rewrite U in T; apply (proj1 (without_app 10 a _)) in T; tauto).
  assert (D : forall k, (k < 48 \/ 57 < k)%N -> without k (dec_pad 2 (v / 10))) by (intros k K; exact (digits_without k _ (dec_pad_digits _ _) K)).
  assert (Z : forall k, without k a -> without k (drop_zero a)) by (intros k; apply without_sub; intros c; apply drop_zero_sub).
  assert (CF : forall t, without 44 t -> comma_free t) by (intros t0 T0; exact T0).
  split; [|apply CF]; (apply without_app; split; [apply Z; assumption|apply without_app; split; [reflexivity|apply D; lia]]).
Qed.
Lemma ok_inj {A} (a b : A) : Ok a = Ok b -> a = b. Proof. congruence. Qed.
Lemma dot_time_fit h m s t : dot_time h m s = Ok t -> time_fit t.
Proof.
  unfold dot_time. destruct (split_on (is_c 46) s) as [|a r]; [discriminate|]. destruct (parse_u32 a) as [v|]; cbn [of_opt res_bind]; [|discriminate]. intros E.
  assert (R : exists cs, t = to_dec h ++ lit ":" ++ dec_pad 2 m ++ lit ":" ++ dec_pad 2 v ++ lit "." ++ dec_pad 2 cs) by (eexists; symmetry; exact (ok_inj _ _ E)).
  destruct R as [cs ->]. clear E. assert (G : forall k, k <> 58%N -> k <> 46%N -> (k < 48 \/ 57 < k)%N -> without k (to_dec h ++ lit ":" ++ dec_pad 2 m ++ lit ":" ++ dec_pad 2 v ++ lit "." ++ dec_pad 2 cs)).
  { intros k K1 K2 K3. change (lit ":") with [58%N]. change (lit ".") with [46%N].
    repeat rewrite without_app. repeat split; first [apply digits_without; [apply dec_pad_digits || apply to_dec_digits|exact K3]|apply plain_without; congruence]. }
  split; [apply G; [discriminate|discriminate|lia]|exact (G 44%N ltac:(discriminate) ltac:(discriminate) ltac:(lia))].
Qed.
Lemma conv_srt_time_fit s t : conv_srt_time s = Ok t -> time_fit t.
Proof.
  unfold conv_srt_time. destruct (split_on is_colon _) as [|a [|b [|c [|d r]]]]; try discriminate. destruct (parse_u32 a); cbn [of_opt res_bind]; [|discriminate].
  destruct (parse_u32 b); cbn [of_opt res_bind]; [|discriminate]. apply dot_time_fit.
Qed.
Lemma conv_vtt_time_fit s t : conv_vtt_time s = Ok t -> time_fit t.
Proof.
  unfold conv_vtt_time. destruct (split_on is_colon _) as [|a [|b [|c [|d r]]]]; try discriminate.
  - destruct (parse_u32 a); cbn [of_opt res_bind]; [|discriminate]. apply dot_time_fit.
  - destruct (parse_u32 b); cbn [of_opt res_bind]; [|discriminate]. apply dot_time_fit.
Qed.
Definition state_fit (st : srt_state) : Prop := Forall entry_fit (st_done st) /\ match st_cur st with Some e => entry_fit e | None => True end.
Lemma close_fit st : state_fit st -> state_fit (close_entry st).
Proof. intros [H1 H2]. split; [|exact I]. cbn. destruct (st_cur st); [apply Forall_app; split; [exact H1|constructor; [exact H2|constructor]]|exact H1]. Qed.
Lemma add_fit conv l e : (forall s, without 10 s -> without 10 (conv s)) -> without 10 l -> entry_fit e -> entry_fit (add_text conv l e).
Proof.
  intros HC W (F1 & F2 & F3 & F4 & F5). unfold add_text. repeat split; cbn [en_start en_end en_text]; try assumption. apply without_app. split; [|apply HC, W].
  destruct (en_text e); [reflexivity|]. apply without_app. split; [exact F3|reflexivity].
Qed.
Lemma mk_fit a b t : time_fit a -> time_fit b -> without 10 t -> entry_fit (Entry a b t).
Proof. intros [A1 A2] [B1 B2] T. repeat split; assumption. Qed.
Lemma srt_line_fit st l st' : without 10 l -> state_fit st -> srt_line st l = Ok st' -> state_fit st'.
Proof.
  intros W SF. pose proof SF as [S1 S2]. unfold srt_line. pose proof (trim_without 10 l W) as WT. destruct (negb (nonempty (trim l))); [intros E; injection E as <-; exact (close_fit st SF)|].
  destruct (_ && _); [intros E; injection E as <-; split; [exact S1|repeat split; reflexivity]|]. destruct (contains _ _).
  - destruct (st_cur st) as [e|] eqn:SC; [|intros E; injection E as <-; exact SF]. destruct (split_str _ _) as [|a [|b [|c r]]]; try (intros E; injection E as <-; exact SF).
    destruct (conv_srt_time (trim a)) eqn:T1; cbn [res_bind]; try discriminate. destruct (conv_srt_time (trim b)) eqn:T2; cbn [res_bind]; try discriminate. intros E; injection E as <-.
    split; [exact S1|]. apply mk_fit; [exact (conv_srt_time_fit _ _ T1)|exact (conv_srt_time_fit _ _ T2)|apply S2].
  - destruct (st_text st); intros E; injection E as <-; [|exact SF]. split; [exact S1|]. cbn [st_cur]. destruct (st_cur st); [|exact I]. exact (add_fit _ _ _ conv_srt_text_nl WT S2).
Qed.
Lemma vtt_line_fit st l st' : without 10 l -> state_fit st -> vtt_line st l = Ok st' -> state_fit st'.
Proof.
  intros W SF. pose proof SF as [S1 S2]. unfold vtt_line. pose proof (trim_without 10 l W) as WT. destruct (_ || _); [intros E; injection E as <-; exact (close_fit st SF)|].
  destruct (contains _ _).
  - destruct (split_str _ _) as [|a [|b r]]; try (intros E; injection E as <-; split; [exact S1|repeat split; reflexivity]).
    destruct (conv_vtt_time (trim a)) eqn:T1; cbn [res_bind]; try discriminate. destruct (conv_vtt_time (trim b)) eqn:T2; cbn [res_bind]; try discriminate. intros E; injection E as <-.
    split; [exact S1|]. apply mk_fit; [exact (conv_vtt_time_fit _ _ T1)|exact (conv_vtt_time_fit _ _ T2)|reflexivity].
  - destruct (st_text st); intros E; injection E as <-; [|exact SF]. split; [exact S1|]. cbn [st_cur]. destruct (st_cur st); [|exact I]. exact (add_fit _ _ _ conv_vtt_text_nl WT S2).
Qed.
Lemma fold_fit (f : srt_state -> str -> res srt_state) : (forall st l st', without 10 l -> state_fit st -> f st l = Ok st' -> state_fit st') ->
  forall ls, Forall (without 10) ls -> forall st st', state_fit st -> fold_res f ls st = Ok st' -> state_fit st'.
Proof.
  intros H ls HF. induction HF as [|l ls W _ IH]; intros st st' S E; [injection E as <-; exact S|]. cbn [fold_res] in E. destruct (f st l) as [s1| |] eqn:F; cbn [res_bind] in E; [|discriminate..]. exact (IH s1 st' (H _ _ _ W S F) E).
Qed.
Lemma state_entries st : state_fit st -> Forall entry_fit (match st_cur st with Some e => st_done st ++ [e] | None => st_done st end).
Proof. intros [H1 H2]. destruct (st_cur st); [apply Forall_app; split; [exact H1|constructor; [exact H2|constructor]]|exact H1]. Qed.
Lemma conv_srt_fit content es : conv_srt_entries content = Ok es -> Forall entry_fit es.
Proof.
  unfold conv_srt_entries. destruct (fold_res _ _ _) as [st| |] eqn:F; cbn [res_bind]; [|discriminate..]. intros E. injection E as <-. apply state_entries.
  exact (fold_fit srt_line srt_line_fit _ (lines_no_nl content) (SrtState [] None false) st ltac:(split; [constructor|exact I]) F).
Qed.
Lemma conv_vtt_fit content es : conv_vtt_entries content = Ok es -> Forall entry_fit es.
Proof.
  unfold conv_vtt_entries. destruct (fold_res _ _ _) as [st| |] eqn:F; cbn [res_bind]; [|discriminate..]. intros E. injection E as <-. apply state_entries.
  exact (fold_fit vtt_line vtt_line_fit _ (lines_no_nl content) (SrtState [] None false) st ltac:(split; [constructor|exact I]) F).
Qed.
Lemma block_in ls l : In l (fst (text_block ls)) -> In l ls.
Proof. induction ls as [|x ls IH]; [trivial|]. cbn [text_block]. destruct (blank_text x); [contradiction|]. destruct (text_block ls) as [a b]. cbn [fst] in *. intros [->|H]; [left; reflexivity|right; exact (IH H)]. Qed.
Lemma rest_in ls l : In l (snd (text_block ls)) -> In l ls.
Proof. induction ls as [|x ls IH]; [trivial|]. cbn [text_block]. destruct (blank_text x); [trivial|]. destruct (text_block ls) as [a b]. cbn [snd] in *. intros H. right; exact (IH H). Qed.
Lemma srt_subtitle_fit ls e rest : Forall (without 10) ls -> srt_subtitle ls = Ok (e, rest) -> entry_fit e /\ Forall (without 10) rest.
Proof.
  intros H. assert (HS : Forall (without 10) (skip_lines blank_text ls)) by (rewrite Forall_forall in *; intros l I; apply H, (skip_in blank_text), I).
  unfold srt_subtitle. destruct (skip_lines blank_text ls) as [|x [|s r]]; try discriminate. inversion HS as [|? ? _ HS2]; subst. inversion HS2 as [|? ? W HR]; subst.
  destruct (split_str (lit "-->") s) as [|a [|b [|c q]]] eqn:SP; try discriminate.
  assert (WA : without 10 a) by (revert W; apply without_sub; apply (split_str_sub (lit "-->") s 0 a); unfold split_str in SP; rewrite SP; left; reflexivity).
  assert (WB : without 10 b) by (revert W; apply without_sub; apply (split_str_sub (lit "-->") s 0 b); unfold split_str in SP; rewrite SP; right; left; reflexivity).
  destruct (srt_time_in a) eqn:T1; cbn [res_bind]; try discriminate. destruct (srt_time_in b) eqn:T2; cbn [res_bind]; try discriminate. rewrite Forall_forall in HR.
  pose proof (fun l I => HR l (block_in r l I)) as HB. pose proof (fun l I => HR l (rest_in r l I)) as HC. destruct (text_block r) as [t w]. cbn [fst snd] in *. destruct t as [|t ts]; [discriminate|]. intros E. apply ok_inj in E. assert (E1 := f_equal fst E). assert (E2 := f_equal snd E). cbn [fst snd] in E1, E2. subst e rest.
  split; [|rewrite Forall_forall; exact HC]. apply mk_fit; [exact (srt_time_in_fit a _ WA T1)|exact (srt_time_in_fit b _ WB T2)|]. apply join_nl. rewrite Forall_forall. intros l I. apply in_map_iff in I as (l0 & <- & I). apply srt_styling_nl, HB, I.
Qed.
Lemma loop_fit (ok : list str -> Prop) one : (forall l ls, ok (l :: ls) -> ok ls) -> (forall ls e rest, ok ls -> one ls = Ok (e, rest) -> entry_fit e /\ ok rest) ->
  forall fuel ls p, ok ls -> import_loop fuel one ls = Ok p -> Forall entry_fit (fst p).
Proof.
  intros H0 H1. induction fuel as [|k IH]; intros ls p Hok E; [discriminate|]. destruct ls as [|l ls]; [injection E as <-; constructor|]. cbn [import_loop] in E.
  destruct (one (l :: ls)) as [[e rest]| |] eqn:O; [| |discriminate].
  - destruct (H1 _ _ _ Hok O) as [F1 F2]. destruct (import_loop k one rest) as [q| |] eqn:Q; cbn [res_bind] in E; [|discriminate..]. injection E as <-. constructor; [exact F1|exact (IH rest q F2 Q)].
  - destruct (import_loop k one ls) as [q| |] eqn:Q; cbn [res_bind] in E; [|discriminate..]. injection E as <-. exact (IH ls q (H0 _ _ Hok) Q).
Qed.
Lemma srt_import_fit content x : srt_import content = Ok x -> exists es, Forall entry_fit es /\ im_text x = unlines (format_lines "Title: Converted from SRT" []) ++ entry_lines es /\ im_count x = List.length es.
Proof.
  unfold srt_import. destruct (import_loop _ _ _) as [p| |] eqn:L; cbn [res_bind]; [|discriminate..]. intros E. injection E as <-. exists (fst p).
  split; [|split; [cbn [im_text finish_import]; rewrite format_head_lines; reflexivity|reflexivity]].
  apply (loop_fit (Forall (without 10)) srt_subtitle) with (fuel := S (List.length (lines content))) (ls := lines content); [|exact srt_subtitle_fit|exact (lines_no_nl content)|exact L].
  intros l ls H. inversion H; assumption.
Qed.
