(* Proofs about the streaming parser. *)
From Verif Require Import Base BaseLemmas StreamModel StreamSpec.
From Coq Require Import Lia.
From Coq Require Import ZArith.

Ltac bytes := repeat match goal with
  | H : (_ && _)%bool = true |- _ => apply andb_true_iff in H; destruct H
  | H : within _ _ _ = true |- _ => unfold within in H
  | H : within _ _ _ = false |- _ => unfold within in H
  | H : cont _ = true |- _ => unfold cont in H
  | H : (_ && _)%bool = false |- _ => apply andb_false_iff in H
  | H : (_ <=? _)%N = true |- _ => apply N.leb_le in H
  | H : (_ <=? _)%N = false |- _ => apply N.leb_gt in H
  | H : (_ <? _)%N = true |- _ => apply N.ltb_lt in H
  | H : (_ <? _)%N = false |- _ => apply N.ltb_ge in H
  | H : (_ =? _)%N = true |- _ => apply N.eqb_eq in H
  | H : (_ =? _)%N = false |- _ => apply N.eqb_neq in H
  end.
Ltac nlia := zify; Z.to_euclidean_division_equations; lia.

Lemma within_iff lo hi b : within lo hi b = true <-> (lo <= b <= hi)%N.
Proof. unfold within. rewrite andb_true_iff, !N.leb_le. reflexivity. Qed.
Lemma within_no lo hi b : (b < lo \/ hi < b)%N -> within lo hi b = false.
Proof. intros H. destruct (within lo hi b) eqn:E; [|reflexivity]. apply within_iff in E. lia. Qed.

Lemma cont_ok b : (128 <= b <= 191)%N -> cont b = true.
Proof. apply within_iff. Qed.
Lemma decode_char c r : scalar c -> from_utf8 (encode_char c ++ r) = push c (from_utf8 r).
Proof.
  intros Hc. unfold scalar in Hc. unfold encode_char. destruct (N.ltb_spec c 128) as [H1|H1].
  { cbn [app from_utf8]. rewrite (proj2 (N.ltb_lt c 128) H1). reflexivity. }
  destruct (N.ltb_spec c 2048) as [H2|H2].
  { cbn [app from_utf8]. rewrite (proj2 (N.ltb_ge _ 128)) by nlia. rewrite (proj2 (within_iff 194 223 _)) by nlia. rewrite (cont_ok _) by nlia.
    f_equal. nlia. }
  destruct (N.ltb_spec c 65536) as [H3|H3].
  { cbn [app from_utf8]. rewrite (proj2 (N.ltb_ge _ 128)) by nlia. rewrite (within_no 194 223) by nlia. rewrite (proj2 (within_iff 224 239 _)) by nlia.
    assert (S : second_of_three (224 + c / 4096) (128 + (c / 64) mod 64) = true).
    { unfold second_of_three. destruct (N.eqb_spec (224 + c / 4096) 224); [apply within_iff; nlia|]. destruct (N.eqb_spec (224 + c / 4096) 237); apply within_iff; nlia. }
    rewrite S. rewrite (cont_ok _) by nlia. cbn [andb]. f_equal. nlia. }
  cbn [app from_utf8]. rewrite (proj2 (N.ltb_ge _ 128)) by nlia. rewrite (within_no 194 223) by nlia. rewrite (within_no 224 239) by nlia. rewrite (proj2 (within_iff 240 244 _)) by nlia.
  assert (S : second_of_four (240 + c / 262144) (128 + (c / 4096) mod 64) = true).
  { unfold second_of_four. destruct (N.eqb_spec (240 + c / 262144) 240); [apply within_iff; nlia|]. destruct (N.eqb_spec (240 + c / 262144) 244); apply within_iff; nlia. }
  rewrite S. rewrite (cont_ok (128 + (c / 64) mod 64)) by nlia. rewrite (cont_ok (128 + c mod 64)) by nlia. cbn [andb]. f_equal. nlia.
Qed.
Lemma decode_encode s : Forall scalar s -> from_utf8 (encode s) = Some s.
Proof. induction 1 as [|c s Hc _ IH]; [reflexivity|]. unfold encode. cbn [flat_map]. rewrite decode_char by exact Hc. fold (encode s). rewrite IH. reflexivity. Qed.
Lemma push_some c o s : push c o = Some s -> exists s', o = Some s' /\ s = c :: s'.
Proof. destruct o; cbn; [|discriminate]. intros E. injection E as <-. eauto. Qed.
Lemma enc_eq c r (h : list N) : encode_char c = h -> scalar c -> encode_char c ++ encode r = h ++ encode r /\ scalar c. Proof. intros <-. auto. Qed.
Lemma encode_decode_n n : forall b s, List.length b <= n -> from_utf8 b = Some s -> b = encode s /\ Forall scalar s.
Proof.
  induction n as [|n IH]; intros b s Hn H.
  { destruct b; [|cbn in Hn; lia]. cbn in H. injection H as <-. split; [reflexivity|constructor]. }
  destruct b as [|b0 r0]; cbn [from_utf8] in H; [injection H as <-; split; [reflexivity|constructor]|].
  assert (fin : forall c r h s, push c (from_utf8 r) = Some s -> List.length r <= n -> encode_char c = h -> scalar c -> h ++ r = encode s /\ Forall scalar s).
  { intros c r h s1 H1 H2 H3 H4. apply push_some in H1. destruct H1 as (s' & H1 & ->). destruct (IH r s' H2 H1) as [-> F]. split; [unfold encode; cbn [flat_map]; rewrite H3; reflexivity|constructor; assumption]. }
  cbn [List.length] in Hn. destruct (N.ltb_spec b0 128) as [L|L].
  { apply (fin b0 r0 [b0] s H); [lia| |left; lia]. unfold encode_char. rewrite (proj2 (N.ltb_lt b0 128) L). reflexivity. }
  destruct (within 194 223 b0) eqn:W1.
  { apply within_iff in W1. destruct r0 as [|b1 r1]; [discriminate|]. destruct (cont b1) eqn:C; [|discriminate]. apply within_iff in C. cbn [List.length] in Hn.
    apply (fin _ r1 [b0; b1] s H); [lia| |left; nlia]. unfold encode_char. rewrite (proj2 (N.ltb_ge _ 128)) by nlia. rewrite (proj2 (N.ltb_lt _ 2048)) by nlia. f_equal; [|f_equal]; nlia. }
  destruct (within 224 239 b0) eqn:W2.
  { apply within_iff in W2. destruct r0 as [|b1 [|b2 r2]]; try discriminate. destruct (second_of_three b0 b1 && cont b2) eqn:C; [|discriminate]. apply andb_true_iff in C. destruct C as [C1 C2]. apply within_iff in C2. cbn [List.length] in Hn.
    assert (B : (128 <= b1 <= 191 /\ (b0 = 224 -> 160 <= b1) /\ (b0 = 237 -> b1 <= 159))%N).
    { unfold second_of_three in C1. destruct (N.eqb_spec b0 224); [apply within_iff in C1; lia|]. destruct (N.eqb_spec b0 237); apply within_iff in C1; lia. }
    apply (fin _ r2 [b0; b1; b2] s H); [lia| |unfold scalar; nlia]. unfold encode_char. rewrite (proj2 (N.ltb_ge _ 128)) by nlia. rewrite (proj2 (N.ltb_ge _ 2048)) by nlia. rewrite (proj2 (N.ltb_lt _ 65536)) by nlia. f_equal; [|f_equal; [|f_equal]]; nlia. }
  destruct (within 240 244 b0) eqn:W3; [|discriminate].
  apply within_iff in W3. destruct r0 as [|b1 [|b2 [|b3 r3]]]; try discriminate. destruct (second_of_four b0 b1 && cont b2 && cont b3) eqn:C; [|discriminate]. apply andb_true_iff in C. destruct C as [C C3]. apply andb_true_iff in C. destruct C as [C1 C2]. apply within_iff in C2, C3. cbn [List.length] in Hn.
  assert (B : (128 <= b1 <= 191 /\ (b0 = 240 -> 144 <= b1) /\ (b0 = 244 -> b1 <= 143))%N).
  { unfold second_of_four in C1. destruct (N.eqb_spec b0 240); [apply within_iff in C1; lia|]. destruct (N.eqb_spec b0 244); apply within_iff in C1; lia. }
  apply (fin _ r3 [b0; b1; b2; b3] s H); [lia| |unfold scalar; nlia]. unfold encode_char. rewrite (proj2 (N.ltb_ge _ 128)) by nlia. rewrite (proj2 (N.ltb_ge _ 2048)) by nlia. rewrite (proj2 (N.ltb_ge _ 65536)) by nlia. f_equal; [|f_equal; [|f_equal; [|f_equal]]]; nlia.
Qed.
Lemma encode_decode b s : from_utf8 b = Some s -> b = encode s /\ Forall scalar s.
Proof. apply (encode_decode_n (List.length b)). reflexivity. Qed.
Lemma encode_length s : List.length (encode s) = blen s.
Proof.
  induction s as [|c s IH]; [reflexivity|]. unfold encode in *. cbn [flat_map blen]. rewrite app_length, IH. f_equal. unfold encode_char, len_utf8.
  destruct (c <? 128)%N; [reflexivity|]. destruct (c <? 2048)%N; [reflexivity|]. destruct (c <? 65536)%N; reflexivity.
Qed.
Lemma decode_app a b x y : from_utf8 a = Some x -> from_utf8 b = Some y -> from_utf8 (a ++ b) = Some (x ++ y).
Proof.
  intros H1 H2. apply encode_decode in H1, H2. destruct H1 as [-> F1], H2 as [-> F2]. unfold encode. rewrite <- flat_map_app. apply decode_encode, Forall_app. auto.
Qed.

(* ---- lines ---- *)
Lemma raw_split s : lines_raw s = map (fun l => (l, true)) (fst (split_last s)) ++ match snd (split_last s) with [] => [] | t => [(t, false)] end.
Proof.
  induction s as [|c s IH]; [reflexivity|]. cbn [lines_raw split_last]. rewrite IH. destruct (split_last s) as [ls t]. cbn [fst snd]. destruct (is_nl c); [reflexivity|].
  destruct ls as [|l ls]; cbn [map app]; [destruct t; reflexivity|reflexivity].
Qed.
Lemma lines_closed s : lines s = closed_lines s ++ match open_line s with [] => [] | t => [t] end.
Proof.
  unfold lines, closed_lines, open_line. rewrite raw_split, map_app, map_map. f_equal. destruct (snd (split_last s)); reflexivity.
Qed.
Lemma split_app a b : split_last (a ++ b) = (fst (split_last a) ++ fst (split_last (snd (split_last a) ++ b)), snd (split_last (snd (split_last a) ++ b))).
Proof.
  induction a as [|c a IH]; [cbn [app split_last fst snd]; apply surjective_pairing|]. cbn [app split_last]. rewrite IH. destruct (split_last a) as [ls t]. cbn [fst snd] in *.
  destruct (is_nl c) eqn:E; [reflexivity|]. destruct ls as [|l ls]; cbn [app fst snd]; [|reflexivity]. cbn [split_last]. rewrite E. destruct (split_last (t ++ b)) as [[|l' ls'] t']; reflexivity.
Qed.
Lemma closed_app a b : closed_lines (a ++ b) = closed_lines a ++ closed_lines (open_line a ++ b).
Proof. unfold closed_lines, open_line. rewrite (split_app a b). cbn [fst]. rewrite map_app. reflexivity. Qed.
Lemma open_app a b : open_line (a ++ b) = open_line (open_line a ++ b).
Proof. unfold open_line. rewrite (split_app a b). reflexivity. Qed.
Lemma ends_app c a b : b <> [] -> ends_with_char c (a ++ b) = ends_with_char c b.
Proof. intros H. unfold ends_with_char. rewrite rev_app_distr. destruct (rev b) eqn:E; [|reflexivity]. exfalso. apply H. apply (f_equal (@rev _)) in E. rewrite rev_involutive in E. exact E. Qed.
Lemma open_nl a c : is_nl c = true -> open_line (a ++ [c]) = [].
Proof.
  intros N. unfold open_line. rewrite split_app. cbn [snd]. generalize (snd (split_last a)). intros t.
  assert (G : exists l ls, split_last (t ++ [c]) = (l :: ls, [])).
  { induction t as [|x t (l & ls & IH)]; cbn [app split_last]; [rewrite N; eauto|]. rewrite IH. destruct (is_nl x); eauto. }
  destruct G as (l & ls & ->). reflexivity.
Qed.
Lemma open_plain a c : is_nl c = false -> open_line (a ++ [c]) <> [].
Proof.
  intros N. unfold open_line. induction a as [|x u IH]; cbn [app split_last]; [rewrite N; discriminate|]. destruct (split_last (u ++ [c])) as [ls t] eqn:Es. cbn [snd] in IH. destruct (is_nl x); [exact IH|]. destruct ls; [discriminate|exact IH].
Qed.
Lemma ends_nl s : s <> [] -> ends_with_char 10%N s = match open_line s with [] => true | _ => false end.
Proof.
  intros H. destruct (exists_last H) as (a & c & ->). rewrite ends_app by discriminate. unfold ends_with_char. cbn [rev app].
  destruct (c =? 10)%N eqn:E; [rewrite open_nl by exact E; reflexivity|]. pose proof (open_plain a c E). destruct (open_line (a ++ [c])); congruence.
Qed.

(* ---- feeding ---- *)
Lemma process_app a : forall p b, process_lines p (a ++ b) = (fst (process_lines (fst (process_lines p a)) b), snd (process_lines p a) ++ snd (process_lines (fst (process_lines p a)) b)).
Proof.
  induction a as [|x a IH]; intros p b; [cbn; apply surjective_pairing|]. cbn [app process_lines]. destruct (process_line p x) as [p1 d1]. rewrite IH. destruct (process_lines p1 a) as [p2 d2]. cbn [fst snd]. rewrite <- app_assoc. reflexivity.
Qed.
Lemma line_silent p l : snd (process_line p l) = [].
Proof.
  unfold process_line. destruct (trim l); [reflexivity|]. destruct (_ || _); [reflexivity|]. destruct (_ && _); [reflexivity|]. destruct (pr_state _) as [|[]|]; reflexivity.
Qed.
Lemma lines_silent l : forall p, snd (process_lines p l) = [].
Proof. induction l as [|x l IH]; intros p; [reflexivity|]. cbn [process_lines]. pose proof (line_silent p x). destruct (process_line p x) as [p1 d1]. specialize (IH p1). destruct (process_lines p1 l). cbn [snd] in *. subst. reflexivity. Qed.
Lemma feed_text_state s c : c <> [] -> let B := st_buffer s ++ c in
  fst (feed_text s c) = Stream (fst (process_lines (st_proc s) (closed_lines B ++ if ends_with_char 13%N B then [open_line B] else []))) (if ends_with_char 13%N B then [] else open_line B) (st_sections s) /\
  snd (feed_text s c) = [].
Proof.
  intros Hc B. assert (HB : B <> []) by (unfold B; destruct (st_buffer s); [exact Hc|discriminate]).
  unfold feed_text. fold B. rewrite lines_closed. rewrite (ends_nl B HB).
  assert (CR : ends_with_char 13%N B = true -> open_line B <> []).
  { intros H Ho. pose proof (ends_nl B HB) as E. rewrite Ho in E. unfold ends_with_char in *. destruct (rev B); [discriminate|]. apply N.eqb_eq in H, E. congruence. }
  destruct (ends_with_char 13%N B) eqn:E.
  - specialize (CR eq_refl). rewrite orb_true_r, firstn_all, skipn_all. destruct (open_line B) as [|x t] eqn:Eo; [congruence|].
    pose proof (lines_silent (closed_lines B ++ [x :: t]) (st_proc s)) as S. destruct (process_lines _ _) as [p d]. cbn [fst snd] in *. auto.
  - rewrite orb_false_r, app_nil_r. destruct (open_line B) as [|x t] eqn:Eo.
    + rewrite app_nil_r, firstn_all, skipn_all. pose proof (lines_silent (closed_lines B) (st_proc s)) as S. destruct (process_lines _ _) as [p d]. cbn [fst snd] in *. auto.
    + rewrite app_length. cbn [List.length]. replace (List.length (closed_lines B) + 1 - 1) with (List.length (closed_lines B)) by lia.
      rewrite firstn_app, firstn_all, Nat.sub_diag, skipn_app, skipn_all, Nat.sub_diag. cbn [firstn skipn app]. rewrite app_nil_r.
      pose proof (lines_silent (closed_lines B) (st_proc s)) as S. destruct (process_lines _ _) as [p d]. cbn [fst snd] in *. auto.
Qed.
(* where a text leads *)
Definition after_text (T : str) : stream :=
  Stream (fst (process_lines proc_new (closed_lines T ++ if ends_with_char 13%N T then [open_line T] else []))) (if ends_with_char 13%N T then [] else open_line T) [].
Lemma decode_nonempty c t : from_utf8 c = Some t -> (c = [] <-> t = []).
Proof.
  intros H. apply encode_decode in H. destruct H as [-> _]. split; [|intros ->; reflexivity]. destruct t as [|x t]; [reflexivity|]. unfold encode. cbn [flat_map]. intros H. apply (f_equal (@List.length N)) in H. rewrite app_length in H. unfold encode_char in H. destruct (x <? 128)%N; [discriminate|]. destruct (x <? 2048)%N; [discriminate|]. destruct (x <? 65536)%N; discriminate.
Qed.
Lemma open_cr T c : c <> [] -> ends_with_char 13%N (open_line T ++ c) = ends_with_char 13%N (T ++ c).
Proof. intros H. rewrite !ends_app by exact H. reflexivity. Qed.
Lemma feed_step T c t : no_cr_end T -> from_utf8 c = Some t -> feed_chunk (after_text T) c = (after_text (T ++ t), Some []).
Proof.
  intros HT Hd. unfold feed_chunk. destruct c as [|b c]; [cbn in Hd; injection Hd as <-; rewrite app_nil_r; reflexivity|]. rewrite Hd.
  assert (Ht : t <> []) by (intros ->; apply (proj2 (decode_nonempty _ _ Hd)) in Hd || (destruct (decode_nonempty _ _ Hd) as [_ K]; specialize (K eq_refl); discriminate)).
  unfold no_cr_end in HT. pose proof (feed_text_state (after_text T) t Ht) as F. cbn zeta in F. destruct (feed_text (after_text T) t) as [s' d]. cbn [fst snd] in F. destruct F as [-> ->]. f_equal.
  unfold after_text. rewrite HT. cbn [st_buffer st_proc st_sections]. rewrite app_nil_r, open_cr by exact Ht. rewrite <- open_app.
  f_equal. rewrite (closed_app T t), <- app_assoc. rewrite (process_app (closed_lines T)). reflexivity.
Qed.
Lemma feed_division texts : forall T chunks, no_cr_end T -> Forall2 (fun c t => from_utf8 c = Some t) chunks texts -> Forall no_cr_end (removelast texts) ->
  feed_all (after_text T) chunks = (after_text (T ++ concat texts), map (fun _ => Some []) chunks).
Proof.
  induction texts as [|t texts IH]; intros T chunks HT H2 Hr; inversion H2 as [|c ? cs ? Hc H3]; subst; [cbn; rewrite app_nil_r; reflexivity|].
  cbn [feed_all concat map]. rewrite (feed_step T c t HT Hc). destruct texts as [|t' texts].
  - inversion H3; subst. cbn. rewrite app_nil_r. reflexivity.
  - change (removelast (t :: t' :: texts)) with (t :: removelast (t' :: texts)) in Hr. pose proof (Forall_inv Hr) as Ht. apply Forall_inv_tail in Hr.
    rewrite (IH (T ++ t) cs); [rewrite <- app_assoc; reflexivity| |exact H3|exact Hr].
    unfold no_cr_end in *. destruct t as [|x t]; [rewrite app_nil_r; exact HT|]. rewrite ends_app by discriminate. exact Ht.
Qed.
Lemma feed_all_division chunks texts : division chunks texts -> feed_all stream_new chunks = (after_text (concat texts), map (fun _ => Some []) chunks).
Proof. intros [H1 H2]. apply (feed_division texts [] chunks); [reflexivity|exact H1|exact H2]. Qed.
Lemma concat_decode chunks texts : Forall2 (fun c t => from_utf8 c = Some t) chunks texts -> from_utf8 (concat chunks) = Some (concat texts).
Proof. induction 1 as [|c t cs ts H _ IH]; [reflexivity|]. cbn [concat]. apply decode_app; assumption. Qed.
Lemma feed_at_once chunks texts : division chunks texts -> fst (feed_all stream_new chunks) = fst (feed_chunk stream_new (concat chunks)).
Proof.
  intros H. rewrite (feed_all_division _ _ H). destruct H as [H _]. apply concat_decode in H. pose proof (feed_step [] (concat chunks) (concat texts) eq_refl H) as F.
  change stream_new with (after_text []). rewrite F. reflexivity.
Qed.
Lemma feed_invalid s c : c <> [] -> from_utf8 c = None -> feed_chunk s c = (s, None).
Proof. intros H E. unfold feed_chunk. destruct c; [congruence|]. rewrite E. reflexivity. Qed.
Lemma feed_silent s c : snd (feed_chunk s c) = None \/ snd (feed_chunk s c) = Some [].
Proof.
  unfold feed_chunk. destruct c as [|b c]; [auto|]. destruct (from_utf8 (b :: c)) as [t|] eqn:E; [|auto]. right.
  assert (Ht : t <> []) by (intros ->; destruct (decode_nonempty _ _ E) as [_ K]; specialize (K eq_refl); discriminate).
  pose proof (feed_text_state s t Ht) as [_ F]. destruct (feed_text s t). cbn [snd] in *. subst. reflexivity.
Qed.
Lemma feed_sections s c : st_sections (fst (feed_chunk s c)) = st_sections s.
Proof.
  unfold feed_chunk. destruct c as [|b c]; [reflexivity|]. destruct (from_utf8 (b :: c)); [|reflexivity]. unfold feed_text. destruct (process_lines _ _). reflexivity.
Qed.
Lemma all_sections cs : forall s, st_sections (fst (feed_all s cs)) = st_sections s.
Proof. induction cs as [|c cs IH]; intros s; [reflexivity|]. cbn [feed_all]. pose proof (feed_sections s c) as H. destruct (feed_chunk s c) as [s1 d]. specialize (IH s1). destruct (feed_all s1 cs). cbn [fst] in *. congruence. Qed.

(* ---- the processor ---- *)
Lemma line_number p l : pr_line (fst (process_line p l)) = S (pr_line p).
Proof.
  unfold process_line. destruct (trim l) as [|x t]; [reflexivity|]. destruct (_ || _); [reflexivity|]. destruct (_ && _); [reflexivity|].
  cbn [pr_state]. destruct (pr_state p) as [|[]|]; try reflexivity; cbn [fst]; unfold process_styles, process_events; destruct (strip_prefix _ _); try reflexivity. destruct (_ || _); reflexivity.
Qed.
Lemma lines_number ls : forall p, pr_line (fst (process_lines p ls)) = pr_line p + List.length ls.
Proof. induction ls as [|x l IH]; intros p; [cbn; lia|]. cbn [process_lines List.length]. pose proof (line_number p x) as H. destruct (process_line p x) as [p1 d]. specialize (IH p1). destruct (process_lines p1 l). cbn [fst] in *. lia. Qed.
Definition agrees (p : processor) : Prop := state_section (pr_state p) = pr_section p.
Lemma line_kind p l : agrees p -> let p' := fst (process_line p l) in agrees p' /\ pr_section p' = match stream_header l with Some k => Some k | None => pr_section p end.
Proof.
  unfold agrees, process_line, stream_header, stream_comment. intros H. destruct (trim l) as [|x t]; [auto|]. destruct (starts_with (lit ";") (x :: t) || _); [auto|]. destruct (starts_with (lit "[") (x :: t) && _); [auto|].
  cbn [pr_state]. destruct (pr_state p) as [|[]|k]; cbn [fst state_section pr_state pr_section] in *; auto; unfold process_styles, process_events; destruct (strip_prefix _ _); cbn [pr_state pr_section]; auto.
  destruct (_ || _); cbn [pr_state pr_section state_section]; auto.
Qed.
Lemma lines_kind ls : forall p, agrees p -> let p' := fst (process_lines p ls) in agrees p' /\
  pr_section p' = fold_left (fun acc l => match stream_header l with Some k => Some k | None => acc end) ls (pr_section p).
Proof.
  induction ls as [|x l IH]; intros p H; [auto|]. cbn [process_lines fold_left]. destruct (line_kind p x H) as [H1 H2]. destruct (process_line p x) as [p1 d]. cbn [fst] in *. destruct (IH p1 H1) as [I1 I2]. destruct (process_lines p1 l). cbn [fst] in *. rewrite H2 in I2. auto.
Qed.
Lemma delta_split l : List.length (structural_only l) + List.length (errors_only l) = List.length l /\ (has_errors l = true <-> errors_only l <> []).
Proof.
  induction l as [|d l [I1 I2]]; [split; [reflexivity|split; [discriminate|intros H; exfalso; apply H; reflexivity]]|]. unfold structural_only, errors_only, has_errors in *. cbn [filter existsb].
  destruct d; cbn [is_structural is_error List.length orb]; (split; [lia|]); try exact I2. split; [discriminate|reflexivity].
Qed.

(* ---- formats ---- *)
Lemma step_format k p l : has_format k -> format_for k (fst (process_line p l)) =
  match stream_header l with
  | Some k' => if match k, k' with KEvents, KEvents | KStyles, KStyles => true | _, _ => false end then None else format_for k p
  | None =>
    if stream_comment l then format_for k p
    else match pr_state p, strip_prefix (lit "Format:") (trim l) with
         | InSection k', Some f => if match k, k' with KEvents, KEvents | KStyles, KStyles => true | _, _ => false end then Some (trim f) else format_for k p
         | _, _ => format_for k p
         end
  end.
Proof.
  intros K. unfold process_line, stream_header, stream_comment. destruct (trim l) as [|x t]; [destruct K as [->| ->]; reflexivity|].
  destruct (starts_with (lit ";") (x :: t) || _); [destruct K as [->| ->]; reflexivity|].
  destruct (starts_with (lit "[") (x :: t) && _).
  - unfold process_header. cbn [fst]. set (k' := from_header _). destruct k', K as [->| ->]; reflexivity.
  - cbn [pr_state]. destruct (pr_state p) as [|[]|k']; destruct K as [->| ->]; cbn [fst]; unfold process_styles, process_events;
      try reflexivity; destruct (strip_prefix (lit "Format:") (x :: t)); try reflexivity; destruct (_ || _); reflexivity.
Qed.
Lemma lines_app a : forall p b, fst (process_lines p (a ++ b)) = fst (process_lines (fst (process_lines p a)) b).
Proof.
  induction a as [|x a IH]; intros p b; [reflexivity|]. cbn [app process_lines]. destruct (process_line p x) as [p1 d1]. specialize (IH p1 b).
  destruct (process_lines p1 (a ++ b)), (process_lines p1 a). exact IH.
Qed.
Lemma last_kind_snoc ls x : last_kind (ls ++ [x]) = match stream_header x with Some k => Some k | None => last_kind ls end.
Proof. unfold last_kind. rewrite fold_left_app. reflexivity. Qed.
Lemma last_kind_some ls k : last_kind ls = Some k -> exists a h b, ls = a ++ h :: b /\ stream_header h = Some k /\ forall x, In x b -> stream_header x = None.
Proof.
  induction ls as [|x ls IH] using rev_ind; [discriminate|]. rewrite last_kind_snoc. destruct (stream_header x) as [k'|] eqn:E.
  - intros Q. injection Q as ->. exists ls, x, []. split; [reflexivity|]. split; [exact E|]. intros y [].
  - intros Q. destruct (IH Q) as (a & h & b & -> & H & N). exists a, h, (b ++ [x]). split; [now rewrite <- app_assoc|]. split; [exact H|].
    intros y I. apply in_app_iff in I as [I|[<-|[]]]; [exact (N y I)|exact E].
Qed.
Lemma format_sound k ls f : has_format k -> format_for k (fst (process_lines proc_new ls)) = Some f ->
  exists a h b l c f', ls = a ++ h :: b ++ l :: c /\ stream_header h = Some k /\ (forall x, In x b -> stream_header x = None) /\
    (forall x, In x c -> stream_header x <> Some k) /\ format_line l f' /\ f = trim f'.
Proof.
  intros K. revert f. induction ls as [|x ls IH] using rev_ind; intros f H; [destruct K as [->| ->]; discriminate|].
  rewrite lines_app in H. set (p := fst (process_lines proc_new ls)) in *.
  assert (S1 : fst (process_lines p [x]) = fst (process_line p x)) by (cbn [process_lines]; destruct (process_line p x); reflexivity).
  rewrite S1, step_format in H by exact K.
  assert (KEEP : stream_header x <> Some k -> format_for k p = Some f -> exists a h b l c f', ls ++ [x] = a ++ h :: b ++ l :: c /\ stream_header h = Some k /\ (forall x, In x b -> stream_header x = None) /\
    (forall x, In x c -> stream_header x <> Some k) /\ format_line l f' /\ f = trim f').
  { intros NX Q. destruct (IH f Q) as (a & h & b & l & c & f' & -> & A & B & C & D & E). exists a, h, b, l, (c ++ [x]), f'.
    split; [rewrite <- app_assoc; cbn [app]; rewrite <- app_assoc; reflexivity|]. split; [exact A|]. split; [exact B|]. split; [|split; [exact D|exact E]].
    intros y I. apply in_app_iff in I as [I|[<-|[]]]; [exact (C y I)|exact NX]. }
  destruct (stream_header x) as [k'|] eqn:HX.
  - destruct k, k'; try discriminate; try (apply KEEP; [congruence|exact H]); destruct K; discriminate.
  - destruct (stream_comment x) eqn:CX; [apply KEEP; [congruence|exact H]|].
    destruct (pr_state p) as [|k'|k'] eqn:SP; [apply KEEP; [congruence|exact H]| |apply KEEP; [congruence|exact H]].
    destruct (strip_prefix (lit "Format:") (trim x)) as [g|] eqn:F; [|apply KEEP; [congruence|exact H]].
    destruct (match k, k' with KEvents, KEvents | KStyles, KStyles => true | _, _ => false end) eqn:KK; [|apply KEEP; [congruence|exact H]].
    assert (k' = k) as -> by (destruct k, k'; try discriminate; reflexivity). injection H as <-.
    destruct (lines_kind ls proc_new eq_refl) as [G1 G2]. fold p in G1, G2. unfold agrees in G1. rewrite SP in G1. cbn [state_section] in G1. rewrite <- G1 in G2.
    symmetry in G2. destruct (last_kind_some ls k G2) as (a & h & b & -> & A & B).
    exists a, h, b, x, [], g. split; [rewrite <- app_assoc; reflexivity|]. split; [exact A|]. split; [exact B|]. split; [intros y []|].
    split; [split; [exact CX|]; split; [exact HX|now apply strip_prefix_some]|reflexivity].
Qed.
Lemma header_state p h k : stream_header h = Some k -> pr_state (fst (process_line p h)) = InSection k.
Proof.
  unfold stream_header, process_line, stream_comment. destruct (trim h) as [|x t]; [discriminate|].
  destruct (starts_with (lit ";") (x :: t) || _); [discriminate|]. destruct (starts_with (lit "[") (x :: t) && _); [|discriminate].
  intros Q. injection Q as <-. reflexivity.
Qed.
Lemma comment_state p l : stream_comment l = true -> pr_state (fst (process_line p l)) = pr_state p.
Proof. unfold process_line, stream_comment. destruct (trim l) as [|x t]; [reflexivity|]. intros ->. reflexivity. Qed.
Lemma lines_cons p x l : fst (process_lines p (x :: l)) = fst (process_lines (fst (process_line p x)) l).
Proof. cbn [process_lines]. destruct (process_line p x) as [p1 d1]. cbn [fst]. destruct (process_lines p1 l). reflexivity. Qed.
Lemma format_complete k a h b l c f p : has_format k -> stream_header h = Some k -> Forall (fun x => stream_comment x = true) b -> format_line l f ->
  Forall (fun x => stream_header x <> Some k /\ strip_prefix (lit "Format:") (trim x) = None) c ->
  format_for k (fst (process_lines p (a ++ h :: b ++ l :: c))) = Some (trim f).
Proof.
  intros K H B (L1 & L2 & L3) C. rewrite lines_app, lines_cons. set (p1 := fst (process_line _ h)).
  assert (S1 : pr_state p1 = InSection k) by now apply header_state. clearbody p1. clear H.
  rewrite lines_app.
  assert (S2 : pr_state (fst (process_lines p1 b)) = InSection k).
  { clear -S1 B. revert p1 S1. induction B as [|x b X B IH]; intros p1 S1; [exact S1|]. rewrite lines_cons. apply IH. rewrite comment_state by exact X. exact S1. }
  set (p2 := fst (process_lines p1 b)) in *. clearbody p2. rewrite lines_cons.
  assert (F : format_for k (fst (process_line p2 l)) = Some (trim f)).
  { rewrite step_format by exact K. rewrite L2, L1, S2. apply strip_prefix_some in L3. rewrite L3. destruct K as [->| ->]; reflexivity. }
  set (p3 := fst (process_line p2 l)) in *. clearbody p3. clear -F C K. revert p3 F. induction C as [|x c [X1 X2] C IH]; intros p3 F; [exact F|].
  rewrite lines_cons. apply IH. rewrite step_format by exact K. destruct (stream_header x) as [k'|].
  - destruct k, k'; try exact F; try (destruct K; discriminate); congruence.
  - destruct (stream_comment x); [exact F|]. rewrite X2. destruct (pr_state p3); exact F.
Qed.
Lemma trim_blank l : trim l = [] <-> blank l.
Proof.
  unfold blank, trim, trim_start, trim_end. split.
  - intros H. induction l as [|c l IH]; [constructor|]. cbn [drop_while] in H. destruct (is_ws c) eqn:E; [constructor; auto|].
    exfalso. cbn [drop_end] in H. rewrite E in H. destruct (drop_end is_ws l); discriminate.
  - intros H. assert (drop_while is_ws l = []) as ->; [|reflexivity]. induction H as [|c l C H IH]; [reflexivity|]. cbn [drop_while]. now rewrite C.
Qed.
Lemma finish_open s : (blank (st_buffer s) -> finish_processor s = st_proc s) /\
  (~ blank (st_buffer s) -> finish_processor s = fst (process_lines (st_proc s) [st_buffer s])).
Proof.
  unfold finish_processor. split; intros H.
  - apply trim_blank in H. now rewrite H.
  - destruct (trim (st_buffer s)) as [|x t] eqn:E; [exfalso; apply H; now apply trim_blank|]. now rewrite lines_cons.
Qed.
