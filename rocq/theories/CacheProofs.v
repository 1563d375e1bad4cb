(* Proofs about the caches. *)
From Verif Require Import BaseLemmas CacheSpec.

Section Map.
  Context {K V : Type} (eqb : K -> K -> bool).
  Hypothesis eqb_eq : forall a b, eqb a b = true <-> a = b.
  Implicit Types (m : hmap K V) (k : K).
  Lemma eqb_no a b : a <> b -> eqb a b = false.
  Proof. intros N. destruct (eqb a b) eqn:E; [apply eqb_eq in E; contradiction|reflexivity]. Qed.
  Lemma eqb_yes a : eqb a a = true.
  Proof. now apply eqb_eq. Qed.
  Lemma get_in k v m : hm_get eqb k m = Some v -> In (k, v) m.
  Proof. induction m as [|[k' v'] m IH]; cbn [hm_get]; [discriminate|]. destruct (eqb k k') eqn:E; [apply eqb_eq in E; subst; intros [= ->]; now left|right; auto]. Qed.
  Lemma get_none k m : hm_get eqb k m = None <-> ~ In k (map fst m).
  Proof.
    induction m as [|[k' v'] m IH]; cbn [hm_get map fst In]; [tauto|]. destruct (eqb k k') eqn:E.
    - apply eqb_eq in E. subst. split; [discriminate|tauto].
    - rewrite IH. split; [|tauto]. intros H [->|I]; [rewrite eqb_yes in E; discriminate|tauto].
  Qed.
  Lemma remove_other k k' m : k' <> k -> hm_get eqb k' (hm_remove eqb k m) = hm_get eqb k' m.
  Proof.
    intros N. induction m as [|[a v] m IH]; [reflexivity|]. cbn [hm_remove hm_get]. destruct (eqb k a) eqn:E.
    - apply eqb_eq in E. subst a. now rewrite eqb_no.
    - cbn [hm_get]. now rewrite IH.
  Qed.
  Lemma remove_keys k m x : In x (map fst (hm_remove eqb k m)) -> In x (map fst m).
  Proof. induction m as [|[a v] m IH]; [auto|]. cbn [hm_remove]. destruct (eqb k a); cbn [map fst In]; tauto. Qed.
  Lemma remove_nodup k m : NoDup (map fst m) -> NoDup (map fst (hm_remove eqb k m)) /\ ~ In k (map fst (hm_remove eqb k m)).
  Proof.
    induction m as [|[a v] m IH]; cbn [hm_remove map fst]; [intros _; split; [constructor|auto]|]. intros D. inversion D as [|? ? N D']; subst. destruct (eqb k a) eqn:E.
    - apply eqb_eq in E. subst a. now split.
    - destruct (IH D') as [D1 N1]. cbn [map fst]. split; [constructor; [intros X; apply N; now apply (remove_keys k)|exact D1]|]. intros [->|X]; [rewrite eqb_yes in E; discriminate|now apply N1].
  Qed.
  Lemma remove_len k m : In k (map fst m) -> S (List.length (hm_remove eqb k m)) = List.length m.
  Proof.
    induction m as [|[a v] m IH]; cbn [map fst In]; [tauto|]. intros I. cbn [hm_remove]. destruct (eqb k a) eqn:E; [reflexivity|]. cbn [List.length]. f_equal. apply IH. destruct I as [->|I]; [rewrite eqb_yes in E; discriminate|exact I].
  Qed.
  Lemma insert_same k v m : hm_get eqb k (hm_insert eqb k v m) = Some v.
  Proof. induction m as [|[a w] m IH]; cbn [hm_insert]; [cbn [hm_get]; now rewrite eqb_yes|]. destruct (eqb k a) eqn:E; cbn [hm_get]; [now rewrite eqb_yes|now rewrite E]. Qed.
  Lemma insert_other k k' v m : k' <> k -> hm_get eqb k' (hm_insert eqb k v m) = hm_get eqb k' m.
  Proof.
    intros N. induction m as [|[a w] m IH]; cbn [hm_insert]; [cbn [hm_get]; now rewrite eqb_no|]. destruct (eqb k a) eqn:E; cbn [hm_get].
    - apply eqb_eq in E. subst a. now rewrite !eqb_no by assumption.
    - now rewrite IH.
  Qed.
  Lemma insert_keys k v m x : In x (map fst (hm_insert eqb k v m)) -> x = k \/ In x (map fst m).
  Proof.
    induction m as [|[a w] m IH]; cbn [hm_insert]; [cbn; intuition congruence|]. destruct (eqb k a) eqn:E; cbn [map fst In]; [|tauto]. apply eqb_eq in E. subst. intuition congruence.
  Qed.
  Lemma insert_nodup k v m : NoDup (map fst m) -> NoDup (map fst (hm_insert eqb k v m)).
  Proof.
    induction m as [|[a w] m IH]; cbn [hm_insert map fst]; [intros _; repeat constructor; auto|]. intros D. inversion D as [|? ? N D']; subst. destruct (eqb k a) eqn:E; cbn [map fst].
    - apply eqb_eq in E. subst. now constructor.
    - constructor; [|now apply IH]. intros X. apply insert_keys in X. destruct X as [->|X]; [rewrite eqb_yes in E; discriminate|contradiction].
  Qed.
  Lemma insert_len k v m : List.length (hm_insert eqb k v m) <= S (List.length m).
  Proof. induction m as [|[a w] m IH]; cbn [hm_insert]; [cbn; lia|]. destruct (eqb k a); cbn [List.length]; lia. Qed.
  Lemma insert_len_old k v m : In k (map fst m) -> List.length (hm_insert eqb k v m) = List.length m.
  Proof.
    induction m as [|[a w] m IH]; cbn [map fst In hm_insert]; [tauto|]. intros I. destruct (eqb k a) eqn:E; [reflexivity|]. cbn [List.length]. f_equal. apply IH. destruct I as [->|I]; [rewrite eqb_yes in E; discriminate|exact I].
  Qed.
  Lemma some_key_in n m : m <> [] -> exists k, some_key n m = Some k /\ In k (map fst m).
  Proof.
    intros N. unfold some_key. destruct (nth_error m (n mod List.length m)) as [[k v]|] eqn:E.
    - exists k. split; [reflexivity|]. apply nth_error_In in E. now apply (in_map fst) in E.
    - apply nth_error_None in E. destruct m; [contradiction|]. pose proof (Nat.mod_upper_bound n (List.length (p :: m)) ltac:(cbn; lia)). lia.
  Qed.
  Lemma store_ok limit n k v m m' gone : NoDup (map fst m) -> store eqb limit n k v m = (m', gone) ->
    NoDup (map fst m') /\ (gone = true <-> limit <= List.length m /\ m <> []) /\
    stored (fun x => hm_get eqb x m) (limit <= List.length m /\ m <> []) k v (fun x => hm_get eqb x m') /\
    (List.length m <= Nat.max 1 limit -> List.length m' <= Nat.max 1 limit) /\ (List.length m < limit -> gone = false).
  Proof.
    intros D. unfold store, make_room. destruct (Nat.leb_spec limit (List.length m)) as [L|L].
    - destruct m as [|p m0].
      + cbn [some_key List.length nth_error option_map Nat.modulo]. intros E. replace (some_key n []) with (@None K) in E by (unfold some_key; now destruct (n mod _)). injection E as <- <-. cbn [hm_insert map fst List.length]. split; [repeat constructor; auto|]. split; [split; [discriminate|intros [_ C]; congruence]|]. split.
        * split; [cbn [hm_get]; now rewrite eqb_yes|]. left. split; [intros [_ C]; congruence|]. intros k' N. cbn [hm_get]. now rewrite eqb_no.
        * split; [lia|reflexivity].
      + set (m := p :: m0) in *. assert (NE : m <> []) by discriminate. clearbody m. destruct (some_key_in n m NE) as (x & -> & I). intros [= <- <-]. destruct (remove_nodup x m D) as [D1 N1]. pose proof (remove_len x m I) as RL.
        split; [now apply insert_nodup|]. split; [split; [auto|reflexivity]|]. split.
        * split; [apply insert_same|]. right. split; [auto|]. exists x. split; [intros G; apply get_none in G; contradiction|]. split.
          -- intros N. rewrite insert_other by assumption. now apply get_none.
          -- intros k' Nk Nx. rewrite insert_other by assumption. now apply remove_other.
        * split; [|lia]. intros B. pose proof (insert_len k v (hm_remove eqb x m)). lia.
    - intros [= <- <-]. split; [now apply insert_nodup|]. split; [split; [discriminate|lia]|]. split.
      + split; [apply insert_same|]. left. split; [lia|]. intros k' N. now apply insert_other.
      + split; [|reflexivity]. intros B. pose proof (insert_len k v m). lia.
  Qed.
End Map.
Lemma glyph_key_eq a b : glyph_key_eqb a b = true <-> a = b.
Proof.
  unfold glyph_key_eqb. rewrite !andb_true_iff, str_eqb_eq, !N.eqb_eq. destruct a, b. cbn. split; [intros [[[-> ->] ->] ->]; reflexivity|intros [= -> -> -> ->]; auto].
Qed.
Lemma text_key_eq a b : text_key_eqb a b = true <-> a = b.
Proof.
  unfold text_key_eqb. rewrite !andb_true_iff, !str_eqb_eq, !N.eqb_eq, !Bool.eqb_true_iff. destruct a, b. cbn. split; [intros [[[[-> ->] ->] ->] ->]; reflexivity|intros [= -> -> -> -> ->]; auto].
Qed.

(* ---- histories ---- *)
(* what is kept about one map: bounded, no key twice, entries are the last
   stored ones, and all of them while there were few stores *)
Record faithful {K V} (eqb : K -> K -> bool) (limit : nat) (m : hmap K V) (last : K -> option V) (stores : nat) : Prop := {
  fa_nodup : NoDup (map fst m);
  fa_bound : List.length m <= Nat.max 1 limit;
  fa_last : forall k v, hm_get eqb k m = Some v -> last k = Some v;
  fa_few : stores <= limit -> List.length m <= stores /\ forall k, hm_get eqb k m = last k }.
Lemma faithful_nil {K V} (eqb : K -> K -> bool) limit : @faithful K V eqb limit [] (fun _ => None) 0.
Proof. constructor; [constructor|cbn; lia|discriminate|intros _; split; [cbn; lia|reflexivity]]. Qed.
Lemma faithful_store {K V} (eqb : K -> K -> bool) limit m (last : K -> option V) stores n k v : (forall a b, eqb a b = true <-> a = b) -> faithful eqb limit m last stores ->
  faithful eqb limit (fst (store eqb limit n k v m)) (fun x => if eqb x k then Some v else last x) (S stores).
Proof.
  intros EQ [D B L F]. destruct (store eqb limit n k v m) as [m' gone] eqn:E. destruct (store_ok eqb EQ limit n k v m m' gone D E) as (D' & G & (S1 & S2) & B' & FR). cbn [fst]. constructor.
  - exact D'.
  - now apply B'.
  - intros x w H. destruct (eqb x k) eqn:X; [apply EQ in X; subst; congruence|]. assert (NX : x <> k) by (intros ->; rewrite (eqb_yes eqb EQ) in X; discriminate). apply L. destruct S2 as [[_ S2]|(_ & victim & V1 & V2 & S2)]; [now rewrite <- S2|].
    rewrite <- S2; [exact H|exact NX|]. intros ->. rewrite (V2 NX) in H. discriminate.
  - intros ST. destruct (F ltac:(lia)) as [F1 F2]. assert (NF : gone = false) by (apply FR; lia). split.
    + unfold store, make_room in E. replace (limit <=? List.length m) with false in E by (symmetry; apply Nat.leb_gt; lia). injection E as <- _. pose proof (insert_len eqb EQ k v m). lia.
    + intros x. destruct (eqb x k) eqn:X; [apply EQ in X; now subst|]. assert (NX : x <> k) by (intros ->; rewrite (eqb_yes eqb EQ) in X; discriminate). destruct S2 as [[_ S2]|(S2 & _)]; [now rewrite S2, F2|].
      exfalso. apply G in S2. congruence.
Qed.
Lemma faithful_ext {K V} (eqb : K -> K -> bool) limit (m : hmap K V) last last' stores : (forall k, last k = last' k) -> faithful eqb limit m last stores -> faithful eqb limit m last' stores.
Proof. intros E [D B L F]. constructor; auto; [intros k v; rewrite <- E; auto|]. intros S. destruct (F S) as [F1 F2]. split; [exact F1|]. intros k. rewrite <- E. auto. Qed.
Lemma glyph_faithful {G} limit (ops : list (glyph_op G)) : forall m last stores c outs, faithful glyph_key_eqb limit m last stores -> glyph_run (GlyphCache m limit) ops = (c, outs) ->
  gc_max c = limit /\ faithful glyph_key_eqb limit (gc_map c) (fun k => last_glyph k (last k) ops) (glyph_stores stores ops).
Proof.
  induction ops as [|o ops IH]; intros m last stores c outs F; cbn [glyph_run]; [intros [= <- <-]; now split|].
  destruct (glyph_step (GlyphCache m limit) o) as [c1 x] eqn:E. destruct (glyph_run c1 ops) as [c2 l] eqn:E2. intros [= <- <-].
  destruct o as [k|n k g| |]; cbn [glyph_step gc_map gc_max] in E; injection E as <- <-; cbn [last_glyph glyph_stores].
  - now apply (IH m last stores _ l).
  - apply (IH _ _ _ _ l (faithful_store glyph_key_eqb limit m last stores n k g glyph_key_eq F) E2).
  - apply (IH [] (fun _ => None) 0 _ l (faithful_nil _ _) E2).
  - now apply (IH m last stores _ l).
Qed.
Lemma render_faithful {T P} lt ld (ops : list (render_op T P)) : forall mt md st lastt lastd nt nd c outs, faithful text_key_eqb lt mt lastt nt -> faithful str_eqb ld md lastd nd -> render_run (RenderCache mt lt md ld st) ops = (c, outs) ->
  rc_max_text c = lt /\ rc_max_drawing c = ld /\ faithful text_key_eqb lt (rc_text c) (fun k => last_text k (lastt k) ops) (text_stores nt ops) /\ faithful str_eqb ld (rc_drawing c) (fun k => last_drawing k (lastd k) ops) (drawing_stores nd ops).
Proof.
  induction ops as [|o ops IH]; intros mt md st lastt lastd nt nd c outs FT FD; cbn [render_run]; [intros [= <- <-]; exact (conj eq_refl (conj eq_refl (conj FT FD)))|].
  destruct (render_step (RenderCache mt lt md ld st) o) as [c1 x] eqn:E. destruct (render_run c1 ops) as [c2 l] eqn:E2. intros [= <- <-].
  destruct o as [k|n k t|k|n k p|]; cbn [render_step rc_text rc_max_text rc_drawing rc_max_drawing rc_stats] in E; cbn [last_text last_drawing text_stores drawing_stores].
  - injection E as <- <-. now apply (IH mt md _ lastt lastd nt nd _ l FT FD E2).
  - pose proof (faithful_store text_key_eqb lt mt lastt nt n k t text_key_eq FT) as F'. destruct (store text_key_eqb lt n k t mt) as [m gone]. injection E as <- <-. apply (IH _ _ _ _ _ _ _ _ l F' FD E2).
  - injection E as <- <-. now apply (IH mt md _ lastt lastd nt nd _ l FT FD E2).
  - pose proof (faithful_store str_eqb ld md lastd nd n k p str_eqb_eq FD) as F'. destruct (store str_eqb ld n k p md) as [m gone]. injection E as <- <-. apply (IH _ _ _ _ _ _ _ _ l FT F' E2).
  - injection E as <- <-. apply (IH [] [] _ (fun _ => None) (fun _ => None) 0 0 _ l (faithful_nil _ _) (faithful_nil _ _) E2).
Qed.
Lemma counts {T P} (ops : list (render_op T P)) : forall c c' outs, render_run c ops = (c', outs) ->
  st_text_hits (rc_stats c') = counted text_hit (st_text_hits (rc_stats c)) ops outs /\ st_text_misses (rc_stats c') = counted text_miss (st_text_misses (rc_stats c)) ops outs /\
  st_drawing_hits (rc_stats c') = counted drawing_hit (st_drawing_hits (rc_stats c)) ops outs /\ st_drawing_misses (rc_stats c') = counted drawing_miss (st_drawing_misses (rc_stats c)) ops outs.
Proof.
  induction ops as [|o ops IH]; intros c c' outs; cbn [render_run]; [intros [= <- <-]; now repeat split|].
  destruct (render_step c o) as [c1 x] eqn:E. destruct (render_run c1 ops) as [c2 l] eqn:E2. intros [= <- <-]. destruct (IH _ _ _ E2) as (H1 & H2 & H3 & H4). clear IH E2.
  destruct o as [k|n k t|k|n k p|]; cbn [render_step] in E.
  - injection E as <- <-. cbn [rc_stats] in *. unfold found_text in *. destruct (hm_get text_key_eqb k (rc_text c)); cbn [is_some] in *; cbn [st_text_hits st_text_misses st_drawing_hits st_drawing_misses] in *; now repeat split.
  - destruct (store text_key_eqb _ n k t _) as [m gone]. injection E as <- <-. cbn [rc_stats] in *. unfold evicted in *. destruct gone; cbn [st_text_hits st_text_misses st_drawing_hits st_drawing_misses] in *; now repeat split.
  - injection E as <- <-. cbn [rc_stats] in *. unfold found_drawing in *. destruct (hm_get str_eqb k (rc_drawing c)); cbn [is_some] in *; cbn [st_text_hits st_text_misses st_drawing_hits st_drawing_misses] in *; now repeat split.
  - destruct (store str_eqb _ n k p _) as [m gone]. injection E as <- <-. cbn [rc_stats] in *. unfold evicted in *. destruct gone; cbn [st_text_hits st_text_misses st_drawing_hits st_drawing_misses] in *; now repeat split.
  - injection E as <- <-. cbn [rc_stats no_stats st_text_hits st_text_misses st_drawing_hits st_drawing_misses] in *. now repeat split.
Qed.
