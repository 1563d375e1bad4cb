(* C45: the caches.  Every theorem ranges over all histories of calls and, in
   the choices carried by the calls, over all orders of the hash map. *)
From Verif Require Import BaseLemmas CacheSpec CacheProofs.

Theorem glyph_cache_bounded : forall G limit (ops : list (glyph_op G)) c outs, glyph_run (GlyphCache [] limit) ops = (c, outs) -> List.length (gc_map c) <= Nat.max 1 limit.
Proof. intros G limit ops c outs E. destruct (glyph_faithful limit ops [] (fun _ => None) 0 c outs (faithful_nil _ _) E) as [_ F]. apply F. Qed.
Print Assumptions glyph_cache_bounded.
Theorem glyph_cache_sound : forall G limit (ops : list (glyph_op G)) c outs k g, glyph_run (GlyphCache [] limit) ops = (c, outs) -> glyph_lookup c k = Some g -> last_glyph k None ops = Some g.
Proof. intros G limit ops c outs k g E L. destruct (glyph_faithful limit ops [] (fun _ => None) 0 c outs (faithful_nil _ _) E) as [_ F]. apply (fa_last _ _ _ _ _ F k g L). Qed.
Print Assumptions glyph_cache_sound.
Theorem glyph_cache_complete : forall G limit (ops : list (glyph_op G)) c outs k, glyph_run (GlyphCache [] limit) ops = (c, outs) -> glyph_stores 0 ops <= limit -> glyph_lookup c k = last_glyph k None ops.
Proof. intros G limit ops c outs k E S. destruct (glyph_faithful limit ops [] (fun _ => None) 0 c outs (faithful_nil _ _) E) as [_ F]. apply (proj2 (fa_few _ _ _ _ _ F S) k). Qed.
Print Assumptions glyph_cache_complete.
Theorem glyph_insert_exact : forall G limit (ops : list (glyph_op G)) c outs n k g, glyph_run (GlyphCache [] limit) ops = (c, outs) ->
  stored (glyph_lookup c) (limit <= List.length (gc_map c) /\ gc_map c <> []) k g (glyph_lookup (fst (glyph_step c (GInsert n k g)))).
Proof.
  intros G limit ops c outs n k g E. destruct (glyph_faithful limit ops [] (fun _ => None) 0 c outs (faithful_nil _ _) E) as [M F]. cbn [glyph_step fst].
  destruct (store glyph_key_eqb (gc_max c) n k g (gc_map c)) as [m' gone] eqn:S. destruct (store_ok glyph_key_eqb glyph_key_eq _ _ _ _ _ _ _ (fa_nodup _ _ _ _ _ F) S) as (_ & _ & H & _). rewrite M in H. exact H.
Qed.
Print Assumptions glyph_insert_exact.
(* len and the results of get are those of the map *)
Theorem glyph_len_exact : forall G limit (ops : list (glyph_op G)) c outs, glyph_run (GlyphCache [] limit) ops = (c, outs) ->
  exists keys, snd (glyph_step c GLen) = OLen (List.length keys) /\ NoDup keys /\ forall k, In k keys <-> glyph_lookup c k <> None.
Proof.
  intros G limit ops c outs E. destruct (glyph_faithful limit ops [] (fun _ => None) 0 c outs (faithful_nil _ _) E) as [_ F]. exists (map fst (gc_map c)). split; [cbn; now rewrite map_length|]. split; [apply F|].
  intros k. unfold glyph_lookup. cbn [glyph_step snd]. rewrite (get_none glyph_key_eqb glyph_key_eq k (gc_map c)). split; [tauto|]. intros H. destruct (in_dec (fun a b => ltac:(destruct (glyph_key_eqb a b) eqn:X; [left; now apply glyph_key_eq|right; intros Y; apply glyph_key_eq in Y; congruence])) k (map fst (gc_map c))); [assumption|contradiction].
Qed.
Print Assumptions glyph_len_exact.

Theorem render_cache_bounded : forall T P lt ld (ops : list (render_op T P)) c outs, render_run (with_limits lt ld) ops = (c, outs) ->
  List.length (rc_text c) <= Nat.max 1 lt /\ List.length (rc_drawing c) <= Nat.max 1 ld /\ NoDup (map fst (rc_text c)) /\ NoDup (map fst (rc_drawing c)).
Proof.
  intros T P lt ld ops c outs E. destruct (render_faithful lt ld ops [] [] no_stats (fun _ => None) (fun _ => None) 0 0 c outs (faithful_nil _ _) (faithful_nil _ _) E) as (_ & _ & F1 & F2). split; [apply F1|]. split; [apply F2|]. split; [apply F1|apply F2].
Qed.
Print Assumptions render_cache_bounded.
Theorem render_cache_sound : forall T P lt ld (ops : list (render_op T P)) c outs, render_run (with_limits lt ld) ops = (c, outs) ->
  (forall k t, text_lookup c k = Some t -> last_text k None ops = Some t) /\ (forall k p, drawing_lookup c k = Some p -> last_drawing k None ops = Some p).
Proof.
  intros T P lt ld ops c outs E. destruct (render_faithful lt ld ops [] [] no_stats (fun _ => None) (fun _ => None) 0 0 c outs (faithful_nil _ _) (faithful_nil _ _) E) as (_ & _ & F1 & F2). split; [apply F1|apply F2].
Qed.
Print Assumptions render_cache_sound.
Theorem render_cache_complete : forall T P lt ld (ops : list (render_op T P)) c outs, render_run (with_limits lt ld) ops = (c, outs) ->
  (text_stores 0 ops <= lt -> forall k, text_lookup c k = last_text k None ops) /\ (drawing_stores 0 ops <= ld -> forall k, drawing_lookup c k = last_drawing k None ops).
Proof.
  intros T P lt ld ops c outs E. destruct (render_faithful lt ld ops [] [] no_stats (fun _ => None) (fun _ => None) 0 0 c outs (faithful_nil _ _) (faithful_nil _ _) E) as (_ & _ & F1 & F2). split; intros S k; [apply (fa_few _ _ _ _ _ F1 S)|apply (fa_few _ _ _ _ _ F2 S)].
Qed.
Print Assumptions render_cache_complete.
Theorem text_store_exact : forall T P lt ld (ops : list (render_op T P)) c outs n k t c' out, render_run (with_limits lt ld) ops = (c, outs) -> render_step c (StoreText n k t) = (c', out) ->
  let full := lt <= List.length (rc_text c) /\ rc_text c <> [] in
  out = OText (Some t) /\ stored (text_lookup c) full k t (text_lookup c') /\ (forall d, drawing_lookup c' d = drawing_lookup c d) /\
  (full -> st_evictions (rc_stats c') = st_evictions (rc_stats c) + 1)%N /\ (~ full -> st_evictions (rc_stats c') = st_evictions (rc_stats c)).
Proof.
  intros T P lt ld ops c outs n k t c' out E. destruct (render_faithful lt ld ops [] [] no_stats (fun _ => None) (fun _ => None) 0 0 c outs (faithful_nil _ _) (faithful_nil _ _) E) as (M & _ & F1 & _). cbn [render_step].
  destruct (store text_key_eqb (rc_max_text c) n k t (rc_text c)) as [m gone] eqn:S. destruct (store_ok text_key_eqb text_key_eq _ _ _ _ _ _ _ (fa_nodup _ _ _ _ _ F1) S) as (_ & G & H & _). rewrite M in G, H. intros [= <- <-]. cbv zeta.
  split; [reflexivity|]. split; [exact H|]. split; [reflexivity|]. cbn [rc_stats]. unfold evicted. split; intros X; destruct gone; try reflexivity; [apply G in X; discriminate|exfalso; apply X; now apply G].
Qed.
Print Assumptions text_store_exact.
Theorem drawing_store_exact : forall T P lt ld (ops : list (render_op T P)) c outs n k p c' out, render_run (with_limits lt ld) ops = (c, outs) -> render_step c (StoreDrawing n k p) = (c', out) ->
  let full := ld <= List.length (rc_drawing c) /\ rc_drawing c <> [] in
  stored (drawing_lookup c) full k p (drawing_lookup c') /\ (forall d, text_lookup c' d = text_lookup c d) /\
  (full -> st_evictions (rc_stats c') = st_evictions (rc_stats c) + 1)%N /\ (~ full -> st_evictions (rc_stats c') = st_evictions (rc_stats c)).
Proof.
  intros T P lt ld ops c outs n k p c' out E. destruct (render_faithful lt ld ops [] [] no_stats (fun _ => None) (fun _ => None) 0 0 c outs (faithful_nil _ _) (faithful_nil _ _) E) as (_ & M & _ & F2). cbn [render_step].
  destruct (store str_eqb (rc_max_drawing c) n k p (rc_drawing c)) as [m gone] eqn:S. destruct (store_ok str_eqb str_eqb_eq _ _ _ _ _ _ _ (fa_nodup _ _ _ _ _ F2) S) as (_ & G & H & _). rewrite M in G, H. intros [= <- <-]. cbv zeta.
  split; [exact H|]. split; [reflexivity|]. cbn [rc_stats]. unfold evicted. split; intros X; destruct gone; try reflexivity; [apply G in X; discriminate|exfalso; apply X; now apply G].
Qed.
Print Assumptions drawing_store_exact.
Theorem cache_stats_exact : forall T P lt ld (ops : list (render_op T P)) c outs, render_run (with_limits lt ld) ops = (c, outs) ->
  st_text_hits (rc_stats c) = counted text_hit 0 ops outs /\ st_text_misses (rc_stats c) = counted text_miss 0 ops outs /\
  st_drawing_hits (rc_stats c) = counted drawing_hit 0 ops outs /\ st_drawing_misses (rc_stats c) = counted drawing_miss 0 ops outs.
Proof. intros T P lt ld ops c outs E. exact (counts ops _ _ _ E). Qed.
Print Assumptions cache_stats_exact.
Theorem lookups_change_nothing : forall T P (c : render_cache T P) k d, text_lookup (fst (render_step c (GetText k))) = text_lookup c /\ drawing_lookup (fst (render_step c (GetText k))) = drawing_lookup c /\
  text_lookup (fst (render_step c (GetDrawing d))) = text_lookup c /\ drawing_lookup (fst (render_step c (GetDrawing d))) = drawing_lookup c.
Proof. intros T P c k d. repeat split. Qed.
Print Assumptions lookups_change_nothing.

(* a run through both kinds of entry, an eviction and a clearing *)
Definition text_a : text_key := TextKey (lit "a") [] 10 false false.
Definition text_b : text_key := TextKey (lit "a") [] 10 true false.
Example render_cache_instance : exists c, render_run (with_limits 1 1)
    [GetText text_a; StoreText 0 text_a 1%N; GetText text_a; StoreText 0 text_b 2%N; GetText text_a; GetText text_b; StoreDrawing 0 (lit "m") (@None N); GetDrawing (lit "m"); ClearCache; GetText text_b] =
  (c, [OText None; OText (Some 1%N); OText (Some 1%N); OText (Some 2%N); OText None; OText (Some 2%N); ONone; ODrawing (Some None); ONone; OText None]) /\ rc_stats c = Stats 0 1 0 0 0.
Proof. eexists. split; vm_compute; reflexivity. Qed.
Example new_cache_limits : exists c outs, render_run (@new_cache N N) [StoreText 0 text_a 1%N] = (c, outs) /\ rc_max_text c = 1000 /\ rc_max_drawing c = 500.
Proof. eexists. eexists. split; [reflexivity|]. split; vm_compute; reflexivity. Qed.
(* A cache made for no entries still keeps one. *)
Theorem zero_limit_refuted : exists (c : glyph_cache N) outs, glyph_run (GlyphCache [] 0) [GInsert 0 (GlyphKey [] 1 1 0) 7%N] = (c, outs) /\ List.length (gc_map c) = 1.
Proof. eexists. eexists. split; vm_compute; reflexivity. Qed.
Print Assumptions zero_limit_refuted.
(* Storing a key again into a full cache evicts another entry though none was needed. *)
Theorem overwrite_evicts_refuted : exists (c : glyph_cache N) outs, let a := GlyphKey [] 1 1 0 in let b := GlyphKey [] 2 1 0 in
  glyph_run (GlyphCache [] 2) [GInsert 0 a 7%N; GInsert 0 b 8%N; GInsert 0 b 9%N; GGet a; GGet b; GLen] = (c, outs) /\ outs = [ODone; ODone; ODone; OGlyph None; OGlyph (Some 9%N); OLen 1].
Proof. eexists. eexists. split; vm_compute; reflexivity. Qed.
Print Assumptions overwrite_evicts_refuted.
