(* Frames with shared buffers behave as plain values. *)
From Verif Require Import Base FrameModel FrameSpec.

(* --- pixels --- *)
Lemma pixels_cons4 p x y z a r : p <> Rgb8 ->
  pixels_of p (x :: y :: z :: a :: r) = match p with Bgra8 => (z, y, x, a) | _ => (x, y, z, a) end :: pixels_of p r.
Proof.
  intros Hp. unfold pixels_of. assert (E : bpp p = 4) by (destruct p; [reflexivity|reflexivity|congruence]). rewrite E.
  replace (List.length (x :: y :: z :: a :: r) / 4) with (S (List.length r / 4)).
  2:{ change (List.length (x :: y :: z :: a :: r)) with (1 * 4 + List.length r). rewrite Nat.div_add_l by lia. reflexivity. }
  cbn [seq flat_map]. rewrite <- seq_shift, flat_map_concat_map, map_map, <- flat_map_concat_map.
  replace (pixel p (x :: y :: z :: a :: r) 0) with (Some (match p with Bgra8 => (z, y, x, a) | _ => (x, y, z, a) end)).
  2:{ destruct p; try congruence; reflexivity. }
  cbn [app]. f_equal. apply flat_map_ext. intros k. destruct p; try congruence; reflexivity.
Qed.
Lemma pixels_cons3 x y z r : pixels_of Rgb8 (x :: y :: z :: r) = (x, y, z, 255%N) :: pixels_of Rgb8 r.
Proof.
  unfold pixels_of. cbn [bpp].
  replace (List.length (x :: y :: z :: r) / 3) with (S (List.length r / 3)).
  2:{ change (List.length (x :: y :: z :: r)) with (1 * 3 + List.length r). rewrite Nat.div_add_l by lia. reflexivity. }
  cbn [seq flat_map]. rewrite <- seq_shift, flat_map_concat_map, map_map, <- flat_map_concat_map.
  unfold pixel at 1. cbn [bpp Nat.mul skipn firstn app]. f_equal.
Qed.
Lemma skip_cons4 (x y z a : N) r : skipn (List.length (x :: y :: z :: a :: r) / 4 * 4) (x :: y :: z :: a :: r) = skipn (List.length r / 4 * 4) r.
Proof.
  change (List.length (x :: y :: z :: a :: r)) with (1 * 4 + List.length r). rewrite Nat.div_add_l by lia.
  change ((1 + List.length r / 4) * 4) with (4 + List.length r / 4 * 4). reflexivity.
Qed.
Lemma short4 (b : list N) : (forall x y z a r, b <> x :: y :: z :: a :: r) -> List.length b / 4 = 0.
Proof.
  intros H. destruct b as [|x [|y [|z [|a r]]]]; try reflexivity. exfalso. exact (H x y z a r eq_refl).
Qed.
Fixpoint swap02_spec (b : list N) : swap02 b = rgba_bytes Bgra8 b.
Proof.
  destruct b as [|x [|y [|z [|a r]]]]; try reflexivity.
  cbn [swap02]. rewrite (swap02_spec r). unfold rgba_bytes.
  rewrite pixels_cons4 by discriminate. rewrite skip_cons4. cbn [flat_map bytes_of app]. reflexivity.
Qed.
Fixpoint add_alpha_spec (b : list N) : add_alpha b = rgba_bytes Rgb8 b.
Proof.
  destruct b as [|x [|y [|z r]]]; try reflexivity.
  cbn [add_alpha]. rewrite (add_alpha_spec r). unfold rgba_bytes.
  rewrite pixels_cons3. cbn [flat_map bytes_of app]. reflexivity.
Qed.
Fixpoint all_clear_spec (p : pixel_format) (Hp : p <> Rgb8) (b : list N) : all_clear b = forallb (fun q => (snd q =? 0)%N) (pixels_of p b).
Proof.
  destruct b as [|x [|y [|z [|a r]]]]; try (destruct p; try congruence; reflexivity).
  cbn [all_clear]. rewrite (all_clear_spec p Hp r). rewrite pixels_cons4 by exact Hp.
  cbn [forallb]. destruct p; reflexivity.
Qed.
Lemma is_empty_spec p b : is_empty p b = clear p b.
Proof. destruct p; cbn [is_empty clear]; try reflexivity; apply all_clear_spec; discriminate. Qed.

(* --- lists --- *)
Lemma upd_length {A} i (x : A) l : List.length (upd i x l) = List.length l.
Proof. revert i. induction l as [|y l IH]; intros [|i]; cbn; auto. Qed.
Lemma upd_same {A} i (x : A) l : i < List.length l -> nth_error (upd i x l) i = Some x.
Proof. revert i. induction l as [|y l IH]; intros [|i] H; cbn in *; try lia; auto. apply IH. lia. Qed.
Lemma upd_other {A} i j (x : A) l : i <> j -> nth_error (upd i x l) j = nth_error l j.
Proof. revert i j. induction l as [|y l IH]; intros [|i] [|j] H; cbn; auto; try congruence. Qed.
Lemma upd_split {A} i (x : A) l : i < List.length l -> upd i x l = firstn i l ++ x :: skipn (S i) l.
Proof. revert i. induction l as [|y l IH]; intros [|i] H; cbn in *; try lia; auto. rewrite IH by lia. reflexivity. Qed.
Lemma set_upd i x s : i < List.length s -> set i x s = upd i x s.
Proof. intros H. unfold set. symmetry. apply upd_split. exact H. Qed.
Lemma writes_poke l b : writes l b = poke l b.
Proof.
  revert b. induction l as [|[k v] l IH]; intros b; cbn [writes poke]; [reflexivity|].
  destruct (Nat.ltb_spec k (List.length b)); [|reflexivity]. rewrite upd_split by assumption. apply IH.
Qed.
Definition one (p : nat) (o : option frame) : nat := match o with Some f => if f_ptr f =? p then 1 else 0 | None => 0 end.
Lemma users_cons p o l : users p (o :: l) = one p o + users p l.
Proof. unfold users, one. cbn [filter]. destruct o as [f|]; [destruct (f_ptr f =? p)|]; reflexivity. Qed.
Lemma users_push p l o : users p (l ++ [o]) = users p l + one p o.
Proof. induction l as [|x l IH]; cbn [app]; [rewrite users_cons; unfold users; cbn; lia|]. rewrite !users_cons, IH. lia. Qed.
Lemma users_upd p i o o' l : nth_error l i = Some o -> users p (upd i o' l) + one p o = users p l + one p o'.
Proof.
  revert i. induction l as [|x l IH]; intros [|i] H; cbn in H; try discriminate.
  - injection H as <-. cbn [upd]. rewrite !users_cons. lia.
  - cbn [upd]. rewrite !users_cons. specialize (IH i H). lia.
Qed.
Lemma users_in p i f l : nth_error l i = Some (Some f) -> f_ptr f = p -> 0 < users p l.
Proof.
  revert i. induction l as [|x l IH]; intros [|i] H E; cbn in H; try discriminate; rewrite users_cons.
  - injection H as ->. unfold one. rewrite E, Nat.eqb_refl. lia.
  - specialize (IH i H E). lia.
Qed.
Lemma users_two p i j f g l : i <> j -> nth_error l i = Some (Some f) -> nth_error l j = Some (Some g) ->
  f_ptr f = p -> f_ptr g = p -> 2 <= users p l.
Proof.
  revert i j. induction l as [|x l IH]; intros [|i] [|j] N A B E F; cbn in A, B; try discriminate; try congruence; rewrite users_cons.
  - injection A as ->. unfold one. rewrite E, Nat.eqb_refl. pose proof (users_in _ _ _ _ B F). lia.
  - injection B as ->. unfold one. rewrite F, Nat.eqb_refl. pose proof (users_in _ _ _ _ A E). lia.
  - assert (i <> j) by congruence. specialize (IH i j H A B E F). lia.
Qed.

(* --- the invariant and the relation --- *)
Definition counted (o : option (option cell)) (n : nat) : Prop :=
  match o with Some (Some c) => c_strong c = n /\ 0 < n | _ => n = 0 end.
Definition shows (h : heap) (o : option frame) (x : option value) : Prop :=
  match o with
  | None => x = None
  | Some f => exists c, nth_error h (f_ptr f) = Some (Some c) /\ x = Some (mkV (c_bytes c) (f_width f) (f_height f) (f_time f) (f_format f))
  end.
Record rel (w : world) (s : list (option value)) : Prop := mkRel {
  r_len : List.length (w_vars w) = List.length s;
  r_shows : forall i o, nth_error (w_vars w) i = Some o -> exists x, nth_error s i = Some x /\ shows (w_heap w) o x;
  r_counts : forall p, counted (nth_error (w_heap w) p) (users p (w_vars w)) }.

Lemma rel_start : rel start [].
Proof. split; [reflexivity| |]; intros i; [intros o|]; destruct i; cbn; try discriminate; reflexivity. Qed.

Lemma rel_var w s i : rel w s ->
  match var w i with
  | None => nth i s None = None
  | Some f => nth_error (w_vars w) i = Some (Some f) /\ exists c, get (w_heap w) (f_ptr f) = Some c /\
      nth_error (w_heap w) (f_ptr f) = Some (Some c) /\ c_strong c = users (f_ptr f) (w_vars w) /\
      nth_error s i = Some (Some (mkV (c_bytes c) (f_width f) (f_height f) (f_time f) (f_format f))) /\
      nth i s None = Some (mkV (c_bytes c) (f_width f) (f_height f) (f_time f) (f_format f))
  end.
Proof.
  intros R. unfold var. destruct (nth_error (w_vars w) i) as [[f|]|] eqn:E.
  - destruct (r_shows _ _ R _ _ E) as (x & Ex & c & Ec & ->). split; [reflexivity|]. exists c.
    unfold get. rewrite Ec. pose proof (r_counts _ _ R (f_ptr f)) as K. rewrite Ec in K. cbn in K.
    rewrite (nth_error_nth _ _ None Ex). tauto.
  - destruct (r_shows _ _ R _ _ E) as (x & Ex & ->). rewrite (nth_error_nth _ _ None Ex). reflexivity.
  - apply nth_error_None in E. rewrite (r_len _ _ R) in E. apply nth_overflow. exact E.
Qed.

(* no frame uses an address past the end of the heap *)
Lemma rel_fresh w s p : rel w s -> List.length (w_heap w) <= p -> users p (w_vars w) = 0.
Proof.
  intros R H. pose proof (r_counts _ _ R p) as K. apply nth_error_None in H. rewrite H in K. exact K.
Qed.
Lemma alive w s i f : rel w s -> nth_error (w_vars w) i = Some (Some f) -> f_ptr f < List.length (w_heap w).
Proof.
  intros R E. destruct (r_shows _ _ R _ _ E) as (x & _ & c & Ec & _). apply nth_error_Some. congruence.
Qed.

(* a new frame in a cell of its own *)
Lemma rel_alloc w s b wd ht t p : rel w s ->
  rel (mkW (w_heap w ++ [Some (mkC 1 b)]) (w_vars w ++ [Some (mkF (List.length (w_heap w)) wd ht t p)])) (s ++ [Some (mkV b wd ht t p)]).
Proof.
  intros R. split; cbn [w_heap w_vars].
  - rewrite !app_length, (r_len _ _ R). reflexivity.
  - intros i o E. destruct (Nat.lt_ge_cases i (List.length (w_vars w))) as [H|H].
    + rewrite nth_error_app1 in E by exact H. destruct (r_shows _ _ R _ _ E) as (x & Ex & S). exists x.
      rewrite nth_error_app1 by (rewrite <- (r_len _ _ R); exact H). split; [exact Ex|].
      destruct o as [f|]; [|exact S]. destruct S as (c & Ec & ->). exists c. split; [|reflexivity].
      rewrite nth_error_app1 by (apply nth_error_Some; congruence). exact Ec.
    + rewrite nth_error_app2 in E by exact H. destruct (i - List.length (w_vars w)) as [|k] eqn:K; [|destruct k; discriminate].
      cbn in E. injection E as <-. exists (Some (mkV b wd ht t p)).
      rewrite nth_error_app2 by (rewrite <- (r_len _ _ R); exact H). rewrite <- (r_len _ _ R), K. split; [reflexivity|].
      exists (mkC 1 b). cbn [f_ptr]. rewrite nth_error_app2 by lia. rewrite Nat.sub_diag. split; reflexivity.
  - intros q. rewrite users_push. cbn [one f_ptr]. destruct (Nat.eqb_spec (List.length (w_heap w)) q) as [<-|H].
    + rewrite nth_error_app2 by lia. rewrite Nat.sub_diag, (rel_fresh _ _ _ R (le_n _)). cbn. lia.
    + rewrite Nat.add_0_r. pose proof (r_counts _ _ R q) as K. destruct (Nat.lt_ge_cases q (List.length (w_heap w))) as [L|L].
      * rewrite nth_error_app1 by exact L. exact K.
      * rewrite (rel_fresh _ _ _ R L). replace (nth_error _ q) with (@None (option cell)); [reflexivity|].
        symmetry. apply nth_error_None. rewrite app_length. cbn. lia.
Qed.
(* a second frame on the same cell *)
Lemma rel_share w s i f c t : rel w s -> nth_error (w_vars w) i = Some (Some f) -> nth_error (w_heap w) (f_ptr f) = Some (Some c) ->
  rel (mkW (upd (f_ptr f) (Some (mkC (S (c_strong c)) (c_bytes c))) (w_heap w))
           (w_vars w ++ [Some (mkF (f_ptr f) (f_width f) (f_height f) t (f_format f))]))
      (s ++ [Some (mkV (c_bytes c) (f_width f) (f_height f) t (f_format f))]).
Proof.
  intros R Ei Ec. assert (L : f_ptr f < List.length (w_heap w)) by (eapply alive; eassumption).
  split; cbn [w_heap w_vars].
  - rewrite !app_length, (r_len _ _ R). reflexivity.
  - intros j o E. destruct (Nat.lt_ge_cases j (List.length (w_vars w))) as [H|H].
    + rewrite nth_error_app1 in E by exact H. destruct (r_shows _ _ R _ _ E) as (x & Ex & S). exists x.
      rewrite nth_error_app1 by (rewrite <- (r_len _ _ R); exact H). split; [exact Ex|].
      destruct o as [g|]; [|exact S]. destruct S as (d & Ed & ->).
      destruct (Nat.eq_dec (f_ptr f) (f_ptr g)) as [Eq|Ne].
      * exists (mkC (Datatypes.S (c_strong c)) (c_bytes c)). rewrite <- Eq, upd_same by exact L. split; [reflexivity|].
        rewrite <- Eq in Ed. assert (c = d) by congruence. subst d. reflexivity.
      * exists d. rewrite upd_other by exact Ne. split; [exact Ed|reflexivity].
    + rewrite nth_error_app2 in E by exact H. destruct (j - List.length (w_vars w)) as [|k] eqn:K; [|destruct k; discriminate].
      cbn in E. injection E as <-. eexists. rewrite nth_error_app2 by (rewrite <- (r_len _ _ R); exact H).
      rewrite <- (r_len _ _ R), K. split; [reflexivity|]. cbn [shows f_ptr f_width f_height f_time f_format].
      eexists. rewrite upd_same by exact L. split; reflexivity.
  - intros q. rewrite users_push. cbn [one f_ptr]. pose proof (r_counts _ _ R q) as K. destruct (Nat.eqb_spec (f_ptr f) q) as [<-|H].
    + rewrite upd_same by exact L. rewrite Ec in K. cbn in *. lia.
    + rewrite Nat.add_0_r, upd_other by exact H. exact K.
Qed.
(* what release leaves *)
Lemma release_spec h p c : nth_error h p = Some (Some c) -> 0 < c_strong c ->
  exists o, release h p = Some (upd p o h) /\ counted (Some o) (c_strong c - 1) /\
    (forall d, o = Some d -> c_bytes d = c_bytes c).
Proof.
  intros E H. unfold release, get. rewrite E. destruct (c_strong c) as [|[|n]]; [lia| |]; eexists; (split; [reflexivity|]); (split; [cbn; lia|]).
  - discriminate.
  - intros d [= <-]. reflexivity.
Qed.
(* a frame goes away *)
Lemma rel_drop w s i f c : rel w s -> nth_error (w_vars w) i = Some (Some f) -> nth_error (w_heap w) (f_ptr f) = Some (Some c) ->
  exists h1, release (w_heap w) (f_ptr f) = Some h1 /\ rel (mkW h1 (upd i None (w_vars w))) (upd i None s).
Proof.
  intros R Ei Ec. assert (L : f_ptr f < List.length (w_heap w)) by (eapply alive; eassumption).
  assert (Li : i < List.length (w_vars w)) by (apply nth_error_Some; congruence).
  pose proof (r_counts _ _ R (f_ptr f)) as K. rewrite Ec in K. destruct K as [K K0].
  destruct (release_spec _ _ _ Ec ltac:(lia)) as (o & -> & Ho & Hb). eexists. split; [reflexivity|].
  split; cbn [w_heap w_vars].
  - rewrite !upd_length. exact (r_len _ _ R).
  - intros j y E. destruct (Nat.eq_dec i j) as [<-|Ne].
    + rewrite upd_same in E by exact Li. injection E as <-. exists None. rewrite upd_same by (rewrite <- (r_len _ _ R); exact Li).
      split; reflexivity.
    + rewrite upd_other in E by exact Ne. destruct (r_shows _ _ R _ _ E) as (x & Ex & S). exists x.
      rewrite upd_other by exact Ne. split; [exact Ex|]. destruct y as [g|]; [|exact S]. destruct S as (d & Ed & ->).
      destruct (Nat.eq_dec (f_ptr f) (f_ptr g)) as [Eq|Nq].
      * pose proof (users_two (f_ptr f) i j f g _ Ne Ei E eq_refl (eq_sym Eq)).
        cbn [shows]. rewrite <- Eq, upd_same by exact L. destruct o as [e|]; [|cbn in Ho; lia]. exists e. split; [reflexivity|].
        rewrite (Hb e eq_refl). rewrite <- Eq in Ed. assert (c = d) by congruence. subst d. reflexivity.
      * exists d. rewrite upd_other by exact Nq. split; [exact Ed|reflexivity].
  - intros q. pose proof (users_upd q i _ None _ Ei) as U. cbn [one] in U. pose proof (r_counts _ _ R q) as Kq.
    destruct (Nat.eq_dec (f_ptr f) q) as [Eq|H]; [subst q; rewrite Nat.eqb_refl in U|rewrite (proj2 (Nat.eqb_neq _ _) H) in U].
    + rewrite upd_same by exact L. replace (users _ (upd _ _ _)) with (c_strong c - 1) by lia. exact Ho.
    + rewrite upd_other by exact H. replace (users q (upd i None (w_vars w))) with (users q (w_vars w)) by lia. exact Kq.
Qed.
(* a frame moves to a cell of its own with new bytes *)
Lemma rel_move w s i f c b f' : rel w s -> nth_error (w_vars w) i = Some (Some f) -> nth_error (w_heap w) (f_ptr f) = Some (Some c) ->
  f_ptr f' = List.length (w_heap w) ->
  exists h1, release (w_heap w ++ [Some (mkC 1 b)]) (f_ptr f) = Some h1 /\
    get h1 (List.length (w_heap w)) = Some (mkC 1 b) /\
    rel (mkW h1 (upd i (Some f') (w_vars w))) (upd i (Some (mkV b (f_width f') (f_height f') (f_time f') (f_format f'))) s).
Proof.
  intros R Ei Ec Ef. assert (L : f_ptr f < List.length (w_heap w)) by (eapply alive; eassumption).
  assert (Li : i < List.length (w_vars w)) by (apply nth_error_Some; congruence).
  pose proof (r_counts _ _ R (f_ptr f)) as K. rewrite Ec in K. destruct K as [K K0].
  assert (Ec' : nth_error (w_heap w ++ [Some (mkC 1 b)]) (f_ptr f) = Some (Some c)) by (rewrite nth_error_app1 by exact L; exact Ec).
  assert (L' : f_ptr f < List.length (w_heap w ++ [Some (mkC 1 b)])) by (rewrite app_length; cbn; lia).
  assert (En : nth_error (w_heap w ++ [Some (mkC 1 b)]) (List.length (w_heap w)) = Some (Some (mkC 1 b))) by (rewrite nth_error_app2 by lia; rewrite Nat.sub_diag; reflexivity).
  destruct (release_spec _ _ _ Ec' ltac:(lia)) as (o & -> & Ho & Hb). eexists. split; [reflexivity|].
  split; [unfold get; rewrite upd_other by lia; rewrite En; reflexivity|].
  split; cbn [w_heap w_vars].
  - rewrite !upd_length. exact (r_len _ _ R).
  - intros j y E. destruct (Nat.eq_dec i j) as [<-|Ne].
    + rewrite upd_same in E by exact Li. injection E as <-. eexists. rewrite upd_same by (rewrite <- (r_len _ _ R); exact Li).
      split; [reflexivity|]. exists (mkC 1 b). rewrite Ef, upd_other by lia. split; [exact En|reflexivity].
    + rewrite upd_other in E by exact Ne. destruct (r_shows _ _ R _ _ E) as (x & Ex & S). exists x.
      rewrite upd_other by exact Ne. split; [exact Ex|]. destruct y as [g|]; [|exact S]. destruct S as (d & Ed & ->).
      destruct (Nat.eq_dec (f_ptr f) (f_ptr g)) as [Eq|Nq].
      * pose proof (users_two (f_ptr f) i j f g _ Ne Ei E eq_refl (eq_sym Eq)).
        cbn [shows]. rewrite <- Eq, upd_same by exact L'. destruct o as [e|]; [|cbn in Ho; lia]. exists e. split; [reflexivity|].
        rewrite (Hb e eq_refl). rewrite <- Eq in Ed. assert (c = d) by congruence. subst d. reflexivity.
      * exists d. rewrite upd_other by exact Nq. rewrite nth_error_app1 by (apply nth_error_Some; congruence). split; [exact Ed|reflexivity].
  - intros q. pose proof (users_upd q i _ (Some f') _ Ei) as U. cbn [one] in U. rewrite Ef in U. pose proof (r_counts _ _ R q) as Kq.
    destruct (Nat.eq_dec (f_ptr f) q) as [Eq|H]; [subst q; rewrite Nat.eqb_refl in U|rewrite (proj2 (Nat.eqb_neq _ _) H) in U].
    + rewrite upd_same by exact L'. replace (List.length (w_heap w) =? f_ptr f) with false in U by (symmetry; apply Nat.eqb_neq; lia).
      replace (users _ (upd _ _ _)) with (c_strong c - 1) by lia. exact Ho.
    + rewrite upd_other by exact H. destruct (Nat.eq_dec (List.length (w_heap w)) q) as [Eq|H2]; [subst q; rewrite Nat.eqb_refl in U|rewrite (proj2 (Nat.eqb_neq _ _) H2) in U].
      * rewrite En. rewrite (rel_fresh _ _ _ R (le_n _)) in U. cbn. lia.
      * replace (users q (upd i (Some f') (w_vars w))) with (users q (w_vars w)) by lia.
        destruct (Nat.lt_ge_cases q (List.length (w_heap w))) as [Lq|Lq].
        -- rewrite nth_error_app1 by exact Lq. exact Kq.
        -- rewrite (rel_fresh _ _ _ R Lq). replace (nth_error _ q) with (@None (option cell)); [reflexivity|].
           symmetry. apply nth_error_None. rewrite app_length. cbn. lia.
Qed.
(* an only user changes its bytes in place *)
Lemma rel_write w s i f c b f' : rel w s -> nth_error (w_vars w) i = Some (Some f) -> nth_error (w_heap w) (f_ptr f) = Some (Some c) ->
  c_strong c = 1 -> f_ptr f' = f_ptr f ->
  rel (mkW (upd (f_ptr f) (Some (mkC (c_strong c) b)) (w_heap w)) (upd i (Some f') (w_vars w)))
      (upd i (Some (mkV b (f_width f') (f_height f') (f_time f') (f_format f'))) s).
Proof.
  intros R Ei Ec H1 Ef. assert (L : f_ptr f < List.length (w_heap w)) by (eapply alive; eassumption).
  assert (Li : i < List.length (w_vars w)) by (apply nth_error_Some; congruence).
  pose proof (r_counts _ _ R (f_ptr f)) as K. rewrite Ec in K. destruct K as [K K0].
  split; cbn [w_heap w_vars].
  - rewrite !upd_length. exact (r_len _ _ R).
  - intros j y E. destruct (Nat.eq_dec i j) as [<-|Ne].
    + rewrite upd_same in E by exact Li. injection E as <-. eexists. rewrite upd_same by (rewrite <- (r_len _ _ R); exact Li).
      split; [reflexivity|]. exists (mkC (c_strong c) b). rewrite Ef, upd_same by exact L. split; reflexivity.
    + rewrite upd_other in E by exact Ne. destruct (r_shows _ _ R _ _ E) as (x & Ex & S). exists x.
      rewrite upd_other by exact Ne. split; [exact Ex|]. destruct y as [g|]; [|exact S]. destruct S as (d & Ed & ->).
      destruct (Nat.eq_dec (f_ptr f) (f_ptr g)) as [Eq|Nq].
      * pose proof (users_two (f_ptr f) i j f g _ Ne Ei E eq_refl (eq_sym Eq)). lia.
      * exists d. rewrite upd_other by exact Nq. split; [exact Ed|reflexivity].
  - intros q. pose proof (users_upd q i _ (Some f') _ Ei) as U. cbn [one] in U. rewrite Ef in U. pose proof (r_counts _ _ R q) as Kq.
    destruct (Nat.eq_dec (f_ptr f) q) as [Eq|H]; [subst q; rewrite Nat.eqb_refl in U|rewrite (proj2 (Nat.eqb_neq _ _) H) in U].
    + rewrite upd_same by exact L. cbn. lia.
    + rewrite upd_other by exact H. replace (users q (upd i (Some f') (w_vars w))) with (users q (w_vars w)) by lia. exact Kq.
Qed.
(* make_mut and a change of bytes, in place or in a copy *)
Lemma rel_change w s i f c (g : list N -> option (list N)) (k : frame -> nat -> frame) : rel w s ->
  nth_error (w_vars w) i = Some (Some f) -> nth_error (w_heap w) (f_ptr f) = Some (Some c) ->
  (forall q, f_ptr (k f q) = q) ->
  exists h1 q d, make_mut (w_heap w) (f_ptr f) = Some (h1, q) /\ get h1 q = Some d /\ c_bytes d = c_bytes c /\
    (users (f_ptr f) (w_vars w) = 1 -> h1 = w_heap w /\ q = f_ptr f) /\
    forall b, g (c_bytes c) = Some b ->
      exists h2, set_bytes h1 q b = Some h2 /\ List.length h2 = List.length h1 /\
        rel (mkW h2 (upd i (Some (k f q)) (w_vars w)))
            (upd i (Some (mkV b (f_width (k f q)) (f_height (k f q)) (f_time (k f q)) (f_format (k f q)))) s).
Proof.
  intros R Ei Ec Hk. pose proof (r_counts _ _ R (f_ptr f)) as K. rewrite Ec in K. destruct K as [K K0].
  unfold make_mut. unfold get at 1. rewrite Ec. destruct (Nat.eqb_spec (c_strong c) 1) as [E1|E1].
  - exists (w_heap w), (f_ptr f), c. split; [reflexivity|]. unfold get at 1. rewrite Ec.
    split; [reflexivity|]. split; [reflexivity|]. split; [auto|]. intros b _. unfold set_bytes, get. rewrite Ec.
    eexists. split; [reflexivity|]. split; [apply upd_length|]. apply rel_write; auto.
  - destruct (rel_move w s i f c (c_bytes c) (k f (List.length (w_heap w))) R Ei Ec (Hk _)) as (h1 & E & G & R1).
    cbn [alloc]. rewrite E. exists h1, (List.length (w_heap w)), (mkC 1 (c_bytes c)). split; [reflexivity|].
    split; [exact G|]. split; [reflexivity|]. split; [lia|]. intros b _.
    unfold set_bytes. rewrite G. eexists. split; [reflexivity|]. split; [apply upd_length|]. cbn [c_strong].
    set (q := List.length (w_heap w)) in *.
    assert (Li : i < List.length (w_vars w)) by (apply nth_error_Some; congruence).
    assert (En : nth_error h1 q = Some (Some (mkC 1 (c_bytes c)))).
    { unfold get in G. destruct (nth_error h1 q) as [[?|]|]; congruence. }
    pose proof (rel_write _ _ i (k f q) (mkC 1 (c_bytes c)) b (k f q) R1) as R2. cbn [w_heap w_vars c_strong] in R2.
    rewrite Hk in R2.
    specialize (R2 (upd_same _ _ _ Li) En eq_refl eq_refl).
    assert (D : forall A (x y : A) l, upd i x (upd i y l) = upd i x l).
    { intros A x y l. clear. revert i. induction l as [|z l IH]; intros [|j]; cbn; try reflexivity. f_equal. apply IH. }
    rewrite !D in R2. exact R2.
Qed.

(* --- one step, then all --- *)
Definition agrees (a : outcome world seen) (b : outcome (list (option value)) seen) : Prop :=
  match a, b with
  | Next w o, Next s t => rel w s /\ o = t
  | Stuck, Stuck | Panicked, Panicked => True
  | _, _ => False
  end.
Lemma mul_fits a b : match u32_mul a b with Some x => match u32_mul x 4 with Some y => fits a b = true /\ y = (a * b * 4)%N | None => fits a b = false end | None => fits a b = false end.
Proof.
  unfold u32_mul, fits. destruct (N.ltb_spec (a * b) 4294967296).
  - destruct (N.ltb_spec (a * b * 4) 4294967296); auto.
  - apply N.ltb_ge. lia.
Qed.
Lemma step_agrees w s o : rel w s -> agrees (step w o) (vstep s o).
Proof.
  intros R. destruct o as [b wd ht t p|wd ht t|i|i t|i l|i|i|i|i]; cbn [step vstep].
  - cbn [alloc agrees]. split; [|reflexivity]. apply rel_alloc. exact R.
  - pose proof (mul_fits wd ht) as M. destruct (u32_mul wd ht) as [a|]; [|rewrite M; exact I].
    destruct (u32_mul a 4) as [y|]; [|rewrite M; exact I]. destruct M as [M ->]. rewrite M. cbn [alloc agrees].
    split; [|reflexivity]. apply rel_alloc. exact R.
  - pose proof (rel_var _ _ i R) as V. destruct (var w i) as [f|]; [|rewrite V; exact I].
    destruct V as (Ei & c & Eg & Ec & Es & En & V). rewrite V. unfold retain. rewrite Eg. cbn [agrees]. split; [|reflexivity].
    pose proof (rel_share _ _ _ _ _ (f_time f) R Ei Ec) as Q. destruct f. exact Q.
  - pose proof (rel_var _ _ i R) as V. destruct (var w i) as [f|]; [|rewrite V; exact I].
    destruct V as (Ei & c & Eg & Ec & Es & En & V). rewrite V. unfold retain. rewrite Eg. cbn [agrees v_bytes v_width v_height v_format]. split; [|reflexivity].
    exact (rel_share _ _ _ _ _ t R Ei Ec).
  - pose proof (rel_var _ _ i R) as V. destruct (var w i) as [f|]; [|rewrite V; exact I].
    destruct V as (Ei & c & Eg & Ec & Es & En & V). rewrite V. cbn [v_bytes v_width v_height v_format v_time].
    assert (Li : i < List.length s) by (apply nth_error_Some; congruence).
    destruct (rel_change w s i f c (writes l) with_ptr R Ei Ec ltac:(reflexivity)) as (h1 & q & d & -> & -> & -> & _ & K).
    rewrite writes_poke in *. destruct (poke l (c_bytes c)) as [b|] eqn:Eb; [|exact I].
    destruct (K b eq_refl) as (h2 & -> & _ & R2). cbn [agrees]. split; [|reflexivity]. rewrite set_upd by exact Li. exact R2.
  - pose proof (rel_var _ _ i R) as V. destruct (var w i) as [f|]; [|rewrite V; exact I].
    destruct V as (Ei & c & Eg & Ec & Es & En & V). rewrite V. cbn [v_bytes v_width v_height v_format v_time].
    assert (Li : i < List.length s) by (apply nth_error_Some; congruence).
    destruct (f_format f) eqn:Ef.
    + split; [exact R|reflexivity].
    + destruct (rel_change w s i f c (fun b => Some (swap02 b)) as_rgba8 R Ei Ec ltac:(reflexivity)) as (h1 & q & d & -> & -> & -> & _ & K).
      destruct (K _ eq_refl) as (h2 & -> & _ & R2). cbn [agrees]. split; [|reflexivity].
      rewrite set_upd by exact Li. rewrite swap02_spec in R2. exact R2.
    + pose proof (mul_fits (f_width f) (f_height f)) as M. destruct (u32_mul (f_width f) (f_height f)) as [a|]; [|rewrite M; exact I].
      destruct (u32_mul a 4) as [y|]; [|rewrite M; exact I]. destruct M as [M _]. rewrite M, Eg. cbn [alloc].
      destruct (rel_move w s i f c (add_alpha (c_bytes c)) (as_rgba8 f (List.length (w_heap w))) R Ei Ec eq_refl) as (h1 & -> & _ & R2).
      cbn [agrees]. split; [|reflexivity]. rewrite set_upd by exact Li. rewrite add_alpha_spec in R2. exact R2.
  - pose proof (rel_var _ _ i R) as V. destruct (var w i) as [f|]; [|rewrite V; exact I].
    destruct V as (Ei & c & Eg & Ec & Es & En & V). rewrite V, Eg.
    assert (Li : i < List.length s) by (apply nth_error_Some; congruence).
    destruct (rel_drop _ _ _ _ _ R Ei Ec) as (h1 & -> & R1). cbn [agrees]. split; [|reflexivity]. rewrite set_upd by exact Li. exact R1.
  - pose proof (rel_var _ _ i R) as V. destruct (var w i) as [f|]; [|rewrite V; exact I].
    destruct V as (Ei & c & Eg & Ec & Es & En & V). rewrite V.
    assert (Li : i < List.length s) by (apply nth_error_Some; congruence).
    destruct (rel_drop _ _ _ _ _ R Ei Ec) as (h1 & -> & R1). cbn [agrees]. split; [|reflexivity]. rewrite set_upd by exact Li. exact R1.
  - pose proof (rel_var _ _ i R) as V. destruct (var w i) as [f|]; [|rewrite V; exact I].
    destruct V as (Ei & c & Eg & Ec & Es & En & V). rewrite V, Eg. cbn [agrees v_bytes v_width v_height v_format v_time].
    split; [exact R|]. rewrite is_empty_spec. unfold stride, bytes_per_pixel, bpp. destruct (f_format f); reflexivity.
Qed.
Definition tells {W O} (a : outcome W O) : option (option O) :=
  match a with Next _ o => Some (Some o) | Panicked => Some None | _ => None end.
Lemma run_agrees l : forall w s, rel w s ->
  match run_from step w l, run_from vstep s l with
  | Next w' o, Next s' t => rel w' s' /\ o = t
  | Stuck, Stuck | Panicked, Panicked => True
  | _, _ => False
  end.
Proof.
  induction l as [|o l IH]; intros w s R; cbn [run_from]; [split; [exact R|reflexivity]|].
  pose proof (step_agrees w s o R) as A. destruct (step w o) as [w1 a| | |], (vstep s o) as [s1 b| | |]; cbn [agrees] in A; try contradiction; try exact I.
  destruct A as [R1 ->]. specialize (IH w1 s1 R1).
  destruct (run_from step w1 l) as [w2 a2| | |], (run_from vstep s1 l) as [s2 b2| | |]; try contradiction; try exact I.
  destruct IH as [R2 ->]. split; [exact R2|reflexivity].
Qed.
Lemma reach_rel l w o : run l = Next w o -> exists s, vrun l = Next s o /\ rel w s.
Proof.
  intros E. pose proof (run_agrees l start [] rel_start) as A. unfold run in E. rewrite E in A. unfold vrun.
  destruct (run_from vstep [] l) as [s t| | |]; try contradiction. destruct A as [R ->]. exists s. auto.
Qed.

(* the heap holds exactly what the frames use *)
Lemma no_leak_lemma l w o p : run l = Next w o ->
  match get (w_heap w) p with Some c => c_strong c = users p (w_vars w) /\ 0 < c_strong c | None => users p (w_vars w) = 0 end.
Proof.
  intros E. destruct (reach_rel _ _ _ E) as (s & _ & R). pose proof (r_counts _ _ R p) as K. unfold get.
  destruct (nth_error (w_heap w) p) as [[c|]|]; cbn in K; try exact K. lia.
Qed.
Lemma share_lemma l w o i t w' x : run l = Next w o -> step w (OClone i) = Next w' x \/ step w (ORetime i t) = Next w' x ->
  List.length (w_heap w') = List.length (w_heap w).
Proof.
  intros _ [E|E]; cbn [step] in E; destruct (var w i) as [f|]; try discriminate; unfold retain in E;
  destruct (get (w_heap w) (f_ptr f)) as [c|]; try discriminate; injection E as <- _; cbn [push w_heap]; apply upd_length.
Qed.
Lemma in_place_lemma l w o i f writes_ w' x : run l = Next w o -> var w i = Some f -> users (f_ptr f) (w_vars w) = 1 ->
  step w (OWrite i writes_) = Next w' x ->
  List.length (w_heap w') = List.length (w_heap w) /\ var w' i = Some f.
Proof.
  intros E V U S. destruct (reach_rel _ _ _ E) as (s & _ & R). cbn [step] in S. rewrite V in S.
  pose proof (rel_var _ _ i R) as Q. rewrite V in Q. destruct Q as (Ei & c & Eg & Ec & Es & En & _).
  destruct (rel_change w s i f c (writes writes_) with_ptr R Ei Ec ltac:(reflexivity)) as (h1 & q & d & Em & Ed & Eb & Hu & K).
  destruct (Hu U) as [-> ->]. rewrite Em, Ed, Eb in S.
  destruct (writes writes_ (c_bytes c)) as [b|]; [|discriminate]. destruct (K b eq_refl) as (h2 & E2 & L2 & _). rewrite E2 in S.
  injection S as <- _. cbn [w_heap w_vars]. split; [exact L2|]. unfold var. cbn [w_vars].
  rewrite upd_same by (apply nth_error_Some; congruence). destruct f; reflexivity.
Qed.

(* --- pictures --- *)
Fixpoint pixel_rgba (b : list N) (k : nat) {struct b} : pixel Rgba8 (rgba_bytes Bgra8 b) k = pixel Bgra8 b k.
Proof.
  destruct b as [|x [|y [|z [|a r]]]].
  1-4: destruct k as [|k]; [reflexivity|]; unfold pixel; cbn [bpp];
    change (rgba_bytes Bgra8 ?l) with l; rewrite !skipn_all2 by (cbn [List.length]; lia); reflexivity.
  unfold rgba_bytes in *. rewrite pixels_cons4 by discriminate. rewrite skip_cons4. cbn [flat_map bytes_of app].
  destruct k as [|k]; [reflexivity|].
  change (pixel Bgra8 (x :: y :: z :: a :: r) (S k)) with (pixel Bgra8 r k). rewrite <- (pixel_rgba r k). reflexivity.
Qed.
Fixpoint pixel_rgb (b : list N) (k : nat) {struct b} : pixel Rgba8 (rgba_bytes Rgb8 b) k = pixel Rgb8 b k.
Proof.
  destruct b as [|x [|y [|z r]]].
  1-3: unfold pixel; cbn [bpp]; change (rgba_bytes Rgb8 ?l) with (@nil N); rewrite skipn_nil;
    destruct k as [|k]; [reflexivity|]; rewrite skipn_all2 by (cbn [List.length]; lia); reflexivity.
  unfold rgba_bytes in *. rewrite pixels_cons3. cbn [flat_map bytes_of app].
  destruct k as [|k]; [reflexivity|].
  change (pixel Rgb8 (x :: y :: z :: r) (S k)) with (pixel Rgb8 r k). rewrite <- (pixel_rgb r k). reflexivity.
Qed.
Fixpoint add_alpha_length (b : list N) : List.length (add_alpha b) = List.length b / 3 * 4.
Proof.
  destruct b as [|x [|y [|z r]]]; try reflexivity. cbn [add_alpha List.length]. rewrite add_alpha_length.
  change (S (S (S (List.length r)))) with (1 * 3 + List.length r). rewrite Nat.div_add_l by lia. lia.
Qed.
Fixpoint swap02_length (b : list N) : List.length (swap02 b) = List.length b.
Proof. destruct b as [|x [|y [|z [|a r]]]]; try reflexivity. cbn [swap02 List.length]. rewrite swap02_length. reflexivity. Qed.
