From Verif Require Import StyleModel StyleSpec MapLib NumProofs StyleGraphProofs StyleLinkProofs StyleProofs.

Lemma find_first {A} (p : A -> bool) l x : find p l = Some x <-> exists l1 l2, l = l1 ++ x :: l2 /\ p x = true /\ forall y, In y l1 -> p y = false.
Proof.
  induction l as [|a l IH]; cbn [find].
  - split; [discriminate|]. intros (l1 & l2 & E & _). destruct l1; discriminate.
  - destruct (p a) eqn:P.
    + split; [intros [= ->]; exists [], l; split; [reflexivity|]; split; [exact P|intros y []]|]. intros (l1 & l2 & E & Px & F). destruct l1 as [|b l1]; [now injection E as -> ->|]. injection E as <- ->. rewrite F in P by now left. discriminate.
    + rewrite IH. split.
      * intros (l1 & l2 & -> & Px & F). exists (a :: l1), l2. split; [reflexivity|]. split; [exact Px|]. intros y [<-|H]; auto.
      * intros (l1 & l2 & E & Px & F). destruct l1 as [|b l1]; [injection E as <- ->; congruence|]. injection E as <- ->. exists l1, l2. split; [reflexivity|]. split; [exact Px|]. intros y H. apply F. now right.
Qed.

(* ---- scaling ---- *)
Lemma scaling_iff sx sy a b : apply_resolution_scaling sx sy a = Ok b <-> scales sx sy a b.
Proof.
  unfold apply_resolution_scaling. assert (E2 : f32_of 2 = Fin 2) by (vm_compute; reflexivity). rewrite E2, with_complexity_ok. cbn [rs_name rs_font rs_size rs_primary rs_secondary rs_outlinec rs_back rs_bold rs_italic rs_underline rs_strike rs_scale_x rs_scale_y rs_spacing rs_angle rs_border_style rs_outline rs_shadow rs_alignment rs_margin_l rs_margin_r rs_margin_t rs_margin_b rs_encoding]. split.
  - intros [[c ->] E]. constructor; cbn -[f_mul f_div f_add f_to_N f_of_N]; auto; [tauto|]. eexists. split; [reflexivity|]. auto.
  - intros [Sa (mean & -> & M) Sp Ac Do Co]. split; [|exact Co]. destruct b; cbn -[f_mul f_div f_add f_to_N f_of_N] in *. eexists. decompose [and] Sa. decompose [and] M. destruct Ac, Do. subst. reflexivity.
Qed.
Lemma keep_some sc n x m : exists y, keep sc n (Ok x) m = Ok (sm_insert n y m) /\ forall z, adjusted sc x z <-> z = y.
Proof.
  unfold keep, adjusted. destruct sc as [[sx sy]|]; [|exists x; split; [reflexivity|reflexivity]]. destruct (scaling_ok sx sy x) as [y Y]. exists y. rewrite Y. cbn [res_bind]. split; [reflexivity|]. intros z. rewrite <- scaling_iff, Y. split; congruence.
Qed.
Definition unreadable (s : style) : Prop := forall r, ~ resolves s r.
Lemma read_cases s : (exists x, from_style s = Ok x /\ resolves s x) \/ (from_style s = Err /\ unreadable s).
Proof.
  destruct (from_style s) as [x| |] eqn:E.
  - left. exists x. split; [reflexivity|]. now apply from_style_iff.
  - right. split; [reflexivity|]. intros r R. apply from_style_iff in R. congruence.
  - exfalso. exact (from_style_panic s E).
Qed.
Lemma last_readable_cons s l n r : last_readable (s :: l) n r <-> last_readable l n r \/ (s_name s = n /\ resolves s r /\ forall t, In t l -> s_name t = n -> unreadable t).
Proof.
  unfold last_readable. split.
  - intros (l1 & t & l2 & E & H). destruct l1 as [|u l1]; injection E as <- ->; [right|left; exists l1, t, l2; auto]. exact H.
  - intros [(l1 & t & l2 & -> & H)|H]; [exists (s :: l1), t, l2; auto|exists [], s, l; auto].
Qed.
Lemma resolve_plain_spec sc l : forall m, sorted m -> exists m', resolve_plain sc l m = Ok m' /\ sorted m' /\
  forall n r, sm_get n m' = Some r <-> (exists r0, last_readable l n r0 /\ adjusted sc r0 r) \/ ((forall t, In t l -> s_name t = n -> unreadable t) /\ sm_get n m = Some r).
Proof.
  induction l as [|s l IH]; intros m S; cbn [resolve_plain].
  - exists m. split; [reflexivity|]. split; [exact S|]. intros n r. split; [intros H; right; split; [intros t []|exact H]|]. intros [(r0 & (l1 & t & l2 & E & _) & _)|[_ H]]; [destruct l1; discriminate|exact H].
  - destruct (read_cases s) as [(x & -> & R)|[-> U]].
    + destruct (keep_some sc (s_name s) x m) as (y & -> & Y). cbn [res_bind]. destruct (IH _ (sorted_insert (s_name s) y m S)) as (m' & -> & S' & M). exists m'. split; [reflexivity|]. split; [exact S'|]. intros n r. rewrite M. rewrite get_insert. setoid_rewrite last_readable_cons. split.
      * intros [(r0 & L & A)|[F G]]; [left; exists r0; auto|]. destruct (str_eqb n (s_name s)) eqn:E.
        -- apply str_eqb_eq in E. subst n. injection G as <-. left. exists x. split; [right; auto|now apply Y].
        -- right. split; [|exact G]. intros t [<-|H] Nt; [rewrite <- Nt, str_eqb_refl in E; discriminate|now apply F].
      * intros [(r0 & [L|(<- & R' & F)] & A)|[F G]]; [left; exists r0; auto| |].
        -- right. split; [exact F|]. rewrite str_eqb_refl. apply from_style_iff in R, R'. assert (r0 = x) as -> by congruence. apply Y in A. congruence.
        -- right. split; [intros t H; apply F; now right|]. destruct (str_eqb n (s_name s)) eqn:E; [|exact G]. apply str_eqb_eq in E. exfalso. exact (F s (or_introl eq_refl) (eq_sym E) x R).
    + cbn [keep res_bind]. destruct (IH _ S) as (m' & -> & S' & M). exists m'. split; [reflexivity|]. split; [exact S'|]. intros n r. rewrite M. setoid_rewrite last_readable_cons. split.
      * intros [(r0 & L & A)|[F G]]; [left; exists r0; auto|]. right. split; [|exact G]. intros t [<-|H] Nt; [exact U|now apply F].
      * intros [(r0 & [L|(_ & R' & _)] & A)|[F G]]; [left; exists r0; auto|destruct (U _ R')|]. right. split; [|exact G]. intros t H. apply F. now right.
Qed.
Lemma resolve_inherited_plain sc o : (forall s p, In s o -> s_parent s = Some p -> ~ defined o p) -> forall o1 o2 m, o = o1 ++ o2 -> (forall p x, sm_get p m = Some x -> defined o p) -> resolve_inherited sc o2 m = resolve_plain sc o2 m.
Proof.
  intros N o1 o2. revert o1. induction o2 as [|s o2 IH]; intros o1 m E K; [reflexivity|]. cbn [resolve_inherited resolve_plain].
  assert (Is : In s o) by (rewrite E; apply in_or_app; right; now left).
  assert (X : match s_parent s with Some p => match sm_get p m with Some q => from_style_with_parent s q | None => from_style s end | None => from_style s end = from_style s).
  { destruct (s_parent s) as [p|] eqn:P; [|reflexivity]. destruct (sm_get p m) as [q|] eqn:G; [|reflexivity]. destruct (N s p Is P (K _ _ G)). }
  rewrite X. destruct (read_cases s) as [(x & -> & R)|[-> U]].
  - destruct (keep_some sc (s_name s) x m) as (y & -> & _). cbn [res_bind]. apply (IH (o1 ++ [s])); [now rewrite <- app_assoc|]. intros p z. rewrite get_insert. destruct (str_eqb p (s_name s)) eqn:F; [|apply K]. apply str_eqb_eq in F. intros _. exists s. now split.
  - cbn [keep res_bind]. apply (IH (o1 ++ [s])); [now rewrite <- app_assoc|exact K].
Qed.
Lemma same_name_same l s t : NoDup (map s_name l) -> In s l -> In t l -> s_name s = s_name t -> s = t.
Proof.
  induction l as [|a l IH]; intros D Hs Ht E; [destruct Hs|]. cbn in D. inversion D; subst. destruct Hs as [->|Hs], Ht as [->|Ht]; [reflexivity| | |now apply IH].
  - destruct H1. rewrite E. now apply in_map.
  - destruct H1. rewrite <- E. now apply in_map.
Qed.
Lemma nodup_last l n r : NoDup (map s_name l) -> last_readable l n r <-> exists s, In s l /\ s_name s = n /\ resolves s r.
Proof.
  intros D. split.
  - intros (l1 & s & l2 & -> & E & R & _). exists s. split; [apply in_or_app; right; now left|]. now split.
  - intros (s & H & E & R). destruct (in_split _ _ H) as (l1 & l2 & ->). exists l1, s, l2. split; [reflexivity|]. split; [exact E|]. split; [exact R|]. intros t Ht Nt. rewrite map_app in D. cbn [map] in D. apply NoDup_remove_2 in D. destruct D. apply in_or_app. right. rewrite E, <- Nt. now apply in_map.
Qed.

(* ---- duplicates ---- *)
Lemma count_snoc l s n : count_name (l ++ [s]) n = count_name l n + (if str_eqb (s_name s) n then 1 else 0).
Proof. unfold count_name. rewrite filter_app, app_length. cbn [filter]. destruct (str_eqb (s_name s) n); reflexivity. Qed.
Lemma name_counts_snoc l s : name_counts (l ++ [s]) = sm_update (s_name s) [] (fun x => x ++ [s_name s]) (name_counts l).
Proof. unfold name_counts. now rewrite fold_left_app. Qed.
Lemma str_eqb_sym a b : str_eqb a b = str_eqb b a.
Proof. destruct (str_eqb a b) eqn:E; [apply str_eqb_eq in E; subst; now rewrite str_eqb_refl|]. destruct (str_eqb b a) eqn:F; [apply str_eqb_eq in F; subst; rewrite str_eqb_refl in E; discriminate|reflexivity]. Qed.
Lemma repeat_snoc {A} (x : A) n : repeat x n ++ [x] = repeat x (n + 1).
Proof. rewrite Nat.add_1_r. cbn [repeat]. now rewrite <- repeat_cons. Qed.
Lemma name_counts_spec l : sorted (name_counts l) /\ forall n, sm_get n (name_counts l) = match count_name l n with 0 => None | k => Some (repeat n k) end.
Proof.
  induction l as [|s l IH] using rev_ind; [split; [constructor|reflexivity]|]. destruct IH as [S G]. rewrite name_counts_snoc. unfold sm_update. split; [now apply sorted_insert|]. intros n. rewrite get_insert, count_snoc, (str_eqb_sym n (s_name s)). destruct (str_eqb (s_name s) n) eqn:E.
  - apply str_eqb_eq in E. subst n. rewrite G, Nat.add_1_r. destruct (count_name l (s_name s)) as [|k]; [reflexivity|]. now rewrite repeat_snoc, Nat.add_1_r.
  - rewrite Nat.add_0_r. apply G.
Qed.
Lemma sorted_filter {A} (p : str * A -> bool) m : sorted m -> sorted (filter p m).
Proof.
  unfold sorted, sm_keys. induction m as [|e m IH]; intros S; [exact S|]. cbn [map] in S. apply StronglySorted_inv in S. destruct S as [S F]. cbn [filter]. destruct (p e); [|now apply IH]. cbn [map]. constructor; [now apply IH|]. rewrite Forall_forall in *. intros x H. apply F. apply in_map_iff in H. destruct H as (y & <- & H). apply filter_In in H. apply in_map, H.
Qed.
Lemma duplicates_spec l : duplicates l (duplicate_conflicts l).
Proof.
  destruct (name_counts_spec l) as [S G]. set (m := name_counts l) in *. exists (sm_keys (filter (fun e => Nat.ltb 1 (List.length (snd e))) m)). split; [now apply sorted_filter|]. split.
  - intros n. unfold sm_keys. rewrite in_map_iff. split.
    + intros ([k v] & <- & H). apply filter_In in H. destruct H as [H L]. cbn [fst snd] in *. apply entry_get in H; [|exact S]. rewrite G in H. assert (V : v = repeat k (count_name l k)) by (destruct (count_name l k); [discriminate|congruence]). rewrite V, repeat_length in L. now apply Nat.ltb_lt in L.
    + intros L. exists (n, repeat n (count_name l n)). split; [reflexivity|]. apply filter_In. cbn [snd]. rewrite repeat_length. split; [|now apply Nat.ltb_lt]. apply get_entry. rewrite G. destruct (count_name l n); [lia|reflexivity].
  - unfold duplicate_conflicts. fold m. assert (K : forall e, In e m -> snd e = repeat (fst e) (count_name l (fst e))).
    { intros [k v] H. apply entry_get in H; [|exact S]. rewrite G in H. cbn [fst snd]. destruct (count_name l k); [discriminate|congruence]. }
    clearbody m. clear S G. induction m as [|e m IH]; [reflexivity|]. cbn [flat_map filter]. rewrite IH by (intros; apply K; now right). destruct (Nat.ltb 1 (List.length (snd e))); [|reflexivity]. cbn [app sm_keys map]. rewrite <- (K e) by now left. reflexivity.
Qed.

(* ---- what a script asks for ---- *)
Lemma field_iff name f n : field_u32 name f = Some n <-> info_number f name n.
Proof.
  unfold field_u32, info_number. assert (U : forall v, (v <= u32_max <-> v < 2 ^ 32)%N) by (intros v; change u32_max with 4294967295%N; change (2 ^ 32)%N with 4294967296%N; lia).
  destruct (find _ f) as [[k v]|] eqn:E.
  - apply find_first in E. destruct E as (l1 & l2 & -> & P & F). cbn [fst snd] in *. apply str_eqb_eq in P. subst k. rewrite parse_u32_spec, U. split.
    + intros H. exists l1, v, l2. split; [reflexivity|]. split; [|exact H]. intros e He Q. specialize (F e He). rewrite Q, str_eqb_refl in F. discriminate.
    + intros (m1 & w & m2 & E & F' & H). assert (X : find (fun kv : str * str => str_eqb (fst kv) (lit name)) (l1 ++ (lit name, v) :: l2) = Some (lit name, v)) by (apply find_first; exists l1, l2; split; [reflexivity|]; split; [apply str_eqb_refl|exact F]).
      assert (Y : find (fun kv : str * str => str_eqb (fst kv) (lit name)) (m1 ++ (lit name, w) :: m2) = Some (lit name, w)).
      { apply find_first. exists m1, m2. split; [reflexivity|]. split; [apply str_eqb_refl|]. intros y Hy. destruct (str_eqb (fst y) (lit name)) eqn:Q; [|reflexivity]. apply str_eqb_eq in Q. destruct (F' y Hy Q). }
      rewrite E, Y in X. injection X as ->. exact H.
  - split; [discriminate|]. intros (l1 & v & l2 & -> & _ & _). exfalso. assert (H := find_none _ _ E (lit name, v)). cbn [fst] in H. rewrite str_eqb_refl in H. discriminate H. apply in_or_app. right. now left.
Qed.
Lemma scale_iff sections sx sy : resolution_scaling sections = Some (sx, sy) <-> scale_of sections sx sy.
Proof.
  unfold resolution_scaling, scale_of. destruct (find _ sections) as [x|] eqn:E.
  - apply find_first in E. destruct E as (l1 & l2 & -> & P & F). destruct x as [f c| | | |]; try discriminate. clear P.
    assert (Fi : forall f' c', ~ In (SInfo f' c') l1) by (intros f' c' H; specialize (F _ H); discriminate).
    split.
    + destruct (field_u32 "LayoutResX" f) as [lx|] eqn:A; [|discriminate]. destruct (field_u32 "LayoutResY" f) as [ly|] eqn:B; [|discriminate]. destruct (field_u32 "PlayResX" f) as [px|] eqn:C; [|discriminate]. destruct (field_u32 "PlayResY" f) as [py|] eqn:D; [|discriminate].
      destruct (negb (lx =? px) || negb (ly =? py))%N eqn:Ne; [|discriminate]. intros H. exists l1, f, c, l2, lx, ly, px, py. rewrite <- !field_iff. split; [reflexivity|]. split; [exact Fi|]. repeat (split; [assumption|]). split; [lia|]. split; congruence.
    + intros (m1 & f' & c' & m2 & lx & ly & px & py & E & Fi' & A & B & C & D & Ne & -> & ->). 
      assert (f' = f) as ->. { assert (X : find (fun s => match s with SInfo _ _ => true | _ => false end) (l1 ++ SInfo f c :: l2) = Some (SInfo f c)) by (apply find_first; exists l1, l2; auto). assert (Y : find (fun s => match s with SInfo _ _ => true | _ => false end) (m1 ++ SInfo f' c' :: m2) = Some (SInfo f' c')). { apply find_first. exists m1, m2. split; [reflexivity|]. split; [reflexivity|]. intros y Hy. destruct y; try reflexivity. destruct (Fi' _ _ Hy). } rewrite E, Y in X. now injection X. }
      rewrite <- field_iff in A, B, C, D. rewrite A, B, C, D. replace (negb (lx =? px) || negb (ly =? py))%N with true by lia. reflexivity.
  - split; [discriminate|]. intros (l1 & f & c & l2 & lx & ly & px & py & -> & _). assert (H := find_none _ _ E (SInfo f c)). cbn in H. discriminate H. apply in_or_app. right. now left.
Qed.
Lemma script_scale_ok sections : script_scale sections (resolution_scaling sections).
Proof.
  unfold script_scale. destruct (resolution_scaling sections) as [[sx sy]|] eqn:E; [now apply scale_iff|]. intros sx sy H. apply scale_iff in H. congruence.
Qed.
Lemma styles_ok sections : match extract_styles sections with Some l => script_styles sections l | None => forall l, ~ In (SStyles l) sections end.
Proof.
  unfold extract_styles. destruct (find _ sections) as [x|] eqn:E.
  - apply find_first in E. destruct E as (l1 & l2 & -> & P & F). destruct x; try discriminate. left. exists l1, l2. split; [reflexivity|]. intros l' H. specialize (F _ H). discriminate.
  - intros l H. assert (X := find_none _ _ E _ H). discriminate.
Qed.
Lemma styles_unique sections l l' : script_styles sections l -> script_styles sections l' -> l = l'.
Proof.
  intros [(a & b & -> & F)|[-> N]] [(a' & b' & E & F')|[-> N']].
  - assert (X : find (fun s => match s with SStyles _ => true | _ => false end) (a ++ SStyles l :: b) = Some (SStyles l)) by (apply find_first; exists a, b; split; [reflexivity|]; split; [reflexivity|]; intros y Hy; destruct y; try reflexivity; destruct (F _ Hy)).
    assert (Y : find (fun s => match s with SStyles _ => true | _ => false end) (a' ++ SStyles l' :: b') = Some (SStyles l')) by (apply find_first; exists a', b'; split; [reflexivity|]; split; [reflexivity|]; intros y Hy; destruct y; try reflexivity; destruct (F' _ Hy)).
    rewrite E, Y in X. now injection X.
  - destruct (N' l). apply in_or_app. right. now left.
  - destruct (N l'). rewrite E. apply in_or_app. right. now left.
  - reflexivity.
Qed.

(* ---- inheritance information ---- *)
Lemma last_cases {A} (l : list A) : l = [] \/ exists l' x, l = l' ++ [x].
Proof. destruct l as [|a l]; [now left|]. right. destruct (exists_last (l := a :: l)) as (l' & x & ->); [discriminate|eauto]. Qed.
Section Info.
Variable l : list style.
Definition last_lineage_in (done : list style) (n : str) (i : inheritance) : Prop :=
  exists l1 s l2, done = l1 ++ s :: l2 /\ s_name s = n /\ lineage l s i /\ forall t, In t l2 -> s_name t = n -> exists p, s_parent t = Some p /\ ~ defined l p.
Lemma lineage_snoc done s n i : last_lineage_in (done ++ [s]) n i <->
  (s_name s = n /\ lineage l s i) \/ ((s_name s = n -> exists p, s_parent s = Some p /\ ~ defined l p) /\ last_lineage_in done n i).
Proof.
  unfold last_lineage_in. split.
  - intros (l1 & t & l2 & E & Nt & L & F). destruct (last_cases l2) as [->|(l2' & u & ->)].
    + apply app_inj_tail in E. destruct E as [-> <-]. now left.
    + right. rewrite app_comm_cons, app_assoc in E. apply app_inj_tail in E. destruct E as [-> <-]. split; [intros Ns; apply F; [apply in_or_app; right; now left|exact Ns]|]. exists l1, t, l2'. split; [reflexivity|]. split; [exact Nt|]. split; [exact L|]. intros v Hv. apply F. apply in_or_app. now left.
  - intros [[Ns L]|[Hs (l1 & t & l2 & -> & Nt & L & F)]].
    + exists done, s, []. split; [reflexivity|]. split; [exact Ns|]. split; [exact L|intros t []].
    + exists l1, t, (l2 ++ [s]). split; [now rewrite <- app_assoc|]. split; [exact Nt|]. split; [exact L|]. intros v Hv. apply in_app_or in Hv. destruct Hv as [Hv|[<-|[]]]; auto.
Qed.
Lemma link_info done rest k k' : l = done ++ rest -> link_all true (style_map l) k rest = Some k' -> (forall n i, sm_get n (lk_info k) = Some i <-> last_lineage_in done n i) -> forall n i, sm_get n (lk_info k') = Some i <-> last_lineage_in l n i.
Proof.
  revert done k. induction rest as [|s rest IH]; intros done k E H K; cbn [link_all] in H.
  - injection H as <-. rewrite app_nil_r in E. now subst done.
  - destruct (link_style true (style_map l) k s) as [k1|] eqn:Ls; [|discriminate]. apply (IH (done ++ [s]) k1); [now rewrite <- app_assoc|exact H|]. intros n i. rewrite lineage_snoc. unfold link_style in Ls. destruct (s_parent s) as [p|] eqn:P.
    + destruct (sm_has p (style_map l)) eqn:Hp.
      * apply known_iff in Hp. destruct (sm_get (s_name s) (lk_deps k)); [|discriminate]. destruct (sm_get p (lk_degree k)); [|discriminate]. injection Ls as <-. cbn [lk_info]. rewrite get_insert, str_eqb_sym. destruct (str_eqb (s_name s) n) eqn:Q.
        -- apply str_eqb_eq in Q. subst n. unfold lineage. rewrite P. assert (Nm : match sm_get (s_name s) (lk_info k) with Some i0 => ih_name i0 | None => s_name s end = s_name s). { destruct (sm_get (s_name s) (lk_info k)) as [i0|] eqn:G; [|reflexivity]. apply K in G. destruct G as (? & t & ? & _ & Nt & [Li _] & _). congruence. } rewrite Nm. split.
           ++ intros [= <-]. left. cbn. auto.
           ++ intros [(_ & In & _ & Ip & Id)|[Hs _]]; [destruct i; cbn in *; now subst|]. destruct (Hs eq_refl) as (p' & [= <-] & N). contradiction.
        -- rewrite K. split; [intros H0; right; split; [intros E0; rewrite E0, str_eqb_refl in Q; discriminate|exact H0]|]. intros [[E0 _]|[_ H0]]; [rewrite E0, str_eqb_refl in Q; discriminate|exact H0].
      * injection Ls as <-. cbn [lk_info]. rewrite K. assert (Nd : ~ defined l p) by (intros D; apply known_iff in D; congruence). split; [intros H0; right; split; [intros _; eauto|exact H0]|]. intros [[_ [_ L]]|[_ H0]]; [rewrite P in L; destruct L; contradiction|exact H0].
    + injection Ls as <-. cbn [lk_info]. rewrite get_insert, str_eqb_sym. destruct (str_eqb (s_name s) n) eqn:Q.
      * apply str_eqb_eq in Q. subst n. unfold lineage. rewrite P. split; [intros [= <-]; left; cbn; auto|]. intros [(_ & In & Ip & Id)|[Hs _]]; [destruct i; cbn in *; now subst|]. destruct (Hs eq_refl) as (p' & D & _). discriminate.
      * rewrite K. split; [intros H0; right; split; [intros E0; rewrite E0, str_eqb_refl in Q; discriminate|exact H0]|]. intros [[E0 _]|[_ H0]]; [rewrite E0, str_eqb_refl in Q; discriminate|exact H0].
Qed.
End Info.
Lemma link_no_info known k rest k' : link_all false known k rest = Some k' -> lk_info k' = lk_info k.
Proof.
  revert k. induction rest as [|s rest IH]; intros k H; cbn [link_all] in H; [congruence|]. destruct (link_style false known k s) as [k1|] eqn:E; [|discriminate]. rewrite (IH _ H). unfold link_style in E. destruct (s_parent s) as [p|]; [|now injection E as <-]. destruct (sm_has p known); [|now injection E as <-]. destruct (sm_get _ _); [|discriminate]. destruct (sm_get _ _); [|discriminate]. now injection E as <-.
Qed.
Lemma build_info inherit l o c info : build_dependency_order inherit l = Done (o, c, info) -> forall n i, sm_get n info = Some i <-> inherit = true /\ last_lineage l n i.
Proof.
  unfold build_dependency_order. destruct (link_all inherit (style_map l) (Links (no_deps l) (no_degrees l) [] []) l) as [k|] eqn:E; [|discriminate]. intros H.
  assert (Hi : info = lk_info k). { destruct (has_circular_dependency (lk_deps k)) as [b| |]; cbn [bind] in H; try discriminate. destruct b; [now injection H as _ _ <-|]. destruct (order_loop _ _ _ _ _ _); cbn [bind] in H; try discriminate. now injection H as _ _ <-. }
  subst info. intros n i. destruct inherit.
  - rewrite (link_info l [] l _ _ eq_refl E); [unfold last_lineage, last_lineage_in; tauto|]. cbn. intros m j. split; [discriminate|]. intros (l1 & t & l2 & D & _). destruct l1; discriminate.
  - rewrite (link_no_info _ _ _ _ E). cbn. split; [discriminate|]. intros [D _]. discriminate.
Qed.

(* ---- the analysis ---- *)
Lemma analysis_spec cfg sections : exists a, analyze_styles cfg sections = Done a /\ an_config a = cfg /\ script_scale sections (an_scaling a) /\ sorted (an_resolved a) /\
  forall l, script_styles sections l ->
  (forall n r, sm_get n (an_resolved a) = Some r <-> exists r0, last_readable l n r0 /\ adjusted (an_scaling a) r0 r) /\
  (forall n i, sm_get n (an_info a) = Some i <-> op_inheritance (cf_options cfg) = true /\ last_lineage l n i) /\
  exists miss circ dup, an_conflicts a = map (fun e : str * str => MissingParent (fst e) (snd e)) miss ++ circ ++ dup /\
    undefined_parents l l miss /\
    ((cyclic l /\ exists names, circ = [CircularInheritance names] /\ StronglySorted str_lt names /\ forall n, In n names <-> defined l n) \/ (~ cyclic l /\ circ = [])) /\
    (if op_conflicts (cf_options cfg) then duplicates l dup else dup = []).
Proof.
  unfold analyze_styles. assert (Ss := script_scale_ok sections). set (sc := resolution_scaling sections) in *. assert (St := styles_ok sections). destruct (extract_styles sections) as [l|].
  - destruct (build_spec l (op_inheritance (cf_options cfg))) as (o & c & info & B & (miss & circ & Cc & U & Ci) & O). assert (Bi := build_info _ _ _ _ _ B). rewrite B. cbn [bind].
    assert (R : exists m, match o with Some o => resolve_inherited sc o [] | None => resolve_plain sc l [] end = Ok m /\ sorted m /\ forall n r, sm_get n m = Some r <-> exists r0, last_readable l n r0 /\ adjusted sc r0 r).
    { destruct o as [o|].
      - destruct O as (Ni & Dl & Do & Io). assert (Df : forall p, defined o p -> defined l p) by (intros p (s & H & E); exists s; split; [now apply Io|exact E]).
        rewrite (resolve_inherited_plain sc o) with (o1 := []); [|intros s p H P D; apply (Ni (s_name s) p); exists s; split; [now apply Io|]; split; [reflexivity|]; split; [exact P|now apply Df]|reflexivity|intros p x D; discriminate].
        destruct (resolve_plain_spec sc o []) as (m & E & S & M); [constructor|]. exists m. split; [exact E|]. split; [exact S|]. intros n r. rewrite M. cbn [sm_get]. setoid_rewrite (nodup_last _ _ _ Dl). setoid_rewrite (nodup_last _ _ _ Do). setoid_rewrite Io. split; [intros [H|[_ D]]; [exact H|discriminate]|now left].
      - destruct (resolve_plain_spec sc l []) as (m & E & S & M); [constructor|]. exists m. split; [exact E|]. split; [exact S|]. intros n r. rewrite M. cbn [sm_get]. split; [intros [H|[_ D]]; [exact H|discriminate]|now left]. }
    destruct R as (m & -> & S & M). cbn [of_res bind]. eexists. split; [reflexivity|]. cbn [an_config an_scaling an_resolved an_info an_conflicts]. split; [reflexivity|]. split; [exact Ss|]. split; [exact S|]. intros l' Sl. assert (l' = l) as -> by (eapply styles_unique; eassumption).
    split; [exact M|]. split; [exact Bi|]. exists miss, circ, (if op_conflicts (cf_options cfg) then duplicate_conflicts l else []). split; [now rewrite Cc, <- app_assoc|]. split; [exact U|]. split; [tauto|]. destruct (op_conflicts _); [apply duplicates_spec|reflexivity].
  - eexists. split; [reflexivity|]. cbn [an_config an_scaling an_resolved an_info an_conflicts]. split; [reflexivity|]. split; [exact Ss|]. split; [constructor|]. intros l [(l1 & l2 & -> & _)|[-> _]].
    + destruct (St l). apply in_or_app. right. now left.
    + assert (Nl : forall (P : list style -> style -> list style -> Prop), ~ exists l1 s l2, [] = l1 ++ s :: l2 /\ P l1 s l2) by (intros P (l1 & s & l2 & D & _); destruct l1; discriminate).
      split; [intros n r; split; [discriminate|]; intros (r0 & H & _); destruct (Nl _ H)|]. split; [intros n i; split; [discriminate|]; intros [_ H]; destruct (Nl _ H)|].
      exists [], [], []. split; [reflexivity|]. split; [constructor|]. split.
      * right. split; [|reflexivity]. intros [a T]. assert (Mono : forall x y, clos_trans str (inherits_from []) x y -> False) by (intros x y H; induction H as [x y (s & [] & _)|]; assumption). exact (Mono _ _ T).
      * destruct (op_conflicts _); [|reflexivity]. exists []. split; [constructor|]. split; [|reflexivity]. intros n. cbn. split; [intros []|lia].
Qed.
