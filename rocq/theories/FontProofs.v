From Verif Require Import Base FontModel FontSpec StyleCmdProofs.

Lemma face_of_find l i : face_of l i = find (fun f => (f_id f =? i)%N) l.
Proof. induction l as [|f l IH]; [reflexivity|]. cbn [face_of find]. destruct (f_id f =? i)%N; [reflexivity|exact IH]. Qed.
Lemma count_is g text : forall n, count_glyphs g text n = (n + N.of_nat (List.length (filter g text)))%N.
Proof. induction text as [|c t IH]; intros n; cbn [count_glyphs filter]; [cbn; lia|]. rewrite IH. destruct (g c); cbn [List.length]; lia. Qed.
Lemma find_id l i f : NoDup (map f_id l) -> In f l -> f_id f = i -> find (fun f => (f_id f =? i)%N) l = Some f.
Proof.
  induction l as [|h l IH]; intros ND H E; [destruct H|]. inversion ND as [|? ? N1 N2]; subst. cbn [find]. destruct H as [->|H].
  - rewrite N.eqb_refl. reflexivity.
  - destruct (N.eqb_spec (f_id h) (f_id f)) as [X|X]; [|apply IH; auto]. exfalso. apply N1. rewrite X. apply in_map. exact H.
Qed.
Lemma support_is db i text : NoDup (ids db) -> readable db i -> font_support_count db i text = Okay (N.of_nat (score db text i)).
Proof.
  intros ND (f & g & H & E & G). unfold font_support_count, score. rewrite face_of_find, (find_id _ _ f ND H E), G, count_is. f_equal.
Qed.
Lemma filter_le {A} (g : A -> bool) l : List.length (filter g l) <= List.length l.
Proof. induction l as [|a l IH]; cbn; [lia|]. destruct (g a); cbn; lia. Qed.
Lemma score_le db text i : score db text i <= List.length text.
Proof. unfold score. destruct (find _ _) as [f|]; [|lia]. destruct (f_glyphs f); [apply filter_le|lia]. Qed.
Lemma has_same p s : FontSpec.has p s <-> contains p s = true.
Proof.
  unfold contains. split.
  - intros (a & b & ->). destruct (has_find p (a ++ p ++ b)) as (r & ->); [|reflexivity]. unfold StyleCmdSpec.has. eauto.
  - destruct (find_str p s) as [[a b]|] eqn:E; [|discriminate]. intros _. destruct (find_present _ _ _ _ E) as (c & _ & ->). exists a, c. reflexivity.
Qed.
Lemma japanese_is s : is_japanese s = true <-> japanese_name s.
Proof.
  unfold is_japanese, japanese_name. rewrite !Bool.orb_true_iff, <- !has_same. rewrite !Exists_cons, Exists_nil. tauto.
Qed.
Lemma named_is db b i l : first_named db b i (map lit l) = first_some (map (fun n => query db [Name (lit n)] b i) l).
Proof. induction l as [|n l IH]; [reflexivity|]. cbn [map first_named first_some]. destruct (query db [Name (lit n)] b i); [reflexivity|exact IH]. Qed.
Lemma first_app {A} (a b : list (option A)) : first_some (a ++ b) = match first_some a with Some x => Some x | None => first_some b end.
Proof. induction a as [|[x|] a IH]; cbn [app first_some]; auto. Qed.
Lemma find_font_is db fam b i :
  exists jp, (jp <> [] <-> japanese_name fam) /\ (jp = [] \/ jp = map (fun n => query db [Name (lit n)] b i) japanese_faces) /\
  find_font db fam b i = match first_some (query db [Name fam; SansSerif] b i :: jp ++ [query db [SansSerif; Serif] b i; any_face db]) with Some x => Okay x | None => Err NoFont end.
Proof.
  exists (if is_japanese fam then map (fun n => query db [Name (lit n)] b i) japanese_faces else []).
  split; [rewrite <- japanese_is; destruct (is_japanese fam); split; try discriminate; try tauto|].
  split; [destruct (is_japanese fam); auto|].
  unfold find_font. cbn [first_some]. destruct (query db [Name fam; SansSerif] b i); [reflexivity|]. rewrite first_app.
  assert (E : (if is_japanese fam then first_named db b i japanese_fallbacks else None) = first_some (if is_japanese fam then map (fun n => query db [Name (lit n)] b i) japanese_faces else [])).
  { destruct (is_japanese fam); [|reflexivity]. apply (named_is db b i japanese_faces). }
  rewrite E. destruct (first_some (if is_japanese fam then _ else _)); [reflexivity|]. cbn [first_some]. destruct (query db [SansSerif; Serif] b i); [reflexivity|].
  unfold any_face, ids. destruct (faces db); reflexivity.
Qed.
Lemma find_font_in db fam b i x : database_ok db -> find_font db fam b i = Okay x -> In x (ids db).
Proof.
  intros [_ Q] H. unfold find_font in H. destruct (query db [Name fam; SansSerif] b i) eqn:E1; [injection H as <-; eauto|].
  destruct (if is_japanese fam then _ else _) eqn:E2.
  - injection H as <-. destruct (is_japanese fam); [|discriminate]. revert E2. generalize japanese_fallbacks. intros l. induction l as [|m l IH]; cbn [first_named]; [discriminate|].
    destruct (query db [Name m] b i) eqn:E; [intros [= <-]; eauto|exact IH].
  - destruct (query db [SansSerif; Serif] b i) eqn:E3; [injection H as <-; eauto|]. unfold ids. destruct (faces db); [discriminate|]. injection H as <-. left. reflexivity.
Qed.
Lemma find_font_some db fam b i : faces db <> [] -> exists x, find_font db fam b i = Okay x.
Proof.
  intros H. unfold find_font. destruct (query db [Name fam; SansSerif] b i); [eauto|]. destruct (if is_japanese fam then _ else _); [eauto|].
  destruct (query db [SansSerif; Serif] b i); [eauto|]. destruct (faces db); [contradiction|eauto].
Qed.
Lemma asian_is text : text_has_cjk_or_hangul text = true <-> east_asian text.
Proof.
  unfold text_has_cjk_or_hangul, east_asian. rewrite existsb_exists.
  assert (K : forall c, cjk_char c = true <-> (19968 <= c <= 40959 \/ 13312 <= c <= 19903 \/ 131072 <= c <= 173791 \/ 44032 <= c <= 55215 \/ 4352 <= c <= 4607 \/ 12352 <= c <= 12543)%N).
  { intros c. unfold cjk_char, between. rewrite !Bool.orb_true_iff, !Bool.andb_true_iff, !N.leb_le. tauto. }
  split; intros (c & H & X); exists c; (split; [exact H|]); apply K; exact X.
Qed.

(* the state of a search: nothing better than the bound yet, or the first best so far *)
Definition so_far (f : N -> nat) (bound : nat) (seen : list N) (best : option N) (s : N) : Prop :=
  match best with
  | None => s = N.of_nat bound /\ none_better f bound seen
  | Some x => s = N.of_nat (f x) /\ first_best f bound seen x
  end.
Lemma so_far_more f bound seen best s x : so_far f bound seen best s -> (s < N.of_nat (f x))%N -> so_far f bound (seen ++ [x]) (Some x) (N.of_nat (f x)).
Proof.
  intros H L. split; [reflexivity|]. exists seen, []. split; [reflexivity|]. destruct best as [b|]; cbn [so_far] in H.
  - destruct H as [-> (a & z & -> & B & A & Z)]. split; [lia|]. split; [|constructor]. apply Forall_app. split; [eapply Forall_impl; [|exact A]; cbn; lia|].
    constructor; [lia|]. eapply Forall_impl; [|exact Z]; cbn; lia.
  - destruct H as [-> H]. split; [lia|]. split; [|constructor]. eapply Forall_impl; [|exact H]; cbn; lia.
Qed.
Lemma so_far_less f bound seen best s x : so_far f bound seen best s -> (N.of_nat (f x) <= s)%N -> so_far f bound (seen ++ [x]) best s.
Proof.
  intros H L. destruct best as [b|]; cbn [so_far] in *.
  - destruct H as [-> (a & z & -> & B & A & Z)]. split; [reflexivity|]. exists a, (z ++ [x]). rewrite <- app_assoc. split; [reflexivity|]. split; [exact B|]. split; [exact A|].
    apply Forall_app. split; [exact Z|]. constructor; [lia|constructor].
  - destruct H as [-> H]. split; [reflexivity|]. apply Forall_app. split; [exact H|]. constructor; [lia|constructor].
Qed.
Lemma full_best f bound seen best s x rest len : so_far f bound seen best s -> (forall y, f y <= len) -> f x = len -> (s < N.of_nat len)%N ->
  first_best f bound (seen ++ x :: rest) x.
Proof.
  intros H M E L. rewrite <- E in L. destruct (so_far_more f bound seen best s x H L) as [_ (a & z & Q & B & A & Z)].
  assert (X : Forall (fun y => f y < f x) seen).
  { destruct best as [b|]; cbn [so_far] in H; [destruct H as [-> (a' & z' & -> & B' & A' & Z')]; apply Forall_app; split; [eapply Forall_impl; [|exact A']; cbn; lia|]; constructor; [lia|]; eapply Forall_impl; [|exact Z']; cbn; lia|].
    destruct H as [-> H]. eapply Forall_impl; [|exact H]; cbn; lia. }
  exists seen, rest. split; [reflexivity|]. split; [exact B|]. split; [exact X|]. apply Forall_forall. intros y _. rewrite E. apply M.
Qed.

Section Run.
  Variable db : database.
  Variable text : str.
  Hypothesis D : database_ok db.
  Hypothesis R : all_readable db.
  Let f := score db text.
  Let len := N.max (N.of_nat (List.length text)) 1.
  Lemma len_eq n : n <= List.length text -> (N.of_nat n =? len)%N = true -> n = List.length text /\ 1 <= n.
  Proof. intros H E. apply N.eqb_eq in E. unfold len in E. lia. Qed.
  Definition found (b i : bool) (l : list str) : list N := flat_map (fun n => match query db [Name n] b i with Some x => [x] | None => [] end) l.
  Lemma try_list_ok b i bound : forall l seen best s, bound <= List.length text -> (s < len)%N -> so_far f bound seen best s ->
    match try_list db b i text len l best s with
    | Okay (inl x) => forall rest, first_best f bound (seen ++ found b i l ++ rest) x
    | Okay (inr (best1, s1)) => so_far f bound (seen ++ found b i l) best1 s1 /\ (s1 < len)%N
    | Err _ => False
    end.
  Proof.
    induction l as [|n l IH]; intros seen best s HB HS H; cbn [try_list found flat_map].
    - rewrite app_nil_r. split; assumption.
    - destruct (query db [Name n] b i) as [x|] eqn:E; [|exact (IH seen best s HB HS H)].
      assert (Ix : In x (ids db)) by (destruct D as [_ Q]; eauto). rewrite (support_is db x text (proj1 D) (R x Ix)). fold f. cbn [app]. fold (found b i l).
      destruct (N.of_nat (f x) =? len)%N eqn:F.
      + intros rest. destruct (len_eq _ (score_le db text x) F) as [F1 F2]. apply full_best with (best := best) (s := s) (len := List.length text); auto.
        * apply score_le.
        * unfold len in HS. lia.
      + pose proof (score_le db text x) as SL. fold f in SL. apply N.eqb_neq in F. destruct (N.ltb_spec s (N.of_nat (f x))) as [L|L].
        * pose proof (IH (seen ++ [x]) (Some x) (N.of_nat (f x)) HB ltac:(unfold len in *; lia) (so_far_more _ _ _ _ _ _ H L)) as K.
          destruct (try_list _ _ _ _ _ l _ _) as [[y|[b1 s1]]|]; rewrite <- ?app_assoc in K; auto. intros rest. specialize (K rest). rewrite <- !app_assoc in K. exact K.
        * pose proof (IH (seen ++ [x]) best s HB HS (so_far_less _ _ _ _ _ _ H L)) as K.
          destruct (try_list _ _ _ _ _ l _ _) as [[y|[b1 s1]]|]; rewrite <- ?app_assoc in K; auto. intros rest. specialize (K rest). rewrite <- !app_assoc in K. exact K.
  Qed.
  Lemma try_lists_ok b i bound : forall ls seen best s, bound <= List.length text -> (s < len)%N -> so_far f bound seen best s ->
    match try_lists db b i text len ls best s with
    | Okay (inl x) => first_best f bound (seen ++ found b i (concat ls)) x
    | Okay (inr (best1, s1)) => so_far f bound (seen ++ found b i (concat ls)) best1 s1
    | Err _ => False
    end.
  Proof.
    induction ls as [|l ls IH]; intros seen best s HB HS H; cbn [try_lists concat].
    - unfold found. cbn [flat_map]. rewrite app_nil_r. exact H.
    - pose proof (try_list_ok b i bound l seen best s HB HS H) as K. unfold found in *. rewrite flat_map_app. destruct (try_list _ _ _ _ _ l _ _) as [[x|[b1 s1]]|]; [apply K| |contradiction].
      destruct K as [K1 K2]. rewrite app_assoc. exact (IH _ b1 s1 HB K2 K1).
  Qed.
  Lemma scan_ok p : forall l seen best, ids db = seen ++ map f_id l -> (N.of_nat (match best with Some x => f x | None => f p end) < len)%N ->
    so_far f (f p) seen best (N.of_nat (match best with Some x => f x | None => f p end)) ->
    exists r, scan db text len p l (match best with Some x => x | None => p end) (N.of_nat (match best with Some x => f x | None => f p end)) = Okay r /\ best_from f p (ids db) r.
  Proof.
    induction l as [|h l IH]; intros seen best E HS H; cbn [scan map] in *.
    - rewrite app_nil_r in E. rewrite E. eexists. split; [reflexivity|]. destruct best as [x|]; cbn [so_far] in H; [right; apply H|left; split; [reflexivity|apply H]].
    - set (cur := match best with Some x => f x | None => f p end) in *.
      assert (E' : ids db = (seen ++ [f_id h]) ++ map f_id l) by (rewrite <- app_assoc; exact E).
      destruct (N.eqb_spec (f_id h) p) as [P|P].
      + apply (IH (seen ++ [f_id h]) best E' HS). apply so_far_less; [exact H|]. rewrite P. fold cur. destruct best as [x|]; [|lia]. cbn [so_far] in H. destruct H as [_ (? & ? & _ & B & _)]. unfold cur. lia.
      + assert (Ix : In (f_id h) (ids db)) by (rewrite E; apply in_or_app; right; left; reflexivity).
        rewrite (support_is db _ text (proj1 D) (R _ Ix)). fold f. pose proof (score_le db text (f_id h)) as SL. fold f in SL.
        destruct (N.ltb_spec (N.of_nat cur) (N.of_nat (f (f_id h)))) as [L|L].
        * destruct (N.of_nat (f (f_id h)) =? len)%N eqn:F.
          -- destruct (len_eq _ SL F) as [F1 F2]. eexists. split; [reflexivity|]. right. rewrite E. eapply full_best with (len := List.length text); eauto; [apply score_le|lia].
          -- apply N.eqb_neq in F. apply (IH (seen ++ [f_id h]) (Some (f_id h)) E'); [unfold len in *; lia|]. eapply so_far_more; eauto.
        * apply (IH (seen ++ [f_id h]) best E' HS). apply so_far_less; [exact H|exact L].
  Qed.
  Lemma choose_ok fam b i p : find_font db fam b i = Okay p ->
    exists r, find_font_for_text db fam b i text = Okay r /\
      ((east_asian text /\ first_best f (f p) (found b i (concat curated_lists)) r) \/
       ((~ east_asian text \/ none_better f (f p) (found b i (concat curated_lists))) /\ best_from f p (ids db) r)).
  Proof.
    intros E. unfold find_font_for_text. rewrite E. pose proof (find_font_in _ _ _ _ _ D E) as Ip. rewrite (support_is db p text (proj1 D) (R p Ip)). fold f len.
    pose proof (score_le db text p) as SL. fold f in SL.
    destruct (N.of_nat (f p) =? len)%N eqn:F.
    - exists p. split; [reflexivity|]. right. destruct (len_eq _ SL F) as [F1 _]. split; [right|left; split; [reflexivity|]]; apply Forall_forall; intros y _; rewrite F1; apply score_le.
    - apply N.eqb_neq in F. assert (HS : (N.of_nat (f p) < len)%N) by (unfold len in *; lia).
      destruct (scan_ok p (faces db) [] None eq_refl HS (conj eq_refl (Forall_nil _))) as (r0 & ES & Hr0). cbn in ES.
      destruct (text_has_cjk_or_hangul text) eqn:T.
      + apply asian_is in T. pose proof (try_lists_ok b i (f p) curated_lists [] None (N.of_nat (f p)) SL HS (conj eq_refl (Forall_nil _))) as K. cbn [app] in K.
        destruct (try_lists _ _ _ _ _ _ _ _) as [[x|[[x|] s]]|]; [| | |contradiction].
        * eauto 10.
        * destruct K as [_ K]. eauto 10.
        * destruct K as [_ K]. exists r0. split; [exact ES|]. right. split; [right; exact K|exact Hr0].
      + exists r0. split; [exact ES|]. right. split; [left|exact Hr0]. rewrite <- asian_is, T. discriminate.
  Qed.
End Run.
Lemma present_is db b i : present db b i asian_faces = found db b i (concat curated_lists).
Proof. unfold present, found. change (concat curated_lists) with (map lit asian_faces). generalize asian_faces. intros l. induction l as [|n l IH]; [reflexivity|]. cbn [flat_map map]. rewrite IH. reflexivity. Qed.
Lemma covered db fam b i text p : NoDup (ids db) -> find_font db fam b i = Okay p -> readable db p -> text <> [] -> score db text p = List.length text ->
  find_font_for_text db fam b i text = Okay p.
Proof.
  intros ND E Rp T S. unfold find_font_for_text. rewrite E, (support_is db p text ND Rp), S.
  replace (N.max (N.of_nat (List.length text)) 1) with (N.of_nat (List.length text)); [rewrite N.eqb_refl; reflexivity|].
  destruct text; [contradiction|]. cbn [List.length]. lia.
Qed.
