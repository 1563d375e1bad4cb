From Coq Require Import Sorted.
From Verif Require Import Base FloatModel AnalyzeModel AnalyzeSpec.

Section Regions.
  Variable f : frame.
  Hypothesis W : whole f.
  Notation w := (f_w f). Notation h := (f_h f).
  Definition inside (p : pixel) : Prop := fst p < w /\ snd p < h.

  Lemma index_lt p : inside p -> index f p < w * h.
  Proof. unfold inside, index. destruct p as [x y]. cbn [fst snd]. nia. Qed.
  Lemma index_inj p q : inside p -> inside q -> index f p = index f q -> p = q.
  Proof.
    unfold inside, index. destruct p as [x y], q as [a b]. cbn [fst snd]. intros H K E.
    assert (y = b). { destruct (Nat.lt_trichotomy y b) as [L|[L|L]]; [|exact L|]; exfalso; nia. } subst b. f_equal. lia.
  Qed.
  Lemma byte_at i k : i < w * h -> k < 4 -> nth_error (f_px f) (4 * i + k) = Some (nth (4 * i + k) (f_px f) 0%N).
  Proof. intros I K. apply nth_error_nth'. destruct W as [-> _]. lia. Qed.
  Lemma opaque_is p : inside p -> opaque f (index f p) = (0 <? channel f 3 p)%N.
  Proof. intros I. unfold opaque. rewrite byte_at by (auto using index_lt; lia). reflexivity. Qed.
  Lemma visible_is p : visible f p <-> inside p /\ opaque f (index f p) = true.
  Proof.
    unfold visible, inside. split.
    - intros (A & B & C). split; [auto|]. rewrite opaque_is by (split; auto). apply N.ltb_lt, C.
    - intros ((A & B) & C). rewrite opaque_is in C by (split; auto). apply N.ltb_lt in C. auto.
  Qed.
  Lemma four_is p : inside p -> four_at f (index f p) = Some (map (fun k => channel f k p) [0; 1; 2; 3]).
  Proof.
    intros I. unfold four_at. pose proof (byte_at (index f p) 0 (index_lt p I) ltac:(lia)) as B0. rewrite Nat.add_0_r in B0. rewrite B0.
    rewrite !byte_at by (auto using index_lt; lia). cbn [map]. unfold channel, index. rewrite Nat.add_0_r. reflexivity.
  Qed.

  (* areas *)
  Lemma adj_sym p q : adjacent p q -> adjacent q p.
  Proof. unfold adjacent. intuition. Qed.
  Lemma conn_right p q : connected f p q -> visible f q.
  Proof. intros H. destruct H; assumption. Qed.
  Lemma conn_left p q : connected f p q -> visible f p.
  Proof. induction 1; assumption. Qed.
  Lemma conn_trans p q r : connected f p q -> connected f q r -> connected f p r.
  Proof. intros H K. induction K; [assumption|eapply C_next; eassumption]. Qed.
  Lemma conn_sym p q : connected f p q -> connected f q p.
  Proof.
    induction 1 as [V|q r H IH A V]; [constructor; assumption|]. eapply conn_trans; [|exact IH].
    eapply C_next; [constructor; exact V|apply adj_sym; exact A|eapply conn_right; exact H].
  Qed.

  (* the marks *)
  Lemma set_at_len i v : List.length (set_at i v) = List.length v.
  Proof. revert i. induction v as [|b v IH]; intros [|i]; cbn [set_at List.length]; auto. Qed.
  Lemma set_at_nth : forall v i j, nth_error (set_at i v) j = if (i =? j) && (i <? List.length v) then Some true else nth_error v j.
  Proof.
    induction v as [|b v IH]; intros i j; cbn [set_at List.length].
    - destruct i, j; cbn; try reflexivity. rewrite andb_false_r. reflexivity.
    - destruct i as [|i], j as [|j]; cbn [set_at nth_error Nat.eqb]; [reflexivity|reflexivity|reflexivity|]. rewrite IH. reflexivity.
  Qed.
  Fixpoint free (v : list bool) : nat := match v with [] => 0 | true :: r => free r | false :: r => S (free r) end.
  Lemma set_at_free : forall v i, nth_error v i = Some false -> free v = S (free (set_at i v)).
  Proof. induction v as [|b v IH]; intros [|i] E; cbn in *; try discriminate; [injection E as ->; reflexivity|]. specialize (IH i E). destruct b; cbn; lia. Qed.
  Lemma free_le v : free v <= List.length v.
  Proof. induction v as [|[|] v IH]; cbn; lia. Qed.
  Definition seen (v : list bool) (p : pixel) : Prop := nth_error v (index f p) = Some true.

  Lemma around_in p q : inside p -> In q (around f p) <-> adjacent p q /\ inside q.
  Proof.
    destruct p as [x y], q as [a b]. unfold inside, around, adjacent. cbn [fst snd]. intros [X Y]. rewrite !in_app_iff.
    assert (K : forall (c : bool) (u v a b : nat), In (a, b) (if c then [(u, v)] else []) <-> c = true /\ a = u /\ b = v).
    { intros [|] u v a' b'; cbn; split; [intros [[= <- <-]|[]]; auto|intros (_ & -> & ->); auto|intros []|intros [[=] _]]. }
    rewrite !K, !Nat.ltb_lt. lia.
  Qed.
  Lemma around_len p : List.length (around f p) <= 4.
  Proof. destruct p as [x y]. unfold around. rewrite !app_length. destruct (y + 1 <? h), (0 <? y), (x + 1 <? w), (0 <? x); cbn; lia. Qed.

  Record going (old : pixel -> Prop) (s : pixel) (v : list bool) (stack area : list pixel) (r : region) : Prop := Go {
    g_len : List.length v = w * h;
    g_seen : forall p, inside p -> (seen v p <-> old p \/ In p area);
    g_nodup : NoDup area;
    g_area : forall p, In p area -> connected f s p /\ ~ old p;
    g_next : forall p q, In p area -> adjacent p q -> visible f q -> seen v q \/ In q stack;
    g_start : In s area \/ In s stack;
    g_stack : forall p, In p stack -> visible f p -> connected f s p;
    g_count : r_count r = List.length area;
    g_minx : least_of (r_minx r) (fst s :: map fst area); g_miny : least_of (r_miny r) (snd s :: map snd area);
    g_maxx : greatest_of (r_maxx r) (fst s :: map fst area); g_maxy : greatest_of (r_maxy r) (snd s :: map snd area);
    g_color : r_color r = map (fun k => total (map (channel f k) area)) [0; 1; 2; 3] }.

  Lemma min_more m x s l : least_of m (s :: l) -> least_of (Nat.min m x) (s :: x :: l).
  Proof.
    intros [I L]. split.
    - destruct (Nat.min_spec m x) as [[_ ->]|[_ ->]]; [destruct I as [->|I]; [left; reflexivity|right; right; exact I]|right; left; reflexivity].
    - intros y [<-|[<-|H]]; [specialize (L s (or_introl eq_refl)); lia|lia|specialize (L y (or_intror H)); lia].
  Qed.
  Lemma max_more m x s l : greatest_of m (s :: l) -> greatest_of (Nat.max m x) (s :: x :: l).
  Proof.
    intros [I L]. split.
    - destruct (Nat.max_spec m x) as [[_ ->]|[_ ->]]; [right; left; reflexivity|destruct I as [->|I]; [left; reflexivity|right; right; exact I]].
    - intros y [<-|[<-|H]]; [specialize (L s (or_introl eq_refl)); lia|lia|specialize (L y (or_intror H)); lia].
  Qed.
  Lemma skip old s v p rest area r : visible f s -> ~ old s -> going old s v (p :: rest) area r -> (visible f p -> seen v p) -> going old s v rest area r.
  Proof.
    intros Vs No G H. destruct G. split; try assumption.
    - intros a q A B C. destruct (g_next0 a q A B C) as [K|[<-|K]]; auto.
    - destruct g_start0 as [K|[->|K]]; auto. specialize (H Vs). apply g_seen0 in H; [|apply visible_is in Vs; tauto]. tauto.
    - intros q I. apply g_stack0. right. exact I.
  Qed.
  Lemma visit old s v p rest area r : going old s v (p :: rest) area r -> visible f p -> ~ seen v p ->
    going old s (set_at (index f p) v) (around f p ++ rest) (p :: area) (absorb r p (map (fun k => channel f k p) [0; 1; 2; 3])).
  Proof.
    intros G V N. pose proof V as V'. apply visible_is in V'. destruct V' as [I O]. pose proof (index_lt p I) as IL.
    assert (SEEN : forall q, inside q -> (seen (set_at (index f p) v) q <-> p = q \/ seen v q)).
    { intros q J. unfold seen. rewrite set_at_nth, (g_len _ _ _ _ _ _ G). destruct (Nat.eqb_spec (index f p) (index f q)) as [E|E].
      - rewrite (proj2 (Nat.ltb_lt _ _) IL). cbn [andb]. split; [intros _; left; exact (index_inj p q I J E)|reflexivity].
      - cbn [andb]. split; [auto|]. intros [->|K]; [contradiction|exact K]. }
    destruct G. split; cbn [absorb r_count r_minx r_miny r_maxx r_maxy r_color].
    - rewrite set_at_len. exact g_len0.
    - intros q J. rewrite (SEEN q J), (g_seen0 q J). cbn [In]. tauto.
    - constructor; [|exact g_nodup0]. intros K. apply N. apply g_seen0; auto.
    - intros q [<-|K]; [|apply g_area0, K]. split; [apply g_stack0; [left; reflexivity|exact V]|]. intros K. apply N, g_seen0; auto.
    - intros a q [<-|K] A Vq; assert (Iq : inside q) by (apply visible_is in Vq; tauto).
      + right. apply in_or_app. left. apply around_in; auto.
      + destruct (g_next0 a q K A Vq) as [S|[<-|S]]; [left; apply SEEN; auto|left; apply SEEN; auto|right; apply in_or_app; auto].
    - destruct g_start0 as [K|[->|K]]; [left; right; exact K|left; left; reflexivity|right; apply in_or_app; auto].
    - intros q K Vq. apply in_app_or in K. destruct K as [K|K]; [|apply g_stack0; [right; exact K|exact Vq]]. apply around_in in K; [|exact I].
      eapply C_next; [apply g_stack0; [left; reflexivity|exact V]|apply K|exact Vq].
    - cbn [List.length]. rewrite g_count0. reflexivity.
    - cbn [map]. apply min_more, g_minx0.
    - cbn [map]. apply min_more, g_miny0.
    - cbn [map]. apply max_more, g_maxx0.
    - cbn [map]. apply max_more, g_maxy0.
    - rewrite g_color0. cbn [map add_each total fold_right]. do 3 (f_equal; [apply N.add_comm|]). f_equal. apply N.add_comm.
  Qed.
  Lemma fill_ok old s : visible f s -> ~ old s -> forall fuel v stack area r, 5 * free v + List.length stack <= fuel -> going old s v stack area r ->
    exists v' area' r', fill fuel f v stack r = Done v' r' /\ going old s v' [] area' r'.
  Proof.
    intros Vs No. induction fuel as [|n IH]; intros v [|[x y] rest] area r L G; cbn [fill]; try (exists v, area, r; split; [reflexivity|exact G]).
    { cbn in L. lia. }
    cbn [List.length] in L. destruct ((w <=? x) || (h <=? y)) eqn:B.
    - apply (IH v rest area r); [lia|]. eapply skip; [exact Vs|exact No|exact G|]. intros V. exfalso. apply visible_is in V. destruct V as [[I1 I2] _]. cbn [fst snd] in *. apply orb_prop in B. destruct B as [B|B]; apply Nat.leb_le in B; lia.
    - apply orb_false_elim in B. destruct B as [B1 B2]. apply Nat.leb_gt in B1, B2. assert (I : inside (x, y)) by (split; assumption).
      assert (IL : index f (x, y) < List.length v) by (rewrite (g_len _ _ _ _ _ _ G); apply index_lt, I).
      destruct (nth_error v (index f (x, y))) as [[|]|] eqn:E.
      + apply (IH v rest area r); [lia|]. eapply skip; [exact Vs|exact No|exact G|]. intros _. exact E.
      + destruct (opaque f (index f (x, y))) eqn:O; cbn [negb].
        * rewrite (four_is _ I). assert (V : visible f (x, y)) by (apply visible_is; auto). eapply IH; [|eapply visit; [exact G|exact V|unfold seen; congruence]].
          rewrite app_length. pose proof (around_len (x, y)). pose proof (set_at_free v _ E). lia.
        * apply (IH v rest area r); [lia|]. eapply skip; [exact Vs|exact No|exact G|]. intros V. apply visible_is in V. destruct V as [_ V]. congruence.
      + apply nth_error_None in E. lia.
  Qed.

  (* what is marked already is made of whole areas *)
  Definition closed (v : list bool) : Prop := List.length v = w * h /\ (forall p, inside p -> seen v p -> visible f p) /\ (forall p q, inside p -> seen v p -> connected f p q -> seen v q).
  Lemma div_byte l n : Forall (fun b => (b < 256)%N) l -> List.length l = n -> 0 < n -> (total l / N.of_nat n < 256)%N.
  Proof.
    intros F E P. apply N.div_lt_upper_bound; [lia|]. assert (total l <= 255 * N.of_nat n)%N; [|lia]. subst n. clear P. induction F as [|b l B F IH]; cbn [total fold_right List.length]; [lia|].
    unfold total in IH. lia.
  Qed.
  Lemma flood_ok v s : closed v -> visible f s -> ~ seen v s -> exists v' r, flood_fill f v s = Some (v', r) /\ describes f s r /\ closed v' /\ (forall p, inside p -> (seen v' p <-> seen v p \/ connected f s p)).
  Proof.
    intros (C1 & C2 & C3) Vs Ns. destruct s as [x y]. pose proof Vs as I. apply visible_is in I. destruct I as [I _].
    assert (G : going (fun p => seen v p) (x, y) v [(x, y)] [] (Rg x y x y 0 [0; 0; 0; 0]%N)).
    { split; cbn [In map List.length r_count r_minx r_miny r_maxx r_maxy r_color fst snd]; auto; try (split; [left; reflexivity|intros z [<-|[]]; lia]); try tauto.
      - constructor.
      - intros p [<-|[]] V. constructor. exact V. }
    unfold flood_fill. cbv beta iota zeta. destruct (fill_ok (fun p => seen v p) (x, y) Vs Ns (5 * (w * h) + 1) v [(x, y)] [] (Rg x y x y 0 [0; 0; 0; 0]%N)) as (v' & area & r & E & K); [pose proof (free_le v); cbn [List.length]; lia|exact G|].
    exists v', (average r). split; [exact (f_equal (fun o => match o with Done v r0 => Some (v, average r0) | _ => None end) E)|]. destruct K.
    assert (A : forall q, In q area <-> connected f (x, y) q).
    { intros q. split; [intros H; apply g_area0, H|]. intros H. induction H as [V|q r' H IH A V]; [destruct g_start0 as [K|[]]; exact K|].
      destruct (g_next0 q r' IH A V) as [S|[]]. assert (Ir : inside r') by (apply visible_is in V; tauto). apply g_seen0 in S; [|exact Ir]. destruct S as [S|S]; [|exact S].
      exfalso. destruct (g_area0 q IH) as [_ Nq]. apply Nq. apply (C3 r' q Ir S). eapply C_next; [constructor; exact V|apply adj_sym; exact A|apply (conn_right _ _ H)]. }
    assert (S : In (x, y) area) by (apply A; constructor; exact Vs).
    assert (SEEN : forall p, inside p -> (seen v' p <-> seen v p \/ connected f (x, y) p)) by (intros p J; rewrite (g_seen0 p J), A; tauto).
    split; [|split; [|exact SEEN]].
    - exists area. destruct (r_count r) as [|n] eqn:EC; [rewrite <- g_count0 in *; destruct area; [destruct S|discriminate]|].
      unfold average. rewrite EC. cbn [r_count r_minx r_miny r_maxx r_maxy r_color].
      assert (IN : forall (g : pixel -> nat) m, In m (g (x, y) :: map g area) -> In m (map g area)) by (intros g m [<-|H]; [apply in_map; exact S|exact H]).
      split; [exact g_nodup0|]. split; [exact A|]. split; [exact g_count0|].
      split; [destruct g_minx0; split; [apply (IN fst); assumption|intros; apply H0; right; assumption]|].
      split; [destruct g_miny0; split; [apply (IN snd); assumption|intros; apply H0; right; assumption]|].
      split; [destruct g_maxx0; split; [apply (IN fst); assumption|intros; apply H0; right; assumption]|].
      split; [destruct g_maxy0; split; [apply (IN snd); assumption|intros; apply H0; right; assumption]|].
      rewrite g_color0, map_map. apply map_ext_in. intros k Hk. rewrite g_count0. apply N.mod_small. apply div_byte; [|apply map_length|lia].
      apply Forall_forall. intros b Hb. apply in_map_iff in Hb. destruct Hb as (q & <- & Hq). apply A in Hq. apply conn_right, visible_is in Hq. destruct Hq as [Iq _].
      destruct W as [WL WB]. rewrite Forall_forall in WB. apply WB. unfold channel. apply nth_In. rewrite WL. pose proof (index_lt q Iq). unfold index in *. cbn in Hk. lia.
    - split; [exact g_len0|]. split.
      + intros p J Sp. apply SEEN in Sp; [|exact J]. destruct Sp as [Sp|Sp]; [apply (C2 p J Sp)|eapply conn_right; exact Sp].
      + intros p q J Sp Cq. assert (Iq : inside q) by (pose proof (conn_right _ _ Cq) as V; apply visible_is in V; tauto). apply SEEN; [exact Iq|]. apply SEEN in Sp; [|exact J].
        destruct Sp as [Sp|Sp]; [left; apply (C3 p q J Sp Cq)|right; eapply conn_trans; eassumption].
  Qed.

  (* all pixels in reading order *)
  Lemma row_places y : map (place f) (map (fun x => (x, y)) (seq 0 w)) = seq (y * w) w.
  Proof.
    rewrite map_map. unfold place. cbn [fst snd]. enough (K : forall n k z, map (fun x => k + x) (seq z n) = seq (k + z) n) by (rewrite (K w (y * w) 0), Nat.add_0_r; reflexivity).
    induction n as [|n IH]; intros k z; cbn [seq map]; [reflexivity|]. rewrite IH, Nat.add_succ_r. reflexivity.
  Qed.
  Lemma places : map (place f) (all_pixels f) = seq 0 (h * w).
  Proof.
    unfold all_pixels. enough (K : forall n a, map (place f) (flat_map (fun y => map (fun x => (x, y)) (seq 0 w)) (seq a n)) = seq (a * w) (n * w)) by (rewrite K; reflexivity).
    induction n as [|n IH]; intros a; cbn [seq flat_map]; [reflexivity|]. rewrite map_app, row_places, IH. cbn [Nat.mul]. rewrite seq_app. f_equal. f_equal. lia.
  Qed.
  Lemma in_all p : In p (all_pixels f) <-> inside p.
  Proof.
    unfold all_pixels, inside. rewrite in_flat_map. split.
    - intros (y & Hy & H). apply in_map_iff in H. destruct H as (x & <- & Hx). apply in_seq in Hx, Hy. cbn [fst snd]. lia.
    - destruct p as [x y]. cbn [fst snd]. intros [X Y]. exists y. split; [apply in_seq; lia|]. apply in_map_iff. exists x. split; [reflexivity|apply in_seq; lia].
  Qed.
  Lemma seq_mid a x b n : a ++ x :: b = seq 0 n -> (forall y, In y a -> y < x) /\ (forall y, In y b -> x < y).
  Proof.
    intros E. assert (L : n = List.length a + S (List.length b)) by (apply (f_equal (@List.length nat)) in E; rewrite seq_length, app_length in E; cbn in E; lia).
    subst n. rewrite seq_app in E. cbn [seq Nat.add] in E. assert (E2 : a = seq 0 (List.length a) /\ x :: b = List.length a :: seq (S (List.length a)) (List.length b)).
    { revert E. generalize (List.length a :: seq (S (List.length a)) (List.length b)). generalize (x :: b). assert (H : List.length a = List.length (seq 0 (List.length a))) by (rewrite seq_length; reflexivity). revert H. generalize (seq 0 (List.length a)). clear. intros l. revert l.
      induction a as [|c a IH]; intros [|d l] H u v E; cbn in *; try discriminate; [auto|]. injection E as <- E. destruct (IH l ltac:(lia) u v E) as [-> ->]. auto. }
    destruct E2 as [Ea Eb]. injection Eb as Ex Eb. split; intros y H.
    - rewrite Ea in H. apply in_seq in H. lia.
    - rewrite Eb in H. apply in_seq in H. lia.
  Qed.
  Lemma order pre p l : pre ++ p :: l = all_pixels f -> forall q, inside q -> (In q pre <-> place f q < place f p).
  Proof.
    intros E q I. pose proof places as P. rewrite <- E, map_app in P. cbn [map] in P. apply seq_mid in P. destruct P as [P1 P2]. split; [intros H; apply P1, in_map, H|].
    intros H. apply in_all in I. rewrite <- E in I. apply in_app_or in I. destruct I as [I|[<-|I]]; [exact I|lia|]. specialize (P2 (place f q) (in_map _ _ _ I)). lia.
  Qed.

  Definition big (g : pixel * region) : bool := 10 <? r_count (snd g).
  Lemma detect_ok : forall l pre v rs firsts, pre ++ l = all_pixels f -> closed v ->
    (forall q, inside q -> (seen v q <-> exists p, In p pre /\ connected f p q)) ->
    (forall p, In p (map fst firsts) <-> In p pre /\ first_of_area f p) -> StronglySorted (fun p q => place f p < place f q) (map fst firsts) ->
    Forall (fun g => describes f (fst g) (snd g)) firsts -> rs = map snd (filter big firsts) ->
    exists all, (forall p, In p (map fst all) <-> first_of_area f p) /\ StronglySorted (fun p q => place f p < place f q) (map fst all) /\
      Forall (fun g => describes f (fst g) (snd g)) all /\ detect f l v rs = Some (map snd (filter big all)).
  Proof.
    induction l as [|p l IH]; intros pre v rs firsts E C Hv Hf Hs Hd ->; cbn [detect].
    - rewrite app_nil_r in E. exists firsts. split; [|auto]. intros p. rewrite Hf. split; [tauto|]. intros F. split; [|exact F]. rewrite E. apply in_all. destruct F as [V _]. apply visible_is in V. tauto.
    - assert (I : inside p) by (apply in_all; rewrite <- E; apply in_or_app; right; left; reflexivity).
      assert (E2 : (pre ++ [p]) ++ l = all_pixels f) by (rewrite <- app_assoc; exact E).
      pose proof (order pre p l E) as O. destruct C as (C1 & C2 & C3). pose proof (index_lt p I) as IL.
      destruct (nth_error v (index f p)) as [b|] eqn:Ev; [|apply nth_error_None in Ev; lia].
      destruct (negb b && opaque f (index f p)) eqn:B.
      + apply andb_prop in B. destruct B as [B1 B2]. destruct b; [discriminate|]. assert (V : visible f p) by (apply visible_is; auto). assert (Ns : ~ seen v p) by (unfold seen; congruence).
        destruct (flood_ok v p (conj C1 (conj C2 C3)) V Ns) as (v' & r & -> & D & C' & S').
        assert (F : first_of_area f p).
        { split; [exact V|]. intros q Cq. destruct (Nat.le_gt_cases (place f p) (place f q)) as [L|L]; [exact L|]. exfalso. apply Ns. apply Hv; [exact I|]. exists q. split; [apply O; [|exact L]; pose proof (conn_right _ _ Cq) as Vq; apply visible_is in Vq; tauto|apply conn_sym; exact Cq]. }
        apply (IH (pre ++ [p]) v' _ (firsts ++ [(p, r)])); [exact E2|exact C'| | | | |].
        * intros q J. rewrite (S' q J), (Hv q J). split.
          -- intros [(a & A1 & A2)|A]; [exists a; split; [apply in_or_app; auto|exact A2]|exists p; split; [apply in_or_app; right; left; reflexivity|exact A]].
          -- intros (a & A1 & A2). apply in_app_or in A1. destruct A1 as [A1|[<-|[]]]; [left; eauto|right; exact A2].
        * intros q. rewrite map_app. cbn [map fst]. rewrite !in_app_iff, Hf. cbn [In]. split; [intros [A|[<-|[]]]; tauto|intros [[A|[<-|[]]] B]; tauto].
        * rewrite map_app. cbn [map fst]. clear - Hs Hf O. assert (K : Forall (fun q => place f q < place f p) (map fst firsts)).
          { apply Forall_forall. intros q Hq. apply Hf in Hq. destruct Hq as [Hq [Vq _]]. apply O; [|exact Hq]. destruct Vq as (V1 & V2 & _). split; assumption. }
          clear Hf O. induction (map fst firsts) as [|a m IHm]; cbn [app]; [constructor; constructor|]. inversion_clear Hs. inversion_clear K. constructor; [apply IHm; assumption|]. apply Forall_app. split; [assumption|constructor; [assumption|constructor]].
        * apply Forall_app. split; [exact Hd|constructor; [exact D|constructor]].
        * rewrite filter_app, map_app. cbn [filter]. change (big (p, r)) with (10 <? r_count r). destruct (10 <? r_count r); [reflexivity|cbn [map]; rewrite app_nil_r; reflexivity].
      + assert (NF : ~ (visible f p /\ ~ seen v p)). { intros [V Ns]. apply visible_is in V. destruct V as [_ V]. rewrite V, andb_true_r in B. destruct b; [apply Ns; exact Ev|discriminate]. }
        assert (NF2 : ~ first_of_area f p).
        { intros [V F]. apply NF. split; [exact V|]. intros S. apply Hv in S; [|exact I]. destruct S as (a & A1 & A2). specialize (F a (conn_sym _ _ A2)). apply O in A1; [lia|]. pose proof (conn_left _ _ A2) as Va. apply visible_is in Va. tauto. }
        apply (IH (pre ++ [p]) v _ firsts); [exact E2|exact (conj C1 (conj C2 C3))| | |exact Hs|exact Hd|reflexivity].
        * intros q J. rewrite (Hv q J). split.
          -- intros (a & A1 & A2). exists a. split; [apply in_or_app; auto|exact A2].
          -- intros (a & A1 & A2). apply in_app_or in A1. destruct A1 as [A1|[<-|[]]]; [eauto|]. assert (Sp : seen v p). { destruct b; [exact Ev|]. exfalso. apply NF. split; [eapply conn_left; exact A2|unfold seen; congruence]. }
             assert (Sq : seen v q) by (apply (C3 p q I Sp A2)). apply Hv in Sq; [exact Sq|exact J].
        * intros q. rewrite Hf. rewrite in_app_iff. cbn [In]. split; [tauto|]. intros [[A|[<-|[]]] B']; tauto.
  Qed.
  Lemma regions_ok : exists all, (forall p, In p (map fst all) <-> first_of_area f p) /\ StronglySorted (fun p q => place f p < place f q) (map fst all) /\
      Forall (fun g => describes f (fst g) (snd g)) all /\ detect_regions f = Some (map snd (filter big all)).
  Proof.
    unfold detect_regions. assert (R : forall n i, nth_error (repeat false n) i <> Some true) by (induction n as [|n IH]; intros [|i]; cbn; try discriminate; apply IH).
    apply (detect_ok (all_pixels f) [] _ [] []); [reflexivity| | | |constructor|constructor|reflexivity].
    - split; [apply repeat_length|]. split; intros p; [intros _ S|intros q _ S]; exfalso; exact (R _ _ S).
    - intros q _. split; [intros S; exfalso; exact (R _ _ S)|intros (a & [] & _)].
    - intros p. cbn. tauto.
  Qed.
End Regions.
