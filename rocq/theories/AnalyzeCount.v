From Coq Require Import QArith Qabs Lqa.
From Verif Require Import Base FloatModel FloatProofs AnimSpec AnimProofs GpuGeom AnalyzeModel AnalyzeSpec AnalyzeProofs.
Local Open Scope nat_scope.

Definition quadruple := (N * N * N * N)%type.
Definition count_quad (h : histogram) (q : quadruple) : histogram := let '(r, g, b, a) := q in count_pixel h r g b a.
Definition quad_at (px : list N) (i : nat) : quadruple := (nth (4 * i) px 0%N, nth (4 * i + 1) px 0%N, nth (4 * i + 2) px 0%N, nth (4 * i + 3) px 0%N).
Lemma chunks_fold : forall n px h, List.length px = 4 * n -> count_chunks px h = fold_left count_quad (map (quad_at px) (seq 0 n)) h.
Proof.
  induction n as [|n IH]; intros px h L; [destruct px; [reflexivity|discriminate]|].
  destruct px as [|r [|g [|b [|a px]]]]; cbn [List.length] in L; try lia. cbn [count_chunks seq map fold_left]. rewrite (IH px) by lia. cbn [count_quad quad_at Nat.mul Nat.add nth].
  f_equal. rewrite <- seq_shift, map_map. apply map_ext. intros i. unfold quad_at. replace (4 * S i) with (S (S (S (S (4 * i))))) by lia. reflexivity.
Qed.
Lemma bump_len i l : List.length (bump i l) = List.length l.
Proof. revert i. induction l as [|n l IH]; intros [|i]; cbn; auto. Qed.
Lemma bump_nth : forall l i v, i < List.length l -> nth v (bump i l) 0 = nth v l 0 + (if i =? v then 1 else 0).
Proof.
  induction l as [|n l IH]; intros i v L; [cbn in L; lia|]. destruct i as [|i], v as [|v]; cbn [bump nth Nat.eqb]; try lia. apply IH. cbn in L. lia.
Qed.
Definition number {A} (t : A -> bool) (l : list A) : nat := List.length (filter t l).
Lemma number_cons {A} (t : A -> bool) x l : number t (x :: l) = (if t x then 1 else 0) + number t l.
Proof. unfold number. cbn [filter]. destruct (t x); reflexivity. Qed.
Definition small (q : quadruple) : Prop := let '(r, g, b, a) := q in (r < 256 /\ g < 256 /\ b < 256 /\ a < 256)%N.
Definition q0 (q : quadruple) := fst (fst (fst q)). Definition q1 (q : quadruple) := snd (fst (fst q)). Definition q2 (q : quadruple) := snd (fst q). Definition q3 (q : quadruple) := snd q.
Definition isgrey (q : quadruple) := (q0 q =? q1 q)%N && (q1 q =? q2 q)%N.
Definition vis (q : quadruple) := (0 <? q3 q)%N.
Record sized (h : histogram) : Prop := Sz { z_r : List.length (h_red h) = 256; z_g : List.length (h_green h) = 256; z_b : List.length (h_blue h) = 256; z_a : List.length (h_alpha h) = 256 }.
Lemma count_pixel_tables h r g b a : h_red (count_pixel h r g b a) = bump (N.to_nat r) (h_red h) /\ h_green (count_pixel h r g b a) = bump (N.to_nat g) (h_green h) /\
  h_blue (count_pixel h r g b a) = bump (N.to_nat b) (h_blue h) /\ h_alpha (count_pixel h r g b a) = bump (N.to_nat a) (h_alpha h).
Proof. unfold count_pixel. destruct (0 <? a)%N; [destruct ((r =? g)%N && (g =? b)%N); [destruct (200 <? r)%N; [|destruct (r <? 50)%N]|]|]; cbn; auto. Qed.
Lemma fold_counts : forall qs h, sized h -> Forall small qs -> let h' := fold_left count_quad qs h in
  sized h' /\
  (forall v, v < 256 -> nth v (h_red h') 0 = nth v (h_red h) 0 + number (fun q => (q0 q =? N.of_nat v)%N) qs /\
     nth v (h_green h') 0 = nth v (h_green h) 0 + number (fun q => (q1 q =? N.of_nat v)%N) qs /\
     nth v (h_blue h') 0 = nth v (h_blue h) 0 + number (fun q => (q2 q =? N.of_nat v)%N) qs /\
     nth v (h_alpha h') 0 = nth v (h_alpha h) 0 + number (fun q => (q3 q =? N.of_nat v)%N) qs) /\
  h_shown h' = h_shown h + number vis qs /\
  h_white h' = h_white h + number (fun q => vis q && isgrey q && (200 <? q0 q)%N) qs /\
  h_black h' = h_black h + number (fun q => vis q && isgrey q && (q0 q <? 50)%N) qs /\
  h_gray h' = h_gray h + number (fun q => vis q && isgrey q && (50 <=? q0 q)%N && (q0 q <=? 200)%N) qs /\
  h_colored h' = h_colored h + number (fun q => vis q && negb (isgrey q)) qs.
Proof.
  induction qs as [|q qs IH]; intros h S F; cbn [fold_left].
  { cbn. split; [exact S|]. repeat split; lia. }
  inversion_clear F as [|? ? Q F']. destruct q as [[[r g] b] a]. cbn [count_quad]. destruct Q as (Q1 & Q2 & Q3 & Q4). destruct S as [S1 S2 S3 S4].
  destruct (count_pixel_tables h r g b a) as (T1 & T2 & T3 & T4).
  assert (S' : sized (count_pixel h r g b a)) by (split; [rewrite T1|rewrite T2|rewrite T3|rewrite T4]; rewrite bump_len; assumption).
  specialize (IH (count_pixel h r g b a) S' F'). cbv zeta in IH. destruct IH as (K0 & K1 & K2 & K3 & K4 & K5 & K6). split; [exact K0|]. rewrite !number_cons.
  split; [|rewrite K2, K3, K4, K5, K6; clear; unfold vis, isgrey, q0, q1, q2, q3; cbn [fst snd]; unfold count_pixel].
  - intros v V. destruct (K1 v V) as (E1 & E2 & E3 & E4). rewrite E1, E2, E3, E4, T1, T2, T3, T4, !number_cons. unfold q0, q1, q2, q3. cbn [fst snd].
    assert (B : forall c, (c < 256)%N -> forall l, List.length l = 256 -> nth v (bump (N.to_nat c) l) 0 = nth v l 0 + (if (c =? N.of_nat v)%N then 1 else 0)).
    { intros c C l L. rewrite bump_nth by lia. destruct (Nat.eqb_spec (N.to_nat c) v), (N.eqb_spec c (N.of_nat v)); lia. }
    rewrite !B by assumption. repeat split; lia.
  - destruct (0 <? a)%N; cbn [andb negb]; [|cbn; repeat split; lia].
    destruct ((r =? g)%N && (g =? b)%N); cbn [andb negb]; [|cbn; repeat split; lia].
    destruct (N.ltb_spec 200 r), (N.ltb_spec r 50), (N.leb_spec 50 r), (N.leb_spec r 200); cbn [h_shown h_white h_black h_gray h_colored andb]; try lia; repeat split; lia.
Qed.

Section Frame.
  Variable f : frame.
  Hypothesis W : whole f.
  Definition at_pixel (p : pixel) : quadruple := (channel f 0 p, channel f 1 p, channel f 2 p, channel f 3 p).
  Lemma every_quads : map (quad_at (f_px f)) (seq 0 (f_w f * f_h f)) = map at_pixel (every f).
  Proof.
    unfold every. rewrite map_map. apply map_ext_in. intros i Hi. apply in_seq in Hi. unfold quad_at, at_pixel, channel. cbn [fst snd].
    assert (E : i / f_w f * f_w f + i mod f_w f = i). { rewrite Nat.mul_comm. symmetry. apply Nat.div_mod. intros Z. rewrite Z in Hi. cbn in Hi. lia. }
    rewrite E, Nat.add_0_r. reflexivity.
  Qed.
  Lemma number_every t : number t (map at_pixel (every f)) = tally f (fun p => t (at_pixel p)).
  Proof. unfold number, tally. induction (every f) as [|p l IH]; cbn [map filter]; [reflexivity|]. destruct (t (at_pixel p)); cbn [List.length]; rewrite IH; reflexivity. Qed.
  Lemma quads_small : Forall small (map (quad_at (f_px f)) (seq 0 (f_w f * f_h f))).
  Proof.
    destruct W as [L B]. apply Forall_forall. intros q H. apply in_map_iff in H. destruct H as (i & <- & H). apply in_seq in H. rewrite Forall_forall in B. unfold small, quad_at. repeat split; apply B, nth_In; lia.
  Qed.
  Lemma repeat_nth v n : nth v (repeat 0 n) 0 = 0.
  Proof. revert v. induction n as [|n IH]; intros [|v]; cbn; auto. Qed.
  Lemma histogram_ok : let h := pixel_histogram f in
    (forall v, v < 256 -> nth v (h_red h) 0 = tally f (fun p => (channel f 0 p =? N.of_nat v)%N) /\ nth v (h_green h) 0 = tally f (fun p => (channel f 1 p =? N.of_nat v)%N) /\
      nth v (h_blue h) 0 = tally f (fun p => (channel f 2 p =? N.of_nat v)%N) /\ nth v (h_alpha h) 0 = tally f (fun p => (channel f 3 p =? N.of_nat v)%N)) /\
    h_shown h = tally f (shown f) /\
    h_white h = tally f (fun p => shown f p && grey f p && (200 <? channel f 0 p)%N) /\
    h_black h = tally f (fun p => shown f p && grey f p && (channel f 0 p <? 50)%N) /\
    h_gray h = tally f (fun p => shown f p && grey f p && (50 <=? channel f 0 p)%N && (channel f 0 p <=? 200)%N) /\
    h_colored h = tally f (fun p => shown f p && negb (grey f p)).
  Proof.
    unfold pixel_histogram. rewrite (chunks_fold (f_w f * f_h f)) by apply W.
    set (z := repeat 0 256). assert (Sz0 : sized (Hi z z z z 0 0 0 0 0)) by (split; reflexivity).
    pose proof (fold_counts _ (Hi z z z z 0 0 0 0 0) Sz0 quads_small) as K. cbv zeta in *. destruct K as (_ & K1 & K2 & K3 & K4 & K5 & K6).
    rewrite every_quads in *. rewrite !number_every in *. split; [|cbn [h_shown h_white h_black h_gray h_colored Nat.add] in *; auto 10].
    intros v V. destruct (K1 v V) as (E1 & E2 & E3 & E4). rewrite !number_every in *. cbn [h_red h_green h_blue h_alpha] in *. unfold z in *. rewrite repeat_nth in *. auto.
  Qed.
  Lemma table_sizes : sized (pixel_histogram f).
  Proof.
    unfold pixel_histogram. rewrite (chunks_fold (f_w f * f_h f)) by apply W. apply fold_counts; [split; reflexivity|apply quads_small].
  Qed.
  Lemma tally_le t : tally f t <= f_w f * f_h f.
  Proof. unfold tally. assert (K : forall l : list pixel, List.length (filter t l) <= List.length l) by (induction l as [|p l IH]; cbn; [lia|destruct (t p); cbn; lia]). pose proof (K (every f)) as H. unfold every in *. rewrite map_length, seq_length in H. exact H. Qed.
End Frame.

(* the first greatest entry *)
Lemma most_ok : forall l done best value, (forall u, u < List.length done -> nth u done 0 <= best) -> (value < List.length done /\ nth value done 0 = best /\ (forall u, u < value -> nth u done 0 < best) \/ (value = 0 /\ best = 0 /\ forall u, u < List.length done -> nth u done 0 = 0)) ->
  let m := most l (List.length done) best value in
  (forall u, u < List.length (done ++ l) -> nth u (done ++ l) 0 <= nth m (done ++ l) 0) /\ (forall u, u < m -> nth u (done ++ l) 0 < nth m (done ++ l) 0) .
Proof.
  induction l as [|c l IH]; intros done best value H1 H2; cbn [most].
  - rewrite app_nil_r. cbv zeta. destruct H2 as [(A & B & C)|(-> & -> & C)].
    + split; intros u U; rewrite B; [apply H1, U|apply C, U].
    + split; [|lia]. intros u U. rewrite (C u U). lia.
  - replace (done ++ c :: l) with ((done ++ [c]) ++ l) by (rewrite <- app_assoc; reflexivity).
    assert (L : S (List.length done) = List.length (done ++ [c])) by (rewrite app_length; cbn; lia). rewrite !L.
    assert (NL : forall u, u < List.length done -> nth u (done ++ [c]) 0 = nth u done 0) by (intros u U; apply app_nth1; exact U).
    assert (NE : nth (List.length done) (done ++ [c]) 0 = c) by (rewrite app_nth2, Nat.sub_diag by lia; reflexivity).
    destruct (Nat.ltb_spec best c) as [B|B]; apply IH.
    + intros u U. destruct (Nat.eq_dec u (List.length done)) as [->|N]; [rewrite NE; lia|]. rewrite NL by lia. specialize (H1 u ltac:(lia)). lia.
    + left. split; [lia|]. split; [exact NE|]. intros u U. rewrite NL by lia. specialize (H1 u ltac:(lia)). lia.
    + intros u U. destruct (Nat.eq_dec u (List.length done)) as [->|N]; [rewrite NE; lia|]. rewrite NL by lia. apply H1. lia.
    + destruct H2 as [(A & E & C)|(-> & -> & C)].
      * left. split; [lia|]. split; [rewrite NL by lia; exact E|]. intros u U. rewrite NL by lia. apply C, U.
      * right. split; [reflexivity|]. split; [reflexivity|]. intros u U. destruct (Nat.eq_dec u (List.length done)) as [->|N]; [rewrite NE; lia|]. rewrite NL by lia. apply C. lia.
Qed.
Lemma most_first l : List.length l = 256 -> first_most (fun v => nth v l 0) (most l 0 0 0).
Proof.
  intros L. destruct (most_ok l [] 0 0) as [A B]; [cbn; lia|right; cbn; repeat split; lia|]. cbn [List.length app] in *. split; [intros u U; apply A; lia|exact B].
Qed.

(* the share of transparent pixels *)
Local Open Scope Q_scope.
Definition qn (n : nat) : Q := inject_Z (Z.of_nat n).
Lemma share_near d t : (0 < t)%nat -> (d <= t)%nat -> (Z.of_nat t < 4294967296)%Z ->
  exists v, f_mul f32 (f_div f32 (f_of_nat d) (f_of_nat t)) (Fin 100) = Fin v /\ Qabs (v - 100 * (qn d / qn t)) <= 1 # 10000.
Proof.
  intros T D B. unfold f_of_nat, f_of_N, f_of_Z. rewrite !nat_N_Z. fold (qn d) (qn t).
  assert (D0 : 0 <= qn d) by (unfold qn; change 0 with (inject_Z 0); rewrite <- Zle_Qle; lia).
  assert (T1 : 1 <= qn t) by (unfold qn; change 1 with (inject_Z 1); rewrite <- Zle_Qle; lia).
  assert (DT : qn d <= qn t) by (unfold qn; rewrite <- Zle_Qle; lia).
  assert (TB : qn t <= 4294967296) by (unfold qn; change 4294967296 with (inject_Z 4294967296); rewrite <- Zle_Qle; lia).
  assert (T0 : 0 <= qn t) by lra. set (x := qn d / qn t). assert (Ex : qn d == x * qn t) by (unfold x; field; lra).
  assert (X0 : 0 <= x) by (unfold x; apply Qle_shift_div_l; lra). assert (X1 : x <= 1) by (unfold x; apply Qle_shift_div_r; lra). clearbody x.
  set (u := qn t) in *. set (y := qn d) in *. clearbody u y.
  destruct (rel_err y) as (a & -> & Ha). { rewrite (Qabs_pos _ D0). change (2 ^ 60) with 1152921504606846976. lra. }
  destruct (rel_err u) as (b & -> & Hb). { rewrite (Qabs_pos _ T0). change (2 ^ 60) with 1152921504606846976. lra. }
  rewrite (Qabs_pos _ D0) in Ha. rewrite (Qabs_pos _ T0) in Hb. apply Qabs_Qle_condition in Ha, Hb. unfold eps, eta in *.
  assert (B1 : u / 2 <= b) by (setoid_replace (u / 2) with ((1 # 2) * u) by field; lra). assert (B2 : 1 # 2 <= b) by (setoid_replace (u / 2) with ((1 # 2) * u) in B1 by field; lra).
  cbn [f_div]. assert (Zb : qzero b = false) by (unfold qzero; destruct b as [n m]; unfold Qle in B2; cbn in *; apply Z.eqb_neq; lia). rewrite Zb.
  assert (Q : Qabs (a / b - x) <= 8 # 16777216).
  { setoid_replace (a / b - x) with ((a - x * b) / b) by (field; lra). unfold Qdiv. rewrite Qabs_Qmult. setoid_replace (Qabs (/ b)) with (/ b) by (apply Qabs_pos; apply Qinv_le_0_compat; lra).
    apply (Qle_shift_div_r (Qabs (a - x * b))); [lra|].
    assert (P1 : x * (b - u) <= x * (u * (1 # 16777216) + (1 # 1152921504606846976))) by (rewrite (Qmult_comm x (b - u)), (Qmult_comm x (u * _ + _)); apply Qmult_le_compat_r; lra).
    assert (P2 : x * (- (u * (1 # 16777216) + (1 # 1152921504606846976))) <= x * (b - u)) by (rewrite (Qmult_comm x (b - u)), (Qmult_comm x (- _)); apply Qmult_le_compat_r; lra).
    assert (P3 : x * u <= 1 * u) by (apply Qmult_le_compat_r; lra). setoid_replace (u / 2) with ((1 # 2) * u) in B1 by field.
    apply Qabs_Qle_condition. split; lra. }
  apply Qabs_Qle_condition in Q. destruct (rel_err (a / b)) as (q & -> & Hq). { apply Qle_lt_trans with 2; [apply Qabs_Qle_condition; lra|reflexivity]. }
  assert (A2 : Qabs (a / b) <= 2) by (apply Qabs_Qle_condition; lra). unfold eps, eta in *.
  assert (Hq' : Qabs (q - a / b) <= 4 # 16777216) by (eapply Qle_trans; [exact Hq|lra]). apply Qabs_Qle_condition in Hq'.
  cbn [f_mul]. destruct (rel_err (q * 100)) as (v & Ev & Hv). { apply Qle_lt_trans with 300; [apply Qabs_Qle_condition; lra|reflexivity]. }
  assert (A3 : Qabs (q * 100) <= 200) by (apply Qabs_Qle_condition; lra). unfold eps, eta in *.
  assert (Hv' : Qabs (v - q * 100) <= 300 # 16777216) by (eapply Qle_trans; [exact Hv|lra]). apply Qabs_Qle_condition in Hv'.
  exists v. split; [exact Ev|]. apply Qabs_Qle_condition. lra.
Qed.

(* text *)
Lemma exact_nat n : (Z.of_nat n <= 16777216)%Z -> exists v, f_of_nat n = Fin v /\ v == qn n.
Proof.
  intros H. unfold f_of_nat, f_of_N, f_of_Z. rewrite nat_N_Z. destruct (int_exact (Z.of_nat n)) as (v & E & V); [lia|]. exists v. split; [exact E|exact V].
Qed.
Lemma aspect_ok a b : (0 < b)%nat -> (b < 200)%nat -> (Z.of_nat a <= 16777216)%Z -> f_lt (Fin (3 # 2)) (f_div f32 (f_of_nat a) (f_of_nat b)) = (3 * b <? 2 * a)%nat.
Proof.
  intros B0 B1 A. destruct (exact_nat a A) as (x & -> & Ex). destruct (exact_nat b ltac:(lia)) as (y & -> & Ey).
  assert (Y1 : 1 <= y) by (rewrite Ey; unfold qn; change 1 with (inject_Z 1); rewrite <- Zle_Qle; lia).
  assert (Y2 : y <= 199) by (rewrite Ey; unfold qn; change 199 with (inject_Z 199); rewrite <- Zle_Qle; lia).
  assert (X0 : 0 <= x) by (rewrite Ex; unfold qn; change 0 with (inject_Z 0); rewrite <- Zle_Qle; lia).
  assert (X1 : x <= 16777216) by (rewrite Ex; unfold qn; change 16777216 with (inject_Z 16777216); rewrite <- Zle_Qle; lia).
  cbn [f_div]. assert (Zb : qzero y = false) by (unfold qzero; destruct y as [n m]; unfold Qle in Y1; cbn in *; apply Z.eqb_neq; lia). rewrite Zb.
  assert (Q0 : 0 <= x / y) by (apply Qle_shift_div_l; lra). assert (Q1 : x / y <= 16777216) by (apply Qle_shift_div_r; [lra|]; apply Qle_trans with (16777216 * 1); [lra|]; apply Qmult_le_l; [reflexivity|exact Y1]).
  destruct (rel_err (x / y)) as (v & Ev & _). { rewrite (Qabs_pos _ Q0). apply Qle_lt_trans with 16777216; [exact Q1|reflexivity]. } rewrite Ev. unfold f_lt. cbn [f_le].
  destruct (Nat.ltb_spec (3 * b) (2 * a)) as [L|L].
  - assert (QL : 3 * y + 1 <= 2 * x). { rewrite Ex, Ey. unfold qn. change 3 with (inject_Z 3). change 2 with (inject_Z 2). change 1 with (inject_Z 1). rewrite <- !inject_Z_mult, <- inject_Z_plus, <- Zle_Qle. lia. }
    assert (G : 1502 # 1000 <= x / y) by (apply Qle_shift_div_l; [lra|]; lra).
    assert (M : exists m, round_to f32 (1502 # 1000) = Fin m /\ 3 # 2 < m) by (vm_compute; eexists; split; reflexivity). destruct M as (m & Em & Lm).
    assert (m <= v) by (eapply mono_fin; [exact G|exact Em|exact Ev]). rewrite (proj2 (Qle_bool_iff _ _)) by lra. cbn [andb].
    destruct (Qle_bool v (3 # 2)) eqn:C; [apply Qle_bool_iff in C; lra|reflexivity].
  - assert (QL : 2 * x <= 3 * y). { rewrite Ex, Ey. unfold qn. change 3 with (inject_Z 3). change 2 with (inject_Z 2). rewrite <- !inject_Z_mult, <- Zle_Qle. lia. }
    assert (G : x / y <= 3 # 2) by (apply Qle_shift_div_r; [lra|]; lra).
    assert (M : exists m, round_to f32 (3 # 2) = Fin m /\ m <= 3 # 2) by (vm_compute; eexists; split; [reflexivity|discriminate]). destruct M as (m & Em & Lm).
    assert (v <= m) by (eapply mono_fin; [exact G|exact Ev|exact Em]). rewrite (proj2 (Qle_bool_iff v (3 # 2))) by lra. apply andb_false_r.
Qed.
Lemma size_ok b : (b < 200)%nat -> estimate_font_size b = N.of_nat (3 * b / 4).
Proof.
  intros H. assert (K : forallb (fun n => (estimate_font_size n =? N.of_nat (3 * n / 4))%N) (seq 0 200) = true) by (vm_compute; reflexivity).
  rewrite forallb_forall in K. apply N.eqb_eq, K, in_seq. lia.
Qed.
Lemma confidence_ok r : exists v, text_confidence r = Fin v /\ 0 <= v <= 1.
Proof.
  unfold text_confidence. cbv zeta. destruct (f_le (Fin 2) _ && f_lt _ (Fin 20)); destruct (f_lt (Fin 200) _); destruct ((20 <=? _)%nat && (_ <? 150)%nat); vm_compute; eexists; (split; [reflexivity|split; discriminate]).
Qed.
