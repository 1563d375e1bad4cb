(* Batches of events, free places, and arbitrary floats. *)
From Coq Require Import Permutation Sorted.
From Verif Require Import Base SortLib FloatModel FloatSpec FloatProofs CollideModel CollideSpec CollideProofs.
From Coq Require Import Lqa.
Local Open Scope Z_scope.

(* ---- any floats at all ---- *)
Lemma max_zero a : f_le (fl 0) (f_max a (fl 0)) = true.
Proof.
  destruct a as [|s|q]; [reflexivity|destruct s; reflexivity|]. cbn [f_max]. unfold fl. cbn [f_le]. destruct (Qle_bool q (inject_Z 0)) eqn:L; [reflexivity|]. cbn [f_le]. apply Qle_bool_iff. apply not_true_iff_false in L. rewrite Qle_bool_iff in L. apply Qlt_le_weak. now apply Qnot_le_lt.
Qed.
Lemma le_total a b : f_le a b = true \/ f_le b a = true \/ a = NaN \/ b = NaN.
Proof.
  destruct a as [|[]|p], b as [|[]|q]; cbn; auto. destruct (Qle_bool p q) eqn:E; [now left|]. right. left. apply Qle_bool_iff. apply not_true_iff_false in E. rewrite Qle_bool_iff in E. apply Qlt_le_weak. now apply Qnot_le_lt.
Qed.
Lemma clamp_range a lo hi y : f_clamp a lo hi = Some y -> y = NaN \/ f_le lo y = true /\ f_le y hi = true.
Proof.
  unfold f_clamp. destruct (f_le lo hi) eqn:O; [|discriminate]. intros [= <-]. destruct (f_lt a lo) eqn:E1.
  - right. unfold f_lt. rewrite O. cbn [negb]. rewrite andb_false_r. split; [|exact O]. destruct (le_total lo lo) as [K|[K|[->| ->]]]; auto; destruct hi as [|[]|]; discriminate.
  - unfold f_lt in E1. destruct (f_lt hi a) eqn:E2.
    + right. split; [exact O|]. destruct (le_total hi hi) as [K|[K|[->| ->]]]; auto; destruct lo as [|[]|]; discriminate.
    + unfold f_lt in E2. destruct a as [|s|q]; [now left| |]; right.
      * destruct (le_total lo (Inf s)) as [K|[K|[->|K]]]; [| |destruct hi as [|[]|]; discriminate|discriminate]; (destruct (le_total (Inf s) hi) as [K'|[K'|[K'| ->]]]; [| |discriminate|destruct lo as [|[]|]; discriminate]); rewrite ?K, ?K' in *; cbn in *; try (split; reflexivity); rewrite ?negb_false_iff, ?andb_true_r in *; auto.
      * destruct (le_total lo (Fin q)) as [K|[K|[->|K]]]; [| |destruct hi as [|[]|]; discriminate|discriminate]; (destruct (le_total (Fin q) hi) as [K'|[K'|[K'| ->]]]; [| |discriminate|destruct lo as [|[]|]; discriminate]); rewrite ?K, ?K' in *; cbn in *; try (split; reflexivity); rewrite ?negb_false_iff, ?andb_true_r in *; auto.
Qed.
Lemma find_total r e : exists r' b, find_position r e = Some (r', b) /\ (b_y b = NaN \/ f_le (fl 0) (b_y b) = true /\ f_le (b_y b) (f_max (sub32 (r_height r) (b_h (p_box e))) (fl 0)) = true).
Proof.
  assert (HH : forall n b, b_h (shift r (p_layer e) (push_down (p_align e)) n b) = b_h b).
  { induction n as [|n IH]; intros b; cbn [shift]; [reflexivity|]. destruct (in_the_way _ _ _); [reflexivity|]. now rewrite IH. }
  unfold find_position. set (b := shift _ _ _ _ _). specialize (HH (S (List.length (r_placed r))) (p_box e)). fold b in HH. clearbody b. rewrite HH. destruct (f_clamp (b_y b) (fl 0) _) as [y|] eqn:C.
  - do 2 eexists. split; [reflexivity|]. cbn [with_y b_y]. exact (clamp_range _ _ _ _ C).
  - unfold f_clamp in C. rewrite max_zero in C. discriminate.
Qed.
Lemma run_total ops : forall r, exists r' outs, collide_run r ops = Some (r', outs).
Proof.
  induction ops as [|o ops IH]; intros r; cbn [collide_run]; [now exists r, []|]. destruct o as [e|e|m|]; cbn [collide_step].
  - destruct (IH (add_fixed r e)) as (? & ? & ->). eauto.
  - destruct (find_total r e) as (r1 & b & -> & _). destruct (IH r1) as (? & ? & ->). eauto.
  - destruct (IH (set_margin r m)) as (? & ? & ->). eauto.
  - destruct (IH (clear_placed r)) as (? & ? & ->). eauto.
Qed.

(* ---- a batch ---- *)
Definition op_for (t : Z) (e : placed) : collide_op := if t <=? p_priority e then CFixed e else CFind e.
Lemma place_is_run t l : forall r r' outs, collide_run r (map (op_for t) l) = Some (r', outs) -> exists out, place_each t r l = Some (r', out) /\ r_placed r' = r_placed r ++ out.
Proof.
  induction l as [|e l IH]; intros r r' outs; cbn [map collide_run place_each]; [intros [= <- <-]; exists []; split; [reflexivity|now rewrite app_nil_r]|]. unfold op_for at 1. destruct (t <=? p_priority e); cbn [collide_step].
  - destruct (collide_run (add_fixed r e) _) as [[r2 xs]|] eqn:E; [|discriminate]. intros [= <- <-]. destruct (IH _ _ _ E) as (out & -> & P). exists (e :: out). split; [reflexivity|]. rewrite P. cbn [add_fixed r_placed]. now rewrite <- app_assoc.
  - destruct (find_position r e) as [[r1 b]|] eqn:FP; [|discriminate]. destruct (collide_run r1 _) as [[r2 xs]|] eqn:E; [|discriminate]. intros [= <- <-]. destruct (IH _ _ _ E) as (out & -> & P). exists (with_box e b :: out). split; [reflexivity|]. rewrite P.
    unfold find_position in FP. destruct (f_clamp _ _ _); [|discriminate]. injection FP as <- <-. cbn [add_fixed r_placed]. now rewrite <- app_assoc.
Qed.
Definition spot_le (a b : spot) : bool := s_priority b <=? s_priority a.
Lemma insert_both e s l l' : spot_is e s -> Forall2 spot_is l l' -> Forall2 spot_is (insert by_priority e l) (insert spot_le s l').
Proof.
  intros ES F. induction F as [|a b l l' AB F IH]; cbn [insert]; [constructor; [exact ES|constructor]|]. replace (by_priority e a) with (spot_le s b); [destruct (spot_le s b); [constructor; [exact ES|now constructor]|constructor; assumption]|].
  unfold by_priority, spot_le. destruct ES as (_ & _ & _ & ->), AB as (_ & _ & _ & ->). reflexivity.
Qed.
Lemma sort_both l l' : Forall2 spot_is l l' -> Forall2 spot_is (stable_sort by_priority l) (stable_sort spot_le l').
Proof. intros F. induction F; cbn [stable_sort]; [constructor|]. now apply insert_both. Qed.
Lemma sort_turn l : in_turn l (stable_sort spot_le l).
Proof.
  assert (T : forall x y, spot_le x y = true \/ spot_le y x = true) by (intros; unfold spot_le; lia).
  assert (TR : forall x y z, spot_le x y = true -> spot_le y z = true -> spot_le x z = true) by (intros *; unfold spot_le; lia). split.
  - apply sort_perm.
  - pose proof (sort_sorted spot_le T TR l) as S. eapply StronglySorted_ind with (P := fun l => StronglySorted (fun a b => s_priority b <= s_priority a) l); [constructor| |exact S].
    intros a l' _ IH F. constructor; [exact IH|]. eapply Forall_impl; [|exact F]. cbn. intros b. unfold spot_le. lia.
  - intros p. pose proof (fun k => sort_stable spot_le T TR k l) as S. specialize (S (Spot (Rect 0 0 0 0) 0 0%N p)). unfold same, spot_le in S. cbn [s_priority] in S.
    assert (EX : forall l : list spot, filter (fun s => s_priority s =? p) l = filter (fun y => (s_priority y <=? p) && (p <=? s_priority y)) l).
    { intros l0. apply filter_ext. intros a. lia. } now rewrite !EX.
Qed.
Lemma request_for t e s : spot_is e s -> request_is (op_for t e) (ask t s).
Proof. intros ES. assert (E := ES). destruct E as (_ & _ & _ & P). unfold op_for, ask. rewrite P. destruct (t <=? s_priority s); exact ES. Qed.
Lemma Forall2_map {A B C D} (P : C -> D -> Prop) (f : A -> C) (g : B -> D) (R : A -> B -> Prop) l l' : (forall a b, R a b -> P (f a) (g b)) -> Forall2 R l l' -> Forall2 P (map f l) (map g l').
Proof. intros H F. induction F; cbn; constructor; auto. Qed.
Lemma process_ok t r m H l zl : 0 <= H <= 1048576 -> at64 (r_height r) H -> at64 (r_margin r) m -> modest_margin m -> Forall2 spot_is l zl -> Forall (fun s => modest_rect (s_rect s)) zl ->
  (List.length l < 2)%nat \/ Forall (fun s => s_priority s <> -2147483648) zl ->
  exists r' out order zs final, process_events t r l = Some (r', out) /\ in_turn zl order /\ expected H m [] (map (ask t) order) zs final /\ Forall2 spot_is out final.
Proof.
  intros LH HH HM LM F LO SAFE. unfold process_events. destruct ((2 <=? List.length l)%nat && _) eqn:G.
  { exfalso. apply andb_true_iff in G. destruct G as [G X]. destruct SAFE as [SAFE|SAFE]; [apply Nat.leb_le in G; lia|]. apply existsb_exists in X. destruct X as (e & I & E). clear -F SAFE I E. induction F as [|a b l l' AB F IH]; [destruct I|]. inversion SAFE; subst.
    destruct I as [->|I]; [destruct AB as (_ & _ & _ & P); lia|auto]. }
  pose proof (sort_turn zl) as TURN. assert (PERM := turn_all _ _ TURN). assert (LO' : Forall (fun s => modest_rect (s_rect s)) (stable_sort spot_le zl)) by (rewrite Forall_forall in *; intros s I; apply LO; apply (Permutation_in _ (Permutation_sym PERM) I)).
  destruct (run_ok H LH (map (op_for t) (stable_sort by_priority l)) (map (ask t) (stable_sort spot_le zl))) with (r := clear_placed r) (others := @nil spot) (m := m) as (r' & outs & zs & final & RUN & AN & EX & RF); try assumption; try constructor.
  { eapply Forall2_map; [|apply sort_both; exact F]. apply request_for. }
  { rewrite Forall_forall in *. intros q I. apply in_map_iff in I. destruct I as (s & <- & I). unfold ask. destruct (t <=? s_priority s); exact (LO' s I). }
  destruct (place_is_run _ _ _ _ _ RUN) as (out & PL & RP). exists r', out, (stable_sort spot_le zl), zs, final. split; [exact PL|]. split; [exact TURN|]. split; [exact EX|]. cbn [clear_placed r_placed app] in RP. now rewrite <- RP.
Qed.

(* ---- free places ---- *)
Lemma whole_grid i : Z.abs (64 * i) < 16777216 -> at64 (f_of_Z f32 i) (64 * i).
Proof. intros B. apply round_grid; [|exact B]. unfold Qeq, inject_Z; cbn [Qnum Qden]. lia. Qed.
Lemma tenfold_grid f a : at64 f a -> Z.abs (10 * a) < 16777216 -> at64 (mul32 f (fl 10)) (10 * a).
Proof. intros (p & -> & P) B. cbn [mul32 f_mul fl]. apply round_grid; [|exact B]. rewrite P. unfold Qeq, Qmult, inject_Z; cbn [Qnum Qden]. lia. Qed.
Lemma offset_grid i : 0 <= i < 20 -> at64 (mul32 (f_of_Z f32 i) (fl 10)) (640 * i).
Proof. intros B. replace (640 * i) with (10 * (64 * i)) by lia. apply tenfold_grid; [apply whole_grid; lia|lia]. Qed.
Lemma check_grid b z existing zs : rect_is b z -> within 4194304 z -> Forall2 rect_is existing zs -> Forall modest_rect zs -> check_collision b existing = false <-> (forall o, In o zs -> apart_by 0 o z).
Proof.
  intros B LZ F LO. unfold check_collision. induction F as [|e o l l' EO F IH]; cbn [existsb]; [split; [intros _ o []|reflexivity]|]. inversion LO as [|? ? LO1 LO2]; subst. rewrite orb_false_iff, (IH LO2).
  destruct LZ as (? & ? & ? & ?). destruct LO1 as (? & ? & ? & ?). unfold modest in *. rewrite (intersects_grid _ _ _ _ B EO) by lia.
  assert (K : meets 0 z o = false <-> apart_by 0 o z) by (unfold meets, apart_by; lia). rewrite K. split; [intros [A C] q [<-|I]; auto|]. intros A. split; [apply A; now left|]. intros q I. apply A. now right.
Qed.
Lemma first_some_ok {A} existing z bottom (f : A -> option float) (g : A -> bool * Z) : forall l, (forall a, In a l -> match f a with Some y => acceptable existing z bottom (g a) /\ at64 y (snd (g a)) | None => ~ acceptable existing z bottom (g a) end) ->
  forall rest, match first_some f l with
  | Some y => exists a, at64 y a /\ first_acceptable existing z bottom (map g l ++ rest) (Some a)
  | None => forall o, first_acceptable existing z bottom rest o -> first_acceptable existing z bottom (map g l ++ rest) o
  end.
Proof.
  induction l as [|a l IH]; intros H rest; cbn [first_some map app]; [auto|]. pose proof (H a (or_introl eq_refl)) as HA. destruct (f a) as [y|].
  - destruct HA as [HA E]. exists (snd (g a)). split; [exact E|]. now constructor.
  - specialize (IH (fun x I => H x (or_intror I)) rest). destruct (first_some f l) as [y|]; [destruct IH as (c & E & IH); exists c; split; [exact E|now constructor 3]|]. intros o FA. constructor 3; auto.
Qed.
Lemma steps_in from n i : In i (steps from n) -> from <= i < from + Z.of_nat n.
Proof. unfold steps. intros I. apply in_map_iff in I. destruct I as (k & <- & I). apply in_seq in I. lia. Qed.
Lemma free_ok b z existing zs bounds bottom : rect_is b z -> modest_rect z -> Forall2 rect_is existing zs -> Forall modest_rect zs -> at64 (b_h bounds) bottom ->
  exists o, first_acceptable zs z bottom (candidates (y_of z)) o /\ match find_free_position b existing bounds, o with Some (x, y), Some c => at64 x (x_of z) /\ at64 y c | None, None => True | _, _ => False end.
Proof.
  intros B LZ F LO HB. assert (LZ' := LZ). destruct LZ' as (LX & LY & LW & LHH). unfold modest in LX, LY. destruct B as (BX & BY & BW & BH).
  assert (AT : forall f y, at64 f y -> rect_is (with_y b f) (at_y z y)) by (intros f y A; exact (conj BX (conj A (conj BW BH)))).
  assert (DOWN : forall i, In i (steps 0 20) -> match try_down b existing bounds i with Some y => acceptable zs z bottom (true, y_of z + 640 * i) /\ at64 y (snd (true, y_of z + 640 * i)) | None => ~ acceptable zs z bottom (true, y_of z + 640 * i) end).
  { intros i I. apply steps_in in I. change (0 + Z.of_nat 20) with 20 in I. unfold try_down. pose proof (add_grid _ _ _ _ BY (offset_grid i I) ltac:(lia)) as Y. set (y := add32 (b_y b) _) in *. clearbody y. pose proof (add_grid _ _ _ _ Y BH ltac:(lia)) as S.
    rewrite (le_grid _ _ _ _ S HB). unfold acceptable. cbn [fst snd]. pose proof (check_grid _ _ _ _ (AT _ _ Y) ltac:(unfold within, at_y, modest; cbn [x_of y_of w_of h_of]; lia) F LO) as C.
    destruct (_ <=? bottom) eqn:E; cbn [andb]; [|intros [K _]; lia]. destruct (check_collision _ _); cbn [negb]; [intros [_ K]; apply C in K; discriminate|]. split; [split; [lia|now apply C]|exact Y]. }
  assert (UP : forall i, In i (steps 1 19) -> match try_up b existing i with Some y => acceptable zs z bottom (false, y_of z - 640 * i) /\ at64 y (snd (false, y_of z - 640 * i)) | None => ~ acceptable zs z bottom (false, y_of z - 640 * i) end).
  { intros i I. apply steps_in in I. change (1 + Z.of_nat 19) with 20 in I. unfold try_up. pose proof (sub_grid _ _ _ _ BY (offset_grid i ltac:(lia)) ltac:(lia)) as Y. set (y := sub32 (b_y b) _) in *. clearbody y.
    rewrite (le_grid _ _ _ _ (fl_grid 0) Y). unfold acceptable. cbn [fst snd]. pose proof (check_grid _ _ _ _ (AT _ _ Y) ltac:(unfold within, at_y, modest; cbn [x_of y_of w_of h_of]; lia) F LO) as C.
    destruct (_ <=? _) eqn:E; cbn [andb]; [|intros [K _]; lia]. destruct (check_collision _ _); cbn [negb]; [intros [_ K]; apply C in K; discriminate|]. split; [split; [lia|now apply C]|exact Y]. }
  unfold find_free_position, candidates. pose proof (first_some_ok zs z bottom _ _ _ DOWN (map (fun i => (false, y_of z - 640 * i)) (steps 1 19))) as D. cbv beta in D. destruct (first_some (try_down _ _ _) _) as [y|].
  { destruct D as (c & E & D). exists (Some c). split; [exact D|]. split; [exact BX|exact E]. }
  pose proof (first_some_ok zs z bottom _ _ _ UP []) as U. cbv beta in U. rewrite app_nil_r in U. destruct (first_some (try_up _ _) _) as [y|].
  - destruct U as (c & E & U). exists (Some c). split; [apply D; exact U|]. split; [exact BX|exact E].
  - exists None. split; [|exact I]. apply D. apply U. constructor.
Qed.

(* ---- the area two boxes share ---- *)
Lemma area_pos a b r s : rect_is a r -> rect_is b s -> modest_rect r -> modest_rect s -> 0 < w_of r -> 0 < h_of r -> 0 < w_of s -> 0 < h_of s ->
  let xo := Z.min (x_of r + w_of r) (x_of s + w_of s) - Z.max (x_of r) (x_of s) in let yo := Z.min (y_of r + h_of r) (y_of s + h_of s) - Z.max (y_of r) (y_of s) in
  (f_lt (fl 0) (overlap_area a b) = true <-> ~ apart_by 0 r s) /\ (xo * yo < 16777216 -> ~ apart_by 0 r s -> exists q, overlap_area a b = Fin q /\ (q == (xo * yo) # 4096)%Q).
Proof.
  intros (X & Y & W & H) (X' & Y' & W' & H') (LX & LY & LW & LH) (LX' & LY' & LW' & LH') P1 P2 P3 P4 xo yo. unfold modest in *.
  pose proof (sub_grid _ _ _ _ (min_grid _ _ _ _ (add_grid _ _ _ _ X W ltac:(lia)) (add_grid _ _ _ _ X' W' ltac:(lia))) (max_grid _ _ _ _ X X') ltac:(lia)) as XO. fold xo in XO.
  pose proof (sub_grid _ _ _ _ (min_grid _ _ _ _ (add_grid _ _ _ _ Y H ltac:(lia)) (add_grid _ _ _ _ Y' H' ltac:(lia))) (max_grid _ _ _ _ Y Y') ltac:(lia)) as YO. fold yo in YO.
  assert (AP : apart_by 0 r s <-> xo <= 0 \/ yo <= 0) by (unfold apart_by, xo, yo; lia). clearbody xo yo. unfold overlap_area. set (fx := sub32 (f_min _ _) _) in *. set (fy := sub32 (f_min (add32 (b_y a) _) _) _) in *. clearbody fx fy.
  rewrite (lt_grid _ _ _ _ (fl_grid 0) XO), (lt_grid _ _ _ _ (fl_grid 0) YO). destruct ((64 * 0 <? xo) && (64 * 0 <? yo)) eqn:C.
  - assert (xo > 0 /\ yo > 0) as [PX PY] by lia. destruct XO as (p & -> & EP), YO as (q & -> & EQ). cbn [mul32 f_mul]. assert (EM : (p * q == (xo * yo) # 4096)%Q) by (rewrite EP, EQ; unfold Qeq, Qmult; cbn [Qnum Qden]; lia). split.
    + split; [intros _; rewrite AP; lia|]. intros _.
      assert (REP : representable f32 (1 # 4096)). { split; [reflexivity|]. exists 1, (-12). split; [cbn; lia|]. split; [cbn; lia|reflexivity]. }
      destruct (round_exact f32 f32_valid _ REP) as (v & RV & EV). pose proof (round_mono f32 f32_valid (1 # 4096) (p * q)) as MONO. rewrite RV in MONO. assert (L1 : (1 # 4096 <= p * q)%Q) by (rewrite EM; unfold Qle; cbn [Qnum Qden]; nia). specialize (MONO L1).
      destruct (round_to f32 (p * q)) as [|[]|w]; cbn [f_le] in MONO; try discriminate; [reflexivity|]. unfold f_lt, fl. cbn [f_le]. apply Qle_bool_iff in MONO. rewrite EV in MONO. assert (PW : (0 < w)%Q) by (eapply Qlt_le_trans; [|exact MONO]; reflexivity).
      apply andb_true_iff. split; [apply Qle_bool_iff; change (inject_Z 0) with 0%Q; now apply Qlt_le_weak|]. apply negb_true_iff, not_true_iff_false. rewrite Qle_bool_iff. change (inject_Z 0) with 0%Q. intros K. apply (Qlt_not_le _ _ PW K).
    + intros SM _. rewrite (round_wd f32 f32_valid _ _ EM).
      assert (REP : representable f32 ((xo * yo) # 4096)). { split; [apply Qlt_trans with (inject_Z 16777216); [|reflexivity]; apply Qabs_Qlt_condition; unfold Qlt, inject_Z; cbn [Qnum Qden Qopp]; nia|].
        exists (xo * yo), (-12). split; [cbn; lia|]. split; [cbn [f32 fm_prec]; change (2 ^ 24) with 16777216; nia|]. change (2 ^ (-12))%Q with (1 # 4096)%Q. unfold Qeq, Qmult, inject_Z; cbn [Qnum Qden]. lia. }
      destruct (round_exact f32 f32_valid _ REP) as (v & RV & EV). now exists v.
  - split; [|intros _ NA; exfalso; apply NA, AP; lia]. split; [intros K; vm_compute in K; discriminate|]. intros NA. exfalso. apply NA, AP. lia.
Qed.
