(* C144-C147: animation tracks and their controller. *)
From Verif Require Import Base BaseLemmas FloatModel FloatSpec FloatProofs CollideModel CollideProofs NumSpec ColorSpec ColorProofs SegmentModel AnimModel AnimSpec AnimProofs AnimFields ParseModel ShowModel TrackModel TrackSpec AnimProps TrackProofs.
Open Scope Q_scope.

(* ---- C144: how far a track has come ---- *)
Theorem track_waits m t now : (now <= ti_start t)%N -> progress m t now = Fin 0.
Proof. intros H. unfold progress. destruct (N.leb_spec now (ti_start t)); [reflexivity|lia]. Qed.
Theorem track_ends m t now : (ti_start t < now)%N -> (ti_end t <= now)%N -> progress m t now = Fin 1.
Proof. intros H E. unfold progress. destruct (N.leb_spec now (ti_start t)); [lia|]. destruct (N.leb_spec (ti_end t) now); [reflexivity|lia]. Qed.
Theorem track_within m t now : tame m (ti_accel t) -> (ti_end t < 2 ^ 32)%N -> unit_num (progress m t now).
Proof. exact (t_unit m t now). Qed.
Theorem track_grows m t now later : tame m (ti_accel t) -> (ti_end t < 2 ^ 32)%N -> (now <= later)%N -> num_le (progress m t now) (progress m t later).
Proof. exact (t_mono m t now later). Qed.
Theorem track_share m t now : (ti_start t < now < ti_end t)%N -> (ti_end t - ti_start t <= 16777216)%N ->
  (near (ti_accel t) 1 -> close_to (2 ^ (-25)) (progress m t now) (passed t now)) /\
  (far (ti_accel t) 1 -> exists x, close_to (2 ^ (-25)) x (passed t now) /\ progress m t now = m_pow m x (ti_accel t)).
Proof.
  intros H L. unfold progress, passed, Zq. destruct (N.leb_spec now (ti_start t)); [lia|]. destruct (N.leb_spec (ti_end t) now); [lia|]. unfold ratio, f_of_N.
  destruct (share_err (Z.of_N (now - ti_start t)) (Z.of_N (ti_end t - ti_start t)) ltac:(lia) ltac:(lia)) as (v & E & _ & V). rewrite E. change (fl 1) with (Fin 1).
  rewrite !N2Z.inj_sub in V by lia. split; intros A.
  - rewrite (near_about _ _ 2 A); [exists v; now split|reflexivity|lia].
  - rewrite (far_not _ _ A). exists (Fin v). split; [exists v; now split|reflexivity].
Qed.
Definition half_time : timing := Timing 100 500 (Fin 1).
Example track_share_ex : near (ti_accel half_time) 1 /\ progress plain_math half_time 200 = Fin (1 # 4) /\ progress plain_math half_time 100 = Fin 0 /\ progress plain_math half_time 500 = Fin 1.
Proof. split; [exists 1; split; reflexivity|]. repeat split; vm_compute; reflexivity. Qed.
Example track_within_ex : tame plain_math (Fin 2) /\ unit_num (progress plain_math (Timing 100 500 (Fin 2)) 200).
Proof.
  assert (T : tame plain_math (Fin 2)). { split; [reflexivity|]. split; [intros t U; exact U|intros t u _ _ L; exact L]. }
  split; [exact T|]. apply track_within; [exact T|vm_compute; reflexivity].
Qed.

(* ---- C145: what a track shows ---- *)
Theorem track_first m k now : sound_value (tk_value k) -> (now <= ti_start (tk_timing k))%N -> exists r, evaluate m k now = Done r /\ first_value (tk_value k) r.
Proof. intros S H. unfold evaluate. rewrite track_waits by exact H. rewrite (interpolate_clamp _ _ 0 (ease_0 _) (ease_0 Linear)). now apply value_first. Qed.
Theorem track_last m k now : sound_value (tk_value k) -> (ti_start (tk_timing k) < now)%N -> (ti_end (tk_timing k) <= now)%N -> exists r, evaluate m k now = Done r /\ last_value (tk_value k) r.
Proof. intros S H H'. unfold evaluate. rewrite track_ends by assumption. rewrite (interpolate_clamp _ _ 1 (ease_1 _) (ease_1 Linear)). now apply value_last. Qed.
Theorem track_between m k now : sound_value (tk_value k) -> tame m (ti_accel (tk_timing k)) -> (ti_end (tk_timing k) < 2 ^ 32)%N ->
  exists r, evaluate m k now = Done r /\ value_between (tk_value k) r.
Proof.
  intros S T B. destruct (t_unit m (tk_timing k) now T B) as (p & E & P). unfold evaluate. rewrite E. destruct (ease_is (tk_easing k) p P) as (r & R & RB & _). exact (value_inside _ _ _ S R RB).
Qed.
(* the three curves *)
Theorem track_curve e p : 0 <= p <= 1 -> exists r, clamp01 (ease e (Fin p)) = Fin r /\ 0 <= r <= 1 /\ Qabs (r - curve e p) <= 2 ^ (-18).
Proof. exact (ease_is e p). Qed.
Theorem track_eased m k now : unit_num (progress m (tk_timing k) now) ->
  exists p r, progress m (tk_timing k) now = Fin p /\ 0 <= r <= 1 /\ Qabs (r - curve (tk_easing k) p) <= 2 ^ (-18) /\ evaluate m k now = interpolate (tk_value k) (Fin r).
Proof.
  intros (p & E & P). destruct (ease_is (tk_easing k) p P) as (r & R & RB & RC). exists p, r. split; [exact E|]. split; [exact RB|]. split; [exact RC|]. unfold evaluate. rewrite E. apply interpolate_clamp; [exact R|].
  destruct (clamp_fin r) as (q & -> & _ & Q0 & _). now rewrite Q0.
Qed.
(* integers: within one, and a little, of the exact value *)
Theorem integer_blend a b p k : is_i32 a -> is_i32 b -> 0 <= p <= 1 -> (Z.abs (b - a) <= 16777216)%Z -> inject_Z (Z.abs (b - a)) < 2 ^ k -> (-100 <= k <= 100)%Z ->
  exists z, interpolate (AInteger a b) (Fin p) = Done (RInteger z) /\ (Z.min a b <= z <= Z.max a b)%Z /\ Qabs (Zq z - (Zq a + (Zq b - Zq a) * p)) <= 1 + 2 ^ (k - 25).
Proof.
  intros A B P D K KB. destruct (int_blend a b p k A B P D K KB) as (z & E & Z1 & Z2). exists z. unfold interpolate. destruct (clamp_fin p) as (r & -> & _ & R & _). rewrite (R P), E. split; [reflexivity|]. now split.
Qed.
Theorem integer_panics a b p : is_i32 a -> is_i32 b -> ~ is_i32 (b - a) -> interpolate (AInteger a b) p = Crash.
Proof.
  intros A B D. unfold interpolate, blend_int. destruct (i32_ok (b - a)) eqn:E; [|reflexivity]. exfalso. apply D. unfold i32_ok in E. apply andb_prop in E as [E1 E2]. apply Z.leb_le in E1, E2. now split.
Qed.
Example integer_panics_ex : is_i32 (-2000000000) /\ is_i32 2000000000 /\ ~ is_i32 (2000000000 - -2000000000).
Proof. unfold is_i32. repeat split; try lia. Qed.
Definition grow_track : track := Track (lit "fs") half_time (AFloat (Fin 20) (Fin 30)) Smooth.
Example track_ends_ex : sound_value (tk_value grow_track) /\ evaluate plain_math grow_track 100 = Done (RFloat (Fin 20)) /\ evaluate plain_math grow_track 300 = Done (RFloat (Fin 25)) /\ evaluate plain_math grow_track 900 = Done (RFloat (Fin 30)).
Proof.
  split; [|repeat split; vm_compute; reflexivity]. apply sv_float. split; [apply (int_fits 20); lia|]. split; [apply (int_fits 30); lia|apply (int_fits 10); lia].
Qed.
Example integer_blend_ex : interpolate (AInteger 255 0) (Fin (1 # 2)) = Done (RInteger 128) /\ inject_Z (Z.abs (0 - 255)) < 2 ^ 8.
Proof. split; vm_compute; reflexivity. Qed.
(* a difference that i32 holds can still overflow at the end *)
Theorem integer_end_refuted : ~ (forall a b, is_i32 a -> is_i32 b -> is_i32 (b - a) -> interpolate (AInteger a b) (Fin 1) <> Crash).
Proof. intros H. apply (H 1%Z 2147483647%Z); [unfold is_i32; lia|unfold is_i32; lia|unfold is_i32; lia|vm_compute; reflexivity]. Qed.
(* and above 2^24 the end may be missed *)
Theorem integer_target_refuted : ~ (forall a b, is_i32 a -> is_i32 b -> is_i32 (b - a) -> interpolate (AInteger a b) (Fin 1) = Crash \/ interpolate (AInteger a b) (Fin 1) = Done (RInteger b)).
Proof. intros H. destruct (H 0%Z 16777217%Z) as [E|E]; [unfold is_i32; lia|unfold is_i32; lia|unfold is_i32; lia|vm_compute in E; discriminate E|vm_compute in E; discriminate E]. Qed.

(* ---- C146: the state of all tracks ---- *)
Theorem controller_panics m ts now : controller_evaluate m ts now = Crash <-> exists k, In k ts /\ evaluate m k now = Crash.
Proof.
  unfold controller_evaluate. destruct (evaluate_runs m now ts []) as [(X & ->)|(rs & s' & F & -> & _)]; [now split|]. split; [discriminate|]. intros (k & I & E). exfalso.
  induction F as [|k' r l l' H F IH]; [destruct I|]. destruct I as [->|I]; [congruence|now apply IH].
Qed.
(* each property has the value of the last track that names it *)
Theorem controller_last m ts1 k ts2 now s : controller_evaluate m (ts1 ++ k :: ts2) now = Done s -> (forall x, In x ts2 -> tk_property x <> tk_property k) ->
  exists r, evaluate m k now = Done r /\ get_property s (tk_property k) = Some r.
Proof.
  unfold controller_evaluate. intros E H. destruct (evaluate_runs m now (ts1 ++ k :: ts2) []) as [(_ & X)|(rs & s' & F & X & G)]; rewrite E in X; [discriminate|]. injection X as <-.
  apply Forall2_app_inv_l in F as (r1 & r2 & F1 & F2 & ->). inversion F2 as [|? r ? r3 K F3]; subst. exists r. split; [exact K|]. rewrite G, fold_last.
  assert (L : List.length ts1 = List.length r1) by (clear -F1; induction F1; cbn; congruence).
  assert (CA : forall (a : list track) (b : list anim_result) x y c d, List.length a = List.length b -> combine (a ++ x :: c) (b ++ y :: d) = combine a b ++ (x, y) :: combine c d).
  { intros a. induction a as [|u a IH]; intros [|w b] x y c d Q0; try discriminate Q0; [reflexivity|]. cbn in *. f_equal. apply IH. now injection Q0. }
  rewrite CA by exact L. rewrite filter_app, rev_app_distr. cbn [filter fst]. rewrite str_eqb_refl.
  assert (N0 : filter (fun x => str_eqb (tk_property (fst x)) (tk_property k)) (combine ts2 r3) = []).
  { clear -H. revert r3. induction ts2 as [|x l IH]; intros [|r r3]; try reflexivity. cbn [combine filter fst]. destruct (str_eqb (tk_property x) (tk_property k)) eqn:E.
    - apply str_eqb_eq in E. exfalso. apply (H x); [now left|exact E]. - apply IH. intros y I. apply H. now right. }
  rewrite N0. reflexivity.
Qed.
Theorem controller_none m ts now s n : controller_evaluate m ts now = Done s -> (get_property s n = None <-> forall k, In k ts -> tk_property k <> n).
Proof.
  intros E. split.
  - intros G k I <-. assert (X : exists ts1 k' ts2, ts = ts1 ++ k' :: ts2 /\ tk_property k' = tk_property k /\ forall x, In x ts2 -> tk_property x <> tk_property k').
    { clear E G. induction ts as [|a l IH]; [destruct I|]. destruct (in_dec (list_eq_dec N.eq_dec) (tk_property k) (map tk_property l)) as [J|J].
      - apply in_map_iff in J as (y & Ey & Iy). destruct (existsb (fun x => str_eqb (tk_property x) (tk_property k)) l) eqn:EX.
        + assert (Q0 : exists z, In z l /\ tk_property z = tk_property k) by (exists y; now split). clear -Q0. destruct Q0 as (z & Iz & Ez). rewrite <- Ez. clear Ez k.
          assert (W : forall l : list track, In z l -> exists t1 k' t2, l = t1 ++ k' :: t2 /\ tk_property k' = tk_property z /\ forall x, In x t2 -> tk_property x <> tk_property k').
          { clear. intros l. induction l as [|b l IH] using rev_ind; [intros []|]. intros I. destruct (list_eq_dec N.eq_dec (tk_property b) (tk_property z)) as [Q1|Q1].
            - exists l, b, []. split; [reflexivity|]. split; [exact Q1|intros x []].
            - apply in_app_or in I as [I|[->|[]]]; [|congruence]. destruct (IH I) as (t1 & k' & t2 & -> & K1 & K2). exists t1, k', (t2 ++ [b]). split; [now rewrite <- app_assoc|]. split; [exact K1|]. intros x J. apply in_app_or in J as [J|[<-|[]]]; [now apply K2|congruence]. }
          destruct (W l Iz) as (t1 & k' & t2 & -> & K1 & K2). exists (a :: t1), k', t2. now split.
        + exfalso. assert (existsb (fun x => str_eqb (tk_property x) (tk_property k)) l = true) by (apply existsb_exists; exists y; split; [exact Iy|now apply str_eqb_eq]). congruence.
      - exists [], a, l. split; [reflexivity|]. destruct I as [->|I]; [|exfalso; apply J; now apply in_map]. split; [reflexivity|]. intros x Ix Ex. apply J. rewrite <- Ex. now apply in_map. }
    destruct X as (ts1 & k' & ts2 & -> & K1 & K2). destruct (controller_last _ _ _ _ _ _ E K2) as (r & _ & R). rewrite K1 in R. congruence.
  - intros H. unfold controller_evaluate in E. destruct (evaluate_runs m now ts []) as [(_ & X)|(rs & s' & F & X & G)]; rewrite E in X; [discriminate|]. injection X as <-. rewrite G, fold_last.
    replace (filter (fun x => str_eqb (tk_property (fst x)) n) (combine ts rs)) with (@nil (track * anim_result)); [reflexivity|]. symmetry. clear -H. revert rs. induction ts as [|x l IH]; intros [|r rs]; try reflexivity. cbn [combine filter fst].
    destruct (str_eqb (tk_property x) n) eqn:Q0; [apply str_eqb_eq in Q0; exfalso; apply (H x); [now left|exact Q0]|]. apply IH. intros y I. apply H. now right.
Qed.
Theorem active_exact ts now k : In k (active_tracks ts now) <-> In k ts /\ (ti_start (tk_timing k) <= now <= ti_end (tk_timing k))%N.
Proof. unfold active_tracks, in_span. rewrite filter_In, andb_true_iff, !N.leb_le. reflexivity. Qed.
Theorem active_some ts now : is_active ts now = true <-> exists k, In k ts /\ (ti_start (tk_timing k) <= now <= ti_end (tk_timing k))%N.
Proof. unfold is_active. rewrite existsb_exists. unfold in_span. split; intros (k & I & H); exists k; (split; [exact I|]); [rewrite andb_true_iff, !N.leb_le in H|rewrite andb_true_iff, !N.leb_le]; exact H. Qed.
(* the readers of the state *)
Theorem state_readers s :
  (forall x, state_font_size s = Some x <-> get_property s (lit "fs") = Some (RFloat x)) /\
  (forall x, state_rotation s = Some x <-> get_property s (lit "frz") = Some (RFloat x)) /\
  (forall c, state_color s = Some c <-> get_property s (lit "c") = Some (RColor c)) /\
  (forall x y, state_scale s = Some (x, y) <->
     (get_property s (lit "fscx") = Some (RFloat x) \/ ((forall v, get_property s (lit "fscx") <> Some (RFloat v)) /\ x = Fin 100)) /\
     (get_property s (lit "fscy") = Some (RFloat y) \/ ((forall v, get_property s (lit "fscy") <> Some (RFloat v)) /\ y = Fin 100)) /\
     exists v, get_property s (lit "fscx") = Some (RFloat v) \/ get_property s (lit "fscy") = Some (RFloat v)).
Proof.
  assert (F : forall o x, float_of o = Some x <-> o = Some (RFloat x)). { intros [[]|] y; cbn [float_of]; split; congruence. }
  split; [intros x; apply F|]. split; [intros x; apply F|]. split.
  - intros c. unfold state_color. destruct (get_property s (lit "c")) as [[]|]; split; congruence.
  - intros x y. unfold state_scale. assert (G : forall o, float_of o = None <-> forall v, o <> Some (RFloat v)). { intros [[]|]; cbn [float_of]; split; try congruence; intros H; exfalso; now apply (H x0). }
    change (fl 100) with (Fin 100).
    destruct (float_of (get_property s (lit "fscx"))) as [a|] eqn:EA, (float_of (get_property s (lit "fscy"))) as [b|] eqn:EB; (apply F in EA || pose proof (proj1 (G _) EA) as EA'); (apply F in EB || pose proof (proj1 (G _) EB) as EB').
    + rewrite EA, EB. split; [intros [= <- <-]; split; [now left|split; [now left|exists a; now left]]|]. intros ([H|[H _]] & [H'|[H' _]] & _); try congruence; exfalso; (now apply (H a) || now apply (H' b)).
    + rewrite EA. split; [intros [= <- <-]; split; [now left|split; [now right|exists a; now left]]|]. intros ([H|[H _]] & [H'|[_ H']] & _); try (exfalso; now apply EB' in H'); try congruence; exfalso; now apply (H a).
    + rewrite EB. split; [intros [= <- <-]; split; [now right|split; [now left|exists b; now right]]|]. intros ([H|[_ H]] & [H'|[H' _]] & _); try (exfalso; now apply EA' in H); try congruence; exfalso; now apply (H' b).
    + split; [discriminate|]. intros (_ & _ & v & [H|H]); exfalso; [now apply EA' in H|now apply EB' in H].
Qed.
Definition shrink_track : track := Track (lit "fs") (Timing 200 600 (Fin 1)) (AFloat (Fin 50) (Fin 10)) Linear.
Definition fade_track : track := Track (lit "alpha") half_time (AInteger 255 0) Linear.
Example controller_ex : exists s, controller_evaluate plain_math [grow_track; fade_track; shrink_track] 400 = Done s /\ state_font_size s = Some (Fin 30) /\ get_property s (lit "alpha") = Some (RInteger 64) /\ state_scale s = None /\
  map tk_property (active_tracks [grow_track; fade_track; shrink_track] 150) = [lit "fs"; lit "alpha"].
Proof. eexists [(lit "fs", RFloat (Fin 30)); (lit "alpha", RInteger 64)]. repeat split; vm_compute; reflexivity. Qed.
Example controller_panics_ex : controller_evaluate plain_math [Track (lit "alpha") half_time (AInteger (-2000000000) 2000000000) Linear] 0 = Crash.
Proof. vm_compute. reflexivity. Qed.
(* a later track overrides an earlier one before it has even started *)
Theorem waiting_track_refuted : ~ (forall m ts now s n k, controller_evaluate m ts now = Done s -> active_tracks ts now = [k] -> tk_property k = n -> exists r, evaluate m k now = Done r /\ get_property s n = Some r).
Proof.
  intros H. destruct (H plain_math [grow_track; shrink_track] 150%N [(lit "fs", RFloat (Fin 50))] (lit "fs") grow_track) as (r & E & G); [vm_compute; reflexivity|vm_compute; reflexivity|reflexivity|].
  vm_compute in E, G. rewrite <- E in G || (injection E as <-; injection G as G; discriminate G).
Qed.

(* ---- C147: tracks from a \t tag ---- *)
Theorem tag_tracks ts g start fin ts' : add_from_tag ts g start fin = Done ts' <->
  exists a b gs, tag_span g start fin a b /\ (forall s k, In s (at_modifiers g) -> kind_is s k -> ~ crossed s) /\
    Forall2 (modifier_gives (Timing a b (match at_accel g with Some x => x | None => Fin 1 end))) (at_modifiers g) gs /\ ts' = ts ++ concat gs.
Proof.
  unfold add_from_tag, tag_span, add_time, u32_max. set (acc := match at_accel g with Some x => x | None => Fin 1 end). replace (or_else (at_accel g) (fl 1)) with acc by reflexivity.
  split.
  - destruct (N.ltb_spec 4294967295 (start + or_else (at_t1 g) 0%N)); [discriminate|]. destruct (N.ltb_spec fin start); [discriminate|]. destruct (N.ltb_spec 4294967295 (start + or_else (at_t2 g) (fin - start)%N)); [discriminate|].
    set (t := Timing _ _ acc). destruct (modifiers_are t (at_modifiers g) ts) as [(_ & ->)|(X & gs & F & ->)]; [discriminate|]. intros [= <-]. exists (ti_start t), (ti_end t), gs. unfold t in *. cbn [ti_start ti_end] in *.
    split; [|split; [|split; [exact F|reflexivity]]].
    + split; [assumption|]. split; [unfold or_else; destruct (at_t1 g); lia|]. unfold or_else in *. destruct (at_t2 g); (split; [lia|]; split; lia).
    + intros s k I K C. apply X. apply Exists_exists. exists s. split; [exact I|]. split; [exact C|now exists k].
  - intros (a & b & gs & (L & -> & B & A1 & B1) & C & F & ->). destruct (N.ltb_spec 4294967295 (start + or_else (at_t1 g) 0%N)) as [G|G]; [unfold or_else in G; destruct (at_t1 g); lia|]. destruct (N.ltb_spec fin start); [lia|].
    assert (B2 : (start + or_else (at_t2 g) (fin - start)%N)%N = b) by (unfold or_else; destruct (at_t2 g); lia). rewrite B2. destruct (N.ltb_spec 4294967295 b); [lia|].
    replace (or_else (at_t1 g) 0%N) with (match at_t1 g with Some t => t | None => 0 end)%N by (destruct (at_t1 g); reflexivity).
    set (t := Timing _ b acc) in *. destruct (modifiers_are t (at_modifiers g) ts) as [(X & _)|(X & gs' & F' & ->)].
    + exfalso. apply Exists_exists in X as (s & I & Cs & k & K). exact (C s k I K Cs).
    + f_equal. f_equal. f_equal. clear -F F' C. revert gs' F'. induction F as [|s l ms gs G F IH]; intros gs' F'; inversion F' as [|? l' ? gs2 G' F2]; subst; [reflexivity|]. f_equal.
      * eapply gives_fun; [exact G'|exact G|]. intros [Cs [k K]]. apply (C s k); [now left|exact K|exact Cs].
      * apply IH; [|exact F2]. intros s0 k0 I. apply C. now right.
Qed.
Theorem tag_panics ts g start fin : add_from_tag ts g start fin = Crash <->
  (fin < start)%N \/ (2 ^ 32 <= start + match at_t1 g with Some t => t | None => 0 end)%N \/ (2 ^ 32 <= match at_t2 g with Some t => start + t | None => fin end)%N \/
  exists s k, In s (at_modifiers g) /\ kind_is s k /\ crossed s.
Proof.
  unfold add_from_tag, add_time, u32_max. destruct (N.ltb_spec 4294967295 (start + or_else (at_t1 g) 0%N)) as [G|G].
  { split; [intros _|reflexivity]. right. left. unfold or_else in G. destruct (at_t1 g); lia. }
  destruct (N.ltb_spec fin start); [split; [intros _; now left|reflexivity]|]. destruct (N.ltb_spec 4294967295 (start + or_else (at_t2 g) (fin - start)%N)) as [G'|G'].
  { split; [intros _|reflexivity]. right. right. left. unfold or_else in G'. destruct (at_t2 g); lia. }
  match goal with |- add_modifiers ts ?t _ = _ <-> _ => destruct (modifiers_are t (at_modifiers g) ts) as [(X & ->)|(X & gs & F & ->)] end.
  - split; [intros _|reflexivity]. right. right. right. apply Exists_exists in X as (s & I & C & k & K). now exists s, k.
  - split; [discriminate|]. intros [H'|[H'|[H'|(s & k & I & K & C)]]].
    + lia. + unfold or_else in G. destruct (at_t1 g); lia. + unfold or_else in G'. destruct (at_t2 g); lia.
    + exfalso. apply X. apply Exists_exists. exists s. split; [exact I|]. split; [exact C|now exists k].
Qed.
Definition grow_tag : anim_tag := AnimTag (Some 50%N) None None [lit "\fs(20,40)"; lit "\c(&H0000FF&,&H80FF0000&)"; lit "\bord(1,3)"; lit "\frz(0,x)"].
Example tag_tracks_ex : let t := Timing 150 400 (Fin 1) in
  add_from_tag [] grow_tag 100 400 = Done [Track (lit "fs") t (AFloat (Fin 20) (Fin 40)) Linear; Track (lit "c") t (AColor (255, 0, 0, 255)%N (0, 0, 255, 127)%N) Linear; Track (lit "frz") t (AFloat (Fin 0) (Fin 0)) Linear] /\
  two_values (lit "\fs(20,40)") (lit "20") (lit "40") /\ kind_is (lit "\fs(20,40)") KSize.
Proof.
  split; [vm_compute; reflexivity|]. split; [|now apply (ki_s (lit "(20,40)"))].
  unfold two_values, inner. split; [exists (lit "\fs"), []; split; [reflexivity|]|]; repeat split; unfold without; vm_compute; intuition discriminate.
Qed.
Example tag_panics_ex : crossed (lit "\fs)(20,40") /\ add_from_tag [] (AnimTag None None None [lit "\fs)(20,40"]) 0 100 = Crash.
Proof.
  split; [|vm_compute; reflexivity]. exists (lit "\fs"), (lit "(20,40"). split; [reflexivity|]. unfold without. repeat split; vm_compute; intuition discriminate.
Qed.
(* the texts of colours and alphas *)
Theorem color_text d r g b : (r < 256)%N -> (g < 256)%N -> (b < 256)%N -> forallb is_hex d = true -> List.length d = 6%nat -> hex_value d = (b * 65536 + g * 256 + r)%N ->
  track_color (lit "&H" ++ d ++ lit "&") = Some (r, g, b, 255%N) /\ track_color (lit "&H" ++ d) = Some (r, g, b, 255%N) /\ track_color d = Some (r, g, b, 255%N).
Proof. intros R G B H L V. destruct (cleaned d H ltac:(destruct d; discriminate)) as (E1 & E2 & E3). unfold track_color. rewrite E1, E2, E3. pose proof (color_6 d r g b R G B H L V). auto. Qed.
Theorem color_alpha_text d r g b a : (r < 256)%N -> (g < 256)%N -> (b < 256)%N -> (a < 256)%N -> forallb is_hex d = true -> List.length d = 8%nat -> hex_value d = (a * 16777216 + b * 65536 + g * 256 + r)%N ->
  track_color (lit "&H" ++ d ++ lit "&") = Some (r, g, b, 255 - a)%N /\ track_color (lit "&H" ++ d) = Some (r, g, b, 255 - a)%N /\ track_color d = Some (r, g, b, 255 - a)%N.
Proof. intros R G B A H L V. destruct (cleaned d H ltac:(destruct d; discriminate)) as (E1 & E2 & E3). unfold track_color. rewrite E1, E2, E3. pose proof (color_8 d r g b a R G B A H L V). auto. Qed.
Theorem alpha_text d a : (a < 256)%N -> forallb is_hex d = true -> d <> [] -> hex_value d = a ->
  track_alpha (lit "&H" ++ d ++ lit "&") = Some (255 - a)%N /\ track_alpha (lit "&H" ++ d) = Some (255 - a)%N /\ track_alpha d = Some (255 - a)%N.
Proof.
  intros A H L V. destruct (cleaned d H L) as (E1 & E2 & E3). unfold track_alpha. rewrite E1, E2, E3. replace (parse_uint 255 16 d) with (Some a); [auto|]. symmetry. apply parse_uint_hex. split; [|lia]. left. split; [exact L|]. now split.
Qed.
Example color_text_ex : hex_value (lit "80FF10") = (128 * 65536 + 255 * 256 + 16)%N /\ forallb is_hex (lit "80FF10") = true /\ track_color (lit "&H80FF10&") = Some (16, 255, 128, 255)%N.
Proof. repeat split; vm_compute; reflexivity. Qed.
(* modifiers as they are written in scripts give no track *)
Theorem plain_modifier t s : without 40 s -> modifier_gives t s [] /\ parse_modifier s t = Done None.
Proof.
  intros W. assert (C : ~ crossed s) by (intros (u & r & -> & _ & _ & I); apply W; apply in_or_app; right; now right). assert (I : forall i, ~ inner s i) by (intros i (u & r & -> & _); apply W; apply in_or_app; right; now left).
  assert (G : modifier_gives t s []) by (apply mg_none; intros k _; split; [exact C|]; intros a b (J & _); now apply I in J). split; [exact G|].
  destruct (modifier_is s t) as [(X & _)|(_ & o & E & H)]; [contradiction|]. rewrite E. f_equal. apply H in G. destruct o; [discriminate|reflexivity].
Qed.
Example plain_modifier_ex : without 40 (lit "\fs40") /\ add_from_tag [] (AnimTag None None None [lit "\fs40"; lit "\c&H0000FF&"]) 0 100 = Done [].
Proof. split; [unfold without; vm_compute; intuition discriminate|vm_compute; reflexivity]. Qed.
Theorem script_modifier_refuted : ~ (forall g start fin ts, add_from_tag [] g start fin = Done ts -> In (lit "\fs40") (at_modifiers g) -> ts <> []).
Proof. intros H. apply (H (AnimTag None None None [lit "\fs40"]) 0%N 100%N []); [vm_compute; reflexivity|now left|reflexivity]. Qed.
(* other tags that begin alike are taken for these *)
Theorem other_tags_refuted : ~ (forall g start fin ts k, add_from_tag [] g start fin = Done ts -> In k ts -> tk_property k = lit "fs" -> exists r, In (lit "\fs(" ++ r) (at_modifiers g)).
Proof.
  intros H. destruct (H (AnimTag None None None [lit "\fsp(0,10)"]) 0%N 100%N [Track (lit "fs") (Timing 0 100 (Fin 1)) (AFloat (Fin 0) (Fin 10)) Linear] (Track (lit "fs") (Timing 0 100 (Fin 1)) (AFloat (Fin 0) (Fin 10)) Linear)) as (r & I); [vm_compute; reflexivity|now left|reflexivity|].
  cbn [at_modifiers] in I. destruct I as [I|[]]. discriminate I.
Qed.
(* a tag with its own end still needs the event's times in order *)
Theorem tag_times_refuted : ~ (forall g start fin, at_t2 g <> None -> at_modifiers g = [] -> (start < 1000)%N -> (forall t, at_t1 g = Some t \/ at_t2 g = Some t -> (t < 1000)%N) -> add_from_tag [] g start fin <> Crash).
Proof. intros H. apply (H (AnimTag (Some 1%N) (Some 2%N) None []) 100%N 50%N); [discriminate|reflexivity|reflexivity|intros t [E|E]; injection E as <-; reflexivity|vm_compute; reflexivity]. Qed.
Close Scope Q_scope.

Print Assumptions track_waits.
Print Assumptions track_ends.
Print Assumptions track_within.
Print Assumptions track_grows.
Print Assumptions track_share.
Print Assumptions track_first.
Print Assumptions track_last.
Print Assumptions track_between.
Print Assumptions track_curve.
Print Assumptions track_eased.
Print Assumptions integer_blend.
Print Assumptions integer_panics.
Print Assumptions integer_end_refuted.
Print Assumptions integer_target_refuted.
Print Assumptions controller_panics.
Print Assumptions controller_last.
Print Assumptions controller_none.
Print Assumptions active_exact.
Print Assumptions active_some.
Print Assumptions state_readers.
Print Assumptions waiting_track_refuted.
Print Assumptions tag_tracks.
Print Assumptions tag_panics.
Print Assumptions color_text.
Print Assumptions color_alpha_text.
Print Assumptions alpha_text.
Print Assumptions plain_modifier.
Print Assumptions script_modifier_refuted.
Print Assumptions other_tags_refuted.
Print Assumptions tag_times_refuted.
