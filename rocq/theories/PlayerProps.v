(* The player of the debug tools: what it shows, and when. *)
From Coq Require Import QArith Qabs Lqa.
From Verif Require Import Base FloatModel PlayerModel PlayerSpec PlayerProofs.
Local Open Scope nat_scope.

(* Whatever calls came before, a frame shown is a frame of the script in use, drawn for a moment in the same forty
   milliseconds as the position; it is drawn for the position itself while the cache is off. *)
Theorem player_shows X l p a c o q f t n : run X (fresh X) l = Some (p, a) -> step X p c o = Some (q, Shown X f t n) ->
  t = p_now X q /\ n = (t / 40)%N /\
  exists s u, in_use X l = Some s /\ (u / 40 = t / 40)%N /\ o_draw X s (u / 10) = Some f /\ (cache_used l = false -> u = t).
Proof. intros R S. destruct (step_fine X p l c o q (Shown X f t n) (fine_run X l p a R) S) as [_ H]. exact H. Qed.
Print Assumptions player_shows.

(* A player for tests: a script lasts as many centiseconds as it has characters, times a hundred, and a frame names its
   script and its moment. *)
Definition demo : outside := Out (str * N) (fun s => match s with [] => None | _ => Some [Some (100 * N.of_nat (List.length s))%N] end) (fun s t => Some (s, t)).
Definition two := lit "ab".
Definition five := lit "abcde".
Example player_shows_case : exists p a q, run demo (fresh demo) [(0, Load two); (0, Seek 80); (0, Render)]%N = Some (p, a) /\
  step demo p 0 Render = Some (q, Shown demo (two, 8%N) 80 2).
Proof. do 3 eexists. split; vm_compute; reflexivity. Qed.

(* With the cache on, the moment can be another than the position's: the frame at 1010 ms is the one drawn for 1000 ms. *)
Theorem cached_moment_refuted : exists X l p a q f t n, run X (fresh X) l = Some (p, a) /\ step X p 0 Render = Some (q, Shown X f t n) /\
  forall s, in_use X l = Some s -> o_draw X s (t / 10) <> Some f.
Proof.
  exists demo, [(0, Load two); (0, Seek 1000); (0, Render); (0, Seek 1010)]%N. do 6 eexists. split; [vm_compute; reflexivity|]. split; [vm_compute; reflexivity|].
  vm_compute. intros s [= <-]. discriminate.
Qed.
Print Assumptions cached_moment_refuted.

(* The cache never holds more frames than its limit, or one when the limit is zero; turned off it holds none. *)
Theorem player_cache X l p a : run X (fresh X) l = Some (p, a) ->
  List.length (p_cache X p) <= Nat.max 1 (cache_limit l) /\ (cache_used l = false -> p_cache X p = []).
Proof. intros R. destruct (fine_run X l p a R). split; [congruence|]. intros C. apply n_off. congruence. Qed.
Print Assumptions player_cache.
Example player_cache_case : exists p a, run demo (fresh demo) [(0, Load two); (0, CacheSize 1); (0, Render); (0, Seek 1000); (0, Render)]%N = Some (p, a) /\ p_cache demo p = [(1000%N, (two, 100%N))].
Proof. vm_compute. do 2 eexists. split; reflexivity. Qed.
Theorem no_cache_holds_one_refuted : exists X l p a, run X (fresh X) l = Some (p, a) /\ cache_limit l < List.length (p_cache X p).
Proof. exists demo, [(0, Load two); (0, CacheSize 0); (0, Render)]%N. vm_compute. do 2 eexists. split; [reflexivity|repeat constructor]. Qed.
Print Assumptions no_cache_holds_one_refuted.

(* Between loads the position stays within the script. *)
Theorem player_in_range X p l q a : (p_now X p <= p_end X p)%N -> forallb (fun o => negb (is_load (snd o))) l = true ->
  run X p l = Some (q, a) -> (p_now X q <= p_end X q)%N /\ p_end X q = p_end X p.
Proof. intros H L R. exact (run_range X l p q a H L R). Qed.
Print Assumptions player_in_range.
Example player_in_range_case : exists p a q b, run demo (fresh demo) [(0, Load two)]%N = Some (p, a) /\ p_now demo p = 0%N /\ p_end demo p = 2000%N /\
  run demo p [(0, Seek 9000); (0, Backward); (0, Forward); (0, Forward)]%N = Some (q, b) /\ p_now demo q = 2000%N.
Proof. do 4 eexists. split; [vm_compute; reflexivity|]. split; [vm_compute; reflexivity|]. split; [vm_compute; reflexivity|]. split; vm_compute; reflexivity. Qed.
(* A load can leave it beyond the end of the new script. *)
Theorem load_leaves_range_refuted : exists X l p a, run X (fresh X) l = Some (p, a) /\ (p_end X p < p_now X p)%N.
Proof. exists demo, [(0, Load five); (0, Seek 5000); (0, Load two)]%N. vm_compute. do 2 eexists. split; reflexivity. Qed.
Print Assumptions load_leaves_range_refuted.

(* The speed stays between a tenth (as rounded) and ten. *)
Theorem player_speed X l p a : Forall (fun o => snd o <> Speed NaN) l -> run X (fresh X) l = Some (p, a) -> exists v, p_speed X p = Fin v /\ ((1 # 11) < v <= 10)%Q.
Proof. intros F R. eapply run_speed; [|exact F|exact R]. exists 1%Q. split; [reflexivity|split; [reflexivity|discriminate]]. Qed.
Print Assumptions player_speed.
Example player_speed_case : exists p a, run demo (fresh demo) [(0, Speed (Fin (100 # 1))); (0, Faster)]%N = Some (p, a) /\ p_speed demo p = Fin 10.
Proof. vm_compute. do 2 eexists. split; reflexivity. Qed.

(* Playing: with the position set (and playing) at one moment, and nothing but updates and renders since, an update some
   time later puts the position where that time at the current speed leads, to a millisecond and a millionth of the
   distance; from the end on it stops there. *)
Theorem player_plays X l p a c o q b us q1 d ns : run X (fresh X) l = Some (p, a) -> Forall (fun o => snd o <> Speed NaN) l -> p_loop X p = false ->
  sets_position o = true -> step X p c o = Some (q, b) -> p_playing X q = true ->
  forallb (fun o => match snd o with Update | Render => true | _ => false end) us = true -> run X q us = Some (q1, d) -> p_playing X q1 = true ->
  (ns < 2 ^ 44)%N -> (p_now X q <= 4000000000)%N ->
  exists sp t, p_speed X p = Fin sp /\
    (Qabs (inject_Z (Z.of_N t) - (inject_Z (Z.of_N (p_now X q)) + played ns sp)) < 1 + (played ns sp + 1) / 1048576)%Q /\
    exists r e, step X q1 (c + ns) Update = Some (r, e) /\
      ((t < p_end X p)%N -> p_now X r = t /\ p_playing X r = true) /\
      ((p_end X p <= t)%N -> p_now X r = p_end X p /\ p_playing X r = false).
Proof.
  intros R F L S E P U R1 P1 H B. destruct (player_speed X l p a F R) as (sp & Esp & S1 & S2).
  pose proof (set_anchors X p c o q b S E P L) as A. pose proof (keeps_playing X c _ _ _ us q q1 d A U R1 P1) as A1. rewrite Esp in A1.
  assert (SP : (0 <= sp <= 10)%Q) by lra. destruct (position_near c ns sp H SP) as (t & Et & Ht).
  assert (Hp : (position c (c + ns) (p_now X q) (Fin sp) = p_now X q + t)%N) by (unfold position; rewrite Et; reflexivity).
  assert (T : (t <= 200000000)%N).
  { assert (Z1 : (played ns sp <= 17593000 * 10)%Q). { unfold played. apply Qle_trans with (17593000 * sp)%Q; [|lra]. apply Qmult_le_compat_r; [|lra]. apply Qle_shift_div_r; [lra|]. change (17593000 * 1000000)%Q with (inject_Z 17593000000000). rewrite <- Zle_Qle. change (2 ^ 44)%N with 17592186044416%N in H. lia. }
    apply Qabs_Qlt_condition in Ht. destruct Ht as [_ Ht]. set (z := played ns sp) in *. clearbody z.
    assert (Q1 : ((z + 1) / 1048576 <= 200)%Q) by (apply Qle_shift_div_r; [reflexivity|lra]).
    assert (Q2 : (inject_Z (Z.of_N t) <= inject_Z 200000000)%Q) by (change (inject_Z 200000000) with 200000000%Q; lra). rewrite <- Zle_Qle in Q2. lia. }
  exists sp, (p_now X q + t)%N. split; [exact Esp|]. split.
  { rewrite N2Z.inj_add, inject_Z_plus. setoid_replace (inject_Z (Z.of_N (p_now X q)) + inject_Z (Z.of_N t) - (inject_Z (Z.of_N (p_now X q)) + played ns sp))%Q with (inject_Z (Z.of_N t) - played ns sp)%Q by ring. exact Ht. }
  destruct (update_is X q1 c (p_now X q) (Fin sp) (p_end X p) (c + ns)%N A1) as (r & e & Eu & H1 & H2). { rewrite Hp. unfold u32_max. lia. }
  rewrite Hp in H1, H2. exists r, e. split; [exact Eu|]. split; [|exact H2]. intros Lt. destruct (H1 Lt) as [K1 K2]. split; [exact K1|apply K2].
Qed.
Print Assumptions player_plays.
Example player_plays_case : exists p a q b q1 d r e,
  run demo (fresh demo) [(0, Load five); (0, Speed (Fin 2)); (0, Seek 1000)]%N = Some (p, a) /\ step demo p 500000000 Play = Some (q, b) /\
  run demo q [(700000000, Update)]%N = Some (q1, d) /\ p_now demo q1 = 1400%N /\ p_playing demo q1 = true /\
  step demo q1 1500000000 Update = Some (r, e) /\ p_now demo r = 3000%N.
Proof. do 8 eexists. do 6 (split; [vm_compute; reflexivity|]). vm_compute; reflexivity. Qed.

(* It does not go back: of two updates, the later shows the later position. *)
Theorem player_forward X l p a c o q b us q1 d n1 n2 r1 e1 r2 e2 : run X (fresh X) l = Some (p, a) -> Forall (fun o => snd o <> Speed NaN) l -> p_loop X p = false ->
  sets_position o = true -> step X p c o = Some (q, b) -> p_playing X q = true ->
  forallb (fun o => match snd o with Update | Render => true | _ => false end) us = true -> run X q us = Some (q1, d) -> p_playing X q1 = true ->
  (n1 <= n2)%N -> (n2 < 2 ^ 44)%N ->
  step X q1 (c + n1) Update = Some (r1, e1) -> step X r1 (c + n2) Update = Some (r2, e2) -> (p_now X r1 <= p_now X r2)%N.
Proof.
  intros R F L S E P U R1 P1 H12 H2 E1 E2. destruct (player_speed X l p a F R) as (sp & Esp & S1 & S2).
  pose proof (set_anchors X p c o q b S E P L) as A. pose proof (keeps_playing X c _ _ _ us q q1 d A U R1 P1) as A1. rewrite Esp in A1.
  assert (SP : (0 <= sp <= 10)%Q) by lra. pose proof (elapsed_mono c n1 n2 sp H12 H2 SP) as M.
  assert (PM : (position c (c + n1) (p_now X q) (Fin sp) <= position c (c + n2) (p_now X q) (Fin sp))%N) by (unfold position; lia).
  cbn [step] in E1, E2.
  assert (K : forall z clock y w, anchored X z c (p_now X q) (Fin sp) (p_end X p) -> update X z clock = Some (y, w) -> (position c clock (p_now X q) (Fin sp) <= u32_max)%N).
  { intros z clock y w (B1 & B2 & B3 & B4 & B5 & B6 & B7) Eu. unfold update in Eu. rewrite B1, B3, B4, B5, B6 in Eu. cbn [negb] in Eu. unfold add_u32 in Eu. fold (position c clock (p_now X q) (Fin sp)) in Eu.
    destruct (N.leb_spec (position c clock (p_now X q) (Fin sp)) u32_max); [assumption|discriminate]. }
  destruct (update_is X q1 c (p_now X q) (Fin sp) (p_end X p) (c + n1)%N A1 (K _ _ _ _ A1 E1)) as (r & e & Eu & G1 & G2). rewrite Eu in E1. injection E1 as -> ->.
  destruct (N.lt_ge_cases (position c (c + n1) (p_now X q) (Fin sp)) (p_end X p)) as [Lt|Ge].
  - destruct (G1 Lt) as [-> A2]. destruct (update_is X r1 c (p_now X q) (Fin sp) (p_end X p) (c + n2)%N A2 (K _ _ _ _ A2 E2)) as (r' & e' & Eu2 & G3 & G4). rewrite Eu2 in E2. injection E2 as -> ->.
    destruct (N.lt_ge_cases (position c (c + n2) (p_now X q) (Fin sp)) (p_end X p)) as [Lt2|Ge2]; [destruct (G3 Lt2) as [-> _]; lia|destruct (G4 Ge2) as [-> _]; lia].
  - destruct (G2 Ge) as [_ St]. unfold update in E2. rewrite St in E2. injection E2 as <- _. lia.
Qed.
Print Assumptions player_forward.

(* A change of speed counts the time played so far twice: after one second of playing, setting the speed it already has
   moves the position to two seconds. *)
Theorem speed_jump_refuted : exists X p q r a b e, run X (fresh X) [(0, Load five); (0, Play); (1000000000, Update)]%N = Some (p, a) /\ p_speed X p = Fin 1 /\
  step X p 1000000000 (Speed (Fin 1)) = Some (q, b) /\ step X q 1000000000 Update = Some (r, e) /\ p_now X p = 1000%N /\ p_now X r = 2000%N.
Proof. exists demo. do 6 eexists. do 5 (split; [vm_compute; reflexivity|]). vm_compute; reflexivity. Qed.
Print Assumptions speed_jump_refuted.
