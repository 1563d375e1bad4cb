From Verif Require Import Base BaseLemmas UuModel UuSpec.
Ltac Zify.zify_post_hook ::= Z.div_mod_to_equations.

(* chunks *)
Lemma chunks_fuel_enough {A} k (l : list A) f g : 0 < k -> List.length l <= f -> List.length l <= g ->
  chunks_fuel f k l = chunks_fuel g k l.
Proof.
  intros Hk. revert g l. induction f as [|f IH]; intros g l Hf Hg.
  - destruct l; [|cbn in Hf; lia]. destruct g; reflexivity.
  - destruct l as [|x l]; [destruct g; reflexivity|]. destruct g as [|g]; [cbn in Hg; lia|].
    cbn [chunks_fuel]. f_equal. destruct k as [|k]; [lia|]. cbn [skipn].
    pose proof (skipn_length k l). cbn in Hf, Hg. apply IH; lia.
Qed.
Lemma chunks_nil {A} k : chunks k (@nil A) = []. Proof. reflexivity. Qed.
Lemma chunks_step {A} k (l : list A) : 0 < k -> l <> [] -> chunks k l = firstn k l :: chunks k (skipn k l).
Proof.
  intros Hk Hl. unfold chunks at 1. destruct l as [|x l]; [congruence|]. cbn [List.length chunks_fuel]. f_equal.
  unfold chunks. apply chunks_fuel_enough; [exact Hk| |lia]. destruct k as [|k]; [lia|]. cbn [skipn]. rewrite skipn_length. lia.
Qed.
Lemma chunks_app {A} k (a b : list A) : 0 < k -> List.length a = k -> chunks k (a ++ b) = a :: chunks k b.
Proof.
  intros Hk Ha. rewrite chunks_step; [|exact Hk|destruct a; [cbn in Ha; lia|discriminate]].
  rewrite firstn_app, skipn_app, Ha, Nat.sub_diag. cbn [firstn skipn].
  rewrite app_nil_r, <- Ha, firstn_all, skipn_all. reflexivity.
Qed.
Lemma chunks_short {A} k (l : list A) : l <> [] -> List.length l <= k -> chunks k l = [l].
Proof.
  intros Hl Hk. destruct l as [|x l]; [congruence|]. cbn in Hk.
  rewrite chunks_step by (try discriminate; lia).
  rewrite firstn_all2, skipn_all2 by (cbn; lia). reflexivity.
Qed.
Lemma chunks_concat {A} k (l : list A) : 0 < k -> concat (chunks k l) = l.
Proof.
  intros Hk. remember (List.length l) as n eqn:En. revert l En.
  induction n as [n IH] using lt_wf_ind. intros l En. destruct l as [|x l]; [reflexivity|].
  rewrite chunks_step by (try discriminate; lia). cbn [concat].
  rewrite (IH (List.length (skipn k (x :: l)))); [apply firstn_skipn| |reflexivity].
  rewrite skipn_length. cbn [List.length] in *. lia.
Qed.
Lemma chunks_bounds {A} k (l : list A) : 0 < k -> Forall (fun c => 1 <= List.length c <= k) (chunks k l).
Proof.
  intros Hk. remember (List.length l) as n eqn:En. revert l En.
  induction n as [n IH] using lt_wf_ind. intros l En. destruct l as [|x l]; [constructor|].
  rewrite chunks_step by (try discriminate; lia). constructor.
  - rewrite firstn_length. cbn [List.length] in *. lia.
  - apply (IH (List.length (skipn k (x :: l)))); [|reflexivity]. rewrite skipn_length. cbn [List.length] in *. lia.
Qed.

(* finite sweeps *)
Definition upto (n : nat) : list N := map N.of_nat (seq 0 n).
Lemma upto_in n x : (x < N.of_nat n)%N -> In x (upto n).
Proof. intros H. unfold upto. apply in_map_iff. exists (N.to_nat x). split; [lia|]. apply in_seq. lia. Qed.
Lemma sweep1 n (P : N -> bool) : forallb P (upto n) = true -> forall x, (x < N.of_nat n)%N -> P x = true.
Proof. intros H x Hx. rewrite forallb_forall in H. apply H, upto_in, Hx. Qed.
Lemma sweep2 n m (P : N -> N -> bool) : forallb (fun x => forallb (P x) (upto m)) (upto n) = true ->
  forall x y, (x < N.of_nat n)%N -> (y < N.of_nat m)%N -> P x y = true.
Proof. intros H x y Hx Hy. apply (sweep1 m (P x)); [|exact Hy]. exact (sweep1 n (fun x => forallb (P x) (upto m)) H x Hx). Qed.

(* the bit identities, by exhaustion over the bits involved *)
Definition e1 b0 := N.shiftr b0 2.
Definition e2 x0 x1 := N.lor (u8_shl x0 4) x1. (* x0 = b0 & 3, x1 = b1 >> 4 *)
Definition e3 x1 x2 := N.lor (u8_shl x1 2) x2. (* x1 = b1 & 15, x2 = b2 >> 6 *)
Lemma dec1 b0 x1 : (b0 < 256)%N -> (x1 < 16)%N ->
  N.lor (u8_shl (e1 b0) 2) (N.shiftr (e2 (N.land b0 3) x1) 4) = b0.
Proof.
  intros H0 H1. apply N.eqb_eq.
  apply (sweep2 256 16 (fun b0 x1 => N.lor (u8_shl (e1 b0) 2) (N.shiftr (e2 (N.land b0 3) x1) 4) =? b0)%N); [|exact H0|exact H1].
  vm_compute. reflexivity.
Qed.
Lemma dec2a x0 x1 : (x0 < 4)%N -> (x1 < 16)%N -> N.land (e2 x0 x1) 15 = x1.
Proof.
  intros H0 H1. apply N.eqb_eq. apply (sweep2 4 16 (fun x0 x1 => N.land (e2 x0 x1) 15 =? x1)%N); [|exact H0|exact H1].
  vm_compute. reflexivity.
Qed.
Lemma dec2b b1 x2 : (b1 < 256)%N -> (x2 < 4)%N ->
  N.lor (u8_shl (N.shiftr b1 4) 4) (N.shiftr (e3 (N.land b1 15) x2) 2) = b1.
Proof.
  intros H0 H1. apply N.eqb_eq.
  apply (sweep2 256 4 (fun b1 x2 => N.lor (u8_shl (N.shiftr b1 4) 4) (N.shiftr (e3 (N.land b1 15) x2) 2) =? b1)%N); [|exact H0|exact H1].
  vm_compute. reflexivity.
Qed.
Lemma dec3a x1 x2 : (x1 < 16)%N -> (x2 < 4)%N -> N.land (e3 x1 x2) 3 = x2.
Proof.
  intros H0 H1. apply N.eqb_eq. apply (sweep2 16 4 (fun x0 x1 => N.land (e3 x0 x1) 3 =? x1)%N); [|exact H0|exact H1].
  vm_compute. reflexivity.
Qed.
Lemma dec3b b2 : (b2 < 256)%N -> N.lor (u8_shl (N.shiftr b2 6) 6) (N.land b2 63) = b2.
Proof.
  intros H0. apply N.eqb_eq. apply (sweep1 256 (fun b2 => N.lor (u8_shl (N.shiftr b2 6) 6) (N.land b2 63) =? b2)%N); [|exact H0].
  vm_compute. reflexivity.
Qed.
Lemma bound1 b0 : (b0 < 256)%N -> (e1 b0 < 64)%N.
Proof. intros H. apply N.ltb_lt. apply (sweep1 256 (fun b0 => e1 b0 <? 64)%N); [vm_compute; reflexivity|exact H]. Qed.
Lemma bound2 x0 x1 : (x0 < 4)%N -> (x1 < 16)%N -> (e2 x0 x1 < 64)%N.
Proof. intros H0 H1. apply N.ltb_lt. apply (sweep2 4 16 (fun x y => e2 x y <? 64)%N); [vm_compute; reflexivity|exact H0|exact H1]. Qed.
Lemma bound3 x0 x1 : (x0 < 16)%N -> (x1 < 4)%N -> (e3 x0 x1 < 64)%N.
Proof. intros H0 H1. apply N.ltb_lt. apply (sweep2 16 4 (fun x y => e3 x y <? 64)%N); [vm_compute; reflexivity|exact H0|exact H1]. Qed.
Lemma land_lt b k : (N.land b (N.ones k) < 2 ^ k)%N.
Proof. rewrite N.land_ones. apply N.mod_lt. apply N.pow_nonzero. lia. Qed.
Lemma land3 b : (N.land b 3 < 4)%N. Proof. apply (land_lt b 2). Qed.
Lemma land15 b : (N.land b 15 < 16)%N. Proof. apply (land_lt b 4). Qed.
Lemma land63 b : (N.land b 63 < 64)%N. Proof. apply (land_lt b 6). Qed.
Lemma shr4 b : (b < 256)%N -> (N.shiftr b 4 < 16)%N.
Proof. intros H. rewrite N.shiftr_div_pow2. change (2 ^ 4)%N with 16%N. lia. Qed.
Lemma shr6 b : (b < 256)%N -> (N.shiftr b 6 < 4)%N.
Proof. intros H. rewrite N.shiftr_div_pow2. change (2 ^ 6)%N with 64%N. lia. Qed.
Lemma wsub32 x : (x < 64)%N -> u8_wsub (32 + x) 32 = x.
Proof. intros H. unfold u8_wsub. lia. Qed.
Lemma e3_0 x : e3 x 0 = u8_shl x 2.
Proof. unfold e3. apply N.lor_0_r. Qed.

(* every character of a group is 32..95 *)
Lemma group_cases (g : list N) : 1 <= List.length g <= 3 -> bytes g ->
  exists b0 b1 b2, (b0 < 256 /\ b1 < 256 /\ b2 < 256)%N /\
   ((g = [b0] /\ b1 = 0%N /\ b2 = 0%N) \/ (g = [b0; b1] /\ b2 = 0%N) \/ g = [b0; b1; b2]).
Proof.
  intros Hl Hb. destruct g as [|b0 [|b1 [|b2 [|x g]]]]; cbn in Hl; try lia.
  - inversion Hb; subst. exists b0, 0%N, 0%N. split; [lia|auto].
  - inversion Hb as [|? ? ? Hb']; subst. inversion Hb'; subst. exists b0, b1, 0%N. split; [lia|auto].
  - inversion Hb as [|? ? ? Hb']; subst. inversion Hb' as [|? ? ? Hb'']; subst. inversion Hb''; subst. exists b0, b1, b2. split; [lia|auto].
Qed.

Definition uu_char (c : N) : Prop := (32 <= c < 96)%N.

Lemma group3_eq b0 b1 b2 : uu_group [b0; b1; b2] =
  [(32 + e1 b0)%N; (32 + e2 (N.land b0 3) (N.shiftr b1 4))%N; (32 + e3 (N.land b1 15) (N.shiftr b2 6))%N; (32 + N.land b2 63)%N].
Proof. reflexivity. Qed.
Lemma group2_eq b0 b1 : uu_group [b0; b1] =
  [(32 + e1 b0)%N; (32 + e2 (N.land b0 3) (N.shiftr b1 4))%N; (32 + e3 (N.land b1 15) 0)%N; (32 + 0)%N].
Proof. reflexivity. Qed.
Lemma group1_eq b0 : uu_group [b0] =
  [(32 + e1 b0)%N; (32 + e2 (N.land b0 3) 0)%N; (32 + e3 0 0)%N].
Proof. reflexivity. Qed.

Lemma group_chars g : 1 <= List.length g <= 3 -> bytes g -> Forall uu_char (uu_group g).
Proof.
  intros Hl Hb. destruct (group_cases g Hl Hb) as (b0 & b1 & b2 & (H0 & H1 & H2) & [(-> & -> & ->)|[(-> & ->)| ->]]).
  - rewrite group1_eq. pose proof (bound1 b0 H0). pose proof (bound2 (N.land b0 3) 0 (land3 b0) ltac:(lia)).
    change (e3 0 0) with 0%N. repeat constructor; unfold uu_char; lia.
  - rewrite group2_eq. pose proof (bound1 b0 H0). pose proof (bound2 (N.land b0 3) (N.shiftr b1 4) (land3 b0) (shr4 b1 H1)).
    pose proof (bound3 (N.land b1 15) 0 (land15 b1) ltac:(lia)). repeat constructor; unfold uu_char; lia.
  - rewrite group3_eq. pose proof (bound1 b0 H0). pose proof (bound2 (N.land b0 3) (N.shiftr b1 4) (land3 b0) (shr4 b1 H1)).
    pose proof (bound3 (N.land b1 15) (N.shiftr b2 6) (land15 b1) (shr6 b2 H2)). pose proof (land63 b2). repeat constructor; unfold uu_char; lia.
Qed.

Lemma ungroup_eq x0 x1 x2 x3 : (x0 < 64)%N -> (x1 < 64)%N -> (x2 < 64)%N -> (x3 < 64)%N ->
  uu_ungroup [(32 + x0)%N; (32 + x1)%N; (32 + x2)%N; (32 + x3)%N] =
  [ N.lor (u8_shl x0 2) (N.shiftr x1 4); N.lor (u8_shl (N.land x1 15) 4) (N.shiftr x2 2); N.lor (u8_shl (N.land x2 3) 6) x3 ].
Proof. intros H0 H1 H2 H3. unfold uu_ungroup. cbn [nth]. rewrite !wsub32 by assumption. reflexivity. Qed.
Lemma ungroup3 g : List.length g = 3 -> uu_ungroup g = uu_ungroup (g ++ [32%N]).
Proof. destruct g as [|a [|b [|c [|d g]]]]; cbn; try lia. reflexivity. Qed.

Lemma ungroup_group g : 1 <= List.length g <= 3 -> bytes g ->
  firstn (List.length g) (uu_ungroup (uu_group g)) = g /\ List.length (uu_ungroup (uu_group g)) = 3.
Proof.
  intros Hl Hb. split; [|reflexivity].
  destruct (group_cases g Hl Hb) as (b0 & b1 & b2 & (H0 & H1 & H2) & [(-> & -> & ->)|[(-> & ->)| ->]]).
  - rewrite group1_eq, ungroup3 by reflexivity. cbn [app]. change 32%N with (32 + 0)%N at 4.
    rewrite ungroup_eq; [|apply bound1, H0|apply bound2; [apply land3|lia]|vm_compute; reflexivity|lia].
    cbn [List.length firstn]. f_equal. apply dec1; [exact H0|lia].
  - rewrite group2_eq.
    rewrite ungroup_eq; [|apply bound1, H0|apply bound2; [apply land3|apply shr4, H1]|apply bound3; [apply land15|lia]|lia].
    cbn [List.length firstn]. rewrite dec1, dec2a, dec2b by (try assumption; try apply land3; try apply shr4; try assumption; lia). reflexivity.
  - rewrite group3_eq.
    rewrite ungroup_eq; [|apply bound1, H0|apply bound2; [apply land3|apply shr4, H1]|apply bound3; [apply land15|apply shr6, H2]|apply land63].
    cbn [List.length firstn].
    rewrite dec1, dec2a, dec2b, dec3a, dec3b by (try assumption; try apply land3; try apply land15; try apply shr4; try apply shr6; assumption).
    reflexivity.
Qed.
Lemma group3_length g : List.length g = 3 -> List.length (uu_group g) = 4.
Proof. destruct g as [|a [|b [|c [|d g]]]]; intros H; try discriminate H. reflexivity. Qed.
Lemma group_length g : 1 <= List.length g <= 3 -> 3 <= List.length (uu_group g) <= 4.
Proof.
  destruct g as [|a [|b [|c [|d g]]]]; intros H; try (cbn in H; lia).
  - change (List.length (uu_group [a])) with 3. lia.
  - change (List.length (uu_group [a; b])) with 4. lia.
  - change (List.length (uu_group [a; b; c])) with 4. lia.
Qed.

Lemma decode_groups l : bytes l ->
  firstn (List.length l) (flat_map uu_ungroup (chunks 4 (flat_map uu_group (chunks 3 l)))) = l.
Proof.
  remember (List.length l) as n eqn:En. revert l En. induction n as [n IH] using lt_wf_ind. intros l En Hb.
  destruct (Nat.le_gt_cases n 3) as [Hle|Hgt].
  - destruct l as [|x l]; [subst; reflexivity|]. rewrite (chunks_short 3 (x :: l)) by (try discriminate; lia).
    cbn [flat_map]. rewrite app_nil_r. set (g := x :: l) in *.
    assert (Hg : 1 <= List.length g <= 3) by (rewrite <- En; unfold g in En; cbn [List.length] in En; lia).
    pose proof (group_length g Hg) as Hgl.
    rewrite chunks_short; [|destruct (uu_group g); [cbn in Hgl; lia|discriminate]|lia].
    cbn [flat_map]. rewrite app_nil_r, En. apply (ungroup_group g Hg Hb).
  - assert (E : l = firstn 3 l ++ skipn 3 l) by (symmetry; apply firstn_skipn).
    set (g := firstn 3 l) in *. set (r := skipn 3 l) in *.
    assert (Hg : List.length g = 3) by (unfold g; rewrite firstn_length; lia).
    assert (Hr : List.length r = n - 3) by (unfold r; rewrite skipn_length; lia).
    clearbody g r. subst l. apply Forall_app in Hb as [Hb1 Hb2].
    rewrite (chunks_app 3 g r) by lia. cbn [flat_map]. rewrite chunks_app by (try lia; apply group3_length, Hg).
    cbn [flat_map]. destruct (ungroup_group g ltac:(lia) Hb1) as [U1 U2].
    rewrite firstn_app, U2. rewrite Hg in U1. rewrite firstn_all2 by lia.
    rewrite <- U2 in U1. rewrite firstn_all in U1. rewrite U1. f_equal.
    apply (IH (n - 3)); [lia|symmetry; exact Hr|exact Hb2].
Qed.

Lemma line_chars chunk : 1 <= List.length chunk <= 45 -> bytes chunk -> Forall uu_char (uu_line chunk).
Proof.
  intros Hl Hb. unfold uu_line. constructor; [unfold uu_char; lia|].
  apply Forall_forall. intros c Hc. apply in_flat_map in Hc as (g & Hg & Hc).
  pose proof (chunks_bounds 3 chunk ltac:(lia)) as Hbd. rewrite Forall_forall in Hbd.
  assert (Hgb : bytes g).
  { apply Forall_forall. intros x Hx. unfold bytes in Hb. rewrite Forall_forall in Hb. apply Hb.
    rewrite <- (chunks_concat 3 chunk) by lia. apply in_concat. eauto. }
  pose proof (group_chars g (Hbd g Hg) Hgb) as Hgc. rewrite Forall_forall in Hgc. apply Hgc, Hc.
Qed.
Lemma as_bytes_ascii s : Forall (fun c => (c < 128)%N) s -> as_bytes s = s.
Proof.
  induction 1 as [|c s Hc _ IH]; [reflexivity|]. unfold as_bytes in *. cbn [flat_map]. rewrite IH. unfold utf8_char.
  destruct (N.ltb_spec c 128); [reflexivity|lia].
Qed.
Lemma drop_end_none (p : N -> bool) s : Forall (fun c => p c = false) s -> drop_end p s = s.
Proof.
  intros H. apply drop_end_id. destruct s as [|c s]; [auto|]. right.
  assert (Hn : c :: s <> []) by discriminate. destruct (exists_last Hn) as (l & x & E). rewrite E in *.
  exists l, x. split; [reflexivity|]. rewrite Forall_forall in H. apply H. apply in_or_app. right. left. reflexivity.
Qed.

Lemma line_norm chunk : 1 <= List.length chunk <= 45 -> bytes chunk ->
  drop_end is_crlf (trim_start (uu_line chunk)) = uu_line chunk.
Proof.
  intros Hl Hb. pose proof (line_chars chunk Hl Hb) as Hc.
  assert (trim_start (uu_line chunk) = uu_line chunk) as ->.
  { unfold trim_start. apply drop_while_id. unfold uu_line. unfold is_ws. lia. }
  apply drop_end_none. eapply Forall_impl; [|exact Hc]. unfold uu_char, is_crlf. intros c H. lia.
Qed.
Lemma decode_line chunk rest : 1 <= List.length chunk <= 45 -> bytes chunk ->
  decode_uu_data (uu_line chunk :: rest) = chunk ++ decode_uu_data rest.
Proof.
  intros Hl Hb. cbn [decode_uu_data]. rewrite (line_norm chunk Hl Hb).
  pose proof (line_chars chunk Hl Hb) as Hc.
  assert (Ha : as_bytes (uu_line chunk) = uu_line chunk).
  { apply as_bytes_ascii. eapply Forall_impl; [|exact Hc]. unfold uu_char. intros c H. lia. }
  rewrite Ha. clear Ha Hc. unfold uu_line at 1 2 3 4.
  set (n := List.length chunk) in *.
  assert (Hh : ((32 + N.of_nat n) =? 101)%N = false) by lia.
  assert (E1 : str_eqb ((32 + N.of_nat n)%N :: flat_map uu_group (chunks 3 chunk)) (lit "end") = false).
  { lits. cbn [str_eqb]. rewrite Hh. reflexivity. }
  assert (E2 : starts_with (lit "end ") ((32 + N.of_nat n)%N :: flat_map uu_group (chunks 3 chunk)) = false).
  { lits. unfold starts_with. cbn [strip_prefix]. rewrite N.eqb_sym, Hh. reflexivity. }
  rewrite E1, E2. cbn [orb].
  assert (E3 : N.to_nat (u8_wsub (32 + N.of_nat n) 32) = n) by (unfold u8_wsub; lia).
  rewrite E3. destruct (Nat.ltb_spec 45 n); [lia|]. destruct (Nat.eqb_spec n 0); [lia|].
  f_equal. apply decode_groups. exact Hb.
Qed.

Lemma decode_begin name rest : decode_uu_data ((lit "begin 644 " ++ name) :: rest) = decode_uu_data rest.
Proof.
  cbn [decode_uu_data].
  assert (E : exists t, drop_end is_crlf (trim_start (lit "begin 644 " ++ name)) = 98%N :: 101%N :: t).
  { change (trim_start (lit "begin 644 " ++ name)) with (98%N :: 101%N :: lit "gin 644 " ++ name).
    destruct (drop_end_spec is_crlf (98%N :: 101%N :: lit "gin 644 " ++ name)) as (b & Hb & Hall & Hcase).
    destruct (drop_end is_crlf (98%N :: 101%N :: lit "gin 644 " ++ name)) as [|x [|y t]].
    - exfalso. cbn in Hb. subst b. cbn in Hall. discriminate.
    - exfalso. cbn in Hb. inversion Hb. subst. cbn in Hall. discriminate.
    - cbn in Hb. inversion Hb. subst. eauto. }
  destruct E as [t ->].
  change (str_eqb (98%N :: 101%N :: t) (lit "end") || starts_with (lit "end ") (98%N :: 101%N :: t)) with false.
  cbn [as_bytes flat_map utf8_char app]. reflexivity.
Qed.
Lemma decode_tail : decode_uu_data [lit "`"; lit "end"] = [].
Proof. vm_compute. reflexivity. Qed.

Lemma decode_chunks cs rest : Forall (fun c => 1 <= List.length c <= 45) cs -> Forall bytes cs ->
  decode_uu_data (map uu_line cs ++ rest) = concat cs ++ decode_uu_data rest.
Proof.
  induction cs as [|c cs IH]; intros Hl Hb; [reflexivity|]. inversion Hl; subst. inversion Hb; subst.
  cbn [map app concat]. rewrite decode_line by assumption. rewrite IH by assumption. apply app_assoc.
Qed.
Lemma bytes_chunks k data : 0 < k -> bytes data -> Forall bytes (chunks k data).
Proof.
  intros Hk H. apply Forall_forall. intros c Hc. apply Forall_forall. intros x Hx.
  unfold bytes in H. rewrite Forall_forall in H. apply H. rewrite <- (chunks_concat k data Hk). apply in_concat. eauto.
Qed.
Lemma uu_round_trip name data : bytes data -> decode_uu_data (uuencode_data name data) = data.
Proof.
  intros Hb. unfold uuencode_data. rewrite decode_begin.
  rewrite decode_chunks by (apply chunks_bounds || apply bytes_chunks; (lia || assumption)).
  rewrite decode_tail, app_nil_r. apply chunks_concat. lia.
Qed.

(* ---- the section reader: termination --------------------------------- *)
Lemma skip_line_length rem : rem <> [] -> List.length (skip_line rem) < List.length rem.
Proof.
  unfold skip_line. intros H. destruct (find_char is_nl rem) as [[a b]|] eqn:E.
  - apply find_char_some in E as (-> & _ & (c & r & -> & _)). rewrite app_length. cbn [List.length]. lia.
  - destruct rem; [congruence|cbn [List.length]; lia].
Qed.
Lemma skip_line_length_le rem : List.length (skip_line rem) <= List.length rem.
Proof. destruct rem as [|c rem]; [cbn; lia|]. pose proof (skip_line_length (c :: rem)). assert (c :: rem <> []) by discriminate. intuition lia. Qed.
Lemma drop_while_length (p : N -> bool) s : List.length (drop_while p s) <= List.length s.
Proof. destruct (drop_while_spec p s) as (a & H & _). apply (f_equal (@List.length N)) in H. rewrite app_length in H. lia. Qed.

Lemma collect_total f rem : List.length rem < f ->
  exists ls r, collect_data_lines f rem = Some (ls, r) /\ List.length r <= List.length rem.
Proof.
  revert rem. induction f as [|f IH]; intros rem H; [lia|]. cbn [collect_data_lines].
  destruct rem as [|c rem]; [eauto|]. set (s := c :: rem) in *.
  assert (Hs : List.length (skip_line s) < List.length s) by (apply skip_line_length; discriminate).
  destruct (IH (skip_line s) ltac:(lia)) as (ls & r & E & Hr).
  destruct (at_next_section s); [eauto|]. cbv zeta.
  destruct (match trim (current_line s) with [] => true | _ => false end || starts_with (lit "[") (trim (current_line s))); [eauto|].
  destruct (starts_with (lit ";") (trim (current_line s)) || starts_with (lit "!") (trim (current_line s))).
  { exists ls, r. split; [exact E|lia]. }
  destruct (starts_with (lit "# ") (trim (current_line s)) || str_eqb (trim (current_line s)) (lit "#")); [eauto|].
  rewrite E. do 2 eexists. split; [reflexivity|lia].
Qed.
Lemma skip_ws_total f rem : List.length rem < f ->
  exists r, skip_ws_comments f rem = Some r /\ List.length r <= List.length rem.
Proof.
  revert rem. induction f as [|f IH]; intros rem H; [lia|]. cbn [skip_ws_comments]. cbv zeta.
  pose proof (drop_while_length is_blank rem) as Hd.
  destruct (drop_while is_blank rem) as [|c r] eqn:E; [eexists; split; [reflexivity|cbn; lia]|].
  assert (Hs : List.length (skip_line (c :: r)) < List.length (c :: r)) by (apply skip_line_length; discriminate).
  destruct (_ || _).
  - destruct (IH (skip_line (c :: r)) ltac:(lia)) as (r' & E' & H'). exists r'. split; [exact E'|lia].
  - destruct (is_nl c).
    + cbn [List.length] in Hd. destruct (IH r ltac:(lia)) as (r' & E' & H'). exists r'. split; [exact E'|lia].
    + eexists. split; [reflexivity|lia].
Qed.
Lemma parse_entry_total key rem : rem <> [] ->
  exists e r, parse_entry key rem = Some (e, r) /\ List.length r < List.length rem.
Proof.
  intros H. unfold parse_entry. cbv zeta. pose proof (skip_line_length rem H) as Hs.
  destruct (find_char _ (current_line rem)) as [[k [|c v]]|]; [do 2 eexists; split; [reflexivity|lia]| |do 2 eexists; split; [reflexivity|lia]].
  destruct (str_eqb (trim k) key); [|do 2 eexists; split; [reflexivity|lia]].
  destruct (collect_total (S (List.length rem)) (skip_line rem) ltac:(lia)) as (ls & r & -> & Hr).
  do 2 eexists. split; [reflexivity|lia].
Qed.
Lemma parse_binary_total f key rem : List.length rem < f ->
  exists es r, parse_binary f key rem = Some (es, r) /\ (r = [] \/ at_next_section r = true).
Proof.
  revert rem. induction f as [|f IH]; intros rem H; [lia|]. cbn [parse_binary].
  destruct rem as [|c rem]; [eauto|]. set (s := c :: rem) in *. destruct (at_next_section s) eqn:E0; [eauto|].
  destruct (skip_ws_total (S (List.length s)) s ltac:(lia)) as (r & -> & Hr).
  destruct r as [|c' r]; [eauto|]. destruct (at_next_section (c' :: r)) eqn:E1; [eauto|].
  destruct (parse_entry_total key (c' :: r) ltac:(discriminate)) as (e & r' & -> & Hr').
  destruct (IH r' ltac:(lia)) as (es & r'' & -> & Hr''). eauto.
Qed.

(* ---- reading back an encoded entry ------------------------------------ *)
Definition no_nl (s : str) : Prop := forallb (fun c => negb (is_nl c)) s = true.
Definition nl_line (l : str) : str := l ++ [10%N].

Lemma current_line_app l rest : no_nl l -> current_line (l ++ 10%N :: rest) = l.
Proof.
  intros H. unfold current_line.
  assert (find_char is_nl (l ++ 10%N :: rest) = Some (l, 10%N :: rest)) as ->; [|reflexivity].
  apply find_char_some. repeat split; auto. exists 10%N, rest. auto.
Qed.
Lemma skip_line_app l rest : no_nl l -> skip_line (l ++ 10%N :: rest) = rest.
Proof.
  intros H. unfold skip_line.
  assert (find_char is_nl (l ++ 10%N :: rest) = Some (l, 10%N :: rest)) as ->; [|reflexivity].
  apply find_char_some. repeat split; auto. exists 10%N, rest. auto.
Qed.
(* the trimmed form of a line whose first character is not whitespace *)
Lemma trim_head c l : is_ws c = false -> exists r b, trim (c :: l) = c :: r /\ l = r ++ b /\ forallb is_ws b = true.
Proof.
  intros Hc. unfold trim, trim_start. cbn [drop_while]. rewrite Hc.
  unfold trim_end. destruct (drop_end_spec is_ws (c :: l)) as (b & H1 & H2 & _).
  destruct (drop_end is_ws (c :: l)) as [|c' r].
  - cbn in H1. subst b. cbn in H2. rewrite Hc in H2. discriminate.
  - cbn in H1. inversion H1; subst. eauto.
Qed.

Inductive line_kind := Keep | Skip | Stop.
Definition kind_of (l : str) : line_kind :=
  match l with
  | c :: r =>
    if (c =? 59)%N || (c =? 33)%N then Skip
    else if (c =? 35)%N then match r with d :: _ => if (d =? 32)%N then Stop else Keep | [] => Stop end
    else Keep
  | [] => Stop
  end.
(* lines beginning with a visible character that is not '[' *)
Definition plain_line (l : str) : Prop :=
  no_nl l /\ match l with c :: _ => is_ws c = false /\ c <> 91%N | [] => False end /\
  match l with
  | 35%N :: d :: _ => is_ws d = true -> d = 32%N
  | _ => True
  end.

Lemma at_next_plain c l rest : is_ws c = false -> c <> 91%N -> at_next_section ((c :: l) ++ rest) = false.
Proof.
  intros Hc H. unfold at_next_section, trim_start. cbn [app drop_while]. rewrite Hc. unfold starts_with. lits.
  cbn [strip_prefix]. destruct (N.eqb_spec 91 c); [congruence|reflexivity].
Qed.
Lemma starts1 x c r : starts_with [x] (c :: r) = (x =? c)%N.
Proof. unfold starts_with. cbn. destruct (x =? c)%N; reflexivity. Qed.

Lemma collect_line f l rest : plain_line l -> List.length (l ++ 10%N :: rest) < S f ->
  collect_data_lines (S f) (l ++ 10%N :: rest) =
  match kind_of l with
  | Keep => match collect_data_lines f rest with Some (ls, r) => Some (l :: ls, r) | None => None end
  | Skip => collect_data_lines f rest
  | Stop => Some ([], l ++ 10%N :: rest)
  end.
Proof.
  intros (Hn & Hh & H35) Hf. destruct l as [|c l]; [contradiction|]. destruct Hh as [Hc H91].
  cbn [collect_data_lines]. cbn [app]. rewrite app_comm_cons.
  assert (Ha : at_next_section ((c :: l) ++ 10%N :: rest) = false) by (apply at_next_plain; assumption).
  cbn [app] in Ha |- *. rewrite Ha. rewrite app_comm_cons, current_line_app, skip_line_app by exact Hn.
  destruct (trim_head c l Hc) as (r & b & -> & Hl & Hb). cbv zeta. lits. rewrite !starts1. cbn [orb].
  destruct (N.eqb_spec 91 c); [congruence|]. cbn [kind_of].
  rewrite (N.eqb_sym 59 c), (N.eqb_sym 33 c). destruct ((c =? 59)%N || (c =? 33)%N); [reflexivity|].
  unfold starts_with. cbn [strip_prefix str_eqb]. rewrite (N.eqb_sym 35 c).
  destruct (N.eqb_spec c 35) as [->|H35'].
  - cbn [andb]. destruct l as [|d l].
    + destruct r; [|discriminate]. reflexivity.
    + destruct r as [|d' r].
      * cbn [app] in Hl. subst b. cbn in Hb. apply andb_prop in Hb as [Hd _]. rewrite (H35 Hd). reflexivity.
      * cbn [app] in Hl. inversion Hl; subst d' l. rewrite (N.eqb_sym 32 d). destruct (N.eqb_spec d 32); reflexivity.
  - cbn [andb orb]. reflexivity.
Qed.

Definition stops (tail : str) : Prop := tail = [] \/ at_next_section tail = true \/ trim (current_line tail) = [].
Lemma collect_stop f tail : stops tail -> 0 < f -> collect_data_lines f tail = Some ([], tail).
Proof.
  intros H Hf. destruct f as [|f]; [lia|]. cbn [collect_data_lines].
  destruct tail as [|c tail]; [reflexivity|]. destruct H as [H|[H|H]]; [discriminate|rewrite H; reflexivity|].
  destruct (at_next_section (c :: tail)); [reflexivity|]. cbv zeta. rewrite H. reflexivity.
Qed.
Definition kept (ls : list str) : list str := filter (fun l => match kind_of l with Keep => true | _ => false end) ls.
Lemma collect_lines ls tail f : Forall plain_line ls -> Forall (fun l => kind_of l <> Stop) ls -> stops tail ->
  List.length (flat_map nl_line ls ++ tail) < f ->
  collect_data_lines f (flat_map nl_line ls ++ tail) = Some (kept ls, tail).
Proof.
  revert f. induction ls as [|l ls IH]; intros f Hp Hk Ht Hf; cbn [flat_map app].
  - apply collect_stop; [exact Ht|lia].
  - inversion Hp; subst. inversion Hk; subst. destruct f as [|f]; [lia|].
    unfold nl_line at 1. rewrite <- !app_assoc. cbn [app].
    assert (Hf' : List.length (l ++ 10%N :: flat_map nl_line ls ++ tail) < S f).
    { cbn [flat_map] in Hf. unfold nl_line at 1 in Hf. rewrite !app_length in *. cbn [List.length] in *. rewrite !app_length in *. lia. }
    rewrite collect_line by assumption. cbn [kept filter].
    rewrite IH; [|assumption|assumption|assumption|rewrite !app_length in *; cbn [List.length] in *; rewrite !app_length in *; lia].
    destruct (kind_of l); [reflexivity|reflexivity|congruence].
Qed.
Lemma collect_lines_stop ls l rest f : Forall plain_line ls -> Forall (fun l => kind_of l <> Stop) ls ->
  plain_line l -> kind_of l = Stop ->
  List.length (flat_map nl_line ls ++ l ++ 10%N :: rest) < f ->
  collect_data_lines f (flat_map nl_line ls ++ l ++ 10%N :: rest) = Some (kept ls, l ++ 10%N :: rest).
Proof.
  revert f. induction ls as [|l0 ls IH]; intros f Hp Hk Hl Hs Hf; cbn [flat_map app].
  - destruct f as [|f]; [cbn in Hf; lia|]. rewrite collect_line by assumption. rewrite Hs. reflexivity.
  - inversion Hp; subst. inversion Hk; subst. destruct f as [|f]; [lia|].
    unfold nl_line at 1. rewrite <- !app_assoc. cbn [app].
    assert (Hf' : List.length (l0 ++ 10%N :: flat_map nl_line ls ++ l ++ 10%N :: rest) < S f).
    { cbn [flat_map] in Hf. unfold nl_line at 1 in Hf. repeat (rewrite app_length in Hf || cbn [List.length] in Hf). repeat (rewrite app_length || cbn [List.length]). lia. }
    rewrite collect_line by assumption. cbn [kept filter].
    rewrite IH; [|assumption|assumption|assumption|assumption|repeat (rewrite app_length in Hf' || cbn [List.length] in Hf'); repeat (rewrite app_length || cbn [List.length]); lia].
    destruct (kind_of l0); [reflexivity|reflexivity|congruence].
Qed.

(* shape of the chunks of 45 *)
Lemma chunks45 (data : list N) : exists cs last, Forall (fun c => List.length c = 45) cs /\
  List.length last = List.length data mod 45 /\ data = concat cs ++ last /\
  chunks 45 data = cs ++ match last with [] => [] | _ => [last] end /\ List.length (concat cs) = List.length data - List.length data mod 45.
Proof.
  remember (List.length data) as n eqn:En. revert data En. induction n as [n IH] using lt_wf_ind. intros data En.
  destruct (Nat.lt_ge_cases n 45) as [Hlt|Hge].
  - exists [], data. rewrite Nat.mod_small by exact Hlt. split; [constructor|]. split; [auto|]. split; [reflexivity|]. split; [|cbn; lia].
    destruct data as [|x data]; [reflexivity|]. cbn [app]. apply chunks_short; [discriminate|lia].
  - set (g := firstn 45 data). set (r := skipn 45 data).
    assert (Hg : List.length g = 45) by (unfold g; rewrite firstn_length; lia).
    assert (Hr : List.length r = n - 45) by (unfold r; rewrite skipn_length; lia).
    assert (E : data = g ++ r) by (symmetry; apply firstn_skipn).
    destruct (IH (n - 45) ltac:(lia) r (eq_sym Hr)) as (cs & last & H1 & H2 & H3 & H4 & H5).
    exists (g :: cs), last. assert (Hm : n mod 45 = (n - 45) mod 45).
    { replace n with ((n - 45) + 1 * 45) at 1 by lia. apply Nat.mod_add. lia. }
    split; [constructor; assumption|]. split; [lia|]. split; [rewrite E at 1; cbn [concat]; rewrite <- app_assoc; f_equal; exact H3|].
    split; [rewrite E at 1; rewrite chunks_app by lia; cbn [app]; f_equal; exact H4|].
    cbn [concat]. rewrite app_length, H5, Hg. assert ((n - 45) mod 45 <= n - 45) by (apply Nat.mod_le; lia). lia.
Qed.

Lemma no_nl_uu l : Forall uu_char l -> no_nl l.
Proof.
  intros H. unfold no_nl. apply forallb_forall. intros c Hc. rewrite Forall_forall in H. apply H in Hc.
  unfold uu_char in Hc. unfold is_nl. lia.
Qed.
Lemma uu_line_plain c : 1 <= List.length c <= 45 -> bytes c -> plain_line (uu_line c).
Proof.
  intros Hl Hb. pose proof (line_chars c Hl Hb) as Hc. split; [apply no_nl_uu, Hc|]. split.
  - unfold uu_line. split; [unfold is_ws; lia|lia].
  - destruct (uu_line c) as [|x [|d l]]; [exact I|destruct x; try exact I; repeat (destruct p; try exact I)|].
    inversion Hc; subst. inversion H2; subst. unfold uu_char in *.
    assert (is_ws d = true -> d = 32%N) by (unfold is_ws; lia).
    destruct x; try exact I; repeat (destruct p; try exact I); assumption.
Qed.
Lemma begin_plain name : no_nl name -> plain_line (lit "begin 644 " ++ name).
Proof.
  intros H. split; [|split].
  - unfold no_nl in *. rewrite forallb_app. rewrite H. reflexivity.
  - lits. cbn [app]. split; [reflexivity|lia].
  - lits. cbn [app]. exact I.
Qed.
Lemma kind_line c : 1 <= List.length c <= 45 -> bytes c ->
  kind_of (uu_line c) =
  if (List.length c =? 1) || (List.length c =? 27) then Skip
  else if (List.length c =? 3) && (nth 0 c 0 <? 4)%N then Stop else Keep.
Proof.
  intros Hl Hb. unfold uu_line. cbn [kind_of].
  assert (E1 : ((32 + N.of_nat (List.length c) =? 59) || (32 + N.of_nat (List.length c) =? 33))%N = (List.length c =? 1) || (List.length c =? 27)) by lia.
  rewrite E1. destruct ((List.length c =? 1) || (List.length c =? 27)); [reflexivity|].
  assert (E2 : ((32 + N.of_nat (List.length c)) =? 35)%N = (List.length c =? 3)) by lia.
  rewrite E2. destruct (Nat.eqb_spec (List.length c) 3) as [H3|]; [|reflexivity]. cbn [andb].
  destruct c as [|b0 c]; [cbn in Hl; lia|]. rewrite chunks_short by (try discriminate; lia).
  cbn [flat_map app nth]. unfold uu_group at 1. cbn [app nth].
  rewrite N.shiftr_div_pow2. change (2 ^ 2)%N with 4%N.
  destruct (N.eqb_spec (32 + b0 / 4) 32); destruct (N.ltb_spec b0 4); try reflexivity; lia.
Qed.
Lemma kept_all ls : Forall (fun l => kind_of l = Keep) ls -> kept ls = ls.
Proof. induction 1 as [|l ls H _ IH]; [reflexivity|]. cbn [kept filter]. rewrite H. f_equal. exact IH. Qed.
Lemma kept_app a b : kept (a ++ b) = kept a ++ kept b.
Proof. apply filter_app. Qed.
Lemma font_entry_text name ls tail : font_entry name ls ++ tail = (lit "fontname: " ++ name) ++ 10%N :: flat_map nl_line ls ++ tail.
Proof. unfold font_entry. lits. cbn [app]. rewrite <- !app_assoc. cbn [app]. reflexivity. Qed.

Lemma trim_space s : trim (32%N :: s) = trim s.
Proof. reflexivity. Qed.

Lemma skip_ws_id f c t : is_blank c = false -> c <> 59%N -> c <> 33%N -> c <> 10%N -> skip_ws_comments (S f) (c :: t) = Some (c :: t).
Proof.
  intros H1 H2 H3 H4. cbn [skip_ws_comments]. cbv zeta. cbn [drop_while]. rewrite H1. lits. rewrite starts1.
  unfold starts_with at 1. cbn [strip_prefix]. destruct (N.eqb_spec 59 c); [congruence|]. destruct (N.eqb_spec 33 c); [congruence|].
  cbn [orb]. unfold is_nl. destruct (N.eqb_spec c 10); [congruence|]. reflexivity.
Qed.
Lemma parse_fonts_entry name ls tail : no_nl name ->
  parse_fonts (font_entry name ls ++ tail) =
  match collect_data_lines (S (List.length (font_entry name ls ++ tail))) (flat_map nl_line ls ++ tail) with
  | Some (dl, r) =>
    match parse_binary (List.length (font_entry name ls ++ tail)) (lit "fontname") r with
    | Some (es, r') => Some ((trim name, dl) :: es, r')
    | None => None
    end
  | None => None
  end.
Proof.
  intros Hn. unfold parse_fonts. cbn [parse_binary]. rewrite font_entry_text.
  set (body := flat_map nl_line ls ++ tail).
  assert (Hno : no_nl (lit "fontname: " ++ name)) by (unfold no_nl in *; rewrite forallb_app, Hn; reflexivity).
  assert (E0 : exists t, (lit "fontname: " ++ name) ++ 10%N :: body = 102%N :: t) by (lits; cbn [app]; eauto).
  assert (Ec : current_line ((lit "fontname: " ++ name) ++ 10%N :: body) = lit "fontname: " ++ name) by (apply current_line_app, Hno).
  assert (Es : skip_line ((lit "fontname: " ++ name) ++ 10%N :: body) = body) by (apply skip_line_app, Hno).
  set (full := (lit "fontname: " ++ name) ++ 10%N :: body) in *.
  assert (Ep : parse_entry (lit "fontname") full =
     match collect_data_lines (S (List.length full)) body with
     | Some (dl, r) => Some (Some (trim name, dl), r) | None => None end).
  { unfold parse_entry. rewrite Ec, Es. cbv zeta.
    assert (Ef : find_char (fun c => (c =? 58)%N) (lit "fontname: " ++ name) = Some (lit "fontname", 58%N :: 32%N :: name)).
    { lits. reflexivity. }
    rewrite Ef. change (str_eqb (trim (lit "fontname")) (lit "fontname")) with true. rewrite trim_space. reflexivity. }
  clearbody full. destruct E0 as [t ->].
  assert (Ha : at_next_section (102%N :: t) = false) by reflexivity.
  rewrite Ha. rewrite skip_ws_id by (reflexivity || discriminate). rewrite Ha, Ep.
  destruct (collect_data_lines (S (List.length (102%N :: t))) body) as [[dl r]|]; reflexivity.
Qed.

Lemma parse_binary_stop f key tail : tail = [] \/ at_next_section tail = true -> 0 < f ->
  parse_binary f key tail = Some ([], tail).
Proof.
  intros H Hf. destruct f as [|f]; [lia|]. cbn [parse_binary]. destruct tail as [|c t]; [reflexivity|].
  destruct H as [H|H]; [discriminate|]. rewrite H. reflexivity.
Qed.

Lemma full_keep cs : Forall (fun c => List.length c = 45) cs -> Forall bytes cs ->
  Forall plain_line (map uu_line cs) /\ Forall (fun l => kind_of l = Keep) (map uu_line cs).
Proof.
  induction 1 as [|c cs Hc _ IH]; intros Hb; [split; constructor|]. inversion Hb; subst. destruct (IH H2) as [A B].
  split; cbn [map]; constructor; try assumption.
  - apply uu_line_plain; [lia|assumption].
  - rewrite kind_line by (assumption || lia). rewrite Hc. reflexivity.
Qed.
Lemma tail_lines : Forall plain_line [lit "`"; lit "end"] /\ Forall (fun l => kind_of l = Keep) [lit "`"; lit "end"].
Proof.
  split; repeat constructor; cbn; try discriminate.
Qed.
Lemma keep_not_stop ls : Forall (fun l => kind_of l = Keep) ls -> Forall (fun l => kind_of l <> Stop) ls.
Proof. intros H. eapply Forall_impl; [|exact H]. cbn. congruence. Qed.
Lemma begin_keep name : kind_of (lit "begin 644 " ++ name) = Keep.
Proof. reflexivity. Qed.
Lemma firstn_concat_last (cs : list (list N)) last : firstn (List.length (concat cs)) (concat cs ++ last) = concat cs.
Proof. rewrite firstn_app, Nat.sub_diag, firstn_all. cbn. apply app_nil_r. Qed.
Lemma stops_of tail : tail = [] \/ at_next_section tail = true -> stops tail.
Proof. unfold stops. tauto. Qed.

(* the kind of the incomplete last line *)
Lemma last_kind data cs last : bytes data -> data = concat cs ++ last -> last <> [] ->
  List.length last = List.length data mod 45 ->
  (survives data <-> kind_of (uu_line last) = Keep).
Proof.
  intros Hb E Hne Hl.
  assert (Hlt : List.length data mod 45 < 45) by (apply Nat.mod_upper_bound; lia).
  assert (H1 : 1 <= List.length last) by (destruct last; [congruence|cbn [List.length]; lia]).
  assert (Hbl : bytes last) by (unfold bytes in *; rewrite E in Hb; apply Forall_app in Hb; tauto).
  rewrite kind_line by (assumption || lia). unfold survives. cbv zeta. rewrite <- Hl.
  assert (Hnth : List.length last = 3 -> nth (List.length data - 3) data 0%N = nth 0 last 0%N).
  { intros H3. rewrite E, app_nth2, app_length by (rewrite app_length; lia). f_equal. lia. }
  destruct (Nat.eqb_spec (List.length last) 1); [cbn [orb]; split; [intros (G & _); congruence|discriminate]|].
  destruct (Nat.eqb_spec (List.length last) 27); [cbn [orb]; split; [intros (_ & G & _); congruence|discriminate]|].
  cbn [orb]. destruct (Nat.eqb_spec (List.length last) 3) as [H3|H3].
  - rewrite (Hnth H3). cbn [andb]. destruct (N.ltb_spec (nth 0 last 0%N) 4).
    + split; [intros (_ & _ & G); specialize (G H3); lia|discriminate].
    + split; [reflexivity|]. intros _. repeat split; auto.
  - split; [reflexivity|]. intros _. repeat split; auto. intros G. congruence.
Qed.

Lemma font_survives name data tail : bytes data -> no_nl name -> survives data ->
  tail = [] \/ at_next_section tail = true ->
  parse_fonts (font_entry name (uuencode_data name data) ++ tail) =
  Some ([(trim name, uuencode_data name data)], tail).
Proof.
  intros Hb Hn Hs Ht. rewrite parse_fonts_entry by exact Hn.
  destruct (chunks45 data) as (cs & last & H1 & H2 & H3 & H4 & _).
  assert (Hbc : Forall bytes cs).
  { pose proof (bytes_chunks 45 data ltac:(lia) Hb) as G. rewrite H4 in G. apply Forall_app in G. tauto. }
  destruct (full_keep cs H1 Hbc) as [P1 K1]. destruct tail_lines as [P2 K2].
  assert (A : Forall plain_line (uuencode_data name data) /\ Forall (fun l => kind_of l = Keep) (uuencode_data name data)).
  { unfold uuencode_data. rewrite H4, map_app. rewrite <- app_assoc.
    assert (L : Forall plain_line (map uu_line (match last with [] => [] | _ => [last] end)) /\
                Forall (fun l => kind_of l = Keep) (map uu_line (match last with [] => [] | _ => [last] end))).
    { destruct last as [|x last]; [split; constructor|]. cbn [map].
      assert (Hlt : List.length data mod 45 < 45) by (apply Nat.mod_upper_bound; lia).
      assert (Hbl : bytes (x :: last)) by (unfold bytes in *; rewrite H3 in Hb; apply Forall_app in Hb; tauto).
      split; (constructor; [|constructor]).
      - apply uu_line_plain; [cbn [List.length] in *; lia|exact Hbl].
      - apply (last_kind data cs (x :: last) Hb H3); [discriminate|exact H2|exact Hs]. }
    destruct L as [L1 L2]. split; constructor.
    - apply begin_plain, Hn.
    - apply Forall_app. split; [exact P1|apply Forall_app; split; assumption].
    - apply begin_keep.
    - apply Forall_app. split; [exact K1|apply Forall_app; split; assumption]. }
  destruct A as [A1 A2].
  rewrite collect_lines; [|exact A1|apply keep_not_stop, A2|apply stops_of, Ht|rewrite font_entry_text, !app_length; cbn [List.length]; rewrite !app_length; lia].
  rewrite (kept_all _ A2). rewrite parse_binary_stop; [reflexivity|exact Ht|].
  rewrite font_entry_text, !app_length. cbn [List.length]. lia.
Qed.

Lemma font_lost name data tail : bytes data -> no_nl name -> ~ survives data ->
  tail = [] \/ at_next_section tail = true ->
  exists f fs r, parse_fonts (font_entry name (uuencode_data name data) ++ tail) = Some (f :: fs, r) /\
    font_data f = without_last_chunk data /\ List.length (without_last_chunk data) < List.length data.
Proof.
  intros Hb Hn Hs Ht. rewrite parse_fonts_entry by exact Hn.
  destruct (chunks45 data) as (cs & last & H1 & H2 & H3 & H4 & H5).
  assert (Hbc : Forall bytes cs).
  { pose proof (bytes_chunks 45 data ltac:(lia) Hb) as G. rewrite H4 in G. apply Forall_app in G. tauto. }
  assert (Hlt : List.length data mod 45 < 45) by (apply Nat.mod_upper_bound; lia).
  assert (Hne : last <> []).
  { intros ->. apply Hs. change (List.length (@nil N)) with 0 in H2. unfold survives. cbv zeta. rewrite <- H2. repeat split; discriminate. }
  assert (Hbl : bytes last) by (unfold bytes in *; rewrite H3 in Hb; apply Forall_app in Hb; tauto).
  assert (Hl1 : 1 <= List.length last <= 45) by (destruct last; [congruence|cbn [List.length] in *; lia]).
  assert (Hk : kind_of (uu_line last) <> Keep) by (intros K; apply Hs; apply (last_kind data cs last Hb H3 Hne H2); exact K).
  destruct (full_keep cs H1 Hbc) as [P1 K1]. destruct tail_lines as [P2 K2].
  pose proof (uu_line_plain last Hl1 Hbl) as P3.
  assert (W : without_last_chunk data = concat cs).
  { unfold without_last_chunk. rewrite <- H5, H3. apply firstn_concat_last. }
  assert (D : forall rest, decode_uu_data rest = [] -> decode_uu_data ((lit "begin 644 " ++ name) :: map uu_line cs ++ rest) = without_last_chunk data).
  { intros rest Hr. rewrite decode_begin, decode_chunks, Hr, app_nil_r, W; [reflexivity| |exact Hbc].
    eapply Forall_impl; [|exact H1]. cbn. intros; lia. }
  assert (Len : List.length (without_last_chunk data) < List.length data).
  { rewrite W, H5. assert (List.length data mod 45 <= List.length data) by (apply Nat.mod_le; lia). lia. }
  set (total := font_entry name (uuencode_data name data) ++ tail).
  assert (Ht0 : 0 < List.length total) by (unfold total; rewrite font_entry_text, !app_length; cbn [List.length]; lia).
  assert (Hu : uuencode_data name data = ((lit "begin 644 " ++ name) :: map uu_line cs) ++ uu_line last :: [lit "`"; lit "end"]).
  { unfold uuencode_data. rewrite H4, map_app, <- app_assoc. destruct last; [congruence|]. reflexivity. }
  assert (P0 : Forall plain_line ((lit "begin 644 " ++ name) :: map uu_line cs)) by (constructor; [apply begin_plain, Hn|exact P1]).
  assert (K0 : Forall (fun l => kind_of l = Keep) ((lit "begin 644 " ++ name) :: map uu_line cs)) by (constructor; [apply begin_keep|exact K1]).
  assert (Lt : List.length (flat_map nl_line (uuencode_data name data) ++ tail) < S (List.length total)).
  { unfold total. rewrite font_entry_text, !app_length. cbn [List.length]. rewrite !app_length. lia. }
  destruct (kind_of (uu_line last)) eqn:K; [congruence| |].
  - rewrite collect_lines.
    + rewrite parse_binary_stop by assumption. do 3 eexists. split; [reflexivity|]. split; [|exact Len].
      unfold font_data. cbn [snd]. rewrite Hu, kept_app, (kept_all _ K0). cbn [kept filter]. rewrite K.
      change (filter _ [lit "`"; lit "end"]) with [lit "`"; lit "end"]. cbn [app]. apply D. apply decode_tail.
    + rewrite Hu. apply Forall_app. split; [exact P0|constructor; [exact P3|exact P2]].
    + rewrite Hu. apply Forall_app. split; [apply keep_not_stop, K0|constructor; [congruence|apply keep_not_stop, K2]].
    + apply stops_of, Ht.
    + exact Lt.
  - assert (Hsplit : flat_map nl_line (uuencode_data name data) ++ tail =
       flat_map nl_line ((lit "begin 644 " ++ name) :: map uu_line cs) ++ uu_line last ++ 10%N :: flat_map nl_line [lit "`"; lit "end"] ++ tail).
    { rewrite Hu, flat_map_app. cbn [flat_map]. unfold nl_line at 3. rewrite <- !app_assoc. cbn [app]. rewrite <- ?app_assoc. reflexivity. }
    rewrite Hsplit in Lt |- *.
    rewrite collect_lines_stop; [|exact P0|apply keep_not_stop, K0|exact P3|exact K|exact Lt].
    set (rem := uu_line last ++ 10%N :: flat_map nl_line [lit "`"; lit "end"] ++ tail) in *.
    destruct (parse_binary_total (List.length total) (lit "fontname") rem) as (es & r & -> & _).
    { revert Lt. unfold total. rewrite font_entry_text, Hsplit. fold rem. rewrite !app_length. cbn [List.length]. rewrite !app_length. intros _. cbn [flat_map]. unfold nl_line at 1. rewrite !app_length. cbn [List.length]. lia. }
    do 3 eexists. split; [reflexivity|]. split; [|exact Len].
    unfold font_data. cbn [snd]. rewrite (kept_all _ K0). rewrite <- (app_nil_r (map uu_line cs)). apply D. reflexivity.
Qed.

Lemma fontname_plain name : no_nl name -> plain_line (lit "fontname: " ++ name).
Proof.
  intros H. split; [|split].
  - unfold no_nl in *. rewrite forallb_app. rewrite H. reflexivity.
  - lits. cbn [app]. split; [reflexivity|lia].
  - lits. cbn [app]. exact I.
Qed.
Lemma encoded_keep name data : bytes data -> no_nl name -> survives data ->
  Forall plain_line (uuencode_data name data) /\ Forall (fun l => kind_of l = Keep) (uuencode_data name data).
Proof.
  intros Hb Hn Hs.
  destruct (chunks45 data) as (cs & last & H1 & H2 & H3 & H4 & _).
  assert (Hbc : Forall bytes cs).
  { pose proof (bytes_chunks 45 data ltac:(lia) Hb) as G. rewrite H4 in G. apply Forall_app in G. tauto. }
  destruct (full_keep cs H1 Hbc) as [P1 K1]. destruct tail_lines as [P2 K2].
  unfold uuencode_data. rewrite H4, map_app. rewrite <- app_assoc.
  assert (L : Forall plain_line (map uu_line (match last with [] => [] | _ => [last] end)) /\
              Forall (fun l => kind_of l = Keep) (map uu_line (match last with [] => [] | _ => [last] end))).
  { destruct last as [|x last]; [split; constructor|]. cbn [map].
    assert (Hlt : List.length data mod 45 < 45) by (apply Nat.mod_upper_bound; lia).
    assert (Hbl : bytes (x :: last)) by (unfold bytes in *; rewrite H3 in Hb; apply Forall_app in Hb; tauto).
    split; (constructor; [|constructor]).
    - apply uu_line_plain; [cbn [List.length] in *; lia|exact Hbl].
    - apply (last_kind data cs (x :: last) Hb H3); [discriminate|exact H2|exact Hs]. }
  destruct L as [L1 L2]. split; constructor.
  - apply begin_plain, Hn.
  - apply Forall_app. split; [exact P1|apply Forall_app; split; assumption].
  - apply begin_keep.
  - apply Forall_app. split; [exact K1|apply Forall_app; split; assumption].
Qed.
Lemma decode_stops_at_end name data rest : bytes data ->
  decode_uu_data (uuencode_data name data ++ rest) = data.
Proof.
  intros Hb. unfold uuencode_data. cbn [app]. rewrite decode_begin, <- app_assoc.
  rewrite decode_chunks by (apply chunks_bounds || apply bytes_chunks; (lia || assumption)).
  assert (decode_uu_data ([lit "`"; lit "end"] ++ rest) = []) as -> by (cbn [app decode_uu_data]; reflexivity).
  rewrite app_nil_r. apply chunks_concat. lia.
Qed.

Lemma second_font_swallowed n1 d1 n2 d2 tail : bytes d1 -> bytes d2 -> no_nl n1 -> no_nl n2 ->
  survives d1 -> survives d2 -> tail = [] \/ at_next_section tail = true ->
  exists f, parse_fonts (font_entry n1 (uuencode_data n1 d1) ++ font_entry n2 (uuencode_data n2 d2) ++ tail)
            = Some ([f], tail) /\ fst f = trim n1 /\ font_data f = d1.
Proof.
  intros B1 B2 N1 N2 S1 S2 Ht. destruct (encoded_keep n1 d1 B1 N1 S1) as [P1 K1]. destruct (encoded_keep n2 d2 B2 N2 S2) as [P2 K2].
  set (all := uuencode_data n1 d1 ++ (lit "fontname: " ++ n2) :: uuencode_data n2 d2).
  assert (P : Forall plain_line all) by (apply Forall_app; split; [exact P1|constructor; [apply fontname_plain, N2|exact P2]]).
  assert (K : Forall (fun l => kind_of l = Keep) all) by (apply Forall_app; split; [exact K1|constructor; [reflexivity|exact K2]]).
  exists (trim n1, all).
  assert (T : font_entry n1 (uuencode_data n1 d1) ++ font_entry n2 (uuencode_data n2 d2) ++ tail = font_entry n1 all ++ tail).
  { rewrite font_entry_text. rewrite (font_entry_text n1 all tail). f_equal. f_equal. unfold all. rewrite flat_map_app.
    cbn [flat_map]. rewrite font_entry_text, <- !app_assoc. f_equal.
    assert (G : forall l x, nl_line l ++ x = l ++ 10%N :: x) by (intros l x; unfold nl_line; rewrite <- app_assoc; reflexivity).
    rewrite G, <- app_assoc. reflexivity. }
  rewrite T. rewrite parse_fonts_entry by exact N1.
  rewrite collect_lines; [|exact P|apply keep_not_stop, K|apply stops_of, Ht|rewrite font_entry_text, !app_length; cbn [List.length]; rewrite !app_length; lia].
  rewrite (kept_all _ K). rewrite parse_binary_stop; [|exact Ht|rewrite font_entry_text, !app_length; cbn [List.length]; lia].
  split; [reflexivity|]. split; [reflexivity|]. unfold font_data. cbn [snd]. apply decode_stops_at_end, B1.
Qed.
