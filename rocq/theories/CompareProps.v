From Coq Require Import QArith.
From Verif Require Import Base FloatModel CompareModel CompareSpec CompareProofs.

(* C196: the report of a comparison *)
Theorem compare_exact : forall a b, bytes_only a -> bytes_only b -> (N.of_nat (m_w a) * N.of_nat (m_h a) < 4294967296)%N ->
  exists c, compare a b = Some c /\
    Forall2 (fun p d => d_x d = fst p /\ d_y d = snd p /\ d_ours d = m_at a (fst p) (snd p) /\ d_theirs d = m_at b (fst p) (snd p) /\ number (d_by d) (off_at a b p # 4))
      (filter (fun p => (40 <? off_at a b p)%Z) (common a b)) (c_list c) /\
    c_different c = List.length (c_list c) /\
    number (c_max c) (fold_right Z.max 0%Z (map (off_at a b) (common a b)) # 4).
Proof. exact compare_ok. Qed.
Print Assumptions compare_exact.

Theorem compare_average : forall a b c, bytes_only a -> bytes_only b -> (0 < N.of_nat (m_w a) * N.of_nat (m_h a) <= 16777216)%N ->
  (sum (map (off_at a b) (common a b)) < 16777216)%Z -> compare a b = Some c ->
  c_total c = (N.of_nat (m_w a) * N.of_nat (m_h a))%N /\
  c_average c = round_to f32 (inject_Z (sum (map (off_at a b) (common a b))) / (4 * inject_Z (Z.of_N (N.of_nat (m_w a) * N.of_nat (m_h a)))))%Q.
Proof. exact compare_mean. Qed.
Print Assumptions compare_average.

Theorem compare_zero : forall a b c, bytes_only a -> bytes_only b -> compare a b = Some c ->
  (number (c_max c) 0 <-> forall x y, (x < Nat.min (m_w a) (m_w b))%nat -> (y < Nat.min (m_h a) (m_h b))%nat -> m_at a x y = m_at b x y).
Proof. exact compare_same. Qed.
Print Assumptions compare_zero.

Theorem compare_panics : forall a b, bytes_only a -> bytes_only b -> (4294967296 <= N.of_nat (m_w a) * N.of_nat (m_h a))%N -> compare a b = None.
Proof. exact compare_ends. Qed.
Print Assumptions compare_panics.

(* no difference found does not mean the same picture: what only one of them has is not looked at *)
Definition small : pixmap := Pm 1 1 (fun _ _ => (0, 0, 0, 0)%N).
Definition wide : pixmap := Pm 2 1 (fun x _ => if (x =? 0)%nat then (0, 0, 0, 0)%N else (255, 255, 255, 255)%N).
Theorem same_sizes_refuted : ~ (forall a b c, compare a b = Some c -> c_average c = Fin 0 -> c_different c = 0%nat -> m_w a = m_w b /\ m_h a = m_h b).
Proof. intros H. destruct (H small wide _ eq_refl ltac:(vm_compute; reflexivity) ltac:(vm_compute; reflexivity)) as [E _]. discriminate E. Qed.
Print Assumptions same_sizes_refuted.
(* ... and the number of pixels is rounded to a float on its way *)
Theorem total_refuted : ~ (forall a b c, compare a b = Some c -> c_total c = (N.of_nat (m_w a) * N.of_nat (m_h a))%N).
Proof.
  intros H. specialize (H (Pm (N.to_nat 4097) (N.to_nat 4097) (fun _ _ => (0, 0, 0, 0)%N)) small). unfold compare in H. cbn [m_w m_h small] in H.
  rewrite !N2Nat.id in H. rewrite !Nat.min_r in H by (pose proof (N2Nat.inj_compare 4097 1); lia). 
  cbn [places seq map flat_map app walk] in H. unfold pixel_at in H. cbn [m_w m_h small m_at] in H.
  replace (0 <? N.to_nat 4097)%nat with true in H by (symmetry; apply Nat.ltb_lt; lia). cbn [andb Nat.ltb Nat.leb] in H.
  set (k := (4294967296 <=? 4097 * 4097)%N) in H. vm_compute in k. subst k. cbv iota in H. specialize (H _ eq_refl). cbn [c_total] in H. vm_compute in H. discriminate H.
Qed.
Print Assumptions total_refuted.

Definition left_p : pixmap := Pm 3 2 (fun x y => (N.of_nat (x * 40), N.of_nat (y * 100), 7, 255)%N).
Definition right_p : pixmap := Pm 2 3 (fun x y => (N.of_nat (x * 40), N.of_nat (y * 10), 7, N.of_nat (200 + x * 55))%N).
Example compare_demo : match compare left_p right_p with Some c => map (fun d => (d_x d, d_y d)) (c_list c) | None => [] end = [(0, 0); (0, 1); (1, 1)]%nat /\ map (off_at left_p right_p) (common left_p right_p) = [55; 0; 145; 90]%Z.
Proof. vm_compute. split; reflexivity. Qed.
Example compare_demo_meets : (sum (map (off_at left_p right_p) (common left_p right_p)) < 16777216)%Z /\ (0 < N.of_nat (m_w left_p) * N.of_nat (m_h left_p) <= 16777216)%N.
Proof. vm_compute. repeat split; discriminate || reflexivity. Qed.
