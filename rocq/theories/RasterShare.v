(* The share of a column right of a slope, in closed form. *)
From Coq Require Import Qround.
From Verif Require Import Base FloatModel RasterModel RasterSpec.
Open Scope Q_scope.

(* the area under the function that is 0 up to 0, then rises to 1, then stays *)
Definition ramp (u : Q) : Q := if Qle_bool u 0 then 0 else if Qle_bool u 1 then u * u * (1 # 2) else u - (1 # 2).
Lemma ramp_lo u : u <= 0 -> ramp u == 0.
Proof. intros H. unfold ramp. rewrite (proj2 (Qle_bool_iff u 0) H). reflexivity. Qed.
Lemma ramp_mid u : 0 <= u -> u <= 1 -> ramp u == u * u * (1 # 2).
Proof.
  intros H H1. unfold ramp. destruct (Qle_bool u 0) eqn:E; [|rewrite (proj2 (Qle_bool_iff u 1) H1); reflexivity]. apply Qle_bool_iff in E. assert (Z : u == 0) by lra. rewrite Z. reflexivity.
Qed.
Lemma ramp_hi u : 1 <= u -> ramp u == u - (1 # 2).
Proof.
  intros H. unfold ramp. destruct (Qle_bool u 0) eqn:E; [apply Qle_bool_iff in E; lra|]. destruct (Qle_bool u 1) eqn:E1; [|reflexivity]. apply Qle_bool_iff in E1. assert (Z : u == 1) by lra. rewrite Z. reflexivity.
Qed.
Lemma ramp_wd u v : u == v -> ramp u == ramp v.
Proof.
  intros E. destruct (Qlt_le_dec 0 u) as [H|H]; [destruct (Qlt_le_dec 1 u) as [H1|H1]|].
  - rewrite (ramp_hi u), (ramp_hi v) by lra. lra.
  - rewrite (ramp_mid u), (ramp_mid v) by lra. now rewrite E.
  - rewrite (ramp_lo u), (ramp_lo v) by lra. reflexivity.
Qed.
Global Instance ramp_m : Proper (Qeq ==> Qeq) ramp.
Proof. intros u v E. now apply ramp_wd. Qed.

Definition unit_clamp (u : Q) : Q := if Qle_bool u 0 then 0 else if Qle_bool u 1 then u else 1.
Lemma unit_lo u : u <= 0 -> unit_clamp u == 0.
Proof. intros H. unfold unit_clamp. rewrite (proj2 (Qle_bool_iff u 0) H). reflexivity. Qed.
Lemma unit_mid u : 0 <= u -> u <= 1 -> unit_clamp u == u.
Proof. intros H H1. unfold unit_clamp. destruct (Qle_bool u 0) eqn:E; [apply Qle_bool_iff in E; lra|]. now rewrite (proj2 (Qle_bool_iff u 1) H1). Qed.
Lemma unit_hi u : 1 <= u -> unit_clamp u == 1.
Proof. intros H. unfold unit_clamp. destruct (Qle_bool u 0) eqn:E; [apply Qle_bool_iff in E; lra|]. destruct (Qle_bool u 1) eqn:E1; [|reflexivity]. apply Qle_bool_iff in E1. lra. Qed.
(* e: the right side of the column *)
Definition share (e a b : Q) : Q := if Qle_bool b a then unit_clamp (e - a) else (ramp (e - a) - ramp (e - b)) / (b - a).
Lemma share_flat e a b : b <= a -> share e a b == unit_clamp (e - a).
Proof. intros H. unfold share. now rewrite (proj2 (Qle_bool_iff b a) H). Qed.
Lemma share_slope e a b : a < b -> share e a b == (ramp (e - a) - ramp (e - b)) / (b - a).
Proof. intros H. unfold share. destruct (Qle_bool b a) eqn:E; [apply Qle_bool_iff in E; lra|reflexivity]. Qed.
Lemma share_times e a b : a <= b -> share e a b * (b - a) == ramp (e - a) - ramp (e - b).
Proof.
  intros H. destruct (Qlt_le_dec a b) as [L|L].
  - rewrite share_slope by exact L. field. lra.
  - assert (Z : b - a == 0) by lra. rewrite Z, (ramp_wd (e - a) (e - b)) by lra. ring.
Qed.
Lemma share_whole e a b : a <= b -> b + 1 <= e -> share e a b == 1.
Proof.
  intros H L. destruct (Qlt_le_dec a b) as [K|K].
  - rewrite share_slope by exact K. rewrite !ramp_hi by lra. field. lra.
  - rewrite share_flat by exact K. apply unit_hi. lra.
Qed.
Lemma share_none e a b : a <= b -> e <= a -> share e a b == 0.
Proof.
  intros H L. destruct (Qlt_le_dec a b) as [K|K].
  - rewrite share_slope by exact K. rewrite !ramp_lo by lra. field. lra.
  - rewrite share_flat by exact K. apply unit_lo. lra.
Qed.
Lemma share_in e a b : e - 1 <= a -> a <= b -> b <= e -> share e a b == ((e - a) + (e - b)) / 2.
Proof.
  intros H L M. destruct (Qlt_le_dec a b) as [K|K].
  - rewrite share_slope by exact K. rewrite !ramp_mid by lra. field. lra.
  - rewrite share_flat by exact K. rewrite unit_mid by lra. assert (E : b == a) by lra. rewrite E. field.
Qed.
Global Instance share_m : Proper (Qeq ==> Qeq ==> Qeq ==> Qeq) share.
Proof.
  intros e e' He a a' Ha b b' Hb. destruct (Qlt_le_dec a b) as [K|K].
  - rewrite !share_slope by lra. rewrite He, Ha, Hb. reflexivity.
  - rewrite !share_flat by lra. destruct (Qlt_le_dec 0 (e - a)) as [H|H]; [destruct (Qlt_le_dec 1 (e - a)) as [H1|H1]|].
    + rewrite !unit_hi by lra. reflexivity.
    + rewrite !unit_mid by lra. lra.
    + rewrite !unit_lo by lra. reflexivity.
Qed.
(* it is the share of the specification, and the only one *)
Lemma right_share_unique j a b v : right_share j a b v -> a <= b /\ v == share (of_Z j + 1) a b.
Proof.
  induction 1 as [a b v H L E|a b v H L E|a b v L1 H L2 E|a c b u w v L1 L2 _ [_ IH1] _ [_ IH2] E].
  - split; [exact H|]. rewrite share_whole by lra. exact E.
  - split; [exact H|]. rewrite share_none by lra. exact E.
  - split; [exact H|]. rewrite share_in by lra. exact E.
  - split; [lra|]. rewrite IH1, IH2, !share_times in E by lra. rewrite share_slope by lra.
    assert (Q : v * (b - a) == ramp (of_Z j + 1 - a) - ramp (of_Z j + 1 - b)) by (rewrite E; ring).
    rewrite <- Q. field. lra.
Qed.
Lemma cut_share j a c b : a < c -> c < b -> right_share j a c (share (of_Z j + 1) a c) -> right_share j c b (share (of_Z j + 1) c b) -> right_share j a b (share (of_Z j + 1) a b).
Proof. intros L1 L2 H1 H2. apply (rs_cut j a c b _ _ _ L1 L2 H1 H2). rewrite !share_times by lra. ring. Qed.
Lemma right_share_exists j a b : a <= b -> right_share j a b (share (of_Z j + 1) a b).
Proof.
  set (e := of_Z j + 1). intros H.
  assert (R : forall a, a <= b -> e - 1 <= a -> right_share j a b (share e a b)).
  { clear a H. intros a H La. assert (K : forall a, a <= b -> e <= a -> right_share j a b (share e a b)) by (intros a' H' L'; apply rs_none; [exact H'|exact L'|now apply share_none]).
    destruct (Qlt_le_dec a e) as [L|L]; [|now apply K]. destruct (Qlt_le_dec e b) as [M|M].
    - apply (cut_share j a e b L M); [|apply K; lra]. apply rs_trapezoid; [unfold e in *; lra|lra|apply Qle_refl|apply share_in; [exact La|apply Qlt_le_weak; exact L|apply Qle_refl]].
    - apply rs_trapezoid; [unfold e in *; lra|exact H|exact M|apply share_in; [exact La|exact H|exact M]]. }
  destruct (Qlt_le_dec a (e - 1)) as [L|L]; [|now apply R]. destruct (Qlt_le_dec (e - 1) b) as [M|M].
  - apply (cut_share j a (e - 1) b L M); [|apply R; lra]. apply rs_whole; [apply Qlt_le_weak; exact L|unfold e; generalize (of_Z j); intros q; lra|apply share_whole; [apply Qlt_le_weak; exact L|unfold e; generalize (of_Z j); intros q; lra]].
  - apply rs_whole; [exact H|revert M; unfold e; generalize (of_Z j); intros q M; lra|apply share_whole; [exact H|revert M; unfold e; generalize (of_Z j); intros q M; lra]].
Qed.
Close Scope Q_scope.
