(* Lines, fades and syllables. *)
From Verif Require Import Base FloatModel FloatSpec FloatProofs CollideModel CollideProofs SegmentModel AnimModel AnimSpec AnimProofs AnimFields ShowModel ShowSpec.

(* ---- lines ---- *)
Lemma divided_more ms gs : divided ms gs -> forall k, Forall (fun x => ~ newline x) k -> forall g gs', gs = gs' ++ [g] -> divided (ms ++ k) (gs' ++ [g ++ k]).
Proof.
  induction 1 as [g F|g x r gs F N0 D IH]; intros k K g' gs' E.
  - destruct gs' as [|y gs']; [|destruct gs'; discriminate]. injection E as <-. apply dv_last. now apply Forall_app.
  - destruct gs' as [|y gs']; [destruct gs; [inversion D|discriminate]|]. cbn [app] in E. injection E as <- E. cbn [app]. rewrite <- app_assoc. cbn [app]. apply dv_cons; [exact F|exact N0|]. now apply IH.
Qed.
Lemma divided_next ms gs : divided ms gs -> forall x k, newline x -> Forall (fun x => ~ newline x) k -> divided (ms ++ x :: k) (gs ++ [k]).
Proof.
  induction 1 as [g F|g y r gs F N0 D IH]; intros x k X K; [apply dv_cons; [exact F|exact X|now apply dv_last]|]. rewrite <- app_assoc. cbn [app]. apply dv_cons; [exact F|exact N0|now apply IH].
Qed.
Definition filled (l : list segment) : Prop := Forall (fun s => sg_text s <> []) l.
Lemma filled_marks l : filled l -> (line_marks l = [] <-> l = []).
Proof. intros F. split; [|now intros ->]. destruct F as [|s l S0 _]; [reflexivity|]. cbn [line_marks flat_map]. unfold marks. destruct (sg_text s); [contradiction|discriminate]. Qed.
Definition state_ok (ms : list mark) (st : list (list segment) * list segment) : Prop :=
  exists gs g, divided ms (gs ++ [g]) /\ map line_marks (fst st) = filter not_empty gs /\ line_marks (snd st) = g /\ filled (snd st) /\ Forall filled (fst st).
Definition seg_marks (s : segment) (t : str) : list mark := map (fun c => (c, (sg_start s, sg_end s, sg_tags s))) t.
Lemma marks_is s : marks s = seg_marks s (sg_text s). Proof. reflexivity. Qed.
Lemma piece_marks s p : marks (piece s p) = seg_marks s p. Proof. reflexivity. Qed.
Lemma line_marks_app l l' : line_marks (l ++ l') = line_marks l ++ line_marks l'. Proof. apply flat_map_app. Qed.
Lemma plain_marks s p : Forall (fun c => is_break c = false) p -> Forall (fun x => ~ newline x) (seg_marks s p).
Proof. intros F. apply Forall_map. eapply Forall_impl; [|exact F]. intros c C. unfold newline. cbn [fst]. apply N.eqb_neq. exact C. Qed.
Lemma state_more ms st s p : state_ok ms st -> Forall (fun c => is_break c = false) p -> state_ok (ms ++ seg_marks s p) (fst st, match p with [] => snd st | _ => snd st ++ [piece s p] end).
Proof.
  intros (gs & g & D & L & C & F & G) P. exists gs, (g ++ seg_marks s p). split; [exact (divided_more _ _ D _ (plain_marks s p P) g gs eq_refl)|]. split; [exact L|]. cbn [fst snd]. destruct p as [|c p].
  - cbn [seg_marks map]. rewrite app_nil_r. now split.
  - split; [rewrite line_marks_app; cbn [line_marks flat_map]; rewrite app_nil_r; now rewrite C, piece_marks|]. split; [|exact G]. apply Forall_app. split; [exact F|]. apply Forall_cons; [discriminate|apply Forall_nil].
Qed.
Lemma state_break ms st s : state_ok ms st -> state_ok (ms ++ [(10%N, (sg_start s, sg_end s, sg_tags s))]) (match snd st with [] => fst st | _ => fst st ++ [snd st] end, []).
Proof.
  intros (gs & g & D & L & C & F & G). exists (gs ++ [g]), []. split; [apply divided_next; [exact D|reflexivity|apply Forall_nil]|]. cbn [fst snd].
  rewrite filter_app. cbn [filter]. destruct (snd st) as [|x r] eqn:E.
  - cbn [line_marks flat_map] in C. subst g. cbn [not_empty]. rewrite app_nil_r. repeat split; try assumption; try reflexivity.
  - assert (N0 : g <> []). { intros ->. apply (filled_marks _ F) in C. discriminate. } destruct g as [|y g]; [contradiction|]. cbn [not_empty]. split; [rewrite map_app, L; cbn [map]; now rewrite C|]. split; [reflexivity|]. split; [apply Forall_nil|]. apply Forall_app. split; [exact G|]. apply Forall_cons; [exact F|apply Forall_nil].
Qed.
Lemma add_parts_step s p r st : add_parts s false (p :: r) st = add_parts s false r (match snd st with [] => fst st | _ => fst st ++ [snd st] end, match p with [] => [] | _ => [piece s p] end).
Proof. destruct st as [lines cur]. cbn [add_parts fst snd]. destruct cur; destruct p; reflexivity. Qed.
Fixpoint joined (parts : list str) : str := match parts with [] => [] | p :: r => 10%N :: p ++ joined r end.
Lemma parts_ok s parts : Forall (Forall (fun c => is_break c = false)) parts -> forall ms st, state_ok ms st -> state_ok (ms ++ seg_marks s (joined parts)) (add_parts s false parts st).
Proof.
  induction 1 as [|p r P _ IH]; intros ms st OK.
  - cbn [joined seg_marks map add_parts]. now rewrite app_nil_r.
  - rewrite add_parts_step. pose proof (state_more _ _ s p (state_break ms st s OK) P) as M. cbn [fst snd] in M. apply IH in M. unfold seg_marks in *. cbn [joined map]. rewrite map_app. rewrite <- !app_assoc in M. cbn [app] in M. destruct p; exact M.
Qed.
Lemma split_joined s : exists p r, split_on is_break s = p :: r /\ s = p ++ joined r /\ Forall (Forall (fun c => is_break c = false)) (p :: r).
Proof.
  induction s as [|c s (p & r & E & J & F)]; cbn [split_on]; [exists [], []; repeat constructor|]. destruct (is_break c) eqn:C.
  - exists [], (split_on is_break s). split; [reflexivity|]. rewrite E. cbn [app joined]. split; [apply N.eqb_eq in C; now rewrite C, <- J|]. apply Forall_cons; [apply Forall_nil|exact F].
  - rewrite E. exists (c :: p), r. split; [reflexivity|]. split; [cbn [app]; now rewrite <- J|]. inversion F; subst. apply Forall_cons; [now apply Forall_cons|assumption].
Qed.
Lemma add_segment_ok ms st s : state_ok ms st -> state_ok (ms ++ marks s) (add_segment st s).
Proof.
  intros OK. unfold add_segment. destruct (sg_text s) as [|c t] eqn:T; [unfold marks; rewrite T; cbn [map]; now rewrite app_nil_r|]. rewrite <- !T. destruct (existsb is_break (sg_text s)) eqn:X.
  - destruct (split_joined (sg_text s)) as (p & r & E & J & F). rewrite E. rewrite marks_is, J. inversion F as [|? ? P R]; subst. pose proof (state_more ms st s p OK P) as M. apply (parts_ok s r R) in M. unfold seg_marks in *. rewrite map_app, app_assoc. destruct st as [lines cur]. cbn [add_parts fst snd] in *. destruct cur; destruct p; exact M.
  - assert (P : Forall (fun c => is_break c = false) (sg_text s)). { apply Forall_forall. intros x I. destruct (is_break x) eqn:Y; [|reflexivity]. exfalso. apply not_true_iff_false in X. apply X, existsb_exists. now exists x. }
    pose proof (state_more ms st s _ OK P) as M. rewrite marks_is. rewrite T in *. destruct s as [u a b tg]. cbn in T. subst u. exact M.
Qed.
Lemma segments_ok segs : forall ms st, state_ok ms st -> state_ok (ms ++ line_marks segs) (fold_left add_segment segs st).
Proof.
  induction segs as [|s r IH]; intros ms st OK; cbn [fold_left line_marks flat_map]; [now rewrite app_nil_r|]. rewrite app_assoc. apply IH. now apply add_segment_ok.
Qed.
Lemma lines_are segs : exists gs, divided (line_marks segs) gs /\ map line_marks (split_into_lines segs) = filter not_empty gs /\ Forall filled (split_into_lines segs).
Proof.
  assert (OK : state_ok [] ([], [])). { exists [], []. split; [apply dv_last, Forall_nil|]. repeat split; apply Forall_nil. }
  destruct (segments_ok segs [] _ OK) as (gs & g & D & L & C & F & G). exists (gs ++ [g]). split; [exact D|]. unfold split_into_lines. destruct (fold_left add_segment segs ([], [])) as [lines cur]. cbn [fst snd] in *. rewrite filter_app. cbn [filter]. destruct cur as [|x r].
  - cbn in C. subst g. cbn [not_empty]. rewrite app_nil_r. now split.
  - assert (N0 : g <> []). { intros ->. apply (filled_marks _ F) in C. discriminate. } destruct g as [|y g]; [contradiction|]. cbn [not_empty]. rewrite map_app, L. cbn [map]. rewrite C. split; [reflexivity|]. apply Forall_app. split; [exact G|]. apply Forall_cons; [exact F|apply Forall_nil].
Qed.
Lemma divided_fun ms gs : divided ms gs -> forall gs', divided ms gs' -> gs = gs'.
Proof.
  induction 1 as [g F|g x r gs F N0 D IH]; intros gs' D'.
  - inversion D' as [g' F'|g' x' r' gs'' F' N' D'']; subst; [reflexivity|]. exfalso. apply Forall_app in F as [_ F]. inversion F; subst. contradiction.
  - inversion D' as [g' F'|g' x' r' gs'' F' N' D'' E]; subst.
    + exfalso. apply Forall_app in F' as [_ F']. inversion F'; subst. contradiction.
    + assert (G : g = g' /\ x :: r = x' :: r').
      { clear -F F' N0 N' E. revert g' F' E. induction F as [|y g Y F IHg]; intros g' F' E; destruct F' as [|y' g' Y' F']; cbn [app] in E; [now split|injection E as -> E; contradiction|injection E as -> E; contradiction|]. injection E as -> E. destruct (IHg g' F' E) as [-> ->]. now split. }
      destruct G as [-> G]. injection G as -> ->. f_equal. now apply IH.
Qed.

(* ---- fades ---- *)
Open Scope Q_scope.
Lemma Qn_le a b : (a <= b)%N <-> Qn a <= Qn b.
Proof. unfold Qn. rewrite <- Zle_Qle. lia. Qed.
Lemma Qn_lt a b : (a < b)%N <-> Qn a < Qn b.
Proof. unfold Qn. rewrite <- Zlt_Qlt. lia. Qed.
Lemma Qn_0 n : 0 <= Qn n. Proof. change 0 with (Qn 0). apply Qn_le. lia. Qed.
Lemma Qn_byte n : (n < 256)%N -> Qn n <= 255. Proof. intros H. change 255 with (Qn 255). apply Qn_le. lia. Qed.
Lemma fit255 : representable f32 255. Proof. exact (int_fits 255 ltac:(lia)). Qed.
Lemma byte_fits n : (n < 256)%N -> representable f32 (Qn n). Proof. intros H. apply int_fits. lia. Qed.
(* fa between 0 and 255 *)
Definition lit_by (fa : float) (x : Q) : Prop := fa = Fin x /\ 0 <= x <= 255.
Lemma dim_parts a fa x : (a < 256)%N -> lit_by fa x -> exists f w, round_to f32 (x / 255) = Fin f /\ 0 <= f <= 1 /\ Qabs (f - x / 255) <= 2 ^ (-25) /\ round_to f32 (Qn a * f) = Fin w /\
  mul32 (f_of_N f32 a) (f_div f32 fa (fl 255)) = Fin w /\ Qabs (w - Qn a * f) <= 2 ^ (-17) /\ 0 <= w <= Qn a.
Proof.
  intros A (-> & X). destruct (round_unit_err (x / 255)) as (f & F & U & E). { split; [apply Qle_shift_div_l; lra|apply Qle_shift_div_r; lra]. }
  destruct (byte_exact a A) as (y & Y & YE). change (inject_Z (Z.of_N a)) with (Qn a) in YE. pose proof (Qn_0 a) as A0. pose proof (Qn_byte a A) as A1.
  destruct (round_err (Qn a * f) 8) as (w & W & WE); [apply Qabs_Qlt_condition; change (2 ^ 8) with 256; split; nra|lia|]. exists f, w. split; [exact F|]. split; [exact U|]. split; [exact E|]. split; [exact W|]. split; [|split; [exact WE|]].
  - unfold fl, f_div, mul32. assert (Z0 : qzero (inject_Z 255) = false) by reflexivity. rewrite Z0. change (inject_Z 255) with 255. rewrite F, Y. cbn [f_mul]. now rewrite (round_wd f32 f32_valid (y * f) (Qn a * f)) by (rewrite YE; reflexivity).
  - split; [eapply round_ge; [exact zero_fits32| |exact W]; nra|eapply round_le; [exact (byte_fits a A)| |exact W]; nra].
Qed.
Lemma dim_byte a fa x : (a < 256)%N -> lit_by fa x -> exists z, f_to_N 255 (mul32 (f_of_N f32 a) (f_div f32 fa (fl 255))) = z /\ (z <= a)%N /\ Qabs (Qn z - Qn a * (x / 255)) <= 1 + 2 ^ (-16) /\ (x == 255 -> z = a) /\ (x == 0 -> z = 0%N).
Proof.
  intros A L. destruct (dim_parts a fa x A L) as (f & w & F & U & E & W & -> & WE & WB). destruct (to_byte w 0 a) as (z & Z1 & Z2 & Z3); [exact WB|exact A|]. exists z. split; [exact Z1|]. split; [lia|]. fold (Qn z) in Z3. rewrite inject_Z_plus in Z3. change (inject_Z 1) with 1 in Z3. fold (Qn z) in Z3.
  pose proof (Qn_0 a) as A0. pose proof (Qn_byte a A) as A1. split; [|split].
  - change (2 ^ (-25)) with (1 # 33554432) in E. change (2 ^ (-17)) with (1 # 131072) in WE. change (2 ^ (-16)) with (1 # 65536).
    setoid_replace (Qn z - Qn a * (x / 255)) with ((Qn z - w) + ((w - Qn a * f) + Qn a * (f - x / 255))) by ring. apply abs_bound in E. apply abs_bound in WE. apply abs_bound. split; nra.
  - intros X. destruct (round_exact f32 f32_valid 1 one_fits) as (v & V & VE). rewrite (round_wd f32 f32_valid (x / 255) 1) in F by (rewrite X; reflexivity). rewrite V in F. injection F as <-.
    destruct (round_exact f32 f32_valid (Qn a) (byte_fits a A)) as (u & U' & UE). rewrite (round_wd f32 f32_valid _ (Qn a)) in W by (rewrite VE; ring). rewrite U' in W. injection W as <-. rewrite UE in Z3.
    assert (z <= a)%N by (apply Qn_le; tauto). assert (Qn a < Qn (z + 1)). { unfold Qn at 2. rewrite N2Z.inj_add, inject_Z_plus. exact (proj2 Z3). } apply Qn_lt in H0. lia.
  - intros X. destruct (round_exact f32 f32_valid 0 zero_fits32) as (v & V & VE). rewrite (round_wd f32 f32_valid (x / 255) 0) in F by (rewrite X; reflexivity). rewrite V in F. injection F as <-.
    rewrite (round_wd f32 f32_valid _ 0) in W by (rewrite VE; ring). rewrite V in W. injection W as <-. rewrite VE in Z3. assert (z <= 0)%N by (apply Qn_le; tauto). lia.
Qed.
Lemma dim_seen fa x q c : lit_by fa x -> Qabs (x - 255 * q) <= 2 ^ (-15) -> (q == 1 -> x == 255) -> (q == 0 -> x == 0) -> (alpha_of c < 256)%N -> seen_at q c (dim fa c).
Proof.
  destruct c as [[[r g] b] a]. intros L E Q1 Q0 A. cbn [alpha_of] in A. destruct (dim_byte a fa x A L) as (z & Z0 & Z1 & Z2 & Z3 & Z4). unfold dim. cbn [with_alpha alpha_of]. rewrite Z0. unfold seen_at. repeat (split; [reflexivity|]). split; [exact Z1|]. split; [|split; [intros K; exact (Z3 (Q1 K))|intros K; exact (Z4 (Q0 K))]].
  pose proof (Qn_0 a) as A0. pose proof (Qn_byte a A) as A1. setoid_replace (Qn z - Qn a * q) with ((Qn z - Qn a * (x / 255)) + Qn a * ((x - 255 * q) / 255)) by field. eapply Qle_trans; [apply Qabs_triangle|].
  assert (B : Qabs (Qn a * ((x - 255 * q) / 255)) <= 2 ^ (-15)).
  { change (2 ^ (-15)) with (1 # 32768) in *. apply abs_bound in E. apply abs_bound. unfold Qdiv. change (/ 255) with (1 # 255). split; nra. }
  change (2 ^ (-15)) with (1 # 32768) in *. change (2 ^ (-16)) with (1 # 65536) in Z2. change (2 ^ (-14)) with (1 # 16384). lra.
Qed.
(* 255 * min(n/d, 1) *)
Lemma ratio_is n d : ratio n d = f_div f32 (f_of_Z f32 (Z.of_N n)) (f_of_Z f32 (Z.of_N d)). Proof. reflexivity. Qed.
Lemma min1_unit v : 0 <= v <= 1 -> f_min1 (Fin v) = Fin v \/ f_min1 (Fin v) = Fin 1 /\ v == 1.
Proof.
  intros U. unfold f_min1, fl. cbn [f_min]. destruct (f_le (Fin v) (Fin (inject_Z 1))) eqn:E; [now left|right]. split; [reflexivity|]. exfalso. apply not_true_iff_false in E. apply E. cbn [f_le]. apply Qle_bool_iff. exact (proj2 U).
Qed.
Lemma min1_same v : 0 <= v <= 1 -> f_min1 (Fin v) = Fin v.
Proof. intros U. unfold f_min1, fl. cbn [f_min]. destruct (f_le (Fin v) (Fin (inject_Z 1))) eqn:E; [reflexivity|]. exfalso. apply not_true_iff_false in E. apply E. cbn [f_le]. apply Qle_bool_iff. exact (proj2 U). Qed.
Lemma times255 v : 0 <= v <= 1 -> exists x, mul32 (fl 255) (Fin v) = Fin x /\ 0 <= x <= 255 /\ Qabs (x - 255 * v) <= 2 ^ (-17) /\ (v == 1 -> x == 255) /\ (v == 0 -> x == 0).
Proof.
  intros U. destruct (round_err (255 * v) 8) as (x & X & E); [apply Qabs_Qlt_condition; change (2 ^ 8) with 256; lra|lia|]. exists x. unfold mul32, fl. cbn [f_mul]. change (inject_Z 255) with 255. split; [exact X|]. split; [split; [eapply round_ge; [exact zero_fits32| |exact X]; lra|eapply round_le; [exact fit255| |exact X]; lra]|]. split; [exact E|]. split; intros V.
  - destruct (round_exact f32 f32_valid 255 fit255) as (w & W & WE). rewrite (round_wd f32 f32_valid _ 255) in X by (rewrite V; ring). rewrite W in X. injection X as <-. exact WE.
  - destruct (round_exact f32 f32_valid 0 zero_fits32) as (w & W & WE). rewrite (round_wd f32 f32_valid _ 0) in X by (rewrite V; ring). rewrite W in X. injection X as <-. exact WE.
Qed.
Lemma share_ends n d v : (n <= d)%N -> (1 <= d <= 65536)%N -> ratio n d = Fin v -> (Qn n / Qn d == 1 -> v == 1) /\ (Qn n / Qn d == 0 -> v == 0).
Proof.
  intros L D E. rewrite ratio_is in E. destruct (ratio_unit (Z.of_N n) (Z.of_N d)) as (a & b & w & A & B & B1 & AB & E1 & R & U); [lia|lia|]. rewrite E in E1. injection E1 as <-.
  destruct (int_exact (Z.of_N n)) as (a' & A' & EA); [lia|]. destruct (int_exact (Z.of_N d)) as (b' & B' & EB); [lia|]. rewrite A in A'. injection A' as <-. rewrite B in B'. injection B' as <-. split; intros Q0.
  - destruct (round_exact f32 f32_valid 1 one_fits) as (x & X & XE). rewrite (round_wd f32 f32_valid (a / b) 1) in R by (rewrite EA, EB; exact Q0). rewrite X in R. injection R as <-. exact XE.
  - destruct (round_exact f32 f32_valid 0 zero_fits32) as (x & X & XE). rewrite (round_wd f32 f32_valid (a / b) 0) in R by (rewrite EA, EB; exact Q0). rewrite X in R. injection R as <-. exact XE.
Qed.
Lemma simple_ramp n d : (n <= d)%N -> (1 <= d <= 65536)%N -> exists x, lit_by (mul32 (fl 255) (f_min1 (ratio n d))) x /\ Qabs (x - 255 * (Qn n / Qn d)) <= 2 ^ (-15) /\ (Qn n / Qn d == 1 -> x == 255) /\ (Qn n / Qn d == 0 -> x == 0).
Proof.
  intros L D. destruct (share_err (Z.of_N n) (Z.of_N d)) as (v & E & U & W); [lia|lia|]. change (ratio n d = Fin v) in E. destruct (share_ends n d v L D E) as [V1 V0]. rewrite E, min1_same by exact U. destruct (times255 v U) as (x & X & XB & XE & X1 & X0). exists x. split; [now split|]. split; [|split; intros K; [exact (X1 (V1 K))|exact (X0 (V0 K))]].
  fold (Qn n) (Qn d) in W. setoid_replace (x - 255 * (Qn n / Qn d)) with ((x - 255 * v) + 255 * (v - Qn n / Qn d)) by ring. change (2 ^ (-25)) with (1 # 33554432) in W. change (2 ^ (-17)) with (1 # 131072) in XE. change (2 ^ (-15)) with (1 # 32768). apply abs_bound in W. apply abs_bound in XE. apply abs_bound. lra.
Qed.
Lemma way_01 n d : on_the_way 0 1 n d == Qn n / Qn d. Proof. unfold on_the_way. ring. Qed.
Lemma from255 w ass : w = Fin ass -> 0 <= ass <= 255 -> exists x, lit_by (sub32 (fl 255) w) x /\ Qabs (x - (255 - ass)) <= 2 ^ (-17) /\ (ass == 0 -> x == 255) /\ (ass == 255 -> x == 0).
Proof.
  intros -> B. destruct (round_err (255 + - ass) 8) as (x & X & E); [apply Qabs_Qlt_condition; change (2 ^ 8) with 256; lra|lia|]. exists x. split; [|split; [|split]].
  - split; [exact X|]. split; [eapply round_ge; [exact zero_fits32| |exact X]; lra|eapply round_le; [exact fit255| |exact X]; lra].
  - setoid_replace (x - (255 - ass)) with (x - (255 + - ass)) by ring. exact E.
  - intros Z0. destruct (round_exact f32 f32_valid 255 fit255) as (v & V & VE). rewrite (round_wd f32 f32_valid _ 255) in X by (rewrite Z0; ring). rewrite V in X. injection X as <-. exact VE.
  - intros Z0. destruct (round_exact f32 f32_valid 0 zero_fits32) as (v & V & VE). rewrite (round_wd f32 f32_valid _ 0) in X by (rewrite Z0; ring). rewrite V in X. injection X as <-. exact VE.
Qed.
Lemma opaque_1 a : opaque a == 1 <-> Qn a == 0.
Proof. unfold opaque. split; intros H; [assert (K : Qn a / 255 == 0) by lra; setoid_replace (Qn a) with (255 * (Qn a / 255)) by field; rewrite K; ring|rewrite H; reflexivity]. Qed.
Lemma opaque_0 a : opaque a == 0 <-> Qn a == 255.
Proof. unfold opaque. split; intros H; [assert (K : Qn a / 255 == 1) by lra; setoid_replace (Qn a) with (255 * (Qn a / 255)) by field; rewrite K; ring|rewrite H; reflexivity]. Qed.
Lemma opaque_255 a : 255 - Qn a == 255 * opaque a. Proof. unfold opaque. field. Qed.
Lemma plateau a : (a < 256)%N -> exists x, lit_by (sub32 (fl 255) (f_of_N f32 a)) x /\ Qabs (x - 255 * opaque a) <= 2 ^ (-15) /\ (opaque a == 1 -> x == 255) /\ (opaque a == 0 -> x == 0).
Proof.
  intros A. destruct (byte_exact a A) as (y & Y & YE). fold (Qn a) in YE. destruct (from255 (f_of_N f32 a) y Y) as (x & X & XE & X1 & X0); [rewrite YE; split; [apply Qn_0|now apply Qn_byte]|]. exists x. split; [exact X|]. rewrite YE in XE, X1, X0. split; [rewrite <- opaque_255; eapply Qle_trans; [exact XE|discriminate]|]. split; intros K; [apply X1; now apply opaque_1|apply X0; now apply opaque_0].
Qed.
Lemma div_fin x d y : (1 <= d <= 65536)%N -> f_div f32 (Fin x) (f_of_N f32 d) = y -> exists e, e == Qn d /\ y = round_to f32 (x / e).
Proof.
  intros D <-. destruct (int_exact (Z.of_N d)) as (e & E & EE); [lia|]. exists e. split; [exact EE|]. unfold f_of_N. rewrite E. cbn [f_div]. assert (Z0 : qzero e = false). { unfold qzero. apply Z.eqb_neq. intros K. apply (qnum_zero f32) in K. rewrite K in EE. assert (Qn 0 < Qn d) by (apply Qn_lt; lia). change (Qn 0) with 0 in H. fold (Qn d) in EE. lra. } now rewrite Z0.
Qed.
Lemma ramp_parts a b n d : (a < 256)%N -> (b < 256)%N -> (n <= d)%N -> (1 <= d <= 65536)%N -> exists w, add32 (f_of_N f32 a) (f_div f32 (mul32 (sub32 (f_of_N f32 b) (f_of_N f32 a)) (f_of_N f32 n)) (f_of_N f32 d)) = Fin w /\
  0 <= w <= 255 /\ Qabs (w - (Qn a + (Qn b - Qn a) * (Qn n / Qn d))) <= 2 ^ (-16) /\ (Qn a == 0 -> Qn b == 0 -> w == 0) /\ (Qn a == 255 -> Qn b == 255 -> w == 255).
Proof.
  intros A B L D. destruct (byte_exact a A) as (x & X & XE), (byte_exact b B) as (y & Y & YE). destruct (int_exact (Z.of_N n)) as (m & M & ME); [lia|]. fold (Qn a) in XE. fold (Qn b) in YE. fold (Qn n) in ME.
  assert (IA : (0 <= Z.of_N a < 256)%Z) by lia. assert (IB : (0 <= Z.of_N b < 256)%Z) by lia.
  destruct (round_exact f32 f32_valid (inject_Z (Z.of_N b - Z.of_N a))) as (df & DF & DE); [apply int_fits; lia|]. assert (DD : df == Qn b - Qn a) by (rewrite DE; unfold Z.sub; rewrite inject_Z_plus, inject_Z_opp; reflexivity).
  assert (PB : (Z.abs ((Z.of_N b - Z.of_N a) * Z.of_N n) <= 16777216)%Z) by (rewrite Z.abs_mul; nia).
  destruct (round_exact f32 f32_valid (inject_Z ((Z.of_N b - Z.of_N a) * Z.of_N n))) as (pr & PR & PE); [now apply int_fits|]. assert (PP : pr == (Qn b - Qn a) * Qn n) by (rewrite PE, inject_Z_mult; unfold Z.sub; rewrite inject_Z_plus, inject_Z_opp; reflexivity).
  assert (E1 : mul32 (sub32 (f_of_N f32 b) (f_of_N f32 a)) (f_of_N f32 n) = Fin pr).
  { unfold mul32, sub32, f_sub. rewrite X, Y. unfold f_of_N. rewrite M. cbn [f_opp f_add]. rewrite (round_wd f32 f32_valid (y + - x) (inject_Z (Z.of_N b - Z.of_N a))) by (rewrite XE, YE; unfold Z.sub; rewrite inject_Z_plus, inject_Z_opp; reflexivity). rewrite DF. cbn [f_mul].
    rewrite (round_wd f32 f32_valid (df * m) (inject_Z ((Z.of_N b - Z.of_N a) * Z.of_N n))) by (rewrite DD, ME, inject_Z_mult; unfold Z.sub; rewrite inject_Z_plus, inject_Z_opp; reflexivity). exact PR. }
  rewrite E1. destruct (div_fin pr d _ D eq_refl) as (e & EE & ->).
  pose proof (Qn_0 a) as A0. pose proof (Qn_byte a A) as A1. pose proof (Qn_0 b) as B0. pose proof (Qn_byte b B) as B1.
  assert (D0 : 0 < Qn d) by (change 0 with (Qn 0); apply Qn_lt; lia). assert (S0 : 0 <= Qn n / Qn d <= 1). { pose proof (Qn_0 n). assert (Qn n <= Qn d) by now apply Qn_le. split; [apply Qle_shift_div_l; lra|apply Qle_shift_div_r; lra]. }
  set (q := Qn n / Qn d) in *. assert (PQ : pr / e == (Qn b - Qn a) * q) by (rewrite PP, EE; unfold q; field; lra). rewrite (round_wd f32 f32_valid _ _ PQ).
  destruct (round_err ((Qn b - Qn a) * q) 8) as (u & U & UE); [apply Qabs_Qlt_condition; change (2 ^ 8) with 256; split; nra|lia|]. rewrite U, X. unfold add32. cbn [f_add].
  rewrite (round_wd f32 f32_valid (x + u) (Qn a + u)) by (rewrite XE; reflexivity).
  assert (UB : - Qn a <= u <= 255 - Qn a).
  { split; [eapply round_ge; [| |exact U]; [apply (opp_fits (Qn a)), byte_fits; exact A|nra]|eapply round_le; [| |exact U]; [|nra]].
    assert (R : representable f32 (inject_Z (255 - Z.of_N a))) by (apply int_fits; lia). unfold Z.sub in R. rewrite inject_Z_plus, inject_Z_opp in R. exact R. }
  destruct (round_err (Qn a + u) 8) as (w & W & WE); [apply Qabs_Qlt_condition; change (2 ^ 8) with 256; lra|lia|]. exists w. split; [exact W|]. split; [split; [eapply round_ge; [exact zero_fits32| |exact W]; lra|eapply round_le; [exact fit255| |exact W]; lra]|]. split; [|split].
  - setoid_replace (w - (Qn a + (Qn b - Qn a) * q)) with ((w - (Qn a + u)) + (u - (Qn b - Qn a) * q)) by ring. eapply Qle_trans; [apply Qabs_triangle|]. change (2 ^ (8 - 25)) with (1 # 131072) in *. change (2 ^ (-16)) with (1 # 65536). lra.
  - intros ZA ZB. destruct (round_exact f32 f32_valid 0 zero_fits32) as (v & V & VE). rewrite (round_wd f32 f32_valid _ 0) in U by (rewrite ZA, ZB; ring). rewrite V in U. injection U as <-. rewrite (round_wd f32 f32_valid _ 0) in W by (rewrite ZA, VE; ring). rewrite V in W. injection W as <-. exact VE.
  - intros ZA ZB. destruct (round_exact f32 f32_valid 0 zero_fits32) as (v & V & VE). rewrite (round_wd f32 f32_valid _ 0) in U by (rewrite ZA, ZB; ring). rewrite V in U. injection U as <-. destruct (round_exact f32 f32_valid 255 fit255) as (s & S1 & SE). rewrite (round_wd f32 f32_valid _ 255) in W by (rewrite ZA, VE; ring). rewrite S1 in W. injection W as <-. exact SE.
Qed.
Lemma complex_ramp a b n d : (a < 256)%N -> (b < 256)%N -> (0 < n < d)%N -> (1 <= d <= 65536)%N -> exists x, lit_by (sub32 (fl 255) (add32 (f_of_N f32 a) (f_div f32 (mul32 (sub32 (f_of_N f32 b) (f_of_N f32 a)) (f_of_N f32 n)) (f_of_N f32 (N.max d 1))))) x /\
  Qabs (x - 255 * on_the_way (opaque a) (opaque b) n d) <= 2 ^ (-15) /\ (on_the_way (opaque a) (opaque b) n d == 1 -> x == 255) /\ (on_the_way (opaque a) (opaque b) n d == 0 -> x == 0).
Proof.
  intros A B L D. replace (N.max d 1) with d by lia. destruct (ramp_parts a b n d A B ltac:(lia) D) as (w & W & WB & WE & W0 & W1). destruct (from255 _ w W WB) as (x & X & XE & X1 & X0). exists x. split; [exact X|].
  pose proof (Qn_0 a) as A0. pose proof (Qn_byte a A) as A1. pose proof (Qn_0 b) as B0. pose proof (Qn_byte b B) as B1.
  assert (D0 : 0 < Qn d) by (change 0 with (Qn 0); apply Qn_lt; lia). assert (S0 : 0 < Qn n / Qn d < 1). { assert (Qn 0 < Qn n) by (apply Qn_lt; lia). change (Qn 0) with 0 in H. assert (Qn n < Qn d) by (apply Qn_lt; lia). split; [apply Qlt_shift_div_l; lra|apply Qlt_shift_div_r; lra]. }
  set (q := Qn n / Qn d) in *. assert (OE : 255 * on_the_way (opaque a) (opaque b) n d == 255 - (Qn a + (Qn b - Qn a) * q)) by (unfold on_the_way, opaque; fold q; field). split; [|split].
  - rewrite OE. setoid_replace (x - (255 - (Qn a + (Qn b - Qn a) * q))) with ((x - (255 - w)) + - (w - (Qn a + (Qn b - Qn a) * q))) by ring. eapply Qle_trans; [apply Qabs_triangle|]. rewrite Qabs_opp. change (2 ^ (-17)) with (1 # 131072) in XE. change (2 ^ (-16)) with (1 # 65536) in WE. change (2 ^ (-15)) with (1 # 32768). lra.
  - intros K. assert (M : Qn a * (1 - q) + Qn b * q == 0) by (rewrite K in OE; lra). assert (Qn a == 0 /\ Qn b == 0) as [Za Zb] by (split; nra). apply X1. now apply W0.
  - intros K. assert (M : (255 - Qn a) * (1 - q) + (255 - Qn b) * q == 0) by (rewrite K in OE; lra). assert (Qn a == 255 /\ Qn b == 255) as [Za Zb] by (split; nra). apply X0. now apply W1.
Qed.
Lemma fade_seen v start fin now q : modest_fade v -> fade_fits start v -> opacity start fin now v q -> exists fa x, fade_alpha v start fin now = Some fa /\ lit_by fa x /\ Qabs (x - 255 * q) <= 2 ^ (-15) /\ (q == 1 -> x == 255) /\ (q == 0 -> x == 0).
Proof.
  intros M F O. assert (AT : forall a b, (a + b < 2 ^ 32)%N -> add_time a b = Some (a + b)%N). { intros a b H. unfold add_time. change u32_max with 4294967295%N. destruct (N.ltb_spec 4294967295 (a + b)); [lia|reflexivity]. }
  destruct O as [a b i o L|a b i o L1 L2 L3|a b i o L1 L2|a1 a2 a3 s e i o L|a1 a2 a3 s e i o L1 L2|a1 a2 a3 s e i o L1 L2 L3|a1 a2 a3 s e i o L1 L2 L3 L4|a1 a2 a3 s e i o L1 L2 L3 L4]; cbn [modest_fade fade_fits] in M, F; unfold fade_alpha; destruct M as (M1 & M2).
  - rewrite AT by exact F. eexists. destruct (simple_ramp (now - start) (N.max i 1)) as (x & X & XE & X1 & X0); [lia|lia|]. exists x. split; [reflexivity|]. unfold fade_simple. destruct (N.ltb_spec now (start + i)); [|lia]. split; [exact X|].
    assert (W : on_the_way 0 1 (now - start) i == Qn (now - start) / Qn (N.max i 1)). { rewrite way_01. destruct (N.eq_dec i 0) as [->|I0]; [replace (now - start)%N with 0%N by lia; reflexivity|now replace (N.max i 1) with i by lia]. } rewrite W. now split.
  - rewrite AT by exact F. eexists. destruct (simple_ramp (fin - now) o) as (x & X & XE & X1 & X0); [lia|lia|]. exists x. split; [reflexivity|]. unfold fade_simple. destruct (N.ltb_spec now (start + i)); [lia|]. cbv zeta. destruct (N.leb_spec (fin - o) now); [|lia]. destruct (N.ltb_spec (fin - o) fin); [|lia]. cbn [andb]. replace (N.max o 1) with o by lia. split; [exact X|]. rewrite way_01. now split.
  - rewrite AT by exact F. eexists. exists 255. split; [reflexivity|]. unfold fade_simple. destruct (N.ltb_spec now (start + i)); [lia|]. cbv zeta. assert (Z0 : ((fin - o <=? now) && (fin - o <? fin))%N = false). { destruct (N.leb_spec (fin - o) now); [|reflexivity]. destruct (N.ltb_spec (fin - o) fin); [lia|reflexivity]. } rewrite Z0. split; [split; [reflexivity|lra]|]. split; [change (255 * 1) with 255; discriminate|]. split; [reflexivity|discriminate].
  - destruct F as [F1 F2]. rewrite !AT by lia. eexists. destruct (plateau a1) as (x & X & XE & X1 & X0); [exact M1|]. exists x. split; [reflexivity|]. unfold fade_complex. cbv zeta. destruct (N.leb_spec now (start + s)); [|lia]. now split.
  - destruct F as [F1 F2]. rewrite !AT by lia. eexists. destruct (complex_ramp a1 a2 (now - (start + s)) i) as (x & X & XE); [exact M1|lia|lia|lia|]. exists x. split; [reflexivity|]. unfold fade_complex. cbv zeta. destruct (N.leb_spec now (start + s)); [lia|]. destruct (N.ltb_spec now (start + s + i)); [|lia]. replace (start + s + i - (start + s))%N with i by lia. now split.
  - destruct F as [F1 F2]. rewrite !AT by lia. eexists. destruct (plateau a2) as (x & X & XE & X1 & X0); [lia|]. exists x. split; [reflexivity|]. unfold fade_complex. cbv zeta. destruct (N.leb_spec now (start + s)); [lia|]. destruct (N.ltb_spec now (start + s + i)); [lia|]. destruct (N.leb_spec now (start + e - o)); [|lia]. now split.
  - destruct F as [F1 F2]. rewrite !AT by lia. eexists. destruct (complex_ramp a2 a3 (now - (start + e - o)) (start + e - (start + e - o))) as (x & X & XE); [lia|lia|lia|lia|]. exists x. split; [reflexivity|]. unfold fade_complex. cbv zeta. destruct (N.leb_spec now (start + s)); [lia|]. destruct (N.ltb_spec now (start + s + i)); [lia|]. destruct (N.leb_spec now (start + e - o)); [lia|]. destruct (N.ltb_spec now (start + e)); [|lia]. now split.
  - destruct F as [F1 F2]. rewrite !AT by lia. eexists. destruct (plateau a3) as (x & X & XE & X1 & X0); [lia|]. exists x. split; [reflexivity|]. unfold fade_complex. cbv zeta. destruct (N.leb_spec now (start + s)); [lia|]. destruct (N.ltb_spec now (start + s + i)); [lia|]. destruct (N.leb_spec now (start + e - o)); [lia|]. destruct (N.ltb_spec now (start + e)); [lia|]. now split.
Qed.

Lemma dim_mono fa fa' x x' c : lit_by fa x -> lit_by fa' x' -> x <= x' -> (alpha_of c < 256)%N -> (alpha_of (dim fa c) <= alpha_of (dim fa' c))%N.
Proof.
  destruct c as [[[r g] b] a]. intros L L' X A. cbn [alpha_of] in A. unfold dim. cbn [with_alpha alpha_of].
  destruct (dim_parts a fa x A L) as (f & w & F & U & _ & W & -> & _ & WB). destruct (dim_parts a fa' x' A L') as (f' & w' & F' & U' & _ & W' & -> & _ & WB').
  destruct (to_byte w 0 a WB A) as (z & -> & _ & Z1), (to_byte w' 0 a WB' A) as (z' & -> & _ & Z2).
  assert (FF : f <= f') by (eapply mono_fin; [|exact F|exact F']; apply Qmult_le_compat_r; [exact X|discriminate]).
  assert (WW : w <= w') by (eapply mono_fin; [|exact W|exact W']; pose proof (Qn_0 a); nra).
  assert (K : inject_Z (Z.of_N z) < inject_Z (Z.of_N z' + 1)) by lra. rewrite <- Zlt_Qlt in K. lia.
Qed.
Lemma simple_lit n d : (n <= d)%N -> (1 <= d < 2 ^ 64)%N -> exists v x, ratio n d = Fin v /\ 0 <= v <= 1 /\ round_to f32 (255 * v) = Fin x /\ lit_by (mul32 (fl 255) (f_min1 (ratio n d))) x.
Proof.
  intros L D. destruct (ratio_unit (Z.of_N n) (Z.of_N d)) as (a & b & v & _ & _ & _ & _ & E & _ & U); [lia|lia|]. change (ratio n d = Fin v) in E. destruct (times255 v U) as (x & X & XB & _). exists v, x. split; [exact E|]. split; [exact U|]. split; [exact X|]. rewrite E, min1_same by exact U. now split.
Qed.
Lemma simple_mono n n' d : (n <= n')%N -> (n' <= d)%N -> (1 <= d < 2 ^ 64)%N -> exists x x', lit_by (mul32 (fl 255) (f_min1 (ratio n d))) x /\ lit_by (mul32 (fl 255) (f_min1 (ratio n' d))) x' /\ x <= x'.
Proof.
  intros L L' D. destruct (simple_lit n d) as (v & x & E & _ & X & P); [lia|exact D|]. destruct (simple_lit n' d) as (v' & x' & E' & _ & X' & P'); [lia|exact D|]. exists x, x'. split; [exact P|]. split; [exact P'|]. eapply mono_fin; [|exact X|exact X'].
  assert (v <= v') by (eapply (ratio_mono (Z.of_N n) (Z.of_N n') (Z.of_N d)); [lia|lia|lia|exact E|exact E']). lra.
Qed.
Lemma fade_in_lit i o start fin now now' : (start + i < 2 ^ 32)%N -> (now <= now')%N -> (now' < start + i)%N -> exists fa fa' x x', fade_alpha (VFade 255 255 i o None) start fin now = Some fa /\ fade_alpha (VFade 255 255 i o None) start fin now' = Some fa' /\ lit_by fa x /\ lit_by fa' x' /\ x <= x'.
Proof.
  intros F L L'. unfold fade_alpha, add_time. change u32_max with 4294967295%N. destruct (N.ltb_spec 4294967295 (start + i)); [lia|]. destruct (simple_mono (now - start) (now' - start) (N.max i 1)) as (x & x' & P); [lia|lia|lia|]. unfold fade_simple. cbv zeta. destruct (N.ltb_spec now (start + i)); [|lia]. destruct (N.ltb_spec now' (start + i)); [|lia]. do 2 eexists. exists x, x'. split; [reflexivity|]. split; [reflexivity|exact P].
Qed.
Lemma fade_out_lit i o start fin now now' : (start + i < 2 ^ 32)%N -> (o < 2 ^ 32)%N -> (start + i <= now)%N -> (now <= now')%N -> exists fa fa' x x', fade_alpha (VFade 255 255 i o None) start fin now = Some fa /\ fade_alpha (VFade 255 255 i o None) start fin now' = Some fa' /\ lit_by fa x /\ lit_by fa' x' /\ x' <= x.
Proof.
  intros F O L L'. unfold fade_alpha, add_time. change u32_max with 4294967295%N. destruct (N.ltb_spec 4294967295 (start + i)); [lia|]. unfold fade_simple. cbv zeta. destruct (N.ltb_spec now (start + i)); [lia|]. destruct (N.ltb_spec now' (start + i)); [lia|].
  destruct (N.leb_spec (fin - o) now); destruct (N.ltb_spec (fin - o) fin); cbn [andb].
  - destruct (simple_mono (fin - now') (fin - now) (N.max o 1)) as (x & x' & P & P' & X); [lia|lia|lia|]. destruct (N.leb_spec (fin - o) now'); [|lia]. do 2 eexists. exists x', x. split; [reflexivity|]. split; [reflexivity|]. now split.
  - rewrite andb_false_r. do 2 eexists. exists 255, 255. split; [reflexivity|]. split; [reflexivity|]. repeat split; discriminate.
  - destruct (N.leb_spec (fin - o) now'); cbn [andb].
    + destruct (simple_lit (fin - now') (N.max o 1)) as (v & x & _ & _ & _ & P); [lia|lia|]. do 2 eexists. exists 255, x. split; [reflexivity|]. split; [reflexivity|]. split; [repeat split; discriminate|]. split; [exact P|exact (proj2 (proj2 P))].
    + do 2 eexists. exists 255, 255. split; [reflexivity|]. split; [reflexivity|]. repeat split; discriminate.
  - rewrite andb_false_r. do 2 eexists. exists 255, 255. split; [reflexivity|]. split; [reflexivity|]. repeat split; discriminate.
Qed.
Lemma fade_none v start fin now : fade_alpha v start fin now = None <-> ~ fade_fits start v.
Proof.
  unfold fade_alpha, add_time. change u32_max with 4294967295%N. destruct v as [| | | | | | | | a b s e [[[c i] o]|] |] eqn:V; cbn [fade_fits]; try (split; [discriminate|intros H; exfalso; now apply H]).
  - destruct (N.ltb_spec 4294967295 (start + s)); [split; [lia|reflexivity]|]. destruct (N.ltb_spec 4294967295 (start + s + i)); [split; [lia|reflexivity]|]. destruct (N.ltb_spec 4294967295 (start + e)); [split; [lia|reflexivity]|]. split; [discriminate|lia].
  - destruct (N.ltb_spec 4294967295 (start + s)); [split; [lia|reflexivity]|split; [discriminate|lia]].
Qed.
Lemma opacity_is start fin now v : modest_fade v -> exists q, opacity start fin now v q.
Proof.
  destruct v as [| | | | | | | | a b s e [[[c i] o]|] |] eqn:V; cbn [modest_fade]; intros M; try contradiction.
  - destruct (N.le_gt_cases now (start + s)) as [H|H]; [eexists; now apply op_first|]. destruct (N.le_gt_cases (start + s + i) now) as [H0|H0]; [|eexists; now apply op_to_middle]. destruct (N.le_gt_cases now (start + e - o)) as [H1|H1]; [eexists; now apply op_middle|]. destruct (N.le_gt_cases (start + e) now) as [H2|H2]; [eexists; now apply op_last|eexists; now apply op_to_last].
  - destruct (N.le_gt_cases (start + s) now) as [H|H]; [|eexists; now apply op_in]. destruct (N.le_gt_cases fin (now + e)) as [H0|H0]; [|eexists; apply op_full; [exact H|lia]]. destruct (N.eq_dec e 0); [eexists; apply op_full; [exact H|lia]|]. destruct (N.eq_dec fin 0); [eexists; apply op_full; [exact H|lia]|]. eexists. apply op_out; lia.
Qed.

(* ---- karaoke ---- *)
Lemma ratio_sung n d : (n <= d)%N -> (1 <= d < 2 ^ 64)%N -> unit_num (ratio n d).
Proof. intros L D. destruct (ratio_unit (Z.of_N n) (Z.of_N d)) as (a & b & v & _ & _ & _ & _ & E & _ & U); [lia|lia|]. now exists v. Qed.
Definition sung_part (s d now : N) : float := if (now <? s)%N then fl 0 else if (s + d <=? now)%N then fl 1 else ratio (now - s) d.
Lemma sung_part_ok s d now : (d < 2 ^ 32)%N -> sung s d now (sung_part s d now).
Proof.
  intros D. unfold sung_part, sung. destruct (N.ltb_spec now s).
  - split; [exists 0; split; [reflexivity|lra]|]. split; [reflexivity|]. split; lia.
  - destruct (N.leb_spec (s + d) now).
    + split; [exists 1; split; [reflexivity|lra]|]. split; [lia|]. split; [reflexivity|lia].
    + split; [apply ratio_sung; lia|]. split; [lia|]. split; [lia|]. intros _ D'. destruct (share_err (Z.of_N (now - s)) (Z.of_N d)) as (v & E & _ & W); [lia|lia|]. exists v. now split.
Qed.
Lemma sung_part_mono s d now now' : (d < 2 ^ 32)%N -> (now <= now')%N -> num_le (sung_part s d now) (sung_part s d now').
Proof.
  intros D L. unfold sung_part. destruct (N.ltb_spec now s), (N.ltb_spec now' s), (N.leb_spec (s + d) now), (N.leb_spec (s + d) now'); try lia; unfold fl; try (cbn [num_le]; unfold inject_Z; lra).
  - destruct (ratio_sung (now' - s) d) as (v & -> & V); [lia|lia|]. exact (proj1 V).
  - destruct (ratio_sung (now - s) d) as (v & -> & V); [lia|lia|]. exact (proj2 V).
  - destruct (ratio_unit (Z.of_N (now - s)) (Z.of_N d)) as (_ & _ & v & _ & _ & _ & _ & E & _); [lia|lia|]. destruct (ratio_unit (Z.of_N (now' - s)) (Z.of_N d)) as (_ & _ & v' & _ & _ & _ & _ & E' & _); [lia|lia|]. change (ratio (now - s) d = Fin v) in E. change (ratio (now' - s) d = Fin v') in E'. rewrite E, E'. cbn [num_le].
    eapply (ratio_mono (Z.of_N (now - s)) (Z.of_N (now' - s)) (Z.of_N d)); [lia|lia|lia|exact E|exact E'].
Qed.
Close Scope Q_scope.
Lemma sing_step start now acc t r : sing start now acc (t :: r) =
  match syllable t with
  | Some d => if (u32_max <? start + acc + d)%N then Crash else rest <- sing start now (acc + d) r ;; Done (Some (sung_part (start + acc) d now) :: rest)
  | None => rest <- sing start now acc r ;; Done (None :: rest)
  end.
Proof.
  cbn [sing]. assert (S0 : match syllable t with Some d => exists x y, (if is_drawing t then None else tg_field t FKaraoke) = Some (VKaraoke d x y) | None => forall d x y, (if is_drawing t then None else tg_field t FKaraoke) <> Some (VKaraoke d x y) end).
  { unfold syllable, is_drawing. destruct (tg_field t FDrawing) as [v|]; [destruct v as [| | |[|n]| | | | | |]|]; cbn [N.ltb N.compare]; try (intros; discriminate); (destruct (tg_field t FKaraoke) as [w|]; [destruct w; try (intros; discriminate); now do 2 eexists|intros; discriminate]). }
  destruct (syllable t) as [d|].
  - destruct S0 as (x & y & ->). unfold add_time, sung_part. destruct (N.ltb_spec u32_max (start + acc)), (N.ltb_spec u32_max (start + acc + d)); try lia; try reflexivity. destruct (N.ltb_spec u32_max (acc + d)); [lia|reflexivity].
  - destruct (if is_drawing t then None else tg_field t FKaraoke) as [w|]; [|reflexivity]. destruct w; try reflexivity. exfalso. now eapply S0.
Qed.
Lemma sing_ok line : forall start now acc, (start + acc + total_length line < 2 ^ 32)%N -> exists ps, sing start now acc line = Done ps /\ line_sung (start + acc) now line ps.
Proof.
  induction line as [|t r IH]; intros start now acc F.
  - exists []. split; [reflexivity|]. split; [reflexivity|]. intros [|] ? ? E; discriminate.
  - rewrite sing_step. cbn [total_length] in F. change u32_max with 4294967295%N. destruct (syllable t) as [d|] eqn:S0.
    + destruct (N.ltb_spec 4294967295 (start + acc + d)); [lia|]. destruct (IH start now (acc + d)%N) as (ps & -> & LN & P); [lia|]. eexists. split; [reflexivity|]. split; [cbn [length]; now rewrite LN|]. intros before u after E. destruct before as [|b before]; cbn [app] in E; injection E as <- E.
      * rewrite S0. cbn [length nth_error total_length]. eexists. split; [reflexivity|]. rewrite N.add_0_r. apply sung_part_ok. lia.
      * specialize (P before u after E). cbn [length nth_error total_length]. rewrite S0. destruct (syllable u); [|exact P]. destruct P as (p & P1 & P2). exists p. split; [exact P1|]. now replace (start + acc + (d + total_length before))%N with (start + (acc + d) + total_length before)%N by lia.
    + destruct (IH start now acc) as (ps & -> & LN & P); [lia|]. eexists. split; [reflexivity|]. split; [cbn [length]; now rewrite LN|]. intros before u after E. destruct before as [|b before]; cbn [app] in E; injection E as <- E.
      * now rewrite S0.
      * specialize (P before u after E). cbn [length nth_error total_length]. rewrite S0. exact P.
Qed.
Lemma sing_crash line : forall start now acc, (start + acc + total_length line >= 2 ^ 32)%N -> (start + acc < 2 ^ 32)%N -> sing start now acc line = Crash.
Proof.
  induction line as [|t r IH]; intros start now acc F B; [cbn [total_length] in F; lia|]. rewrite sing_step. cbn [total_length] in F. change u32_max with 4294967295%N. destruct (syllable t) as [d|].
  - destruct (N.ltb_spec 4294967295 (start + acc + d)); [reflexivity|]. rewrite IH by lia. reflexivity.
  - rewrite IH by lia. reflexivity.
Qed.
Lemma sing_mono line : forall start now now' acc ps ps', (now <= now')%N -> sing start now acc line = Done ps -> sing start now' acc line = Done ps' -> Forall2 further ps ps'.
Proof.
  induction line as [|t r IH]; intros start now now' acc ps ps' L; rewrite ?sing_step.
  - intros [= <-] [= <-]. constructor.
  - change u32_max with 4294967295%N. destruct (syllable t) as [d|].
    + destruct (N.ltb_spec 4294967295 (start + acc + d)); [discriminate|]. destruct (sing start now (acc + d) r) eqn:E; try discriminate. destruct (sing start now' (acc + d) r) eqn:E'; try discriminate. intros [= <-] [= <-]. apply Forall2_cons; [apply sung_part_mono; lia|now apply (IH start now now' (acc + d)%N)].
    + destruct (sing start now acc r) eqn:E; try discriminate. destruct (sing start now' acc r) eqn:E'; try discriminate. intros [= <-] [= <-]. apply Forall2_cons; [exact I|now apply (IH start now now' acc)].
Qed.
