(* C209: the colour diagnosis, names and the choice of a back end *)
From Verif Require Import Base BaseLemmas NumSpec ParseModel Utf8Model ColorModel ColorSpec ColorProofs DiagModel.

(* ---- specification ---- *)
Definition ampersands (s : str) : Prop := Forall (eq 38%N) s.
Definition occurs (p s : str) : Prop := exists a b, s = a ++ p ++ b.
(* which colour a label names *)
Definition labelled (l : label) (r g b : N) : Prop :=
  let full x := x = 255%N in let none x := x = 0%N in
  match l with
  | White => full r /\ full g /\ full b | Black => none r /\ none g /\ none b
  | Red => full r /\ none g /\ none b | Green => none r /\ full g /\ none b | Blue => none r /\ none g /\ full b
  | Yellow => full r /\ full g /\ none b | Cyan => none r /\ full g /\ full b | Magenta => full r /\ none g /\ full b
  | Custom => ~ (Forall (fun x => full x \/ none x) [r; g; b])
  end.

Lemma find_str_some p s a b : find_str p s = Some (a, b) -> s = a ++ b /\ exists r, b = p ++ r.
Proof.
  revert a b. induction s as [|c s IH]; intros a b H; cbn [find_str] in H.
  - destruct (starts_with p []) eqn:E; [|discriminate H]. injection H as <- <-. split; [reflexivity|]. now apply starts_with_spec.
  - destruct (starts_with p (c :: s)) eqn:E; [injection H as <- <-; split; [reflexivity|now apply starts_with_spec]|].
    destruct (find_str p s) as [[a' b']|]; [|discriminate H]. injection H as <- <-. destruct (IH a' b' eq_refl) as [-> R]. now split.
Qed.
Lemma find_str_none p s : find_str p s = None -> forall a b, s <> a ++ p ++ b.
Proof.
  induction s as [|c s IH]; intros H a b E; cbn [find_str] in H.
  - destruct (starts_with p []) eqn:Q; [discriminate H|]. destruct a; [|discriminate E]. cbn [app] in E. assert (starts_with p [] = true) by (apply starts_with_spec; now exists b). congruence.
  - destruct (starts_with p (c :: s)) eqn:Q; [discriminate H|]. destruct (find_str p s) as [[x y]|]; [discriminate H|]. destruct a as [|d a].
    + cbn [app] in E. assert (starts_with p (c :: s) = true) by (apply starts_with_spec; now exists b). congruence.
    + cbn [app] in E. injection E as _ E. exact (IH eq_refl a b E).
Qed.
Lemma contains_occurs p s : contains p s = true <-> occurs p s.
Proof.
  unfold contains, occurs. destruct (find_str p s) as [[a b]|] eqn:E.
  - apply find_str_some in E as [-> [r ->]]. split; [intros _; now exists a, r|reflexivity].
  - split; [discriminate|]. intros (a & b & ->). destruct (find_str_none _ _ E a b eq_refl).
Qed.
Lemma label_ok r g b : labelled (label_of r g b) r g b.
Proof.
  assert (K : forall x : N, (x = 255 \/ x = 0 \/ (x <> 255 /\ x <> 0))%N) by (intros x; lia).
  assert (C : forall r g b, (r <> 255 /\ r <> 0 \/ g <> 255 /\ g <> 0 \/ b <> 255 /\ b <> 0)%N -> labelled Custom r g b).
  { intros r0 g0 b0 H F. inversion_clear F as [|? ? F1 F']. inversion_clear F' as [|? ? F2 F'']. inversion_clear F'' as [|? ? F3 _]. lia. }
  assert (L : forall r g b, (r <> 255 /\ r <> 0 \/ g <> 255 /\ g <> 0 \/ b <> 255 /\ b <> 0)%N -> label_of r g b = Custom).
  { clear. intros r g b H. unfold label_of. repeat match goal with |- context [match ?x with _ => _ end] => destruct x end; try reflexivity; lia. }
  destruct (K r) as [->|[->|R]], (K g) as [->|[->|G]], (K b) as [->|[->|B]]; try (cbn; tauto); rewrite L by tauto; apply C; tauto.
Qed.
Lemma hex_not_amp d v : hex_numeral_plus d v -> drop_end amp (lit "&H" ++ d) = lit "&H" ++ d.
Proof.
  intros H. destruct (exists_last (l := d)) as (l & c & E). { intros ->. destruct H as [[N _]|(d' & E & _)]; [now apply N|discriminate]. }
  apply drop_end_id. right. exists (lit "&H" ++ l), c. split; [subst d; now rewrite app_assoc|]. assert (I : In c d) by (subst d; apply in_elt). destruct (plus_chars d v H c I) as [->|X]; [reflexivity|]. unfold amp. destruct (N.eqb_spec c 38) as [->|]; [vm_compute in X; discriminate|reflexivity].
Qed.
Lemma amps s : ampersands s <-> forallb amp s = true.
Proof. unfold ampersands. rewrite Forall_forall, forallb_forall. unfold amp. split; intros H x I; specialize (H x I); [subst; reflexivity|]. apply N.eqb_eq in H. now symmetry. Qed.
Lemma byte_low v k : (k < 3)%N -> N.land (N.shiftr (N.land v 16777215) (8 * k)) 255 = byte_at k v.
Proof.
  intros K. rewrite <- byte_model. rewrite N.shiftr_land, <- N.land_assoc. f_equal. assert (k = 0 \/ k = 1 \/ k = 2)%N as [->|[->| ->]] by lia; reflexivity.
Qed.

(* a diagnosis exists exactly for &H, a number and ampersands, and has the bytes of the number *)
Theorem diagnosis_exact : forall s i, parse_color_debug s = Some i <->
  exists d v a, s = lit "&H" ++ d ++ a /\ ampersands a /\ hex_numeral_plus d v /\ (v <= u32_max)%N /\
    ci_hex i = d /\ ci_has_alpha i = (8 <=? List.length d) /\ ci_red i = byte_at 0 v /\ ci_green i = byte_at 1 v /\ ci_blue i = byte_at 2 v /\
    ci_alpha i = (if 8 <=? List.length d then byte_at 3 v else 0%N) /\ labelled (ci_label i) (ci_red i) (ci_green i) (ci_blue i).
Proof.
  assert (Un : forall l l' r g b, labelled l r g b -> labelled l' r g b -> l = l').
  { intros l l' r g b H K. destruct l, l'; try reflexivity; exfalso; cbn in H, K; try (apply H; repeat constructor; tauto); try (apply K; repeat constructor; tauto); destruct H as (? & ? & ?), K as (? & ? & ?); congruence. }
  assert (Bl : forall d v, hex_numeral_plus d v -> blen d = List.length d). { intros d v H. apply blen_ascii. exact (plus_ascii d v H). }
  assert (Val : forall d v a, hex_numeral_plus d v -> (v <= u32_max)%N -> ampersands a -> parse_color_debug (lit "&H" ++ d ++ a) =
    Some (Ci d (8 <=? List.length d) (if 8 <=? List.length d then byte_at 3 v else 0%N) (byte_at 0 v) (byte_at 1 v) (byte_at 2 v) (label_of (byte_at 0 v) (byte_at 1 v) (byte_at 2 v)))).
  { intros d v a H M A. unfold parse_color_debug. rewrite app_assoc, drop_end_app_all by (now apply amps). rewrite (hex_not_amp d v H). rewrite (proj2 (strip_prefix_some (lit "&H") (lit "&H" ++ d) d) eq_refl). rewrite (Bl d v H). rewrite (proj2 (parse_uint_hex u32_max d v) (conj H M)). cbv zeta.
    destruct (8 <=? List.length d).
    - change (N.land (N.shiftr v 24) 255) with (N.land (N.shiftr v (8 * 3)) 255). rewrite byte_model. pose proof (byte_low v 0 eq_refl) as B0. change (8 * 0)%N with 0%N in B0. rewrite N.shiftr_0_r in B0. pose proof (byte_low v 1 eq_refl) as B1. pose proof (byte_low v 2 eq_refl) as B2. change (8 * 1)%N with 8%N in B1. change (8 * 2)%N with 16%N in B2. now rewrite B0, B1, B2.
    - pose proof (byte_model 0 v) as B0. change (8 * 0)%N with 0%N in B0. rewrite N.shiftr_0_r in B0. pose proof (byte_model 1 v) as B1. pose proof (byte_model 2 v) as B2. change (8 * 1)%N with 8%N in B1. change (8 * 2)%N with 16%N in B2. now rewrite B0, B1, B2. }
  intros s i. split.
  - intros H. destruct (drop_end_spec amp s) as (a & E & A & _). pose proof H as H0. unfold parse_color_debug in H0. destruct (strip_prefix (lit "&H") (drop_end amp s)) as [d|] eqn:P; [|discriminate]. apply strip_prefix_some in P. cbv zeta in H0. destruct (parse_uint u32_max 16 d) as [v|] eqn:U; [|discriminate]. clear H0. apply parse_uint_hex in U as [U M]. rewrite P in E. rewrite <- app_assoc in E. apply amps in A.
    exists d, v, a. rewrite E in H. rewrite (Val d v a U M A) in H. injection H as <-. cbn. repeat split; auto. apply label_ok.
  - intros (d & v & a & -> & A & U & M & E1 & E2 & E3 & E4 & E5 & E6 & L). rewrite (Val d v a U M A). destruct i as [h ha al r g b l]. cbn in *. subst. do 2 f_equal. eapply Un; [apply label_ok|exact L].
Qed.
Print Assumptions diagnosis_exact.

(* where the parser reads a colour written &H..., the diagnosis shows the same one *)
Theorem diagnosis_agrees : forall s r g b a, trim s = s -> starts_with (lit "&H") s = true -> parse_bgr_color s = Ok (r, g, b, a) ->
  exists i, parse_color_debug s = Some i /\ ci_red i = r /\ ci_green i = g /\ ci_blue i = b /\ ci_alpha i = a.
Proof.
  intros s r g b a T P H. apply color_exact in H as (d & v & D & U & Q). rewrite T in D.
  assert (exists e, s = lit "&H" ++ d ++ e /\ ampersands e) as (e & -> & A).
  { apply starts_with_spec in P as (w & ->). destruct D as [D|[D|[D|[D|[D|[D F]]]]]]; cbn in D; try discriminate.
    - exists (lit "&"). split; [exact D|repeat constructor].
    - exists []. split; [rewrite app_nil_r; exact D|constructor].
    - exfalso. rewrite <- D in F. cbn in F. discriminate. }
  assert (M : (v <= u32_max)%N) by (apply (plus_bound d v U); destruct Q as [[-> _]|[-> _]]; lia).
  exists (Ci d (8 <=? List.length d) (if 8 <=? List.length d then byte_at 3 v else 0%N) (byte_at 0 v) (byte_at 1 v) (byte_at 2 v) (label_of (byte_at 0 v) (byte_at 1 v) (byte_at 2 v))).
  split; [apply diagnosis_exact; exists d, v, e; cbn; repeat split; auto; apply label_ok|]. cbn. destruct Q as [[-> Q]|[-> Q]]; injection Q as -> -> -> ->; repeat split.
Qed.
Print Assumptions diagnosis_agrees.

Example diagnosis_ex : parse_color_debug (lit "&H8000FFFF&&") = Some (Ci (lit "8000FFFF") true 128 255 255 0 Yellow) /\ parse_bgr_color (lit "&H8000FFFF") = Ok (255, 255, 0, 128)%N.
Proof. vm_compute. split; reflexivity. Qed.

(* the parser reads &h, the diagnosis calls it invalid *)
Theorem diagnosis_lower_refuted : exists s q, parse_bgr_color s = Ok q /\ parse_color_debug s = None.
Proof. exists (lit "&hFFFFFF&"), (255, 255, 255, 0)%N. vm_compute. split; reflexivity. Qed.
Print Assumptions diagnosis_lower_refuted.

(* overrides are reported exactly when a text has \c or \1c in it, which a clip also has *)
Theorem overrides_reported : forall texts, has_color_overrides texts = true <-> exists t, In t texts /\ (occurs (lit "\c") t \/ occurs (lit "\1c") t).
Proof.
  intros texts. unfold has_color_overrides. rewrite existsb_exists. split; intros (t & I & H); exists t; (split; [exact I|]); [apply orb_true_iff in H|apply orb_true_iff]; rewrite !contains_occurs in *; exact H.
Qed.
Print Assumptions overrides_reported.
Theorem overrides_clip_refuted : has_color_overrides [lit "{\clip(0,0,10,10)}a"] = true /\ has_color_overrides [lit "{\3c&H0000FF&}a"] = false.
Proof. vm_compute. split; reflexivity. Qed.
Print Assumptions overrides_clip_refuted.

(* a name is accepted exactly when nothing in it can end a field, a key or a block *)
Theorem name_accepted : forall s, validate_ass_name s = true <->
  s <> [] /\ forall c, In c s -> ~ In c (lit ",:{}") /\ (c = 9%N \/ ~ ((c < 32) \/ (127 <= c <= 159))%N).
Proof.
  intros s. unfold validate_ass_name. rewrite !andb_true_iff, !negb_true_iff, forallb_forall.
  assert (X : forall k, existsb (N.eqb k) s = false <-> ~ In k s).
  { intros k. split; intros H. - intros I. assert (existsb (N.eqb k) s = true) by (apply existsb_exists; exists k; split; [exact I|apply N.eqb_refl]). congruence. - destruct (existsb (N.eqb k) s) eqn:E; [|reflexivity]. apply existsb_exists in E as (x & I & E). apply N.eqb_eq in E. subst. contradiction. }
  rewrite !X. unfold is_control. split.
  - intros [[[[[N C1] C2] C3] C4] F]. split; [destruct s; [discriminate|discriminate]|]. intros c I. split.
    + intros J. cbn in J. repeat destruct J as [<-|J]; contradiction.
    + specialize (F c I). lia.
  - intros [N H]. split; [repeat split; try (destruct s; [contradiction|reflexivity]); intros I; destruct (H _ I) as [K _]; apply K; cbn; tauto|]. intros c I. destruct (H c I) as [_ K]. lia.
Qed.
Print Assumptions name_accepted.
Example name_ex : validate_ass_name (lit "Main style") = true /\ validate_ass_name (lit "a,b") = false /\ validate_ass_name [] = false.
Proof. vm_compute. repeat split. Qed.

(* the back end is the first of the order that is compiled in and can be made *)
Theorem probe_first : forall (kind backend : Type) (compiled : kind -> bool) (create : kind -> option backend) order,
  match probe_best compiled create order with
  | Some b => exists before k after, order = before ++ k :: after /\ In k (available compiled order) /\ create k = Some b /\ forall j, In j before -> compiled j = true -> create j = None
  | None => forall k, In k (available compiled order) -> create k = None
  end.
Proof.
  intros kind backend compiled create order. induction order as [|k r IH]; [intros k []|]. cbn [probe_best]. unfold try_create at 1. unfold available in *. cbn [filter]. destruct (compiled k) eqn:C.
  - destruct (create k) as [b|] eqn:K; [exists [], k, r; repeat split; [now left|exact K|easy]|]. destruct (probe_best compiled create r) as [b|].
    + destruct IH as (p & j & q & -> & I & J & F). exists (k :: p), j, q. repeat split; [now right|exact J|]. intros x [<-|X]; [now intros _|now apply F].
    + intros j [<-|I]; [exact K|now apply IH].
  - destruct (probe_best compiled create r) as [b|]; [|exact IH]. destruct IH as (p & j & q & -> & I & J & F). exists (k :: p), j, q. repeat split; [exact I|exact J|]. intros x [<-|X] Y; [congruence|now apply F].
Qed.
Print Assumptions probe_first.
Example probe_ex : probe_best (fun n => negb (n =? 0)) (fun n => if n =? 1 then None else Some (n + 10)) [0; 1; 2; 3] = Some 12 /\ available (fun n => negb (n =? 0)) [0; 1; 2] = [1; 2].
Proof. split; reflexivity. Qed.
