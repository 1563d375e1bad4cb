From Verif Require Import StyleModel StyleSpec MapLib NumProofs ColorProofs FloatProofs FloatTextProofs StyleLinkProofs.

Lemma f32_valid : valid_format f32.
Proof. split; cbn; lia. Qed.
Lemma bind_ok {A B} (e : res A) (f : A -> res B) r : res_bind e f = Ok r <-> exists x, e = Ok x /\ f x = Ok r.
Proof. destruct e as [a| |]; cbn; split; [intros H; eauto|intros (x & [= <-] & H); exact H|discriminate|intros (x & D & _); discriminate|discriminate|intros (x & D & _); discriminate]. Qed.
Lemma bind_panic {A B} (e : res A) (f : A -> res B) : e <> Panic -> (forall x, e = Ok x -> f x <> Panic) -> res_bind e f <> Panic.
Proof. destruct e; cbn; intros P F; [now apply F|discriminate|congruence]. Qed.
Lemma of_opt_ok {A} (o : option A) x : of_opt o = Ok x <-> o = Some x.
Proof. destruct o; cbn; split; congruence. Qed.
Lemma of_opt_panic {A} (o : option A) : of_opt o <> Panic.
Proof. destruct o; discriminate. Qed.

(* ---- fields ---- *)
Lemma float_ok s x : style_float s = Ok x <-> number_text f32 s x.
Proof. unfold style_float. rewrite of_opt_ok. apply parse_iff, f32_valid. Qed.
Lemma size_ok s x : parse_font_size s = Ok x <-> size_text s x.
Proof.
  unfold parse_font_size, size_text. rewrite bind_ok. assert (E0 : f32_of 0 = Fin 0) by (vm_compute; reflexivity). assert (E1 : f32_of 1000 = Fin 1000) by (vm_compute; reflexivity). rewrite E0, E1. unfold positive_size.
  assert (K : forall y, (if f_le y (Fin 0) || f_lt (Fin 1000) y then Err else Ok y) = Ok x <-> y = x /\ (x = NaN \/ exists q, x = Fin q /\ (0 < q <= 1000)%Q)).
  { intros y. destruct y as [|[|]|q]; cbn.
    - split; [intros [= <-]; auto|now intros [<- _]].
    - split; [discriminate|]. intros [<- [D|(q & D & _)]]; discriminate.
    - split; [discriminate|]. intros [<- [D|(q & D & _)]]; discriminate.
    - unfold f_lt. cbn [f_le]. destruct (Qle_bool q 0) eqn:A; cbn [orb].
      + split; [discriminate|]. intros [<- [D|(q' & [= <-] & B)]]; [discriminate|]. apply Qle_bool_iff in A. lra.
      + assert (A' : (0 < q)%Q). { apply Qnot_le_lt. intros H. apply Qle_bool_iff in H. congruence. }
        destruct (Qle_bool q 1000) eqn:C; [|]; cbn [negb andb].
        * apply Qle_bool_iff in C. rewrite andb_false_r. split; [intros [= <-]; split; [reflexivity|]; right; exists q; auto|now intros [<- _]].
        * rewrite andb_true_r. assert (C' : (1000 < q)%Q). { apply Qnot_le_lt. intros H. apply Qle_bool_iff in H. congruence. } assert (Cb : Qle_bool 1000 q = true) by (apply Qle_bool_iff; lra). rewrite Cb. split; [discriminate|]. intros [<- [D|(q' & [= <-] & B)]]; [discriminate|lra]. }
  split.
  - intros (y & H & E). apply K in E. destruct E as [-> E]. apply float_ok in H. auto.
  - intros [H E]. apply float_ok in H. exists x. split; [exact H|]. apply K. auto.
Qed.
Lemma percent_ok s x : parse_percentage s = Ok x <-> percent_text s x.
Proof.
  unfold parse_percentage, percent_text. rewrite bind_ok. assert (E0 : f32_of 0 = Fin 0) by (vm_compute; reflexivity). assert (E1 : f32_of 1000 = Fin 1000) by (vm_compute; reflexivity). rewrite E0, E1. unfold percentage.
  assert (K : forall y, (if f_le (Fin 0) y && f_le y (Fin 1000) then Ok y else Err) = Ok x <-> y = x /\ (exists q, x = Fin q /\ (0 <= q <= 1000)%Q)).
  { intros y. destruct y as [|[|]|q]; cbn [f_le andb].
    - split; [discriminate|]. intros [<- (q & D & _)]; discriminate.
    - split; [discriminate|]. intros [<- (q & D & _)]; discriminate.
    - split; [discriminate|]. intros [<- (q & D & _)]; discriminate.
    - destruct (Qle_bool 0 q && Qle_bool q 1000) eqn:A.
      + apply andb_true_iff in A. rewrite !Qle_bool_iff in A. split; [intros [= <-]; split; [reflexivity|]; exists q; auto|now intros [<- _]].
      + split; [discriminate|]. intros [<- (q' & [= <-] & B)]. assert (Qle_bool 0 q && Qle_bool q 1000 = true) by (apply andb_true_iff; now rewrite !Qle_bool_iff). congruence. }
  split.
  - intros (y & H & E). apply K in E. destruct E as [-> E]. apply float_ok in H. auto.
  - intros [H E]. apply float_ok in H. exists x. split; [exact H|]. apply K. auto.
Qed.
Lemma colour_ok s c : parse_color_with_default s = Ok c <-> colour_text s c.
Proof.
  unfold parse_color_with_default, colour_text. destruct (trim s) as [|x t] eqn:T.
  - split; [intros [= <-]; now left|]. intros [[_ ->]|[N _]]; [reflexivity|congruence].
  - rewrite color_exact, T. split; [intros H; right; split; [discriminate|exact H]|]. intros [[N _]|[_ H]]; [discriminate|exact H].
Qed.
Lemma flag_ok s b : parse_bool_flag s = Ok b <-> flag_text s b.
Proof.
  unfold parse_bool_flag, flag_text. destruct (str_eqb s (lit "0")) eqn:A.
  - apply str_eqb_eq in A. split; [intros [= <-]; exact A|]. intros ->. destruct b; [discriminate|reflexivity].
  - destruct (str_eqb s (lit "1")) eqn:B.
    + apply str_eqb_eq in B. split; [intros [= <-]; exact B|]. intros ->. destruct b; [reflexivity|discriminate].
    + split; [discriminate|]. intros ->. destruct b; cbn in *; discriminate.
Qed.
Lemma u8_ok s n : parse_u8 s = Ok n <-> small_text 255 s n.
Proof. unfold parse_u8. rewrite of_opt_ok. apply parse_uint_dec. Qed.
Lemma u16_ok s n : parse_u16 s = Ok n <-> small_text 65535 s n.
Proof. unfold parse_u16. rewrite of_opt_ok. apply parse_uint_dec. Qed.

(* ---- complexity ---- *)
Lemma lt_above z x : f_lt (Fin (inject_Z z)) x = above x z.
Proof.
  unfold f_lt, above. destruct x as [|[|]|q]; try reflexivity. cbn [f_le]. destruct (Qle_bool q (inject_Z z)) eqn:A; cbn [negb]; [apply andb_false_r|]. rewrite andb_true_r. apply Qle_bool_iff. apply Qlt_le_weak, Qnot_le_lt. intros H. apply Qle_bool_iff in H. congruence.
Qed.
Lemma complexity_is r : calculate_complexity r = Some (difficulty r).
Proof.
  unfold calculate_complexity, difficulty. assert (E : forall z, In z [72; 48; 4; 2; 3; 1; 100]%Z -> f32_of z = Fin (inject_Z z)).
  { intros z H. cbn in H. repeat (destruct H as [<-|H]; [vm_compute; reflexivity|]). destruct H. }
  rewrite !E by (cbn; tauto). rewrite !lt_above. change (inject_Z 100) with 100%Q. change (f_lt epsilon (f_abs (f_sub f32 (rs_scale_x r) (Fin 100)))) with (off_by (rs_scale_x r) (Fin 100)). change (f_lt epsilon (f_abs (f_sub f32 (rs_scale_y r) (Fin 100)))) with (off_by (rs_scale_y r) (Fin 100)).
  destruct (off_by _ _ || off_by _ _), (f_lt epsilon _), (rs_bold r), (rs_italic r), (rs_underline r || rs_strike r), (above (rs_size r) 72), (above (rs_size r) 48), (above (rs_outline r) 4), (above (rs_outline r) 2), (above (rs_shadow r) 3), (above (rs_shadow r) 1); reflexivity.
Qed.
Lemma difficulty_max r : (difficulty r <= 79)%N.
Proof.
  unfold difficulty. repeat match goal with |- context [if ?b then _ else _] => destruct b end; lia.
Qed.
Definition same_but_complexity (a b : resolved) : Prop := exists c, b = Resolved (rs_name a) (rs_font a) (rs_size a) (rs_primary a) (rs_secondary a) (rs_outlinec a) (rs_back a)
      (rs_bold a) (rs_italic a) (rs_underline a) (rs_strike a) (rs_scale_x a) (rs_scale_y a) (rs_spacing a) (rs_angle a)
      (rs_border_style a) (rs_outline a) (rs_shadow a) (rs_alignment a) (rs_margin_l a) (rs_margin_r a) (rs_margin_t a) (rs_margin_b a)
      (rs_encoding a) c.
Lemma with_complexity_ok a r : with_complexity a = Ok r <-> same_but_complexity a r /\ rs_complexity r = difficulty r.
Proof.
  unfold with_complexity. rewrite complexity_is. split.
  - intros [= <-]. split; [eexists; reflexivity|reflexivity].
  - intros [[c ->] E]. cbn [rs_complexity] in E. rewrite E. reflexivity.
Qed.
Lemma with_complexity_panic a : exists r, with_complexity a = Ok r.
Proof. unfold with_complexity. rewrite complexity_is. eexists. reflexivity. Qed.

Ltac binds H := repeat (apply bind_ok in H; let x := fresh "x" in let E := fresh "E" in destruct H as (x & E & H)).
Lemma from_style_iff s r : from_style s = Ok r <-> resolves s r.
Proof.
  split.
  - intros H. unfold from_style in H. binds H. apply with_complexity_ok in H. destruct H as [[c ->] Hc].
    rewrite ?size_ok, ?colour_ok, ?flag_ok, ?percent_ok, ?float_ok, ?u8_ok, ?u16_ok in *. constructor; cbn; try assumption; [reflexivity|reflexivity|].
    unfold margins_text. destruct (s_margin_t s) as [t|]; [destruct (s_margin_b s) as [b|]|].
    + match goal with E : res_bind (parse_u16 t) _ = Ok ?y |- _ => binds E; injection E as <- end. cbn. rewrite u16_ok in *. now split.
    + match goal with E : res_bind (parse_u16 (s_margin_v s)) _ = Ok ?y |- _ => binds E; injection E as <- end. cbn. rewrite u16_ok in *. now split.
    + match goal with E : res_bind (parse_u16 (s_margin_v s)) _ = Ok ?y |- _ => binds E; injection E as <- end. cbn. rewrite u16_ok in *. now split.
  - intros [rv_name0 rv_font0 rv_size0 rv_primary0 rv_secondary0 rv_outlinec0 rv_back0 rv_bold0 rv_italic0 rv_underline0 rv_strike0 rv_scale_x0 rv_scale_y0 rv_spacing0 rv_angle0 rv_border0 rv_outline0 rv_shadow0 rv_alignment0 rv_margin_l0 rv_margin_r0 rv_margins0 rv_encoding0 rv_complexity0]. rewrite <- ?size_ok, <- ?colour_ok, <- ?flag_ok, <- ?percent_ok, <- ?float_ok, <- ?u8_ok, <- ?u16_ok in *. unfold from_style.
    rewrite rv_size0, rv_primary0, rv_secondary0, rv_outlinec0, rv_back0, rv_bold0, rv_italic0, rv_underline0, rv_strike0, rv_scale_x0, rv_scale_y0, rv_spacing0, rv_angle0, rv_border0, rv_outline0, rv_shadow0, rv_alignment0, rv_margin_l0, rv_margin_r0. cbn [res_bind].
    assert (M : match s_margin_t s, s_margin_b s with Some t, Some b => t' <~ parse_u16 t; b' <~ parse_u16 b; Ok (t', b') | _, _ => v <~ parse_u16 (s_margin_v s); Ok (v, v) end = Ok (rs_margin_t r, rs_margin_b r)).
    { unfold margins_text in rv_margins0. destruct (s_margin_t s) as [t|]; [destruct (s_margin_b s) as [b|]|]; destruct rv_margins0 as [A B]; rewrite <- ?u16_ok in *; rewrite A; cbn [res_bind]; [rewrite B; reflexivity|now rewrite B|now rewrite B]. }
    rewrite M. cbn [res_bind]. rewrite rv_encoding0. cbn [res_bind fst snd]. apply with_complexity_ok. split; [|exact rv_complexity0]. destruct r. cbn in *. eexists. rewrite rv_name0, rv_font0. reflexivity.
Qed.
Lemma own_ok {A} (f : str) (p : A) parse reads v : (forall x y, parse x = Ok y <-> reads x y) -> own f p parse = Ok v <-> inherited [[]] f p reads v.
Proof.
  intros R. unfold own, inherited. destruct f as [|c f]; cbn [is_nil In].
  - split; [intros [= <-]; left; split; [now left|reflexivity]|]. intros [[_ ->]|[N _]]; [reflexivity|]. destruct N. now left.
  - rewrite R. split; [intros H; right; split; [intros [D|[]]; discriminate|exact H]|]. intros [[[D|[]] _]|[_ H]]; [discriminate|exact H].
Qed.
Lemma own_unless_ok {A} (f : str) d (p : A) parse reads v : (forall x y, parse x = Ok y <-> reads x y) -> own_unless f d p parse = Ok v <-> inherited [[]; lit d] f p reads v.
Proof.
  intros R. unfold own_unless, inherited. destruct (is_nil f || str_eqb f (lit d)) eqn:B.
  - assert (I : In f [[]; lit d]). { apply orb_true_iff in B. destruct B as [B|B]; [left; destruct f; [reflexivity|discriminate]|right; left; apply str_eqb_eq in B; now symmetry]. }
    split; [intros [= <-]; left; now split|]. intros [[_ ->]|[N _]]; [reflexivity|contradiction].
  - assert (I : ~ In f [[]; lit d]). { apply orb_false_iff in B. destruct B as [B C]. intros [<-|[<-|[]]]; [discriminate|rewrite str_eqb_refl in C; discriminate]. }
    rewrite R. split; [intros H; right; now split|]. intros [[N _]|[_ H]]; [contradiction|exact H].
Qed.
Lemma own_flag_ok f p v : own_flag f p = v <-> inherited_flag f p v.
Proof.
  unfold own_flag, inherited_flag, flag_text. destruct (str_eqb f (lit "0")) eqn:A.
  - apply str_eqb_eq in A. subst f. split; [intros <-; now left|]. intros [H|(N & _)]; [destruct v; [discriminate|reflexivity]|congruence].
  - assert (Na : f <> lit "0") by (intros ->; rewrite str_eqb_refl in A; discriminate). destruct (str_eqb f (lit "1")) eqn:B.
    + apply str_eqb_eq in B. subst f. split; [intros <-; now left|]. intros [H|(_ & N & _)]; [destruct v; [reflexivity|discriminate]|congruence].
    + assert (Nb : f <> lit "1") by (intros ->; rewrite str_eqb_refl in B; discriminate). split; [intros <-; right; auto|]. intros [H|(_ & _ & ->)]; [destruct v; contradiction|reflexivity].
Qed.
Lemma margin_v_ok v tb : (v' <~ parse_u16 v; Ok (v', v')) = Ok tb <-> small_text 65535 v (fst tb) /\ snd tb = fst tb.
Proof. rewrite bind_ok. setoid_rewrite u16_ok. split; [intros (x & H & [= <-]); now split|]. destruct tb as [a b]. cbn. intros [H ->]. exists a. now split. Qed.
Lemma with_parent_iff s p r : from_style_with_parent s p = Ok r <-> resolves_under s p r.
Proof.
  split.
  - intros H. unfold from_style_with_parent in H. binds H. apply with_complexity_ok in H. destruct H as [[c ->] Hc].
    constructor; cbn -[lit]; try (now apply own_flag_ok); try assumption;
      repeat match goal with
      | |- inherited [[]; _] _ _ size_text _ => apply (own_unless_ok _ _ _ _ _ _ size_ok); assumption
      | |- inherited [[]; _] _ _ percent_text _ => apply (own_unless_ok _ _ _ _ _ _ percent_ok); assumption
      | |- inherited [[]; _] _ _ (number_text f32) _ => apply (own_unless_ok _ _ _ _ _ _ float_ok); assumption
      | |- inherited [[]] _ _ colour_text _ => apply (own_ok _ _ _ _ _ colour_ok); assumption
      | |- inherited [[]] _ _ (small_text 255) _ => apply (own_ok _ _ _ _ _ u8_ok); assumption
      | |- inherited [[]] _ _ (small_text 65535) _ => apply (own_ok _ _ _ _ _ u16_ok); assumption
      end; [reflexivity|destruct (s_fontname s); reflexivity|].
    unfold inherited_margins. destruct (s_margin_t s) as [t|]; [destruct (s_margin_b s) as [b|]|].
    + match goal with E : res_bind (own t _ _) _ = Ok ?y |- _ => binds E; injection E as <- end. cbn. split; apply (own_ok _ _ _ _ _ u16_ok); assumption.
    + apply (own_unless_ok _ _ _ _ _ _ margin_v_ok). rewrite <- surjective_pairing. assumption.
    + apply (own_unless_ok _ _ _ _ _ _ margin_v_ok). rewrite <- surjective_pairing. assumption.
  - intros [ru_name0 ru_font0 ru_size0 ru_primary0 ru_secondary0 ru_outlinec0 ru_back0 ru_bold0 ru_italic0 ru_underline0 ru_strike0 ru_scale_x0 ru_scale_y0 ru_spacing0 ru_angle0 ru_border0 ru_outline0 ru_shadow0 ru_alignment0 ru_margin_l0 ru_margin_r0 ru_margins0 ru_encoding0 ru_complexity0]. unfold from_style_with_parent.
    apply (own_unless_ok _ _ _ _ _ _ size_ok) in ru_size0. apply (own_unless_ok _ _ _ _ _ _ percent_ok) in ru_scale_x0, ru_scale_y0. apply (own_unless_ok _ _ _ _ _ _ float_ok) in ru_spacing0, ru_angle0, ru_outline0, ru_shadow0.
    apply (own_ok _ _ _ _ _ colour_ok) in ru_primary0, ru_secondary0, ru_outlinec0, ru_back0. apply (own_ok _ _ _ _ _ u8_ok) in ru_border0, ru_alignment0, ru_encoding0. apply (own_ok _ _ _ _ _ u16_ok) in ru_margin_l0, ru_margin_r0. apply own_flag_ok in ru_bold0, ru_italic0, ru_underline0, ru_strike0.
    rewrite ru_size0, ru_primary0, ru_secondary0, ru_outlinec0, ru_back0, ru_scale_x0, ru_scale_y0, ru_spacing0, ru_angle0, ru_border0, ru_outline0, ru_shadow0, ru_alignment0, ru_margin_l0, ru_margin_r0. cbn [res_bind].
    assert (M : match s_margin_t s, s_margin_b s with Some t, Some b => t' <~ own t (rs_margin_t p) parse_u16; b' <~ own b (rs_margin_b p) parse_u16; Ok (t', b') | _, _ => own_unless (s_margin_v s) "0" (rs_margin_t p, rs_margin_b p) (fun v => v' <~ parse_u16 v; Ok (v', v')) end = Ok (rs_margin_t r, rs_margin_b r)).
    { unfold inherited_margins in ru_margins0. destruct (s_margin_t s) as [t|]; [destruct (s_margin_b s) as [b|]|].
      - destruct ru_margins0 as [A B]. apply (own_ok _ _ _ _ _ u16_ok) in A, B. rewrite A. cbn [res_bind]. rewrite B. reflexivity.
      - now apply (own_unless_ok _ _ _ _ _ _ margin_v_ok).
      - now apply (own_unless_ok _ _ _ _ _ _ margin_v_ok). }
    rewrite M. cbn [res_bind]. rewrite ru_encoding0. cbn [res_bind fst snd]. apply with_complexity_ok. split; [|exact ru_complexity0]. destruct r. cbn in *. eexists. subst. destruct (s_fontname s); reflexivity.
Qed.
(* ---- no panics ---- *)
Ltac nopanic := repeat first [apply bind_panic; [|intros ? _]|apply of_opt_panic].
Lemma from_style_panic s : from_style s <> Panic.
Proof.
  assert (Fl : forall x, style_float x <> Panic) by (intros; apply of_opt_panic). assert (Sz : forall x, parse_font_size x <> Panic) by (intros x; unfold parse_font_size; apply bind_panic; [apply Fl|]; intros y _; now destruct (_ || _)).
  assert (Pc : forall x, parse_percentage x <> Panic) by (intros x; unfold parse_percentage; apply bind_panic; [apply Fl|]; intros y _; now destruct (_ && _)).
  assert (Co : forall x, parse_color_with_default x <> Panic) by (intros x; unfold parse_color_with_default; destruct (trim x); [discriminate|apply color_no_panic]).
  assert (Bl : forall x, parse_bool_flag x <> Panic) by (intros x; unfold parse_bool_flag; destruct (str_eqb _ _); [discriminate|]; destruct (str_eqb _ _); discriminate).
  assert (U8 : forall x, parse_u8 x <> Panic) by (intros; apply of_opt_panic). assert (U16 : forall x, parse_u16 x <> Panic) by (intros; apply of_opt_panic).
  unfold from_style. repeat (apply bind_panic; [first [apply Sz|apply Co|apply Bl|apply Pc|apply Fl|apply U8|apply U16|idtac]|intros ? _]).
  - destruct (s_margin_t s) as [t|]; [destruct (s_margin_b s) as [b|]|]; repeat (apply bind_panic; [apply U16|intros ? _]); discriminate.
  - match goal with |- with_complexity ?a <> _ => destruct (with_complexity_panic a) as [r ->]; discriminate end.
Qed.
Lemma scaling_ok sx sy r : exists r', apply_resolution_scaling sx sy r = Ok r'.
Proof. apply with_complexity_panic. Qed.
