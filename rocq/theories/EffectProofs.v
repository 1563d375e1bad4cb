(* Proofs about the effects of a text and the look of a drawing. *)
From Verif Require Import CollideModel.
From Verif Require Import Base BaseLemmas FloatModel FloatSpec FloatProofs FloatTextProofs NumProofs CollideProofs AnimProofs AnimFields ShowProofs PlaceProofs PlaceAnchor EffectModel EffectSpec.
From Coq Require Import Sorted Lia.

Section Wants.
  Context (scaled : bool) (g : stage) (st : option style) (t : tags) (outline shadow : rgba).
  Lemma num_given f x : num_of t f = Some x <-> given t f x.
  Proof. unfold num_of, given. destruct (tg_field t f) as [[]|]; split; intros H; try discriminate; congruence. Qed.
  Lemma num_silent f : num_of t f = None <-> silent t f.
  Proof.
    unfold silent. split.
    - intros H x G. apply num_given in G. congruence.
    - intros H. destruct (num_of t f) as [x|] eqn:E; [|reflexivity]. apply num_given in E. now apply H in E.
  Qed.
  Lemma cell_iff cell d x : cell_is st cell d x <-> x = cell_num st cell d.
  Proof.
    unfold cell_num. split.
    - intros [s y E N|s E J|E]; rewrite E; [|apply parse_none in J; now rewrite J|reflexivity]. apply (parse_iff f32 _ _ f32_valid) in N. now rewrite N.
    - intros ->. destruct st as [s|]; [|now apply cell_none]. destruct (parse_float f32 (cell s)) as [y|] eqn:E; cbn [num_or].
      + eapply cell_number; [reflexivity|]. now apply (parse_iff f32 _ _ f32_valid).
      + eapply cell_junk; [reflexivity|]. now apply parse_none.
  Qed.
  Lemma length_iff axis both ka kb cell x : length_is scaled g st t axis both ka kb cell x <->
    x = num_or (or_num (option_map (sized_by scaled ka) (num_of t axis)) (option_map (sized_by scaled kb) (num_of t both))) (sized_by scaled (scale_y g) (cell_num st cell (fl 2))).
  Proof.
    split.
    - intros [y G|y S G|y S1 S2 C].
      + apply num_given in G. rewrite G. reflexivity.
      + apply num_given in G. apply num_silent in S. rewrite G, S. reflexivity.
      + apply num_silent in S1, S2. apply cell_iff in C. subst y. rewrite S1, S2. reflexivity.
    - intros ->. destruct (num_of t axis) as [a|] eqn:A; cbn [option_map or_num num_or].
      + apply by_axis. now apply num_given.
      + apply num_silent in A. destruct (num_of t both) as [b|] eqn:B; cbn [option_map or_num num_or].
        * apply by_both; [exact A|]. now apply num_given.
        * apply num_silent in B. apply by_style; [exact A|exact B|]. now apply cell_iff.
  Qed.
  Lemma flag_iff f cell : on st t f cell <-> flag_or t f (style_flag st cell) = true.
  Proof.
    unfold on, flag_or, style_flag. split.
    - intros [H|[N (s & E & C)]]; [now rewrite H|]. destruct (tg_field t f) as [[]|]; rewrite ?E, ?C; try apply str_eqb_refl. now destruct (N b).
    - intros H. assert (C : (exists b, tg_field t f = Some (VFlag b)) \/ forall b, tg_field t f <> Some (VFlag b)) by (destruct (tg_field t f) as [[]|]; eauto; right; congruence).
      destruct C as [[b E]|N]; [left; rewrite E in H; congruence|]. right. split; [exact N|].
      assert (K : match st with Some s => str_eqb (cell s) (lit "-1") | None => false end = true) by (destruct (tg_field t f) as [[]|]; try exact H; now destruct (N b)).
      destruct st as [s|]; [|discriminate]. exists s. split; [reflexivity|]. now apply str_eqb_eq.
  Qed.
  Lemma boxed_iff : boxed st <-> border_style st = 3%N.
  Proof.
    unfold boxed, border_style, obind, byte. split.
    - intros (s & E & N). rewrite E. assert (P : parse_uint 255 10 (trim (s_border_style s)) = Some 3%N) by (apply parse_uint_dec; split; [exact N|lia]). now rewrite P.
    - destruct st as [s|]; [|discriminate]. destruct (parse_uint 255 10 (trim (s_border_style s))) eqn:E; [|discriminate]. intros ->. apply parse_uint_dec in E. exists s. split; [reflexivity|apply E].
  Qed.
  Lemma amount_iff f x : amount t f x <-> x = zero_if_none (num_of t f).
  Proof.
    split.
    - intros [y G|S]; [apply num_given in G; now rewrite G|apply num_silent in S; now rewrite S].
    - intros ->. destruct (num_of t f) as [y|] eqn:E; cbn; [apply some_amount; now apply num_given|apply no_amount; now apply num_silent].
  Qed.
  Lemma turn_iff x : turn t x <-> x = zero_if_none (or_num (num_of t FRotZ) (num_of t FAngle)).
  Proof.
    split.
    - intros [y G|y S A]; [apply num_given in G; now rewrite G|]. apply num_silent in S. rewrite S. now apply amount_iff.
    - intros ->. destruct (num_of t FRotZ) as [y|] eqn:E; cbn [or_num]; [apply turn_z; now apply num_given|]. apply turn_angle; [now apply num_silent|now apply amount_iff].
  Qed.
  Lemma pivot_iff o : pivot g t o <-> o = match tg_field t FOrigin with Some (VPoint ox oy) => Some (mul32 ox (scale_x g), mul32 oy (scale_y g)) | _ => None end.
  Proof.
    split.
    - intros [x y E|N]; [now rewrite E|]. destruct (tg_field t FOrigin) as [[]|]; try reflexivity. now destruct (N x y).
    - intros ->. destruct (tg_field t FOrigin) as [[]|] eqn:E; try (apply pivot_none; intros; congruence). now apply pivot_at.
  Qed.
  Lemma percent_iff f cell x : percent st t f cell x <-> x = num_field t f (cell_num st cell (fl 100)).
  Proof.
    assert (K : num_field t f (cell_num st cell (fl 100)) = num_or (num_of t f) (cell_num st cell (fl 100))) by (unfold num_field, num_of; destruct (tg_field t f) as [[]|]; reflexivity).
    rewrite K. split.
    - intros [y G|y S C]; [apply num_given in G; now rewrite G|]. apply num_silent in S. rewrite S. now apply cell_iff.
    - intros ->. destruct (num_of t f) as [y|] eqn:E; cbn [num_or]; [apply percent_tag; now apply num_given|]. apply percent_style; [now apply num_silent|now apply cell_iff].
  Qed.
  Lemma in_when {A} b (x e : A) : In e (when b x) <-> b = true /\ e = x.
  Proof. unfold when. destruct b; cbn [In]; split; [intros [->|[]]; auto|intros [_ ->]; auto|intros []|intros [D _]; discriminate]. Qed.
  Lemma ne_iff x : f_ne x (fl 0) = true <-> nonzero x.
  Proof. unfold f_ne, nonzero. apply negb_true_iff. Qed.

  Lemma effects_in e : In e (effects_of scaled g st t outline shadow) <-> wants scaled g st t outline shadow e.
  Proof.
    unfold effects_of. cbv zeta. rewrite !in_app_iff, !in_when. split.
    - intros [[F ->]|[[F ->]|[[F ->]|[[F ->]|[B|[[F ->]|[[F ->]|[[F ->]|[R|[S|[S|C]]]]]]]]]]].
      + apply w_bold. now apply flag_iff.
      + apply w_italic. now apply flag_iff.
      + apply w_underline. now apply flag_iff.
      + apply w_strike. now apply flag_iff.
      + destruct (N.eqb_spec (border_style st) 3) as [E|E].
        * destruct B as [<-|[]]. apply w_box; [now apply boxed_iff|now apply length_iff..].
        * apply in_when in B. destruct B as [F ->]. apply orb_true_iff in F. apply w_outline; [intros K; now apply boxed_iff in K|now apply length_iff|now apply length_iff|exact F].
      + apply orb_true_iff in F. rewrite !ne_iff in F. apply w_shadow; [now apply length_iff|now apply length_iff|exact F].
      + unfold zero_if_none in F |- *. destruct (num_of t FBlur) as [r|] eqn:E; cbn [num_or] in F |- *; [|discriminate]. apply w_blur; [now apply num_given|exact F].
      + unfold zero_if_none in F |- *. destruct (num_of t FBlurEdges) as [r|] eqn:E; cbn [num_or] in F |- *; [|discriminate]. apply w_edge; [now apply num_given|exact F].
      + unfold rotation in R. cbv zeta in R. apply in_when in R. destruct R as [F ->]. rewrite !orb_true_iff, !ne_iff in F.
        apply w_rotation; [now apply amount_iff|now apply amount_iff|now apply turn_iff|now apply pivot_iff|tauto].
      + unfold shear in S. destruct (num_of t FShearX) as [x|] eqn:E; [|destruct S]. apply in_when in S. destruct S as [F ->]. rewrite orb_true_iff, !ne_iff in F.
        apply w_shear; [now apply num_given|now apply amount_iff|exact F].
      + unfold stretch in S. cbv zeta in S. apply in_when in S. destruct S as [F ->]. apply orb_true_iff in F. apply w_scale; [now apply percent_iff|now apply percent_iff|exact F].
      + unfold clip_of in C. destruct (tg_field t FClip) as [[]|] eqn:E; try (now destruct C). destruct C as [<-|[]]. now apply w_clip.
    - intros W. destruct W as [F|F|F|F|x y B X Y|x y B X Y P|x y X Y P|r G P|r G P|x y z o X Y Z O P|x y G Y P|x y X Y P|x1 y1 x2 y2 inv E].
      + apply flag_iff in F. auto 10.
      + apply flag_iff in F. auto 10.
      + apply flag_iff in F. auto 10.
      + apply flag_iff in F. auto 10.
      + do 4 right. left. apply boxed_iff in B. rewrite B. cbn [N.eqb Pos.eqb]. apply length_iff in X, Y. subst. now left.
      + do 4 right. left. assert (E : (border_style st =? 3)%N = false) by (apply N.eqb_neq; intros K; apply B; now apply boxed_iff). rewrite E. apply length_iff in X, Y. subst.
        apply in_when. split; [|reflexivity]. now apply orb_true_iff.
      + do 5 right. left. apply length_iff in X, Y. subst. split; [|reflexivity]. apply orb_true_iff. now rewrite !ne_iff.
      + do 6 right. left. apply num_given in G. rewrite G. split; [exact P|reflexivity].
      + do 7 right. left. apply num_given in G. rewrite G. split; [exact P|reflexivity].
      + do 8 right. left. unfold rotation. cbv zeta. apply amount_iff in X, Y. apply turn_iff in Z. apply pivot_iff in O. subst. apply in_when. split; [|reflexivity]. rewrite !orb_true_iff, !ne_iff. tauto.
      + do 9 right. left. unfold shear. apply num_given in G. rewrite G. apply amount_iff in Y. subst. apply in_when. split; [|reflexivity]. now rewrite orb_true_iff, !ne_iff.
      + do 10 right. left. unfold stretch. cbv zeta. apply percent_iff in X, Y. subst. apply in_when. split; [|reflexivity]. now apply orb_true_iff.
      + do 11 right. unfold clip_of. rewrite E. now left.
  Qed.

  (* the list is built in the order of the ranks *)
  Definition below (n : nat) (l : list text_effect) : Prop := Forall (fun e => n <= rank e)%nat l /\ StronglySorted (fun a b => (rank a < rank b)%nat) l.
  Lemma below_nil n : below n []. Proof. split; constructor. Qed.
  Lemma below_cons n e l : (n <= rank e)%nat -> below (S (rank e)) l -> below n (e :: l).
  Proof.
    intros H [F S]. split.
    - constructor; [exact H|]. eapply Forall_impl; [|exact F]. cbn. lia.
    - constructor; [exact S|]. eapply Forall_impl; [|exact F]. cbn. lia.
  Qed.
  Lemma below_weak n m l : (n <= m)%nat -> below m l -> below n l.
  Proof. intros H [F S]. split; [|exact S]. eapply Forall_impl; [|exact F]. cbn. lia. Qed.
  Lemma below_when n b e l : rank e = n -> below (S n) l -> below n (when b e ++ l).
  Proof. intros R B. destruct b; cbn [when app]; [apply below_cons; [lia|now rewrite R]|eapply below_weak; [|exact B]; lia]. Qed.
  Lemma effects_sorted : StronglySorted (fun a b => (rank a < rank b)%nat) (effects_of scaled g st t outline shadow).
  Proof.
    assert (B : below 0 (effects_of scaled g st t outline shadow)); [|apply B].
    unfold effects_of, rotation, stretch, shear. cbv zeta. do 4 (apply below_when; [reflexivity|]).
    assert (T : below 6 (when (f_ne (shadow_x scaled g st t) (fl 0) || f_ne (shadow_y scaled g st t) (fl 0)) (XShadow shadow (shadow_x scaled g st t) (shadow_y scaled g st t)) ++
      when (f_lt (fl 0) (zero_if_none (num_of t FBlur))) (XBlur (mul32 (zero_if_none (num_of t FBlur)) (scale_y g))) ++
      when (f_lt (fl 0) (zero_if_none (num_of t FBlurEdges))) (XEdgeBlur (zero_if_none (num_of t FBlurEdges))) ++
      rotation g t ++ shear t ++ stretch st t ++ match clip_of g t with Some (x1, y1, x2, y2, inv) => [XClip x1 y1 x2 y2 inv] | None => [] end)).
    { do 3 (apply below_when; [reflexivity|]). unfold rotation. cbv zeta. apply below_when; [reflexivity|].
      assert (U : below 11 (stretch st t ++ match clip_of g t with Some (x1, y1, x2, y2, inv) => [XClip x1 y1 x2 y2 inv] | None => [] end)).
      { unfold stretch. cbv zeta. apply below_when; [reflexivity|]. destruct (clip_of g t) as [[[[[x1 y1] x2] y2] inv]|]; [|apply below_nil]. apply below_cons; [cbn; lia|apply below_nil]. }
      unfold shear. destruct (num_of t FShearX); [now apply below_when|]. eapply below_weak; [|exact U]. lia. }
    destruct (border_style st =? 3)%N; [apply below_cons; [cbn; lia|]; eapply below_weak; [|exact T]; cbn; lia|].
    eapply below_weak; [|apply below_when; [reflexivity|exact T]]. cbn. lia.
  Qed.
End Wants.
(* a list in order is determined by its members *)
Lemma sorted_same l : forall l', StronglySorted (fun a b => (rank a < rank b)%nat) l -> StronglySorted (fun a b => (rank a < rank b)%nat) l' -> (forall e, In e l <-> In e l') -> l = l'.
Proof.
  induction l as [|a l IH]; intros [|b l'] S S' H; [reflexivity|exfalso; apply (H b); now left|exfalso; apply (H a); now left|].
  inversion S as [|? ? Sl Fl]; subst. inversion S' as [|? ? Sl' Fl']; subst. rewrite Forall_forall in Fl, Fl'.
  assert (E : a = b).
  { destruct (proj1 (H a) (or_introl eq_refl)) as [->|I]; [reflexivity|]. destruct (proj2 (H b) (or_introl eq_refl)) as [->|J]; [reflexivity|].
    apply Fl' in I. apply Fl in J. lia. }
  subst b. f_equal. apply IH; try assumption. intros e. split; intros I.
  - destruct (proj1 (H e) (or_intror I)) as [<-|J]; [apply Fl in I; lia|exact J].
  - destruct (proj2 (H e) (or_intror I)) as [<-|J]; [apply Fl' in I; lia|exact J].
Qed.

(* ---- what plays no part ---- *)
Lemma text_reads scaled g st t t' o s : (forall f, In f text_fields -> tg_field t f = tg_field t' f) -> effects_of scaled g st t o s = effects_of scaled g st t' o s.
Proof.
  intros H. unfold effects_of, outline_x, outline_y, shadow_x, shadow_y, rotation, shear, stretch, clip_of, flag_or, num_of, num_field.
  rewrite !H by (cbn [text_fields In]; auto 30). reflexivity.
Qed.
Lemma drawing_reads_fields scaled g w st now b t t' : (forall f, In f drawing_fields -> tg_field t f = tg_field t' f) -> drawing_of scaled g w st now b t = drawing_of scaled g w st now b t'.
Proof.
  intros H. unfold drawing_of, drawing_anchor, drawing_color, drawing_alignment, drawing_stroke, drawing_border, clip_of, drawing_blur, num_of.
  rewrite !H by (cbn [drawing_fields In]; auto 30). reflexivity.
Qed.
