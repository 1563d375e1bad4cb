(* Where the layers of an event come from, and where a drawing is put. *)
From Verif Require Import Base BaseLemmas FloatModel FloatSpec FloatProofs FloatTextProofs NumProofs CollideProofs AnimProofs AnimFields ShowProofs PlaceProofs PlaceAnchor EffectModel EffectSpec EffectProofs.
From Verif Require Import CollideModel.
From Coq Require Import Lia Lqa.

(* ---- lines keep the tags of their runs ---- *)
Section From.
  Context (T : tags -> Prop).
  Definition from (l : list segment) : Prop := Forall (fun s => T (sg_tags s)) l.
  Lemma parts_from s : T (sg_tags s) -> forall parts first st, Forall from (fst st) -> from (snd st) ->
    Forall from (fst (add_parts s first parts st)) /\ from (snd (add_parts s first parts st)).
  Proof.
    intros S. induction parts as [|p r IH]; intros first [lines cur] A B; cbn [add_parts]; [now split|]. cbn [fst snd] in A, B.
    assert (P : forall c, from c -> from (match p with [] => c | _ => c ++ [ShowModel.piece s p] end)).
    { intros c C. destruct p; [exact C|]. apply Forall_app. split; [exact C|]. repeat constructor; apply S. }
    assert (L : Forall from (lines ++ [cur])). { apply Forall_app. split; [exact A|]. repeat constructor; exact B. }
    destruct cur as [|x cur]; [apply IH; [exact A|apply P; constructor]|]. destruct first; apply IH; cbn [fst snd]; [exact A|now apply P|exact L|apply P; constructor].
  Qed.
  Lemma split_from segs : from segs -> Forall from (split_into_lines segs).
  Proof.
    intros F. unfold split_into_lines.
    assert (G : forall st, Forall from (fst st) -> from (snd st) -> Forall from (fst (fold_left add_segment segs st)) /\ from (snd (fold_left add_segment segs st))).
    { induction F as [|s r S F IH]; intros st A B; cbn [fold_left]; [now split|].
      assert (X : Forall from (fst (add_segment st s)) /\ from (snd (add_segment st s))).
      { unfold add_segment. destruct (sg_text s) eqn:E; [now split|]. rewrite <- E. destruct (existsb is_break (sg_text s)); [now apply parts_from|]. cbn [fst snd]. split; [exact A|].
        apply Forall_app. split; [exact B|]. repeat constructor; apply S. }
      now apply IH. }
    specialize (G ([], [])). destruct (fold_left add_segment segs ([], [])) as [lines cur]. destruct G as [A B]; [constructor|constructor|].
    cbn [fst snd] in A, B. destruct cur; [exact A|]. apply Forall_app. split; [exact A|]. constructor; [exact B|constructor].
  Qed.
  Lemma owned_range line : forall n c i, In (c, i) (owned n line) -> (n <= i < n + List.length line)%nat.
  Proof.
    induction line as [|s r IH]; intros n c i I; cbn [owned] in I; [destruct I|]. apply in_app_iff in I as [I|I].
    - apply in_map_iff in I as (x & E & _). injection E as _ <-. cbn [List.length]. lia.
    - apply IH in I. cbn [List.length]. lia.
  Qed.
  Lemma group_member cs : forall g, In g (by_owner cs) -> exists c, In (c, fst g) cs.
  Proof.
    induction cs as [|[c i] r IH]; intros g I; [destruct I|]. cbn [by_owner] in I. destruct (by_owner r) as [|[j t] gs].
    - destruct I as [<-|[]]. exists c. now left.
    - destruct (i =? j); destruct I as [<-|I]; try (exists c; now left); [destruct (IH g (or_intror I)) as [c' K]|destruct (IH g I) as [c' K]]; exists c'; now right.
  Qed.
  Lemma skip_in {A} n (l : list A) x : In x (skipn n l) -> In x l.
  Proof. intros H. rewrite <- (firstn_skipn n l). apply in_or_app. now right. Qed.
  Lemma first_in {A} n (l : list A) x : In x (firstn n l) -> In x l.
  Proof. intros H. rewrite <- (firstn_skipn n l). apply in_or_app. now left. Qed.
  Lemma cut_member words cs starts : forall g x, In g (cut_lines words cs starts) -> In x g -> In x cs.
  Proof.
    induction starts as [|s r IH]; intros g x G X; cbn [cut_lines] in G; [destruct G|]. destruct G as [<-|G]; [|now apply (IH g)].
    now apply first_in, skip_in in X.
  Qed.
  Lemma wrap_from sh line w b : from line -> Forall from (wrap_segments sh line w b).
  Proof.
    intros F. unfold wrap_segments. destruct line as [|s r] eqn:E; [repeat constructor|]. rewrite <- E in *. cbn zeta. destruct (_ <=? 1); [repeat constructor; exact F|].
    destruct (fill _ _ _); [repeat constructor; exact F|]. apply Forall_forall. intros x L. apply filter_In in L as [L _]. apply in_map_iff in L as (g & <- & G).
    apply Forall_forall. intros x X. apply in_map_iff in X as (y & <- & Y). unfold owner_segment, ShowModel.piece. cbn [sg_tags].
    apply group_member in Y as (c & Y). apply (cut_member _ _ _ _ _ G) in Y. apply owned_range in Y.
    unfold from in F. rewrite Forall_forall in F. apply F. apply nth_In. lia.
  Qed.
  Lemma lines_from sh g w text script segs : from segs -> Forall from (event_lines sh g w text script segs).
  Proof.
    intros F. unfold event_lines. pose proof (split_from segs F) as L. destruct (_ && _)%bool; [|exact L].
    apply Forall_forall. intros l I. apply in_flat_map in I as (x & X & I). rewrite Forall_forall in L. pose proof (wrap_from (sh x) x (available g w) (negb (wrap_style_of segs script =? 1)%N) (L x X)) as K.
    rewrite Forall_forall in K. now apply K.
  Qed.
End From.

(* ---- the look of a text layer ---- *)
Section Layers.
  Context {D P : Type} (pf : platform D P).
  (* a text layer made from tags that hold T *)
  Definition made (p : pipe) (g : stage) (w : shown) (st : option style) (now : N) (T : tags -> Prop) (l : layer D) : Prop :=
    match l with
    | LText _ size _ _ c _ more => exists t0 t o s, T t0 /\ apply_transform_animations (pf_math pf) (look_of st) (sw_start w) (sw_end w) now t0 = Done t /\
        resolve_run_colors t (look_of st) (sw_start w) (sw_end w) now = Done (c, o, s) /\ size = font_size p g st t /\ more = pf_effects pf t st g (pi_scaled p) o s
    | LShape _ _ _ _ => True
    end.
  Lemma shape_made p g w st now T s d : process_drawing pf p g w st now s = Done d -> Forall (made p g w st now T) d.
  Proof.
    unfold process_drawing. destruct (pf_outline pf (sg_text s)); [|intros H; injection H as <-; constructor].
    destruct (drawing_anchor g w now (sg_tags s)); cbn [bind]; try discriminate. intros H. injection H as <-. repeat constructor.
  Qed.
  Lemma line_made p g w st now l T segs : from T segs -> forall pen acc out, run_line pf p g w st now l pen acc segs = Done (Some out) -> Forall (made p g w st now T) out.
  Proof.
    induction 1 as [|s r S F IH]; intros pen acc out; cbn [run_line]; [intros H; injection H as <-; constructor|].
    destruct (is_drawing (sg_tags s)).
    - destruct (process_drawing pf p g w st now s) as [d| |] eqn:E; cbn [bind]; try discriminate.
      destruct (run_line pf p g w st now l pen acc r) as [[o|]| |] eqn:R; cbn [bind option_map]; try discriminate. intros H. injection H as <-.
      apply Forall_app. split; [exact (shape_made _ _ _ _ _ _ _ _ E)|exact (IH _ _ _ R)].
    - cbv zeta. destruct (apply_transform_animations (pf_math pf) (look_of st) (sw_start w) (sw_end w) now (sg_tags s)) as [t| |] eqn:A; cbn [bind]; try discriminate.
      destruct (pf_shape pf (sg_text s) t st g) as [[[width height] advance]|]; [|discriminate].
      destruct (position_run _ _ _ _ _ _ _) as [xy| |]; cbn [bind]; try discriminate.
      destruct (resolve_run_colors t (look_of st) (sw_start w) (sw_end w) now) as [[[c o] sh]| |] eqn:C; cbn [bind]; try discriminate.
      destruct (sing_run _ _ _ _ _) as [k| |]; cbn [bind]; try discriminate.
      destruct (run_line _ _ _ _ _ _ _ _ _ _) as [[rest|]| |] eqn:R; cbn [bind option_map]; try discriminate. intros H. injection H as <-.
      constructor; [|exact (IH _ _ _ R)]. cbn [made]. exists (sg_tags s), t, o, sh. auto.
  Qed.
  Lemma lines_made p g w st now T count h lines : Forall (from T) lines -> forall i out, run_lines pf p g w st now count h i lines = Done (Some out) -> Forall (made p g w st now T) out.
  Proof.
    induction 1 as [|l r L F IH]; intros i out; cbn [run_lines]; [intros H; injection H as <-; constructor|]. cbv zeta.
    destruct (run_line _ _ _ _ _ _ _ _ _ _) as [[a|]| |] eqn:A; cbn [bind]; try discriminate.
    destruct (run_lines _ _ _ _ _ _ _ _ _ _) as [[b|]| |] eqn:B; cbn [bind option_map]; try discriminate. intros H. injection H as <-.
    apply Forall_app. split; [exact (line_made _ _ _ _ _ _ _ _ L _ _ _ A)|exact (IH _ _ B)].
  Qed.
  Lemma event_made p c now e start fin segs out : time_or 0 (e_start e) = Done start -> time_or u32_max (e_end e) = Done fin -> segment_text (e_text e) = Done (Some segs) ->
    process_event pf p c now e = Done (Some out) ->
    Forall (made p (stage_of p c) (shown_of e (style_of p e) start fin) (style_of p e) now (fun t => exists s, In s segs /\ sg_tags s = t)) out.
  Proof.
    intros S F G. unfold process_event. rewrite S, F, G. cbn [bind]. cbv zeta. destruct segs as [|s r]; [intros H; injection H as <-; constructor|].
    destruct (is_drawing (sg_tags s)).
    - destruct (process_drawing _ _ _ _ _ _ _) as [d| |] eqn:E; cbn [bind]; try discriminate. intros H. injection H as <-. exact (shape_made _ _ _ _ _ _ _ _ E).
    - unfold process_text. cbv zeta. apply lines_made. apply lines_from. apply Forall_forall. intros x X. now exists x.
  Qed.
End Layers.

(* ---- drawings ---- *)
Local Open Scope Q_scope.
Lemma abs_le q b : Qabs q <= b <-> - b <= q <= b. Proof. apply Qabs_Qle_condition. Qed.
Lemma err_in q k b : - b <= q <= b -> b < 2 ^ k -> (-100 <= k <= 100)%Z -> exists v, round_to f32 q = Fin v /\ - 2 ^ (k - 25) <= v - q <= 2 ^ (k - 25).
Proof.
  intros H B K. destruct (round_err q k) as (v & E & R); [|exact K|].
  - apply Qle_lt_trans with b; [now apply abs_le|exact B].
  - exists v. split; [exact E|now apply abs_le].
Qed.
Lemma add_err a b : - (10000 # 1) <= a <= 10000 # 1 -> - (10001 # 1) <= b <= 10001 # 1 -> exists v, add32 (Fin a) (Fin b) = Fin v /\ - (1 # 1024) <= v - (a + b) <= 1 # 1024.
Proof. intros A B. apply (err_in (a + b) 15 (20001 # 1)); [lra|reflexivity|lia]. Qed.
Lemma middle_err a b : - (10000 # 1) <= a <= 10000 # 1 -> - (10000 # 1) <= b <= 10000 # 1 -> exists v, middle (Fin a) (Fin b) = Fin v /\ - (1 # 1024) <= v + (a + b) / 2 <= 1 # 1024.
Proof.
  intros A B. destruct (add_err a b A ltac:(lra)) as (u & U & EU). unfold middle. rewrite U. cbn [f_opp]. rewrite half_fin.
  destruct (err_in (- u / 2) 14 (10001 # 1)) as (v & V & EV); [split; [apply Qle_shift_div_l|apply Qle_shift_div_r]; lra|reflexivity|lia|].
  exists v. split; [exact V|]. change (2 ^ (14 - 25)) with (1 # 2048) in EV.
  assert (X : - u / 2 == - (u * (1 # 2))) by field. assert (Y : (a + b) / 2 == (a + b) * (1 # 2)) by field. rewrite X in EV. rewrite Y. lra.
Qed.
Lemma one_axis e x o : - (10000 # 1) <= e <= 10000 # 1 -> - (10000 # 1) <= x <= 10000 # 1 -> - (1 # 1024) <= o + e <= 1 # 1024 ->
  exists d, add32 (Fin x) (Fin o) = Fin d /\ Qabs (e + d - x) <= 1 # 512.
Proof. intros E X O. destruct (add_err x o X) as (d & D & ED); [lra|]. exists d. split; [exact D|]. apply abs_le. lra. Qed.
Lemma on_anchor b l t r d a x y : box_is b l t r d -> on_screen l -> on_screen t -> on_screen r -> on_screen d -> on_screen x -> on_screen y -> (1 <= a <= 9)%Z ->
  exists dx dy, drawing_shift b a (Fin x) (Fin y) = (Fin dx, Fin dy) /\
  Qabs (l + share_x a * (r - l) + dx - x) <= 1 # 512 /\ Qabs (t + share_y a * (d - t) + dy - y) <= 1 # 512.
Proof.
  unfold on_screen. rewrite !abs_le. intros -> L T R B X Y A. unfold drawing_shift, drawing_offset, share_x, share_y. cbn [bo_left bo_top bo_right bo_bottom].
  assert (MX : exists o, (if (Z.rem a 3 =? 1)%Z then f_opp (Fin l) else if (Z.rem a 3 =? 0)%Z then f_opp (Fin r) else middle (Fin l) (Fin r)) = Fin o /\
    - (1 # 1024) <= o + (l + (if (a mod 3 =? 1)%Z then 0 else if (a mod 3 =? 0)%Z then 1 else 1 # 2) * (r - l)) <= 1 # 1024).
  { rewrite Z.rem_mod_nonneg by lia. destruct (a mod 3 =? 1)%Z; [exists (- l); split; [reflexivity|lra]|]. destruct (a mod 3 =? 0)%Z; [exists (- r); split; [reflexivity|lra]|].
    destruct (middle_err l r L R) as (v & V & E). exists v. split; [exact V|]. assert (K : (l + r) / 2 == (l + r) * (1 # 2)) by field. rewrite K in E. lra. }
  assert (MY : exists o, (if (1 <=? a)%Z && (a <=? 3)%Z then f_opp (Fin d) else if (7 <=? a)%Z && (a <=? 9)%Z then f_opp (Fin t) else middle (Fin t) (Fin d)) = Fin o /\
    - (1 # 1024) <= o + (t + (if (a <=? 3)%Z then 1 else if (a <=? 6)%Z then 1 # 2 else 0) * (d - t)) <= 1 # 1024).
  { destruct (Z.leb_spec 1 a); [|lia]. cbn [andb]. destruct (Z.leb_spec a 3); [exists (- d); split; [reflexivity|lra]|].
    destruct (Z.leb_spec a 6) as [L6|L6].
    - destruct (Z.leb_spec 7 a); [lia|]. cbn [andb]. destruct (middle_err t d T B) as (v & V & E). exists v. split; [exact V|]. assert (K : (t + d) / 2 == (t + d) * (1 # 2)) by field. rewrite K in E. lra.
    - destruct (Z.leb_spec 7 a); [|lia]. destruct (Z.leb_spec a 9); [|lia]. cbn [andb]. exists (- t). split; [reflexivity|lra]. }
  destruct MX as (ox & -> & EX). destruct MY as (oy & -> & EY).
  edestruct (fun H => one_axis _ x ox H X EX) as (dx & -> & DX).
  { destruct (a mod 3 =? 1)%Z; [lra|]. destruct (a mod 3 =? 0)%Z; lra. }
  edestruct (fun H => one_axis _ y oy H Y EY) as (dy & -> & DY).
  { destruct (a <=? 3)%Z; [lra|]. destruct (a <=? 6)%Z; lra. }
  exists dx, dy. split; [reflexivity|]. split; [exact DX|exact DY].
Qed.
