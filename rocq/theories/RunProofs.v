(* The order of a frame, the state a script leaves behind, and kept frames. *)
From Verif Require Import CollideModel CollideMore PlaceProofs BaseLemmas SelectProofs SelectRunProofs RunSpec RunStill.

(* ---- order ---- *)
Lemma before_iff a b : before a b = true <-> not_after a b.
Proof.
  unfold before, turn_key, not_after, start_of. rewrite orb_true_iff, andb_true_iff, Z.ltb_lt, Z.eqb_eq, N.leb_le. tauto.
Qed.
Lemma before_total a b : before a b = true \/ before b a = true.
Proof. rewrite !before_iff. unfold not_after. lia. Qed.
Lemma before_trans a b c : before a b = true -> before b c = true -> before a c = true.
Proof. rewrite !before_iff. unfold not_after. lia. Qed.
Lemma same_alike a b : same before a b = alike a b.
Proof.
  unfold same, alike. apply Bool.eq_true_iff_eq. rewrite !andb_true_iff, !before_iff, Z.eqb_eq, N.eqb_eq. unfold not_after. lia.
Qed.
Lemma sorted_in_turn events : in_turn events (stable_sort before events).
Proof.
  split; [apply sort_perm|]. split.
  - pose proof (sort_sorted before before_total before_trans events) as S. induction S as [|x l S IH F]; constructor; [exact IH|].
    apply Forall_forall. intros y Y. rewrite Forall_forall in F. now apply before_iff, F.
  - intros e. pose proof (sort_stable before before_total before_trans e events) as E.
    rewrite (filter_ext (same before e) (alike e)) in E by (intros; apply same_alike). rewrite E. apply filter_ext. intros; apply same_alike.
Qed.
Lemma sort_stable_eq e events : filter (alike e) (stable_sort before events) = filter (alike e) events.
Proof. apply (proj2 (proj2 (sorted_in_turn events))). Qed.
Lemma contains_occurs p s : contains_str p s = true <-> SelectSpec.occurs p s.
Proof.
  unfold contains_str, SelectSpec.occurs. destruct (find_str p s) as [[a b]|] eqn:F; split; try discriminate; try reflexivity.
  - intros _. apply IncrBounds.find_str_first in F as (_ & (y & E) & _). eauto.
  - intros (a & b & E). exfalso. revert E. pose proof (proj1 (IncrBounds.find_str_none p s) F a) as N. intros E. apply N. now exists b.
Qed.
Lemma positioned_iff e : event_is_positioned (e_text e) = true <-> placed_by_tag e.
Proof. unfold event_is_positioned, placed_by_tag. now rewrite orb_true_iff, !contains_occurs. Qed.
Lemma animated_iff text : event_is_animated text = true <-> exists m, In m time_marks /\ SelectSpec.occurs m text.
Proof.
  unfold event_is_animated, time_marks. rewrite !orb_true_iff, !contains_occurs. split.
  - intros [[[[H|H]|H]|H]|H]; eexists; (split; [|exact H]); cbn; tauto.
  - intros (m & I & O). cbn [map In] in I. destruct I as [<-|[<-|[<-|[<-|[<-|[]]]]]]; tauto.
Qed.

Lemma clamped y x : f_le (fl 0) (Fin y) = true -> f_le (Fin y) x = true -> f_clamp (Fin y) (fl 0) (f_max x (fl 0)) = Some (Fin y).
Proof.
  change (fl 0) with (Fin 0). intros L U. assert (M : f_le (Fin y) (f_max x (Fin 0)) = true /\ f_le (Fin 0) (f_max x (Fin 0)) = true).
  { destruct x as [|[]|q]; cbn [f_max fl] in *; try discriminate.
    - cbn [f_le]. split; reflexivity.
    - destruct (f_le (Fin q) _) eqn:E; cbn [f_le] in *; rewrite ?Qle_bool_iff in *.
      + split; [apply Qle_trans with q; assumption|apply Qle_refl].
      + split; [exact U|apply Qle_trans with y; assumption]. }
  destruct M as [M1 M2]. unfold f_clamp. rewrite M2. unfold f_lt. rewrite L. cbn [negb]. rewrite andb_false_r. cbn zeta. rewrite M1. cbn [negb]. now rewrite andb_false_r.
Qed.
Lemma still_there y : f_lt (Fin (1 # 2)) (f_abs (sub32 (Fin y) (Fin y))) = false.
Proof.
  unfold sub32, f_sub. cbn [f_opp f_add]. destruct (round_zero (y + - y)) as (v & -> & V); [apply Qplus_opp_r|]. cbn [f_abs]. unfold f_lt. apply andb_false_iff. left. cbn [f_le]. apply not_true_is_false. rewrite Qle_bool_iff. rewrite V. cbn. intros K. apply K. reflexivity.
Qed.
Section Order.
  Context {D P : Type} (pf : platform D P).
  (* what an event adds to a frame *)
  Definition adds (p : pipe) (c : context) (t : N) (e : event) (part : list (layer D)) : Prop :=
    exists own, process_event pf p c t e = Done (Some own) /\
    (part = own \/ ~ placed_by_tag e /\ exists dy, f_lt (Fin (1 # 2)) (f_abs dy) = true /\ Forall2 (moved dy) own part).
  Lemma lowered (dy : float) (ls : list (layer D)) : Forall2 (moved dy) ls (map (lower dy) ls).
  Proof. induction ls as [|[] r IH]; constructor; try exact IH; constructor. Qed.
  Lemma settled p r e (ls : list (layer D)) r' (ls' : list (layer D)) : settle p r e ls = Done (r', ls') ->
    ls' = ls \/ ~ placed_by_tag e /\ exists dy, f_lt (Fin (1 # 2)) (f_abs dy) = true /\ Forall2 (moved dy) ls ls'.
  Proof.
    unfold settle. destruct (event_is_positioned (e_text e)) eqn:E; [intros [= _ <-]; now left|].
    destruct (bounding_box (pi_dpi p) ls) as [b|]; [|intros [= _ <-]; now left]. destruct (find_position r _) as [[r1 b1]|]; [|discriminate]. cbn zeta. intros [= _ <-].
    destruct (f_lt _ _) eqn:L; [|now left]. right. split; [intros K; apply positioned_iff in K; congruence|]. eexists. split; [exact L|apply lowered].
  Qed.
  Lemma events_parts p c t events : forall r out, run_events pf p c t r events = Done (Some out) -> exists parts, Forall2 (adds p c t) events parts /\ out = concat parts.
  Proof.
    induction events as [|e rest IH]; intros r out; cbn [run_events]; [intros [= <-]; exists []; split; [constructor|reflexivity]|].
    destruct (process_event pf p c t e) as [[ls|]| |] eqn:E; try discriminate. cbn [bind]. destruct (settle p r e ls) as [[r' ls']| |] eqn:S; try discriminate. cbn [bind fst snd].
    destruct (run_events pf p c t r' rest) as [[more|]| |] eqn:R; try discriminate. intros [= <-]. destruct (IH _ _ R) as (parts & F & ->).
    exists (ls' :: parts). split; [|reflexivity]. constructor; [|exact F]. exists ls. split; [exact E|]. now apply settled in S.
  Qed.
  Lemma frame_parts p c t events out : process_events pf p c t events = Done (Some out) ->
    exists order parts, in_turn events order /\ Forall2 (adds p c t) order parts /\ out = concat parts.
  Proof. intros H. apply events_parts in H as (parts & F & E). exists (stable_sort before events), parts. split; [apply sorted_in_turn|]. now split. Qed.
  Lemma settle_done p r e (ls : list (layer D)) : exists q, settle p r e ls = Done q.
  Proof.
    unfold settle. destruct (event_is_positioned _); [eauto|]. destruct (bounding_box _ _) as [b|]; [|eauto]. destruct (find_total r (Placed b (layer_of e) (effective_alignment p e) 0)) as (r' & b' & -> & _). eauto.
  Qed.
  Lemma events_done p c t events : Forall (fun e => exists ls, process_event pf p c t e = Done (Some ls)) events -> forall r, exists out, run_events pf p c t r events = Done (Some out).
  Proof.
    induction 1 as [|e rest (ls & E) F IH]; intros r; cbn [run_events]; [eauto|]. rewrite E. cbn [bind]. destruct (settle_done p r e ls) as ([r' ls'] & ->). cbn [bind fst snd].
    destruct (IH r') as (out & ->). cbn [bind option_map]. eauto.
  Qed.
  Lemma frame_done p c t events : Forall (fun e => exists ls, process_event pf p c t e = Done (Some ls)) events -> exists out, process_events pf p c t events = Done (Some out).
  Proof. intros F. apply events_done. rewrite Forall_forall in *. intros e I. apply F. exact (Permutation_in _ (Permutation_sym (sort_perm before events)) I). Qed.
  (* one event, whose box fits *)
  Lemma alone p c t e ls b y : process_event pf p c t e = Done (Some ls) -> r_height (pi_resolver p) = fl 1080 -> bounding_box (pi_dpi p) ls = Some b -> b_y b = Fin y ->
    f_le (fl 0) (b_y b) = true -> f_le (b_y b) (sub32 (fl 1080) (b_h b)) = true -> process_events pf p c t [e] = Done (Some ls).
  Proof.
    intros E RH BB Y L U. unfold process_events. change (stable_sort before [e]) with [e]. cbn [run_events]. rewrite E. cbn [bind]. unfold settle. destruct (event_is_positioned (e_text e)); [cbn [bind fst snd option_map]; now rewrite app_nil_r|].
    rewrite BB. unfold find_position. cbn [clear_placed r_placed List.length CollideModel.shift p_box p_layer p_align]. unfold in_the_way. cbn [clear_placed r_placed filter map]. cbn [r_height clear_placed]. rewrite RH.
    rewrite Y in *. rewrite (clamped y (sub32 (fl 1080) (b_h b)) L U). cbn [bind fst snd with_y b_y]. rewrite still_there. cbn [option_map]. now rewrite app_nil_r.
  Qed.
  (* one unreadable event leaves no frame *)
  Lemma event_error p c t events e : In e events -> process_event pf p c t e = Done None -> forall r out, run_events pf p c t r events <> Done (Some out).
  Proof.
    intros I E. induction events as [|x rest IH]; [contradiction|]. intros r out. cbn [run_events]. destruct I as [->|I].
    - rewrite E. cbn [bind]. discriminate.
    - destruct (process_event pf p c t x) as [[ls|]| |]; try discriminate. cbn [bind]. destruct (settle p r x ls) as [[r' ls']| |]; try discriminate. cbn [bind fst snd].
      destruct (run_events pf p c t r' rest) as [[more|]| |] eqn:R; try discriminate. intros _. exact (IH I _ _ R).
  Qed.
  Lemma frame_error p c t events e : In e events -> process_event pf p c t e = Done None -> forall out, process_events pf p c t events <> Done (Some out).
  Proof. intros I E out. apply (event_error p c t _ e); [|exact E]. exact (Permutation_in _ (sort_perm before events) I). Qed.

  (* ---- a drawing that opens an event ---- *)
  Lemma drawing_alone p c t e s segs out : segment_text (e_text e) = Done (Some (s :: segs)) -> is_drawing (sg_tags s) = true ->
    process_event pf p c t e = Done (Some out) -> Forall (fun l => ~ is_text l) out /\ List.length out <= 1.
  Proof.
    intros S I. unfold process_event. destruct (time_or 0 _); try discriminate. destruct (time_or u32_max _); try discriminate. cbn [bind]. rewrite S. cbn [bind]. rewrite I.
    unfold process_drawing. destruct (pf_outline pf _); [|intros [= <-]; split; [constructor|cbn; lia]].
    destruct (drawing_anchor _ _ _ _); try discriminate. cbn [bind]. intros [= <-]. split; [repeat constructor; intros []|cbn; lia].
  Qed.
End Order.

(* ---- the state a script leaves ---- *)
Definition settings (p : pipe) := (pi_play_x p, pi_play_y p, pi_layout p, pi_scaled p, pi_dpi p, pi_wrap p, pi_resolver p).
Lemma pipe_eq p q : settings p = settings q -> pi_styles p = pi_styles q -> pi_default p = pi_default q -> p = q.
Proof. destruct p, q. unfold settings. cbn. intros [= -> -> -> -> -> -> ->] -> ->. reflexivity. Qed.
Definition fixed {A} (h : A -> A) : Prop := (forall x, h x = x) \/ exists c, forall x, h x = c.
Lemma fixed_comp {A} (g h : A -> A) : fixed g -> fixed h -> fixed (fun x => h (g x)).
Proof. intros [G|(a & G)] [H|(b & H)]; [left|right; exists b|right; exists (h a)|right; exists b]; intros x; rewrite ?G, ?H; try reflexivity; try apply G. Qed.
Section Prepare.
  Context {D P : Type} (pf : platform D P).
  Lemma add_styles_settings l : forall p, settings (fold_left (add_style pf) l p) = settings p.
  Proof. induction l as [|s l IH]; intros p; cbn [fold_left]; [reflexivity|]. rewrite IH. unfold add_style. destruct (factors p). reflexivity. Qed.
  Lemma no_info_settings b : (forall f sp, ~ In (SInfo f sp) b) -> forall p, settings (fold_left (read_section pf) b p) = settings p.
  Proof.
    induction b as [|s b IH]; intros NI p; cbn [fold_left]; [reflexivity|]. rewrite IH by (intros f sp I; apply (NI f sp); now right).
    destruct s as [f sp|l|l|l|l]; cbn [read_section]; try reflexivity; [exfalso; apply (NI f sp); now left|apply add_styles_settings].
  Qed.
  (* the four settings a script info may change *)
  Definition vary (p : pipe) (pl : float * float) (ly : option (float * float)) (sc : bool) (wr : N) : pipe :=
    Pipe (fst pl) (snd pl) ly sc (pi_dpi p) wr (pi_styles p) (pi_default p) (pi_resolver p).
  Lemma infos_fixed a : (forall l, ~ In (SStyles l) a) -> exists h1 h2 h3 h4, fixed h1 /\ fixed h2 /\ fixed h3 /\ fixed h4 /\
    ((says play_resolution a -> exists c, forall x, h1 x = c) /\ (says layout_resolution a -> exists c, forall x, h2 x = c) /\
     (says (fun f => field_of f "ScaledBorderAndShadow") a -> exists c, forall x, h3 x = c) /\ (says (@Some _) a -> exists c, forall x, h4 x = c)) /\
    forall p, fold_left (read_section pf) a p = vary p (h1 (pi_play_x p, pi_play_y p)) (h2 (pi_layout p)) (h3 (pi_scaled p)) (h4 (pi_wrap p)).
  Proof.
    induction a as [|s a IH]; intros NS.
    - exists (fun x => x), (fun x => x), (fun x => x), (fun x => x). do 4 (split; [left; reflexivity|]). split; [repeat split; intros (f & sp & [] & _)|]. intros p. cbn [fold_left vary fst snd]. now destruct p.
    - destruct IH as (h1 & h2 & h3 & h4 & F1 & F2 & F3 & F4 & (C1 & C2 & C3 & C4) & E); [intros l I; apply (NS l); now right|].
      assert (OTHER : forall A (get : list (str * str) -> option A), (forall f sp, s <> SInfo f sp) -> says get (s :: a) -> says get a).
      { intros A get O (f & sp & [I|I] & G); [exfalso; exact (O f sp I)|now exists f, sp]. }
      destruct s as [f sp|l|l|l|l]; [| exfalso; apply (NS l); now left| | |];
        try (exists h1, h2, h3, h4; do 4 (split; [assumption|]); split; [repeat split; intros SY; [apply C1|apply C2|apply C3|apply C4]; (apply OTHER in SY; [exact SY|discriminate])|]; intros p; cbn [fold_left read_section]; apply E).
      clear OTHER.
      exists (fun x => h1 (match play_resolution f with Some r => in_f32 r | None => x end)), (fun x => h2 (match layout_resolution f with Some r => Some (in_f32 r) | None => x end)),
             (fun x => h3 (match field_of f "ScaledBorderAndShadow" with Some v => negb (eq_nocase v (lit "no")) | None => x end)), (fun x => h4 (wrap_of f)).
      split; [apply (fixed_comp (fun x => match play_resolution f with Some r => in_f32 r | None => x end) h1); [destruct (play_resolution f); [right; eauto|left; reflexivity]|exact F1]|].
      split; [apply (fixed_comp (fun x => match layout_resolution f with Some r => Some (in_f32 r) | None => x end) h2); [destruct (layout_resolution f); [right; eauto|left; reflexivity]|exact F2]|].
      split; [apply (fixed_comp (fun x => match field_of f "ScaledBorderAndShadow" with Some v => negb (eq_nocase v (lit "no")) | None => x end) h3); [destruct (field_of f _); [right; eauto|left; reflexivity]|exact F3]|].
      split; [right; exists (h4 (wrap_of f)); reflexivity|].
      split.
      { repeat split.
        - intros (f' & sp' & [I|I] & G).
          + injection I as <- <-. destruct (play_resolution f); [eauto|contradiction].
          + destruct C1 as (k & K); [now exists f', sp'|]. exists k. intros x. apply K.
        - intros (f' & sp' & [I|I] & G).
          + injection I as <- <-. destruct (layout_resolution f); [eauto|contradiction].
          + destruct C2 as (k & K); [now exists f', sp'|]. exists k. intros x. apply K.
        - intros (f' & sp' & [I|I] & G).
          + injection I as <- <-. destruct (field_of f _); [eauto|contradiction].
          + destruct C3 as (k & K); [now exists f', sp'|]. exists k. intros x. apply K.
        - intros _. eauto. }
      intros p. cbn [fold_left read_section]. rewrite E. unfold read_info. destruct (play_resolution f) as [r|]; [destruct (in_f32 r)|]; reflexivity.
  Qed.
  Lemma fixed_twice {A} (h : A -> A) x : fixed h -> h (h x) = h x.
  Proof. intros [H|(c & H)]; rewrite !H; reflexivity. Qed.
  Lemma default_settings p : settings (with_default pf p) = settings p.
  Proof. reflexivity. Qed.
  Lemma without_again p q : settings p = settings q -> without_styles p = without_styles q.
  Proof. unfold settings, without_styles. intros [= -> -> -> -> -> -> ->]. reflexivity. Qed.
  Lemma prepare_twice sections p : info_first sections -> prepare_script pf sections (prepare_script pf sections p) = prepare_script pf sections p.
  Proof.
    intros (a & b & -> & NS & NI). unfold prepare_script. rewrite !fold_left_app. destruct (infos_fixed a NS) as (h1 & h2 & h3 & h4 & F1 & F2 & F3 & F4 & _ & E).
    f_equal. f_equal. set (q := fold_left (read_section pf) a (without_styles p)).
    assert (S : settings (with_default pf (fold_left (read_section pf) b q)) = settings q) by (rewrite default_settings; now apply no_info_settings).
    rewrite (without_again _ _ S). unfold q. rewrite !E. unfold without_styles, vary. cbn [pi_play_x pi_play_y pi_layout pi_scaled pi_wrap pi_dpi pi_styles pi_default pi_resolver].
    rewrite <- !surjective_pairing. rewrite !fixed_twice by assumption. reflexivity.
  Qed.
  Lemma sections_fixed l : forall p, pi_dpi (fold_left (read_section pf) l p) = pi_dpi p /\ pi_resolver (fold_left (read_section pf) l p) = pi_resolver p.
  Proof.
    induction l as [|s l IH]; intros p; cbn [fold_left]; [auto|]. destruct (IH (read_section pf p s)) as [-> ->]. destruct s as [f sp|st|e|m|m]; cbn [read_section]; auto.
    - unfold read_info. destruct (match play_resolution f with Some r => in_f32 r | None => _ end). auto.
    - pose proof (add_styles_settings st p) as S. unfold settings in S. injection S. auto.
  Qed.
  Lemma prepared_fixed l p : pi_dpi (prepare_script pf l p) = pi_dpi p /\ pi_resolver (prepare_script pf l p) = pi_resolver p.
  Proof. unfold prepare_script. cbn [with_default pi_dpi pi_resolver]. apply (sections_fixed l (without_styles p)). Qed.
  (* a script that says everything before its styles *)
  Lemma prepare_any sections p p' : says_all sections -> pi_dpi p = pi_dpi p' -> pi_resolver p = pi_resolver p' ->
    prepare_script pf sections p = prepare_script pf sections p'.
  Proof.
    intros (a & b & -> & NS & S1 & S2 & S3) DP RE. unfold prepare_script. rewrite !fold_left_app. do 2 f_equal. destruct (infos_fixed a NS) as (h1 & h2 & h3 & h4 & _ & _ & _ & _ & (C1 & C2 & C3 & C4) & E).
    assert (S4 : says (@Some _) a). { destruct S1 as (f & sp & I & _). exists f, sp. split; [exact I|discriminate]. }
    destruct (C1 S1) as (k1 & K1), (C2 S2) as (k2 & K2), (C3 S3) as (k3 & K3), (C4 S4) as (k4 & K4). rewrite !E, !K1, !K2, !K3, !K4. unfold vary, without_styles. cbn [pi_dpi pi_resolver pi_styles pi_default]. now rewrite DP, RE.
  Qed.
  (* ---- styles ---- *)
  Definition laid_out (p : pipe) (s : style) : style := layout_style pf (fst (factors p)) (snd (factors p)) (pi_scaled p) s.
  Lemma find_inserted k s l n : style_named (insert_style n s l) k = if str_eqb n k then Some s else style_named l k.
  Proof.
    unfold style_named, insert_style. cbn [find fst]. destruct (str_eqb n k) eqn:E; [reflexivity|]. f_equal. induction l as [|[a b] l IH]; cbn [filter find fst]; [reflexivity|].
    destruct (str_eqb a n) eqn:A; cbn [negb]; [|cbn [find fst]; now rewrite IH]. apply str_eqb_eq in A. subst a. now rewrite E, IH.
  Qed.
  Lemma factors_same p q : settings p = settings q -> factors p = factors q /\ pi_scaled p = pi_scaled q.
  Proof. unfold settings, factors. intros [= -> -> -> -> _ _ _]. now split. Qed.
  Lemma laid_same p q s : settings p = settings q -> laid_out p s = laid_out q s.
  Proof. intros S. apply factors_same in S as [F G]. unfold laid_out. now rewrite F, G. Qed.
  Lemma styles_kept l : forall p q k seen, settings p = settings q -> (exists o, last_such (fun s => s_name s = k) seen o /\ style_named (pi_styles p) k = option_map (laid_out q) o) ->
    exists o, last_such (fun s => s_name s = k) (seen ++ l) o /\ style_named (pi_styles (fold_left (add_style pf) l p)) k = option_map (laid_out q) o.
  Proof.
    induction l as [|s l IH]; intros p q k seen S H; cbn [fold_left]; [rewrite app_nil_r; exact H|].
    change (seen ++ s :: l) with (seen ++ [s] ++ l). rewrite app_assoc. apply IH.
    - rewrite <- S. unfold add_style. destruct (factors p). reflexivity.
    - destruct H as (o & L & E). unfold add_style. pose proof (laid_same p q s S) as LS. unfold laid_out in LS at 1. destruct (factors p) as [kx ky]. cbn [pi_styles fst snd] in *. rewrite find_inserted.
      destruct (str_eqb (s_name s) k) eqn:K.
      + exists (Some s). split; [|cbn [option_map]; now rewrite <- LS]. apply str_eqb_eq in K. split; [exact K|]. exists seen, []. split; [reflexivity|]. intros x [].
      + exists o. split; [|exact E]. assert (NK : s_name s <> k) by (intros X; apply str_eqb_eq in X; congruence). destruct o as [x|].
        * destruct L as (N1 & l1 & l2 & -> & F). split; [exact N1|]. exists l1, (l2 ++ [s]). split; [now rewrite <- app_assoc|]. intros y Y. apply in_app_iff in Y as [Y|[<-|[]]]; auto.
        * intros y Y. apply in_app_iff in Y as [Y|[<-|[]]]; auto.
  Qed.
  Lemma sections_kept b : (forall f sp, ~ In (SInfo f sp) b) -> forall p q k seen, settings p = settings q -> (exists o, last_such (fun s => s_name s = k) seen o /\ style_named (pi_styles p) k = option_map (laid_out q) o) ->
    exists o, last_such (fun s => s_name s = k) (seen ++ all_styles b) o /\ style_named (pi_styles (fold_left (read_section pf) b p)) k = option_map (laid_out q) o.
  Proof.
    induction b as [|s b IH]; intros NI p q k seen S H; cbn [fold_left]; [cbn [all_styles flat_map]; rewrite app_nil_r; exact H|].
    assert (NI' : forall f sp, ~ In (SInfo f sp) b) by (intros f sp I; apply (NI f sp); now right).
    unfold all_styles. cbn [flat_map]. fold (all_styles b). destruct s as [f sp|l|l|l|l]; cbn [read_section app]; [exfalso; apply (NI f sp); now left| |now apply IH..].
    rewrite app_assoc. apply IH; [exact NI'|rewrite add_styles_settings; exact S|]. now apply styles_kept.
  Qed.
  Lemma prepared_styles sections p k : info_first sections ->
    exists o, last_such (fun s => s_name s = k) (all_styles sections) o /\ style_named (pi_styles (prepare_script pf sections p)) k = option_map (laid_out (prepare_script pf sections p)) o.
  Proof.
    intros (a & b & -> & NS & NI). unfold prepare_script. rewrite fold_left_app. set (q := fold_left (read_section pf) a (without_styles p)).
    assert (Q : pi_styles q = []). { unfold q. destruct (infos_fixed a NS) as (h1 & h2 & h3 & h4 & _ & _ & _ & _ & _ & E). rewrite E. reflexivity. }
    assert (AS : all_styles (a ++ b) = all_styles b). { unfold all_styles. rewrite flat_map_app. replace (flat_map _ a) with (@nil style); [reflexivity|]. symmetry. clear q Q. induction a as [|s a IH]; [reflexivity|]. cbn [flat_map]. rewrite IH by (intros l I; apply (NS l); now right). destruct s; try reflexivity. exfalso. apply (NS l). now left. }
    rewrite AS. destruct (sections_kept b NI q q k []) as (o & L & E); [reflexivity|exists None; split; [intros x []|now rewrite Q]|].
    exists o. split; [exact L|]. cbn [with_default pi_styles]. rewrite E. assert (SS : settings (with_default pf (fold_left (read_section pf) b q)) = settings q) by (rewrite default_settings; now apply no_info_settings).
    destruct o as [s|]; [|reflexivity]. cbn [option_map]. f_equal. now apply laid_same.
  Qed.
  Lemma default_kept l : forall p q seen, settings p = settings q -> (exists o, last_such is_default seen o /\ pi_default p = option_map (laid_out q) o) ->
    exists o, last_such is_default (seen ++ l) o /\ pi_default (fold_left (add_style pf) l p) = option_map (laid_out q) o.
  Proof.
    induction l as [|s l IH]; intros p q seen S H; cbn [fold_left]; [rewrite app_nil_r; exact H|].
    change (seen ++ s :: l) with (seen ++ [s] ++ l). rewrite app_assoc. apply IH.
    - rewrite <- S. unfold add_style. destruct (factors p). reflexivity.
    - destruct H as (o & L & E). unfold add_style. pose proof (laid_same p q s S) as LS. unfold laid_out in LS at 1. destruct (factors p) as [kx ky]. cbn [pi_default fst snd] in *.
      destruct (str_eqb (s_name s) (lit "Default") || str_eqb (s_name s) (lit "*Default")) eqn:K.
      + exists (Some s). split; [|cbn [option_map]; now rewrite <- LS]. apply orb_true_iff in K. rewrite !str_eqb_eq in K. split; [exact K|]. exists seen, []. split; [reflexivity|]. intros x [].
      + exists o. split; [|exact E]. assert (NK : ~ is_default s). { unfold is_default. rewrite <- !str_eqb_eq. apply orb_false_iff in K as [-> ->]. intros [|]; discriminate. } destruct o as [x|].
        * destruct L as (N1 & l1 & l2 & -> & F). split; [exact N1|]. exists l1, (l2 ++ [s]). split; [now rewrite <- app_assoc|]. intros y Y. apply in_app_iff in Y as [Y|[<-|[]]]; auto.
        * intros y Y. apply in_app_iff in Y as [Y|[<-|[]]]; auto.
  Qed.
  Lemma defaults_kept b : (forall f sp, ~ In (SInfo f sp) b) -> forall p q seen, settings p = settings q -> (exists o, last_such is_default seen o /\ pi_default p = option_map (laid_out q) o) ->
    exists o, last_such is_default (seen ++ all_styles b) o /\ pi_default (fold_left (read_section pf) b p) = option_map (laid_out q) o.
  Proof.
    induction b as [|s b IH]; intros NI p q seen S H; cbn [fold_left]; [cbn [all_styles flat_map]; rewrite app_nil_r; exact H|].
    assert (NI' : forall f sp, ~ In (SInfo f sp) b) by (intros f sp I; apply (NI f sp); now right).
    unfold all_styles. cbn [flat_map]. fold (all_styles b). destruct s as [f sp|l|l|l|l]; cbn [read_section app]; [exfalso; apply (NI f sp); now left| |now apply IH..].
    rewrite app_assoc. apply IH; [exact NI'|rewrite add_styles_settings; exact S|]. now apply default_kept.
  Qed.
  Lemma no_styles a : (forall l, ~ In (SStyles l) a) -> forall b, all_styles (a ++ b) = all_styles b.
  Proof.
    intros NS b. unfold all_styles. rewrite flat_map_app. replace (flat_map _ a) with (@nil style); [reflexivity|]. symmetry.
    induction a as [|s a IH]; [reflexivity|]. cbn [flat_map]. rewrite IH by (intros l I; apply (NS l); now right). destruct s; try reflexivity. exfalso. apply (NS l). now left.
  Qed.
  Lemma prepared_default sections p s : info_first sections -> last_such is_default (all_styles sections) (Some s) ->
    pi_default (prepare_script pf sections p) = Some (laid_out (prepare_script pf sections p) s).
  Proof.
    intros (a & b & -> & NS & NI) LD. rewrite (no_styles a NS) in LD. unfold prepare_script. rewrite fold_left_app. set (q := fold_left (read_section pf) a (without_styles p)).
    assert (Q : pi_default q = None). { unfold q. destruct (infos_fixed a NS) as (h1 & h2 & h3 & h4 & _ & _ & _ & _ & _ & E). rewrite E. reflexivity. }
    destruct (defaults_kept b NI q q []) as (o & L & E); [reflexivity|exists None; split; [intros x []|now rewrite Q]|].
    assert (SS : settings (with_default pf (fold_left (read_section pf) b q)) = settings q) by (rewrite default_settings; now apply no_info_settings).
    assert (O : o = Some s).
    { cbn [app] in L. destruct LD as (IS & l1 & l2 & X & F). destruct o as [s'|]; cbn [last_such] in L.
      - destruct L as (IS' & l1' & l2' & X' & F'). f_equal. clear - IS IS' X X' F F'. rewrite X in X'. clear X. revert l1' X'. induction l1 as [|x l1 IH]; intros [|y l1'] X'; cbn [app] in X'; injection X' as E1 E2.
        + now symmetry.
        + exfalso. apply (F s'); [|exact IS']. rewrite E2. apply in_or_app. right. now left.
        + exfalso. apply (F' s); [|exact IS]. rewrite <- E2. apply in_or_app. right. now left.
        + exact (IH _ E2).
      - exfalso. apply (L s); [|exact IS]. rewrite X. apply in_or_app. right. now left. }
    subst o. cbn [with_default pi_default]. rewrite E. cbn [option_map]. f_equal. apply laid_same. now symmetry.
  Qed.
  Lemma rescale_times k a : times (pf_show pf) k a (rescale pf k a).
  Proof. unfold times, rescale. split; [intros x ->; reflexivity|intros ->; reflexivity]. Qed.
  Lemma factor_is play l : factor_of play l (layout_factor play l).
  Proof. unfold factor_of, layout_factor. destruct l as [l|]; [|reflexivity]. destruct (f_eq l play); auto. Qed.
  Lemma laid_becomes p s : becomes (pf_show pf) (pi_play_x p) (pi_play_y p) (pi_layout p) (pi_scaled p) s (laid_out p s).
  Proof.
    exists (fst (factors p)), (snd (factors p)). split; [apply factor_is|]. split; [apply factor_is|]. unfold laid_out, layout_style. destruct (f_eq (fst (factors p)) (fl 1)) eqn:A; [destruct (f_eq (snd (factors p)) (fl 1)) eqn:B|].
    - left. auto.
    - right. split; [now right|]. constructor; cbn; try apply rescale_times; try (destruct (pi_scaled p); [apply rescale_times|reflexivity]). repeat split.
    - right. split; [now left|]. constructor; cbn; try apply rescale_times; try (destruct (pi_scaled p); [apply rescale_times|reflexivity]). repeat split.
  Qed.
  (* the last words on the sizes *)
  Lemma last_app {A} (Q : A -> Prop) l x o : last_such Q l o -> (Q x -> last_such Q (l ++ [x]) (Some x)) /\ (~ Q x -> last_such Q (l ++ [x]) o).
  Proof.
    intros L. split; intros H.
    - split; [exact H|]. exists l, []. split; [reflexivity|]. intros y [].
    - destruct o as [y|]; cbn [last_such] in *.
      + destruct L as (QY & l1 & l2 & -> & F). split; [exact QY|]. exists l1, (l2 ++ [x]). split; [now rewrite <- app_assoc|]. intros z Z. apply in_app_iff in Z as [Z|[<-|[]]]; auto.
      + intros z Z. apply in_app_iff in Z as [Z|[<-|[]]]; auto.
  Qed.
  Lemma prepared_sizes sections p : let q := prepare_script pf sections p in
    (exists o, last_such (fun f => play_resolution f <> None) (infos sections) o /\ (pi_play_x q, pi_play_y q) = match obind o play_resolution with Some r => in_f32 r | None => (pi_play_x p, pi_play_y p) end) /\
    (exists o, last_such (fun f => layout_resolution f <> None) (infos sections) o /\ pi_layout q = match obind o layout_resolution with Some r => Some (in_f32 r) | None => pi_layout p end) /\
    (exists o, last_such (fun f => field_of f "ScaledBorderAndShadow" <> None) (infos sections) o /\ pi_scaled q = match obind o (fun f => field_of f "ScaledBorderAndShadow") with Some v => negb (eq_nocase v (lit "no")) | None => pi_scaled p end) /\
    (exists o, last_such (fun _ => True) (infos sections) o /\ pi_wrap q = match o with Some f => wrap_of f | None => pi_wrap p end).
  Proof.
    unfold prepare_script. cbn [with_default pi_play_x pi_play_y pi_layout pi_scaled pi_wrap].
    change (pi_play_x p) with (pi_play_x (without_styles p)). change (pi_play_y p) with (pi_play_y (without_styles p)). change (pi_layout p) with (pi_layout (without_styles p)).
    change (pi_scaled p) with (pi_scaled (without_styles p)). change (pi_wrap p) with (pi_wrap (without_styles p)). generalize (without_styles p). clear p. intros p.
    induction sections as [|s l IH] using rev_ind; [cbn; repeat split; exists None; (split; [intros x []|reflexivity])|]. rewrite fold_left_app. cbn [fold_left].
    set (q := fold_left (read_section pf) l p) in *. unfold infos in *. rewrite flat_map_app. cbn [flat_map]. rewrite app_nil_r. destruct s as [f sp|st|e|m|m]; cbn [read_section]; try (rewrite app_nil_r; exact IH).
    - destruct IH as ((o1 & L1 & E1) & (o2 & L2 & E2) & (o3 & L3 & E3) & (o4 & L4 & E4)). unfold read_info.
      split; [|split; [|split]].
      + destruct (last_app _ _ f o1 L1) as [Y NY]. destruct (play_resolution f) as [r|] eqn:R.
        * exists (Some f). split; [apply Y; discriminate|]. destruct (in_f32 r) as [a b] eqn:AB. cbn [obind pi_play_x pi_play_y]. now rewrite R, AB.
        * exists o1. split; [apply NY; intros K; now apply K|]. cbn [pi_play_x pi_play_y]. exact E1.
      + destruct (last_app _ _ f o2 L2) as [Y NY]. destruct (match play_resolution f with Some r => in_f32 r | None => _ end). cbn [pi_layout]. destruct (layout_resolution f) as [r|] eqn:R.
        * exists (Some f). split; [apply Y; discriminate|]. cbn [obind]. now rewrite R.
        * exists o2. split; [apply NY; intros K; now apply K|]. exact E2.
      + destruct (last_app _ _ f o3 L3) as [Y NY]. destruct (match play_resolution f with Some r => in_f32 r | None => _ end). cbn [pi_scaled]. destruct (field_of f "ScaledBorderAndShadow") as [r|] eqn:R.
        * exists (Some f). split; [apply Y; discriminate|]. cbn [obind]. now rewrite R.
        * exists o3. split; [apply NY; intros K; now apply K|]. exact E3.
      + destruct (last_app _ _ f o4 L4) as [Y NY]. destruct (match play_resolution f with Some r => in_f32 r | None => _ end). cbn [pi_wrap]. exists (Some f). split; [now apply Y|reflexivity].
    - rewrite app_nil_r. pose proof (add_styles_settings st q) as S. unfold settings in S. injection S as -> -> -> -> _ -> _. exact IH.
  Qed.
End Prepare.

(* ---- text with no timed tag ---- *)
Fixpoint plainly (text : str) : bool :=
  match text with
  | [] => true
  | c :: r => negb ((c =? 123)%N && match r with w :: _ => is_alpha w | [] => false end) && plainly r
  end.
Lemma plainly_spec text : plainly text = true -> forall a w b, text = a ++ 123%N :: w :: b -> ~ letter w.
Proof.
  induction text as [|c r IH]; intros H [|x a] w b E; try discriminate; cbn [plainly app] in *; apply andb_true_iff in H as [H1 H2]; injection E as -> E.
  - subst r. rewrite N.eqb_refl in H1. cbn [andb] in H1. rewrite <- alpha_iff. destruct (is_alpha w); [discriminate|intros K; discriminate K].
  - exact (IH H2 a w b E).
Qed.
Lemma plain_timeless text : event_is_animated text = false -> plainly text = true -> timeless text.
Proof.
  intros A B. split.
  - intros m M O. assert (K : event_is_animated text = true) by (apply animated_iff; eauto). congruence.
  - intros a w c b E L NL I. destruct w as [|x w].
    + repeat (destruct I as [I|I]; [discriminate I|]). destruct I.
    + inversion L; subst. apply (plainly_spec _ B a x (w ++ c :: b)); [reflexivity|assumption].
Qed.

(* ---- kept frames ---- *)
Lemma keys_iff a : forall b, keys_eqb a b = true <-> a = b.
Proof.
  induction a as [|[x n] a IH]; intros [|[y m] b]; cbn [keys_eqb]; [tauto|split; discriminate|split; discriminate|].
  rewrite !andb_true_iff, N.eqb_eq, Nat.eqb_eq, IH. split; [intros [[-> ->] ->]; reflexivity|intros [= -> -> ->]; auto].
Qed.
Lemma context_twice sections c : read_context sections (read_context sections c) = read_context sections c.
Proof.
  unfold read_context. destruct (first_info sections) as [f|]; [|reflexivity]. cbn [cx_width cx_height cx_play cx_storage cx_rate cx_par].
  destruct (play_resolution f), (layout_resolution f); reflexivity.
Qed.
Lemma chosen_all {A} (Q : A -> Prop) i l found : chosen Q i l found -> forall x, In x (map snd found) -> Q x.
Proof. induction 1 as [|i x l r H C IH|i x l r H C IH]; cbn [map snd]; intros y Y; [contradiction|destruct Y as [<-|Y]; auto|auto]. Qed.
Lemma chosen_has {A} (Q : A -> Prop) i l found : chosen Q i l found -> forall x, In x l -> Q x -> In x (map snd found).
Proof. induction 1 as [|i x l r H C IH|i x l r H C IH]; cbn [map snd]; intros y Y QY; [contradiction|destruct Y as [<-|Y]; [now left|right; auto]|destruct Y as [<-|Y]; [contradiction|auto]]. Qed.
Lemma on_showing b t e : on_screen b t e -> showing t e.
Proof. intros (_ & a & u & A & U & L). exists u. split; [now left|]. unfold start_of. destruct A as [->|[-> ->]]; exact L. Qed.
Lemma times_read e : readable e -> exists u, time_or 0 (e_start e) = Done (start_of e) /\ time_or u32_max (e_end e) = Done u /\ forall t, showing t e <-> on_at (start_of e) u t = true.
Proof.
  intros [R1 R2]. unfold time_or, start_of, showing, on_at. destruct (parse_ass_time (e_start e)) as [a| |] eqn:A; [| |contradiction]; (destruct (parse_ass_time (e_end e)) as [b| |] eqn:B; [exists b|exists u32_max|contradiction]);
  (split; [reflexivity|]; split; [reflexivity|]; intros t; rewrite andb_true_iff, N.leb_le, N.ltb_lt; unfold start_of; rewrite A; split; [intros (u & [U|[U U']] & L); try discriminate; try (injection U as ->); subst; exact L|intros L]);
  try (exists b; split; [now left|exact L]); (exists u32_max; split; [right; split; reflexivity|exact L]).
Qed.
Lemma dirty_split events t prev : Forall (fun e => readable e /\ showing t e) events ->
  ((exists e, In e events /\ ~ showing prev e) /\ dirty_regions events t prev = Done [full_screen]) \/ ((forall e, In e events -> showing prev e) /\ dirty_regions events t prev = Done []).
Proof.
  induction 1 as [|e l [R S] F IH]; cbn [dirty_regions]; [right; split; [intros e []|reflexivity]|]. destruct (times_read e R) as (u & -> & -> & W). cbn [bind]. rewrite (proj1 (W t) S).
  destruct (on_at (start_of e) u prev) eqn:O; cbn [Bool.eqb].
  - destruct IH as [[(x & I & NS) ->]|[A ->]].
    + left. split; [exists x; split; [now right|exact NS]|reflexivity].
    + right. split; [|reflexivity]. intros x [<-|I]; [now apply W|auto].
  - left. split; [|reflexivity]. exists e. split; [now left|]. rewrite W, O. discriminate.
Qed.
Lemma dirty_exact events t prev : Forall readable events ->
  ((exists e, In e events /\ ~ (showing t e <-> showing prev e)) -> dirty_regions events t prev = Done [full_screen]) /\
  ((forall e, In e events -> (showing t e <-> showing prev e)) -> dirty_regions events t prev = Done []).
Proof.
  induction 1 as [|e l R F [IH1 IH2]]; cbn [dirty_regions]; [split; [intros (e & [] & _)|reflexivity]|]. destruct (times_read e R) as (u & -> & -> & W). cbn [bind].
  destruct (Bool.eqb (on_at (start_of e) u prev) (on_at (start_of e) u t)) eqn:O.
  - split; [intros (x & [<-|I] & NX); [exfalso; apply NX; rewrite !W; apply eqb_prop in O; now rewrite O|apply IH1; eauto]|intros A; apply IH2; intros x I; apply A; now right].
  - split; [reflexivity|]. intros A. specialize (A e (or_introl eq_refl)). rewrite !W in A. exfalso. destruct (on_at _ _ prev), (on_at _ _ t); try discriminate O; destruct A as [A B]; [discriminate (B eq_refl)|discriminate (A eq_refl)].
Qed.
Section Kept.
  Context {D P : Type} (pf : platform D P) (shuffle : list entry -> list entry).
  Hypothesis shuffles : forall l, Permutation l (shuffle l).
  Variables (c : context) (s : loaded) (lines : list event) (ts : list N).
  Hypothesis isscript : script_lines (ld_sections s) lines.
  Hypothesis order : info_first (ld_sections s).
  Hypothesis apart : texts_apart s.
  Hypothesis reads : Forall readable lines.
  Hypothesis honestly : Forall (fun e => honest (e_text e)) lines.
  Hypothesis small : Forall (fun t => (t < 2147483648)%N) ts.
  Let all : list selector_op := map (Query (ld_address s) (ld_sections s)) ts.
  Let ctx : context := read_context (ld_sections s) c.
  Let ready : pipe := prepare_script pf (ld_sections s) new_pipe.
  Lemma lines_once l1 l2 : script_lines (ld_sections s) l1 -> script_lines (ld_sections s) l2 -> l1 = l2.
  Proof. rewrite !first_lines. destruct (first_events (ld_sections s)); congruence. Qed.
  Lemma all_stable : addresses_stable all.
  Proof.
    intros a s1 t1 s2 t2 l1 l2 Q1 Q2 _ _ L1 L2 _. apply in_map_iff in Q1 as (? & [= _ <- _] & _), Q2 as (? & [= _ <- _] & _). now apply lines_once.
  Qed.
  Lemma all_safe : Forall op_safe all.
  Proof.
    apply Forall_forall. intros o O. apply in_map_iff in O as (t & <- & T). rewrite Forall_forall in small. split; [now apply small|]. intros l L. now rewrite (lines_once l lines L isscript).
  Qed.
  Lemma found_lines sel m t sel' a : remembers shuffle all sel m -> me_comments m = false -> In t ts -> select_active shuffle sel (ld_address s) (ld_sections s) t = Done (sel', a) ->
    (exists found, chosen (on_screen false t) 0 lines found /\ ac_events a = map snd found) /\ exists m', remembers shuffle all sel' m' /\ me_comments m' = false.
  Proof.
    intros R C T E. rewrite Forall_forall in small. assert (Q : In (Query (ld_address s) (ld_sections s) t) all) by (apply in_map_iff; eauto).
    destruct (query_ok shuffle shuffles all all_stable sel m _ _ t sel' a R Q (small t T) E) as (m' & A & R'). split.
    - destruct (an_lines _ _ _ _ _ A) as (l & found & L & F & EV & _). rewrite C in F. rewrite (lines_once l lines L isscript) in F. eauto.
    - exists m'. split; [exact R'|]. now rewrite (an_comments _ _ _ _ _ A).
  Qed.
  Lemma new_remembers : remembers shuffle all new_selector blank.
  Proof. constructor; cbn; try reflexivity; try discriminate. constructor. Qed.
  Lemma fresh_select t : In t ts -> exists sel a found, select_active shuffle new_selector (ld_address s) (ld_sections s) t = Done (sel, a) /\
    chosen (on_screen false t) 0 lines found /\ ac_events a = map snd found.
  Proof.
    intros T. assert (Q : In (Query (ld_address s) (ld_sections s) t) all) by (apply in_map_iff; eauto).
    destruct (query_runs shuffle shuffles all all_stable all_safe new_selector blank _ _ t new_remembers Q) as ([sel a] & E).
    destruct (found_lines _ _ t sel a new_remembers eq_refl T E) as [(found & F & EV) _]. eauto 6.
  Qed.
  Lemma chosen_incl {A} (Q : A -> Prop) i l found : chosen Q i l found -> incl (map snd found) l.
  Proof. induction 1 as [|i x l r H C IH|i x l r H C IH]; cbn [map snd]; intros y Y; [contradiction|destruct Y as [<-|Y]; [now left|right; auto]|right; auto]. Qed.
  Definition kept (f : list (N * nat) * frame) : Prop :=
    exists evs t0 ls, incl evs lines /\ fst f = key_of s evs /\ Forall (fun e => event_is_animated (e_text e) = false) evs /\
    process_events pf ready ctx t0 evs = Done (Some ls) /\ composite pf ls ctx = Some (fr_pixels (snd f)) /\ fr_width (snd f) = cx_width ctx /\ fr_height (snd f) = cx_height ctx.
  Record sound (r : renderer) : Prop := {
    so_context : read_context (ld_sections s) (rn_context r) = ctx;
    so_pipe : prepare_script pf (ld_sections s) (rn_pipe r) = ready;
    so_selector : exists m, remembers shuffle all (rn_selector r) m /\ me_comments m = false;
    so_cache : forall f, rn_cache r = Some f -> kept f }.
  Lemma new_sound : sound (new_renderer c).
  Proof. constructor; cbn; [reflexivity|reflexivity|exists blank; split; [exact new_remembers|reflexivity]|discriminate]. Qed.
  Lemma ctx_twice : read_context (ld_sections s) ctx = ctx.
  Proof. apply context_twice. Qed.
  Lemma ready_twice : prepare_script pf (ld_sections s) ready = ready.
  Proof. apply prepare_twice. exact order. Qed.
  Lemma key_once a : forall b, incl a lines -> incl b lines -> key_of s a = key_of s b -> a = b.
  Proof.
    induction a as [|x a IH]; intros [|y b] A B E; try discriminate; [reflexivity|]. cbn [key_of map] in E. injection E as E1 _ E2. f_equal.
    - apply (apart lines); [exact isscript|apply A; now left|apply B; now left|exact E1].
    - apply IH; [intros z Z; apply A; now right|intros z Z; apply B; now right|exact E2].
  Qed.
  Lemma not_animated evs : existsb (fun e => event_is_animated (e_text e)) evs = false -> Forall (fun e => event_is_animated (e_text e) = false) evs.
  Proof.
    intros H. apply Forall_forall. intros e E. destruct (event_is_animated (e_text e)) eqn:X; [|reflexivity]. assert (K : existsb (fun e => event_is_animated (e_text e)) evs = true) by (apply existsb_exists; eauto). congruence.
  Qed.
  Lemma quiet_timeless evs : incl evs lines -> Forall (fun e => event_is_animated (e_text e) = false) evs -> Forall (fun e => timeless (e_text e)) evs.
  Proof.
    intros I F. rewrite Forall_forall in *. intros e E. destruct (honestly e (I e E)) as [A|T]; [|exact T]. apply animated_iff in A. rewrite (F e E) in A. discriminate.
  Qed.
  Lemma frame_sound r t r' f : In t ts -> sound r -> render_frame pf shuffle r s t = Done (r', f) ->
    sound r' /\ exists r2, render_frame pf shuffle (new_renderer c) s t = Done (r2, f).
  Proof.
    intros T [S1 S2 (m & S3 & S3') S4]. unfold render_frame, select. rewrite S1, S2. cbn [new_renderer rn_context rn_pipe rn_selector rn_cache].
    change (read_context (ld_sections s) c) with ctx. change (prepare_script pf (ld_sections s) new_pipe) with ready.
    destruct (select_active shuffle (rn_selector r) _ _ t) as [[sel a]| |] eqn:E; try discriminate. cbn [bind fst snd].
    destruct (found_lines _ _ t sel a S3 S3' T E) as [(found & F & EV) (m' & R' & C')].
    destruct (fresh_select t T) as (sel2 & a2 & found2 & E2 & F2 & EV2). rewrite E2. cbn [bind fst snd].
    rewrite EV, EV2, <- (chosen_unique _ _ _ _ F _ F2). set (evs := map snd found) in *. assert (I : incl evs lines) by (apply (chosen_incl _ _ _ _ F)).
    assert (SND : forall p k, prepare_script pf (ld_sections s) p = ready -> (forall f, k = Some f -> kept f) -> sound (Renderer ctx p sel k)).
    { intros p k Pq K. constructor; cbn [rn_context rn_pipe rn_selector rn_cache]; [apply ctx_twice|exact Pq|eauto|exact K]. }
    destruct evs as [|e0 er] eqn:EE.
    - intros [= <- <-]. split; [now apply SND|eauto].
    - rewrite <- EE in *. cbn zeta. destruct (existsb (fun e => event_is_animated (e_text e)) evs) eqn:AN.
      + destruct (process_events pf ready ctx t evs) as [ls| |] eqn:PE; try discriminate. cbn [bind]. destruct (obind ls (fun l => composite pf l ctx)) as [px|] eqn:CP.
        * intros [= <- <-]. split; [apply SND; [exact ready_twice|discriminate]|eauto].
        * intros [= <- <-]. split; [apply SND; [exact ready_twice|exact S4]|eauto].
      + pose proof (not_animated _ AN) as NA. destruct (rn_cache r) as [[k f0]|] eqn:CA.
        * destruct (keys_eqb k (key_of s evs)) eqn:K.
          -- intros [= <- <-]. split; [apply SND; [exact S2|exact S4]|]. apply keys_iff in K. subst k.
             destruct (S4 _ eq_refl) as (evs0 & t0 & ls & I0 & K0 & NA0 & PE & CP & W & H). cbn [fst snd] in *. apply key_once in K0; [|exact I|exact I0]. subst evs0.
             rewrite (frame_same pf ready ctx t t0 evs (quiet_timeless _ I NA)), PE. cbn [bind obind]. rewrite CP. unfold retimed. rewrite W, H. eauto.
          -- destruct (process_events pf ready ctx t evs) as [ls| |] eqn:PE; try discriminate. cbn [bind]. destruct (obind ls (fun l => composite pf l ctx)) as [px|] eqn:CP.
             ++ intros [= <- <-]. split; [|eauto]. apply SND; [exact ready_twice|]. cbn [option_map]. intros f [= <-]. destruct ls as [ls|]; [|discriminate]. cbn [obind] in CP.
                exists evs, t, ls. cbn [fst snd fr_pixels fr_width fr_height]. auto 8.
             ++ intros [= <- <-]. split; [apply SND; [exact ready_twice|exact S4]|eauto].
        * destruct (process_events pf ready ctx t evs) as [ls| |] eqn:PE; try discriminate. cbn [bind]. destruct (obind ls (fun l => composite pf l ctx)) as [px|] eqn:CP.
          -- intros [= <- <-]. split; [|eauto]. apply SND; [exact ready_twice|]. cbn [option_map]. intros f [= <-]. destruct ls as [ls|]; [|discriminate]. cbn [obind] in CP.
             exists evs, t, ls. cbn [fst snd fr_pixels fr_width fr_height]. auto 8.
          -- intros [= <- <-]. split; [apply SND; [exact ready_twice|discriminate]|eauto].
  Qed.
  Lemma renders_sound qs : incl qs ts -> forall r r' frames, sound r -> renders pf shuffle r (map (Render s) qs) = Done (r', frames) ->
    Forall2 (fun t f => exists r2, render_frame pf shuffle (new_renderer c) s t = Done (r2, f)) qs frames /\ sound r'.
  Proof.
    induction qs as [|t qs IH]; intros I r r' frames S; cbn [map renders]; [intros [= <- <-]; split; [constructor|exact S]|].
    destruct (render_frame pf shuffle r s t) as [[r1 f]| |] eqn:E; try discriminate. cbn [bind fst snd]. destruct (frame_sound r t r1 f (I t (or_introl eq_refl)) S E) as [S' X].
    destruct (renders pf shuffle r1 (map (Render s) qs)) as [[r2 fs]| |] eqn:E2; try discriminate. cbn [bind fst snd]. intros [= <- <-].
    destruct (IH (fun z Z => I z (or_intror Z)) r1 r2 fs S' E2) as [F S2]. split; [now constructor|exact S2].
  Qed.
  Lemma incremental_ok r t prev r' f : In t ts -> sound r -> render_incremental pf shuffle r s t prev = Done (r', f) ->
    exists found, chosen (on_screen false t) 0 lines found /\
    ((forall e, In e (map snd found) -> showing (fr_time prev) e) -> f = Some prev) /\
    ((exists e, In e (map snd found) /\ ~ showing (fr_time prev) e) -> exists ls, process_events pf ready (rn_context r) t (map snd found) = Done ls /\
       f = option_map (fun px => Frame px (cx_width (rn_context r)) (cx_height (rn_context r)) t) (obind ls (fun ls => composite_over pf prev ls (rn_context r)))).
  Proof.
    intros T [S1 S2 (m & S3 & S3') S4]. unfold render_incremental, select. rewrite S2.
    destruct (select_active shuffle (rn_selector r) _ _ t) as [[sel a]| |] eqn:E; try discriminate. cbn [bind fst snd].
    destruct (found_lines _ _ t sel a S3 S3' T E) as [(found & F & EV) _]. rewrite EV. intros H. exists found. split; [exact F|].
    assert (I : incl (map snd found) lines) by (apply (chosen_incl _ _ _ _ F)).
    assert (ON : Forall (fun e => readable e /\ showing t e) (map snd found)).
    { apply Forall_forall. intros e IE. rewrite Forall_forall in reads. split; [exact (reads e (I e IE))|]. apply on_showing with false. exact (chosen_all _ _ _ _ F e IE). }
    destruct (dirty_split (map snd found) t (fr_time prev) ON) as [[DI E2]|[DI E2]]; rewrite E2 in H; cbn [bind] in H.
    - split.
      + intros ALL. exfalso. destruct DI as (e & IE & NS). exact (NS (ALL e IE)).
      + intros _. destruct (process_events pf ready (rn_context r) t (map snd found)) as [ls| |]; try discriminate. exists ls. split; [reflexivity|]. cbn [bind] in H.
        destruct (obind ls _) as [px|]; now injection H as _ <-.
    - split; [intros _; now injection H as _ <-|]. intros (e & IE & NS). exfalso. exact (NS (DI e IE)).
  Qed.
End Kept.
