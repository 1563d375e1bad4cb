(* The tag processor: all tags of an event. *)
From Coq Require Import Sorting.Sorted.
From Verif Require Import Base BaseLemmas SegmentModel SegmentSpec SegmentProofs SegmentBlock TagProofs TextProofs.

Definition meaning1 (n a : str) (f : field) : option value :=
  match f with
  | FName => only (named n ["fn"]%string) (Some (VText (trim a)))
  | FAngle => only (named n ["frz"; "fr"]%string) (vnum a)
  | FEncoding => only (named n ["fe"]%string) (vbyte a)
  | FReset => only (named n ["r"]%string) (Some (VText (trim a)))
  | FBaseline => only (named n ["pbo"]%string) (vnum a)
  | _ => meaning n a f
  end.
Definition after1 (n a : str) (t : tags) (f : field) : option value := match meaning1 n a f with Some v => Some v | None => tg_field t f end.
Definition outcome1 (n a : str) (t : tags) (r : run tags) : Prop :=
  (n = lit "kt" /\ r = Done (set_start a t)) \/
  (n = lit "t" /\ r = push_transform a t) \/
  ((n = lit "fad" \/ n = lit "fade") /\ parse_fade_args a = Panic /\ r = Crash) \/
  (n <> lit "kt" /\ n <> lit "t" /\ ((n = lit "fad" \/ n = lit "fade") -> parse_fade_args a <> Panic) /\
   exists t', r = Done t' /\ tg_transforms t' = tg_transforms t /\ forall f, tg_field t' f = after1 n a t f).
Ltac simple1 :=
  right; right; right; split; [discriminate|]; split; [discriminate|]; split; [intros [K|K]; discriminate K|];
  eexists; split; [reflexivity|]; split; [apply put_keeps|]; intros f; rewrite put_after; destruct f; reflexivity.
Ltac branch1 := match goal with |- outcome1 ?n _ _ (if named ?n ?l then _ else _) =>
  let H := fresh "H" in destruct (named n l) eqn:H; [apply named_true in H as (s & Hin & ->); cbn [In] in Hin|] end.
Ltac plain1 := branch1; [members; simple1|].
Ltac colour1 := branch1; [unfold put_res; rewrite parse_color_ok; members; simple1|].
Lemma single_is n a t : outcome1 n a t (process_single_tag n a t).
Proof.
  unfold process_single_tag. do 3 plain1. do 4 colour1. do 10 plain1.
  branch1.
  { members; (right; right; right; split; [discriminate|]; split; [discriminate|]; split; [intros [K|K]; discriminate K|];
      eexists; split; [reflexivity|]; split; [now rewrite !put_keeps|]; intros f; rewrite !put_after; destruct f; reflexivity). }
  do 23 plain1.
  branch1.
  { unfold put_res. destruct (fade_cases a) as [E|E]; rewrite E; members.
    1,2: right; right; right; split; [discriminate|]; split; [discriminate|]; split; [congruence|];
      eexists; split; [reflexivity|]; split; [apply put_keeps|]; intros f; rewrite put_after; destruct f; reflexivity.
    1,2: right; right; left; auto. }
  do 4 plain1.
  branch1; [members; left; split; reflexivity|].
  branch1; [members; right; left; split; reflexivity|].
  right; right; right. split; [intros ->; discriminate|]. split; [intros ->; discriminate|]. split; [intros [->| ->]; discriminate|].
  exists t. split; [reflexivity|]. split; [reflexivity|]. intros f. unfold after1.
  destruct f; cbn [meaning1 meaning]; repeat match goal with H : named n ?l = false |- context [named n ?l] => rewrite H end; reflexivity.
Qed.
Lemma sets_iff n a f v : sets n a f v <-> meaning1 n a f = Some v.
Proof.
  split.
  - intros S. destruct S as [n a f v NF G|a|n a x N X|a x X|a x X|a].
    + apply gives_iff in G. destruct f; try exact G; try contradiction; discriminate G.
    + reflexivity.
    + destruct N as [->| ->]; apply vnum_some; eauto.
    + apply vbyte_some. eauto.
    + apply vnum_some. eauto.
    + reflexivity.
  - intros M. destruct f; try (apply st_same; [discriminate|now apply gives_iff]); cbn [meaning1] in M; apply only_some in M as [H M]; apply named_true in H as (s & Hin & ->); cbn [In] in Hin; members.
    + injection M as <-. apply st_name.
    + apply vnum_some in M as (x & X & ->). apply st_angle; auto.
    + apply vnum_some in M as (x & X & ->). apply st_angle; auto.
    + apply vbyte_some in M as (x & X & ->). now apply st_encoding.
    + injection M as <-. apply st_reset.
    + apply vnum_some in M as (x & X & ->). now apply st_baseline.
Qed.
Definition karaoke_start (n a : str) : option N := if named n ["kt"]%string then parse_u32 a else None.
Lemma karaoke_start_iff n a m : starts_karaoke n a m <-> karaoke_start n a = Some m.
Proof.
  unfold starts_karaoke, karaoke_start, u32_of, parse_u32. split; [intros [-> E]; exact E|].
  destruct (named n ["kt"]%string) eqn:H; [|discriminate]. apply named_true in H as (s & [<-|[]] & ->). auto.
Qed.
(* one tag *)
Definition field1 (f : field) (t : tag) (b b1 : option value) : Prop :=
  (exists v, sets (tg_name t) (tg_args t) f v /\ b1 = Some v) \/
  (f = FKaraoke /\ exists m, starts_karaoke (tg_name t) (tg_args t) m /\ b1 = with_start m b) \/
  ((forall v, ~ sets (tg_name t) (tg_args t) f v) /\ (f = FKaraoke -> forall m, ~ starts_karaoke (tg_name t) (tg_args t) m) /\ b1 = b).
Definition trans1 (t : tag) (l l1 : list transform) : Prop :=
  (exists tr, tg_name t = lit "t" /\ is_transform (tg_args t) tr /\ l1 = l ++ [tr]) \/ ((tg_name t = lit "t" -> forall tr, ~ is_transform (tg_args t) tr) /\ l1 = l).
Lemma single_step x t : (fatal_tag x /\ process_single_tag (tg_name x) (tg_args x) t = Crash) \/
  (~ fatal_tag x /\ exists t', process_single_tag (tg_name x) (tg_args x) t = Done t' /\ (forall f, field1 f x (tg_field t f) (tg_field t' f)) /\ trans1 x (tg_transforms t) (tg_transforms t')).
Proof.
  unfold fatal_tag, field1, trans1. generalize (tg_name x) (tg_args x). intros n a. rewrite backward_iff.
  destruct (single_is n a t) as [[-> ->]|[[-> ->]|[(NF & PF & ->)|(NK & NT & PF & t' & -> & TR & FL)]]].
  - right. split; [intros [[K|K] _]; discriminate K|]. eexists. split; [reflexivity|]. split.
    + intros f. assert (NS : forall v, ~ sets (lit "kt") a f v) by (intros v S; apply sets_iff in S; destruct f; discriminate S).
      unfold set_start. destruct (parse_u32 a) as [m|] eqn:P.
      * cbn [set_field tg_field]. destruct (field_eq FKaraoke f) as [<-|NE].
        -- right. left. split; [reflexivity|]. exists m. split; [split; [reflexivity|exact P]|]. reflexivity.
        -- right. right. split; [exact NS|]. split; [intros ->; contradiction|reflexivity].
      * right. right. split; [exact NS|]. split; [|reflexivity]. intros _ m S. apply karaoke_start_iff in S. unfold karaoke_start in S. change (named (lit "kt") ["kt"%string]) with true in S. congruence.
    + right. split; [discriminate|]. unfold set_start. destruct (parse_u32 a); reflexivity.
  - right. split; [intros [[K|K] _]; discriminate K|].
    assert (FQ : forall f b, field1 f (Tag (lit "t") a 0 0) b b).
    { intros f b. right. right. split; [intros v S; apply sets_iff in S; destruct f; discriminate S|]. split; [|reflexivity]. intros _ m (K & _). discriminate K. }
    unfold push_transform. destruct (transform_total a) as (o & TO). rewrite TO. cbn [bind]. destruct o as [tr|].
    + eexists. split; [reflexivity|]. cbn [tg_field tg_transforms]. split; [intros f; apply FQ|]. left. exists tr. split; [reflexivity|]. split; [now apply transform_iff|reflexivity].
    + exists t. split; [reflexivity|]. split; [intros f; apply FQ|]. right. split; [|reflexivity]. intros _ tr M. apply transform_iff in M. congruence.
  - left. auto.
  - right. split; [tauto|]. exists t'. split; [reflexivity|]. split.
    + intros f. rewrite (FL f). unfold after1. destruct (meaning1 n a f) as [v|] eqn:M.
      * left. exists v. split; [now apply sets_iff|reflexivity].
      * right. right. split; [intros v S; apply sets_iff in S; congruence|]. split; [|reflexivity]. intros _ m (K & _). contradiction.
    + right. split; [intros ->; contradiction|exact TR].
Qed.
Lemma after_tags_app f l2 : forall b l1 b1 b2, after_tags f b l1 b1 -> after_tags f b1 l2 b2 -> after_tags f b (l1 ++ l2) b2.
Proof.
  intros b l1 b1 b2 A1 A2. induction A2 as [|l t v c A2 IH S|l t m c E A2 IH S|l t c A2 IH NS NK].
  - now rewrite app_nil_r.
  - rewrite app_assoc. econstructor; eassumption.
  - rewrite app_assoc. eapply at_start; eassumption.
  - rewrite app_assoc. eapply at_other; eassumption.
Qed.
Lemma field1_after f x b b1 : field1 f x b b1 -> after_tags f b [x] b1.
Proof.
  intros [(v & S & ->)|[(-> & m & S & ->)|(NS & NK & ->)]]; change [x] with ([] ++ [x]).
  - eapply at_sets; [constructor|exact S].
  - eapply at_start; [reflexivity|constructor|exact S].
  - eapply at_other; [constructor|exact NS|exact NK].
Qed.
Lemma tags_step l : forall t, (Exists fatal_tag l /\ process_tags l t = Crash) \/
  (Forall (fun x => ~ fatal_tag x) l /\ exists t', process_tags l t = Done t' /\ (forall f, after_tags f (tg_field t f) l (tg_field t' f)) /\ exists g, all_transforms l g /\ tg_transforms t' = tg_transforms t ++ g).
Proof.
  induction l as [|x l IH]; intros t; cbn [process_tags].
  - right. split; [constructor|]. exists t. split; [reflexivity|]. split; [intros f; constructor|]. exists []. split; [constructor|now rewrite app_nil_r].
  - destruct (single_step x t) as [[F H]|[F (t1 & H & FS & TS)]]; rewrite H; cbn [bind]; [left; split; [now left|reflexivity]|].
    destruct (IH t1) as [[X K]|[X (t2 & K & FI & g & G & TG)]]; [left; split; [now right|exact K]|].
    right. split; [now constructor|]. exists t2. split; [exact K|]. split.
    + intros f. change (x :: l) with ([x] ++ l). eapply after_tags_app; [apply field1_after, FS|apply FI].
    + destruct TS as [(tr & N & T & E)|[N E]]; rewrite E in TG.
      * exists (tr :: g). split; [now constructor|]. rewrite TG, <- app_assoc. reflexivity.
      * exists g. split; [now apply al_no|exact TG].
Qed.
Lemma after_tags_fun f b l b1 b2 : after_tags f b l b1 -> after_tags f b l b2 -> b1 = b2.
Proof.
  intros A. revert b2. induction A as [|l t v c A IH S|l t m c E A IH S|l t c A IH NS NK]; intros b2 A2.
  - inversion A2 as [|l' t' v' c' A' S' EL|l' t' m' c' E' A' S' EL|l' t' c' A' NS' NK' EL]; [reflexivity|destruct l'; discriminate EL..].
  - inversion A2 as [EL|l' t' v' c' A' S' EL|l' t' m' c' E' A' S' EL|l' t' c' A' NS' NK' EL]; [destruct l; discriminate EL|apply app_inj_tail in EL as [-> ->]..].
    + apply sets_iff in S, S'. congruence.
    + exfalso. destruct S' as [K _]. rewrite K in S. apply sets_iff in S. destruct f; discriminate S.
    + exfalso. exact (NS' _ S).
  - inversion A2 as [EL|l' t' v' c' A' S' EL|l' t' m' c' E' A' S' EL|l' t' c' A' NS' NK' EL]; [destruct l; discriminate EL|apply app_inj_tail in EL as [-> ->]..].
    + exfalso. destruct S as [K _]. rewrite K in S'. apply sets_iff in S'. destruct f; discriminate S'.
    + apply karaoke_start_iff in S, S'. rewrite S in S'. injection S' as <-. f_equal. now apply IH.
    + exfalso. exact (NK' E _ S).
  - inversion A2 as [EL|l' t' v' c' A' S' EL|l' t' m' c' E' A' S' EL|l' t' c' A' NS' NK' EL]; [destruct l; discriminate EL|apply app_inj_tail in EL as [-> ->]..].
    + exfalso. exact (NS _ S').
    + exfalso. exact (NK E' _ S').
    + now apply IH.
Qed.

(* ---- positions ---- *)
Lemma positions_in p s : forall o i, In i (positions p o s) <-> exists u c v, s = u ++ c :: v /\ p c = true /\ i = o + blen u.
Proof.
  induction s as [|c s IH]; intros o i; cbn [positions].
  - split; [intros []|intros (u & c & v & E & _); destruct u; discriminate E].
  - rewrite in_app_iff, IH. split.
    + intros [H|(u & d & v & -> & P & ->)].
      * destruct (p c) eqn:P; [|destruct H]. destruct H as [<-|[]]. exists [], c, s. split; [reflexivity|]. split; [exact P|]. cbn. lia.
      * exists (c :: u), d, v. split; [reflexivity|]. split; [exact P|]. cbn [blen]. lia.
    + intros ([|x u] & d & v & E & P & ->).
      * cbn in E. injection E as <- <-. left. rewrite P. left. cbn. lia.
      * cbn in E. injection E as <- ->. right. exists u, d, v. split; [reflexivity|]. split; [exact P|]. cbn [blen]. lia.
Qed.
Lemma positions_sorted p s : forall o, StronglySorted lt (positions p o s).
Proof.
  induction s as [|c s IH]; intros o; cbn [positions]; [constructor|]. destruct (p c); [|apply IH]. cbn [app]. constructor; [apply IH|].
  apply Forall_forall. intros i I. apply positions_in in I as (u & d & v & _ & _ & ->). pose proof (len_utf8_pos c). lia.
Qed.
Lemma positions_offsets c s : offsets c s (positions (fun x => (x =? c)%N) 0 s).
Proof.
  split; [apply positions_sorted|]. intros i. rewrite positions_in. split.
  - intros (u & d & v & E & P & ->). apply N.eqb_eq in P. subst d. exists u, v. auto.
  - intros (u & v & E & ->). exists u, c, v. split; [exact E|]. split; [apply N.eqb_refl|reflexivity].
Qed.
