(* The reading of one tag. *)
From Verif Require Import Base BaseLemmas SegmentModel SegmentSpec ColorProofs.
From Verif Require QueryProofs.

Lemma forallb_eq (c : char) (p : char -> bool) s : (forall x, p x = true <-> x = c) -> (forallb p s = true <-> Forall (eq c) s).
Proof.
  intros H. rewrite forallb_forall, Forall_forall. split; intros K x I; specialize (K x I); [symmetry; now apply H|now apply H].
Qed.
Lemma open_is x : is_open x = true <-> x = 40%N. Proof. unfold is_open. apply N.eqb_eq. Qed.
Lemma close_is x : is_close x = true <-> x = 41%N. Proof. unfold is_close. apply N.eqb_eq. Qed.
Lemma comma_is x : comma x = true <-> x = 44%N. Proof. unfold comma. apply N.eqb_eq. Qed.

Lemma args_exact args l : args_are args l <-> arg_list args = l.
Proof.
  unfold arg_list. split.
  - intros (o & body & c & -> & O & C & S & E & NE & F & B).
    rewrite drop_while_app_all by (now apply (forallb_eq 40 is_open _ open_is)).
    assert (D : drop_end is_close (drop_while is_open (body ++ c)) = body).
    { destruct body as [|x body].
      - cbn [app]. assert (D : drop_while is_open c = c).
        { apply drop_while_id. destruct c as [|y c]; [exact I|]. inversion C; subst. reflexivity. }
        rewrite D. change c with ([] ++ c). rewrite drop_end_app_all by (now apply (forallb_eq 41 is_close _ close_is)). reflexivity.
      - cbn [app]. rewrite drop_while_id.
        + rewrite app_comm_cons, drop_end_app_all by (now apply (forallb_eq 41 is_close _ close_is)). apply drop_end_id. right.
          destruct (exists_last (l := x :: body)) as (m & y & Y); [discriminate|]. exists m, y. split; [exact Y|].
          destruct (is_close y) eqn:K; [|reflexivity]. exfalso. apply E. apply close_is in K. subst y. exists m. exact Y.
        + destruct (is_open x) eqn:K; [|reflexivity]. exfalso. apply S. apply open_is in K. subst x. now exists 40%N, body. }
    rewrite D, B. apply split_on_join; [reflexivity|exact NE|].
    apply Forall_forall. intros w I. rewrite Forall_forall in F. specialize (F w I).
    apply forallb_forall. intros x X. destruct (comma x) eqn:K; [|reflexivity]. apply comma_is in K. subst x. contradiction.
  - intros <-. destruct (drop_while_spec is_open args) as (o & E & O & H).
    set (m := drop_while is_open args) in *. destruct (drop_end_spec is_close m) as (c & E2 & C & T). set (b := drop_end is_close m) in *.
    exists o, b, c. repeat split.
    + rewrite <- E2. exact E.
    + now apply (forallb_eq 40 is_open _ open_is).
    + now apply (forallb_eq 41 is_close _ close_is).
    + intros (x & r & B & <-). rewrite B in E2. cbn in E2. rewrite E2 in H. discriminate H.
    + intros (r & B). destruct T as [T|(l & x & T & X)]; [rewrite T in B; destruct r; discriminate|].
      rewrite B in T. apply app_inj_tail in T as [_ <-]. discriminate X.
    + apply split_on_nonempty.
    + apply QueryProofs.pieces_free. reflexivity.
    + symmetry. apply join_split_on. exact comma_is.
Qed.

(* ---- names ---- *)
Lemma named_true n l : named n l = true <-> exists s, In s l /\ n = lit s.
Proof.
  unfold named, one_of. rewrite existsb_exists. split; intros (s & I & E); exists s; (split; [exact I|]).
  - apply str_eqb_eq in E. now symmetry.
  - apply str_eqb_eq. now symmetry.
Qed.

(* ---- hexadecimal ---- *)
Lemma hex_dec s : {hex_start s} + {~ hex_start s}.
Proof.
  destruct s as [|a [|b r]]; [right; intros (? & ? & E & _); discriminate E|right; intros (? & ? & E & _); discriminate E|].
  destruct (N.eq_dec a 38) as [->|A]; [|right; intros (? & ? & E & _); injection E as E _ _; contradiction].
  destruct (N.eq_dec b 72) as [->|B]; [left; exists 72%N, r; auto|].
  destruct (N.eq_dec b 104) as [->|B2]; [left; exists 104%N, r; auto|].
  right. intros (? & ? & E & [K|K]); injection E as -> _; contradiction.
Qed.
Lemma strip_step s all : strip_to_hex s all = if hex_dec s then s else match s with [] => all | _ :: r => strip_to_hex r all end.
Proof.
  destruct (hex_dec s) as [H|H].
  - destruct H as (b & r & -> & [->| ->]); reflexivity.
  - destruct s as [|a [|b r]]; [reflexivity|reflexivity|]. cbn [strip_to_hex]. destruct (_ && _) eqn:E; [|reflexivity].
    exfalso. apply H. apply andb_prop in E as [A B]. apply N.eqb_eq in A. apply orb_prop in B. subst a. exists b, r. split; [reflexivity|].
    destruct B as [B|B]; apply N.eqb_eq in B; auto.
Qed.
Lemma strip_is s all :
  (exists u r, s = u ++ r /\ hex_start r /\ strip_to_hex s all = r /\ forall u' r', s = u' ++ r' -> hex_start r' -> List.length u <= List.length u') \/
  ((forall u' r', s = u' ++ r' -> ~ hex_start r') /\ strip_to_hex s all = all).
Proof.
  induction s as [|c s IH].
  - right. split; [|reflexivity]. intros u' r' E (b & r & -> & _). destruct u'; discriminate E.
  - rewrite strip_step. destruct (hex_dec (c :: s)) as [H|H].
    + left. exists [], (c :: s). repeat split; [exact H|]. intros. cbn. lia.
    + destruct IH as [(u & r & -> & R & E & M)|[M E]].
      * left. exists (c :: u), r. repeat split; [exact R|exact E|]. intros [|x u'] r' E' R'; [cbn in E'; subst r'; contradiction|].
        injection E' as -> E'. apply M in E'; [cbn; lia|exact R'].
      * right. split; [|exact E]. intros [|x u'] r' E' R'; [cbn in E'; subst r'; contradiction|]. injection E' as -> E'. exact (M _ _ E' R').
Qed.
Lemma from_hex_is s r : from_hex s r <-> r = strip_to_hex s s.
Proof.
  destruct (strip_is s s) as [(u & x & E & X & -> & M)|[M ->]].
  - split.
    + intros [(R & v & E' & M')|[_ M']]; [|exfalso; exact (M' _ _ E X)].
      assert (L : List.length u = List.length v) by (apply Nat.le_antisymm; [exact (M _ _ E' R)|exact (M' _ _ E X)]).
      rewrite E in E'. clear - E' L. revert v E' L. induction u as [|c u IH]; intros [|d v] E' L; try discriminate L; [now symmetry|].
      injection E' as -> E'. apply (IH v E'). cbn in L. lia.
    + intros ->. left. split; [exact X|]. exists u. split; [exact E|exact M].
  - split; [intros [(R & v & E' & _)|[-> _]]; [exfalso; exact (M _ _ E' R)|reflexivity]|]. intros ->. right. split; [reflexivity|exact M].
Qed.

(* ---- what a tag gives, computed ---- *)
Definition color_opt (a : str) : option value := match parse_bgr_color (strip_to_hex a a) with Ok c => Some (VColor c) | _ => None end.
Lemma parse_color_ok a : parse_color a = Ok (color_opt a).
Proof. unfold parse_color, color_opt. destruct (parse_bgr_color _) eqn:E; [reflexivity|reflexivity|]. exfalso. exact (color_no_panic _ E). Qed.
Definition fade_opt (a : str) : option value := match parse_fade_args a with Ok o => o | _ => None end.
Lemma fade_cases a : parse_fade_args a = Ok (fade_opt a) \/ parse_fade_args a = Panic.
Proof.
  unfold fade_opt, parse_fade_args. destruct (arg_list a) as [|a1 [|a2 [|a3 [|m1 [|m2 [|m3 [|m4 r]]]]]]]; auto.
  cbn beta iota. match goal with |- context [obind ?x ?y] => destruct (obind x y) as [[[[[[[x1 x2] x3] t1] t2] t3] t4]|] end; [|auto]. unfold u32_sub. destruct (t2 <? t1)%N; [now right|]. destruct (t4 <? t3)%N; [now right|]. now left.
Qed.
Definition only (b : bool) (o : option value) : option value := if b then o else None.
Definition meaning (n a : str) (f : field) : option value :=
  match f with
  | FPrimary => only (named n ["c"; "1c"]%string) (color_opt a)
  | FSecondary => only (named n ["2c"]%string) (color_opt a)
  | FOutline => only (named n ["3c"]%string) (color_opt a)
  | FBack => only (named n ["4c"]%string) (color_opt a)
  | FAlpha => only (named n ["alpha"]%string) (parse_alpha a)
  | FAlpha1 => only (named n ["1a"]%string) (parse_alpha a)
  | FAlpha2 => only (named n ["2a"]%string) (parse_alpha a)
  | FAlpha3 => only (named n ["3a"]%string) (parse_alpha a)
  | FAlpha4 => only (named n ["4a"]%string) (parse_alpha a)
  | FName => only (named n ["fn"]%string) (match a with [] => None | _ => Some (VText a) end)
  | FSize => only (named n ["fs"]%string) (vnum a)
  | FBold => only (named n ["b"]%string) (vflag a)
  | FItalic => only (named n ["i"]%string) (vflag a)
  | FUnderline => only (named n ["u"]%string) (vflag a)
  | FStrikeout => only (named n ["s"]%string) (vflag a)
  | FScaleX => only (named n ["fscx"]%string) (vnum a)
  | FScaleY => only (named n ["fscy"]%string) (vnum a)
  | FSpacing => only (named n ["fsp"]%string) (vnum a)
  | FBlur => only (named n ["blur"]%string) (vnum a)
  | FBlurEdges => only (named n ["be"]%string) (vnum a)
  | FClip => only (named n ["clip"; "iclip"]%string) (parse_clip_args a (str_eqb n (lit "iclip")))
  | FShearX => only (named n ["fax"]%string) (vnum a)
  | FShearY => only (named n ["fay"]%string) (vnum a)
  | FOrigin => only (named n ["org"]%string) (parse_pos_args a)
  | FRotZ => only (named n ["frz"; "fr"]%string) (vnum a)
  | FRotX => only (named n ["frx"]%string) (vnum a)
  | FRotY => only (named n ["fry"]%string) (vnum a)
  | FBorder => only (named n ["bord"]%string) (vnum a)
  | FBorderX => only (named n ["xbord"]%string) (vnum a)
  | FBorderY => only (named n ["ybord"]%string) (vnum a)
  | FShadow => only (named n ["shad"]%string) (vnum a)
  | FShadowX => only (named n ["xshad"]%string) (vnum a)
  | FShadowY => only (named n ["yshad"]%string) (vnum a)
  | FWrap => only (named n ["q"]%string) (vbyte a)
  | FAlignment => only (named n ["a"; "an"]%string) (vbyte a)
  | FPosition => only (named n ["pos"]%string) (parse_pos_args a)
  | FMovement => only (named n ["move"]%string) (parse_move_args a)
  | FFade => only (named n ["fad"; "fade"]%string) (fade_opt a)
  | FDrawing => only (named n ["p"]%string) (vbyte a)
  | FKaraoke => if named n ["k"]%string then vkara KBasic a else if named n ["kf"]%string then vkara KFill a
                else if named n ["ko"]%string then vkara KOutline a else if named n ["K"]%string then vkara KSweep a else None
  | FAngle | FEncoding | FReset | FBaseline => None
  end.
Definition takes_b (n a : str) (f : field) : bool :=
  match f with FName => named n ["fn"]%string && match a with [] => true | _ => false end | _ => false end.
Definition after (n a : str) (t : tags) (f : field) : option value :=
  match meaning n a f with Some v => Some v | None => if takes_b n a f then None else tg_field t f end.

Lemma put_after g o t f : tg_field (put g o t) f = if field_eq g f then match o with Some v => Some v | None => tg_field t f end else tg_field t f.
Proof. destruct o; cbn; destruct (field_eq g f); reflexivity. Qed.
Lemma put_keeps g o t : tg_transforms (put g o t) = tg_transforms t.
Proof. destruct o; reflexivity. Qed.

Definition outcome_of (n a : str) (t : tags) (r : run tags) : Prop :=
  (n = lit "r" /\ r = Done no_tags) \/
  (n = lit "t" /\ r = push_transform a t) \/
  ((n = lit "fad" \/ n = lit "fade") /\ parse_fade_args a = Panic /\ r = Crash) \/
  (n <> lit "r" /\ n <> lit "t" /\ ((n = lit "fad" \/ n = lit "fade") -> parse_fade_args a <> Panic) /\
   exists t', r = Done t' /\ tg_transforms t' = tg_transforms t /\ forall f, tg_field t' f = after n a t f).

Ltac simple_tag :=
  right; right; right; split; [discriminate|]; split; [discriminate|]; split; [intros [K|K]; discriminate K|];
  eexists; split; [reflexivity|]; split; [apply put_keeps|]; intros f; rewrite put_after; destruct f; reflexivity.

Ltac branch := match goal with |- outcome_of ?n _ _ (if named ?n ?l then _ else _) =>
  let H := fresh "H" in destruct (named n l) eqn:H; [apply named_true in H as (s & Hin & ->); cbn [In] in Hin|] end.
Ltac members := repeat match goal with H : _ = _ \/ _ |- _ => destruct H as [<-|H] | H : False |- _ => destruct H end.
Ltac plain := branch; [members; simple_tag|].
Ltac colour := branch; [unfold put_res; rewrite parse_color_ok; members; simple_tag|].
Lemma apply_is n a t : outcome_of n a t (apply_tag n a t).
Proof.
  unfold apply_tag. do 4 colour. do 5 plain.
  branch; [members|].
  { right; right; right. split; [discriminate|]. split; [discriminate|]. split; [intros [K|K]; discriminate K|].
    eexists. split; [reflexivity|]. split; [reflexivity|]. intros f. destruct f, a; reflexivity. }
  do 24 plain.
  branch; [members; left; split; reflexivity|].
  do 3 plain.
  branch.
  { unfold put_res. destruct (fade_cases a) as [E|E]; rewrite E; members.
    1,2: right; right; right; split; [discriminate|]; split; [discriminate|]; split; [congruence|];
      eexists; split; [reflexivity|]; split; [apply put_keeps|]; intros f; rewrite put_after; destruct f; reflexivity.
    1,2: right; right; left; auto. }
  plain. branch; [members; right; left; split; reflexivity|].
  do 4 plain.
  right; right; right. split; [intros ->; discriminate|]. split; [intros ->; discriminate|]. split; [intros [->| ->]; discriminate|].
  exists t. split; [reflexivity|]. split; [reflexivity|]. intros f. unfold after, meaning, takes_b.
  repeat match goal with H : named n _ = false |- _ => rewrite H; clear H end. destruct f; reflexivity.
Qed.

(* ---- the computed meaning is the specified one ---- *)
Lemma only_some b o v : only b o = Some v -> b = true /\ o = Some v.
Proof. destruct b; [auto|discriminate]. Qed.
Lemma vnum_some a v : vnum a = Some v <-> exists x, number a x /\ v = VNum x.
Proof. unfold vnum, number, num. destruct (parse_float f32 a); cbn; split; [intros K; injection K as <-; eauto|intros (x & K & ->); injection K as ->; reflexivity|discriminate|intros (x & K & _); discriminate K]. Qed.
Lemma vbyte_some a v : vbyte a = Some v <-> exists x, u8_of a x /\ v = VByte x.
Proof. unfold vbyte, u8_of, byte. destruct (parse_uint 255 10 a); cbn; split; [intros K; injection K as <-; eauto|intros (x & K & ->); injection K as ->; reflexivity|discriminate|intros (x & K & _); discriminate K]. Qed.
Lemma vflag_some a v : vflag a = Some v <-> v = VFlag (if list_eq_dec N.eq_dec a (lit "0") then false else true).
Proof.
  unfold vflag. assert (E : negb (str_eqb a (lit "0")) = if list_eq_dec N.eq_dec a (lit "0") then false else true).
  { destruct (list_eq_dec _ _ _) as [->|NE]; [reflexivity|]. apply str_eqb_neq in NE. now rewrite NE. }
  rewrite E. split; [intros K; now injection K as <-|now intros ->].
Qed.
Lemma color_some a v : color_opt a = Some v <-> exists r c, from_hex a r /\ parse_bgr_color r = Ok c /\ v = VColor c.
Proof.
  unfold color_opt. split.
  - intros K. destruct (parse_bgr_color _) as [c| |] eqn:E; try discriminate K. injection K as <-. exists (strip_to_hex a a), c. split; [now apply from_hex_is|auto].
  - intros (r & c & R & E & ->). apply from_hex_is in R. subst r. now rewrite E.
Qed.
Lemma alpha_some a v : parse_alpha a = Some v <-> exists r h x, from_hex a r /\ h = drop_end is_amp (trim_matches (lit "&h") (trim_matches (lit "&H") r)) /\
  parse_uint 255 16 h = Some x /\ v = VByte (255 - x).
Proof.
  unfold parse_alpha. split.
  - intros K. destruct (parse_uint 255 16 _) as [x|] eqn:E; [|discriminate K]. injection K as <-. do 3 eexists. split; [apply from_hex_is; reflexivity|]. split; [reflexivity|]. split; [exact E|reflexivity].
  - intros (r & h & x & R & -> & E & ->). apply from_hex_is in R. subst r. rewrite E. reflexivity.
Qed.
Lemma kara_some st a v : vkara st a = Some v <-> exists x, u32_of a x /\ v = VKaraoke x st None.
Proof. unfold vkara, u32_of, parse_u32. destruct (parse_uint u32_max 10 a); cbn; split; [intros K; injection K as <-; eauto|intros (x & K & ->); injection K as ->; reflexivity|discriminate|intros (x & K & _); discriminate K]. Qed.
Lemma obind_some {A B} (o : option A) (f : A -> option B) v : obind o f = Some v <-> exists a, o = Some a /\ f a = Some v.
Proof. destruct o; cbn; split; [eauto|intros (x & K & E); now injection K as ->|discriminate|intros (x & K & _); discriminate K]. Qed.
Lemma point_some a v : parse_pos_args a = Some v <-> exists s1 s2 x y, args_are a [s1; s2] /\ number (trim s1) x /\ number (trim s2) y /\ v = VPoint x y.
Proof.
  unfold parse_pos_args, number, num. split.
  - intros K. destruct (arg_list a) as [|s1 [|s2 [|? ?]]] eqn:L; try discriminate K. apply obind_some in K as (x & X & K). apply obind_some in K as (y & Y & K). injection K as <-.
    exists s1, s2, x, y. split; [now apply args_exact|auto].
  - intros (s1 & s2 & x & y & L & X & Y & ->). apply args_exact in L. rewrite L, X. cbn [obind]. rewrite Y. reflexivity.
Qed.
Lemma time_is l i n : time_arg l i n <-> n = time_or_0 (skipn i l).
Proof.
  unfold time_arg, time_or_0, u32_of, parse_u32.
  assert (K : forall s r, skipn i l = s :: r -> nth_error l i = Some s).
  { revert l. induction i as [|i IH]; intros [|x l] s r E; try discriminate E; [now injection E as -> _|exact (IH l s r E)]. }
  assert (K0 : skipn i l = [] -> nth_error l i = None).
  { intros E. apply nth_error_None. rewrite <- (firstn_skipn i l), E, app_nil_r. apply firstn_le_length. }
  destruct (skipn i l) as [|s r].
  - specialize (K0 eq_refl). split; [intros [(s & E & _)|[-> _]]; [congruence|reflexivity]|]. intros ->. right. split; [reflexivity|]. intros s E. congruence.
  - specialize (K s r eq_refl). destruct (parse_uint u32_max 10 (trim s)) as [m|] eqn:P.
    + split; [intros [(s' & E & P')|[_ E]]|intros ->; left; eauto]; [rewrite K in E; injection E as <-; congruence|exfalso; exact (E s K m P)].
    + split; [intros [(s' & E & P')|[-> E]]; [rewrite K in E; injection E as <-; congruence|reflexivity]|].
      intros ->. right. split; [reflexivity|]. intros s' E m. rewrite K in E. injection E as <-. congruence.
Qed.
Lemma move_some a v : parse_move_args a = Some v <-> exists s1 s2 s3 s4 rest x1 y1 x2 y2 m1 m2, args_are a (s1 :: s2 :: s3 :: s4 :: rest) /\
  number (trim s1) x1 /\ number (trim s2) y1 /\ number (trim s3) x2 /\ number (trim s4) y2 /\ time_arg rest 0 m1 /\ time_arg rest 1 m2 /\ v = VMove x1 y1 x2 y2 (m1 / 10) (m2 / 10).
Proof.
  unfold parse_move_args, number, num. split.
  - intros K. destruct (arg_list a) as [|s1 [|s2 [|s3 [|s4 rest]]]] eqn:L; try discriminate K.
    apply obind_some in K as (x1 & X1 & K). apply obind_some in K as (y1 & Y1 & K). apply obind_some in K as (x2 & X2 & K). apply obind_some in K as (y2 & Y2 & K). injection K as <-.
    exists s1, s2, s3, s4, rest, x1, y1, x2, y2, (time_or_0 rest), (time_or_0 (tl rest)). split; [now apply args_exact|]. do 4 (split; [assumption|]).
    split; [now apply time_is|]. split; [|reflexivity]. apply time_is. destruct rest; reflexivity.
  - intros (s1 & s2 & s3 & s4 & rest & x1 & y1 & x2 & y2 & m1 & m2 & L & X1 & Y1 & X2 & Y2 & T1 & T2 & ->).
    apply args_exact in L. apply time_is in T1. apply time_is in T2. rewrite L, X1. cbn [obind]. rewrite Y1. cbn [obind]. rewrite X2. cbn [obind]. rewrite Y2. cbn [obind].
    subst m1 m2. destruct rest; reflexivity.
Qed.
Lemma clip_some a inv v : parse_clip_args a inv = Some v <-> exists s1 s2 s3 s4 x1 y1 x2 y2, args_are a [s1; s2; s3; s4] /\
  number (trim s1) x1 /\ number (trim s2) y1 /\ number (trim s3) x2 /\ number (trim s4) y2 /\ v = VClip x1 y1 x2 y2 inv.
Proof.
  unfold parse_clip_args, number, num. split.
  - intros K. destruct (arg_list a) as [|s1 [|s2 [|s3 [|s4 [|? ?]]]]] eqn:L; try discriminate K.
    apply obind_some in K as (x1 & X1 & K). apply obind_some in K as (y1 & Y1 & K). apply obind_some in K as (x2 & X2 & K). apply obind_some in K as (y2 & Y2 & K). injection K as <-.
    exists s1, s2, s3, s4, x1, y1, x2, y2. split; [now apply args_exact|auto].
  - intros (s1 & s2 & s3 & s4 & x1 & y1 & x2 & y2 & L & X1 & Y1 & X2 & Y2 & ->).
    apply args_exact in L. rewrite L, X1. cbn [obind]. rewrite Y1. cbn [obind]. rewrite X2. cbn [obind]. rewrite Y2. reflexivity.
Qed.
(* the seven arguments, computed *)
Definition seven (a : str) : option (N * N * N * N * N * N * N) :=
  match arg_list a with
  | a1 :: a2 :: a3 :: m1 :: m2 :: m3 :: m4 :: _ =>
    obind (byte (trim a1)) (fun a1 => obind (byte (trim a2)) (fun a2 => obind (byte (trim a3)) (fun a3 =>
    obind (parse_u32 (trim m1)) (fun t1 => obind (parse_u32 (trim m2)) (fun t2 =>
    obind (parse_u32 (trim m3)) (fun t3 => obind (parse_u32 (trim m4)) (fun t4 =>
    Some (a1, a2, a3, (t1 / 10)%N, (t2 / 10)%N, (t3 / 10)%N, (t4 / 10)%N))))))))
  | _ => None
  end.
Lemma seven_is a a1 a2 a3 t1 t2 t3 t4 : fade_args a a1 a2 a3 t1 t2 t3 t4 <-> seven a = Some (a1, a2, a3, t1, t2, t3, t4).
Proof.
  unfold seven, fade_args, u8_of, u32_of, byte, parse_u32. split.
  - intros (s1 & s2 & s3 & s4 & s5 & s6 & s7 & rest & m1 & m2 & m3 & m4 & L & A1 & A2 & A3 & M1 & M2 & M3 & M4 & -> & -> & -> & ->).
    apply args_exact in L. rewrite L, A1. cbn [obind]. rewrite A2. cbn [obind]. rewrite A3. cbn [obind]. rewrite M1. cbn [obind]. rewrite M2. cbn [obind]. rewrite M3. cbn [obind]. rewrite M4. reflexivity.
  - intros K. destruct (arg_list a) as [|s1 [|s2 [|s3 [|s4 [|s5 [|s6 [|s7 rest]]]]]]] eqn:L; try discriminate K.
    apply obind_some in K as (x1 & A1 & K). apply obind_some in K as (x2 & A2 & K). apply obind_some in K as (x3 & A3 & K).
    apply obind_some in K as (m1 & M1 & K). apply obind_some in K as (m2 & M2 & K). apply obind_some in K as (m3 & M3 & K). apply obind_some in K as (m4 & M4 & K).
    injection K as <- <- <- <- <- <- <-.
    exists s1, s2, s3, s4, s5, s6, s7, rest, m1, m2, m3, m4. split; [now apply args_exact|]. auto 12.
Qed.
Lemma fade_split a : parse_fade_args a =
  match arg_list a with
  | [x; y] => Ok (obind (parse_u32 (trim x)) (fun i => obind (parse_u32 (trim y)) (fun o => Some (VFade 0 0 (i / 10) (o / 10) None))))
  | _ => match seven a with
         | Some (a1, a2, a3, t1, t2, t3, t4) =>
           res_bind (u32_sub t2 t1) (fun i => res_bind (u32_sub t4 t3) (fun o => Ok (Some (VFade a1 a3 t1 t4 (Some (a2, i, o))))))
         | None => Ok None
         end
  end.
Proof. unfold parse_fade_args, seven. destruct (arg_list a) as [|s1 [|s2 [|s3 [|s4 [|s5 [|s6 [|s7 rest]]]]]]]; reflexivity. Qed.
Lemma seven_not_two a x y : arg_list a = [x; y] -> seven a = None.
Proof. unfold seven. intros ->. reflexivity. Qed.
Lemma fade_some a v : fade_opt a = Some v <->
  (exists s1 s2 m1 m2, args_are a [s1; s2] /\ u32_of (trim s1) m1 /\ u32_of (trim s2) m2 /\ v = VFade 0 0 (m1 / 10) (m2 / 10) None) \/
  (exists a1 a2 a3 t1 t2 t3 t4, fade_args a a1 a2 a3 t1 t2 t3 t4 /\ (t1 <= t2)%N /\ (t3 <= t4)%N /\ v = VFade a1 a3 t1 t4 (Some (a2, t2 - t1, t4 - t3)%N)).
Proof.
  unfold fade_opt. rewrite fade_split. unfold u32_of, parse_u32.
  assert (S : (exists x y, arg_list a = [x; y]) \/ forall x y, arg_list a <> [x; y]).
  { destruct (arg_list a) as [|s1 [|s2 [|s3 r]]]; [right; discriminate|right; discriminate|left; eauto|right; discriminate]. }
  destruct S as [(x & y & L)|S].
  - rewrite L. split.
    + intros K. apply obind_some in K as (m1 & M1 & K). apply obind_some in K as (m2 & M2 & K). injection K as <-. left. exists x, y, m1, m2. split; [now apply args_exact|auto].
    + intros [(s1 & s2 & m1 & m2 & L' & M1 & M2 & ->)|(a1 & a2 & a3 & t1 & t2 & t3 & t4 & F & _)].
      * apply args_exact in L'. rewrite L in L'. injection L' as <- <-. unfold parse_u32. rewrite M1. cbn [obind]. rewrite M2. reflexivity.
      * apply seven_is in F. rewrite (seven_not_two a x y L) in F. discriminate F.
  - assert (E : forall (T : Type) (P : str -> str -> T) (Q : T), match arg_list a with [x; y] => P x y | _ => Q end = Q).
    { intros T P Q. destruct (arg_list a) as [|s1 [|s2 [|s3 r]]]; [reflexivity|reflexivity|exfalso; exact (S s1 s2 eq_refl)|reflexivity]. }
    rewrite E. split.
    + intros K. destruct (seven a) as [[[[[[[a1 a2] a3] t1] t2] t3] t4]|] eqn:F; [|discriminate K]. unfold u32_sub in K. right.
      destruct (N.ltb_spec t2 t1); [discriminate K|]. cbn [res_bind] in K. destruct (N.ltb_spec t4 t3); [discriminate K|]. cbn [res_bind] in K. injection K as <-.
      exists a1, a2, a3, t1, t2, t3, t4. split; [now apply seven_is|auto].
    + intros [(s1 & s2 & m1 & m2 & L' & _)|(a1 & a2 & a3 & t1 & t2 & t3 & t4 & F & A & B & ->)].
      * apply args_exact in L'. exfalso. exact (S _ _ L').
      * apply seven_is in F. rewrite F. unfold u32_sub. destruct (N.ltb_spec t2 t1); [lia|]. cbn [res_bind]. destruct (N.ltb_spec t4 t3); [lia|]. reflexivity.
Qed.
Lemma fade_panics a : parse_fade_args a = Panic <-> exists a1 a2 a3 t1 t2 t3 t4, fade_args a a1 a2 a3 t1 t2 t3 t4 /\ (t2 < t1 \/ t4 < t3)%N.
Proof.
  rewrite fade_split. split.
  - intros K. destruct (seven a) as [[[[[[[a1 a2] a3] t1] t2] t3] t4]|] eqn:F; [|destruct (arg_list a) as [|s1 [|s2 [|s3 r]]]; discriminate K].
    exists a1, a2, a3, t1, t2, t3, t4. split; [now apply seven_is|]. unfold u32_sub in K.
    destruct (N.ltb_spec t2 t1); [now left|]. cbn [res_bind] in K. destruct (N.ltb_spec t4 t3); [now right|]. cbn [res_bind] in K. destruct (arg_list a) as [|s1 [|s2 [|s3 r]]]; discriminate K.
  - intros (a1 & a2 & a3 & t1 & t2 & t3 & t4 & F & H). apply seven_is in F. rewrite F.
    destruct (arg_list a) as [|s1 [|s2 [|s3 r]]] eqn:L; [unfold seven in F; rewrite L in F; discriminate F|unfold seven in F; rewrite L in F; discriminate F|unfold seven in F; rewrite L in F; discriminate F|].
    unfold u32_sub. destruct (N.ltb_spec t2 t1); [reflexivity|]. cbn [res_bind]. destruct (N.ltb_spec t4 t3); [reflexivity|]. lia.
Qed.

Ltac named_in := match goal with
  | K : only (named _ _) _ = Some _ |- _ => apply only_some in K as [Hin K]; apply named_true in Hin as (s & Hin & ->); cbn [In] in Hin; members
  end.
Ltac called := eexists; split; [|reflexivity]; cbn; tauto.
Lemma meaning_gives n a f v : meaning n a f = Some v -> gives n a f v.
Proof.
  intros K. destruct f; cbn [meaning] in K; try discriminate K.
  all: try named_in.
  all: try (apply vnum_some in K as (x & X & ->); apply g_num; [called|exact X]).
  all: try (apply vbyte_some in K as (x & X & ->); apply g_byte; [called|exact X]).
  all: try (apply vflag_some in K as ->; apply g_flag; called).
  all: try (apply color_some in K as (r & c & R & C & ->); eapply g_color; [called|exact R|exact C]).
  all: try (apply alpha_some in K as (r & h & x & R & H & X & ->); eapply g_alpha; [called|exact R|exact H|exact X]).
  all: try (apply point_some in K as (s1 & s2 & x & y & A & X & Y & ->); eapply g_point; [called|exact A|exact X|exact Y]).
  all: try (apply move_some in K as (s1 & s2 & s3 & s4 & rest & x1 & y1 & x2 & y2 & m1 & m2 & L & X1 & Y1 & X2 & Y2 & T1 & T2 & ->); eapply g_move; eassumption).
  all: try (destruct a; [discriminate K|]; injection K as <-; apply g_name; discriminate).
  all: try (apply clip_some in K as (s1 & s2 & s3 & s4 & x1 & y1 & x2 & y2 & L & X1 & Y1 & X2 & Y2 & ->); eapply g_clip; [solve [left; split; reflexivity|right; split; reflexivity]|eassumption..]).
  all: try (apply fade_some in K as [(s1 & s2 & m1 & m2 & L & M1 & M2 & ->)|(a1 & a2 & a3 & t1 & t2 & t3 & t4 & F & A & B & ->)]; [eapply g_fad|eapply g_fade]; solve [eassumption|auto]).
  destruct (named n ["k"]%string) eqn:H1; [|destruct (named n ["kf"]%string) eqn:H2; [|destruct (named n ["ko"]%string) eqn:H3; [|destruct (named n ["K"]%string) eqn:H4; [|discriminate K]]]].
  all: match goal with H : named ?m _ = true |- _ => apply named_true in H as (s & Hin & ->); cbn [In] in Hin; members end.
  all: apply kara_some in K as (x & X & ->); apply g_kara; [called|exact X].
Qed.
Ltac table := match goal with
  | H : calls _ _ _ |- _ => destruct H as (s & Hin & ->); cbn [num_names byte_names flag_names color_names alpha_names point_names kara_names In] in Hin;
      repeat match goal with K : (_, _) = (_, _) \/ _ |- _ => destruct K as [K|K] | K : False |- _ => destruct K end;
      match goal with K : (_, _) = (_, _) |- _ => injection K as <- <- end
  end.
Lemma gives_meaning n a f v : gives n a f v -> meaning n a f = Some v.
Proof.
  intros G. destruct G.
  - table; apply vnum_some; eauto.
  - table; apply vbyte_some; eauto.
  - table; apply vflag_some; reflexivity.
  - table; apply color_some; eauto.
  - table; apply alpha_some; eauto 8.
  - table; apply point_some; eauto 8.
  - apply move_some. exists s1, s2, s3, s4, rest, x1, y1, x2, y2, m1, m2. auto 10.
  - destruct H as [[-> ->]|[-> ->]]; apply clip_some; eauto 15.
  - destruct H as [->| ->]; apply fade_some; left; eauto 8.
  - destruct H as [->| ->]; apply fade_some; right; exists a1, a2, a3, t1, t2, t3, t4; auto.
  - table; apply kara_some; eauto.
  - destruct a; [contradiction|reflexivity].
Qed.
Lemma gives_iff n a f v : gives n a f v <-> meaning n a f = Some v.
Proof. split; [apply gives_meaning|apply meaning_gives]. Qed.
Lemma takes_iff n a f : takes_back n a f <-> takes_b n a f = true.
Proof.
  unfold takes_back, takes_b. split; [intros (-> & -> & ->); reflexivity|].
  destruct f; try discriminate. intros K. apply andb_prop in K as [K1 K2]. apply named_true in K1 as (s & [<-|[]] & ->). destruct a; [auto|discriminate K2].
Qed.
Lemma backward_iff n a : backward_fade n a <-> (n = lit "fad" \/ n = lit "fade") /\ parse_fade_args a = Panic.
Proof. unfold backward_fade. now rewrite fade_panics. Qed.
