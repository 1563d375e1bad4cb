(* Blocks: their pieces, names and arguments, transforms, and what they leave. *)
From Verif Require Import Base BaseLemmas SegmentModel SegmentSpec SegmentProofs ColorProofs TagProofs TextProofs.
From Verif Require QueryProofs.

(* ---- pieces ---- *)
Definition step (c : char) : Z := if (c =? 40)%N then 1%Z else if (c =? 41)%N then (-1)%Z else 0%Z.
Fixpoint pieces (d : Z) (s : str) : list str :=
  match s with
  | [] => [[]]
  | c :: r => if is_bs c && (d =? 0)%Z then [] :: pieces 0 r
              else match pieces (d + step c) r with p :: ps => (c :: p) :: ps | [] => [[c]] end
  end.
Lemma pieces_some d s : exists p ps, pieces d s = p :: ps.
Proof. destruct s as [|c r]; cbn [pieces]; [eauto|]. destruct (_ && _); [eauto|]. destruct (pieces _ r); eauto. Qed.
Lemma parens_cons c s : parens (c :: s) = (step c + parens s)%Z. Proof. reflexivity. Qed.
Lemma bs_step c : is_bs c = true -> step c = 0%Z.
Proof. unfold is_bs. intros E. apply N.eqb_eq in E. subst c. reflexivity. Qed.
Lemma pieces_divided s : forall d, divided d s (pieces d s).
Proof.
  induction s as [|c r IH]; intros d; cbn [pieces].
  - apply div_last. intros u v E. destruct u; discriminate E.
  - destruct (is_bs c && (d =? 0)%Z) eqn:B.
    + apply andb_prop in B as [B Z]. apply Z.eqb_eq in Z. unfold is_bs in B. apply N.eqb_eq in B. subst c d.
      change (92%N :: r) with ([] ++ 92%N :: r). apply div_cons; [intros u v E; destruct u; discriminate E|reflexivity|apply IH].
    + assert (NT : forall p, no_top_slash (d + step c) p -> no_top_slash d (c :: p)).
      { intros p H u v E. destruct u as [|x u].
        - cbn in E. injection E as -> _. cbn [parens]. rewrite Z.add_0_r. change (is_bs 92) with true in B. cbn [andb] in B. now apply Z.eqb_neq in B.
        - cbn [app] in E. injection E as <- E. rewrite parens_cons, Z.add_assoc. exact (H u v E). }
      specialize (IH (d + step c)%Z). inversion IH as [d' p H E1 E2 E3|d' p r' ps H P R E1 E2 E3]; subst.
      * apply div_last. now apply NT.
      * rewrite app_comm_cons. apply div_cons; [now apply NT|rewrite parens_cons; lia|exact R].
Qed.
Lemma divided_unique d s ps : divided d s ps -> pieces d s = ps.
Proof.
  induction 1 as [d p H|d p r ps H P R IH].
  - revert d H. induction p as [|c p IH]; intros d H; cbn [pieces]; [reflexivity|].
    destruct (is_bs c && (d =? 0)%Z) eqn:B.
    + exfalso. apply andb_prop in B as [B Z]. apply Z.eqb_eq in Z. unfold is_bs in B. apply N.eqb_eq in B. subst c d. exact (H [] p eq_refl eq_refl).
    + rewrite IH; [reflexivity|]. intros u v E. specialize (H (c :: u) v). cbn [app] in H. rewrite E in H. specialize (H eq_refl). rewrite parens_cons in H. lia.
  - revert d H P. induction p as [|c p IHp]; intros d H P; cbn [app pieces].
    + cbn in P. assert (d = 0%Z) as -> by lia. change (is_bs 92 && (0 =? 0)%Z) with true. cbv iota. now rewrite IH.
    + destruct (is_bs c && (d =? 0)%Z) eqn:B.
      * exfalso. apply andb_prop in B as [B Z]. apply Z.eqb_eq in Z. unfold is_bs in B. apply N.eqb_eq in B. subst c d. exact (H [] p eq_refl eq_refl).
      * rewrite IHp; [reflexivity| |rewrite parens_cons in P; lia]. intros u v E. specialize (H (c :: u) v). cbn [app] in H. rewrite E in H. specialize (H eq_refl). rewrite parens_cons in H. lia.
Qed.
Definition nonempty (p : str) : bool := match p with [] => false | _ => true end.
Lemma split_is s : forall cur d, split_loop s cur d = filter nonempty (match pieces d s with p :: ps => (cur ++ p) :: ps | [] => [] end).
Proof.
  induction s as [|c r IH]; intros cur d; cbn [split_loop pieces].
  - rewrite app_nil_r. destruct cur; reflexivity.
  - destruct (is_bs c && (d =? 0)%Z) eqn:B.
    + apply andb_prop in B as [_ Z]. apply Z.eqb_eq in Z. subst d. rewrite !IH, app_nil_r. destruct (pieces_some 0 r) as (p & ps & E). rewrite E. cbn [app].
      destruct cur; reflexivity.
    + assert (K : forall e, e = (d + step c)%Z -> split_loop r (cur ++ [c]) e =
        filter nonempty (match match pieces (d + step c) r with p :: ps => (c :: p) :: ps | [] => [[c]] end with p :: ps => (cur ++ p) :: ps | [] => [] end)).
      { intros e ->. rewrite IH. destruct (pieces_some (d + step c) r) as (p & ps & E). rewrite E, <- app_assoc. reflexivity. }
      unfold is_open, is_close. destruct (c =? 40)%N eqn:O; [apply K; unfold step; now rewrite O|].
      destruct (c =? 41)%N eqn:C; [|apply K; unfold step; rewrite O, C; lia].
      assert (D : (d - 1 = d + step c)%Z) by (unfold step; rewrite O, C; lia). rewrite D.
      destruct ((d + step c =? 0)%Z && match r with x :: _ => is_bs x | [] => false end) eqn:Q; [|now apply K].
      apply andb_prop in Q as [Q1 Q2]. apply Z.eqb_eq in Q1. rewrite Q1. destruct r as [|x r]; [discriminate Q2|]. rewrite IH. cbn [pieces].
      rewrite Q2. cbn [andb Z.eqb]. cbn [app filter nonempty]. destruct cur; reflexivity.
Qed.

(* ---- names ---- *)
Lemma letters_split n a n' a' : Forall letter n -> ~ starts letter a -> Forall letter n' -> ~ starts letter a' -> n ++ a = n' ++ a' -> n = n' /\ a = a'.
Proof.
  revert n'. induction n as [|c n IH]; intros [|c' n'] A B A' B' E; cbn [app] in E.
  - now split.
  - exfalso. apply B. exists c', (n' ++ a'). split; [exact E|exact (Forall_inv A')].
  - exfalso. apply B'. exists c, (n ++ a). split; [now symmetry|exact (Forall_inv A)].
  - injection E as <- E. apply IH in E as [-> ->]; [auto|exact (Forall_inv_tail A)|exact B|exact (Forall_inv_tail A')|exact B'].
Qed.
Lemma forall_letter s : forallb (fun c => negb (negb (is_alpha c))) s = true <-> Forall letter s.
Proof. rewrite forallb_forall, Forall_forall. split; intros H x I; specialize (H x I); [rewrite negb_involutive in H; now apply letter_iff|rewrite negb_involutive; now apply letter_iff]. Qed.
Lemma starts_letter s : ~ starts letter s <-> match s with [] => True | c :: _ => is_alpha c = false end.
Proof.
  split.
  - intros H. destruct s as [|c s]; [exact I|]. destruct (is_alpha c) eqn:E; [|reflexivity]. exfalso. apply H. exists c, s. split; [reflexivity|now apply letter_iff].
  - intros H (c & r & -> & L). apply letter_iff in L. congruence.
Qed.
Lemma word_split s : exists n a, s = n ++ a /\ Forall letter n /\ ~ starts letter a /\
  match find_char (fun x => negb (is_alpha x)) s with Some p => p | None => (s, []) end = (n, a).
Proof.
  destruct (find_char _ s) as [[n a]|] eqn:E.
  - apply find_char_some in E as (-> & L & c & r & -> & C). exists n, (c :: r). split; [reflexivity|]. split; [now apply forall_letter|]. split; [|reflexivity].
    apply starts_letter. now apply negb_true_iff.
  - apply find_char_none in E. exists s, []. split; [now rewrite app_nil_r|]. split; [now apply forall_letter|]. split; [|reflexivity]. now apply starts_letter.
Qed.
Definition extract_word (s : str) : res (str * str) := Ok match find_char (fun x => negb (is_alpha x)) s with Some p => p | None => (s, []) end.
Lemma extract_fn r : extract_tag (lit "fn" ++ r) = Ok (lit "fn", r).
Proof.
  unfold extract_tag. rewrite starts_with_app. destruct r as [|c r]; [reflexivity|].
  assert (L : 2 <? blen (lit "fn" ++ c :: r) = true) by (apply Nat.ltb_lt; rewrite blen_app; cbn [blen]; change (blen (lit "fn")) with 2; pose proof (len_utf8_pos c); lia).
  rewrite L. cbn [andb]. change 2 with (blen (lit "fn")). rewrite cut_app. reflexivity.
Qed.
Lemma not_fn p : (forall r, p <> lit "fn" ++ r) -> starts_with (lit "fn") p = false.
Proof. intros H. destruct (starts_with (lit "fn") p) eqn:E; [|reflexivity]. apply starts_with_spec in E as (r & E). exfalso. exact (H r E). Qed.
Lemma digit_len d : digit d -> len_utf8 d = 1. Proof. unfold digit. intros. apply len_utf8_ascii. lia. Qed.
Lemma extract_digit d r : digit d -> extract_tag (d :: r) = match r with [] => Ok ([d], []) | x :: a => if (x <? 128)%N then Ok ([d; x], a) else Panic end.
Proof.
  intros D. unfold extract_tag. rewrite not_fn by (intros s E; cbn in E; injection E as -> _; unfold digit in D; lia). cbn [andb].
  assert (ID : is_digit d = true) by now apply digit_iff. rewrite ID. cbn [blen]. rewrite (digit_len d D).
  destruct r as [|x a]; [reflexivity|]. cbn [blen]. pose proof (len_utf8_pos x). destruct (Nat.leb_spec 2 (1 + (len_utf8 x + blen a))); [|lia].
  destruct (N.ltb_spec x 128) as [X|X].
  - pose proof (cut_app [d; x] a) as K. cbn [app blen] in K. rewrite (digit_len d D), (len_utf8_ascii x X) in K. cbn [Nat.add] in K. rewrite K. reflexivity.
  - destruct (cut (d :: x :: a) 2) as [[m b]|] eqn:E; [|reflexivity]. exfalso. apply cut_spec in E as (E & L).
    destruct m as [|m1 [|m2 m]]; [discriminate L|cbn in E; injection E as <- _; cbn [blen] in L; rewrite (digit_len d D) in L; discriminate L|].
    cbn in E. injection E as <- <- _. cbn [blen] in L. rewrite (digit_len d D) in L. assert (len_utf8 x <> 1); [|pose proof (len_utf8_pos x); lia].
    intros Q. apply len1 in Q. lia.
Qed.
Lemma extract_other p : (forall r, p <> lit "fn" ++ r) -> ~ starts digit p -> extract_tag p = extract_word p.
Proof.
  intros F D. unfold extract_tag, extract_word. rewrite (not_fn p F). cbn [andb]. destruct p as [|c r]; [reflexivity|].
  destruct (is_digit c) eqn:E; [exfalso; apply D; exists c, r; split; [reflexivity|now apply digit_iff]|]. destruct (find_char _ _); reflexivity.
Qed.
Lemma fn_dec p : (exists r, p = lit "fn" ++ r) \/ forall r, p <> lit "fn" ++ r.
Proof. destruct (starts_with (lit "fn") p) eqn:E; [left; now apply starts_with_spec|right]. intros r ->. rewrite starts_with_app in E. discriminate E. Qed.
Lemma digit_dec p : (exists d r, p = d :: r /\ digit d) \/ ~ starts digit p.
Proof.
  destruct p as [|c r]; [right; intros (? & ? & E & _); discriminate E|]. destruct (is_digit c) eqn:E; [left; exists c, r; split; [reflexivity|now apply digit_iff]|].
  right. intros (x & y & Q & D). injection Q as <- <-. apply digit_iff in D. congruence.
Qed.
Lemma extract_iff p n a : piece_is p n a <-> extract_tag p = Ok (n, a).
Proof.
  split.
  - intros H. destruct H as [a|d x a D X|d D|n a L S D F].
    + apply extract_fn.
    + rewrite extract_digit by exact D. apply N.ltb_lt in X. now rewrite X.
    + now rewrite extract_digit.
    + rewrite extract_other; [|exact F|exact D]. unfold extract_word. destruct (word_split (n ++ a)) as (n' & a' & E & L' & S' & ->).
      destruct (letters_split n a n' a' L S L' S' E) as [-> ->]. reflexivity.
  - intros E. destruct (fn_dec p) as [(r & ->)|F]; [rewrite extract_fn in E; injection E as <- <-; constructor|].
    destruct (digit_dec p) as [(d & r & -> & D)|D].
    + rewrite extract_digit in E by exact D. destruct r as [|x r]; [injection E as <- <-; now constructor|].
      destruct (N.ltb_spec x 128); [injection E as <- <-; now constructor|discriminate E].
    + rewrite extract_other in E by assumption. unfold extract_word in E. destruct (word_split p) as (n' & a' & -> & L' & S' & K). rewrite K in E. injection E as -> ->. now constructor.
Qed.
Lemma extract_panics p : splits_digit p <-> extract_tag p = Panic.
Proof.
  split.
  - intros (d & x & a & -> & D & X). rewrite extract_digit by exact D. destruct (N.ltb_spec x 128); [lia|reflexivity].
  - intros E. destruct (fn_dec p) as [(r & ->)|F]; [rewrite extract_fn in E; discriminate E|].
    destruct (digit_dec p) as [(d & r & -> & D)|D].
    + rewrite extract_digit in E by exact D. destruct r as [|x r]; [discriminate E|]. destruct (N.ltb_spec x 128); [discriminate E|]. exists d, x, r. auto.
    + rewrite extract_other in E by assumption. discriminate E.
Qed.
Lemma extract_no_err p : extract_tag p <> Err.
Proof.
  destruct (fn_dec p) as [(r & ->)|F]; [rewrite extract_fn; discriminate|].
  destruct (digit_dec p) as [(d & r & -> & D)|D]; [rewrite extract_digit by exact D|rewrite extract_other by assumption; discriminate].
  destruct r as [|x r]; [discriminate|]. destruct (x <? 128)%N; discriminate.
Qed.
Lemma piece_fun p n a n' a' : piece_is p n a -> piece_is p n' a' -> n = n' /\ a = a'.
Proof. rewrite !extract_iff. intros -> E. now injection E as -> ->. Qed.

(* ---- transforms ---- *)
Definition aims_iff (n a : str) (o : option (field * value)) : Prop := forall f v, aims n a f v <-> o = Some (f, v).
Lemma parse_color_arg_ok a : parse_color_arg a = Ok (match parse_bgr_color a with Ok c => Some (VColor c) | _ => None end).
Proof. unfold parse_color_arg. destruct (parse_bgr_color a) eqn:E; [reflexivity|reflexivity|]. exfalso. exact (color_no_panic _ E). Qed.
Ltac atable := match goal with
  | H : calls _ _ _ |- _ => let s := fresh "s" in let Hin := fresh "Hin" in let E := fresh "E" in destruct H as (s & Hin & E); cbn [anim_nums color_names In] in Hin;
      repeat match goal with K : (_, _) = (_, _) \/ _ |- _ => destruct K as [K|K] | K : False |- _ => destruct K end;
      match goal with K : (_, _) = (_, _) |- _ => injection K as <- <- end; try discriminate E; try clear E
  end.
Lemma aims_num n a f0 : calls anim_nums f0 n -> (forall f, calls anim_nums f n -> f = f0) -> (forall f, ~ calls color_names f n) -> n <> lit "alpha" ->
  aims_iff n a (option_map (pair f0) (vnum a)).
Proof.
  intros C U NC NA f v. split.
  - intros H. destruct H as [n a f x F X|n a f c F X|a x X]; [|exfalso; exact (NC f F)|contradiction]. rewrite (U f F). unfold vnum, num. unfold number in X. rewrite X. reflexivity.
  - unfold vnum, num. destruct (parse_float f32 a) eqn:X; [|discriminate]. cbn [option_map]. intros E. injection E as <- <-. now constructor.
Qed.
Lemma aims_color n a f0 : calls color_names f0 n -> (forall f, calls color_names f n -> f = f0) -> (forall f, ~ calls anim_nums f n) -> n <> lit "alpha" ->
  aims_iff n a (option_map (pair f0) (match parse_bgr_color a with Ok c => Some (VColor c) | _ => None end)).
Proof.
  intros C U NC NA f v. split.
  - intros H. destruct H as [n a f x F X|n a f c F X|a x X]; [exfalso; exact (NC f F)| |contradiction]. rewrite (U f F), X. reflexivity.
  - destruct (parse_bgr_color a) eqn:X; try discriminate. cbn [option_map]. intros E. injection E as <- <-. now constructor.
Qed.
Ltac abranch := match goal with |- exists o, (if named ?n ?l then _ else _) = _ /\ _ =>
  let H := fresh "H" in destruct (named n l) eqn:H; [apply named_true in H as (s & Hin & ->); cbn [In] in Hin; members|] end.
Ltac acalled := eexists; split; [|reflexivity]; cbn; tauto.
Ltac anum := abranch; [unfold target; eexists; (split; [reflexivity|apply aims_num; [acalled|intros g G; atable; reflexivity|intros g G; atable|discriminate]])..|].
Ltac acolor := abranch; [unfold target_res, target; rewrite parse_color_arg_ok; cbn [res_bind]; eexists; (split; [reflexivity|apply aims_color; [acalled|intros g G; atable; reflexivity|intros g G; atable|discriminate]])..|].
Lemma create_is n a : exists o, create_animatable_tag n a = Ok o /\ aims_iff n a o.
Proof.
  unfold create_animatable_tag. do 7 anum. do 4 acolor.
  abranch.
  { unfold target, parse_alpha_arg. eexists. split; [reflexivity|]. intros f v. split.
    - intros G. inversion G; subst; [atable|atable|]. match goal with X : parse_uint _ _ _ = _ |- _ => rewrite X end. reflexivity.
    - destruct (parse_uint 255 16 _) as [x|] eqn:X; [|discriminate]. cbn [option_map]. intros E. injection E as <- <-. now constructor. }
  do 3 anum.
  exists None. split; [reflexivity|]. intros f v. split; [|discriminate]. intros G.
  destruct G as [n a f x F X|n a f c F X|a x X]; [destruct F as (s & Hin & ->)..|discriminate].
  all: cbn [anim_nums color_names In] in Hin; repeat match goal with K : (_, _) = (_, _) \/ _ |- _ => destruct K as [K|K] | K : False |- _ => destruct K end;
      match goal with K : (_, _) = (_, _) |- _ => injection K as <- <- end; discriminate.
Qed.

Lemma bs_is x : is_bs x = true <-> x = 92%N. Proof. unfold is_bs. apply N.eqb_eq. Qed.
Lemma no_bs p : ~ In 92%N p <-> forallb (fun c => negb (is_bs c)) p = true.
Proof.
  rewrite forallb_forall. split.
  - intros H x I. destruct (is_bs x) eqn:E; [apply bs_is in E; subst x; contradiction|reflexivity].
  - intros H I. specialize (H _ I). discriminate H.
Qed.
Definition bs_or_end (s : str) : Prop := s = [] \/ exists r, s = 92%N :: r.
Lemma rest_bs ps : bs_or_end (flat_map (cons 92%N) ps).
Proof. destruct ps as [|p ps]; [now left|right; cbn; eauto]. Qed.
Lemma skip_chars p : forall fuel cs, ~ In 92%N p -> animatable (List.length p + fuel) (p ++ cs) = animatable fuel cs.
Proof.
  induction p as [|c p IH]; intros fuel cs H; [reflexivity|]. cbn [List.length Nat.add app animatable].
  destruct (is_bs c) eqn:B; [exfalso; apply H; left; now apply bs_is|]. apply IH. intros I. apply H. now right.
Qed.
Lemma take_alpha p cs : bs_or_end cs -> take_while is_alpha (p ++ cs) = take_while is_alpha p /\ drop_while is_alpha (p ++ cs) = drop_while is_alpha p ++ cs.
Proof.
  intros E. induction p as [|c p [IH1 IH2]]; [destruct E as [->|(r & ->)]; auto|]. cbn [app take_while drop_while]. destruct (is_alpha c); [|auto]. now rewrite IH1, IH2.
Qed.
Lemma take_not_bs p cs : ~ In 92%N p -> bs_or_end cs -> let f := fun x => negb (is_bs x) in take_while f (p ++ cs) = p /\ drop_while f (p ++ cs) = cs.
Proof.
  intros H E f. induction p as [|c p IH]; [destruct E as [->|(r & ->)]; auto|]. cbn [app take_while drop_while]. unfold f at 1 3.
  destruct (is_bs c) eqn:B; [exfalso; apply H; left; now apply bs_is|]. cbn [negb]. destruct IH as [-> ->]; [intros I; apply H; now right|auto].
Qed.
Lemma alpha_split p : exists w a, p = w ++ a /\ Forall letter w /\ ~ starts letter a /\ take_while is_alpha p = w /\ drop_while is_alpha p = a.
Proof.
  exists (take_while is_alpha p), (drop_while is_alpha p). split; [apply take_drop|]. split; [|split; [|auto]].
  - induction p as [|c p IH]; cbn; [constructor|]. destruct (is_alpha c) eqn:E; [constructor; [now apply letter_iff|exact IH]|constructor].
  - apply starts_letter. induction p as [|c p IH]; cbn; [exact I|]. destruct (is_alpha c) eqn:E; [exact IH|exact E].
Qed.
Lemma anim_fun p n a n' a' : anim_piece p n a -> anim_piece p n' a' -> n = n' /\ a = a'.
Proof.
  intros (E & d & w & -> & W & S & D) (E' & d' & w' & -> & W' & S' & D'). rewrite E in E'. rewrite <- !app_assoc in E'.
  destruct D as [[-> D]|(x & -> & D)], D' as [[-> D']|(x' & -> & D')]; cbn [app] in *.
  - destruct (letters_split _ _ _ _ W S W' S' E') as [-> ->]. auto.
  - exfalso. apply D. rewrite E, E'. now exists x', (w' ++ a').
  - exfalso. apply D'. rewrite E. now exists x, (w ++ a).
  - injection E' as <- E'. destruct (letters_split _ _ _ _ W S W' S' E') as [-> ->]. auto.
Qed.
Lemma targets_fun ps l l' : targets ps l -> targets ps l' -> l = l'.
Proof.
  intros T. revert l'. induction T as [|p n a f v ps l P A T IH|p ps l N T IH]; intros l' T'; inversion T' as [|p' n' a' f' v' ps' l2 P' A' T2|p' ps' l2 N' T2]; subst.
  - reflexivity.
  - destruct (anim_fun _ _ _ _ _ P P') as [<- <-]. destruct (create_is n a) as (o & _ & O). apply O in A, A'. rewrite A in A'. injection A' as <- <-. f_equal. now apply IH.
  - exfalso. exact (N' _ _ _ _ P A).
  - exfalso. exact (N _ _ _ _ P' A').
  - now apply IH.
Qed.
Lemma animatable_is ps : forall fuel, Forall (fun p => ~ In 92%N p) ps -> List.length (flat_map (cons 92%N) ps) <= fuel ->
  exists l, animatable fuel (flat_map (cons 92%N) ps) = Done (Ok l) /\ targets ps l.
Proof.
  induction ps as [|p ps IH]; intros fuel F L; [exists []; split; [destruct fuel; reflexivity|constructor]|].
  inversion F as [|? ? P F']; subst. cbn [flat_map] in *. rewrite app_length in L. cbn [List.length] in L. destruct fuel as [|k]; [lia|].
  set (cs := flat_map (cons 92%N) ps) in *. pose proof (rest_bs ps : bs_or_end cs) as RB.
  cbn [app animatable]. change (is_bs 92) with true. cbv iota.
  set (d := match p ++ cs with x :: _ => if is_digit x then [x] else [] | [] => [] end).
  set (after := match d with [] => p ++ cs | _ => tl (p ++ cs) end).
  assert (DP : exists p', p = d ++ p' /\ after = p' ++ cs /\ (d = [] /\ ~ starts digit p \/ exists x, d = [x] /\ digit x)).
  { unfold after, d. clear after d. destruct p as [|c p].
    - exists []. cbn [app]. assert (E : match cs with x :: _ => if is_digit x then [x] else [] | [] => [] end = []) by (destruct RB as [->|(r & ->)]; reflexivity).
      rewrite E. split; [reflexivity|]. split; [reflexivity|]. left. split; [reflexivity|]. intros (? & ? & K & _). discriminate K.
    - cbn [app tl]. destruct (is_digit c) eqn:E.
      + exists p. split; [reflexivity|]. split; [reflexivity|]. right. exists c. split; [reflexivity|now apply digit_iff].
      + exists (c :: p). split; [reflexivity|]. split; [reflexivity|]. left. split; [reflexivity|]. intros (x & y & K & D). injection K as <- <-. apply digit_iff in D. congruence. }
  clearbody d after. destruct DP as (p' & -> & -> & D).
  destruct (take_alpha p' cs RB) as [-> ->]. destruct (alpha_split p') as (w & a & -> & W & S & -> & ->).
  assert (AP : anim_piece (d ++ w ++ a) (d ++ w) a).
  { split; [apply app_assoc|]. exists d, w. split; [reflexivity|]. split; [exact W|]. split; [exact S|exact D]. }
  assert (PA : ~ In 92%N a) by (intros I; apply P; apply in_or_app; right; apply in_or_app; now right).
  destruct (create_is (d ++ w) a) as (o & C & O).
  assert (T : forall l, targets ps l -> targets ((d ++ w ++ a) :: ps) (match o with Some x => x :: l | None => l end)).
  { intros l T. destruct o as [[f v]|].
    - eapply tgt_some; [exact AP|now apply O|exact T].
    - apply tgt_none; [|exact T]. intros n' a' f v AP' A. destruct (anim_fun _ _ _ _ _ AP AP') as [<- <-]. apply O in A. discriminate A. }
  rewrite !app_length in L.
  destruct (d ++ w) as [|y n] eqn:N.
  - apply app_eq_nil in N as [-> ->]. cbn [app List.length] in *.
    replace k with (List.length a + (k - List.length a)) by lia. rewrite skip_chars by exact PA.
    destruct (IH (k - List.length a) F') as (l & E & TL); [lia|]. exists l. split; [exact E|]. cbn in C. injection C as <-. exact (T l TL).
  - destruct (take_not_bs a cs PA RB) as [-> ->]. destruct (IH k F') as (l & E & TL); [lia|]. rewrite E. cbn [bind]. rewrite C. cbn [res_bind].
    eexists. split; [reflexivity|]. exact (T l TL).
Qed.

Lemma fields_exact params l : fields_are params l <-> l = map trim (split_on comma (drop_end comma params)).
Proof.
  split.
  - intros (body & c & parts & -> & C & E & NE & F & B & ->). rewrite drop_end_app_all by (now apply (forallb_eq 44 comma _ comma_is)).
    assert (D : drop_end comma body = body).
    { apply drop_end_id. destruct (list_eq_dec N.eq_dec body []) as [->|NB]; [now left|]. right. destruct (exists_last NB) as (m & y & Y). exists m, y. split; [exact Y|].
      destruct (comma y) eqn:K; [|reflexivity]. exfalso. apply E. apply comma_is in K. subst y. now exists m. }
    rewrite D, B, split_on_join; [reflexivity|reflexivity|exact NE|].
    apply Forall_forall. intros w I. rewrite Forall_forall in F. specialize (F w I).
    apply forallb_forall. intros x X. destruct (comma x) eqn:K; [|reflexivity]. apply comma_is in K. subst x. contradiction.
  - intros ->. destruct (drop_end_spec comma params) as (c & E2 & C & T). set (b := drop_end comma params) in *.
    exists b, c, (split_on comma b). split; [exact E2|]. split; [now apply (forallb_eq 44 comma _ comma_is)|]. split; [|split; [|split; [|split; [|reflexivity]]]].
    + intros (r & B). destruct T as [T|(l & x & T & X)]; [rewrite T in B; destruct r; discriminate|]. rewrite B in T. apply app_inj_tail in T as [_ <-]. discriminate X.
    + apply split_on_nonempty.
    + apply QueryProofs.pieces_free. reflexivity.
    + symmetry. apply join_split_on. exact comma_is.
Qed.
Lemma time_field_is s n : time_field s n <-> n = u32_or_0 s.
Proof.
  unfold time_field, u32_or_0, u32_of, parse_u32. destruct (parse_uint u32_max 10 s) as [m|] eqn:E.
  - split; [intros [K|[_ K]]; [congruence|exfalso; exact (K m eq_refl)]|intros ->; now left].
  - split; [intros [K|[-> _]]; [congruence|reflexivity]|]. intros ->. right. split; [reflexivity|]. intros m. congruence.
Qed.
Lemma accel_field_is s x : accel_field s x <-> x = match num s with Some v => v | None => SegmentModel.one end.
Proof.
  unfold accel_field, number, num, SegmentModel.one. destruct (parse_float f32 s) as [m|] eqn:E.
  - split; [intros [K|[_ K]]; [congruence|exfalso; exact (K m eq_refl)]|intros ->; now left].
  - split; [intros [K|[-> _]]; [congruence|reflexivity]|]. intros ->. right. split; [reflexivity|]. intros m. congruence.
Qed.
Lemma timing_is params fs a b x : fields_are params fs -> (timed fs a b x <-> timing params = (a, b, x)).
Proof.
  intros F. apply fields_exact in F. unfold timing. rewrite <- F.
  assert (NE : fs <> []) by (rewrite F; intros K; apply map_eq_nil in K; exact (split_on_nonempty _ _ K)). clear F. split.
  - intros T. destruct T as [s x X L|s x X L|s N|s1 s2 n m A B|s1 s2 s3 r n m x A B C].
    + unfold num. rewrite X, L. destruct s; [discriminate X|reflexivity].
    + unfold num. rewrite X, L. destruct s; [discriminate X|reflexivity].
    + unfold num. destruct s as [|c s]; [reflexivity|]. destruct (parse_float f32 (c :: s)) as [v|] eqn:E; [exfalso; exact (N v E)|reflexivity].
    + apply time_field_is in A, B. now subst.
    + apply time_field_is in A, B. apply accel_field_is in C. now subst.
  - intros E. destruct fs as [|s1 [|s2 [|s3 r]]]; [contradiction| | |].
    + unfold num in E. destruct (parse_float f32 s1) as [v|] eqn:P.
      * destruct s1 as [|c s]; [discriminate P|]. destruct (f_lt v (Fin 10)) eqn:L; injection E as <- <- <-; [now apply tm_accel|now apply tm_length].
      * assert (E' : (0%N, 0%N, SegmentModel.one) = (a, b, x)) by (destruct s1; exact E). injection E' as <- <- <-. apply tm_none. intros y K. unfold number in K. congruence.
    + injection E as <- <- <-. apply tm_times; now apply time_field_is.
    + injection E as <- <- <-. apply tm_full; [now apply time_field_is..|now apply accel_field_is].
Qed.
(* a text starting with a backslash, at every backslash *)
Lemma bs_pieces n : forall s, List.length s <= n -> exists ps, 92%N :: s = flat_map (cons 92%N) ps /\ ps <> [] /\ Forall (fun p => ~ In 92%N p) ps.
Proof.
  induction n as [|n IH]; intros s L.
  - destruct s; [|cbn in L; lia]. exists [[]]. split; [reflexivity|]. split; [discriminate|]. constructor; [intros []|constructor].
  - destruct (find_char is_bs s) as [[p r]|] eqn:E.
    + apply find_char_some in E as (-> & P & c & r' & -> & C). apply bs_is in C. subst c.
      destruct (IH r') as (ps & E & _ & F); [rewrite app_length in L; cbn in L; lia|]. exists (p :: ps). split; [cbn [flat_map app]; now rewrite <- E|]. split; [discriminate|]. constructor; [now apply no_bs|exact F].
    + apply find_char_none in E. exists [s]. split; [cbn; now rewrite app_nil_r|]. split; [discriminate|]. constructor; [now apply no_bs|constructor].
Qed.
Lemma flat_unique ps : forall ps', Forall (fun p => ~ In 92%N p) ps -> Forall (fun p => ~ In 92%N p) ps' -> flat_map (cons 92%N) ps = flat_map (cons 92%N) ps' -> ps = ps'.
Proof.
  induction ps as [|p ps IH]; intros [|p' ps'] F F' E; try discriminate E; [reflexivity|]. cbn [flat_map app] in E. injection E as E.
  inversion F as [|? ? P F1]; inversion F' as [|? ? P' F1']; subst.
  destruct (take_not_bs p (flat_map (cons 92%N) ps) P (rest_bs ps)) as [A B]. destruct (take_not_bs p' (flat_map (cons 92%N) ps') P' (rest_bs ps')) as [A' B'].
  rewrite E in A, B. rewrite A in A'. rewrite B in B'. subst p'. f_equal. now apply IH.
Qed.
Lemma transform_cases args :
  (exists params ps, trim args = lit "(" ++ params ++ flat_map (cons 92%N) ps ++ lit ")" /\ ~ In 92%N params /\ ps <> [] /\ Forall (fun p => ~ In 92%N p) ps /\
     exists l, targets ps l /\ parse_transform args = Done (Ok (match l with [] => None | _ => Some (let '(a, b, x) := timing params in Transform a b x l) end))) \/
  ((forall params ps, trim args = lit "(" ++ params ++ flat_map (cons 92%N) ps ++ lit ")" -> ps = []) /\ parse_transform args = Done (Ok None)).
Proof.
  unfold parse_transform. set (s := trim args).
  destruct (negb (starts_with (lit "(") s) || negb (ends_with (lit ")") s)) eqn:B.
  - right. split; [|reflexivity]. intros params ps E. exfalso. rewrite E in B. rewrite starts_with_app in B. cbn [negb orb] in B.
    apply negb_true_iff in B. assert (K : ends_with (lit ")") (lit "(" ++ params ++ flat_map (cons 92%N) ps ++ lit ")") = true); [|congruence].
    apply ends_with_spec. exists (lit "(" ++ params ++ flat_map (cons 92%N) ps). now rewrite <- !app_assoc.
  - apply orb_false_elim in B as [B1 B2]. apply negb_false_iff in B1, B2. apply starts_with_spec in B1 as (r & E). apply ends_with_spec in B2 as (q & E2).
    assert (EE : exists inner, s = lit "(" ++ inner ++ lit ")").
    { destruct q as [|c q]; [rewrite E in E2; discriminate E2|]. rewrite E in E2. cbn in E2. injection E2 as <- E2. exists q. rewrite E. cbn. now rewrite E2. }
    destruct EE as (inner & EE).
    assert (SL : slice s 1 (blen s - 1) = Some inner).
    { rewrite EE, !blen_app. change (blen (lit "(")) with 1. change (blen (lit ")")) with 1. replace (1 + (blen inner + 1) - 1) with (blen (lit "(") + blen inner) by (change (blen (lit "(")) with 1; lia). exact (slice_app (lit "(") inner (lit ")")). }
    rewrite SL. cbn [or_crash bind]. destruct (find_char is_bs inner) as [[params rest]|] eqn:FC.
    + left. apply find_char_some in FC as (EI & P & c & r' & -> & C). apply bs_is in C. subst c. destruct (bs_pieces (List.length r') r' (le_n _)) as (ps & EP & NE & F).
      exists params, ps. split; [rewrite EE, EI, <- EP, <- app_assoc; reflexivity|]. split; [now apply no_bs|]. split; [exact NE|]. split; [exact F|].
      unfold parse_animatable_tags. rewrite EP. destruct (animatable_is ps _ F (le_n _)) as (l & A & T). rewrite A. exists l. split; [exact T|]. cbn [bind res_bind].
      destruct (timing params) as [[a b] x]. cbn [bind res_bind]. destruct l; reflexivity.
    + right. split; [|reflexivity]. intros params ps E3. apply find_char_none in FC. apply no_bs in FC. destruct ps as [|p ps]; [reflexivity|]. exfalso. apply FC.
      rewrite EE in E3. apply app_inv_head in E3. rewrite app_assoc in E3. apply app_inv_tail in E3. subst inner. apply in_or_app. right. now left.
Qed.
Lemma params_unique p1 ps1 p2 ps2 : ~ In 92%N p1 -> ~ In 92%N p2 -> Forall (fun p => ~ In 92%N p) ps1 -> Forall (fun p => ~ In 92%N p) ps2 ->
  p1 ++ flat_map (cons 92%N) ps1 = p2 ++ flat_map (cons 92%N) ps2 -> p1 = p2 /\ ps1 = ps2.
Proof.
  intros N1 N2 F1 F2 E. assert (K : p1 :: ps1 = p2 :: ps2); [|now injection K].
  apply flat_unique; [now constructor|now constructor|]. cbn [flat_map app]. now rewrite E.
Qed.
Lemma transform_iff args tr : is_transform args tr <-> parse_transform args = Done (Ok (Some tr)).
Proof.
  destruct (transform_cases args) as [(params & ps & E & NP & NE & F & l & T & ->)|[N ->]].
  - split.
    + intros (params' & ps' & fs & E' & NP' & NE' & F' & FA & TM & TG & NT).
      rewrite E in E'. apply app_inv_head in E'. rewrite !app_assoc in E'. apply app_inv_tail in E'.
      destruct (params_unique _ _ _ _ NP NP' F F' E') as [<- <-]. rewrite (targets_fun _ _ _ T TG).
      apply (timing_is _ _ _ _ _ FA) in TM. rewrite TM. destruct tr as [a b x tg]. cbn in *. destruct tg; [contradiction|reflexivity].
    + intros K. destruct l as [|y l]; [discriminate K|]. destruct (timing params) as [[a b] x] eqn:TM. injection K as <-.
      exists params, ps, (map trim (split_on comma (drop_end comma params))). cbn [tr_start tr_end tr_accel tr_targets].
      assert (FA : fields_are params (map trim (split_on comma (drop_end comma params)))) by now apply fields_exact.
      repeat (split; [first [assumption|apply (timing_is _ _ _ _ _ FA); exact TM]|]). discriminate.
  - split; [|discriminate]. intros (params' & ps' & fs & E' & NP' & NE' & _). exfalso. apply NE'. exact (N _ _ E').
Qed.
Lemma transform_total args : exists o, parse_transform args = Done (Ok o).
Proof. destruct (transform_cases args) as [(params & ps & _ & _ & _ & _ & l & _ & ->)|[_ ->]]; eauto. Qed.

(* ---- one piece ---- *)
Definition field_step (f : field) (p : str) (b b1 : option value) : Prop :=
  (exists n a v, piece_is p n a /\ gives n a f v /\ b1 = Some v) \/
  (exists n a, piece_is p n a /\ takes_back n a f /\ b1 = None) \/
  (resets p /\ b1 = None) \/
  (quiet f p /\ b1 = b).
Definition trans_step (p : str) (l l1 : list transform) : Prop :=
  (resets p /\ l1 = []) \/ (~ resets p /\ exists tr, moves p tr /\ l1 = l ++ [tr]) \/ (~ resets p /\ (forall tr, ~ moves p tr) /\ l1 = l).
Lemma gives_not_r a f v : ~ gives (lit "r") a f v.
Proof. intros G. apply gives_iff in G. destruct f; discriminate G. Qed.
Lemma gives_not_t a f v : ~ gives (lit "t") a f v.
Proof. intros G. apply gives_iff in G. destruct f; discriminate G. Qed.
Lemma part_step p t : (fatal p /\ apply_part p t = Crash) \/
  (~ fatal p /\ exists t', apply_part p t = Done t' /\ (forall f, field_step f p (tg_field t f) (tg_field t' f)) /\ trans_step p (tg_transforms t) (tg_transforms t')).
Proof.
  assert (AP : apply_part p t = match extract_tag p with Ok (n, args) => apply_tag n args t | _ => Crash end) by (destruct p; reflexivity).
  rewrite AP. destruct (extract_tag p) as [[n a]| |] eqn:E.
  2: { exfalso. exact (extract_no_err p E). }
  2: { left. split; [left; now apply extract_panics|reflexivity]. }
  assert (P : piece_is p n a) by now apply extract_iff.
  assert (NS : ~ splits_digit p) by (intros S; apply extract_panics in S; congruence).
  assert (U : forall n' a', piece_is p n' a' -> n' = n /\ a' = a) by (intros n' a' P'; destruct (piece_fun _ _ _ _ _ P P') as [-> ->]; auto).
  assert (RS : resets p <-> n = lit "r").
  { split; [intros (a' & P'); now destruct (U _ _ P') as [-> _]|intros ->; now exists a]. }
  assert (MV : forall tr, moves p tr <-> n = lit "t" /\ is_transform a tr).
  { intros tr. split; [intros (a' & P' & T); destruct (U _ _ P') as [<- ->]; auto|intros [-> T]; exists a; auto]. }
  assert (FT : fatal p <-> (n = lit "fad" \/ n = lit "fade") /\ parse_fade_args a = Panic).
  { rewrite <- backward_iff. split; [intros [S|(n' & a' & P' & B)]; [contradiction|destruct (U _ _ P') as [-> ->]; exact B]|intros B; right; eauto]. }
  assert (QT : forall f, n <> lit "r" -> (forall v, ~ gives n a f v) -> ~ takes_back n a f -> quiet f p).
  { intros f NR NG NT. split; [now rewrite RS|]. intros n' a' P' [T|(v & G)]; destruct (U _ _ P') as [-> ->]; [contradiction|exact (NG v G)]. }
  destruct (apply_is n a t) as [[-> ->]|[[-> ->]|[(NF & PF & ->)|(NR & NT & PF & t' & -> & TR & FL)]]].
  - right. split; [rewrite FT; intros [[K|K] _]; discriminate K|]. exists no_tags. split; [reflexivity|]. split.
    + intros f. right. right. left. split; [now apply RS|reflexivity].
    + left. split; [now apply RS|reflexivity].
  - right. split; [rewrite FT; intros [[K|K] _]; discriminate K|].
    assert (Q : forall f, quiet f p) by (intros f; apply QT; [discriminate|intros v; apply gives_not_t|intros (K & _); discriminate K]).
    unfold push_transform. destruct (transform_total a) as (o & TO). rewrite TO. cbn [bind]. destruct o as [tr|].
    + eexists. split; [reflexivity|]. cbn [tg_field tg_transforms]. split; [intros f; right; right; right; auto|]. right. left. split; [rewrite RS; discriminate|].
      exists tr. split; [|reflexivity]. apply MV. split; [reflexivity|now apply transform_iff].
    + exists t. split; [reflexivity|]. split; [intros f; right; right; right; auto|]. right. right. split; [rewrite RS; discriminate|]. split; [|reflexivity].
      intros tr M. apply MV in M as [_ M]. apply transform_iff in M. congruence.
  - left. split; [now apply FT|reflexivity].
  - right. split; [rewrite FT; tauto|]. exists t'. split; [reflexivity|]. split.
    + intros f. rewrite (FL f). unfold after. destruct (meaning n a f) as [v|] eqn:M.
      * left. exists n, a, v. split; [exact P|]. split; [now apply gives_iff|reflexivity].
      * destruct (takes_b n a f) eqn:TB; [right; left; exists n, a; split; [exact P|]; split; [now apply takes_iff|reflexivity]|].
        right. right. right. split; [|reflexivity]. apply QT; [exact NR|intros v G; apply gives_iff in G; congruence|intros T; apply takes_iff in T; congruence].
    + right. right. split; [now rewrite RS|]. split; [|exact TR]. intros tr MM. apply MV in MM as [-> _]. contradiction.
Qed.
Lemma fatal_dec p : {fatal p} + {~ fatal p}.
Proof.
  destruct (apply_part p no_tags) eqn:E; [right|left|right].
  all: destruct (part_step p no_tags) as [[F H]|[F (t' & H & _)]]; congruence.
Qed.

(* ---- all pieces ---- *)
Lemma in_force_cons f p ps b b1 b2 : field_step f p b b1 -> in_force f b1 ps b2 -> in_force f b (p :: ps) b2.
Proof.
  intros S [(u & q & w & n & a & v & -> & P & G & E & Q)|[(u & q & w & n & a & -> & P & G & E & Q)|[(u & q & w & -> & R & E & Q)|[Q ->]]]].
  - left. exists (p :: u), q, w, n, a, v. auto.
  - right. left. exists (p :: u), q, w, n, a. auto.
  - right. right. left. exists (p :: u), q, w. auto.
  - destruct S as [(n & a & v & P & G & E)|[(n & a & P & G & E)|[[R E]|[QP E]]]].
    + left. exists [], p, ps, n, a, v. auto.
    + right. left. exists [], p, ps, n, a. auto.
    + right. right. left. exists [], p, ps. auto.
    + right. right. right. split; [now constructor|exact E].
Qed.
Lemma resets_dec p : resets p \/ ~ resets p.
Proof.
  destruct (extract_tag p) as [[n a]| |] eqn:E.
  - apply extract_iff in E. destruct (list_eq_dec N.eq_dec n (lit "r")) as [->|NE]; [left; now exists a|right]. intros (a' & P'). destruct (piece_fun _ _ _ _ _ E P') as [-> _]. contradiction.
  - right. intros (a & P). apply extract_iff in P. congruence.
  - right. intros (a & P). apply extract_iff in P. congruence.
Qed.
Lemma transforms_cons p ps l l1 l2 : trans_step p l l1 -> transforms_after l1 ps l2 -> transforms_after l (p :: ps) l2.
Proof.
  intros S [(NR & g & G & ->)|(u & q & w & -> & R & NR & G)]; [|right; exists (p :: u), q, w; auto].
  destruct S as [[R ->]|[(NP & tr & M & ->)|(NP & NM & ->)]].
  - right. exists [], p, ps. cbn [app]. auto.
  - left. split; [now constructor|]. exists (tr :: g). split; [now constructor|]. now rewrite <- app_assoc.
  - left. split; [now constructor|]. exists g. split; [now constructor|reflexivity].
Qed.
Lemma parts_is ps : forall t, (Exists fatal ps /\ apply_parts ps t = Crash) \/
  (Forall (fun p => ~ fatal p) ps /\ exists t', apply_parts ps t = Done t' /\ (forall f, in_force f (tg_field t f) ps (tg_field t' f)) /\ transforms_after (tg_transforms t) ps (tg_transforms t')).
Proof.
  induction ps as [|p ps IH]; intros t; cbn [apply_parts].
  - right. split; [constructor|]. exists t. split; [reflexivity|]. split; [intros f; right; right; right; split; [constructor|reflexivity]|].
    left. split; [constructor|]. exists []. split; [constructor|now rewrite app_nil_r].
  - destruct (part_step p t) as [[F H]|[F (t1 & H & FS & TS)]]; rewrite H; cbn [bind]; [left; split; [now left|reflexivity]|].
    destruct (IH t1) as [[X K]|[X (t2 & K & FI & TI)]]; [left; split; [now right|exact K]|].
    right. split; [now constructor|]. exists t2. split; [exact K|]. split; [intros f; eapply in_force_cons; [apply FS|apply FI]|eapply transforms_cons; [exact TS|exact TI]].
Qed.
Lemma parts_filter ps : forall t, apply_parts (filter nonempty ps) t = apply_parts ps t.
Proof.
  induction ps as [|p ps IH]; intros t; [reflexivity|]. destruct p as [|c p]; [exact (IH t)|]. cbn [filter nonempty apply_parts]. destruct (apply_part _ t); cbn [bind]; auto.
Qed.
Lemma block_pieces_are x t : process_tag_block x t = apply_parts (pieces 0 x) t.
Proof.
  unfold process_tag_block, split_tags. rewrite split_is. destruct (pieces_some 0 x) as (p & ps & E). rewrite E. cbn [app]. apply parts_filter.
Qed.
Lemma fatal_block_dec x : {fatal_block x} + {~ fatal_block x}.
Proof.
  destruct (Exists_dec fatal (pieces 0 x) fatal_dec) as [E|E].
  - left. exists (pieces 0 x). split; [apply pieces_divided|exact E].
  - right. intros (ps & D & K). apply divided_unique in D. subst ps. contradiction.
Qed.
Lemma block_is x t : (fatal_block x /\ process_tag_block x t = Crash) \/ (~ fatal_block x /\ exists t', process_tag_block x t = Done t' /\ block_does x t t').
Proof.
  rewrite block_pieces_are. destruct (parts_is (pieces 0 x) t) as [[X K]|[X (t' & K & F & T)]].
  - left. split; [exists (pieces 0 x); split; [apply pieces_divided|exact X]|exact K].
  - right. split.
    + intros (ps & D & E). apply divided_unique in D. subst ps. rewrite Forall_forall in X. apply Exists_exists in E as (p & I & E). exact (X p I E).
    + exists t'. split; [exact K|]. exists (pieces 0 x). split; [apply pieces_divided|auto].
Qed.
(* the specification leaves no choice *)
Lemma in_force_fun f b ps a1 a2 : in_force f b ps a1 -> in_force f b ps a2 -> a1 = a2.
Proof.
  revert b a1 a2. induction ps as [|p ps IH] using rev_ind; intros b a1 a2 H1 H2.
  - destruct H1 as [(u & ? & ? & ? & ? & ? & E & _)|[(u & ? & ? & ? & ? & E & _)|[(u & ? & ? & E & _)|[_ ->]]]]; [destruct u; discriminate E..|].
    destruct H2 as [(u & ? & ? & ? & ? & ? & E & _)|[(u & ? & ? & ? & ? & E & _)|[(u & ? & ? & E & _)|[_ ->]]]]; [destruct u; discriminate E..|reflexivity].
  - assert (C : forall a, in_force f b (ps ++ [p]) a -> (exists n v x, piece_is p n x /\ gives n x f v /\ a = Some v) \/
      (exists n x, piece_is p n x /\ takes_back n x f /\ a = None) \/ (resets p /\ a = None) \/ (quiet f p /\ in_force f b ps a)).
    { intros a [(u & q & w & n & x & v & E & P & G & A & Q)|[(u & q & w & n & x & E & P & G & A & Q)|[(u & q & w & E & R & A & Q)|[Q A]]]].
      - destruct w as [|y w] using rev_ind; [apply app_inj_tail in E as [_ ->]; left; eauto 8|]. clear IHw. rewrite app_comm_cons, app_assoc in E. apply app_inj_tail in E as [-> ->].
        apply Forall_app in Q as [Q1 Q2]. right. right. right. split; [exact (Forall_inv Q2)|]. left. exists u, q, w, n, x, v. auto.
      - destruct w as [|y w] using rev_ind; [apply app_inj_tail in E as [_ ->]; right; left; eauto 8|]. clear IHw. rewrite app_comm_cons, app_assoc in E. apply app_inj_tail in E as [-> ->].
        apply Forall_app in Q as [Q1 Q2]. right. right. right. split; [exact (Forall_inv Q2)|]. right. left. exists u, q, w, n, x. auto.
      - destruct w as [|y w] using rev_ind; [apply app_inj_tail in E as [_ ->]; right; right; left; auto|]. clear IHw. rewrite app_comm_cons, app_assoc in E. apply app_inj_tail in E as [-> ->].
        apply Forall_app in Q as [Q1 Q2]. right. right. right. split; [exact (Forall_inv Q2)|]. right. right. left. exists u, q, w. auto.
      - apply Forall_app in Q as [Q1 Q2]. right. right. right. split; [exact (Forall_inv Q2)|]. right. right. right. auto. }
    assert (GT : forall n x n' x' v, piece_is p n x -> gives n x f v -> piece_is p n' x' -> takes_back n' x' f -> False).
    { intros n x n' x' v P G P' (-> & -> & ->). destruct (piece_fun _ _ _ _ _ P P') as [-> ->]. apply gives_iff in G. discriminate G. }
    assert (GR : forall n x v, piece_is p n x -> gives n x f v -> resets p -> False).
    { intros n x v P G (y & R). destruct (piece_fun _ _ _ _ _ P R) as [-> ->]. exact (gives_not_r _ _ _ G). }
    destruct (C _ H1) as [(n & v & x & P & G & ->)|[(n & x & P & G & ->)|[[R ->]|[Q H]]]], (C _ H2) as [(n' & v' & x' & P' & G' & ->)|[(n' & x' & P' & G' & ->)|[[R' ->]|[Q' H']]]]; try reflexivity.
    + destruct (piece_fun _ _ _ _ _ P P') as [<- <-]. apply gives_iff in G, G'. congruence.
    + exfalso. exact (GT _ _ _ _ _ P G P' G').
    + exfalso. exact (GR _ _ _ P G R').
    + exfalso. apply (proj2 Q' _ _ P). right. eauto.
    + exfalso. exact (GT _ _ _ _ _ P' G' P G).
    + exfalso. apply (proj2 Q' _ _ P). now left.
    + exfalso. exact (GR _ _ _ P' G' R).
    + exfalso. exact (proj1 Q' R).
    + exfalso. apply (proj2 Q _ _ P'). right. eauto.
    + exfalso. apply (proj2 Q _ _ P'). now left.
    + exfalso. exact (proj1 Q R').
    + exact (IH _ _ _ H H').
Qed.
