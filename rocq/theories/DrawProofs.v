From Verif Require Import DrawSpec BaseLemmas.
From Coq Require Import Lia PeanoNat.
Open Scope nat_scope.

(* ---- words ---- *)
Lemma letter_is c : is_letter c = true <-> capital c \/ small c.
Proof. unfold is_letter, capital, small. rewrite Bool.orb_true_iff, !Bool.andb_true_iff, !N.leb_le. lia. Qed.
Lemma capital_down c : capital c -> lower_letter c = (c + 32)%N.
Proof. unfold capital, lower_letter. intros [A B]. apply N.leb_le in A, B. now rewrite A, B. Qed.
Lemma small_down c : small c -> lower_letter c = c.
Proof. unfold small, lower_letter. intros [A B]. assert (K : (c <=? 90)%N = false) by (apply N.leb_gt; lia). rewrite K. now rewrite Bool.andb_false_r. Qed.
Lemma letter_not c : capital c \/ small c -> c <> 92%N /\ is_ws c = false.
Proof.
  intros H. split; [unfold capital, small in H; lia|]. unfold capital, small in H. unfold is_ws.
  repeat match goal with |- context [(?a <=? ?b)%N] => destruct (N.leb_spec a b) | |- context [(?a =? ?b)%N] => destruct (N.eqb_spec a b) end; cbn; try reflexivity; exfalso; lia.
Qed.
Lemma not_backslash c : c <> 92%N -> (c =? 92)%N = false. Proof. apply N.eqb_neq. Qed.
Lemma numeric_letter c : numeric c -> is_letter c = false.
Proof. intros (_ & _ & A & B). destruct (is_letter c) eqn:E; [|reflexivity]. apply letter_is in E. tauto. Qed.
Lemma go_run w : forall cur r ts, Forall numeric w -> tokenize_go (w ++ r) cur ts = tokenize_go r (cur ++ w) ts.
Proof.
  induction w as [|c w IH]; intros cur r ts F; [now rewrite app_nil_r|]. inversion F as [|? ? A F']; subst. cbn [app tokenize_go].
  rewrite (not_backslash c) by apply A. replace (is_ws c) with false by (symmetry; apply A). rewrite (numeric_letter c A), IH by assumption. now rewrite <- app_assoc.
Qed.
Lemma go_break r w ts : w <> [] -> (forall c t, r = c :: t -> ~ numeric c) -> tokenize_go r w ts = tokenize_go r [] (ts ++ [w]).
Proof.
  intros W N. destruct w as [|a w]; [congruence|]. destruct r as [|c r]; [reflexivity|]. specialize (N c r eq_refl). cbn [tokenize_go flush].
  destruct (N.eqb_spec c 92); [reflexivity|]. destruct (is_ws c) eqn:E; [reflexivity|]. destruct (is_letter c) eqn:L; [reflexivity|].
  exfalso. apply N. repeat split; try assumption; intros K; assert (X : is_letter c = true) by (apply letter_is; tauto); congruence.
Qed.
Lemma words_go text l : words text l -> forall ts, tokenize_go text [] ts = ts ++ l.
Proof.
  induction 1 as [|r|c r l B W IH|c r l B W IH|c r l B W IH|w r l NE F NX W IH]; intros ts; cbn [tokenize_go flush].
  - now rewrite app_nil_r.
  - now rewrite app_nil_r.
  - destruct (N.eqb_spec c 92) as [->|K]; [discriminate B|]. rewrite B. apply IH.
  - destruct (letter_not c (or_introl B)) as [K K']. rewrite (not_backslash c K), K'. rewrite (proj2 (letter_is c) (or_introl B)), IH, (capital_down c B). now rewrite <- app_assoc.
  - destruct (letter_not c (or_intror B)) as [K K']. rewrite (not_backslash c K), K'. rewrite (proj2 (letter_is c) (or_intror B)), IH, (small_down c B). now rewrite <- app_assoc.
  - rewrite go_run by assumption. cbn [app]. rewrite go_break by assumption. rewrite IH. now rewrite <- app_assoc.
Qed.
Definition numericb (c : char) : bool := negb (c =? 92)%N && negb (is_ws c) && negb (is_letter c).
Lemma numericb_is c : numericb c = true <-> numeric c.
Proof.
  unfold numericb, numeric. rewrite !Bool.andb_true_iff, !Bool.negb_true_iff, N.eqb_neq. split.
  - intros [[A B] C]. repeat split; try assumption; intros K; assert (X : is_letter c = true) by (apply letter_is; tauto); congruence.
  - intros H. pose proof (numeric_letter c H). unfold numeric in H. tauto.
Qed.
Lemma take_run r : exists w s, r = w ++ s /\ Forall numeric w /\ (forall c t, s = c :: t -> ~ numeric c).
Proof.
  induction r as [|c r (w & s & -> & F & S)]; [exists [], []; repeat split; [constructor|discriminate]|].
  destruct (numericb c) eqn:E.
  - apply numericb_is in E. exists (c :: w), s. repeat split; [now constructor|exact S].
  - exists [], (c :: w ++ s). repeat split; [constructor|]. intros c' t K. injection K as <- <-. intros K. apply numericb_is in K. congruence.
Qed.
Lemma words_some : forall n text, List.length text <= n -> exists l, words text l.
Proof.
  induction n as [|n IH]; intros text L. { destruct text; [exists []; constructor|cbn in L; lia]. }
  destruct text as [|c r]; [exists []; constructor|]. cbn in L. destruct (N.eqb_spec c 92) as [->|NB]; [exists []; constructor|].
  destruct (is_ws c) eqn:WS. { destruct (IH r) as [l W]; [lia|]. exists l. now constructor. }
  destruct (is_letter c) eqn:E. { destruct (IH r) as [l W]; [lia|]. apply letter_is in E. destruct E; [exists ([(c + 32)%N] :: l)|exists ([c] :: l)]; now constructor. }
  destruct (take_run r) as (w & s & -> & F & S). destruct (IH s) as [l W]. { rewrite app_length in L. lia. }
  exists ((c :: w) :: l). change (c :: w ++ s) with ((c :: w) ++ s). constructor; [discriminate| |exact S|exact W]. constructor; [|exact F].
  apply numericb_is. unfold numericb. rewrite WS, E, (not_backslash c NB). reflexivity.
Qed.
Lemma words_are text l : words text l <-> tokenize_drawing_commands text = l.
Proof.
  unfold tokenize_drawing_commands. split; [intros W; apply (words_go text l W [])|]. intros <-. destruct (words_some _ text (Nat.le_refl _)) as [l W].
  rewrite (words_go text l W []). exact W.
Qed.

(* ---- blocks ---- *)
Lemma command_is t : is_command t = true <-> command_word t.
Proof.
  unfold is_command, command_word. rewrite existsb_exists. split.
  - intros (x & I & E). apply str_eqb_eq in E. now subst x.
  - intros I. exists t. split; [exact I|]. apply str_eqb_eq. reflexivity.
Qed.
Lemma command_isnt t : ~ command_word t -> is_command t = false.
Proof. intros H. destruct (is_command t) eqn:E; [|reflexivity]. apply command_is in E. contradiction. Qed.
Lemma letter_no_number t : command_word t -> parse_float f32 t = None.
Proof. intros H. repeat (destruct H as [<-|H]; [reflexivity|]). destruct H. Qed.
Lemma at_offset {A} (pre l : list A) j : nth_error (pre ++ l) (List.length pre + j) = nth_error l j.
Proof. rewrite nth_error_app2 by lia. f_equal. lia. Qed.
Lemma tok_at pre l j : tok (pre ++ l) (List.length pre + j) = need (nth_error l j).
Proof. unfold tok. now rewrite at_offset. Qed.
Lemma tok_here pre t l : tok (pre ++ t :: l) (List.length pre) = Done t.
Proof. replace (List.length pre) with (List.length pre + 0) by lia. now rewrite tok_at. Qed.
Definition num (t : str) : outcome float := match parse_float f32 t with Some x => Yes x | None => No end.
Definition two (a b : str) : outcome point := match num a with No => No | Yes x => match num b with No => No | Yes y => Yes (x, y) end end.
Lemma coord_at pre l j t : nth_error l j = Some t -> coord (pre ++ l) (List.length pre + j) = Done (num t).
Proof. intros H. unfold coord. rewrite tok_at, H. reflexivity. Qed.
Lemma pair_two pre l j a b : nth_error l j = Some a -> nth_error l (j + 1) = Some b -> pair_at (pre ++ l) (List.length pre + j) = Done (two a b).
Proof.
  intros A B. unfold pair_at, two. rewrite (coord_at pre l j a A). cbn [bind]. destruct (num a); [|reflexivity].
  replace (List.length pre + j + 1) with (List.length pre + (j + 1)) by lia. rewrite (coord_at pre l (j + 1) b B). cbn [bind]. destruct (num b); reflexivity.
Qed.
Lemma two_letter a t : command_word t -> two a t = No.
Proof. intros H. unfold two, num. rewrite (letter_no_number t H). now destruct (parse_float f32 a). Qed.
Lemma letter_two a t : command_word t -> two t a = No.
Proof. intros H. unfold two, num. now rewrite (letter_no_number t H). Qed.

Definition starts_block (next : list str) : Prop := match next with [] => True | t :: _ => command_word t end.
Definition plain_args (args : list str) : Prop := Forall (fun t => ~ command_word t) args.
Fixpoint ev2 (args : list str) (n : nat) : outcome (list point * list str) :=
  match args with
  | [] => Yes ([], [])
  | a :: rest =>
    match rest with
    | [] => if n =? 0 then Yes ([], [a]) else No
    | b :: r =>
      match two a b with
      | No => No
      | Yes p => match ev2 r n with Yes (l, e) => Yes (p :: l, e) | No => No end
      end
    end
  end.
Lemma pairs_ev : forall k args, List.length args <= k -> forall f pre next acc, k < f -> plain_args args -> starts_block next ->
  pairs f (pre ++ args ++ next) (List.length pre) acc =
  match ev2 args (List.length next) with No => Done No | Yes (l, e) => Done (Yes (acc ++ l, List.length pre + 2 * List.length l)) end.
Proof.
  induction k as [k IH] using lt_wf_ind. intros args L f pre next acc F A S. destruct f as [|f]; [lia|]. cbn [pairs].
  destruct args as [|a [|b r]].
  - cbn [app ev2 List.length]. rewrite Nat.mul_0_r, Nat.add_0_r, app_nil_r. destruct (_ <? _) eqn:E; [|reflexivity]. apply Nat.ltb_lt in E. rewrite app_length in E.
    destruct next as [|t next]; [cbn in E; lia|]. cbn [starts_block] in S. rewrite tok_here. cbn [bind]. rewrite (proj2 (command_is t) S). reflexivity.
  - cbn [app ev2 List.length]. destruct next as [|t next].
    + cbn [List.length Nat.eqb]. rewrite Nat.mul_0_r, Nat.add_0_r, app_nil_r. rewrite app_length. cbn [List.length]. rewrite Nat.ltb_irrefl. reflexivity.
    + cbn [List.length Nat.eqb]. replace (_ <? _) with true by (symmetry; apply Nat.ltb_lt; rewrite app_length; cbn; lia). rewrite tok_here. cbn [bind].
      inversion A; subst. rewrite command_isnt by assumption. replace (List.length pre) with (List.length pre + 0) by lia. rewrite (pair_two pre (a :: t :: next) 0 a t) by reflexivity. cbn [bind].
      rewrite (two_letter a t S). reflexivity.
  - cbn [app ev2]. replace (_ <? _) with true by (symmetry; apply Nat.ltb_lt; rewrite app_length; cbn; lia). rewrite tok_here. cbn [bind].
    inversion A as [|? ? A1 A']; subst. inversion A' as [|? ? A2 A'']; subst. rewrite command_isnt by assumption.
    pose proof (pair_two pre (a :: b :: r ++ next) 0 a b eq_refl eq_refl) as P. rewrite Nat.add_0_r in P. rewrite P. cbn [bind]. destruct (two a b) as [p|]; [|reflexivity].
    replace (pre ++ a :: b :: r ++ next) with ((pre ++ [a; b]) ++ r ++ next) by (rewrite <- app_assoc; reflexivity).
    replace (List.length pre + 2) with (List.length (pre ++ [a; b])) by (rewrite app_length; reflexivity). cbn [List.length] in L.
    rewrite (IH (List.length r)) by (try assumption; try reflexivity; lia). destruct (ev2 r (List.length next)) as [[l e]|]; [|reflexivity].
    rewrite app_length, <- app_assoc. cbn [List.length app]. match goal with |- Done (Yes (_, ?x)) = Done (Yes (_, ?y)) => replace x with y by lia end. reflexivity.
Qed.
Lemma ev2_shape : forall k args, List.length args <= k -> forall n l e, ev2 args n = Yes (l, e) -> exists whole, args = whole ++ e /\ List.length whole = 2 * List.length l.
Proof.
  induction k as [k IH] using lt_wf_ind. intros args L n l e E. destruct args as [|a [|b r]]; cbn [ev2] in E.
  - injection E as <- <-. exists []. now split.
  - destruct (n =? 0); [|discriminate]. injection E as <- <-. exists []. now split.
  - destruct (two a b) as [p|]; [|discriminate]. destruct (ev2 r n) as [[l' e']|] eqn:R; [|discriminate]. injection E as <- <-. cbn [List.length] in L.
    destruct (IH (List.length r) ltac:(lia) r ltac:(lia) n l' e' R) as (w & -> & W). exists (a :: b :: w). split; [reflexivity|]. cbn [List.length]. lia.
Qed.
Definition three (a b c d e f : str) : outcome (point * point * point) :=
  match two a b with No => No | Yes p => match two c d with No => No | Yes q => match two e f with No => No | Yes r => Yes (p, q, r) end end end.
Fixpoint ev6 (args : list str) (n : nat) : outcome (list (point * point * point) * list str) :=
  match args with
  | a :: b :: c :: d :: e :: f :: r =>
    match three a b c d e f with No => No | Yes p => match ev6 r n with Yes (l, x) => Yes (p :: l, x) | No => No end end
  | [] => Yes ([], [])
  | short => if List.length short + n <? 6 then Yes ([], short) else No
  end.
Definition to_bezier (b : point * point * point) : draw_command := let '(p, q, r) := b in BezierTo p q r.
Lemma three_at pre l a b c d e f acc g ts : ts = pre ++ l -> nth_error l 0 = Some a -> nth_error l 1 = Some b -> nth_error l 2 = Some c -> nth_error l 3 = Some d -> nth_error l 4 = Some e -> nth_error l 5 = Some f -> ~ command_word a ->
  triples (S g) ts (List.length pre) acc = match three a b c d e f with No => Done No | Yes p => triples g ts (List.length pre + 6) (acc ++ [to_bezier p]) end.
Proof.
  intros -> A B C D E F NC. cbn [triples]. assert (L : 5 < List.length l) by (apply nth_error_Some; congruence).
  replace (_ <? _) with true by (symmetry; apply Nat.ltb_lt; rewrite app_length; lia).
  replace (tok (pre ++ l) (List.length pre)) with (Done a : run str) by (symmetry; rewrite <- (Nat.add_0_r (List.length pre)), tok_at, A; reflexivity). cbn [bind].
  rewrite command_isnt by assumption. replace (pair_at (pre ++ l) (List.length pre)) with (Done (two a b) : run (outcome point)) by (symmetry; rewrite <- (Nat.add_0_r (List.length pre)); now apply pair_two). cbn [bind]. unfold three.
  destruct (two a b) as [p|]; [|reflexivity]. rewrite (pair_two pre l 2 c d C D). cbn [bind]. destruct (two c d) as [q|]; [|reflexivity]. rewrite (pair_two pre l 4 e f E F). cbn [bind]. destruct (two e f); reflexivity.
Qed.
Lemma three_letter a b c d e f t : command_word t -> In t [a; b; c; d; e; f] -> three a b c d e f = No.
Proof.
  intros H I. unfold three. destruct (two a b) eqn:AB; [|reflexivity]. destruct (two c d) eqn:CD; [|reflexivity]. destruct (two e f) eqn:EF; [|reflexivity]. exfalso.
  destruct I as [->|[->|[->|[->|[->|[->|[]]]]]]]; rewrite ?(letter_two _ t H), ?(two_letter _ t H) in *; congruence.
Qed.
Lemma short_done f pre l acc : List.length l < 6 -> triples (S f) (pre ++ l) (List.length pre) acc = Done (Yes (acc, List.length pre)).
Proof. intros L. cbn [triples]. replace (_ <? _) with false; [reflexivity|]. symmetry. apply Nat.ltb_ge. rewrite app_length. lia. Qed.
Lemma enough6 {A} (l : list A) : 6 <= List.length l -> exists a b c d e f r, l = a :: b :: c :: d :: e :: f :: r.
Proof. intros L. do 6 (destruct l as [|? l]; [cbn in L; lia|]). do 7 eexists. reflexivity. Qed.
Lemma short_refused short t next f pre acc : 0 < List.length short < 6 -> 6 <= List.length (short ++ t :: next) -> plain_args short -> command_word t -> triples (S f) (pre ++ short ++ t :: next) (List.length pre) acc = Done No.
Proof.
  intros S L A C. destruct (enough6 _ L) as (a & b & c & d & e & f' & r & E). rewrite E.
  assert (NC : ~ command_word a). { destruct short as [|s short]; [cbn in S; lia|]. cbn [app] in E. injection E as -> _. now inversion A. }
  assert (H : a :: b :: c :: d :: e :: [f'] = firstn 6 (short ++ t :: next)) by (rewrite E; reflexivity).
  rewrite (three_at pre (a :: b :: c :: d :: e :: f' :: r) a b c d e f' acc f _ eq_refl) by (try reflexivity; exact NC).
  rewrite (three_letter a b c d e f' t C); [reflexivity|]. rewrite H. rewrite firstn_app. apply in_or_app. right. destruct (6 - List.length short) eqn:K; [lia|]. now left.
Qed.
Lemma triples_ev : forall k args, List.length args <= k -> forall f pre next acc, k < f -> plain_args args -> starts_block next ->
  triples f (pre ++ args ++ next) (List.length pre) acc =
  match ev6 args (List.length next) with No => Done No | Yes (l, e) => Done (Yes (acc ++ map to_bezier l, List.length pre + 6 * List.length l)) end.
Proof.
  induction k as [k IH] using lt_wf_ind. intros args L f pre next acc F A S. destruct f as [|f]; [lia|].
  destruct (Nat.le_gt_cases 6 (List.length args)) as [G|G].
  - destruct (enough6 _ G) as (a & b & c & d & e & g & r & ->). cbn [ev6].
    rewrite (three_at pre ((a :: b :: c :: d :: e :: g :: r) ++ next) a b c d e g acc f _ eq_refl) by (try reflexivity; now inversion A).
    destruct (three a b c d e g) as [p|]; [|reflexivity].
    replace (pre ++ (a :: b :: c :: d :: e :: g :: r) ++ next) with ((pre ++ [a; b; c; d; e; g]) ++ r ++ next) by (rewrite <- app_assoc; reflexivity).
    replace (List.length pre + 6) with (List.length (pre ++ [a; b; c; d; e; g])) by (rewrite app_length; reflexivity). cbn [List.length] in L.
    rewrite (IH (List.length r)); [|lia|reflexivity|lia| |exact S]. 2:{ do 6 (apply Forall_inv_tail in A). exact A. }
    destruct (ev6 r (List.length next)) as [[l x]|]; [|reflexivity]. rewrite app_length, <- app_assoc. cbn [List.length app map]. match goal with |- Done (Yes (_, ?x)) = Done (Yes (_, ?y)) => replace x with y by lia end. reflexivity.
  - assert (E : ev6 args (List.length next) = match args with [] => Yes ([], []) | _ => if List.length args + List.length next <? 6 then Yes ([], args) else No end).
    { do 6 (destruct args as [|? args]; [reflexivity|]). cbn [List.length] in G. lia. }
    rewrite E. destruct args as [|a args].
    + cbn [app map List.length]. rewrite Nat.mul_0_r, Nat.add_0_r, app_nil_r. cbn [triples]. destruct (_ <? _) eqn:B; [|reflexivity]. apply Nat.ltb_lt in B. rewrite app_length in B.
      destruct next as [|t next]; [cbn in B; lia|]. cbn [starts_block] in S. rewrite tok_here. cbn [bind]. rewrite (proj2 (command_is t) S). reflexivity.
    + destruct (_ <? _) eqn:B.
      * apply Nat.ltb_lt in B. rewrite short_done by (rewrite app_length; exact B). cbn [map List.length]. now rewrite Nat.mul_0_r, Nat.add_0_r, app_nil_r.
      * apply Nat.ltb_ge in B. destruct next as [|t next]; [cbn [List.length] in *; lia|]. apply short_refused; try assumption; [cbn [List.length] in *; lia|rewrite app_length; exact B].
Qed.
Lemma ev6_shape : forall k args, List.length args <= k -> forall n l e, ev6 args n = Yes (l, e) -> exists whole, args = whole ++ e /\ List.length whole = 6 * List.length l.
Proof.
  induction k as [k IH] using lt_wf_ind. intros args L n l e E. destruct (Nat.le_gt_cases 6 (List.length args)) as [G|G].
  - destruct (enough6 _ G) as (a & b & c & d & x & g & r & ->). cbn [ev6] in E. destruct (three a b c d x g) as [p|]; [|discriminate]. destruct (ev6 r n) as [[l' e']|] eqn:R; [|discriminate]. injection E as <- <-. cbn [List.length] in L.
    destruct (IH (List.length r) ltac:(lia) r ltac:(lia) n l' e' R) as (w & -> & W). exists (a :: b :: c :: d :: x :: g :: w). split; [reflexivity|]. cbn [List.length]. lia.
  - assert (K : ev6 args n = match args with [] => Yes ([], []) | _ => if List.length args + n <? 6 then Yes ([], args) else No end).
    { do 6 (destruct args as [|? args]; [reflexivity|]). cbn [List.length] in G. lia. }
    rewrite K in E. destruct args as [|a args]; [injection E as <- <-; exists []; now split|]. destruct (_ <? _); [|discriminate]. injection E as <- <-. exists []. now split.
Qed.

(* ---- the loop over blocks ---- *)
Lemma skip_words o cs s : (forall f pre, List.length s + 1 < f -> draw_loop f (pre ++ s) (List.length pre) cs = o) ->
  forall junk, plain_args junk -> forall f pre, List.length junk + List.length s + 1 < f -> draw_loop f (pre ++ junk ++ s) (List.length pre) cs = o.
Proof.
  intros H. induction junk as [|t junk IH]; intros A f pre F; [now apply H|]. cbn [List.length] in F. destruct f as [|f]; [lia|]. inversion A as [|? ? A1 A2]; subst. cbn [app draw_loop].
  replace (_ <? _) with true by (symmetry; apply Nat.ltb_lt; rewrite app_length; cbn; lia). rewrite tok_here. cbn [bind].
  repeat match goal with |- context [str_eqb t ?w] => replace (str_eqb t w) with false; [|symmetry; destruct (str_eqb t w) eqn:E; [|reflexivity]; exfalso; apply A1, command_is; apply str_eqb_eq in E; subst t; reflexivity] end.
  replace (pre ++ t :: junk ++ s) with ((pre ++ [t]) ++ junk ++ s) by (rewrite <- app_assoc; reflexivity). replace (List.length pre + 1) with (List.length (pre ++ [t])) by (rewrite app_length; reflexivity).
  apply IH; [exact A2|lia].
Qed.
Definition evblock (cs : list draw_command) (n : nat) (b : block) : outcome (list draw_command) :=
  let t := b_letter b in
  if str_eqb t (lit "m") then match ev2 (b_args b) n with Yes (p :: ps, _) => Yes (MoveTo p :: map LineTo ps) | _ => No end
  else if str_eqb t (lit "n") then match ev2 (b_args b) n with Yes (ps, _) => if last_is is_nodraw (cs ++ map MoveToNoDraw ps) then Yes (map MoveToNoDraw ps) else No | No => No end
  else if str_eqb t (lit "l") then match ev2 (b_args b) n with Yes (ps, _) => if last_is is_line (cs ++ map LineTo ps) then Yes (map LineTo ps) else No | No => No end
  else if str_eqb t (lit "b") then match ev6 (b_args b) n with Yes (ps, _) => if last_is is_bezier (cs ++ map to_bezier ps) then Yes (map to_bezier ps) else No | No => No end
  else if str_eqb t (lit "s") then match ev2 (b_args b) n with Yes (ps, _) => if 3 <=? List.length ps then Yes [Spline (close_spline ps)] else match ps with [] => Yes [] | _ => No end | No => No end
  else if str_eqb t (lit "p") then match ev2 (b_args b) n with Yes (ps, _) => if 3 <=? List.length ps then Yes [ExtendSpline ps] else match ps with [] => Yes [] | _ => No end | No => No end
  else Yes [ClosePath].
Fixpoint evb (cs : list draw_command) (bs : list block) : outcome (list draw_command) :=
  match bs with [] => Yes cs | b :: r => match evblock cs (List.length (written r)) b with No => No | Yes out => evb (cs ++ out) r end end.
Lemma written_starts bs : Forall block_ok bs -> starts_block (written bs).
Proof. destruct 1 as [|b bs [H _] _]; [exact I|exact H]. Qed.
Lemma past_extra e whole (k : nat) o cs s pre : (forall f pre, List.length s + 1 < f -> draw_loop f (pre ++ s) (List.length pre) cs = o) -> plain_args e -> List.length whole = k ->
  forall f, List.length e + List.length s + 1 < f -> draw_loop f (pre ++ (whole ++ e) ++ s) (List.length pre + k) cs = o.
Proof.
  intros H A L f F. replace (pre ++ (whole ++ e) ++ s) with ((pre ++ whole) ++ e ++ s) by (rewrite <- !app_assoc; reflexivity). replace (List.length pre + k) with (List.length (pre ++ whole)) by (rewrite app_length, L; reflexivity).
  now apply skip_words.
Qed.
Lemma first_two a args next pre : plain_args (a :: args) -> starts_block next -> 
  (if List.length pre + 1 + 1 <? List.length (pre ++ lit "m" :: (a :: args) ++ next) then pair_at (pre ++ lit "m" :: (a :: args) ++ next) (List.length pre + 1) else Done No) =
  Done (match args with b :: _ => two a b | [] => No end).
Proof.
  intros A S. destruct args as [|b args].
  - destruct next as [|t next].
    + replace (_ <? _) with false; [reflexivity|]. symmetry. apply Nat.ltb_ge. rewrite app_length. cbn. lia.
    + replace (_ <? _) with true by (symmetry; apply Nat.ltb_lt; rewrite app_length; cbn; lia). rewrite (pair_two pre _ 1 a t) by reflexivity. now rewrite (two_letter a t S).
  - replace (_ <? _) with true by (symmetry; apply Nat.ltb_lt; rewrite app_length; cbn; lia). now rewrite (pair_two pre _ 1 a b) by reflexivity.
Qed.
Lemma plain_app x y : plain_args (x ++ y) -> plain_args x /\ plain_args y. Proof. apply Forall_app. Qed.
Lemma loop_blocks bs : Forall block_ok bs -> forall cs f pre, List.length (written bs) + 1 < f -> draw_loop f (pre ++ written bs) (List.length pre) cs = Done (evb cs bs).
Proof.
  induction 1 as [|b bs [BL BA] OK IH]; intros cs f pre F. { destruct f as [|f]; [lia|]. cbn [draw_loop written flat_map evb]. rewrite app_nil_r, Nat.ltb_irrefl. reflexivity. }
  destruct b as [t args]. cbn [b_letter b_args] in BL, BA. change (written (Block t args :: bs)) with (t :: args ++ written bs) in *. cbn [List.length] in F. rewrite app_length in F.
  pose proof (written_starts bs OK) as S. set (n := List.length (written bs)) in *.
  cbn [evb]. unfold evblock. fold n. cbn [b_letter b_args].
  destruct f as [|f]; [lia|]. cbn [draw_loop]. replace (List.length pre <? _) with true by (symmetry; apply Nat.ltb_lt; rewrite app_length; cbn; lia). rewrite tok_here. cbn [bind].
  assert (P1 : forall A (g : nat -> list str -> A), g (List.length pre + 1) (pre ++ t :: args ++ written bs) = g (List.length (pre ++ [t])) ((pre ++ [t]) ++ args ++ written bs)).
  { intros A g. f_equal; [rewrite app_length; reflexivity|rewrite <- app_assoc; reflexivity]. }
  assert (PP : pairs f (pre ++ t :: args ++ written bs) (List.length pre + 1) [] = match ev2 args n with No => Done No | Yes (l, e) => Done (Yes (l, List.length (pre ++ [t]) + 2 * List.length l)) end).
  { rewrite (P1 _ (fun i l => pairs f l i [])). rewrite (pairs_ev (List.length args)) by (try assumption; try reflexivity; lia). reflexivity. }
  assert (TT : triples f (pre ++ t :: args ++ written bs) (List.length pre + 1) [] = match ev6 args n with No => Done No | Yes (l, e) => Done (Yes (map to_bezier l, List.length (pre ++ [t]) + 6 * List.length l)) end).
  { rewrite (P1 _ (fun i l => triples f l i [])). rewrite (triples_ev (List.length args)) by (try assumption; try reflexivity; lia). reflexivity. }
  assert (Q : forall l e out, ev2 args n = Yes (l, e) -> draw_loop f (pre ++ t :: args ++ written bs) (List.length (pre ++ [t]) + 2 * List.length l) out = Done (evb out bs)).
  { intros l e out E. destruct (ev2_shape _ args (Nat.le_refl _) n l e E) as (w & -> & W). replace (pre ++ t :: (w ++ e) ++ written bs) with ((pre ++ [t]) ++ (w ++ e) ++ written bs) by (rewrite <- app_assoc; reflexivity).
    apply past_extra; [apply IH|now apply (plain_app w e)|exact W|rewrite app_length in F; fold n; lia]. }
  assert (Q6 : forall l e out, ev6 args n = Yes (l, e) -> draw_loop f (pre ++ t :: args ++ written bs) (List.length (pre ++ [t]) + 6 * List.length l) out = Done (evb out bs)).
  { intros l e out E. destruct (ev6_shape _ args (Nat.le_refl _) n l e E) as (w & -> & W). replace (pre ++ t :: (w ++ e) ++ written bs) with ((pre ++ [t]) ++ (w ++ e) ++ written bs) by (rewrite <- app_assoc; reflexivity).
    apply past_extra; [apply IH|now apply (plain_app w e)|exact W|rewrite app_length in F; fold n; lia]. }
  destruct (str_eqb t (lit "m")) eqn:EM.
  { apply str_eqb_eq in EM. subst t. clear PP TT Q6. destruct args as [|a args].
    - cbn [ev2 app]. destruct (written bs) as [|t next] eqn:W.
      + replace (_ <? _) with false; [reflexivity|]. symmetry. apply Nat.ltb_ge. rewrite app_length. cbn. lia.
      + destruct (_ <? _) eqn:B; [|reflexivity]. apply Nat.ltb_lt in B. rewrite app_length in B. cbn in B. destruct next as [|u next]; [cbn in B; lia|]. rewrite (pair_two pre _ 1 t u) by reflexivity. now rewrite (letter_two u t S).
    - pose proof (first_two a args (written bs) pre BA S) as K. destruct (_ <? _).
      + rewrite K. cbn [bind]. destruct args as [|b args]; [destruct n; reflexivity|]. cbn [ev2]. cbn [ev2] in Q. destruct (two a b) as [p|]; [|reflexivity].
        replace (pairs f (pre ++ lit "m" :: (a :: b :: args) ++ written bs) (List.length pre + 3) []) with (pairs f ((pre ++ [lit "m"; a; b]) ++ args ++ written bs) (List.length (pre ++ [lit "m"; a; b])) []) by (f_equal; [rewrite <- app_assoc; reflexivity|rewrite app_length; reflexivity]).
        cbn [List.length] in F. rewrite (pairs_ev (List.length args)) by (try assumption; try reflexivity; try (do 2 apply Forall_inv_tail in BA; exact BA); lia). fold n.
        destruct (ev2 args n) as [[l e]|] eqn:E; [|reflexivity]. cbn [bind app]. rewrite <- (Q _ _ _ eq_refl). f_equal. rewrite !app_length. cbn [List.length]. lia.
      + destruct args as [|b args]; [destruct n; reflexivity|]. injection K as K. cbn [ev2]. now rewrite <- K. }
  destruct (str_eqb t (lit "n")) eqn:En. { rewrite PP. destruct (ev2 args n) as [[l e]|] eqn:E; [|reflexivity]. cbn [bind]. destruct (last_is _ _); [|reflexivity]. eapply Q. reflexivity. }
  destruct (str_eqb t (lit "l")) eqn:El. { rewrite PP. destruct (ev2 args n) as [[l e]|] eqn:E; [|reflexivity]. cbn [bind]. destruct (last_is _ _); [|reflexivity]. eapply Q. reflexivity. }
  destruct (str_eqb t (lit "b")) eqn:Eb. { rewrite TT. destruct (ev6 args n) as [[l e]|] eqn:E; [|reflexivity]. cbn [bind]. destruct (last_is _ _); [|reflexivity]. eapply Q6. reflexivity. }
  destruct (str_eqb t (lit "s")) eqn:Es. { rewrite PP. destruct (ev2 args n) as [[l e]|] eqn:E; [|reflexivity]. cbn [bind]. destruct (3 <=? _); [eapply Q; reflexivity|]. destruct l; [|reflexivity]. rewrite app_nil_r. eapply (Q []). reflexivity. }
  destruct (str_eqb t (lit "p")) eqn:Ep. { rewrite PP. destruct (ev2 args n) as [[l e]|] eqn:E; [|reflexivity]. cbn [bind]. destruct (3 <=? _); [eapply Q; reflexivity|]. destruct l; [|reflexivity]. rewrite app_nil_r. eapply (Q []). reflexivity. }
  destruct (str_eqb t (lit "c")) eqn:EC.
  - rewrite (P1 _ (fun i l => draw_loop f l i (cs ++ [ClosePath]))). apply skip_words; [apply IH|exact BA|]. fold n. lia.
  - exfalso. destruct BL as [<-|[<-|[<-|[<-|[<-|[<-|[<-|[]]]]]]]]; discriminate.
Qed.

(* ---- what a block gives ---- *)
Lemma num_is_word a x : num a = Yes x <-> number_word a x.
Proof. unfold num, number_word. destruct (parse_float f32 a); split; intros H; inversion H; reflexivity. Qed.
Lemma two_is a b p : two a b = Yes p <-> number_word a (fst p) /\ number_word b (snd p).
Proof.
  rewrite <- !num_is_word. unfold two. destruct (num a) as [x|], (num b) as [y|]; split; intros H; try discriminate; try (destruct H; discriminate).
  - injection H as <-. now split.
  - destruct H as [A B]. injection A as ->. injection B as ->. now destruct p.
Qed.
Lemma three_is a b c d e f g : three a b c d e f = Yes g <-> exists p q r, g = (p, q, r) /\ number_word a (fst p) /\ number_word b (snd p) /\ number_word c (fst q) /\ number_word d (snd q) /\ number_word e (fst r) /\ number_word f (snd r).
Proof.
  unfold three. split.
  - destruct (two a b) as [p|] eqn:P; [|discriminate]. destruct (two c d) as [q|] eqn:Q; [|discriminate]. destruct (two e f) as [r|] eqn:R; [|discriminate]. intros [= <-]. apply two_is in P, Q, R. exists p, q, r. tauto.
  - intros (p & q & r & -> & A & B & C & D & E & F). rewrite (proj2 (two_is a b p)) by tauto. rewrite (proj2 (two_is c d q)) by tauto. rewrite (proj2 (two_is e f r)) by tauto. reflexivity.
Qed.
Lemma groups_ev2 n : forall ps args, (exists e, ev2 args n = Yes (ps, e)) <-> groups 2 args n (coords ps).
Proof.
  induction ps as [|p ps IH]; intros args; split.
  - intros (e & E). destruct args as [|a [|b r]]; cbn [ev2] in E.
    + exists [], []. repeat split; [cbn; lia|now left|constructor|constructor].
    + destruct (n =? 0) eqn:Z; [|discriminate]. apply Nat.eqb_eq in Z. exists [], [a]. repeat split; [cbn; lia|right; cbn; lia|constructor|constructor].
    + destruct (two a b); [|discriminate]. destruct (ev2 r n) as [[? ?]|]; discriminate.
  - intros (w & x & -> & L & X & _ & F). cbn in F. inversion F; subst. cbn [app]. destruct x as [|a [|b x]]; cbn [ev2]; [now exists []| |cbn in L; lia].
    destruct X as [X|X]; [discriminate|]. cbn in X. replace n with 0 by lia. now exists [a].
  - intros (e & E). destruct args as [|a [|b r]]; cbn [ev2] in E; [discriminate|destruct (n =? 0); discriminate|]. destruct (two a b) as [q|] eqn:T; [|discriminate]. destruct (ev2 r n) as [[l e']|] eqn:R; [|discriminate]. injection E as -> -> ->.
    apply two_is in T. destruct (proj1 (IH r) (ex_intro _ _ R)) as (w & x & -> & L & X & G & F). exists (a :: b :: w), x. split; [reflexivity|]. split; [exact L|]. split; [exact X|]. split; [now constructor|]. cbn. constructor; [tauto|]. constructor; [tauto|exact F].
  - intros (w & x & -> & L & X & G & F). cbn in F. inversion F as [|a ? w1 ? A F1]; subst. inversion F1 as [|b ? w2 ? B F2]; subst. inversion G as [|? ? _ G']; subst.
    assert (H : exists e, ev2 (w2 ++ x) n = Yes (ps, e)) by (apply IH; exists w2, x; repeat split; assumption). destruct H as [e H]. exists e. cbn [app ev2]. now rewrite (proj2 (two_is a b p)), H by (split; assumption).
Qed.
Lemma ev6_short args n : List.length args < 6 -> ev6 args n = match args with [] => Yes ([], []) | _ => if List.length args + n <? 6 then Yes ([], args) else No end.
Proof. intros G. do 6 (destruct args as [|? args]; [reflexivity|]). cbn [List.length] in G. lia. Qed.
Lemma groups_ev6 n : forall bs args, (exists e, ev6 args n = Yes (bs, e)) <-> groups 6 args n (hexes bs).
Proof.
  induction bs as [|g bs IH]; intros args; split.
  - intros (e & E). destruct (Nat.le_gt_cases 6 (List.length args)) as [G|G].
    + destruct (enough6 _ G) as (a & b & c & d & x & y & r & ->). cbn [ev6] in E. destruct (three a b c d x y); [|discriminate]. destruct (ev6 r n) as [[? ?]|]; discriminate.
    + rewrite ev6_short in E by exact G. exists [], args. split; [reflexivity|]. split; [exact G|]. split; [|repeat split; constructor]. destruct args as [|a args]; [now left|]. right. destruct (_ <? _) eqn:B; [|discriminate]. now apply Nat.ltb_lt.
  - intros (w & x & -> & L & X & _ & F). cbn in F. inversion F; subst. cbn [app]. rewrite ev6_short by exact L. destruct x as [|a x]; [now exists []|]. destruct X as [X|X]; [discriminate|]. apply Nat.ltb_lt in X. rewrite X. now eexists.
  - intros (e & E). destruct (Nat.le_gt_cases 6 (List.length args)) as [G|G].
    + destruct (enough6 _ G) as (a & b & c & d & x & y & r & ->). cbn [ev6] in E. destruct (three a b c d x y) as [h|] eqn:T; [|discriminate]. destruct (ev6 r n) as [[l e']|] eqn:R; [|discriminate]. injection E as -> -> ->.
      apply three_is in T. destruct T as (p & q & t & -> & T). destruct (proj1 (IH r) (ex_intro _ _ R)) as (w & z & -> & L & X & H & F). exists (a :: b :: c :: d :: x :: y :: w), z. split; [reflexivity|]. split; [exact L|]. split; [exact X|]. split; [now constructor|]. cbn. repeat (constructor; [tauto|]). exact F.
    + rewrite ev6_short in E by exact G. destruct args; [discriminate|]. destruct (_ <? _); discriminate.
  - destruct g as [[p q] t]. intros (w & x & -> & L & X & G & F). cbn in F.
    do 6 match goal with H : Forall2 number_word _ (_ :: _) |- _ => inversion H; subst; clear H end. inversion G as [|? ? _ G']; subst.
    match goal with H : Forall2 number_word ?w2 _ |- _ => assert (K : exists e, ev6 (w2 ++ x) n = Yes (bs, e)) by (apply IH; exists w2, x; repeat split; assumption) end.
    destruct K as [e K]. exists e. cbn [app ev6]. erewrite (proj2 (three_is _ _ _ _ _ _ (p, q, t))), K; [reflexivity|]. exists p, q, t. repeat split; assumption.
Qed.
Lemma last_ends f (P : draw_command -> Prop) cs : (forall c, f c = true <-> P c) -> last_is f cs = true <-> ends_with P cs.
Proof.
  intros H. unfold last_is, ends_with. destruct cs as [|c cs _] using rev_ind; [split; [discriminate|intros (a & c & E & _); destruct a; discriminate]|].
  rewrite rev_app_distr. cbn [rev app]. rewrite H. split; [intros K; now exists cs, c|]. intros (a & d & E & K). apply app_inj_tail in E as [_ <-]. exact K.
Qed.
Lemma last_map {A} (k : A -> draw_command) f (P : draw_command -> Prop) cs ps : (forall c, f c = true <-> P c) -> (forall a, P (k a)) -> last_is f (cs ++ map k ps) = true <-> ps <> [] \/ ends_with P cs.
Proof.
  intros H K. destruct ps as [|p ps _] using rev_ind.
  - cbn [map]. rewrite app_nil_r, (last_ends f P cs H). split; [now right|]. intros [[]|]; [reflexivity|assumption].
  - rewrite (last_ends f P _ H). split; [left; now destruct ps|]. intros _. exists (cs ++ map k ps), (k p). split; [|apply K]. rewrite map_app, app_assoc. reflexivity.
Qed.
Lemma nodraw_is c : is_nodraw c = true <-> exists p, c = MoveToNoDraw p. Proof. destruct c; split; intros H; try discriminate; try (destruct H; discriminate); [now eexists|reflexivity]. Qed.
Lemma line_is c : is_line c = true <-> exists p, c = LineTo p. Proof. destruct c; split; intros H; try discriminate; try (destruct H; discriminate); [now eexists|reflexivity]. Qed.
Lemma bezier_is c : is_bezier c = true <-> exists p q r, c = BezierTo p q r. Proof. destruct c; split; intros H; try discriminate; try (destruct H as (? & ? & ? & ?); discriminate); [now do 3 eexists|reflexivity]. Qed.
Lemma three_points (ps : list point) : 3 <= List.length ps -> exists p mid q, ps = p :: mid ++ [q] /\ mid <> [].
Proof.
  intros L. destruct ps as [|p ps]; [cbn in L; lia|]. destruct ps as [|q mid _] using rev_ind; [cbn in L; lia|]. exists p, mid, q. split; [reflexivity|]. intros ->. cbn in L. lia.
Qed.
Lemma apartb p mid q : close_spline (p :: mid ++ [q]) = (if f_lt hundredth (f_abs (CollideModel.sub32 (fst p) (fst q))) || f_lt hundredth (f_abs (CollideModel.sub32 (snd p) (snd q))) then p :: mid ++ [q; p] else p :: mid ++ [q])%bool.
Proof. unfold close_spline. cbn [rev]. rewrite rev_app_distr. cbn [rev app]. destruct (_ || _)%bool; [|reflexivity]. cbn [app]. now rewrite <- app_assoc. Qed.
Lemma close_apart p mid q : apart p q -> close_spline (p :: mid ++ [q]) = p :: mid ++ [q; p].
Proof. intros A. rewrite apartb. unfold CollideModel.sub32. destruct A as [A|A]; rewrite A; [reflexivity|]. now rewrite Bool.orb_true_r. Qed.
Lemma close_near p mid q : ~ apart p q -> close_spline (p :: mid ++ [q]) = p :: mid ++ [q].
Proof. intros A. rewrite apartb. unfold CollideModel.sub32. destruct (f_lt _ _) eqn:E; [exfalso; apply A; now left|]. destruct (f_lt hundredth (f_abs (f_sub f32 (snd p) _))) eqn:E'; [exfalso; apply A; now right|reflexivity]. Qed.
Lemma apart_dec p q : apart p q \/ ~ apart p q.
Proof. unfold apart. destruct (f_lt _ _); [tauto|]. destruct (f_lt _ _); [tauto|]. right. intros [K|K]; discriminate. Qed.
Lemma len3 (p q : point) mid : mid <> [] -> (3 <=? List.length (p :: mid ++ [q])) = true.
Proof. intros N. apply Nat.leb_le. cbn [List.length]. rewrite app_length. destruct mid; [congruence|]. cbn. lia. Qed.
Lemma evblock_is cs n b out : command_word (b_letter b) -> evblock cs n b = Yes out <-> block_gives cs n b out.
Proof.
  intros C. split.
  - destruct b as [t args]. cbn [b_letter] in C. unfold evblock. cbn [b_letter b_args].
    destruct C as [<-|[<-|[<-|[<-|[<-|[<-|[<-|[]]]]]]]]; repeat match goal with |- context [str_eqb ?a ?b] => change (str_eqb a b) with true || change (str_eqb a b) with false end; cbn match.
    + destruct (ev2 args n) as [[[|p ps] e]|] eqn:E; [discriminate| |discriminate]. intros [= <-]. apply gives_move. apply groups_ev2. now exists e.
    + destruct (ev2 args n) as [[ps e]|] eqn:E; [|discriminate]. destruct (last_is _ _) eqn:L; [|discriminate]. intros [= <-]. apply gives_nodraw; [apply groups_ev2; now exists e|]. apply (last_map MoveToNoDraw is_nodraw _ cs ps nodraw_is) in L; [exact L|]. intros a. now exists a.
    + destruct (ev2 args n) as [[ps e]|] eqn:E; [|discriminate]. destruct (last_is _ _) eqn:L; [|discriminate]. intros [= <-]. apply gives_line; [apply groups_ev2; now exists e|]. apply (last_map LineTo is_line _ cs ps line_is) in L; [exact L|]. intros a. now exists a.
    + destruct (ev6 args n) as [[ps e]|] eqn:E; [|discriminate]. destruct (last_is _ _) eqn:L; [|discriminate]. intros [= <-]. apply gives_bezier; [apply groups_ev6; now exists e|]. apply (last_map to_bezier is_bezier _ cs ps bezier_is) in L; [exact L|]. intros [[a b] c]. now exists a, b, c.
    + destruct (ev2 args n) as [[ps e]|] eqn:E; [|discriminate]. destruct (3 <=? _) eqn:L.
      * apply Nat.leb_le in L. destruct (three_points ps L) as (p & mid & q & -> & M). assert (G : groups 2 args n (coords (p :: mid ++ [q]))) by (apply groups_ev2; now exists e).
        destruct (apart_dec p q) as [A|A]; [rewrite (close_apart p mid q A)|rewrite (close_near p mid q A)]; intros [= <-]; [now apply gives_spline_open|now apply gives_spline_shut].
      * destruct ps; [|discriminate]. intros [= <-]. apply gives_nothing; [now left|]. apply (groups_ev2 n []). now exists e.
    + destruct (ev2 args n) as [[ps e]|] eqn:E; [|discriminate]. destruct (3 <=? _) eqn:L.
      * apply Nat.leb_le in L. intros [= <-]. apply gives_extend; [apply groups_ev2; now exists e|exact L].
      * destruct ps; [|discriminate]. intros [= <-]. apply gives_nothing; [now right|]. apply (groups_ev2 n []). now exists e.
    + intros [= <-]. apply gives_close.
  - intros H. unfold evblock.
    destruct H as [args p ps G|args ps G L|args ps G L|args bs G L|args p mid q G M A|args p mid q G M A|args ps G L|l args LL G|args]; cbn [b_letter b_args];
      try (destruct LL as [->| ->]); repeat match goal with |- context [str_eqb ?a ?b] => change (str_eqb a b) with true || change (str_eqb a b) with false end; cbn match.
    + apply groups_ev2 in G. destruct G as [e ->]. reflexivity.
    + apply groups_ev2 in G. destruct G as [e ->]. now rewrite (proj2 (last_map MoveToNoDraw is_nodraw _ cs ps nodraw_is (fun a => ex_intro _ a eq_refl)) L).
    + apply groups_ev2 in G. destruct G as [e ->]. now rewrite (proj2 (last_map LineTo is_line _ cs ps line_is (fun a => ex_intro _ a eq_refl)) L).
    + apply groups_ev6 in G. destruct G as [e ->]. rewrite (proj2 (last_map to_bezier is_bezier _ cs bs bezier_is (fun a => match a with (p, q, r) => ex_intro _ p (ex_intro _ q (ex_intro _ r eq_refl)) end)) L). reflexivity.
    + apply groups_ev2 in G. destruct G as [e ->]. rewrite (len3 p q mid M), (close_apart p mid q A). reflexivity.
    + apply groups_ev2 in G. destruct G as [e ->]. rewrite (len3 p q mid M), (close_near p mid q A). reflexivity.
    + apply groups_ev2 in G. destruct G as [e ->]. apply Nat.leb_le in L. now rewrite L.
    + apply (groups_ev2 n []) in G. destruct G as [e ->]. reflexivity.
    + apply (groups_ev2 n []) in G. destruct G as [e ->]. reflexivity.
    + reflexivity.
Qed.
Lemma evb_is bs : Forall block_ok bs -> forall cs out, evb cs bs = Yes out <-> blocks_give cs bs out.
Proof.
  induction 1 as [|b bs [B _] OK IH]; intros cs out; cbn [evb].
  - split; [intros [= <-]; constructor|]. intros H. now inversion H.
  - destruct (evblock _ _ b) as [o|] eqn:E.
    + rewrite IH. split.
      * intros H. econstructor; [apply (evblock_is cs _ b o B); exact E|exact H].
      * intros H. inversion H as [|? ? ? o' ? H1 H2]; subst. apply (evblock_is cs _ b o' B) in H1. rewrite E in H1. injection H1 as <-. exact H2.
    + split; [discriminate|]. intros H. inversion H as [|? ? ? o' ? H1 H2]; subst. apply (evblock_is cs _ b o' B) in H1. congruence.
Qed.
Lemma split_blocks ts : exists pre bs, ts = pre ++ written bs /\ plain_args pre /\ Forall block_ok bs.
Proof.
  induction ts as [|t ts (pre & bs & -> & A & O)]; [exists [], []; repeat split; constructor|]. destruct (is_command t) eqn:E.
  - apply command_is in E. exists [], (Block t pre :: bs). repeat split; [constructor|]. constructor; [now split|exact O].
  - exists (t :: pre), bs. repeat split; [|exact O]. constructor; [|exact A]. intros K. apply command_is in K. congruence.
Qed.
Lemma parse_blocks text pre bs : words text (pre ++ written bs) -> plain_args pre -> Forall block_ok bs -> parse_draw_commands text = Done (evb [] bs).
Proof.
  intros W A O. apply words_are in W. unfold parse_draw_commands. rewrite W. refine (skip_words _ [] (written bs) _ pre A _ [] _); [|rewrite app_length; lia]. intros f p F. now apply loop_blocks.
Qed.
Lemma parse_total text : exists o, parse_draw_commands text = Done o.
Proof.
  destruct (split_blocks (tokenize_drawing_commands text)) as (pre & bs & E & A & O). eexists. eapply parse_blocks; [|exact A|exact O]. now apply words_are.
Qed.
Lemma parse_is text cs : parse_draw_commands text = Done (Yes cs) <-> drawing text cs.
Proof.
  split.
  - intros P. destruct (split_blocks (tokenize_drawing_commands text)) as (pre & bs & E & A & O). apply words_are in E. rewrite (parse_blocks text pre bs E A O) in P. injection P as P. exists pre, bs. repeat split; try assumption. now apply evb_is.
  - intros (pre & bs & W & A & O & G). rewrite (parse_blocks text pre bs W A O). now rewrite (proj2 (evb_is bs O [] cs) G).
Qed.
