From Verif Require Import HandlerModel HandlerSpec BaseLemmas NumProofs FloatProps ParseModel.
From Verif Require TagModel.
Local Open Scope nat_scope.

(* ---- white space ---- *)
Lemma ws_forall a : Forall (fun x => is_ws x = true) a <-> forallb is_ws a = true.
Proof. rewrite forallb_forall, Forall_forall. reflexivity. Qed.
Lemma tight_trimmed c : tight c -> trimmed c.
Proof.
  intros [H L]. unfold trimmed, trim, trim_start. rewrite drop_while_id; [|destruct c; [exact I|exact (H _ _ eq_refl)]].
  unfold trim_end. apply drop_end_id. destruct c as [|x c _] using rev_ind; [now left|]. right. exists c, x. split; [reflexivity|exact (L _ _ eq_refl)].
Qed.
Lemma trim_tight s : tight (trim s).
Proof.
  split; intros x r E.
  - unfold trim in E. pose proof (trim_end_start_head (trim_start s)) as H. rewrite E in H.
    destruct (drop_while_spec is_ws s) as (a & _ & _ & K). unfold trim_start in *. destruct (drop_while is_ws s); [contradiction|congruence].
  - destruct (drop_end_spec is_ws (trim_start s)) as (b & _ & _ & H). unfold trim, trim_end in E.
    destruct H as [H|(l & c & H & K)]; rewrite H in E; [destruct r; discriminate|]. apply app_inj_tail in E as [_ <-]. exact K.
Qed.
Lemma padded_iff P s : padded P s <-> P (trim s).
Proof.
  split.
  - intros (a & c & b & -> & A & B & T & H). rewrite trim_app_ws; [exact H|now apply ws_forall|now apply ws_forall|now apply tight_trimmed].
  - intros H. destruct (trim_spec s) as (a & b & E & A & B). exists a, (trim s), b. repeat split; try exact E; try (now apply ws_forall); try exact H; apply (trim_tight s).
Qed.
Lemma is_nil_iff {A} (l : list A) : is_nil l = true <-> l = [].
Proof. destruct l; cbn; split; congruence. Qed.
Lemma one_of_iff l s : one_of l s = true <-> word_of l s.
Proof. unfold one_of, word_of. rewrite existsb_exists. split; intros (w & I & E); exists w; (split; [exact I|]); now apply str_eqb_eq. Qed.

(* ---- numbers ---- *)
Lemma digit_iff c : is_digit c = true <-> decimal_digit c.
Proof. unfold is_digit, decimal_digit. rewrite andb_true_iff, !N.leb_le. reflexivity. Qed.
Lemma digits_iff s : forallb is_digit s = true <-> Forall decimal_digit s.
Proof. rewrite forallb_forall, Forall_forall. split; intros H x I; apply digit_iff; exact (H x I). Qed.
Lemma digits_blen s : Forall decimal_digit s -> blen s = List.length s.
Proof. intros H. apply blen_ascii. eapply Forall_impl; [|exact H]. intros c K. unfold decimal_digit in K. lia. Qed.

(* after a decimal point: digits only *)
Lemma numeric_after len st : forall r i, numeric_loop len st i r true = true <-> Forall decimal_digit r.
Proof.
  induction r as [|c r IH]; intros i; cbn [numeric_loop]; [split; constructor|].
  destruct (is_digit c) eqn:D.
  - rewrite IH. apply digit_iff in D. split; [now constructor|]. intros H. now inversion H.
  - assert (ND : ~ decimal_digit c) by (intros K; apply digit_iff in K; congruence).
    destruct (c =? 46)%N; cbn [orb]; (split; [discriminate|]; intros H; inversion H; contradiction).
Qed.
(* before it: k digits have been read *)
Lemma numeric_before len st : forall r i, numeric_loop len st i r false = true <->
  Forall decimal_digit r \/ exists a f, r = a ++ [46%N] ++ f /\ Forall decimal_digit (a ++ f) /\ i + List.length a <> st /\ i + List.length a <> len - 1.
Proof.
  induction r as [|c r IH]; intros i; cbn [numeric_loop].
  - split; [intros _; left; constructor|reflexivity].
  - destruct (is_digit c) eqn:D.
    + apply digit_iff in D. rewrite IH. split.
      * intros [H|(a & f & -> & H & A & B)]; [left; now constructor|]. right. exists (c :: a), f. cbn [app List.length]. repeat split; [now constructor|lia|lia].
      * intros [H|(a & f & E & H & A & B)]; [left; now inversion H|]. destruct a as [|x a].
        -- cbn [app] in E. injection E as -> _. unfold decimal_digit in D. lia.
        -- cbn [app] in E. injection E as <- ->. right. exists a, f. cbn [app List.length] in *. inversion H. repeat split; [assumption|lia|lia].
    + assert (ND : ~ decimal_digit c) by (intros K; apply digit_iff in K; congruence).
      destruct (N.eqb_spec c 46) as [->|NE]; cbn [orb].
      * destruct (Nat.eqb_spec i st) as [E|E]; cbn [orb].
        { split; [discriminate|]. intros [H|(a & f & Q & H & A & B)]; [inversion H; contradiction|]. destruct a as [|x a]; [cbn in A; lia|].
          cbn [app] in Q. injection Q as <- _. inversion H. contradiction. }
        destruct (Nat.eqb_spec i (len - 1)) as [F|F].
        { split; [discriminate|]. intros [H|(a & f & Q & H & A & B)]; [inversion H; contradiction|]. destruct a as [|x a]; [cbn in B; lia|].
          cbn [app] in Q. injection Q as <- _. inversion H. contradiction. }
        rewrite numeric_after. split.
        -- intros H. right. exists [], r. cbn [app List.length]. repeat split; [exact H|lia|lia].
        -- intros [H|(a & f & Q & H & A & B)]; [inversion H; contradiction|]. destruct a as [|x a]; cbn [app] in Q.
           ++ injection Q as ->. exact H.
           ++ injection Q as <- _. cbn [app] in H. inversion H. contradiction.
      * split; [discriminate|]. intros [H|(a & f & Q & H & A & B)]; [inversion H; contradiction|]. destruct a as [|x a]; cbn [app] in Q; injection Q as Q1 Q2; [congruence|].
        subst x. cbn [app] in H. inversion H. contradiction.
Qed.
(* the loop over what follows the sign *)
Lemma numeric_body sg r : blen sg = List.length sg -> r <> [] -> numeric_loop (blen (sg ++ r)) (List.length sg) (List.length sg) r false = true <->
  exists i f, i <> [] /\ Forall decimal_digit (i ++ f) /\ (r = i /\ f = [] \/ r = i ++ [46%N] ++ f /\ f <> []).
Proof.
  intros SG NE. rewrite numeric_before, blen_app, SG. split.
  - intros [H|(a & f & -> & H & A & B)].
    + exists r, []. rewrite app_nil_r. split; [exact NE|]. split; [exact H|]. now left.
    + exists a, f. split; [intros ->; cbn in A; lia|]. split; [exact H|]. right. split; [reflexivity|]. intros ->. rewrite app_nil_r in *.
      rewrite blen_app, (digits_blen a H) in B. cbn [blen] in B. change (len_utf8 46) with 1 in B. lia.
  - intros (i & f & I & H & [[-> ->]|[-> F]]); [rewrite app_nil_r in H; now left|]. right. exists i, f. split; [reflexivity|]. split; [exact H|].
    apply Forall_app in H as [Hi Hf]. rewrite !blen_app, (digits_blen i Hi), (digits_blen f Hf). cbn [blen]. change (len_utf8 46) with 1.
    destruct i; [congruence|]. destruct f; [congruence|]. cbn [List.length]. split; lia.
Qed.
Lemma sign_cases sg neg : sign_of sg neg <-> (sg = [] /\ neg = false) \/ (sg = [43%N] /\ neg = false) \/ (sg = [45%N] /\ neg = true).
Proof. split; [intros H; inversion H; subst; tauto|]. intros [[-> ->]|[[-> ->]|[-> ->]]]; constructor. Qed.
Lemma is_numeric_iff s : is_numeric s = true <-> coordinate s.
Proof.
  unfold coordinate. destruct s as [|c r].
  { split; [discriminate|]. intros (sg & neg & i & f & _ & I & _ & [[E _]|[E _]]); symmetry in E; apply app_eq_nil in E as [_ E]; [congruence|]. apply app_eq_nil in E as [E _]. congruence. }
  unfold is_numeric. destruct ((c =? 45) || (c =? 43))%N eqn:SG.
  - assert (L1 : len_utf8 c = 1) by (apply orb_true_iff in SG as [E|E]; apply N.eqb_eq in E; subst; reflexivity).
    destruct r as [|d r].
    { cbn [blen]. rewrite L1. cbn. split; [discriminate|]. intros (sg & neg & i & f & S0 & I & D & E). exfalso.
      assert (ND : ~ decimal_digit c) by (unfold decimal_digit; apply orb_true_iff in SG as [Q|Q]; apply N.eqb_eq in Q; lia).
      destruct i as [|x i]; [congruence|]. cbn [app] in D. inversion D. subst.
      destruct sg as [|y sg]; destruct E as [[E _]|[E _]]; cbn [app] in E; injection E as E1 E2; [subst; contradiction|subst; contradiction| |]; destruct sg; discriminate. }
    replace (blen (c :: d :: r) =? 1) with false by (symmetry; apply Nat.eqb_neq; cbn [blen]; pose proof (len_utf8_pos d); lia).
    cbn [andb skipn]. change (blen (c :: d :: r)) with (blen ([c] ++ d :: r)).
    rewrite (numeric_body [c] (d :: r)); [|cbn [blen List.length]; lia|discriminate]. split.
    + intros (i & f & I & D & E). exists [c], (c =? 45)%N, i, f. split; [|split; [exact I|split; [exact D|]]].
      * apply sign_cases. apply orb_true_iff in SG as [Q|Q]; apply N.eqb_eq in Q; subst c; [right; right; now split|right; left; now split].
      * destruct E as [[-> ->]|[-> F]]; [left|right]; now split.
    + intros (sg & neg & i & f & S0 & I & D & E). exists i, f. split; [exact I|split; [exact D|]].
      assert (ND : ~ decimal_digit c) by (unfold decimal_digit; apply orb_true_iff in SG as [Q|Q]; apply N.eqb_eq in Q; lia).
      destruct i as [|x i]; [congruence|]. cbn [app] in D. inversion D. subst.
      apply sign_cases in S0 as [[-> _]|[[-> _]|[-> _]]]; destruct E as [[E F]|[E F]]; cbn [app] in E; injection E as E1 E2; subst; try contradiction; [left|right|left|right]; now split.
  - cbn [andb skipn]. rewrite (numeric_body [] (c :: r) eq_refl); [|discriminate]. split.
    + intros (i & f & I & D & E). exists [], false, i, f. split; [constructor|]. split; [exact I|split; [exact D|exact E]].
    + intros (sg & neg & i & f & S0 & I & D & E). exists i, f. split; [exact I|split; [exact D|]]. apply orb_false_iff in SG as [A B]. apply N.eqb_neq in A, B.
      apply sign_cases in S0 as [[-> _]|[[-> _]|[-> _]]]; [exact E| |]; destruct E as [[E F]|[E F]]; cbn [app] in E; injection E as E1 E2; congruence.
Qed.
Lemma u32_iff s : is_some (parse_u32 s) = true <-> u32_text s.
Proof.
  unfold u32_text, count_up_to. split.
  - destruct (parse_u32 s) as [v|] eqn:E; [|discriminate]. intros _. apply parse_u32_spec in E. now exists v.
  - intros (v & H). apply parse_u32_spec in H. now rewrite H.
Qed.
Lemma alpha_iff s : alpha_ok s = true <-> count_up_to 255 s.
Proof.
  unfold alpha_ok, count_up_to. split.
  - destruct (parse_u32 s) as [v|] eqn:E; [|discriminate]. intros H. apply N.leb_le in H. apply parse_u32_spec in E as [E _]. now exists v.
  - intros (v & H & L). assert (E : parse_u32 s = Some v) by (apply parse_u32_spec; split; [exact H|unfold u32_max; lia]). rewrite E. now apply N.leb_le.
Qed.
Lemma weight_iff v : weight_ok v = true <-> In v [100; 200; 300; 400; 500; 600; 700; 800; 900]%N.
Proof.
  unfold weight_ok. rewrite !andb_true_iff, !N.leb_le, N.eqb_eq. split.
  - intros [[A B] C]. pose proof (N.div_mod v 100 ltac:(lia)) as D. rewrite C in D. cbn [In]. assert (v / 100 <= 9)%N by (apply N.div_le_upper_bound; lia).
    assert (1 <= v / 100)%N by (apply N.div_le_lower_bound; lia). lia.
  - cbn [In]. intros H. repeat (destruct H as [<-|H]; [vm_compute; repeat split; discriminate|]). destruct H.
Qed.
Lemma zeros_value d : Forall decimal_digit d -> dec_value d = 0%N <-> Forall (eq 48%N) d.
Proof.
  intros D. unfold dec_value. change (fold_left (fun a c => (10 * a + (c - 48))%N) d 0%N) with (dec_from 0 d).
  induction D as [|c d Hc D IH]; [split; [constructor|reflexivity]|].
  unfold dec_from. cbn [fold_left]. fold (dec_from (10 * 0 + (c - 48)) d). unfold decimal_digit in Hc. split.
  - intros H. pose proof (dec_from_ge (10 * 0 + (c - 48)) d). assert (c = 48%N) as -> by lia. constructor; [reflexivity|]. apply IH. exact H.
  - intros H. inversion H. subst. change (10 * 0 + (48 - 48))%N with 0%N. now apply IH.
Qed.
Lemma i32_unsigned s : (forall r, s <> 45%N :: r) -> TagModel.parse_i32 s = option_map Z.of_N (parse_uint 2147483647 10 s).
Proof.
  intros H. destruct s as [|c [|d r]]; [reflexivity| |]; cbn [TagModel.parse_i32 parse_uint].
  - now destruct ((c =? 43) || (c =? 45))%N.
  - destruct (N.eqb_spec c 45) as [->|NE]; [exfalso; exact (H _ eq_refl)|]. now destruct (c =? 43)%N.
Qed.
Lemma time_iff s : time_ok s = true <-> time_text s.
Proof.
  unfold time_ok, time_text, count_up_to. destruct s as [|c r] eqn:ES.
  { split; [discriminate|]. intros [(v & (d & [E|E] & NE & _) & _)|(d & E & _)]; congruence. }
  destruct (N.eqb_spec c 45) as [->|NE].
  - assert (NN : forall v, ~ numeral (45%N :: r) v) by (intros v (d & [E|E] & _ & D & _); [subst d; cbn in D; discriminate|discriminate]).
    destruct r as [|d r].
    + split; [discriminate|]. intros [(v & H & _)|(d & E & N & _)]; [exfalso; exact (NN _ H)|congruence].
    + cbn [TagModel.parse_i32]. change (45 =? 45)%N with true. cbv iota.
      destruct (digits_val 2147483648 10 0 (d :: r)) as [v|] eqn:E; cbn [option_map].
      * apply digits_val_dec in E as (D & V & _); [|lia]. apply digits_iff in D. rewrite Z.leb_le. split.
        -- intros H. right. exists (d :: r). split; [reflexivity|]. split; [discriminate|]. apply zeros_value; [exact D|]. unfold dec_value. unfold dec_from in V. lia.
        -- intros [(w & H & _)|(x & Q & _ & Z0)]; [exfalso; exact (NN _ H)|]. injection Q as <-. apply zeros_value in Z0; [|exact D]. unfold dec_value in Z0. unfold dec_from in V. lia.
      * split; [discriminate|]. intros [(w & H & _)|(x & Q & _ & Z0)]; [exfalso; exact (NN _ H)|]. injection Q as <-. exfalso.
        assert (D : Forall decimal_digit (d :: r)) by (eapply Forall_impl; [|exact Z0]; intros y <-; unfold decimal_digit; lia).
        assert (K : digits_val 2147483648 10 0 (d :: r) = Some 0%N) by (apply digits_val_dec; [lia|]; split; [now apply digits_iff|]; split; [now apply zeros_value|lia]). congruence.
  - rewrite i32_unsigned by (intros x Q; congruence). split.
    + destruct (parse_uint 2147483647 10 (c :: r)) as [v|] eqn:E; [|discriminate]. intros _. apply parse_uint_dec in E. left. now exists v.
    + intros [(v & H)|(d & Q & _)]; [|congruence]. apply parse_uint_dec in H. rewrite H. cbn [option_map]. apply Z.leb_le. lia.
Qed.
Lemma valid32 : valid_format f32.
Proof. exact (proj1 formats_valid). Qed.
Lemma size_iff s : match parse_float f32 s with Some x => f_lt (Fin 0) x | None => false end = true <-> size_text s.
Proof.
  unfold size_text. split.
  - destruct (parse_float f32 s) as [x|] eqn:E; [|discriminate]. apply (number_read_exactly f32 s x valid32) in E. intros H. exists x. split; [exact E|].
    unfold f_lt in H. apply andb_true_iff in H as [H1 H2]. apply negb_true_iff in H2.
    destruct x as [|[|]|q]; cbn [f_le] in H1, H2; try discriminate; [now left|]. right. exists q. split; [reflexivity|].
    apply Qnot_le_lt. intros K. apply Qle_bool_iff in K. congruence.
  - intros (x & E & H). apply (number_read_exactly f32 s x valid32) in E. rewrite E. destruct H as [->|(q & -> & H)]; [reflexivity|].
    unfold f_lt, f_le. apply andb_true_iff. split; [apply Qle_bool_iff, Qlt_le_weak; exact H|]. apply negb_true_iff. destruct (Qle_bool q 0) eqn:K; [|reflexivity].
    apply Qle_bool_iff in K. exfalso. exact (Qlt_not_le _ _ H K).
Qed.
Lemma width_iff s : match parse_float f32 s with Some x => f_le (Fin 0) x | None => false end = true <-> width_text s.
Proof.
  unfold width_text. split.
  - destruct (parse_float f32 s) as [x|] eqn:E; [|discriminate]. apply (number_read_exactly f32 s x valid32) in E. intros H. exists x. split; [exact E|].
    destruct x as [|[|]|q]; cbn [f_le] in H; try discriminate; [now left|]. right. exists q. split; [reflexivity|]. now apply Qle_bool_iff.
  - intros (x & E & H). apply (number_read_exactly f32 s x valid32) in E. rewrite E. destruct H as [->|(q & -> & H)]; [reflexivity|]. now apply Qle_bool_iff.
Qed.

(* ---- lists ---- *)
Definition comma_free (P : str -> Prop) : Prop := forall s, P s -> ~ In 44%N s.
Lemma comma_iff c : is_comma c = true <-> c = 44%N.
Proof. unfold is_comma. apply N.eqb_eq. Qed.
Lemma free_forallb w : ~ In 44%N w -> forallb (fun c => negb (is_comma c)) w = true.
Proof. intros H. apply forallb_forall. intros x I. apply negb_true_iff. destruct (is_comma x) eqn:E; [|reflexivity]. apply comma_iff in E. now subst. Qed.
Lemma padded_free P w : comma_free P -> padded P w -> ~ In 44%N w.
Proof.
  intros F (a & c & b & -> & A & B & _ & H) I. rewrite Forall_forall in A, B. apply in_app_or in I as [I|I]; [apply A in I; discriminate|].
  apply in_app_or in I as [I|I]; [exact (F _ H I)|apply B in I; discriminate].
Qed.
Lemma comma_list_iff Ps s : Ps <> [] -> Forall comma_free Ps -> comma_list Ps s <-> Forall2 (fun P w => P w) Ps (comma_parts s).
Proof.
  intros NE F. unfold comma_list, comma_parts. split.
  - intros (ws & -> & H).
    assert (FR : Forall (fun w => forallb (fun c => negb (is_comma c)) w = true) ws).
    { clear NE. induction H as [|P w Ps ws HP H IH]; [constructor|]. inversion F. subst. constructor; [apply free_forallb; eapply padded_free; eassumption|now apply IH]. }
    rewrite (split_on_join is_comma 44%N ws eq_refl); [|intros ->; inversion H; subst; congruence|exact FR].
    clear NE F FR. induction H as [|P w Ps ws HP H IH]; [constructor|]. cbn [map]. constructor; [now apply padded_iff|exact IH].
  - intros H. exists (split_on is_comma s). split; [symmetry; apply join_split_on; apply comma_iff|]. clear NE F. revert H. generalize (split_on is_comma s). induction Ps as [|P Ps IH]; intros l H; destruct l as [|w l]; inversion H; subst; constructor; [now apply padded_iff|now apply IH].
Qed.
Lemma all_repeat (f : str -> bool) P n l : (forall s, f s = true <-> P s) -> (List.length l =? n) && forallb f l = true <-> Forall2 (fun (Q : str -> Prop) w => Q w) (repeat P n) l.
Proof.
  intros H. revert l. induction n as [|n IH]; intros [|w l]; cbn [List.length Nat.eqb repeat forallb andb]; try (split; [discriminate|intros K; inversion K]).
  - split; [constructor|reflexivity].
  - rewrite andb_assoc, (andb_comm _ (f w)), <- andb_assoc, andb_true_iff, IH, H. split; [intros [A B]; now constructor|intros K; inversion K; now split].
Qed.
Lemma digits_free d : Forall decimal_digit d -> ~ In 44%N d.
Proof. intros H I. rewrite Forall_forall in H. apply H in I. unfold decimal_digit in I. lia. Qed.
Lemma coordinate_free : comma_free coordinate.
Proof.
  intros s (sg & neg & i & f & SG & _ & D & E) I. assert (NS : ~ In 44%N sg) by (apply sign_cases in SG as [[-> _]|[[-> _]|[-> _]]]; cbn; intuition discriminate).
  apply digits_free in D. rewrite in_app_iff in D. destruct E as [[-> _]|[-> _]]; rewrite !in_app_iff in I; cbn [In] in I; intuition (try discriminate).
Qed.
Lemma count_free top : comma_free (count_up_to top).
Proof.
  intros s (v & (d & E & _ & D & _) & _) I. apply digits_iff, digits_free in D. destruct E as [->| ->]; [exact (D I)|]. destruct I as [I|I]; [discriminate|exact (D I)].
Qed.
Lemma time_free : comma_free time_text.
Proof. intros s [H|(d & -> & _ & D)] I; [exact (count_free _ _ H I)|]. destruct I as [I|I]; [discriminate|]. rewrite Forall_forall in D. apply D in I. discriminate. Qed.
Lemma free_repeat P n : comma_free P -> Forall comma_free (repeat P n).
Proof. intros H. apply Forall_forall. intros Q I. apply repeat_spec in I. now subst. Qed.
Lemma parts_length s : List.length (comma_parts s) = S (commas s).
Proof.
  unfold comma_parts, commas. rewrite map_length. induction s as [|c s IH]; [reflexivity|]. cbn [split_on count_occ]. destruct (is_comma c) eqn:E.
  - apply comma_iff in E. subst. destruct (N.eq_dec 44 44); [|congruence]. cbn [List.length]. now rewrite IH.
  - destruct (N.eq_dec c 44) as [->|_]; [discriminate|]. destruct (split_on is_comma s) as [|w ws] eqn:Q; [exfalso; eapply split_on_nonempty; eauto|]. cbn [List.length] in *. exact IH.
Qed.
Lemma in_parens_iff s k P : (forall m, k m = true <-> P m) -> exists b, in_parens s k = Ok b /\ (b = true <-> in_brackets P s).
Proof.
  intros H. unfold in_parens, in_brackets. destruct (starts_with [40%N] s) eqn:A; cbn [negb orb].
  2:{ exists false. split; [reflexivity|]. split; [discriminate|]. intros (m & -> & _). discriminate. }
  destruct (ends_with [41%N] s) eqn:B; cbn [negb].
  2:{ exists false. split; [reflexivity|]. split; [discriminate|]. intros (m & -> & _). exfalso.
      assert (ends_with [41%N] ([40%N] ++ m ++ [41%N]) = true) by (apply ends_with_spec; exists ([40%N] ++ m); now rewrite <- app_assoc). congruence. }
  apply starts_with_spec in A as (r & ->). apply ends_with_spec in B as (x & E).
  destruct x as [|y m]; [destruct r; discriminate|]. cbn [app] in E. injection E as <- ->.
  assert (SL : slice ([40%N] ++ m ++ [41%N]) 1 (blen ([40%N] ++ m ++ [41%N]) - 1) = Some m).
  { replace (blen ([40%N] ++ m ++ [41%N]) - 1) with (blen [40%N] + blen m) by (rewrite !blen_app; cbn [blen]; change (len_utf8 40) with 1; change (len_utf8 41) with 1; lia). apply slice_app. }
  change (40%N :: m ++ [41%N]) with ([40%N] ++ m ++ [41%N]). rewrite SL. cbn [or_panic res_bind].
  exists (k m). split; [reflexivity|]. rewrite H. split; [intros K; now exists m|]. intros (m' & Q & K). cbn [app] in Q. injection Q as Q. apply app_inj_tail in Q as [-> _]. exact K.
Qed.

(* ---- the handlers ---- *)
(* a handler follows a rule *)
Definition follows (h : handler) (r : rule) : Prop :=
  h_name h = lit (ru_name r) /\
  forall args, exists b, h_validate h args = Ok b /\ (b = true <-> padded (ru_accepts r) args) /\
    h_process h args = Ok (if b then Processed else Failed (lit (ru_message r))).
Lemma follows_checked n v msg P : (forall args, exists b, v args = Ok b /\ (b = true <-> P (trim args))) ->
  follows (Handler (lit n) v (by_validate (lit msg) v)) (Rule n P msg).
Proof. intros H. split; [reflexivity|]. intros args. destruct (H args) as (b & E & I). exists b. cbn [h_validate h_process ru_accepts ru_message]. rewrite padded_iff. unfold by_validate. rewrite E. repeat split; try apply I. Qed.
Lemma follows_pure n v msg P : (forall s, v (trim s) = true <-> P (trim s)) ->
  forall va pr, (forall s, va s = Ok (v (trim s))) -> (forall s, pr s = Ok (of_bool (lit msg) (v (trim s)))) -> follows (Handler (lit n) va pr) (Rule n P msg).
Proof. intros H va pr A B. split; [reflexivity|]. intros args. exists (v (trim args)). cbn [h_validate h_process ru_accepts ru_message]. rewrite padded_iff, A, B. repeat split; apply H. Qed.
Ltac plain := apply follows_checked; intros args; eexists; split; [reflexivity|].
Lemma nonempty_guard (b : bool) (s : str) : (s = [] -> b = false) -> (if is_nil s then false else b) = b.
Proof. intros H. destruct s; [now rewrite H|reflexivity]. Qed.
Lemma numeric_follows n msg : follows (numeric n msg) (Rule n coordinate msg).
Proof. apply (follows_pure n is_numeric); [intros; apply is_numeric_iff|reflexivity|reflexivity]. Qed.
Lemma bare_follows n msg : follows (bare n msg) (Rule n (eq []) msg).
Proof. apply (follows_pure n (@is_nil char)); [|reflexivity|reflexivity]. intros s. rewrite is_nil_iff. split; congruence. Qed.
Lemma karaoke_follows n msg : follows (karaoke n msg) (Rule n u32_text msg).
Proof. plain. apply u32_iff. Qed.
Lemma flag_alt s : is_nil s || str_eqb s (lit "0") || str_eqb s (lit "1") = one_of [""; "0"; "1"]%string s.
Proof. unfold one_of. cbn [existsb]. rewrite orb_false_r, orb_assoc. f_equal. f_equal. now destruct s. Qed.
Lemma flag_follows n msg : follows (flag n msg) (Rule n (word_of [""; "0"; "1"]%string) msg).
Proof.
  apply (follows_pure n (one_of [""; "0"; "1"]%string)); [intros; apply one_of_iff| |].
  - intros s. now rewrite <- flag_alt.
  - intros s. unfold of_bool. replace (one_of ["0"; "1"; ""]%string (trim s)) with (one_of [""; "0"; "1"]%string (trim s)); [reflexivity|].
    unfold one_of. cbn [existsb]. rewrite !orb_false_r. destruct (str_eqb (trim s) (lit "")), (str_eqb (trim s) (lit "0")), (str_eqb (trim s) (lit "1")); reflexivity.
Qed.
Lemma hex_iff c : is_hex c = true <-> hex_digit c.
Proof. unfold is_hex, hex_digit, is_digit. rewrite !orb_true_iff, !andb_true_iff, !N.leb_le. tauto. Qed.
Lemma hexes_iff s : forallb is_hex s = true <-> Forall hex_digit s.
Proof. rewrite forallb_forall, Forall_forall. split; intros H x I; apply hex_iff; exact (H x I). Qed.
Lemma hexes_blen s : Forall hex_digit s -> blen s = List.length s.
Proof. intros H. apply blen_ascii. eapply Forall_impl; [|exact H]. intros c K. unfold hex_digit in K. lia. Qed.
Lemma hex_args_iff n args : exists b, hex_args n args = Ok b /\ (b = true <-> hex_text n (trim args)).
Proof.
  unfold hex_args, hex_text. set (s := trim args). cbv zeta.
  assert (G : forall h, Forall hex_digit h -> List.length h = n -> s = lit "&H" ++ h ++ lit "&" -> starts_with (lit "&H") s = true /\ ends_with (lit "&") s = true /\ blen s = 3 + n).
  { intros h HH L ->. split; [apply starts_with_spec; now eexists|]. split; [apply ends_with_spec; exists (lit "&H" ++ h); now rewrite <- app_assoc|].
    rewrite !blen_app, (hexes_blen h HH). change (blen (lit "&H")) with 2. change (blen (lit "&")) with 1. lia. }
  destruct (starts_with (lit "&H") s) eqn:A; cbn [negb orb].
  2:{ exists false. split; [reflexivity|]. split; [discriminate|]. intros (h & E & L & HH). destruct (G h HH L E). congruence. }
  destruct (ends_with (lit "&") s) eqn:B; cbn [negb orb].
  2:{ exists false. split; [reflexivity|]. split; [discriminate|]. intros (h & E & L & HH). destruct (G h HH L E) as (_ & ? & _). congruence. }
  destruct (Nat.eqb_spec (blen s) (3 + n)) as [C|C]; cbn [negb].
  2:{ exists false. split; [reflexivity|]. split; [discriminate|]. intros (h & E & L & HH). destruct (G h HH L E) as (_ & _ & ?). contradiction. }
  apply starts_with_spec in A as (r & A). apply ends_with_spec in B as (x & B).
  assert (M : exists m, s = lit "&H" ++ m ++ lit "&").
  { rewrite A in B. destruct r as [|y r _] using rev_ind.
    - exfalso. rewrite A in C. change (blen (lit "&H" ++ [])) with 2 in C. lia.
    - rewrite app_assoc in B. apply app_inj_tail in B as [_ ->]. now exists r. }
  destruct M as (m & E).
  assert (BM : blen m = n) by (rewrite E, !blen_app in C; change (blen (lit "&H")) with 2 in C; change (blen (lit "&")) with 1 in C; lia).
  assert (SL : slice s 2 (2 + n) = Some m) by (rewrite E; replace (2 + n) with (blen (lit "&H") + blen m) by (rewrite BM; reflexivity); apply slice_app).
  rewrite SL. cbn [or_panic res_bind]. exists (forallb is_hex m). split; [reflexivity|]. rewrite hexes_iff. split.
  - intros H. exists m. split; [exact E|]. split; [rewrite <- (hexes_blen m H); exact BM|exact H].
  - intros (h & Q & L & H). rewrite E in Q. apply app_inv_head in Q. apply app_inj_tail in Q as [-> _]. exact H.
Qed.
Lemma colour_follows n : follows (color_handler n) (colour n).
Proof. apply follows_checked. intros args. apply hex_args_iff. Qed.
Lemma alpha_follows n : follows (alpha_handler n) (alpha n).
Proof. apply follows_checked. intros args. apply hex_args_iff. Qed.
Lemma width_follows n msg : follows (Handler (lit n) width_validate (by_validate (lit msg) width_validate)) (Rule n width_text msg).
Proof. plain. cbv zeta. rewrite nonempty_guard by (intros ->; reflexivity). apply width_iff. Qed.
Lemma coords_iff n s : n <> 0 -> (List.length (comma_parts s) =? n) && forallb is_numeric (comma_parts s) = true <-> comma_list (repeat coordinate n) s.
Proof. intros NZ. rewrite (all_repeat is_numeric coordinate n _ is_numeric_iff), comma_list_iff; [reflexivity|destruct n; [congruence|discriminate]|apply free_repeat, coordinate_free]. Qed.
Lemma Forall2_app_iff {A B} (R : A -> B -> Prop) a b l : Forall2 R (a ++ b) l <-> Forall2 R a (firstn (List.length a) l) /\ Forall2 R b (skipn (List.length a) l).
Proof.
  revert l. induction a as [|x a IH]; intros l; cbn [app List.length firstn skipn].
  - split; [intros H; split; [constructor|exact H]|tauto].
  - destruct l as [|y l]; cbn [firstn skipn]; [split; [intros H; inversion H|intros [H _]; inversion H]|]. split.
    + intros H. inversion H. subst. apply IH in H5 as [P Q]. split; [now constructor|exact Q].
    + intros [H Q]. inversion H. subst. constructor; [assumption|]. apply IH. now split.
Qed.
Lemma fade_iff m : (List.length (comma_parts m) =? 7) && forallb alpha_ok (firstn 3 (comma_parts m)) && forallb time_ok (skipn 3 (firstn 7 (comma_parts m))) = true <->
  comma_list (repeat (count_up_to 255) 3 ++ repeat time_text 4) m.
Proof.
  rewrite comma_list_iff; [|discriminate|apply Forall_app; split; apply free_repeat; [apply count_free|apply time_free]].
  generalize (comma_parts m). intros l. rewrite Forall2_app_iff. change (List.length (repeat (count_up_to 255) 3)) with 3.
  rewrite <- (all_repeat alpha_ok _ 3 _ alpha_iff), <- (all_repeat time_ok _ 4 _ time_iff). rewrite !andb_true_iff, !Nat.eqb_eq. split.
  - intros [[L A] B]. rewrite firstn_all2 in B by lia. rewrite firstn_length, skipn_length. repeat split; try assumption; lia.
  - intros [[L A] [M B]]. rewrite firstn_length in L. rewrite skipn_length in M. assert (List.length l = 7) by lia. rewrite (firstn_all2 (n := 7) l) by lia. repeat split; assumption.
Qed.
Lemma clip_iff m : (let content := trim m in if is_nil content then false else let parts := comma_parts content in if List.length parts =? 4 then forallb is_numeric parts else existsb draws content) = true <-> padded clip_text m.
Proof.
  rewrite padded_iff. cbv zeta. unfold clip_text. generalize (trim m). clear m. intros s. rewrite <- (coords_iff 4) by discriminate. rewrite parts_length.
  assert (D : existsb draws s = true <-> exists c, In c s /\ In c (lit "mnlbspc")).
  { rewrite existsb_exists. unfold draws. split; intros (c & I & K); exists c; (split; [exact I|]).
    - apply existsb_exists in K as (d & J & E). apply N.eqb_eq in E. now subst.
    - apply existsb_exists. exists c. split; [exact K|apply N.eqb_refl]. }
  destruct s as [|x s]; [cbn; split; [discriminate|]; intros [H|[_ (c & [] & _)]]; discriminate|]. cbn [is_nil].
  destruct (Nat.eqb_spec (S (commas (x :: s))) 4) as [E|E]; cbn [andb].
  - split; [now left|]. intros [H|[H _]]; [exact H|lia].
  - rewrite D. split; [intros H; right; split; [lia|exact H]|]. intros [H|[_ H]]; [discriminate|exact H].
Qed.
Lemma pos_iff s : (match find_char is_comma s with Some (x, y) => is_numeric (trim x) && is_numeric (trim (tl y)) | None => false end) = true <-> comma_list [coordinate; coordinate] s.
Proof.
  unfold comma_list. split.
  - destruct (find_char is_comma s) as [[x y]|] eqn:E; [|discriminate]. apply find_char_some in E as (-> & _ & (c & r & -> & C)). apply comma_iff in C. subst c. cbn [tl].
    rewrite andb_true_iff, !is_numeric_iff. intros [A B]. exists [x; r]. split; [reflexivity|]. constructor; [now apply padded_iff|]. constructor; [now apply padded_iff|constructor].
  - intros (ws & -> & H). inversion H as [|? x ? l A B]. subst. inversion B as [|? y ? l' C D]. subst. inversion D. subst. cbn [join].
    assert (F : find_char is_comma (x ++ [44%N] ++ y) = Some (x, 44%N :: y)).
    { apply find_char_some. split; [reflexivity|]. split; [apply free_forallb; exact (padded_free _ _ coordinate_free A)|]. exists 44%N, y. now split. }
    rewrite F. cbn [tl]. apply andb_true_iff. split; apply is_numeric_iff; now apply padded_iff.
Qed.
Lemma bold_follows : follows b_handler (Rule "b" weight_text "Bold tag accepts 0, 1, or font weight (100-900 in steps of 100)").
Proof.
  apply (follows_pure "b" (fun s => one_of [""; "0"; "1"]%string s || match parse_u32 s with Some w => weight_ok w | None => false end)).
  - intros a. generalize (trim a). clear a. intros s. rewrite orb_true_iff, one_of_iff. unfold weight_text, word_of. split.
    + intros [(w & [<-|[<-|[<-|[]]]] & ->)|H]; [now left|right; left; exists "0"%string; cbn; tauto|right; left; exists "1"%string; cbn; tauto|].
      destruct (parse_u32 s) as [v|] eqn:E; [|discriminate]. apply parse_u32_spec in E as [E _]. right. right. exists v. split; [exact E|now apply weight_iff].
    + intros [->|[(w & I & ->)|(v & E & I)]]; [left; exists ""%string; cbn; tauto|left; exists w; cbn in *; tauto|].
      right. assert (K : parse_u32 s = Some v). { apply parse_u32_spec. split; [exact E|]. apply weight_iff in I. unfold weight_ok in I. rewrite !andb_true_iff, !N.leb_le in I. unfold u32_max. lia. }
      rewrite K. now apply weight_iff.
  - intros s. unfold b_validate. cbv zeta. rewrite flag_alt. now destruct (one_of _ (trim s)).
  - intros s. unfold b_process, of_bool. cbv zeta. destruct (one_of _ (trim s)); [reflexivity|]. cbn [orb]. destruct (parse_u32 (trim s)); reflexivity.
Qed.
Lemma builtin_follows : Forall2 follows builtin rules.
Proof.
  unfold builtin, rules.
  unfold create_advanced_handlers, create_alignment_handlers, create_animation_handlers, create_clipping_handlers, create_color_handlers, create_font_handlers, create_formatting_handlers,
    create_karaoke_handlers, create_misc_handlers, create_position_handlers, create_special_handlers, create_transform_handlers. cbn [app].
  repeat (apply Forall2_cons; [|]); try apply Forall2_nil;
    try apply colour_follows; try apply alpha_follows; try apply width_follows; try apply numeric_follows; try apply bare_follows; try apply karaoke_follows; try apply flag_follows; try apply bold_follows;
    try (plain; apply one_of_iff).
  - apply (follows_pure "be" (one_of ["0"; "1"]%string)); [intros; apply one_of_iff| |reflexivity]. intros s. unfold one_of. cbn [existsb]. now rewrite orb_false_r.
  - apply follows_checked. intros args. apply in_parens_iff. intros m. rewrite padded_iff, andb_true_iff, !negb_true_iff. unfold filled. split.
    + intros [_ H]. intros E. rewrite E in H. discriminate.
    + intros H. split; [|destruct (trim m); [congruence|reflexivity]]. destruct m; [exfalso; apply H; reflexivity|reflexivity].
  - apply follows_checked. intros args. apply in_parens_iff. intros m. apply fade_iff.
  - apply follows_checked. intros args. apply in_parens_iff. intros m. rewrite (all_repeat _ u32_text 2 _ u32_iff), comma_list_iff; [reflexivity|discriminate|apply (free_repeat u32_text 2), count_free].
  - apply follows_checked. intros args. apply in_parens_iff. intros m. apply clip_iff.
  - apply (follows_pure "fn" (fun s => negb (is_nil s))); [|reflexivity|].
    + intros s. unfold filled. destruct (trim s); cbn; split; congruence.
    + intros s. cbn [h_process]. now destruct (trim s).
  - plain. cbv zeta. rewrite nonempty_guard by (intros ->; reflexivity). apply size_iff.
  - plain. cbv zeta. rewrite nonempty_guard by (intros ->; reflexivity). apply u32_iff.
  - split; [reflexivity|]. intros args. exists true. cbn [h_validate h_process r_handler ru_accepts]. rewrite padded_iff. repeat split.
  - plain. cbv zeta. rewrite nonempty_guard by (intros ->; reflexivity). apply is_numeric_iff.
  - apply follows_checked. intros args. apply in_parens_iff. intros m. apply (coords_iff 2). discriminate.
  - plain. cbv zeta. rewrite nonempty_guard by (intros ->; reflexivity). apply pos_iff.
  - plain. cbv zeta. rewrite nonempty_guard by (intros ->; reflexivity). rewrite <- (coords_iff 4), <- (coords_iff 6) by discriminate. rewrite andb_orb_distrib_l, orb_true_iff. reflexivity.
Qed.
