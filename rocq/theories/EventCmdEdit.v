From Verif Require Import Base BaseLemmas TimeModel TimeSpec TimeProps DocModel DocSpec DocProofs ParseModel EventCmdModel EventCmdSpec EventCmdProofs EventCmdLine.

(* ---- flipping ---- *)
Lemma find_prefix p r : find_str p (p ++ r) = Some ([], p ++ r).
Proof.
  destruct (p ++ r) as [|x s] eqn:E; cbn [find_str]; rewrite <- E, starts_with_app; reflexivity.
Qed.
Lemma replace_prefix a b r : replacen1 a b (a ++ r) = b ++ r.
Proof.
  unfold replacen1. rewrite find_prefix. cbn [app]. rewrite skipn_app, skipn_all, Nat.sub_diag. reflexivity.
Qed.
Lemma flip_spec l l' : flips l l' -> flip l = l'.
Proof.
  intros (r & [[-> ->]|[-> ->]]); unfold flip.
  - rewrite starts_with_app. apply replace_prefix.
  - replace (starts_with (lit "Dialogue:") (lit "Comment:" ++ r)) with false by reflexivity. apply replace_prefix.
Qed.
Lemma flips_event l l' : flips l l' -> is_event l.
Proof. intros (r & [[-> _]|[-> _]]); [left|right]; eauto. Qed.
Lemma flips_sym l l' : flips l l' -> flips l' l.
Proof. intros (r & [[-> ->]|[-> ->]]); exists r; tauto. Qed.
Lemma flips_in_section l l' : flips l l' -> in_section l -> in_section l'.
Proof.
  intros (r & [[-> ->]|[-> ->]]) (_ & H & _); (split; [discriminate|split; [|discriminate]]);
    intros Q; apply H; apply in_app_iff in Q as [Q|Q]; (apply in_app_iff; right; try exact Q); cbn in Q; intuition discriminate.
Qed.

(* ---- a command that changes one event ---- *)
Lemma length_ended before : List.length before <= blen (ended before).
Proof.
  induction before as [|l ls IH]; [cbn; lia|]. rewrite ended_cons, blen_app, blen_cons. cbn [List.length].
  change (len_utf8 10) with 1. lia.
Qed.
Lemma command_one sz rw d head before l l' rest k fuel :
  reached sz d -> events_head head -> text d = head ++ ended before ++ l ++ rest ->
  Forall in_section before -> event_count before k -> in_section l -> is_event l -> after_line rest ->
  rw l = Done (Some l') ->
  at_character (head ++ ended before ++ l' ++ rest) (blen (head ++ ended before ++ l) + 1) ->
  2 * blen (head ++ ended before ++ l' ++ rest) + 2 <= fuel ->
  exists d', edit_command fuel sz [k] rw d =
      Done (d', Some (success_with_change (mkRange (blen (head ++ ended before)) (blen (head ++ ended before ++ l'))) (blen (text d')), 1)) /\
    text d' = head ++ ended before ++ l' ++ rest /\ reached sz d'.
Proof.
  intros H Hh E HF HC Hl Hev Hr Hw Hb Hf. unfold edit_command. replace (format_line_end (text d)) with (Some (blen head)) by (rewrite E; symmetry; now apply head_found).
  destruct (edit_one sz rw k d 0 head before l l' rest fuel k) as (d' & D & T & R); try assumption; [reflexivity| |].
  - pose proof (length_ended before). rewrite !blen_app in *. lia.
  - exists d'. rewrite D. cbn [and_then bind fst snd]. change (0 <? 1) with true. auto.
Qed.
Lemma command_panics sz rw d head before l l' rest k fuel :
  reached sz d -> events_head head -> text d = head ++ ended before ++ l ++ rest ->
  Forall in_section before -> event_count before k -> in_section l -> is_event l -> after_line rest ->
  rw l = Done (Some l') ->
  ~ at_character (head ++ ended before ++ l' ++ rest) (blen (head ++ ended before ++ l) + 1) ->
  blen (text d) + 2 <= fuel ->
  edit_command fuel sz [k] rw d = Crash.
Proof.
  intros H Hh E HF HC Hl Hev Hr Hw Hb Hf. unfold edit_command. replace (format_line_end (text d)) with (Some (blen head)) by (rewrite E; symmetry; now apply head_found).
  rewrite (edit_one_panics sz rw k d 0 head before l l' rest fuel k); try assumption; [reflexivity|reflexivity|].
  pose proof (length_ended before). rewrite E in Hf. rewrite !blen_app in Hf. lia.
Qed.
Lemma command_all sz named rw (R : str -> str -> Prop) d head ls ls' rest k fuel :
  (forall l l', R l l' -> rw l = Done (Some l') /\ resumes l l') ->
  reached sz d -> events_head head -> text d = head ++ join [10%N] ls ++ rest -> section_end rest ->
  Forall in_section ls -> changed_by R named 0 ls ls' k -> 2 * List.length ls + 1 <= fuel ->
  exists d' r, edit_command fuel sz named rw d = Done (d', Some (r, k)) /\ changed r = (0 <? k) /\
    text d' = head ++ join [10%N] ls' ++ rest /\ reached sz d'.
Proof.
  intros HR H Hh E Hr HF HC Hf. unfold edit_command. replace (format_line_end (text d)) with (Some (blen head)) by (rewrite E; symmetry; now apply head_found).
  destruct (edit_all sz named rw R HR ls ls' 0 k fuel d head rest None 0 H E Hr HF HC Hf) as (d' & tot & D & T & X).
  rewrite D. cbn [and_then bind fst snd plus]. exists d'. eexists. split; [reflexivity|]. split; [now destruct (0 <? k)|]. auto.
Qed.

(* ---- toggling ---- *)
Ltac lengths := rewrite ?blen_app; change (blen (lit "Dialogue:")) with 9; change (blen (lit "Comment:")) with 8;
  try change (blen [10%N]) with 1; try change (blen []) with 0; lia.
Lemma toggle_lands A l l' rest : flips l l' -> after_line rest ->
  (forall r c s, l = lit "Dialogue:" ++ r -> rest = 10%N :: c :: s -> (c < 128)%N) ->
  at_character (A ++ l' ++ rest) (blen (A ++ l) + 1).
Proof.
  intros (r & [[-> ->]|[-> ->]]) Hr Hc.
  - destruct Hr as [->|[[|c s] ->]].
    + left. lengths.
    + left. lengths.
    + right. exists (A ++ (lit "Comment:" ++ r) ++ [10%N; c]), s. split; [now rewrite <- !app_assoc|].
      rewrite !blen_app. change (blen [10%N; c]) with (1 + (len_utf8 c + 0)).
      assert (len_utf8 c = 1) by (unfold len_utf8; rewrite (proj2 (N.ltb_lt c 128)); [reflexivity|exact (Hc r c s eq_refl eq_refl)]).
      change (blen (lit "Dialogue:")) with 9. change (blen (lit "Comment:")) with 8. lia.
  - right. exists (A ++ lit "Dialogue:" ++ r), rest. split; [now rewrite <- !app_assoc|]. rewrite !blen_app.
    change (blen (lit "Dialogue:")) with 9. change (blen (lit "Comment:")) with 8. lia.
Qed.
Lemma toggle_misses A r c s : (128 <= c)%N ->
  ~ at_character (A ++ (lit "Comment:" ++ r) ++ 10%N :: c :: s) (blen (A ++ lit "Dialogue:" ++ r) + 1).
Proof.
  intros Hc. assert (L : 2 <= len_utf8 c).
  { unfold len_utf8. destruct (N.ltb_spec c 128); [lia|]. destruct (N.ltb_spec c 2048); [lia|]. destruct (N.ltb_spec c 65536); lia. }
  set (P := A ++ (lit "Comment:" ++ r) ++ [10%N]).
  assert (E : A ++ (lit "Comment:" ++ r) ++ 10%N :: c :: s = P ++ c :: s) by (unfold P; now rewrite <- !app_assoc).
  assert (B : blen (A ++ lit "Dialogue:" ++ r) + 1 = blen P + 1).
  { unfold P. rewrite !blen_app. change (blen (lit "Dialogue:")) with 9. change (blen (lit "Comment:")) with 8. change (blen [10%N]) with 1. lia. }
  rewrite E, B. intros [H|(u & v & H1 & H2)].
  - rewrite blen_app, blen_cons in H. lia.
  - destruct (app_prefix_blen P (c :: s) u v H1 ltac:(lia)) as (m & M & N). subst u. destruct m as [|x m].
    + rewrite app_nil_r in H2. lia.
    + cbn [app] in N. injection N as -> _. rewrite blen_app, blen_cons in H2. lia.
Qed.

(* ---- times ---- *)
Lemma shows_parse v s : shows v s -> parse_ass_time s = Ok v.
Proof. intros (h & m & c & x & H1 & H2 & H3 & H4 & H5). apply time_parse_exact. exists h, m, c, x. auto. Qed.
Lemma moved_later v off : (v < 2147483648)%N -> (-2147483648 <= Z.of_N v + off <= 2147483647)%Z -> moved v off = Done (later v off).
Proof.
  intros H1 H2. unfold moved, i32_add, wrap_i32, later, i32_min, i32_max.
  rewrite (proj2 (N.ltb_lt _ _) H1).
  destruct (Z.leb_spec (-2147483648) (Z.of_N v + off)); [|lia]. destruct (Z.leb_spec (Z.of_N v + off) 2147483647); [|lia].
  cbn [andb bind]. now rewrite Z.max_comm.
Qed.
Lemma shift_retimed so eo l l' : retimed so eo l l' -> shift so eo l = Done (Some l').
Proof.
  intros (e & a & b & -> & HC & Sa & Sb & A1 & B1 & A2 & B2 & ->). unfold shift. rewrite (parse_clean e HC). cbn [bind].
  unfold time_of. rewrite (shows_parse _ _ Sa), (shows_parse _ _ Sb). cbn [bind].
  rewrite (moved_later a so A1 A2), (moved_later b eo B1 B2). cbn [bind].
  destruct (N.ltb_spec u32_max (later a so + 1)) as [L|L].
  - exfalso. unfold u32_max, later in L. lia.
  - rewrite write_text. reflexivity.
Qed.
Lemma dec_small n : (n < 10)%N -> to_dec n = [(48 + n)%N].
Proof. intros H. unfold to_dec. cbn [dec_digits]. now rewrite (proj2 (N.ltb_lt n 10) H). Qed.
Lemma pad2_length n : (n < 100)%N -> List.length (dec_pad 2 n) = 2 /\ Forall (fun c => (c < 128)%N) (dec_pad 2 n).
Proof.
  intros H. destruct (N.lt_ge_cases n 10) as [L|L].
  - unfold dec_pad. rewrite dec_small by exact L. cbn. split; [reflexivity|]. repeat constructor; lia.
  - assert (E : to_dec n = [(48 + n / 10)%N; (48 + n mod 10)%N]).
    { unfold to_dec. assert (S : exists k, N.size_nat n = S k) by (destruct n as [|[p|p|]]; [lia|..]; eexists; reflexivity).
      destruct S as [k ->]. cbn [dec_digits]. rewrite (proj2 (N.ltb_ge n 10) L).
      assert (D : (n / 10 < 10)%N) by (apply N.div_lt_upper_bound; lia).
      cbn [dec_digits]. rewrite (proj2 (N.ltb_lt _ _) D). reflexivity. }
    assert (D : (n / 10 < 10)%N) by (apply N.div_lt_upper_bound; lia). assert (M : (n mod 10 < 10)%N) by (apply N.mod_lt; lia).
    unfold dec_pad. rewrite E. cbn. split; [reflexivity|]. repeat constructor; lia.
Qed.
Lemma format_ten v : (v < 3600000)%N -> blen (format_ass_time v) = 10.
Proof.
  intros H. unfold format_ass_time.
  assert (D : (v / 360000 < 10)%N) by (apply N.div_lt_upper_bound; lia).
  rewrite (dec_small _ D).
  assert (M1 : (v mod 360000 < 360000)%N) by (apply N.mod_lt; lia).
  assert (D1 : (v mod 360000 / 6000 < 100)%N) by (apply N.div_lt_upper_bound; lia).
  assert (M2 : (v mod 360000 mod 6000 < 6000)%N) by (apply N.mod_lt; lia).
  assert (D2 : (v mod 360000 mod 6000 / 100 < 100)%N) by (apply N.div_lt_upper_bound; lia).
  assert (D3 : (v mod 360000 mod 6000 mod 100 < 100)%N) by (apply N.mod_lt; lia).
  rewrite !blen_app. rewrite !(blen_ascii (dec_pad 2 _)) by (now apply pad2_length).
  rewrite (proj1 (pad2_length _ D1)), (proj1 (pad2_length _ D2)), (proj1 (pad2_length _ D3)).
  rewrite blen_ascii by (repeat constructor; lia). reflexivity.
Qed.
Lemma shift_in_place so eo l l' : retimed_in_place so eo l l' -> shift so eo l = Done (Some l') /\ blen l' = blen l.
Proof.
  intros (e & a & b & E & HC & Sa & Sb & La & Lb & A1 & B1 & A2 & B2 & A3 & B3 & ->). split.
  - apply shift_retimed. exists e, a, b. repeat (split; [first [assumption|lia]|]). reflexivity.
  - rewrite E. unfold event_text.
    cbn [le_comment le_layer le_start le_end le_style le_name le_left le_right le_vertical le_effect le_text]. rewrite !blen_app, La, Lb.
    rewrite !format_ten; [reflexivity| |]; unfold later; lia.
Qed.
(* ---- effects ---- *)
Lemma put_effected op x l l' : effected op x l l' -> put_effect op x l = Done (Some l').
Proof.
  intros (e & y & -> & HC & Hx & ->). unfold put_effect. rewrite (parse_clean e HC). cbn [bind]. rewrite write_text. unfold with_effect.
  enough (N : new_effect op x (le_effect e) = y) by (now rewrite N).
  destruct op; cbn [effect_after new_effect] in *; try congruence; destruct (le_effect e); cbn [is_nil]; destruct Hx as [[? ?]|[? ?]]; congruence.
Qed.
