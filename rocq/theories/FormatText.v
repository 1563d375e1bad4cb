(* Text and time conversions of FormatModel. *)
From Verif Require Import Base BaseLemmas NumSpec NumProofs Utf8Model Utf8Proofs ParseModel ParseSpec ParseLineProofs StyleModel FormatModel FormatSpec.
Ltac Zify.zify_post_hook ::= Z.div_mod_to_equations.

(* ---- str::replace on a text made of tokens ---- *)
Fixpoint clash (p v : str) : bool :=
  match p, v with
  | a :: p', b :: v' => negb (a =? b)%N || clash p' v'
  | _, _ => false
  end.
Lemma clash_starts p : forall v r, clash p v = true -> starts_with p (v ++ r) = false.
Proof.
  induction p as [|a p IH]; intros [|b v] r H; try discriminate. cbn [clash] in H. unfold starts_with in *.
  cbn [app strip_prefix]. destruct (N.eqb_spec a b) as [->|]; [|reflexivity]. cbn [negb orb] in H. exact (IH v r H).
Qed.
Fixpoint nowhere (p u : str) : bool := match u with [] => true | c :: r => clash p u && nowhere p r end.
Lemma replace_skip p rep u : forall r, replace_go p rep (u ++ r) (List.length u) = replace_go p rep r 0.
Proof. induction u as [|c u IH]; intros r; [reflexivity|]. cbn [app List.length replace_go]. apply IH. Qed.
Lemma replace_over p rep u : forall r, nowhere p u = true -> replace_go p rep (u ++ r) 0 = u ++ replace_go p rep r 0.
Proof.
  induction u as [|c u IH]; intros r H; [reflexivity|]. cbn [nowhere] in H. apply andb_prop in H as [H1 H2].
  cbn [app replace_go]. rewrite (clash_starts p (c :: u) r H1 : starts_with p (c :: u ++ r) = false), (IH r H2). reflexivity.
Qed.
Lemma replace_hit p rep r : p <> [] -> replace_go p rep (p ++ r) 0 = rep ++ replace_go p rep r 0.
Proof.
  intros H. destruct p as [|c p]; [congruence|]. pose proof (starts_with_app (c :: p) r) as S1.
  cbn [app replace_go] in *. rewrite S1. cbn [List.length]. rewrite Nat.sub_succ, Nat.sub_0_r, replace_skip. reflexivity.
Qed.
Lemma replace_tokens {T} p rep (f g : T -> str) l : p <> [] ->
  Forall (fun t => f t = p /\ g t = rep \/ nowhere p (f t) = true /\ g t = f t) l ->
  replace p rep (concat (map f l)) = concat (map g l).
Proof.
  intros Hp H. unfold replace. induction H as [|t l [[E1 E2]|[E1 E2]] _ IH]; cbn [map concat]; [reflexivity| |].
  - rewrite E1, E2, replace_hit, IH by exact Hp. reflexivity.
  - rewrite E2, replace_over, IH by exact E1. reflexivity.
Qed.
Lemma nowhere_without c p s : without c s -> nowhere (c :: p) s = true.
Proof.
  unfold without. induction s as [|x s IH]; [reflexivity|]. intros H. cbn [forallb] in H. apply andb_prop in H as [H1 H2].
  cbn [nowhere clash]. rewrite N.eqb_sym, H1. cbn [orb andb]. exact (IH H2).
Qed.
Lemma replace_none c p rep s : without c s -> replace (c :: p) rep s = s.
Proof.
  intros H. unfold replace. rewrite <- (app_nil_r s) at 1. rewrite replace_over by exact (nowhere_without c p s H).
  cbn. apply app_nil_r.
Qed.
Lemma rewrite_none c m s : (forall u, hd 0%N u <> c -> u <> [] -> m u = None) -> without c s -> rewrite_all m s = s.
Proof.
  intros Hm. unfold rewrite_all, without. induction s as [|x s IH]; [reflexivity|]. intros H. cbn [forallb] in H. apply andb_prop in H as [H1 H2].
  cbn [rewrite_go]. rewrite Hm; [rewrite (IH H2); reflexivity| |discriminate]. cbn. destruct (N.eqb_spec x c); [discriminate|assumption].
Qed.

(* ---- pieces ---- *)
Inductive tok := Brk | P (p : piece).
Fixpoint toks (ls : list (list piece)) : list tok :=
  match ls with
  | [] => []
  | [l] => map P l
  | l :: r => map P l ++ Brk :: toks r
  end.
Definition rend (b : str) (f : piece -> str) (t : tok) : str := match t with Brk => b | P p => f p end.
Lemma rend_toks b f ls : concat (map (rend b f) (toks ls)) = join b (map (fun l => concat (map f l)) ls).
Proof.
  assert (E : forall l : list piece, concat (map (rend b f) (map P l)) = concat (map f l)) by (intros l; rewrite map_map; reflexivity).
  induction ls as [|l ls IH]; [reflexivity|]. destruct ls as [|l2 ls].
  - cbn [toks map join]. apply E.
  - change (toks (l :: l2 :: ls)) with (map P l ++ Brk :: toks (l2 :: ls)).
    rewrite map_app, concat_app, E. cbn [map concat]. rewrite IH. reflexivity.
Qed.
Definition tok_ok (s : bool) (t : tok) : Prop := match t with Brk => True | P p => piece_ok s p end.
Lemma toks_ok s ls : Forall (fun l => Forall (piece_ok s) l) ls -> Forall (tok_ok s) (toks ls).
Proof.
  assert (E : forall l, Forall (piece_ok s) l -> Forall (tok_ok s) (map P l)) by (intros l H; rewrite Forall_map; exact H).
  induction 1 as [|l ls H HF IH]; [constructor|]. destruct ls as [|l2 ls]; [exact (E l H)|].
  change (toks (l :: l2 :: ls)) with (map P l ++ Brk :: toks (l2 :: ls)). apply Forall_app. split; [exact (E l H)|].
  constructor; [exact I|exact IH].
Qed.

(* the switches already converted *)
Definition kind_eqb (a b : kind) : bool :=
  match a, b with Bold, Bold | Italic, Italic | Underline, Underline | Strike, Strike => true | _, _ => false end.
Definition done (S : list (kind * bool)) (p : piece) : bool :=
  match p with Plain _ => false | Switch k on => existsb (fun x => kind_eqb (fst x) k && Bool.eqb (snd x) on) S end.
Definition mix (S : list (kind * bool)) (f g : piece -> str) (p : piece) : str := if done S p then g p else f p.
Definition ass_sw (x : kind * bool) : str := ass_piece (Switch (fst x) (snd x)).
Definition html_sw (x : kind * bool) : str := html_piece (Switch (fst x) (snd x)).
Lemma special_false c : special c = false -> c <> 10%N /\ c <> 60%N /\ c <> 123%N /\ c <> 125%N /\ c <> 92%N.
Proof. unfold special. cbn [existsb]. repeat split; intros ->; discriminate. Qed.
Lemma plain_nowhere a p c : c <> a -> nowhere (a :: p) [c] = true.
Proof. intros H. cbn. apply N.eqb_neq in H. rewrite N.eqb_sym, H. reflexivity. Qed.
(* one replacement in each direction *)
Lemma stage_in b S x l s : (b = [10%N] \/ b = break) -> Forall (tok_ok s) l -> existsb (fun y => kind_eqb (fst y) (fst x) && Bool.eqb (snd y) (snd x)) S = false ->
  replace (html_sw x) (ass_sw x) (concat (map (rend b (mix S html_piece ass_piece)) l)) = concat (map (rend b (mix (S ++ [x]) html_piece ass_piece)) l).
Proof.
  intros Hb H HS. apply replace_tokens; [destruct x as [[] []]; discriminate|].
  eapply Forall_impl; [|exact H]. intros t Ht. destruct t as [|[c|k on]].
  - right. split; [|reflexivity]. destruct Hb as [-> | ->]; destruct x as [[] []]; reflexivity.
  - right. split; [|reflexivity]. cbn in Ht. apply special_false in Ht as (_ & Ht & _). destruct x as [[] []]; (apply plain_nowhere; exact Ht).
  - unfold rend, mix, done. rewrite existsb_app. cbn [existsb]. rewrite orb_false_r.
    destruct (kind_eqb (fst x) k && Bool.eqb (snd x) on) eqn:E.
    + assert (x = (k, on)) by (destruct x as [[] []], k, on; try discriminate; reflexivity). subst x. cbn [fst snd] in HS. rewrite HS. cbn [orb]. left. split; reflexivity.
    + rewrite orb_false_r. right. split; [|reflexivity]. clear HS H Ht. destruct (existsb _ S); destruct x as [[] []], k, on; try discriminate; reflexivity.
Qed.
Lemma stage_out b S x l s : (b = [10%N] \/ b = break) -> Forall (tok_ok s) l -> existsb (fun y => kind_eqb (fst y) (fst x) && Bool.eqb (snd y) (snd x)) S = false ->
  replace (ass_sw x) (html_sw x) (concat (map (rend b (mix S ass_piece html_piece)) l)) = concat (map (rend b (mix (S ++ [x]) ass_piece html_piece)) l).
Proof.
  intros Hb H HS. apply replace_tokens; [destruct x as [[] []]; discriminate|].
  eapply Forall_impl; [|exact H]. intros t Ht. destruct t as [|[c|k on]].
  - right. split; [|reflexivity]. destruct Hb as [-> | ->]; destruct x as [[] []]; reflexivity.
  - right. split; [|reflexivity]. cbn in Ht. apply special_false in Ht as (_ & _ & Ht & _). destruct x as [[] []]; (apply plain_nowhere; exact Ht).
  - unfold rend, mix, done. rewrite existsb_app. cbn [existsb]. rewrite orb_false_r.
    destruct (kind_eqb (fst x) k && Bool.eqb (snd x) on) eqn:E.
    + assert (x = (k, on)) by (destruct x as [[] []], k, on; try discriminate; reflexivity). subst x. cbn [fst snd] in HS. rewrite HS. cbn [orb]. left. split; reflexivity.
    + rewrite orb_false_r. right. split; [|reflexivity]. clear HS H Ht. destruct (existsb _ S); destruct x as [[] []], k, on; try discriminate; reflexivity.
Qed.
Definition all_switches (S : list (kind * bool)) (b : str) (f g : piece -> str) s l : Prop :=
  Forall (tok_ok s) l -> concat (map (rend b (mix S f g)) l) = concat (map (rend b g) l).
Lemma mix_all b f g (s : bool) S l : (forall c, f (Plain c) = g (Plain c)) ->
  (forall k on, piece_ok s (Switch k on) -> done S (Switch k on) = true) ->
  Forall (tok_ok s) l -> concat (map (rend b (mix S f g)) l) = concat (map (rend b g) l).
Proof.
  intros Hf HS H. f_equal. apply map_ext_in. intros t Ht. rewrite Forall_forall in H. specialize (H t Ht). destruct t as [|[c|k on]]; [reflexivity|exact (Hf c)|].
  cbn [rend]. unfold mix. rewrite (HS k on H). reflexivity.
Qed.
Lemma mix_none b f g l : map (rend b (mix [] f g)) l = map (rend b f) l.
Proof. apply map_ext. intros [|[c|k on]]; reflexivity. Qed.

Fixpoint fresh (S todo : list (kind * bool)) : bool :=
  match todo with
  | [] => true
  | x :: r => negb (existsb (fun y => kind_eqb (fst y) (fst x) && Bool.eqb (snd y) (snd x)) S) && fresh (S ++ [x]) r
  end.
Lemma stages_in b s l todo : (b = [10%N] \/ b = break) -> Forall (tok_ok s) l -> forall S, fresh S todo = true ->
  fold_left (fun t x => replace (html_sw x) (ass_sw x) t) todo (concat (map (rend b (mix S html_piece ass_piece)) l)) =
  concat (map (rend b (mix (S ++ todo) html_piece ass_piece)) l).
Proof.
  intros Hb H. induction todo as [|x r IH]; intros S F; [rewrite app_nil_r; reflexivity|]. cbn [fresh] in F. apply andb_prop in F as [F1 F2].
  cbn [fold_left]. rewrite (stage_in b S x l s Hb H) by (destruct (existsb _ S); [discriminate|reflexivity]).
  rewrite (IH _ F2), <- app_assoc. reflexivity.
Qed.
Lemma stages_out b s l todo : (b = [10%N] \/ b = break) -> Forall (tok_ok s) l -> forall S, fresh S todo = true ->
  fold_left (fun t x => replace (ass_sw x) (html_sw x) t) todo (concat (map (rend b (mix S ass_piece html_piece)) l)) =
  concat (map (rend b (mix (S ++ todo) ass_piece html_piece)) l).
Proof.
  intros Hb H. induction todo as [|x r IH]; intros S F; [rewrite app_nil_r; reflexivity|]. cbn [fresh] in F. apply andb_prop in F as [F1 F2].
  cbn [fold_left]. rewrite (stage_out b S x l s Hb H) by (destruct (existsb _ S); [discriminate|reflexivity]).
  rewrite (IH _ F2), <- app_assoc. reflexivity.
Qed.
Definition ibu : list (kind * bool) := [(Italic, true); (Italic, false); (Bold, true); (Bold, false); (Underline, true); (Underline, false)].
Definition bius (s : bool) : list (kind * bool) :=
  [(Bold, true); (Bold, false); (Italic, true); (Italic, false); (Underline, true); (Underline, false)] ++ (if s then [(Strike, true); (Strike, false)] else []).
Lemma biu_in_fold t : biu_in t = fold_left (fun t x => replace (html_sw x) (ass_sw x) t) ibu t. Proof. reflexivity. Qed.
Lemma biu_out_fold t : biu_out t = fold_left (fun t x => replace (ass_sw x) (html_sw x) t) ibu t. Proof. reflexivity. Qed.
Lemma bius_in_fold s t : bius_in s t = fold_left (fun t x => replace (html_sw x) (ass_sw x) t) (bius s) t. Proof. destruct s; reflexivity. Qed.
Lemma bius_out_fold s t : bius_out s t = fold_left (fun t x => replace (ass_sw x) (html_sw x) t) (bius s) t. Proof. destruct s; reflexivity. Qed.
Lemma ibu_all k on : piece_ok false (Switch k on) -> done ([] ++ ibu) (Switch k on) = true.
Proof. destruct k, on; intros E; try reflexivity; discriminate. Qed.
Lemma bius_all s k on : piece_ok s (Switch k on) -> done ([] ++ bius s) (Switch k on) = true.
Proof. destruct s, k, on; intros E; try reflexivity; discriminate. Qed.
Lemma bius_fresh s : fresh [] (bius s) = true. Proof. destruct s; reflexivity. Qed.
Lemma biu_in_toks b l : (b = [10%N] \/ b = break) -> Forall (tok_ok false) l ->
  biu_in (concat (map (rend b html_piece) l)) = concat (map (rend b ass_piece) l).
Proof.
  intros Hb H. rewrite <- (mix_none b html_piece ass_piece), biu_in_fold, (stages_in b false l ibu Hb H) by reflexivity.
  apply (mix_all b _ _ false); [reflexivity|exact ibu_all|exact H].
Qed.
Lemma biu_out_toks b l : (b = [10%N] \/ b = break) -> Forall (tok_ok false) l ->
  biu_out (concat (map (rend b ass_piece) l)) = concat (map (rend b html_piece) l).
Proof.
  intros Hb H. rewrite <- (mix_none b ass_piece html_piece), biu_out_fold, (stages_out b false l ibu Hb H) by reflexivity.
  apply (mix_all b _ _ false); [reflexivity|exact ibu_all|exact H].
Qed.
Lemma bius_in_toks (s : bool) b l : (b = [10%N] \/ b = break) -> Forall (tok_ok s) l ->
  bius_in s (concat (map (rend b html_piece) l)) = concat (map (rend b ass_piece) l).
Proof.
  intros Hb H. rewrite <- (mix_none b html_piece ass_piece), bius_in_fold, (stages_in b s l (bius s) Hb H) by apply bius_fresh.
  apply (mix_all b _ _ s); [reflexivity|exact (bius_all s)|exact H].
Qed.
Lemma bius_out_toks (s : bool) b l : (b = [10%N] \/ b = break) -> Forall (tok_ok s) l ->
  bius_out s (concat (map (rend b ass_piece) l)) = concat (map (rend b html_piece) l).
Proof.
  intros Hb H. rewrite <- (mix_none b ass_piece html_piece), bius_out_fold, (stages_out b s l (bius s) Hb H) by apply bius_fresh.
  apply (mix_all b _ _ s); [reflexivity|exact (bius_all s)|exact H].
Qed.
(* what the rendered texts do not contain *)
Lemma without_app k a b : without k (a ++ b) <-> without k a /\ without k b.
Proof. unfold without. rewrite forallb_app. split; [intros H; apply andb_prop in H; exact H|intros [-> ->]; reflexivity]. Qed.
Lemma toks_without k b f s l : Forall (tok_ok s) l -> without k b -> (forall p, piece_ok s p -> without k (f p)) -> without k (concat (map (rend b f) l)).
Proof.
  intros H Hb Hf. induction H as [|t l H _ IH]; [reflexivity|]. cbn [map concat]. apply without_app. split; [|exact IH].
  destruct t as [|p]; [exact Hb|exact (Hf p H)].
Qed.
Lemma plain_without k c : c <> k -> without k [c].
Proof. intros H. unfold without. cbn. apply N.eqb_neq in H. rewrite H. reflexivity. Qed.
Lemma ass_no_lt s p : piece_ok s p -> without 60 (ass_piece p).
Proof. destruct p as [c|[] []]; intros H; [|reflexivity..]. apply plain_without. cbn in H. apply special_false in H. tauto. Qed.
Lemma html_no_brace s p : piece_ok s p -> without 123 (html_piece p).
Proof. destruct p as [c|[] []]; intros H; [|reflexivity..]. apply plain_without. cbn in H. apply special_false in H. tauto. Qed.
Lemma html_no_slash s p : piece_ok s p -> without 92 (html_piece p).
Proof. destruct p as [c|[] []]; intros H; [|reflexivity..]. apply plain_without. cbn in H. apply special_false in H. tauto. Qed.
Lemma html_no_nl s p : piece_ok s p -> without 10 (html_piece p).
Proof. destruct p as [c|[] []]; intros H; [|reflexivity..]. apply plain_without. cbn in H. apply special_false in H. tauto. Qed.
Lemma ass_no_nl s p : piece_ok s p -> without 10 (ass_piece p).
Proof. destruct p as [c|[] []]; intros H; [|reflexivity..]. apply plain_without. cbn in H. apply special_false in H. tauto. Qed.

(* ---- matchers look at the first character ---- *)
Lemma strip_head k p u : u <> [] -> hd 0%N u <> k -> strip_prefix (k :: p) u = None.
Proof. destruct u as [|c u]; [congruence|]. cbn. intros _ H. destruct (N.eqb_spec k c); [congruence|reflexivity]. Qed.
Ltac headless := intros; match goal with |- ?m _ = None => unfold m | |- ?m _ _ _ = None => unfold m end;
  try unfold m_voice_split;
  match goal with |- context [strip_prefix ?p ?u] =>
    let q := eval vm_compute in p in change p with q; rewrite (strip_head _ _ u) by assumption end; reflexivity.
Lemma m_tag_head u : hd 0%N u <> 60%N -> u <> [] -> m_tag u = None. Proof. headless. Qed.
Lemma m_braces_head u : hd 0%N u <> 123%N -> u <> [] -> m_braces u = None. Proof. headless. Qed.
Lemma m_voice_open_head u : hd 0%N u <> 60%N -> u <> [] -> m_voice_open u = None. Proof. headless. Qed.
Lemma m_font_color_head u : hd 0%N u <> 60%N -> u <> [] -> m_font_color u = None. Proof. headless. Qed.
Lemma m_font_face_head u : hd 0%N u <> 60%N -> u <> [] -> m_font_face u = None. Proof. headless. Qed.
Lemma m_color_head a b u : hd 0%N u <> 92%N -> u <> [] -> m_color a b u = None. Proof. headless. Qed.
Lemma m_font_head a b u : hd 0%N u <> 92%N -> u <> [] -> m_font a b u = None. Proof. headless. Qed.
Lemma m_class_head u : hd 0%N u <> 60%N -> u <> [] -> m_class u = None. Proof. headless. Qed.
Lemma m_voice_head u : hd 0%N u <> 60%N -> u <> [] -> m_voice u = None. Proof. headless. Qed.
Lemma m_ruby_head u : hd 0%N u <> 60%N -> u <> [] -> m_ruby u = None. Proof. headless. Qed.
Lemma m_stamp_head u : hd 0%N u <> 60%N -> u <> [] -> m_stamp u = None. Proof. headless. Qed.
Lemma m_pos_head u : hd 0%N u <> 92%N -> u <> [] -> m_pos u = None. Proof. headless. Qed.

(* ---- text conversions on the lines of a cue ---- *)
Lemma line_toks b f l : concat (map (rend b f) (map P l)) = concat (map f l).
Proof. rewrite map_map. reflexivity. Qed.
Lemma line_tok_ok s l : Forall (piece_ok s) l -> Forall (tok_ok s) (map P l).
Proof. intros H. rewrite Forall_map. exact H. Qed.
Lemma ass_line_no_lt s l : Forall (piece_ok s) l -> without 60 (ass_line l).
Proof. intros H. unfold ass_line. rewrite <- (line_toks break). apply (toks_without 60 break _ s); [exact (line_tok_ok s l H)|reflexivity|apply ass_no_lt]. Qed.
Lemma conv_srt_line l : Forall (piece_ok false) l -> conv_srt_text (html_line l) = ass_line l.
Proof.
  intros H. unfold conv_srt_text, html_line. rewrite <- (line_toks break). rewrite (biu_in_toks break) by (auto using line_tok_ok).
  rewrite line_toks. apply (rewrite_none 60); [exact m_tag_head|exact (ass_line_no_lt false l H)].
Qed.
Lemma conv_vtt_line l : Forall (piece_ok false) l -> conv_vtt_text (html_line l) = ass_line l.
Proof.
  intros H. unfold conv_vtt_text, html_line. rewrite <- (line_toks break). rewrite (biu_in_toks break) by (auto using line_tok_ok).
  rewrite line_toks. pose proof (ass_line_no_lt false l H) as W. fold (ass_line l).
  rewrite (rewrite_none 60 m_voice_open) by (exact m_voice_open_head || exact W).
  change (lit "</v>") with (60%N :: lit "/v>"). rewrite replace_none by exact W.
  apply (rewrite_none 60); [exact m_tag_head|exact W].
Qed.
Lemma srt_styling_line l : Forall (piece_ok true) l -> srt_styling_in (html_line l) = ass_line l.
Proof.
  intros H. unfold srt_styling_in, html_line. rewrite <- (line_toks break). rewrite (bius_in_toks true break) by (auto using line_tok_ok).
  rewrite line_toks. pose proof (ass_line_no_lt true l H) as W. fold (ass_line l).
  rewrite (rewrite_none 60 m_font_color) by (exact m_font_color_head || exact W).
  change (lit "</font>") with (60%N :: lit "/font>"). rewrite replace_none by exact W.
  apply (rewrite_none 60); [exact m_font_face_head|exact W].
Qed.
Lemma vtt_styling_line l : Forall (piece_ok false) l -> vtt_styling_in (html_line l) = ass_line l.
Proof.
  intros H. unfold vtt_styling_in, html_line. rewrite <- (line_toks break). rewrite (bius_in_toks false break) by (auto using line_tok_ok).
  rewrite line_toks. pose proof (ass_line_no_lt false l H) as W. fold (ass_line l).
  rewrite (rewrite_none 60 m_class) by (exact m_class_head || exact W).
  rewrite (rewrite_none 60 m_voice) by (exact m_voice_head || exact W).
  rewrite (rewrite_none 60 m_ruby) by (exact m_ruby_head || exact W).
  apply (rewrite_none 60); [exact m_stamp_head|exact W].
Qed.
(* the way out, for all lines of a cue *)
Definition html_text (c : cue) : str := join [10%N] (map html_line (cu_lines c)).
Lemma cue_pieces s c : cue_ok s c -> Forall (fun l => Forall (piece_ok s) l) (cu_lines c).
Proof. intros H. eapply Forall_impl; [|exact (co_lines s c H)]. intros l L. exact (lo_pieces s l L). Qed.
Lemma break_out s l : Forall (tok_ok s) l ->
  replace break [10%N] (concat (map (rend break html_piece) l)) = concat (map (rend [10%N] html_piece) l).
Proof.
  intros H. apply replace_tokens; [discriminate|]. eapply Forall_impl; [|exact H]. intros [|p] Ht; [left; split; reflexivity|].
  right. split; [|reflexivity]. apply nowhere_without. exact (html_no_slash s p Ht).
Qed.
Lemma break_out_ass s l : Forall (tok_ok s) l ->
  replace break [10%N] (concat (map (rend break ass_piece) l)) = concat (map (rend [10%N] ass_piece) l).
Proof.
  intros H. apply replace_tokens; [discriminate|]. eapply Forall_impl; [|exact H]. intros [|[c|k on]] Ht; [left; split; reflexivity| |].
  - right. split; [|reflexivity]. apply plain_nowhere. cbn in Ht. apply special_false in Ht. tauto.
  - right. split; [|reflexivity]. destruct k, on; reflexivity.
Qed.
Lemma soft_out_ass s l : Forall (tok_ok s) l ->
  replace (lit "\n") [10%N] (concat (map (rend [10%N] ass_piece) l)) = concat (map (rend [10%N] ass_piece) l).
Proof.
  intros H. apply replace_tokens; [discriminate|]. eapply Forall_impl; [|exact H]. intros [|[c|k on]] Ht; [right; split; reflexivity| |].
  - right. split; [|reflexivity]. apply plain_nowhere. cbn in Ht. apply special_false in Ht. tauto.
  - right. split; [|reflexivity]. destruct k, on; reflexivity.
Qed.
Lemma find_char_without k s : without k s -> find_char (is_c k) s = None.
Proof. intros H. apply find_char_none. exact H. Qed.
Lemma strip_none s : without 123 s -> strip_ass_tags s = Ok s.
Proof. intros H. unfold strip_ass_tags. cbn [strip_braces]. rewrite (find_char_without 123 s H). reflexivity. Qed.
Lemma conv_text_cue c : cue_ok false c -> (t <~ conv_text_out (ass_text c) ; Ok (replace break [10%N] t)) = Ok (html_text c).
Proof.
  intros H. unfold conv_text_out, ass_text, html_text.
  pose proof (toks_ok false _ (cue_pieces false c H)) as T.
  change (lit "\N") with break. unfold ass_line, html_line. rewrite <- rend_toks. rewrite (biu_out_toks break) by auto.
  rewrite strip_none by (apply (toks_without 123 break _ false); [exact T|reflexivity|apply html_no_brace]).
  cbn [res_bind]. rewrite (break_out false) by exact T. rewrite rend_toks. reflexivity.
Qed.
Lemma html_toks_without k s c : cue_ok s c -> k <> 10%N -> (forall p, piece_ok s p -> without k (html_piece p)) -> without k (concat (map (rend [10%N] html_piece) (toks (cu_lines c)))).
Proof.
  intros H Hk Hf. apply (toks_without k [10%N] _ s); [exact (toks_ok s _ (cue_pieces s c H))| |exact Hf]. apply plain_without. congruence.
Qed.
Lemma srt_styling_cue c : cue_ok true c -> srt_styling_out (replace (lit "\n") [10%N] (replace break [10%N] (ass_text c))) = html_text c.
Proof.
  intros H. pose proof (toks_ok true _ (cue_pieces true c H)) as T. unfold ass_text, html_text, ass_line, html_line.
  change (lit "\N") with break. rewrite <- !rend_toks. rewrite (break_out_ass true), (soft_out_ass true) by exact T. unfold srt_styling_out.
  rewrite (bius_out_toks true [10%N]) by auto.
  pose proof (html_toks_without 92 true c H ltac:(discriminate) (html_no_slash true)) as W1.
  pose proof (html_toks_without 123 true c H ltac:(discriminate) (html_no_brace true)) as W2.
  rewrite (rewrite_none 92 (m_color _ _)) by (exact W1 || apply m_color_head).
  change (lit "{\c}") with (123%N :: lit "\c}"). rewrite replace_none by exact W2.
  rewrite (rewrite_none 92 (m_font _ _)) by (exact W1 || apply m_font_head).
  apply (rewrite_none 123); [exact m_braces_head|exact W2].
Qed.
Lemma vtt_styling_cue c : cue_ok false c -> vtt_styling_out (replace (lit "\n") [10%N] (replace break [10%N] (ass_text c))) = html_text c.
Proof.
  intros H. pose proof (toks_ok false _ (cue_pieces false c H)) as T. unfold ass_text, html_text, ass_line, html_line.
  change (lit "\N") with break. rewrite <- !rend_toks. rewrite (break_out_ass false), (soft_out_ass false) by exact T. unfold vtt_styling_out.
  rewrite (bius_out_toks false [10%N]) by auto.
  pose proof (html_toks_without 92 false c H ltac:(discriminate) (html_no_slash false)) as W1.
  pose proof (html_toks_without 123 false c H ltac:(discriminate) (html_no_brace false)) as W2.
  rewrite (rewrite_none 92 (m_color _ _)) by (exact W1 || apply m_color_head).
  change (lit "{\c}") with (123%N :: lit "\c}"). rewrite replace_none by exact W2.
  rewrite (rewrite_none 92 (m_font _ _)) by (exact W1 || apply m_font_head).
  change (lit "{\fn}") with (123%N :: lit "\fn}"). rewrite replace_none by exact W2.
  rewrite (rewrite_none 92 m_pos) by (exact W1 || apply m_pos_head).
  apply (rewrite_none 123); [exact m_braces_head|exact W2].
Qed.

(* ---- times ---- *)
Lemma digits_without k s : forallb is_digit s = true -> (k < 48 \/ 57 < k)%N -> without k s.
Proof.
  intros H Hk. apply (digits_not (fun c => (c =? k)%N)); [exact H|]. intros c Hc. unfold is_digit in Hc. lia.
Qed.
Definition digs (s : str) : Prop := forallb is_digit s = true.
Lemma split_three p k a b c : p k = true -> (forall x, is_digit x = true -> p x = false) -> digs a -> digs b -> forallb (fun x => negb (p x)) c = true ->
  split_on p (a ++ [k] ++ b ++ [k] ++ c) = [a; b; c].
Proof.
  intros Hk Hp Ha Hb Hc. cbn [app].
  rewrite split_on_app; [|exact (digits_not p a Ha Hp)|exact Hk]. rewrite split_on_app; [|exact (digits_not p b Hb Hp)|exact Hk].
  rewrite split_on_none by exact Hc. reflexivity.
Qed.
Lemma digit_colon x : is_digit x = true -> is_colon x = false.
Proof. unfold is_digit, is_colon. lia. Qed.
Lemma digit_dot x : is_digit x = true -> is_c 46 x = false.
Proof. unfold is_digit, is_c. lia. Qed.
Lemma no_colon_sec k a b : digs a -> digs b -> k <> 58%N -> forallb (fun x => negb (is_colon x)) (a ++ [k] ++ b) = true.
Proof.
  intros Ha Hb Hk. rewrite !forallb_app, (digits_not is_colon a Ha digit_colon), (digits_not is_colon b Hb digit_colon). cbn. unfold is_colon.
  destruct (N.eqb_spec k 58); [congruence|reflexivity].
Qed.
Lemma split_dot a b : digs a -> digs b -> split_on (is_c 46) (a ++ [46%N] ++ b) = [a; b].
Proof.
  intros Ha Hb. cbn [app]. rewrite split_on_app; [|exact (digits_not _ a Ha digit_dot)|reflexivity].
  rewrite split_on_none by exact (digits_not _ b Hb digit_dot). reflexivity.
Qed.
Lemma split_ass_time t : split_on is_colon (ass_time t) = [to_dec (ck_h t); dec_pad 2 (ck_m t); dec_pad 2 (ck_s t) ++ [46%N] ++ dec_pad 2 (ck_cs t)].
Proof. apply split_three; [reflexivity|exact digit_colon|apply to_dec_digits|apply dec_pad_digits|]. apply no_colon_sec; [apply dec_pad_digits..|discriminate]. Qed.
Lemma split_ms_time k t ms : k <> 58%N -> split_on is_colon (ms_time k t ms) = [dec_pad 2 (ck_h t); dec_pad 2 (ck_m t); dec_pad 2 (ck_s t) ++ [k] ++ dec_pad 3 ms].
Proof. intros Hk. apply split_three; [reflexivity|exact digit_colon|apply dec_pad_digits|apply dec_pad_digits|]. apply no_colon_sec; [apply dec_pad_digits..|exact Hk]. Qed.
Lemma mul_div10 n : (n * 10 / 10 = n)%N. Proof. apply N.div_mul. discriminate. Qed.
Lemma pu32 w n : (n <= u32_max)%N -> parse_u32 (dec_pad w n) = Some n.
Proof. apply parse_dec_pad. Qed.
Lemma pu32d n : (n <= u32_max)%N -> parse_u32 (to_dec n) = Some n.
Proof. apply parse_to_dec. Qed.

Lemma conv_out_time k t : clock_ok t -> conv_time_out k (ass_time t) = Ok (sub_time k t).
Proof.
  intros (H1 & H2 & H3 & H4). unfold conv_time_out. rewrite split_ass_time, split_dot by apply dec_pad_digits.
  rewrite pu32d by exact H1. rewrite pu32 by lia. unfold u32_mul. destruct (N.ltb_spec u32_max (ck_cs t * 10)); [lia|]. reflexivity.
Qed.
Lemma dot_time_ok t ms : clock_ok t -> (ms <= u32_max)%N ->
  dot_time (ck_h t) (ck_m t) (dec_pad 2 (ck_s t) ++ [46%N] ++ dec_pad 3 ms) = Ok (ass_time (Clock (ck_h t) (ck_m t) (ck_s t) (ms / 10))).
Proof.
  intros (H1 & H2 & H3 & H4) Hm. unfold dot_time. rewrite split_dot by apply dec_pad_digits. rewrite pu32 by exact H3. cbn [of_opt res_bind].
  rewrite pu32 by exact Hm. reflexivity.
Qed.
Lemma replace_comma t ms : replace (lit ",") (lit ".") (ms_time 44 t ms) = ms_time 46 t ms.
Proof.
  change (lit ",") with [44%N]. change (lit ".") with [46%N]. rewrite replace1_map. unfold ms_time. rewrite !map_app.
  assert (D : forall s, digs s -> map (fun x => if (x =? 44)%N then 46%N else x) s = s).
  { intros s H. rewrite <- (map_id s) at 2. apply map_ext_in. intros x Hx. unfold digs in H. rewrite forallb_forall in H. specialize (H x Hx).
    unfold is_digit in H. destruct (N.eqb_spec x 44); [lia|reflexivity]. }
  rewrite (D (dec_pad 2 (ck_h t))), (D (dec_pad 2 (ck_m t))), (D (dec_pad 2 (ck_s t))), (D (dec_pad 3 ms)) by apply dec_pad_digits. reflexivity.
Qed.
Lemma conv_srt_ms t ms : clock_ok t -> (ms <= u32_max)%N -> conv_srt_time (ms_time 44 t ms) = Ok (ass_time (Clock (ck_h t) (ck_m t) (ck_s t) (ms / 10))).
Proof.
  intros H Hm. pose proof H as (H1 & H2 & H3 & H4). unfold conv_srt_time. rewrite replace_comma, split_ms_time by discriminate.
  rewrite !pu32 by assumption. cbn [of_opt res_bind]. apply dot_time_ok; assumption.
Qed.
Lemma conv_vtt_ms t ms : clock_ok t -> (ms <= u32_max)%N -> conv_vtt_time (ms_time 46 t ms) = Ok (ass_time (Clock (ck_h t) (ck_m t) (ck_s t) (ms / 10))).
Proof.
  intros H Hm. pose proof H as (H1 & H2 & H3 & H4). unfold conv_vtt_time. rewrite split_ms_time by discriminate.
  rewrite !pu32 by assumption. cbn [of_opt res_bind]. apply dot_time_ok; assumption.
Qed.
Lemma clock_eta t : Clock (ck_h t) (ck_m t) (ck_s t) (ck_cs t * 10 / 10) = t.
Proof. rewrite mul_div10. destruct t; reflexivity. Qed.
Lemma conv_srt_sub t : clock_ok t -> conv_srt_time (sub_time 44 t) = Ok (ass_time t).
Proof. intros H. unfold sub_time. rewrite conv_srt_ms by (assumption || apply H). rewrite clock_eta. reflexivity. Qed.
Lemma conv_vtt_sub t : clock_ok t -> conv_vtt_time (sub_time 46 t) = Ok (ass_time t).
Proof. intros H. unfold sub_time. rewrite conv_vtt_ms by (assumption || apply H). rewrite clock_eta. reflexivity. Qed.

(* trimming *)
Definition solid (s : str) : Prop := match s with [] => False | c :: _ => is_ws c = false end /\ is_ws (last s 32%N) = false.
Lemma last_app_ne {A} (a b : list A) d : b <> [] -> last (a ++ b) d = last b d.
Proof.
  intros H. induction a as [|x a IH]; [reflexivity|]. cbn [app]. rewrite <- IH. destruct (a ++ b) eqn:E; [|reflexivity].
  apply app_eq_nil in E as [_ E]. congruence.
Qed.
Lemma solid_trim s : solid s -> trim s = s.
Proof.
  intros [H1 H2]. unfold trim, trim_start. rewrite drop_while_id by (destruct s; [contradiction|exact H1]).
  apply drop_end_id. right. destruct (exists_last (l := s)) as (l & c & E); [intros ->; contradiction|]. exists l, c. split; [exact E|].
  rewrite E, last_last in H2. exact H2.
Qed.
Lemma trim_solid s : s <> [] -> trim s = s -> solid s.
Proof.
  intros Hs H. unfold trim, trim_start in H. destruct s as [|c s]; [congruence|]. split.
  - destruct (is_ws c) eqn:E; [|reflexivity]. exfalso. cbn [drop_while] in H. rewrite E in H.
    destruct (drop_while_spec is_ws s) as (x & Hx & _). destruct (drop_end_spec is_ws (drop_while is_ws s)) as (y & Hy & _).
    unfold trim_end in H. rewrite H in Hy. apply (f_equal (@List.length N)) in Hx, Hy. rewrite app_length in Hx, Hy. cbn in *. lia.
  - unfold trim_end in H. destruct (drop_end_spec is_ws (drop_while is_ws (c :: s))) as (y & _ & _ & Q). rewrite H in Q.
    destruct Q as [Q|(l & d & E & Q)]; [discriminate|]. rewrite E, last_last. exact Q.
Qed.
Lemma solid_app a b : solid a -> solid b -> solid (a ++ b).
Proof.
  intros [H1 H2] [H3 H4]. split; [destruct a; [contradiction|exact H1]|]. rewrite last_app_ne; [exact H4|]. intros ->. contradiction.
Qed.
Lemma digs_solid s : s <> [] -> digs s -> solid s.
Proof.
  intros Hs H. assert (D : forall c, is_digit c = true -> is_ws c = false) by (intros c Hc; unfold is_digit in Hc; unfold is_ws; lia).
  unfold digs in H. rewrite forallb_forall in H. split; [destruct s; [congruence|apply D, H; left; reflexivity]|].
  apply D, H. destruct (exists_last Hs) as (l & c & ->). rewrite last_last. apply in_or_app. right. left. reflexivity.
Qed.
Lemma char_solid c : is_ws c = false -> solid [c]. Proof. intros H. split; exact H. Qed.
Lemma dec_pad_solid w n : solid (dec_pad w n). Proof. apply digs_solid; [apply dec_pad_nonempty|apply dec_pad_digits]. Qed.
Lemma to_dec_solid n : solid (to_dec n). Proof. apply digs_solid; [apply to_dec_nonempty|apply to_dec_digits]. Qed.
Lemma ms_time_solid k t ms : is_ws k = false -> solid (ms_time k t ms).
Proof. intros H. unfold ms_time. repeat (apply solid_app; [apply dec_pad_solid || (apply char_solid; (reflexivity || exact H))|]). apply dec_pad_solid. Qed.
Lemma ass_time_solid t : solid (ass_time t).
Proof. unfold ass_time. apply solid_app; [apply to_dec_solid|]. repeat (apply solid_app; [apply dec_pad_solid || (apply char_solid; reflexivity)|]). apply dec_pad_solid. Qed.
Lemma ass_time_trim t : trim (ass_time t) = ass_time t. Proof. apply solid_trim, ass_time_solid. Qed.

(* formats/ times *)
Lemma to_dec_no_zero n : (10 <= n)%N -> hd 0%N (to_dec n) <> 48%N.
Proof.
  intros H. unfold to_dec. generalize (to_dec_fuel n). generalize (N.size_nat n). intros f. revert n H.
  induction f as [|f IH]; intros n H B.
  - cbn in B. lia.
  - change (dec_digits (S (S f)) n) with (if (n <? 10)%N then [48 + n]%N else dec_digits (S f) (n / 10) ++ [48 + n mod 10]%N).
    destruct (N.ltb_spec n 10); [lia|].
    destruct (N.ltb_spec (n / 10) 10).
    + destruct f; cbn [dec_digits]; destruct (N.ltb_spec (n / 10) 10); try lia; cbn; lia.
    + assert (X : dec_digits (S f) (n / 10) <> []). { cbn [dec_digits]. destruct (n / 10 <? 10)%N; [discriminate|]. destruct (dec_digits f (n / 10 / 10)); discriminate. }
      specialize (IH (n / 10)%N H1). destruct (dec_digits (S f) (n / 10)) as [|c r]; [congruence|]. cbn [app hd] in *. apply IH.
      rewrite (Nat2N.inj_succ (S f)), N.pow_succ_r' in B. lia.
Qed.
Lemma drop_zero_pad n rest : (forall c r, rest = c :: r -> c = 58%N) -> rest <> [] -> drop_zero (dec_pad 2 n ++ rest) = to_dec n ++ rest.
Proof.
  intros Hr Hn. unfold dec_pad, pad_left. destruct (N.ltb_spec n 10) as [L|L].
  - assert (E : to_dec n = [48 + n]%N). { unfold to_dec. cbn [dec_digits]. destruct (N.ltb_spec n 10); [reflexivity|lia]. }
    rewrite E. reflexivity.
  - pose proof (to_dec_no_zero n L) as Z. pose proof (to_dec_nonempty n) as NE.
    assert (LEN : 2 - List.length (to_dec n) = 0).
    { unfold to_dec. cbn [dec_digits]. destruct (N.ltb_spec n 10); [lia|]. rewrite app_length. cbn [List.length].
      destruct (N.size_nat n) as [|f] eqn:E; [destruct n as [|[]]; discriminate || lia|].
      assert (X : dec_digits (S f) (n / 10) <> []) by (cbn [dec_digits]; destruct (n / 10 <? 10)%N; [discriminate|destruct (dec_digits f (n / 10 / 10)); discriminate]).
      destruct (dec_digits (S f) (n / 10)); [congruence|]. cbn [List.length]. lia. }
    rewrite LEN. cbn [repeat app]. destruct (to_dec n) as [|c r]; [congruence|]. cbn [app drop_zero hd] in *.
    destruct c as [|q]; [reflexivity|]. destruct (N.eqb_spec (N.pos q) 48); [congruence|].
    destruct r as [|d r]; cbn [app]; [destruct rest|]; unfold drop_zero; repeat (destruct q as [q|q|]; try reflexivity); exfalso; congruence.
Qed.
