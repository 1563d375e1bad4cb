(* C129-C131: lines, colours and fades, karaoke. *)
From Verif Require Import Base FloatModel FloatSpec FloatProofs CollideModel CollideProofs SegmentModel AnimModel AnimSpec AnimProofs AnimFields ShowModel ShowSpec ShowProofs.

(* ---- C129: the lines of an event ---- *)
Theorem lines_divided segs : exists groups, divided (line_marks segs) groups /\
  map line_marks (split_into_lines segs) = filter not_empty groups /\
  Forall (Forall (fun s => sg_text s <> [])) (split_into_lines segs).
Proof. exact (lines_are segs). Qed.
Theorem lines_unique ms groups groups' : divided ms groups -> divided ms groups' -> groups = groups'.
Proof. intros H H'. exact (divided_fun ms groups H groups' H'). Qed.
(* runs without newlines stay whole *)
Theorem lines_whole segs : Forall (fun s => ~ In 10%N (sg_text s)) segs ->
  split_into_lines segs = match filter (fun s => not_empty (sg_text s)) segs with [] => [] | l => [l] end.
Proof.
  intros F. unfold split_into_lines. assert (K : forall cur, fold_left add_segment segs ([], cur) = ([], cur ++ filter (fun s => not_empty (sg_text s)) segs)).
  { induction F as [|s r S0 _ IH]; intros cur; cbn [fold_left filter]; [now rewrite app_nil_r|]. unfold add_segment at 2. destruct (sg_text s) as [|c t] eqn:T; cbn [not_empty]; [apply IH|].
    assert (X : existsb ShowModel.is_break (c :: t) = false). { destruct (existsb ShowModel.is_break (c :: t)) eqn:X; [|reflexivity]. exfalso. apply existsb_exists in X as (x & I & X). apply N.eqb_eq in X. subst x. now apply S0. }
    rewrite X. cbn [fst snd]. rewrite IH, <- app_assoc. reflexivity. }
  rewrite K. cbn [app]. destruct (filter _ segs); reflexivity.
Qed.
Definition run_of (s : str) : segment := Segment s 0 0 no_tags.
Example lines_instance : map (map sg_text) (split_into_lines [run_of (lit "ab" ++ 10%N :: lit "c"); run_of (lit "d" ++ [10%N])]) = [[lit "ab"]; [lit "c"; lit "d"]].
Proof. reflexivity. Qed.
(* two breaks in a row leave an empty line between them *)
Theorem lines_blank_refuted : ~ forall segs groups, divided (line_marks segs) groups -> length (split_into_lines segs) = length groups.
Proof.
  intros H. specialize (H [run_of [97; 10; 10; 98]%N] [marks (run_of [97%N]); []; marks (run_of [98%N])]). assert (K : length (split_into_lines [run_of [97; 10; 10; 98]%N]) = 3). { apply H. apply (dv_cons (marks (run_of [97%N]))); [apply Forall_cons; [discriminate|apply Forall_nil]|reflexivity|]. apply (dv_cons []); [apply Forall_nil|reflexivity|]. apply dv_last. apply Forall_cons; [discriminate|apply Forall_nil]. }
  vm_compute in K. discriminate K.
Qed.
Print Assumptions lines_divided.
Print Assumptions lines_unique.
Print Assumptions lines_whole.
Print Assumptions lines_blank_refuted.

(* ---- C130: colours and fades ---- *)
Open Scope Q_scope.
Definition byte_tag (t : tags) (f : field) : option N := match tg_field t f with Some (VByte n) => Some n | _ => None end.
Theorem colors_without_fade t d start fin now : tg_field t FFade = None ->
  resolve_run_colors t d start fin now = Done
    (part_color (tg_field t FPrimary) (lk_primary d) (match byte_tag t FAlpha1 with Some a => Some a | None => byte_tag t FAlpha end),
     part_color (tg_field t FOutline) (lk_outline d) (byte_tag t FAlpha3),
     part_color (tg_field t FBack) (lk_back d) (byte_tag t FAlpha4)).
Proof.
  intros F. unfold resolve_run_colors, run_colors. rewrite F.
  assert (P : forall tag style b, override b (with_alpha (color_or tag style) (alpha_of style)) = part_color tag style b). { intros tag [[[r g] b] a] o. unfold part_color, override, color_or, with_alpha, alpha_of. destruct o; destruct tag as [[| |[[[? ?] ?] ?]| | | | | | |]|]; reflexivity. }
  rewrite !P. unfold byte_tag, or_byte, byte_of. destruct (tg_field t FAlpha1) as [[]|]; reflexivity.
Qed.
Definition all_alphas (P : N -> Prop) (c : rgba * rgba * rgba) : Prop := let '(x, y, z) := c in P (alpha_of x) /\ P (alpha_of y) /\ P (alpha_of z).
Definition all_colors (R : rgba -> rgba -> Prop) (c c' : rgba * rgba * rgba) : Prop := let '(x, y, z) := c in let '(x', y', z') := c' in R x x' /\ R y y' /\ R z z'.
Lemma without_fade t d start fin now cs : resolve_run_colors (set_field FFade None t) d start fin now = Done cs -> cs = run_colors t d.
Proof. unfold resolve_run_colors, run_colors. cbn [set_field tg_field field_eq]. now intros [= <-]. Qed.
(* a fade dims every colour of the run by the same opacity and changes nothing else *)
Theorem fade_dims t d start fin now v cs q : tg_field t FFade = Some v -> modest_fade v -> fade_fits start v ->
  resolve_run_colors (set_field FFade None t) d start fin now = Done cs -> all_alphas (fun a => (a < 256)%N) cs ->
  opacity start fin now v q ->
  exists cs', resolve_run_colors t d start fin now = Done cs' /\ all_colors (seen_at q) cs cs'.
Proof.
  intros F M FF E A O. apply without_fade in E. destruct (fade_seen v start fin now q M FF O) as (fa & x & X & L & XE & X1 & X0). unfold resolve_run_colors. rewrite F, X, <- E. destruct cs as [[c o] s]. destruct A as (A1 & A2 & A3). eexists. split; [reflexivity|]. cbn [all_colors]. repeat split; now apply (dim_seen fa x).
Qed.
Theorem fade_opacity start fin now v : modest_fade v -> exists q, opacity start fin now v q.
Proof. exact (opacity_is start fin now v). Qed.
Theorem fade_grows t d start fin now later a b i o c c' : tg_field t FFade = Some (VFade a b i o None) -> (now <= later < start + i)%N ->
  all_alphas (fun a => (a < 256)%N) (run_colors t d) ->
  resolve_run_colors t d start fin now = Done c -> resolve_run_colors t d start fin later = Done c' ->
  all_colors (fun x y => (alpha_of x <= alpha_of y)%N) c c'.
Proof.
  intros F L A. unfold resolve_run_colors. rewrite F. destruct (run_colors t d) as [[x y] z]. destruct A as (A1 & A2 & A3). destruct (N.lt_ge_cases (start + i) (2 ^ 32)) as [B|B].
  - destruct (fade_in_lit i o start fin now later B ltac:(lia) ltac:(lia)) as (fa & fa' & u & u' & E & E' & P & P' & U). change (fade_alpha (VFade a b i o None) start fin now) with (fade_alpha (VFade 255 255 i o None) start fin now). change (fade_alpha (VFade a b i o None) start fin later) with (fade_alpha (VFade 255 255 i o None) start fin later). rewrite E, E'. intros [= <-] [= <-]. cbn [all_colors]. repeat split; now apply (dim_mono fa fa' u u').
  - assert (K : fade_alpha (VFade a b i o None) start fin now = None) by (apply fade_none; cbn [fade_fits]; lia). rewrite K. discriminate.
Qed.
Theorem fade_falls t d start fin now later a b i o c c' : tg_field t FFade = Some (VFade a b i o None) -> (start + i <= now <= later)%N -> (o < 2 ^ 32)%N ->
  all_alphas (fun a => (a < 256)%N) (run_colors t d) ->
  resolve_run_colors t d start fin now = Done c -> resolve_run_colors t d start fin later = Done c' ->
  all_colors (fun x y => (alpha_of y <= alpha_of x)%N) c c'.
Proof.
  intros F L O A. unfold resolve_run_colors. rewrite F. destruct (run_colors t d) as [[x y] z]. destruct A as (A1 & A2 & A3). destruct (N.lt_ge_cases (start + i) (2 ^ 32)) as [B|B].
  - destruct (fade_out_lit i o start fin now later B O ltac:(lia) ltac:(lia)) as (fa & fa' & u & u' & E & E' & P & P' & U). change (fade_alpha (VFade a b i o None) start fin now) with (fade_alpha (VFade 255 255 i o None) start fin now). change (fade_alpha (VFade a b i o None) start fin later) with (fade_alpha (VFade 255 255 i o None) start fin later). rewrite E, E'. intros [= <-] [= <-]. cbn [all_colors]. repeat split; now apply (dim_mono fa' fa u' u).
  - assert (K : fade_alpha (VFade a b i o None) start fin now = None) by (apply fade_none; cbn [fade_fits]; lia). rewrite K. discriminate.
Qed.
Theorem fade_panics t d start fin now : resolve_run_colors t d start fin now = Crash <-> exists v, tg_field t FFade = Some v /\ ~ fade_fits start v.
Proof.
  unfold resolve_run_colors. destruct (run_colors t d) as [[x y] z]. destruct (tg_field t FFade) as [v|]; [|split; [discriminate|intros (v & K & _); discriminate]].
  pose proof (fade_none v start fin now) as K. destruct (fade_alpha v start fin now).
  - split; [discriminate|]. intros (w & [= <-] & W). apply K in W. discriminate.
  - split; [intros _; exists v; split; [reflexivity|now apply K]|reflexivity].
Qed.
Definition plain_look : look := Look (255, 255, 255, 255)%N (255, 0, 0, 255)%N (0, 0, 0, 255)%N (0, 0, 0, 128)%N (Fin 40).
Definition faded (v : value) : tags := set_field FFade (Some v) no_tags.
Example fade_instance : modest_fade (VFade 255 255 100 50 None) /\ fade_fits 1000 (VFade 255 255 100 50 None) /\ opacity 1000 1400 1050 (VFade 255 255 100 50 None) (on_the_way 0 1 50 100) /\
  resolve_run_colors (faded (VFade 255 255 100 50 None)) plain_look 1000 1400 1050 = Done ((255, 255, 255, 127)%N, (0, 0, 0, 127)%N, (0, 0, 0, 64)%N).
Proof. split; [now split|]. split; [reflexivity|]. split; [now apply op_in|vm_compute; reflexivity]. Qed.
Example fade_complex_instance : modest_fade (VFade 255 255 100 400 (Some (0, 100, 100)%N)) /\
  resolve_run_colors (faded (VFade 255 255 100 400 (Some (0, 100, 100)%N))) plain_look 1000 1400 1350 = Done ((255, 255, 255, 127)%N, (0, 0, 0, 127)%N, (0, 0, 0, 64)%N).
Proof. split; [now repeat split|vm_compute; reflexivity]. Qed.
(* \alpha is for all parts of the text *)
Theorem alpha_tag_refuted : ~ forall t d start fin now n c o s, byte_tag t FAlpha = Some n -> byte_tag t FAlpha3 = None -> tg_field t FFade = None ->
  resolve_run_colors t d start fin now = Done (c, o, s) -> alpha_of o = n.
Proof.
  intros H. eassert (K : _); [eapply (H (set_field FAlpha (Some (VByte 0)) no_tags) plain_look 0 100 50 0)%N; vm_compute; reflexivity|]. vm_compute in K. discriminate K.
Qed.
(* a long fade late in a script panics *)
Theorem fade_total_refuted : ~ forall t d start fin now, (start <= now < fin)%N -> (fin < 2 ^ 32)%N -> resolve_run_colors t d start fin now <> Crash.
Proof.
  intros H. apply (H (faded (VFade 255 255 4294967290 0 None)) plain_look 100 200 150)%N; [lia|reflexivity|vm_compute; reflexivity].
Qed.
Close Scope Q_scope.
Print Assumptions colors_without_fade.
Print Assumptions fade_dims.
Print Assumptions fade_opacity.
Print Assumptions fade_grows.
Print Assumptions fade_falls.
Print Assumptions fade_panics.
Print Assumptions alpha_tag_refuted.
Print Assumptions fade_total_refuted.

(* ---- C131: syllables ---- *)
Theorem karaoke_sung line start now : (start + total_length line < 2 ^ 32)%N -> exists ps, sing_lines start now [line] = Done [ps] /\ line_sung start now line ps.
Proof. intros F. destruct (sing_ok line start now 0%N) as (ps & E & P); [lia|]. exists ps. cbn [sing_lines]. rewrite E. rewrite N.add_0_r in P. now split. Qed.
(* every line is sung from the start of the event *)
Theorem karaoke_lines lines start now : Forall (fun l => (start + total_length l < 2 ^ 32)%N) lines -> exists ps, sing_lines start now lines = Done ps /\ Forall2 (line_sung start now) lines ps.
Proof.
  induction 1 as [|l r L _ (ps & E & P)]; cbn [sing_lines]; [exists []; now split|]. destruct (sing_ok l start now 0%N) as (p & E' & P'); [lia|]. rewrite E', E. rewrite N.add_0_r in P'. eexists. split; [reflexivity|]. now apply Forall2_cons.
Qed.
Theorem karaoke_panics lines start now : (start < 2 ^ 32)%N -> (sing_lines start now lines = Crash <-> Exists (fun l => (2 ^ 32 <= start + total_length l)%N) lines).
Proof.
  intros B. split.
  - induction lines as [|l r IH]; cbn [sing_lines]; [discriminate|]. destruct (N.lt_ge_cases (start + total_length l) (2 ^ 32)) as [F|F]; [|intros _; now apply Exists_cons_hd].
    destruct (sing_ok l start now 0%N) as (p & -> & _); [lia|]. cbn [bind]. destruct (sing_lines start now r); try discriminate. intros _. apply Exists_cons_tl. now apply IH.
  - induction lines as [|l r IH]; intros X; [inversion X|]. cbn [sing_lines]. destruct (N.lt_ge_cases (start + total_length l) (2 ^ 32)) as [F|F].
    + destruct (sing_ok l start now 0%N) as (p & -> & _); [lia|]. inversion X as [? ? K|? ? K]; subst; [lia|]. now rewrite (IH K).
    + now rewrite (sing_crash l start now 0%N) by lia.
Qed.
Theorem karaoke_grows lines start now later ps ps' : (now <= later)%N -> sing_lines start now lines = Done ps -> sing_lines start later lines = Done ps' -> Forall2 (Forall2 further) ps ps'.
Proof.
  intros L. revert ps ps'. induction lines as [|l r IH]; intros ps ps'; cbn [sing_lines].
  - intros [= <-] [= <-]. constructor.
  - destruct (sing start now 0 l) eqn:E; try discriminate. destruct (sing start later 0 l) eqn:E'; try discriminate. destruct (sing_lines start now r); try discriminate. destruct (sing_lines start later r); try discriminate. intros [= <-] [= <-]. apply Forall2_cons; [eapply sing_mono; [exact L|exact E|exact E']|now apply IH].
Qed.
Definition syl (d : N) : tags := set_field FKaraoke (Some (VKaraoke d KFill None)) no_tags.
Example karaoke_instance : (1000 + total_length [syl 40; no_tags; syl 60] < 2 ^ 32)%N /\ sing_lines 1000 1055 [[syl 40; no_tags; syl 60]] = Done [[Some (Fin 1); None; Some (Fin (1 # 4))]].
Proof. split; [reflexivity|vm_compute; reflexivity]. Qed.
(* the second line of an event goes on where the first one ended *)
Theorem karaoke_continues_refuted : ~ forall start now l l' ps ps' t r p, l' = t :: r -> (now < start + total_length l)%N -> sing_lines start now [l; l'] = Done [ps; ps'] -> nth_error ps' 0 = Some (Some p) -> p = Fin 0.
Proof.
  intros H. eassert (K : _); [eapply (H 0%N 50%N [syl 100] [syl 100]); [reflexivity|reflexivity|vm_compute; reflexivity|vm_compute; reflexivity]|]. vm_compute in K. discriminate K.
Qed.
(* a syllable whose text changes its looks in the middle is sung once *)
Theorem karaoke_syllable_refuted : ~ forall text segs, segment_text text = Done (Some segs) -> text = lit "{\k50}la{\b1}la{\k50}la" -> total_length (map sg_tags segs) = 100%N.
Proof.
  intros H. eassert (K : _); [eapply (H (lit "{\k50}la{\b1}la{\k50}la")); [vm_compute; reflexivity|reflexivity]|]. vm_compute in K. discriminate K.
Qed.
Print Assumptions karaoke_sung.
Print Assumptions karaoke_lines.
Print Assumptions karaoke_panics.
Print Assumptions karaoke_grows.
Print Assumptions karaoke_continues_refuted.
Print Assumptions karaoke_syllable_refuted.
