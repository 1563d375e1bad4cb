(* The renderer's reading of event text: blocks, transforms, segments. *)
From Verif Require Import Base BaseLemmas SegmentModel SegmentSpec SegmentProofs SegmentBlock SegmentWalk SegmentEvent TagProofs TextProofs.

(* ---- C122: one block ---- *)
(* Every block text is divided in exactly one way; the block panics exactly
   when a piece is fatal, and otherwise leaves every field at the value of the
   last piece that gives, takes back or resets it, with the transforms since
   the last reset. *)
Theorem block_divided x : exists ps, divided 0 x ps /\ forall ps', divided 0 x ps' -> ps' = ps.
Proof. exists (pieces 0 x). split; [apply pieces_divided|]. intros ps' D. symmetry. now apply divided_unique. Qed.
Theorem piece_named p : splits_digit p \/ exists n a, piece_is p n a /\ forall n' a', piece_is p n' a' -> n' = n /\ a' = a.
Proof.
  destruct (extract_tag p) as [[n a]| |] eqn:E.
  - right. exists n, a. apply extract_iff in E. split; [exact E|]. intros n' a' P. destruct (piece_fun _ _ _ _ _ E P); auto.
  - exfalso. exact (extract_no_err p E).
  - left. now apply extract_panics.
Qed.
Theorem block_exact x t :
  (fatal_block x /\ process_tag_block x t = Crash) \/ (~ fatal_block x /\ exists t', process_tag_block x t = Done t' /\ block_does x t t').
Proof. exact (block_is x t). Qed.
Theorem block_field x t t' ps f v : process_tag_block x t = Done t' -> divided 0 x ps -> (in_force f (tg_field t f) ps v <-> tg_field t' f = v).
Proof.
  intros P D. destruct (block_is x t) as [[_ H]|[_ (t1 & H & ps' & D' & _ & F & _)]]; rewrite H in P; [discriminate P|]. injection P as ->.
  apply divided_unique in D, D'. subst ps ps'. split; [intros I; exact (in_force_fun _ _ _ _ _ (F f) I)|intros <-; apply F].
Qed.
(* \1c, \blur with their values, then \r, then \fs and a comment *)
Example block_ex : exists t', process_tag_block (lit "\1c&H0000FF&\blur2\t(0,500,\fs40)\r\fs3\i1)") no_tags = Done t' /\
  tg_field t' FSize = Some (VNum (Fin 3)) /\ tg_field t' FBlur = None /\ tg_field t' FItalic = Some (VFlag true) /\ tg_transforms t' = [] /\
  divided 0 (lit "\1c&H0000FF&\blur2\t(0,500,\fs40)\r\fs3\i1)") [[]; lit "1c&H0000FF&"; lit "blur2"; lit "t(0,500,\fs40)"; lit "r"; lit "fs3"; lit "i1)"].
Proof.
  eexists. split; [vm_compute; reflexivity|]. repeat (split; [vm_compute; reflexivity|]).
  assert (E : pieces 0 (lit "\1c&H0000FF&\blur2\t(0,500,\fs40)\r\fs3\i1)") = [[]; lit "1c&H0000FF&"; lit "blur2"; lit "t(0,500,\fs40)"; lit "r"; lit "fs3"; lit "i1)"]) by (vm_compute; reflexivity).
  rewrite <- E. apply pieces_divided.
Qed.
(* what goes wrong *)
Theorem named_reset_refuted : ~ (forall name t, Forall letter name -> process_tag_block (lit "\r" ++ name) t = Done no_tags).
Proof.
  intros H. specialize (H (lit "Alt") (set_field FBold (Some (VFlag true)) no_tags)).
  assert (L : Forall letter (lit "Alt")) by (apply forall_letter; reflexivity). specialize (H L).
  apply (f_equal (fun r => match r with Done t => tg_field t FBold | _ => None end)) in H. vm_compute in H. discriminate H.
Qed.
Theorem last_tag_refuted : ~ (forall u t t', ~ In 40%N u -> process_tag_block (u ++ lit "\i1") t = Done t' -> tg_field t' FItalic = Some (VFlag true)).
Proof.
  intros H. eassert (K : _); [eapply (H (lit "\b1)") no_tags); [vm_compute; intuition discriminate|vm_compute; reflexivity]|]. vm_compute in K. discriminate K.
Qed.
Theorem comment_refuted : ~ (forall x t t', ~ In 92%N x -> process_tag_block x t = Done t' -> forall f, tg_field t' f = tg_field t f).
Proof.
  intros H. assert (H' := fun t' a b => H (lit "i think so") no_tags t' a b FItalic). eassert (K : _); [eapply H'; [vm_compute; intuition discriminate|vm_compute; reflexivity]|]. vm_compute in K. discriminate K.
Qed.

(* ---- C123: \t ---- *)
Theorem transform_exact args tr : is_transform args tr <-> parse_transform args = Done (Ok (Some tr)).
Proof. exact (transform_iff args tr). Qed.
Theorem transform_answers args : exists o, parse_transform args = Done (Ok o).
Proof. exact (transform_total args). Qed.
Example transform_ex : parse_transform (lit "(100,700,0.5,\fs40\3c&HFF0000&\b1\frz-90)") =
  Done (Ok (Some (Transform 100 700 (Fin (1 # 2)) [(FSize, VNum (Fin 40)); (FOutline, VColor (0, 0, 255, 0)%N); (FRotZ, VNum (Fin (-90)))]))).
Proof. vm_compute. reflexivity. Qed.
Theorem acceleration_refuted : ~ (forall s x tr, number s x -> parse_transform (lit "(" ++ s ++ lit ",\fs30)") = Done (Ok (Some tr)) -> tr_accel tr = x).
Proof.
  intros H. eassert (K : _); [eapply (H (lit "20")); vm_compute; reflexivity|]. vm_compute in K. discriminate K.
Qed.

(* ---- C124: segments ---- *)
(* Every event text is characters, escapes and blocks with an ending, or nested
   too deep. *)
Theorem segments_of_text text : exists l, Forall seg_ok l /\
  ((exists e, ending_ok e /\ text = event_text l e) \/ exists tail, text = flat_map seg_text l ++ tail /\ too_deep tail).
Proof. exact (text_cases (List.length text) text (le_n _)). Qed.
Theorem segments_exact l e : Forall seg_ok l -> ending_ok e -> Forall safe_seg l -> safe_end e -> tagged_text l e ->
  (Exists fatal_seg l /\ segment_text (event_text l e) = Crash) \/
  (~ Exists fatal_seg l /\ exists segs last, cut_up e 0 no_tags (fst (runs l)) (snd (runs l)) segs last /\
     segment_text (event_text l e) = Done (Some (all_segments l e segs last))).
Proof. exact (segment_tagged l e). Qed.
Theorem segments_plain l e : Forall seg_ok l -> ending_ok e -> Forall safe_seg l -> safe_end e -> ~ tagged_text l e ->
  exists plain m, visible false l plain m /\ segment_text (event_text l e) = Done (Some [Segment plain 0 (blen (event_text l e)) no_tags]).
Proof. exact (segment_untagged l e). Qed.
Theorem segments_panic l e : Forall seg_ok l -> ending_ok e -> ~ (Forall safe_seg l /\ safe_end e) -> segment_text (event_text l e) = Crash.
Proof. exact (segment_fails l e). Qed.
Theorem segments_too_deep l tail : Forall seg_ok l -> too_deep tail ->
  segment_text (flat_map seg_text l ++ tail) = if safe_segs_dec l then Done None else Crash.
Proof. intros OK D. destruct (safe_segs_dec l) as [S|S]; [now apply segment_deep|now apply segment_deep_fails]. Qed.
(* together the segments show everything outside the blocks, in order, each at
   its place *)
Theorem segments_show l e segs last : Forall seg_ok l -> cut_up e 0 no_tags (fst (runs l)) (snd (runs l)) segs last ->
  flat_map sg_text segs = seen l ++ slash e /\ placed (blen (source l ++ slash e)) 0 segs /\ Forall (shows (event_text l e)) segs.
Proof.
  intros OK C. destruct (runs_ok l OK) as [RM RR]. split; [rewrite (cut_text _ _ _ _ _ _ _ C), (runs_seen l), <- app_assoc; reflexivity|]. split.
  - pose proof (cut_placed _ _ _ _ _ _ _ C RM RR) as P. rewrite app_assoc, <- runs_source in P. exact P.
  - apply (cut_shows e _ _ _ _ _ _ [] (event_text l e) C RM RR eq_refl).
    exists (match e with EndOpen x => 123%N :: x | _ => [] end). unfold event_text. cbn [app]. rewrite !app_assoc, <- runs_source. unfold source. rewrite <- app_assoc. destruct e; reflexivity.
Qed.
Example segments_ex : let text := lit "a\Nb{\b1}{\i1}c{x" in
  exists t1 t2, segment_text text = Done (Some [Segment ([97; 10; 98]%N) 0 4 t1; Segment (lit "c") 14 15 t2]) /\
    tg_field t2 FBold = Some (VFlag true) /\ tg_field t2 FItalic = Some (VFlag true) /\ tg_field t1 FBold = None.
Proof. cbv zeta. do 2 eexists. split; [vm_compute; reflexivity|]. repeat split. Qed.
Example segments_empty_ex : exists t, segment_text (lit "{\b1}") = Done (Some [Segment [] 5 5 t]).
Proof. eexists. vm_compute. reflexivity. Qed.
Example segments_hyp_ex : let l := [Chr 97%N; Block (lit "\b1")] in
  Forall seg_ok l /\ ending_ok EndText /\ Forall safe_seg l /\ safe_end EndText /\ tagged_text l EndText /\ ~ Exists fatal_seg l.
Proof.
  cbv zeta. assert (PO : pieces_ok [PTag (lit "b") (lit "1")] /\ lit "\b1" = pieces_text [PTag (lit "b") (lit "1")]).
  { split; [|reflexivity]. split; [|exact I]. split.
    - split; [split; [discriminate|]|].
      + exists [], (lit "b"). split; [reflexivity|]. split; [now left|]. apply forall_letter. reflexivity.
      + split.
        * intros p q E NQ [S|S]; subst p; destruct q; try contradiction; cbn in E; discriminate E.
        * right. intros (c & r & E & L). injection E as <- _. unfold letter in L. lia.
    - right. split; [intros [E _]; discriminate E|]. split; [vm_compute; intuition discriminate|now left]. }
  destruct PO as [PO PE].
  assert (SB : safe_block (lit "\b1")) by (intros ps E K; assert (ps = [PTag (lit "b") (lit "1")]) as -> by (apply pieces_unique; [exact K|exact PO|congruence]); repeat constructor; intros []).
  split; [apply Forall_cons; [split; discriminate|]; apply Forall_cons; [split; [|reflexivity]|constructor]|split; [exact I|]; split; [apply Forall_cons; [exact I|]; apply Forall_cons; [exact SB|constructor]|]; split; [exact I|]; split].
  - intros p q E. assert (B : forallb (fun c => negb (c =? 123)%N && negb (c =? 125)%N) (p ++ q) = true) by (rewrite <- E; reflexivity). rewrite forallb_app in B. apply andb_prop in B as [B _].
    clear E. assert (Z : braces p = 0%Z); [|lia]. induction p as [|c p IH]; [reflexivity|]. cbn [forallb] in B. apply andb_prop in B as [C B]. apply andb_prop in C as [C1 C2].
    apply negb_true_iff in C1, C2. cbn [braces]. rewrite C1, C2, (IH B). reflexivity.
  - left. right. left. exists [PTag (lit "b") (lit "1")], (lit "b"), (lit "1"). split; [exact PE|]. split; [exact PO|now left].
  - intros X. inversion X as [? ? Y|? ? Y]; [destruct Y|]. inversion Y as [? ? Z|? ? Z]; [|inversion Z]. cbn in Z.
    destruct (block_is (lit "\b1") no_tags) as [[_ Q]|[Q _]]; [vm_compute in Q; discriminate Q|contradiction].
Qed.
Theorem segments_panic_digit_refuted : ~ (forall text a, analyze_text text = Done (Some a) -> segment_text text <> Crash).
Proof.
  intros H. eassert (K : _); [eapply (H [123; 92; 49; 233; 125]%N); vm_compute; reflexivity|]. apply K. vm_compute. reflexivity.
Qed.
Theorem segments_panic_fade_refuted : ~ (forall l e, Forall (fun c => (c < 128)%N) (event_text l e) -> segment_text (event_text l e) <> Crash).
Proof.
  intros H. apply (H [Block (lit "\fade(255,0,255,500,100,800,900)")] EndText); [|vm_compute; reflexivity].
  apply Forall_forall. intros c I. assert (K : forallb (fun c => c <? 128)%N (event_text [Block (lit "\fade(255,0,255,500,100,800,900)")] EndText) = true) by (vm_compute; reflexivity).
  rewrite forallb_forall in K. apply N.ltb_lt. exact (K c I).
Qed.
Theorem segments_plain_text_refuted : ~ (forall text a segs, analyze_text text = Done (Some a) -> segment_text text = Done (Some segs) -> flat_map sg_text segs = ta_plain a).
Proof.
  intros H. eassert (K : _); [eapply (H (lit "{\p1}m 0 0")); vm_compute; reflexivity|]. vm_compute in K. discriminate K.
Qed.

(* ---- C125: the tags of an event ---- *)
Theorem event_tags_exact l e : Forall seg_ok l -> ending_ok e -> Forall safe_seg l -> safe_end e ->
  exists plain m ts ds ts' ds', visible false l plain m /\ tagged 0 l ts ds /\ tagged_end (blen (flat_map seg_text l)) e ts' ds' /\
  ((Exists fatal_tag (ts ++ ts') /\ process_event_tags (event_text l e) = Crash) \/
   (Forall (fun x => ~ fatal_tag x) (ts ++ ts') /\ exists p, process_event_tags (event_text l e) = Done (Some p) /\ pr_text p = plain /\
      offsets 10 plain (pr_breaks p) /\ offsets 160 plain (pr_nbsp p) /\
      (forall f v, after_tags f None (ts ++ ts') v <-> tg_field (pr_tags p) f = v) /\ all_transforms (ts ++ ts') (tg_transforms (pr_tags p)))).
Proof.
  intros OK OE SF SE. destruct (analyze_safe l e OK OE SF SE) as (plain & m & ts & ds & ts' & ds' & V & T & TE & AN).
  exists plain, m, ts, ds, ts', ds'. split; [exact V|]. split; [exact T|]. split; [exact TE|].
  unfold process_event_tags. rewrite AN. cbn [bind]. unfold finished. cbn [ta_tags ta_plain].
  destruct (tags_step (ts ++ ts') no_tags) as [[X K]|[X (t' & K & F & g & G & TG)]]; rewrite K; cbn [bind]; [left; auto|].
  right. split; [exact X|]. eexists. split; [reflexivity|]. cbn [pr_text pr_breaks pr_nbsp pr_tags]. split; [reflexivity|]. split; [apply positions_offsets|]. split; [apply positions_offsets|].
  split; [|rewrite TG; exact G]. intros f v. split; [intros A; exact (after_tags_fun _ _ _ _ _ (F f) A)|intros <-; apply F].
Qed.
Theorem event_tags_panic l e : Forall seg_ok l -> ending_ok e -> ~ (Forall safe_seg l /\ safe_end e) -> process_event_tags (event_text l e) = Crash.
Proof. intros OK OE N. unfold process_event_tags. rewrite analyze_unsafe by assumption. reflexivity. Qed.
Theorem event_tags_too_deep l tail : Forall seg_ok l -> too_deep tail ->
  process_event_tags (flat_map seg_text l ++ tail) = if safe_segs_dec l then Done None else Crash.
Proof. intros OK D. unfold process_event_tags. destruct (safe_segs_dec l) as [S|S]; [rewrite analyze_deep by assumption|rewrite analyze_unsafe_before by assumption]; reflexivity. Qed.
Example event_tags_ex : exists p, process_event_tags (lit "{\k20\kt50\frz30\rAlt}a\Nb") = Done (Some p) /\
  tg_field (pr_tags p) FKaraoke = Some (VKaraoke 20 KBasic (Some 50%N)) /\ tg_field (pr_tags p) FAngle = Some (VNum (Fin 30)) /\
  tg_field (pr_tags p) FReset = Some (VText (lit "Alt")) /\ pr_breaks p = [1] /\ pr_text p = [97; 10; 98]%N.
Proof. eexists. split; [vm_compute; reflexivity|]. vm_compute. repeat split. Qed.
Theorem event_tags_segments_refuted : ~ (forall text p s f, process_event_tags text = Done (Some p) -> segment_text text = Done (Some [s]) ->
  tg_field (pr_tags p) f = tg_field (sg_tags s) f).
Proof.
  intros H. eassert (K : _); [eapply (H (lit "{\b1\r}x") _ _ FBold); vm_compute; reflexivity|]. vm_compute in K. discriminate K.
Qed.

Print Assumptions block_divided.
Print Assumptions piece_named.
Print Assumptions block_exact.
Print Assumptions block_field.
Print Assumptions named_reset_refuted.
Print Assumptions last_tag_refuted.
Print Assumptions comment_refuted.
Print Assumptions transform_exact.
Print Assumptions transform_answers.
Print Assumptions acceleration_refuted.
Print Assumptions segments_of_text.
Print Assumptions segments_exact.
Print Assumptions segments_plain.
Print Assumptions segments_panic.
Print Assumptions segments_too_deep.
Print Assumptions segments_show.
Print Assumptions segments_panic_digit_refuted.
Print Assumptions segments_panic_fade_refuted.
Print Assumptions segments_plain_text_refuted.
Print Assumptions event_tags_exact.
Print Assumptions event_tags_panic.
Print Assumptions event_tags_too_deep.
Print Assumptions event_tags_segments_refuted.
