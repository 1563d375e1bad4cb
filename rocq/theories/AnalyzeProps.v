(* The frame analyser of the debug tools. *)
From Coq Require Import QArith Qabs Lqa Sorted.
From Verif Require Import Base FloatModel GpuGeom AnalyzeModel AnalyzeSpec AnalyzeProofs AnalyzeCount.
Local Open Scope nat_scope.

Definition sizes_fit (f : frame) : Prop := (N.of_nat (f_w f) * N.of_nat (f_h f) < 4294967296)%N.
Lemma analyze_is f : whole f -> sizes_fit f -> exists rs, detect_regions f = Some rs /\
  analyze f = Some (Rp (f_w f * f_h f) (h_shown (pixel_histogram f)) (f_mul f32 (f_div f32 (f_of_nat (f_w f * f_h f - h_shown (pixel_histogram f))) (f_of_nat (f_w f * f_h f))) (Fin 100))
    (pixel_histogram f) rs (texts_of rs) (dominant (pixel_histogram f)) (contrast (pixel_histogram f) (h_shown (pixel_histogram f)))).
Proof.
  intros W S. destruct (regions_ok f W) as (all & _ & _ & _ & E). exists (map snd (filter big all)). split; [exact E|].
  unfold analyze. unfold sizes_fit in S. rewrite (proj2 (N.leb_gt _ _) S), E. destruct (histogram_ok f W) as (_ & K & _). cbv zeta.
  pose proof (tally_le f (shown f)) as T. rewrite <- K in T. rewrite (proj2 (Nat.ltb_ge _ _) T). reflexivity.
Qed.

(* The regions are the connected areas of visible pixels with more than ten of them, in the order of their first pixels,
   each with its exact box, size and mean colour. *)
Theorem analyze_regions f : whole f -> sizes_fit f -> exists rep all, analyze f = Some rep /\
  (forall p, In p (map fst all) <-> first_of_area f p) /\ StronglySorted (fun p q => place f p < place f q) (map fst all) /\
  Forall (fun g => describes f (fst g) (snd g)) all /\ p_regions rep = map snd (filter (fun g => 10 <? r_count (snd g)) all).
Proof.
  intros W S. destruct (analyze_is f W S) as (rs & E & ->). destruct (regions_ok f W) as (all & A & B & C & D). eexists. exists all. split; [reflexivity|]. repeat split; try apply A; auto.
  cbn [p_regions]. rewrite E in D. injection D as ->. reflexivity.
Qed.
Print Assumptions analyze_regions.
(* a row of two dots, then a bar of twelve pixels, diagonally next to a single one *)
Definition dot (a : N) : list N := [10; 20; 30; a]%N.
Definition picture : frame := Fr 7 3
  (dot 255 ++ dot 0 ++ dot 9 ++ dot 0 ++ dot 0 ++ dot 0 ++ dot 1 ++
   dot 0 ++ dot 8 ++ dot 8 ++ dot 8 ++ dot 8 ++ dot 8 ++ dot 0 ++
   dot 8 ++ dot 8 ++ dot 8 ++ dot 8 ++ dot 8 ++ dot 8 ++ dot 0).
Example analyze_regions_case : whole picture /\ sizes_fit picture /\ exists rep, analyze picture = Some rep /\ p_regions rep = [Rg 0 0 5 2 12 [10; 20; 30; 8]%N].
Proof.
  split; [split; [reflexivity|repeat constructor]|]. split; [reflexivity|]. vm_compute. eexists. split; reflexivity.
Qed.

(* The histogram counts every pixel, and the kinds add up; the dominant value of a channel is its first most frequent. *)
Theorem analyze_counts f : whole f -> sizes_fit f -> exists rep, analyze f = Some rep /\
  p_total rep = f_w f * f_h f /\ p_shown rep = tally f (shown f) /\
  (forall v, v < 256 -> nth v (h_red (p_histogram rep)) 0 = tally f (fun p => (channel f 0 p =? N.of_nat v)%N) /\ nth v (h_green (p_histogram rep)) 0 = tally f (fun p => (channel f 1 p =? N.of_nat v)%N) /\
      nth v (h_blue (p_histogram rep)) 0 = tally f (fun p => (channel f 2 p =? N.of_nat v)%N) /\ nth v (h_alpha (p_histogram rep)) 0 = tally f (fun p => (channel f 3 p =? N.of_nat v)%N)) /\
  h_white (p_histogram rep) = tally f (fun p => shown f p && grey f p && (200 <? channel f 0 p)%N) /\
  h_black (p_histogram rep) = tally f (fun p => shown f p && grey f p && (channel f 0 p <? 50)%N) /\
  h_gray (p_histogram rep) = tally f (fun p => shown f p && grey f p && (50 <=? channel f 0 p)%N && (channel f 0 p <=? 200)%N) /\
  h_colored (p_histogram rep) = tally f (fun p => shown f p && negb (grey f p)) /\
  exists r g b a, p_dominant rep = [r; g; b; a] /\ first_most (fun v => nth v (h_red (p_histogram rep)) 0) r /\ first_most (fun v => nth v (h_green (p_histogram rep)) 0) g /\
    first_most (fun v => nth v (h_blue (p_histogram rep)) 0) b /\ first_most (fun v => nth v (h_alpha (p_histogram rep)) 0) a.
Proof.
  intros W S. destruct (analyze_is f W S) as (rs & _ & ->). eexists. split; [reflexivity|]. cbn [p_total p_shown p_histogram p_dominant].
  destruct (histogram_ok f W) as (K1 & K2 & K3 & K4 & K5 & K6). split; [reflexivity|]. split; [exact K2|]. split; [exact K1|]. split; [exact K3|]. split; [exact K4|]. split; [exact K5|]. split; [exact K6|].
  destruct (table_sizes f W) as [S1 S2 S3 S4]. unfold dominant. cbn [map]. do 4 eexists. split; [reflexivity|]. repeat split; intros; apply most_first; assumption.
Qed.
Print Assumptions analyze_counts.
Example analyze_counts_case : exists rep, analyze picture = Some rep /\ p_shown rep = 14 /\ h_colored (p_histogram rep) = 14 /\ p_dominant rep = [10; 20; 30; 8].
Proof. vm_compute. eexists. repeat split; reflexivity. Qed.
(* The dominant colour need not be the colour of any pixel: a red, a green and a blue one give black. *)
Theorem dominant_refuted : exists f rep, whole f /\ analyze f = Some rep /\ p_dominant rep = [0; 0; 0; 255] /\
  forall p, visible f p -> [channel f 0 p; channel f 1 p; channel f 2 p] <> [0; 0; 0]%N.
Proof.
  exists (Fr 3 1 [255; 0; 0; 255; 0; 255; 0; 255; 0; 0; 255; 255]%N). eexists. split; [split; [reflexivity|repeat constructor]|]. split; [vm_compute; reflexivity|]. split; [reflexivity|].
  intros [x y] (X & Y & _). cbn in X, Y. assert (y = 0) by lia. subst y. destruct x as [|[|[|x]]]; [discriminate..|lia].
Qed.
Print Assumptions dominant_refuted.

(* The share of transparent pixels, in percent, to a ten-thousandth. *)
Theorem analyze_share f : whole f -> sizes_fit f -> 0 < f_w f * f_h f -> exists rep v, analyze f = Some rep /\ p_transparency rep = Fin v /\
  (Qabs (v - 100 * (qn (f_w f * f_h f - tally f (shown f)) / qn (f_w f * f_h f))) <= 1 # 10000)%Q.
Proof.
  intros W S P. destruct (analyze_is f W S) as (rs & _ & ->). destruct (histogram_ok f W) as (_ & K & _). cbv zeta in K. rewrite K.
  destruct (share_near (f_w f * f_h f - tally f (shown f)) (f_w f * f_h f)) as (v & E & H); [exact P|lia|unfold sizes_fit in S; lia|]. eexists. exists v. split; [reflexivity|]. split; [exact E|exact H].
Qed.
Print Assumptions analyze_share.
Example analyze_share_case : exists rep v, analyze picture = Some rep /\ p_transparency rep = Fin v /\ (33 < v < 34)%Q.
Proof. vm_compute. do 2 eexists. repeat split; reflexivity. Qed.

(* Text areas are the boxes of the regions that are wider than one and a half times their height, from 15 to 199 pixels
   high and bright in some channel, in order. *)
Theorem analyze_texts f : whole f -> sizes_fit f -> (Z.of_nat (f_w f) <= 16777216)%Z -> exists rep, analyze f = Some rep /\
  map (fun a => (a_x a, a_y a, a_width a, a_height a)) (p_texts rep) = map (fun r => (r_minx r, r_miny r, box_width r, box_height r)) (filter looks_like_text (p_regions rep)) /\
  Forall (fun a => a_size a = N.of_nat (3 * a_height a / 4) /\ exists v, a_confidence a = Fin v /\ (0 <= v <= 1)%Q) (p_texts rep).
Proof.
  intros W S B. destruct (analyze_is f W S) as (rs & E & ->). eexists. split; [reflexivity|]. cbn [p_texts p_regions].
  destruct (regions_ok f W) as (all & _ & _ & C & D). rewrite E in D. injection D as ->.
  assert (F : Forall (fun r => (Z.of_nat (box_width r) <= 16777216)%Z) (map snd (filter big all))).
  { apply Forall_forall. intros r H. apply in_map_iff in H. destruct H as (g & <- & H). apply filter_In in H. destruct H as [H _]. rewrite Forall_forall in C. specialize (C g H).
    destruct C as (area & _ & A & _ & _ & _ & [M _] & _). apply in_map_iff in M. destruct M as (q & Eq & Hq). apply A in Hq. apply (conn_right f) in Hq. destruct Hq as [Hx _]. unfold box_width. rewrite <- Eq. lia. }
  clear E C. induction (map snd (filter big all)) as [|r l IH]; cbn [texts_of filter map]; [split; [reflexivity|constructor]|]. inversion_clear F as [|? ? Fr Fl]. destruct (IH Fl) as [I1 I2].
  assert (T : text_of r = if looks_like_text r then Some (Ta (r_minx r) (r_miny r) (box_width r) (box_height r) (text_confidence r) (N.of_nat (3 * box_height r / 4))) else None).
  { unfold text_of, looks_like_text. cbv zeta. replace (r_maxx r - r_minx r + 1) with (box_width r) by (unfold box_width; lia). replace (r_maxy r - r_miny r + 1) with (box_height r) by (unfold box_height; lia).
    unfold nth_color. cbn [existsb]. rewrite orb_false_r, !orb_assoc. destruct (Nat.ltb_spec (box_height r) 200) as [L|L]; [|rewrite !andb_false_r; reflexivity].
    rewrite aspect_ok; [|unfold box_height; lia|exact L|exact Fr]. rewrite size_ok by exact L. rewrite !andb_true_r. destruct ((3 * box_height r <? 2 * box_width r) && (15 <=? box_height r)); cbn [andb]; reflexivity. }
  rewrite T. destruct (looks_like_text r); [|auto]. cbn [map]. rewrite I1. split; [reflexivity|]. constructor; [|exact I2]. cbn [a_size a_height a_confidence]. split; [reflexivity|apply confidence_ok].
Qed.
Print Assumptions analyze_texts.
Definition bar : frame := Fr 26 16 (flat_map (fun _ => flat_map (fun x => if x =? 0 then [0; 0; 0; 0]%N else [250; 250; 250; 255]%N) (seq 0 26)) (seq 0 16)).
Example analyze_texts_case : exists rep a, analyze bar = Some rep /\ p_texts rep = [a] /\ (a_x a, a_y a, a_width a, a_height a) = (1, 0, 25, 16) /\ a_size a = 12%N.
Proof. vm_compute. do 2 eexists. repeat split; reflexivity. Qed.

(* A frame whose buffer holds more pixels than its sizes say makes the analyser panic. *)
Theorem loose_frame_refuted : exists f, sizes_fit f /\ Forall (fun b => (b < 256)%N) (f_px f) /\ analyze f = None.
Proof. exists (Fr 1 1 [1; 1; 1; 1; 1; 1; 1; 1]%N). split; [reflexivity|]. split; [repeat constructor|vm_compute; reflexivity]. Qed.
Print Assumptions loose_frame_refuted.
