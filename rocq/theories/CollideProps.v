(* C47: where the collision resolver puts subtitles; C76: batches, free places, shared area. *)
From Coq Require Import Permutation Sorted.
From Verif Require Import Base FloatModel CollideModel CollideSpec CollideProofs CollideMore.
Local Open Scope Z_scope.

(* ---- C47 ---- *)
(* Any history of calls: every placed box gets the nearest free place in its
   direction, brought back onto the screen if that lies outside. *)
Theorem placing_exact : forall H h ops qs, 0 <= H <= 1048576 -> at64 h H -> Forall2 request_is ops qs -> Forall modest_request qs ->
  exists r outs zs final, collide_run (new_resolver h) ops = Some (r, outs) /\ Forall2 answer_is outs zs /\ expected H 128 [] qs zs final /\ Forall2 spot_is (r_placed r) final.
Proof.
  intros H h ops qs LH HH F M. apply (run_ok H LH ops qs F M (new_resolver h) [] 128); try assumption; try constructor; [exact (fl_grid 2)|unfold modest_margin; lia|unfold modest_margin; lia].
Qed.
Print Assumptions placing_exact.
(* A box is moved up or down only, ends on the screen, and keeps its distance
   from everything on its layer unless it was pressed against an edge. *)
Theorem placing_separates : forall r others m H e s, Forall2 spot_is (r_placed r) others -> at64 (r_margin r) m -> at64 (r_height r) H -> modest_margin m -> 0 <= H <= 1048576 ->
  Forall (fun s => modest_rect (s_rect s)) others -> spot_is e s -> modest_rect (s_rect s) ->
  exists r' b y, find_position r e = Some (r', b) /\ r_placed r' = r_placed r ++ [with_box e b] /\ rect_is b (at_y (s_rect s) y) /\ 0 <= y <= lowest H (h_of (s_rect s)) /\
  (free m others (s_layer s) (at_y (s_rect s) y) \/ y = 0 \/ y = lowest H (h_of (s_rect s))).
Proof.
  intros r others m H e s F M HH LM LH LO ES LS. destruct (find_ok r others m H e s F M HH LM LH LO ES LS) as (b & y & E & NF & RB & _). eexists. exists b, (on_screen H (h_of (s_rect s)) y). split; [exact E|]. split; [reflexivity|]. split; [exact RB|].
  split; [unfold on_screen, lowest; lia|]. destruct NF as (FR & _). destruct (Z.eq_dec (on_screen H (h_of (s_rect s)) y) y) as [K|K]; [left; now rewrite K|]. right. unfold on_screen, lowest in *. lia.
Qed.
Print Assumptions placing_separates.
(* a free spot is left alone *)
Theorem free_box_stays : forall r others m H e s, Forall2 spot_is (r_placed r) others -> at64 (r_margin r) m -> at64 (r_height r) H -> modest_margin m -> 0 <= H <= 1048576 ->
  Forall (fun s => modest_rect (s_rect s)) others -> spot_is e s -> modest_rect (s_rect s) -> free m others (s_layer s) (s_rect s) -> 0 <= y_of (s_rect s) <= lowest H (h_of (s_rect s)) ->
  exists r' b, find_position r e = Some (r', b) /\ rect_is b (s_rect s).
Proof.
  intros r others m H e s F M HH LM LH LO ES LS FR IN. destruct (find_ok r others m H e s F M HH LM LH LO ES LS) as (b & y & E & NF & RB & _). eexists. exists b. split; [exact E|].
  assert (Y : y = y_of (s_rect s)).
  { destruct NF as (_ & UP & DOWN). assert (FR' : free m others (s_layer s) (at_y (s_rect s) (y_of (s_rect s)))) by (destruct (s_rect s); exact FR). destruct (push_down (s_align s)) eqn:PD.
    - destruct DOWN as [D1 D2]; [intros BA; apply push_up_iff in BA; congruence|]. destruct (Z.eq_dec y (y_of (s_rect s))) as [K|K]; [exact K|]. exfalso. apply (D2 (y_of (s_rect s))); [lia|exact FR'].
    - destruct UP as [D1 D2]; [now apply push_up_iff|]. destruct (Z.eq_dec y (y_of (s_rect s))) as [K|K]; [exact K|]. exfalso. apply (D2 (y_of (s_rect s))); [lia|exact FR']. }
  rewrite Y in RB. replace (on_screen H (h_of (s_rect s)) (y_of (s_rect s))) with (y_of (s_rect s)) in RB by (unfold on_screen, lowest in *; lia). destruct (s_rect s). exact RB.
Qed.
Print Assumptions free_box_stays.
(* with any floats whatever, NaN and infinities included, nothing panics, and
   the answer is on the screen or not a number *)
Theorem placing_never_panics : forall h ops, exists r outs, collide_run (new_resolver h) ops = Some (r, outs).
Proof. intros. apply run_total. Qed.
Print Assumptions placing_never_panics.
Theorem placing_on_screen : forall r e, exists r' b, find_position r e = Some (r', b) /\ (b_y b = NaN \/ f_le (fl 0) (b_y b) = true /\ f_le (b_y b) (f_max (sub32 (r_height r) (b_h (p_box e))) (fl 0)) = true).
Proof. exact find_total. Qed.
Print Assumptions placing_on_screen.
(* two lines at the bottom of a 1080 pixel screen: the second goes above the first *)
Definition line_at (y : Z) (align : N) (prio : Z) : placed := Placed (BBox (fl 100) (fl y) (fl 200) (fl 50)) 0 align prio.
Definition spot_at (y : Z) (align : N) (prio : Z) : spot := Spot (Rect 6400 (64 * y) 12800 3200) 0 align prio.
Lemma line_spot y a p : spot_is (line_at y a p) (spot_at y a p).
Proof. split; [|split; [reflexivity|split; reflexivity]]. split; [exact (fl_grid 100)|]. split; [exact (fl_grid y)|]. split; [exact (fl_grid 200)|exact (fl_grid 50)]. Qed.
Example placing_instance :
  Forall2 request_is [CFixed (line_at 900 2 0); CFind (line_at 900 2 0)] [RFixed (spot_at 900 2 0); RFind (spot_at 900 2 0)] /\
  Forall modest_request [RFixed (spot_at 900 2 0); RFind (spot_at 900 2 0)] /\ 0 <= 69120 <= 1048576 /\
  match collide_run (new_resolver (fl 1080)) [CFixed (line_at 900 2 0); CFind (line_at 900 2 0)] with Some (_, [None; Some b]) => b_y b = fl 846 | _ => False end.
Proof.
  split; [constructor; [apply line_spot|constructor; [apply line_spot|constructor]]|]. split; [repeat constructor; cbn; lia|]. split; [lia|]. vm_compute. reflexivity.
Qed.
(* Not so: overlap is avoided whenever there is room.  A bottom line at the top
   of the screen is pushed off it, clamped, and covers the line it was to avoid. *)
Theorem room_unused_refuted : exists r e r' b o, In o (r_placed r) /\ p_layer o = p_layer e /\ find_position r e = Some (r', b) /\ intersects (p_box o) b = true /\
  f_le (add32 (fl 54) (b_h (p_box e))) (r_height r) = true /\ Forall (fun o => intersects (expand (p_box o) (r_margin r)) (expand (with_y (p_box e) (fl 54)) (r_margin r)) = false) (r_placed r).
Proof.
  exists (add_fixed (new_resolver (fl 1080)) (line_at 0 2 0)), (line_at 0 2 0). eexists. eexists. exists (line_at 0 2 0). split; [now left|]. split; [reflexivity|]. split; [vm_compute; reflexivity|]. split; [vm_compute; reflexivity|].
  split; [vm_compute; reflexivity|]. constructor; [vm_compute; reflexivity|constructor].
Qed.
Print Assumptions room_unused_refuted.

(* ---- C76 ---- *)
Theorem batch_exact : forall t r m H l zl, 0 <= H <= 1048576 -> at64 (r_height r) H -> at64 (r_margin r) m -> modest_margin m -> Forall2 spot_is l zl -> Forall (fun s => modest_rect (s_rect s)) zl ->
  (List.length l < 2)%nat \/ Forall (fun s => s_priority s <> -2147483648) zl ->
  exists r' out order zs final, process_events t r l = Some (r', out) /\ in_turn zl order /\ expected H m [] (map (ask t) order) zs final /\ Forall2 spot_is out final.
Proof. exact process_ok. Qed.
Print Assumptions batch_exact.
(* the order of treatment is determined *)
Theorem turn_unique : forall given a b, in_turn given a -> in_turn given b -> a = b.
Proof.
  intros given a b [P1 S1 T1] [P2 S2 T2]. assert (CL : forall p, filter (fun s => s_priority s =? p) a = filter (fun s => s_priority s =? p) b) by (intros; now rewrite T1, T2). clear P1 P2 T1 T2. revert b S2 CL.
  induction a as [|x a IH]; intros [|y b] S2 CL.
  - reflexivity.
  - specialize (CL (s_priority y)). cbn [filter] in CL. rewrite Z.eqb_refl in CL. discriminate.
  - specialize (CL (s_priority x)). cbn [filter] in CL. rewrite Z.eqb_refl in CL. discriminate.
  - apply StronglySorted_inv in S1, S2. destruct S1 as [S1 F1], S2 as [S2 F2]. rewrite Forall_forall in F1, F2.
    assert (PX : s_priority x <= s_priority y).
    { assert (I : In x (y :: b)) by (assert (I : In x (filter (fun s => s_priority s =? s_priority x) (y :: b))) by (rewrite <- CL; cbn [filter]; rewrite Z.eqb_refl; now left); apply filter_In in I; tauto). destruct I as [->|I]; [lia|exact (F2 x I)]. }
    assert (PY : s_priority y <= s_priority x).
    { assert (I : In y (x :: a)) by (assert (I : In y (filter (fun s => s_priority s =? s_priority y) (x :: a))) by (rewrite CL; cbn [filter]; rewrite Z.eqb_refl; now left); apply filter_In in I; tauto). destruct I as [->|I]; [lia|exact (F1 y I)]. }
    assert (XY : x = y). { specialize (CL (s_priority x)). cbn [filter] in CL. rewrite Z.eqb_refl in CL. replace (s_priority y =? s_priority x) with true in CL by lia. congruence. } subst y. f_equal. apply IH; [exact S1|exact S2|].
    intros p. specialize (CL p). cbn [filter] in CL. destruct (s_priority x =? p); congruence.
Qed.
Print Assumptions turn_unique.
Theorem free_place_exact : forall b z existing zs bounds bottom, rect_is b z -> modest_rect z -> Forall2 rect_is existing zs -> Forall modest_rect zs -> at64 (b_h bounds) bottom ->
  exists o, first_acceptable zs z bottom (candidates (y_of z)) o /\ match find_free_position b existing bounds, o with Some (x, y), Some c => at64 x (x_of z) /\ at64 y c | None, None => True | _, _ => False end.
Proof. exact free_ok. Qed.
Print Assumptions free_place_exact.
Theorem shared_area : forall a b r s, rect_is a r -> rect_is b s -> modest_rect r -> modest_rect s -> 0 < w_of r -> 0 < h_of r -> 0 < w_of s -> 0 < h_of s ->
  let xo := Z.min (x_of r + w_of r) (x_of s + w_of s) - Z.max (x_of r) (x_of s) in let yo := Z.min (y_of r + h_of r) (y_of s + h_of s) - Z.max (y_of r) (y_of s) in
  (f_lt (fl 0) (overlap_area a b) = true <-> ~ apart_by 0 r s) /\ (xo * yo < 16777216 -> ~ apart_by 0 r s -> exists q, overlap_area a b = Fin q /\ (q == (xo * yo) # 4096)%Q).
Proof. exact area_pos. Qed.
Print Assumptions shared_area.
(* three events, the most important one last: it keeps its place *)
Example batch_instance :
  Forall2 spot_is [line_at 900 2 1; line_at 900 2 5; line_at 900 2 200] [spot_at 900 2 1; spot_at 900 2 5; spot_at 900 2 200] /\
  match process_events 100 (new_resolver (fl 1080)) [line_at 900 2 1; line_at 900 2 5; line_at 900 2 200] with
  | Some (_, [a; b; c]) => p_priority a = 200 /\ b_y (p_box a) = fl 900 /\ p_priority b = 5 /\ b_y (p_box b) = fl 846 /\ p_priority c = 1 /\ b_y (p_box c) = fl 792
  | _ => False end.
Proof. split; [repeat (constructor; [apply line_spot|]); constructor|]. vm_compute. tauto. Qed.
Example free_place_instance : find_free_position (BBox (fl 0) (fl 0) (fl 10) (fl 10)) [BBox (fl 0) (fl 5) (fl 10) (fl 10)] (BBox (fl 0) (fl 0) (fl 100) (fl 100)) = Some (fl 0, fl 20).
Proof. vm_compute. reflexivity. Qed.
(* the smallest priority overflows the sort key *)
Theorem least_priority_refuted : exists t r l, Forall (fun e => -2147483648 <= p_priority e <= 2147483647) l /\ process_events t r l = None.
Proof. exists 100, (new_resolver (fl 1080)), [line_at 0 2 0; line_at 0 2 (-2147483648)]. split; [repeat constructor; cbn; lia|]. vm_compute. reflexivity. Qed.
Print Assumptions least_priority_refuted.
(* a free place may lie outside the bounds: above them going down, below them going up *)
Theorem free_place_outside_refuted :
  (exists b existing bounds x y, b_y bounds = fl 0 /\ b_h bounds = fl 100 /\ find_free_position b existing bounds = Some (x, y) /\ f_lt y (b_y bounds) = true) /\
  (exists b existing bounds x y, b_y bounds = fl 0 /\ b_h bounds = fl 100 /\ find_free_position b existing bounds = Some (x, y) /\ f_lt (add32 (b_y bounds) (b_h bounds)) (add32 y (b_h b)) = true).
Proof.
  split.
  - exists (BBox (fl 0) (fl (-50)) (fl 10) (fl 10)), [], (BBox (fl 0) (fl 0) (fl 100) (fl 100)). eexists. eexists. split; [reflexivity|]. split; [reflexivity|]. split; [vm_compute; reflexivity|vm_compute; reflexivity].
  - exists (BBox (fl 0) (fl 150) (fl 10) (fl 10)), [], (BBox (fl 0) (fl 0) (fl 100) (fl 100)). eexists. eexists. split; [reflexivity|]. split; [reflexivity|]. split; [vm_compute; reflexivity|vm_compute; reflexivity].
Qed.
Print Assumptions free_place_outside_refuted.
