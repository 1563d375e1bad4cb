From Coq Require Import QArith.
From Verif Require Import Base BaseLemmas FloatModel LayoutModel LayoutSpec LayoutProofs LayoutMove.
Local Open Scope Z_scope.

(* C200: where a text box stands on the screen *)
Theorem box_exact : forall c s v w h W H, on_context c s -> small_screen s -> small W -> small H -> whole w W -> whole h H ->
  halfs (fst (calculate_position c (from_value v) w h)) (from_left (fst (keypad v)) (s_w s) (s_left s) (s_right s) W) /\
  halfs (snd (calculate_position c (from_value v) w h)) (from_top (snd (keypad v)) (s_h s) (s_vert s) H).
Proof. exact position_exact. Qed.
Print Assumptions box_exact.

Theorem box_inside : forall c s v w h W H, on_context c s -> small_screen s -> small W -> small H -> whole w W -> whole h H -> 0 <= s_left s -> 0 <= s_right s -> 0 <= s_vert s ->
  s_left s + W <= s_w s -> s_right s + W <= s_w s -> s_vert s + H <= s_h s ->
  exists x y, fst (calculate_position c (from_value v) w h) = Fin x /\ snd (calculate_position c (from_value v) w h) = Fin y /\ (0 <= x /\ x + inject_Z W <= inject_Z (s_w s) /\ 0 <= y /\ y + inject_Z H <= inject_Z (s_h s))%Q.
Proof. exact position_inside. Qed.
Print Assumptions box_inside.

Theorem coordinates_scaled : forall x y px py w h X Y PX PY kx ky, whole x X -> whole y Y -> whole px PX -> whole py PY -> whole w (kx * PX) -> whole h (ky * PY) -> PX <> 0 -> PY <> 0 ->
  Z.abs kx < 8388608 -> Z.abs ky < 8388608 -> Z.abs (X * kx) < 8388608 -> Z.abs (Y * ky) < 8388608 ->
  whole (fst (scale_coordinates x y px py w h)) (X * kx) /\ whole (snd (scale_coordinates x y px py w h)) (Y * ky).
Proof. exact scaling_exact. Qed.
Print Assumptions coordinates_scaled.

Definition hd : context := Cx (Fin 1920) (Fin 1080) (Fin 10) (Fin 30) (Fin 25) (Fin 1920) (Fin 1080).
Definition hd_screen : screen := Sn 1920 1080 10 30 25.
Example box_ex : on_context hd hd_screen /\ small_screen hd_screen /\ calculate_position hd (from_value 6) (Fin 301) (Fin 75) = (Fin 1589, Fin (1005 # 2)) /\ from_left (fst (keypad 6)) 1920 10 30 301 = 2 * 1589.
Proof. repeat split; try (now apply (lit_whole _)); try (cbn; lia); vm_compute; reflexivity || discriminate. Qed.
Example scaled_ex : scale_coordinates (Fin 100) (Fin 50) (Fin 640) (Fin 360) (Fin 1920) (Fin 1080) = (Fin 300, Fin 150).
Proof. vm_compute. reflexivity. Qed.

Theorem ssa_alignment_read : forall col rank, (col < 3)%N -> (rank < 3)%N -> convert_ssa (ssa_number col rank) = (1 + col + 3 * rank)%N /\ from_ssa_legacy (ssa_number col rank) = from_value (1 + col + 3 * rank)%N.
Proof. exact ssa_read. Qed.
Print Assumptions ssa_alignment_read.

(* the two readers of the old numbering agree on these bytes and no others *)
Theorem ssa_alignment_agree : forall v, (v < 256)%N -> (from_value (convert_ssa v) = from_ssa_legacy v <-> (v mod 4 <> 0 /\ (v / 4) mod 4 <> 3) \/ v mod 16 = 0)%N.
Proof. exact ssa_same. Qed.
Print Assumptions ssa_alignment_agree.

Theorem ssa_alignment_same_refuted : exists v, (v < 256)%N /\ from_value (convert_ssa v) <> from_ssa_legacy v.
Proof. exists 8%N. split; [reflexivity|]. vm_compute. discriminate. Qed.
Print Assumptions ssa_alignment_same_refuted.

(* C201: the lines of a text *)
Theorem multiline_text : forall text a sp, join [10%N] (map l_text (ml_lines (multiline_new text a sp))) = text /\ Forall (fun l => ~ In 10%N (l_text l)) (ml_lines (multiline_new text a sp)).
Proof. exact lines_text. Qed.
Print Assumptions multiline_text.

Theorem multiline_exact : forall parts v sp S, parts <> [] -> Forall (fun s => ~ In 10%N s) parts -> whole sp S -> 20 * Z.of_nat (blen (join [10%N] parts)) <= 1048576 -> Z.of_nat (length parts) * (50 + Z.abs S) <= 1048576 ->
  let m := multiline_new (join [10%N] parts) (from_value v) sp in
  length (ml_lines m) = length parts /\
  (forall i s, nth_error parts i = Some s -> exists l, nth_error (ml_lines m) i = Some l /\ line_at (fst (keypad v)) (widest parts) S i s l /\ 0 <= widest parts - 20 * Z.of_nat (blen s)) /\
  whole (ml_width m) (widest parts) /\ whole (ml_height m) ((Z.of_nat (length parts) - 1) * (50 + S) + 50).
Proof.
  intros parts v sp S NE F W T B. assert (E : split_on is_nl (join [10%N] parts) = parts).
  { apply split_on_join; [reflexivity|exact NE|]. eapply Forall_impl; [|exact F]. intros s N. apply forallb_forall. intros x I. apply negb_true_iff. destruct (is_nl x) eqn:X; [|reflexivity]. apply is_nl_eq in X. subst. contradiction. }
  pose proof (lines_exact (join [10%N] parts) (from_value v) sp S W T) as L. rewrite E in L. specialize (L B). cbv zeta in L |- *. rewrite <- from_value_keypad. exact L.
Qed.
Print Assumptions multiline_exact.

Example multiline_ex : let m := multiline_new (join [10%N] [lit "one"; lit "second"; []]) (from_value 2) (Fin 10) in
  map l_x (ml_lines m) = [Fin 30; Fin 0; Fin 60] /\ map l_y (ml_lines m) = [Fin 0; Fin 60; Fin 120] /\ ml_width m = Fin 120 /\ ml_height m = Fin 170.
Proof. vm_compute. repeat split. Qed.

(* the width of a line is counted in bytes, not characters *)
Theorem multiline_by_characters_refuted : exists a b, length a = length b /\ whole (ml_width (multiline_new a (from_value 2) (Fin 0))) 20 /\ whole (ml_width (multiline_new b (from_value 2) (Fin 0))) 40.
Proof. exists (lit "e"), [233%N]. split; [reflexivity|]. split; eexists; (split; [vm_compute; reflexivity|reflexivity]). Qed.
Print Assumptions multiline_by_characters_refuted.

(* C202: boxes placed and moved by their tags *)
Theorem placed_by_tags : forall t c s w h W H, on_config c s -> small_screen s -> small W -> small H -> whole w W -> whole h H ->
  let p := calculate t w h c in let a := seen (align_of t c) in
  let left := from_left (fst a) (s_w s) (s_left s) (s_right s) W in let top := from_top (snd a) (s_h s) (s_vert s) H in
  halfs (p_ax p) left /\ halfs (p_ay p) top /\
  match t_origin t with Some o => (p_ox p, p_oy p) = o | None => halfs (p_ox p) (left + W) /\ halfs (p_oy p) (top + H) end /\
  match t_pos t, t_move t with
  | Some (x, y), _ | None, Some (x, y, _, _, _, _) => p_explicit p = true /\ forall X Y, whole x X -> whole y Y -> small X -> small Y -> halfs (p_x p) (2 * X - inset (fst a) W) /\ halfs (p_y p) (2 * Y - drop (snd a) H)
  | None, None => p_explicit p = false /\ p_x p = p_ax p /\ p_y p = p_ay p
  end.
Proof. exact placed_exact. Qed.
Print Assumptions placed_by_tags.

Theorem seen_on_keypad : forall a, (1 <= a <= 9)%N -> (a mod 3 <> 0)%N -> seen a = keypad a.
Proof.
  intros a A M. assert (a = 1 \/ a = 2 \/ a = 3 \/ a = 4 \/ a = 5 \/ a = 6 \/ a = 7 \/ a = 8 \/ a = 9)%N as K by lia. repeat (destruct K as [->|K]; [reflexivity || now contradiction M|]). subst a. now contradiction M.
Qed.
Print Assumptions seen_on_keypad.

Theorem moved_at_its_ends : forall t c w h x1 y1 x2 y2 t1 t2 W H X1 Y1 X2 Y2, t_move t = Some (x1, y1, x2, y2, t1, t2) -> small W -> small H -> whole w W -> whole h H ->
  whole x1 X1 -> whole y1 Y1 -> whole x2 X2 -> whole y2 Y2 -> small X1 -> small Y1 -> small X2 -> small Y2 -> (t2 < 2 ^ 32)%N ->
  forall now start, (now < 2 ^ 32)%N -> let p := calculate_with_movement t w h c now start in let a := seen (align_of t c) in
    p_explicit p = true /\
    ((t1 < t2)%N -> (now <= start + t1)%N -> halfs (p_x p) (2 * X1 - inset (fst a) W) /\ halfs (p_y p) (2 * Y1 - drop (snd a) H)) /\
    ((start + t2 <= now)%N \/ (t2 <= t1)%N -> halfs (p_x p) (2 * X2 - inset (fst a) W) /\ halfs (p_y p) (2 * Y2 - drop (snd a) H)).
Proof. exact moved_ends. Qed.
Print Assumptions moved_at_its_ends.

(* with the theorem above: it stays between its ends and never turns back *)
Theorem moved_one_way : forall t c w h x1 y1 x2 y2 t1 t2 W H X1 Y1 X2 Y2, t_move t = Some (x1, y1, x2, y2, t1, t2) -> small W -> small H -> whole w W -> whole h H ->
  whole x1 X1 -> whole y1 Y1 -> whole x2 X2 -> whole y2 Y2 -> small X1 -> small Y1 -> small X2 -> small Y2 -> (t2 < 2 ^ 32)%N ->
  forall now now' start, (now <= now')%N -> (now' < 2 ^ 32)%N ->
    let p := calculate_with_movement t w h c now start in let q := calculate_with_movement t w h c now' start in
    ordered (X1 <=? X2) (p_x p) (p_x q) /\ ordered (Y1 <=? Y2) (p_y p) (p_y q).
Proof. exact moved_ordered. Qed.
Print Assumptions moved_one_way.

Theorem unmoved_same : forall t c w h now start, t_move t = None -> calculate_with_movement t w h c now start = calculate t w h c.
Proof. intros t c w h now start E. unfold calculate_with_movement. now rewrite E. Qed.
Print Assumptions unmoved_same.

Definition hd_config : config := Cf (Fin 1920) (Fin 1080) (Fin 10) (Fin 30) (Fin 25) 2.
Definition moving : tags := Tg (Some 5%N) None (Some (Fin 100, Fin 900, Fin 200, Fin 500, 1000%N, 3000%N)) None.
Example moving_ex : map (fun now => (p_x (calculate_with_movement moving (Fin 301) (Fin 75) hd_config now 5000), p_y (calculate_with_movement moving (Fin 301) (Fin 75) hd_config now 5000))) [4000; 6500; 9000]%N =
  [(Fin (-101 # 2), Fin (1725 # 2)); (Fin (-51 # 2), Fin (1525 # 2)); (Fin (99 # 2), Fin (925 # 2))].
Proof. vm_compute. reflexivity. Qed.
Example config_ex : on_config hd_config hd_screen /\ small 301 /\ small 75.
Proof. repeat split; try (now apply (lit_whole _)); vm_compute; discriminate. Qed.

(* boxes aligned right are put in the middle *)
Theorem right_aligned_refuted : exists a, (1 <= a <= 9)%N /\ fst (keypad a) = 2 /\ ~ whole (p_x (calculate (Tg (Some a) None None None) (Fin 301) (Fin 75) hd_config)) (1920 - 30 - 301) /\
  p_x (calculate (Tg (Some a) None None None) (Fin 301) (Fin 75) hd_config) = p_x (calculate (Tg (Some 2%N) None None None) (Fin 301) (Fin 75) hd_config).
Proof. exists 3%N. split; [lia|]. split; [reflexivity|]. split; [|vm_compute; reflexivity]. vm_compute. intros (v & E & V). injection E as <-. discriminate V. Qed.
Print Assumptions right_aligned_refuted.
