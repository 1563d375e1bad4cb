(* Lists of pixels and row loops. *)
From Verif Require Import Base BaseLemmas PixelModel PixelSpec.
Ltac nlia := zify; Z.to_euclidean_division_equations; lia.

(* ---- rounding ---- *)
Lemma product_bound (a b : N) : (a < 256 -> b < 256 -> a * b <= 65025)%N.
Proof. nia. Qed.
Lemma mul255_nearest a b : (a < 256)%N -> (b < 256)%N -> mul255 a b = Some (nearest a b).
Proof.
  intros A B. pose proof (product_bound a b A B) as P. unfold mul255, mul16, add16, nearest. set (p := (a * b)%N) in *. clearbody p.
  replace (p <? 65536)%N with true by lia. replace (p + 128 <? 65536)%N with true by lia. replace (p + 128 + (p + 128) / 256 <? 65536)%N with true by nlia. f_equal. nlia.
Qed.
Lemma mul255w_nearest a b : (a < 256)%N -> (b < 256)%N -> mul255w a b = nearest a b.
Proof.
  intros A B. pose proof (product_bound a b A B) as P. unfold mul255w, nearest. set (p := (a * b)%N) in *. clearbody p. cbv zeta.
  rewrite (N.mod_small p) by lia. rewrite (N.mod_small (p + 128)) by lia. rewrite (N.mod_small (p + 128 + _)) by nlia. nlia.
Qed.
Lemma nearest_close a b : (a < 256)%N -> (b < 256)%N -> (255 * nearest a b <= a * b + 127 /\ a * b <= 255 * nearest a b + 127)%N.
Proof. intros A B. pose proof (product_bound a b A B) as P. unfold nearest. set (p := (a * b)%N) in *. clearbody p. nlia. Qed.
Lemma nearest_le_l a b : (b < 256)%N -> (nearest a b <= a)%N.
Proof. intros B. unfold nearest. assert (a * b <= 255 * a)%N by nia. set (p := (a * b)%N) in *. clearbody p. nlia. Qed.
Lemma nearest_comm a b : nearest a b = nearest b a.
Proof. unfold nearest. now rewrite (N.mul_comm a b). Qed.
Lemma nearest_le_r a b : (a < 256)%N -> (nearest a b <= b)%N.
Proof. intros A. rewrite nearest_comm. now apply nearest_le_l. Qed.
Lemma nearest_mono a b k : (a <= b)%N -> (nearest a k <= nearest b k)%N.
Proof. intros H. unfold nearest. assert (a * k <= b * k)%N by nia. set (p := (a * k)%N) in *. set (q := (b * k)%N) in *. clearbody p q. nlia. Qed.
Lemma nearest_full a : nearest a 255 = a.
Proof. unfold nearest. nlia. Qed.
Lemma nearest_zero a : nearest a 0 = 0%N.
Proof. unfold nearest. rewrite N.mul_0_r. reflexivity. Qed.
Lemma nearest_zero_l a : nearest 0 a = 0%N.
Proof. reflexivity. Qed.

(* ---- pixel lists ---- *)
Definition flat1 (c : colour) : list N := [c_r c; c_g c; c_b c; c_a c].
Definition flat (l : list colour) : list N := concat (map flat1 l).
Lemma flat_cons c l : flat (c :: l) = c_r c :: c_g c :: c_b c :: c_a c :: flat l.
Proof. reflexivity. Qed.
Lemma flat_app a b : flat (a ++ b) = flat a ++ flat b.
Proof. unfold flat. now rewrite map_app, concat_app. Qed.
Lemma flat_length l : List.length (flat l) = 4 * List.length l.
Proof. induction l as [|c l IH]; [reflexivity|]. rewrite flat_cons. cbn [List.length]. lia. Qed.
Lemma flat_of n : forall buf, List.length buf = 4 * n -> exists l, buf = flat l /\ List.length l = n.
Proof.
  induction n as [|n IH]; intros buf L; [destruct buf; [exists []; now split|discriminate]|].
  destruct buf as [|a [|b [|c [|d buf]]]]; cbn [List.length] in L; try lia. destruct (IH buf ltac:(lia)) as (l & -> & L2). exists (Colour a b c d :: l). split; [reflexivity|cbn; lia].
Qed.
Lemma bytes_flat l : bytes (flat l) <-> Forall byte_colour l.
Proof.
  induction l as [|c l IH]; [split; constructor|]. rewrite flat_cons. unfold bytes in *. split.
  - intros H. inversion H as [|? ? H1 H2]; subst. inversion H2 as [|? ? H3 H4]; subst. inversion H4 as [|? ? H5 H6]; subst. inversion H6 as [|? ? H7 H8]; subst. constructor; [repeat split; assumption|now apply IH].
  - intros H. inversion H as [|? ? (A & B & C & D) H2]; subst. repeat (constructor; [assumption|]). now apply IH.
Qed.
Lemma pixel_flat l p : pixel (flat l) p = nth p l clear_colour.
Proof.
  revert p. induction l as [|c l IH]; intros p; [unfold pixel; destruct p; cbn [nth flat concat map]; now rewrite ?nth_overflow by (cbn; lia)|].
  destruct p as [|p].
  - unfold pixel. cbn. now destruct c.
  - rewrite flat_cons. cbn [nth]. rewrite <- IH. unfold pixel. replace (4 * S p) with (S (S (S (S (4 * p))))) by lia. reflexivity.
Qed.
Lemma pixel_ext a b n : List.length a = 4 * n -> List.length b = 4 * n -> (forall p, p < n -> pixel a p = pixel b p) -> a = b.
Proof.
  intros LA LB H. destruct (flat_of n a LA) as (l & -> & L1). destruct (flat_of n b LB) as (m & -> & L2). f_equal. apply (nth_ext l m clear_colour clear_colour); [congruence|]. intros p P. rewrite L1 in P. specialize (H p P). now rewrite !pixel_flat in H.
Qed.
Lemma nth_error_at {A} (pre : list A) x post : nth_error (pre ++ x :: post) (List.length pre) = Some x.
Proof. rewrite nth_error_app2 by lia. now rewrite Nat.sub_diag. Qed.
Lemma modify_at (pre : list N) x post f : modify (List.length pre) f (pre ++ x :: post) = Some (pre ++ f x :: post).
Proof.
  unfold modify. rewrite nth_error_at. f_equal. rewrite firstn_app, Nat.sub_diag, firstn_all, firstn_O, app_nil_r. f_equal. f_equal. rewrite skipn_app. rewrite skipn_all2 by lia. replace (S (List.length pre) - List.length pre) with 1 by lia. reflexivity.
Qed.
Lemma modify_opt_at (pre : list N) x post f y i : i = List.length pre -> f x = Some y -> modify_opt i f (pre ++ x :: post) = Some (pre ++ y :: post).
Proof. intros -> E. unfold modify_opt. rewrite nth_error_at, E. apply modify_at. Qed.
(* the four channels of a pixel in turn *)
Lemma modify_pixel pre r g b a post f1 f2 f3 f4 r' g' b' a' i : i = List.length pre -> f1 r = Some r' -> f2 g = Some g' -> f3 b = Some b' -> f4 a = Some a' ->
  (do d1 <- modify_opt i f1 (pre ++ r :: g :: b :: a :: post); do d2 <- modify_opt (i + 1) f2 d1; do d3 <- modify_opt (i + 2) f3 d2; modify_opt (i + 3) f4 d3) = Some (pre ++ r' :: g' :: b' :: a' :: post).
Proof.
  intros -> E1 E2 E3 E4. rewrite (modify_opt_at pre r _ f1 r') by auto.
  change (pre ++ r' :: g :: b :: a :: post) with (pre ++ [r'] ++ g :: b :: a :: post). rewrite app_assoc. rewrite (modify_opt_at (pre ++ [r']) g _ f2 g') by (auto; rewrite app_length; reflexivity).
  rewrite <- app_assoc. change (pre ++ [r'] ++ g' :: b :: a :: post) with (pre ++ [r'; g'] ++ b :: a :: post). rewrite app_assoc. rewrite (modify_opt_at (pre ++ [r'; g']) b _ f3 b') by (auto; rewrite app_length; reflexivity).
  rewrite <- app_assoc. change (pre ++ [r'; g'] ++ b' :: a :: post) with (pre ++ [r'; g'; b'] ++ a :: post). rewrite app_assoc. rewrite (modify_opt_at (pre ++ [r'; g'; b']) a _ f4 a') by (auto; rewrite app_length; reflexivity).
  now rewrite <- app_assoc.
Qed.
Lemma sub_slice_at (pre mid post : list N) i n : i = List.length pre -> n = List.length mid -> sub_slice i n (pre ++ mid ++ post) = Some mid.
Proof.
  intros -> ->. unfold sub_slice. rewrite !app_length. replace (_ <=? _) with true by (symmetry; apply Nat.leb_le; lia). f_equal. rewrite skipn_app, skipn_all, Nat.sub_diag. cbn [skipn app]. rewrite firstn_app, Nat.sub_diag, firstn_all, firstn_O. apply app_nil_r.
Qed.
Lemma copy_at_at (pre mid post new : list N) i : i = List.length pre -> List.length new = List.length mid -> copy_at i new (pre ++ mid ++ post) = Some (pre ++ new ++ post).
Proof.
  intros -> L. unfold copy_at. rewrite !app_length. replace (_ <=? _) with true by (symmetry; apply Nat.leb_le; lia). f_equal. rewrite firstn_app, Nat.sub_diag, firstn_all, firstn_O, app_nil_r. f_equal. f_equal.
  rewrite skipn_app. rewrite skipn_all2 by lia. replace (List.length pre + List.length new - List.length pre) with (List.length mid) by lia. cbn [app]. rewrite skipn_app, skipn_all, Nat.sub_diag. reflexivity.
Qed.
(* a run of pixels of a buffer *)
Lemma split_pixels buf n s r : List.length buf = 4 * n -> s + r <= n -> exists pre ds post, buf = flat pre ++ flat ds ++ flat post /\ List.length pre = s /\ List.length ds = r /\ List.length post = n - s - r.
Proof.
  intros L R. destruct (flat_of n buf L) as (l & -> & L1). exists (firstn s l), (firstn r (skipn s l)), (skipn r (skipn s l)). rewrite <- !flat_app. rewrite firstn_skipn, firstn_skipn. split; [reflexivity|].
  rewrite !firstn_length, !skipn_length. lia.
Qed.
Lemma pixel_run pre ds post q : pixel (flat pre ++ flat ds ++ flat post) q = nth q (pre ++ ds ++ post) clear_colour.
Proof. now rewrite <- !flat_app, pixel_flat. Qed.
Lemma nth_run pre (ds post : list colour) q : nth q (pre ++ ds ++ post) clear_colour =
  if (List.length pre <=? q) && (q <? List.length pre + List.length ds) then nth (q - List.length pre) ds clear_colour else nth q (pre ++ repeat clear_colour (List.length ds) ++ post) clear_colour.
Proof.
  destruct (Nat.leb_spec (List.length pre) q) as [A|A]; cbn [andb]; [|now rewrite !(app_nth1 pre) by lia]. rewrite !(app_nth2 pre) by lia.
  destruct (Nat.ltb_spec q (List.length pre + List.length ds)) as [B|B]; [now rewrite app_nth1 by lia|]. rewrite (app_nth2 ds) by lia. rewrite app_nth2 by (rewrite repeat_length; lia). now rewrite repeat_length.
Qed.
(* replacing a run *)
Lemma pixel_replaced pre ds ds' post q : List.length ds' = List.length ds -> pixel (flat pre ++ flat ds' ++ flat post) q =
  if (List.length pre <=? q) && (q <? List.length pre + List.length ds) then nth (q - List.length pre) ds' clear_colour else pixel (flat pre ++ flat ds ++ flat post) q.
Proof.
  intros L. rewrite !pixel_run. rewrite (nth_run pre ds'), (nth_run pre ds), L. now destruct ((List.length pre <=? q) && (q <? List.length pre + List.length ds)).
Qed.

(* ---- row loops ---- *)
Lemma span_nil lo hi : (hi <= lo)%Z -> span_from lo hi = [].
Proof. intros H. unfold span_from. now replace (Z.to_nat (hi - lo)) with 0 by lia. Qed.
Lemma span_cons lo hi : (lo < hi)%Z -> span_from lo hi = lo :: span_from (lo + 1) hi.
Proof.
  intros H. unfold span_from. replace (Z.to_nat (hi - lo)) with (S (Z.to_nat (hi - (lo + 1)))) by lia. cbn [seq map]. f_equal; [lia|]. rewrite <- seq_shift, map_map. apply map_ext. intros k. lia.
Qed.
(* a loop that updates one row of a picture at a time *)
Lemma rows_loop {S A} (get : S -> Z -> Z -> A) (good : S -> Prop) (W H off X0 X1 lo0 hi : Z) (f : Z -> S -> option S) (upd : Z -> Z -> A -> A) :
  (forall t s, (lo0 <= t < hi)%Z -> good s -> exists s', f t s = Some s' /\ good s' /\ forall px py, inside W H px py -> get s' px py = if ((py =? off + t) && (X0 <=? px) && (px <? X1))%Z then upd px py (get s px py) else get s px py) ->
  forall n lo s, n = Z.to_nat (hi - lo) -> (lo0 <= lo)%Z -> good s -> exists s', each_row f (span_from lo hi) s = Some s' /\ good s' /\
  forall px py, inside W H px py -> get s' px py = if ((off + lo <=? py) && (py <? off + hi) && (X0 <=? px) && (px <? X1))%Z then upd px py (get s px py) else get s px py.
Proof.
  intros STEP n. induction n as [|n IH]; intros lo s N O G.
  - rewrite span_nil by lia. exists s. split; [reflexivity|]. split; [exact G|]. intros px py I. now replace ((off + lo <=? py) && (py <? off + hi))%Z with false by lia.
  - rewrite span_cons by lia. cbn [each_row]. destruct (STEP lo s ltac:(lia) G) as (s1 & E & G1 & P1). rewrite E. destruct (IH (lo + 1)%Z s1 ltac:(lia) ltac:(lia) G1) as (s2 & E2 & G2 & P2). exists s2. split; [exact E2|]. split; [exact G2|].
    intros px py I. rewrite P2, P1 by assumption. destruct (Z.eqb_spec py (off + lo)) as [->|NE].
    + replace ((off + (lo + 1) <=? off + lo))%Z with false by lia. replace (off + lo <=? off + lo)%Z with true by lia. replace (off + lo <? off + hi)%Z with true by lia. cbn [andb]. now destruct ((X0 <=? px) && (px <? X1))%Z.
    + cbn [andb]. replace ((off + (lo + 1) <=? py))%Z with (off + lo <=? py)%Z by lia. now destruct ((off + lo <=? py) && (py <? off + hi) && (X0 <=? px) && (px <? X1))%Z.
Qed.
(* which pixels a run of a row covers *)
Lemma run_of_row W y px py a b : (0 <= px < W -> 0 <= a -> b <= W -> a < b -> (y * W + a <= py * W + px < y * W + b) <-> (py = y /\ a <= px < b))%Z.
Proof.
  intros X A B AB. split; [|intros (-> & ?); lia]. intros [L R]. assert (py = y) as ->; [|lia]. destruct (Z.lt_trichotomy py y) as [C|[C|C]]; [exfalso; assert (py * W + W <= y * W)%Z by nia; lia|exact C|exfalso; assert (y * W + W <= py * W)%Z by nia; lia].
Qed.
Lemma index_bound W H x y : inside W H x y -> (0 <= y * W + x < W * H)%Z.
Proof. intros [X Y]. nia. Qed.
Lemma i32_ok z : (-2147483648 <= z <= 2147483647)%Z -> i32 z = Some z.
Proof. intros H. unfold i32. now replace ((-2147483648 <=? z) && (z <=? 2147483647))%Z with true by lia. Qed.
Lemma as_i32_ok z : (0 <= z < 2147483648)%Z -> as_i32 z = z.
Proof. intros H. unfold as_i32. now replace (z <? 2147483648)%Z with true by lia. Qed.
Lemma as_usize_ok z : (0 <= z)%Z -> as_usize z = Some (Z.to_nat z).
Proof. intros H. unfold as_usize. now replace (z <? 0)%Z with false by lia. Qed.
Lemma row_fits W H t a b : (0 <= t < H -> 0 <= a <= b -> b <= W -> 0 <= t * W /\ 0 <= t * W + a /\ t * W + b <= W * H)%Z.
Proof. intros T A B. assert (0 <= t * W)%Z by nia. assert (t * W + W <= W * H)%Z by nia. lia. Qed.
