(* f32 arithmetic is exact on the 1/64 pixel grid; placing boxes there. *)
From Verif Require Import Base SortLib FloatModel FloatSpec FloatProofs CollideModel CollideSpec.
From Coq Require Import Lqa.
Local Open Scope Z_scope.

Lemma f32_valid : valid_format f32.
Proof. split; cbn; lia. Qed.
Lemma grid_rep a : Z.abs a < 16777216 -> representable f32 (a # 64).
Proof.
  intros A. split.
  - apply Qlt_trans with (inject_Z 16777216); [|reflexivity]. apply Qabs_Qlt_condition. unfold Qlt, inject_Z; cbn [Qnum Qden Qopp]. lia.
  - exists a, (-6). split; [cbn; lia|]. split; [exact A|]. change (2 ^ (-6))%Q with (1 # 64)%Q. unfold Qeq, inject_Z, Qmult; cbn [Qnum Qden]. lia.
Qed.
Lemma round_grid q a : (q == a # 64)%Q -> Z.abs a < 16777216 -> at64 (round_to f32 q) a.
Proof. intros E A. rewrite (round_wd f32 f32_valid q _ E). destruct (round_exact f32 f32_valid _ (grid_rep a A)) as (v & -> & V). exists v. split; [reflexivity|exact V]. Qed.
Lemma qsum a b : ((a # 64) + (b # 64) == (a + b) # 64)%Q.
Proof. unfold Qeq, Qplus; cbn [Qnum Qden]. lia. Qed.
Lemma add_grid f g a b : at64 f a -> at64 g b -> Z.abs (a + b) < 16777216 -> at64 (add32 f g) (a + b).
Proof. intros (p & -> & P) (q & -> & Q) B. cbn [add32 f_add]. apply round_grid; [|exact B]. rewrite P, Q. apply qsum. Qed.
Lemma sub_grid f g a b : at64 f a -> at64 g b -> Z.abs (a - b) < 16777216 -> at64 (sub32 f g) (a - b).
Proof. intros (p & -> & P) (q & -> & Q) B. cbn [sub32 f_sub f_opp f_add]. apply round_grid; [|exact B]. rewrite P, Q. unfold Qeq, Qplus, Qopp; cbn [Qnum Qden]. lia. Qed.
Lemma twice_grid f a : at64 f a -> Z.abs (2 * a) < 16777216 -> at64 (mul32 f (fl 2)) (2 * a).
Proof. intros (p & -> & P) B. cbn [mul32 f_mul fl]. apply round_grid; [|exact B]. rewrite P. unfold Qeq, Qmult, inject_Z; cbn [Qnum Qden]. lia. Qed.
Lemma fl_grid z : at64 (fl z) (64 * z).
Proof. exists (inject_Z z). split; [reflexivity|]. unfold Qeq, inject_Z; cbn [Qnum Qden]. lia. Qed.
Lemma le_grid f g a b : at64 f a -> at64 g b -> f_le f g = (a <=? b).
Proof.
  intros (p & -> & P) (q & -> & Q). cbn [f_le]. apply eq_true_iff_eq. rewrite Qle_bool_iff, Z.leb_le, P, Q. unfold Qle; cbn [Qnum Qden]. lia.
Qed.
Lemma lt_grid f g a b : at64 f a -> at64 g b -> f_lt f g = (a <? b).
Proof. intros A B. unfold f_lt. rewrite (le_grid _ _ _ _ A B), (le_grid _ _ _ _ B A). lia. Qed.
Lemma max_grid f g a b : at64 f a -> at64 g b -> at64 (f_max f g) (Z.max a b).
Proof.
  intros A B. pose proof (le_grid _ _ _ _ A B) as L. destruct A as (p & -> & P), B as (q & -> & Q). cbn [f_max]. rewrite L. destruct (a <=? b) eqn:E; [rewrite Z.max_r by lia|rewrite Z.max_l by lia]; eexists; split; eauto.
Qed.
Lemma min_grid f g a b : at64 f a -> at64 g b -> at64 (f_min f g) (Z.min a b).
Proof.
  intros A B. pose proof (le_grid _ _ _ _ A B) as L. destruct A as (p & -> & P), B as (q & -> & Q). cbn [f_min]. rewrite L. destruct (a <=? b) eqn:E; [rewrite Z.min_l by lia|rewrite Z.min_r by lia]; eexists; split; eauto.
Qed.
Lemma clamp_grid f lo hi a l h : at64 f a -> at64 lo l -> at64 hi h -> l <= h -> exists y, f_clamp f lo hi = Some y /\ at64 y (Z.max l (Z.min a h)).
Proof.
  intros A L H O. unfold f_clamp. rewrite (le_grid _ _ _ _ L H). destruct (l <=? h) eqn:E; [|lia]. eexists. split; [reflexivity|]. cbv zeta. rewrite (lt_grid _ _ _ _ A L).
  destruct (a <? l) eqn:E1; [rewrite (lt_grid _ _ _ _ H L)|rewrite (lt_grid _ _ _ _ H A)].
  - destruct (h <? l) eqn:E2; [lia|]. replace (Z.max l (Z.min a h)) with l by lia. exact L.
  - destruct (h <? a) eqn:E2; [replace (Z.max l (Z.min a h)) with h by lia; exact H|]. replace (Z.max l (Z.min a h)) with a by lia. exact A.
Qed.
Lemma f32_min_below f a : at64 f a -> Z.abs a < 16777216 -> f_max f32_min f = f.
Proof.
  intros (p & -> & P) B. cbn [f_max f32_min]. destruct (f_le _ _) eqn:E; [reflexivity|]. exfalso. apply not_true_iff_false in E. apply E. cbn [f_le]. apply Qle_bool_iff. rewrite P. unfold Qle, inject_Z; cbn [Qnum Qden].
  change (2 ^ 104) with 20282409603651670423947251286016. lia.
Qed.
Lemma f32_max_above f a : at64 f a -> Z.abs a < 16777216 -> f_min f32_max f = f.
Proof.
  intros (p & -> & P) B. cbn [f_min f32_max]. destruct (f_le _ _) eqn:E; [|reflexivity]. exfalso. cbn [f_le] in E. apply Qle_bool_iff in E. rewrite P in E. unfold Qle, inject_Z in E; cbn [Qnum Qden] in E.
  revert E. change (2 ^ 104) with 20282409603651670423947251286016. lia.
Qed.
Lemma fold_max_grid l : forall zs f a, Forall2 at64 l zs -> at64 f a -> at64 (fold_left f_max l f) (fold_left Z.max zs a).
Proof. induction l as [|g l IH]; intros zs f a F A; inversion F; subst; cbn [fold_left]; [exact A|]. apply IH; [assumption|]. now apply max_grid. Qed.
Lemma fold_min_grid l : forall zs f a, Forall2 at64 l zs -> at64 f a -> at64 (fold_left f_min l f) (fold_left Z.min zs a).
Proof. induction l as [|g l IH]; intros zs f a F A; inversion F; subst; cbn [fold_left]; [exact A|]. apply IH; [assumption|]. now apply min_grid. Qed.

(* ---- boxes ---- *)
Definition meets (m : Z) (r s : rect) : bool :=
  (x_of r - m <? x_of s + w_of s + m) && (x_of s - m <? x_of r + w_of r + m) && (y_of r - m <? y_of s + h_of s + m) && (y_of s - m <? y_of r + h_of r + m).
Lemma meets_apart m r s : meets m r s = false <-> apart_by (2 * m) r s.
Proof. unfold meets, apart_by. lia. Qed.
Definition within (k : Z) (r : rect) : Prop := modest (x_of r) /\ Z.abs (y_of r) <= k /\ 0 <= w_of r <= 1048576 /\ 0 <= h_of r <= 1048576.
Lemma modest_within r : modest_rect r -> within 4194304 r.
Proof. unfold modest_rect, within, modest. lia. Qed.
Lemma expand_grid b r f m : rect_is b r -> at64 f m -> within 4194304 r -> modest_margin m ->
  rect_is (expand b f) (Rect (x_of r - m) (y_of r - m) (w_of r + 2 * m) (h_of r + 2 * m)).
Proof.
  intros (X & Y & W & H) M (LX & LY & LW & LH) LM. unfold modest, modest_margin in *. pose proof (twice_grid f m M ltac:(lia)) as T.
  split; [|split; [|split]]; cbn [expand b_x b_y b_w b_h x_of y_of w_of h_of]; (apply sub_grid || apply add_grid); try assumption; lia.
Qed.
Lemma intersects_grid a b r s : rect_is a r -> rect_is b s -> Z.abs (x_of r + w_of r) < 16777216 -> Z.abs (y_of r + h_of r) < 16777216 -> Z.abs (x_of s + w_of s) < 16777216 -> Z.abs (y_of s + h_of s) < 16777216 ->
  intersects a b = meets 0 r s.
Proof.
  intros (X & Y & W & H) (X' & Y' & W' & H') A B C D. unfold intersects. erewrite !lt_grid; [|eassumption|apply add_grid; eassumption|eassumption|apply add_grid; eassumption|eassumption|apply add_grid; eassumption|eassumption|apply add_grid; eassumption].
  unfold meets. now rewrite !Z.sub_0_r, !Z.add_0_r.
Qed.
Lemma way_grid a b r s f m : rect_is a r -> rect_is b s -> at64 f m -> within 4194304 r -> within 4194304 s -> modest_margin m -> intersects (expand a f) (expand b f) = meets m r s.
Proof.
  intros A B M LR LS LM. pose proof (expand_grid a r f m A M LR LM) as EA. pose proof (expand_grid b s f m B M LS LM) as EB. destruct LR as (? & ? & ? & ?), LS as (? & ? & ? & ?). unfold modest, modest_margin in *.
  rewrite (intersects_grid _ _ _ _ EA EB) by (cbn [x_of y_of w_of h_of]; lia). unfold meets; cbn [x_of y_of w_of h_of]. lia.
Qed.

(* ---- the same search in whole units ---- *)
Definition zway (m : Z) (others : list spot) (layer : Z) (r : rect) : list rect := map s_rect (filter (fun s => (s_layer s =? layer) && meets m (s_rect s) r) others).
Definition zbeyond (down : bool) (m : Z) (hits : list rect) (r : rect) : Z :=
  match hits with
  | [] => y_of r
  | o :: os => if down then fold_left Z.max (map (fun o => y_of o + h_of o) os) (y_of o + h_of o) + 2 * m
               else fold_left Z.min (map y_of os) (y_of o) - h_of r - 2 * m
  end.
Fixpoint zshift (m : Z) (others : list spot) (layer : Z) (down : bool) (n : nat) (r : rect) : rect :=
  match n with
  | O => r
  | S n' => match zway m others layer r with [] => r | hits => zshift m others layer down n' (at_y r (zbeyond down m hits r)) end
  end.
Lemma way_both r others m layer : Forall2 spot_is (r_placed r) others -> at64 (r_margin r) m -> modest_margin m -> Forall (fun s => modest_rect (s_rect s)) others ->
  forall b z, rect_is b z -> within 4194304 z -> Forall2 rect_is (in_the_way r layer b) (zway m others layer z).
Proof.
  intros F M LM LO b z B LZ. unfold in_the_way, zway. induction F as [|e s l l' ES F IH]; cbn [filter map]; [constructor|]. inversion LO as [|? ? LS LO']; subst. destruct ES as (R & L & AL & PR).
  rewrite L, (way_grid _ _ _ _ _ _ R B M (modest_within _ LS) LZ LM). destruct ((s_layer s =? layer) && _); cbn [map]; [constructor; [exact R|]|]; exact (IH LO').
Qed.
Lemma zway_modest m others layer r : Forall (fun s => modest_rect (s_rect s)) others -> Forall modest_rect (zway m others layer r).
Proof. intros F. unfold zway. rewrite Forall_forall in *. intros q I. apply in_map_iff in I. destruct I as (s & <- & I). apply filter_In in I. now apply F. Qed.
Lemma fold_max_in l : forall a, In (fold_left Z.max l a) (a :: l) /\ forall x, In x (a :: l) -> x <= fold_left Z.max l a.
Proof.
  induction l as [|b l IH]; intros a; cbn [fold_left]; [split; [now left|]; intros x [<-|[]]; lia|]. destruct (IH (Z.max a b)) as [I U]. split.
  - destruct I as [I|I]; [|right; now right]. rewrite <- I. destruct (Z.max_spec a b) as [[_ ->]|[_ ->]]; cbn; auto.
  - intros x [<-|[<-|J]]; [etransitivity; [|apply U; left; reflexivity]; lia|etransitivity; [|apply U; left; reflexivity]; lia|apply U; now right].
Qed.
Lemma fold_min_in l : forall a, In (fold_left Z.min l a) (a :: l) /\ forall x, In x (a :: l) -> fold_left Z.min l a <= x.
Proof.
  induction l as [|b l IH]; intros a; cbn [fold_left]; [split; [now left|]; intros x [<-|[]]; lia|]. destruct (IH (Z.min a b)) as [I U]. split.
  - destruct I as [I|I]; [|right; now right]. rewrite <- I. destruct (Z.min_spec a b) as [[_ ->]|[_ ->]]; cbn; auto.
  - intros x [<-|[<-|J]]; [etransitivity; [apply U; left; reflexivity|]; lia|etransitivity; [apply U; left; reflexivity|]; lia|apply U; now right].
Qed.
(* where zbeyond comes from *)
Lemma zbeyond_down m hits r : hits <> [] -> exists o, In o hits /\ zbeyond true m hits r = y_of o + h_of o + 2 * m /\ forall q, In q hits -> y_of q + h_of q + 2 * m <= zbeyond true m hits r.
Proof.
  destruct hits as [|o os]; [congruence|]. intros _. cbn [zbeyond]. destruct (fold_max_in (map (fun o => y_of o + h_of o) os) (y_of o + h_of o)) as [I U].
  change (y_of o + h_of o :: map (fun o => y_of o + h_of o) os) with (map (fun o => y_of o + h_of o) (o :: os)) in I, U. apply in_map_iff in I. destruct I as (q & E & I). exists q. split; [exact I|]. split; [lia|].
  intros p J. specialize (U (y_of p + h_of p) (in_map (fun o => y_of o + h_of o) _ _ J)). lia.
Qed.
Lemma zbeyond_up m hits r : hits <> [] -> exists o, In o hits /\ zbeyond false m hits r = y_of o - h_of r - 2 * m /\ forall q, In q hits -> zbeyond false m hits r <= y_of q - h_of r - 2 * m.
Proof.
  destruct hits as [|o os]; [congruence|]. intros _. cbn [zbeyond]. destruct (fold_min_in (map y_of os) (y_of o)) as [I U].
  change (y_of o :: map y_of os) with (map y_of (o :: os)) in I, U. apply in_map_iff in I. destruct I as (q & E & I). exists q. split; [exact I|]. split; [lia|].
  intros p J. specialize (U (y_of p) (in_map y_of _ _ J)). lia.
Qed.
Lemma zbeyond_within down m hits r : modest_margin m -> Forall modest_rect hits -> within 4194304 r -> within 4194304 (at_y r (zbeyond down m hits r)).
Proof.
  intros LM LH (LX & LY & LW & LHH). unfold within, at_y; cbn [x_of y_of w_of h_of]. split; [exact LX|]. split; [|tauto]. destruct hits as [|o os]; [exact LY|]. rewrite Forall_forall in LH.
  destruct down; [destruct (zbeyond_down m (o :: os) r) as (q & I & E & _); [congruence|]|destruct (zbeyond_up m (o :: os) r) as (q & I & E & _); [congruence|]]; rewrite E; specialize (LH q I); unfold modest_rect, modest, modest_margin in *; lia.
Qed.
Lemma map_grid {A B} (P : A -> B -> Prop) f g l l' : Forall2 P l l' -> (forall a b, P a b -> In b l' -> at64 (f a) (g b)) -> Forall2 at64 (map f l) (map g l').
Proof. intros F H. induction F; cbn [map]; constructor; [apply H; [assumption|now left]|]. apply IHF. intros a b Q I. apply H; [exact Q|now right]. Qed.
Lemma beyond_grid down f m hits zhits b z : Forall2 rect_is hits zhits -> hits <> [] -> at64 f m -> modest_margin m -> Forall modest_rect zhits -> rect_is b z -> within 4194304 z ->
  at64 (beyond down f hits b) (zbeyond down m zhits z).
Proof.
  intros F N M LM LH B LZ. destruct F as [|o o' os os' O F]; [congruence|]. pose proof (zbeyond_within down m (o' :: os') z LM LH LZ) as BW. destruct BW as (_ & BY & _). cbn [at_y y_of] in BY.
  assert (LH' := LH). rewrite Forall_forall in LH. pose proof (twice_grid f m M ltac:(unfold modest_margin in *; lia)) as T. unfold modest_margin in LM. destruct down.
  - cbn [beyond map fold_left]. destruct O as (OX & OY & OW & OH). specialize (LH o' (or_introl eq_refl)) as L0. unfold modest_rect, modest in L0.
    assert (S0 : at64 (add32 (b_y o) (b_h o)) (y_of o' + h_of o')) by (apply add_grid; [assumption|assumption|lia]). rewrite (f32_min_below _ _ S0) by lia.
    cbn [zbeyond] in *. apply add_grid; [|exact T|lia]. apply fold_max_grid; [|exact S0]. apply (map_grid rect_is); [exact F|]. intros p q (PX & PY & PW & PH) I. specialize (LH q (or_intror I)). unfold modest_rect, modest in LH. apply add_grid; [assumption|assumption|lia].
  - cbn [beyond map fold_left]. destruct O as (OX & OY & OW & OH). specialize (LH o' (or_introl eq_refl)) as L0. unfold modest_rect, modest in L0. rewrite (f32_max_above _ _ OY) by lia.
    destruct LZ as (ZX & ZY & ZW & ZH). destruct B as (_ & _ & _ & BH). destruct (zbeyond_up m (o' :: os') z) as (q & I & E & _); [congruence|]. specialize (LH q I). unfold modest_rect, modest in LH. cbn [zbeyond] in *. apply sub_grid; [|exact T|lia].
    apply sub_grid; [|exact BH|lia]. apply fold_min_grid; [|exact OY]. apply (map_grid rect_is); [exact F|]. intros p0 q0 (PX & PY & PW & PH) _. exact PY.
Qed.
Lemma shift_both r others m layer down : Forall2 spot_is (r_placed r) others -> at64 (r_margin r) m -> modest_margin m -> Forall (fun s => modest_rect (s_rect s)) others ->
  forall n b z, rect_is b z -> within 4194304 z -> rect_is (shift r layer down n b) (zshift m others layer down n z) /\ within 4194304 (zshift m others layer down n z).
Proof.
  intros F M LM LO. induction n as [|n IH]; intros b z B LZ; cbn [shift zshift]; [split; assumption|]. pose proof (way_both r others m layer F M LM LO b z B LZ) as W. pose proof (zway_modest m others layer z LO) as LH.
  destruct (in_the_way r layer b) as [|h hs] eqn:E1; [inversion W; split; assumption|]. destruct (zway m others layer z) as [|h' hs'] eqn:E2; [inversion W|]. apply IH.
  - destruct B as (BX & BY & BW & BH). split; [exact BX|]. split; [|split; assumption]. apply (beyond_grid down (r_margin r) m (h :: hs) (h' :: hs') b z); try assumption; [congruence|]. now repeat split.
  - now apply zbeyond_within.
Qed.

(* ---- the search finds the nearest free place ---- *)
Lemma zway_in m others layer r o : In o (zway m others layer r) <-> exists s, In s others /\ s_layer s = layer /\ meets m (s_rect s) r = true /\ o = s_rect s.
Proof.
  unfold zway. rewrite in_map_iff. split.
  - intros (s & <- & I). apply filter_In in I. destruct I as [I C]. apply andb_true_iff in C. destruct C as [C D]. apply Z.eqb_eq in C. now exists s.
  - intros (s & I & L & D & ->). exists s. split; [reflexivity|]. apply filter_In. split; [exact I|]. rewrite D, L, Z.eqb_refl. reflexivity.
Qed.
Lemma zway_free m others layer r : zway m others layer r = [] <-> free m others layer r.
Proof.
  split.
  - intros E s I L. apply meets_apart. destruct (meets m (s_rect s) r) eqn:D; [|reflexivity]. assert (X : In (s_rect s) (zway m others layer r)) by (apply zway_in; now exists s). rewrite E in X. destruct X.
  - intros F. destruct (zway m others layer r) as [|o os] eqn:E; [reflexivity|]. assert (X : In o (zway m others layer r)) by (rewrite E; now left). apply zway_in in X. destruct X as (s & I & L & D & _).
    pose proof (F s I L) as K. apply meets_apart in K. congruence.
Qed.
(* the events not yet passed by *)
Definition ahead (down : bool) (m : Z) (r : rect) (s : spot) : bool :=
  if down then y_of r <? y_of (s_rect s) + h_of (s_rect s) + 2 * m else y_of (s_rect s) <? y_of r + h_of r + 2 * m.
Lemma count_less {A} (f g : A -> bool) l x : (forall a, g a = true -> f a = true) -> In x l -> f x = true -> g x = false -> (List.length (filter g l) < List.length (filter f l))%nat.
Proof.
  intros S. assert (LE : forall l, (List.length (filter g l) <= List.length (filter f l))%nat).
  { clear l. induction l as [|a l IH]; cbn [filter]; [lia|]. destruct (g a) eqn:G; [rewrite (S a G); cbn; lia|]. destruct (f a); cbn; lia. }
  intros I F G. induction l as [|a l IH]; [destruct I|]. cbn [filter]. destruct I as [->|I].
  - rewrite F, G. cbn. specialize (LE l). lia.
  - specialize (IH I). destruct (g a) eqn:GA; [rewrite (S a GA); cbn; lia|]. destruct (f a); cbn; lia.
Qed.
Lemma zshift_nearest m others layer down : forall n z, (List.length (filter (ahead down m z) others) < n)%nat ->
  let z' := zshift m others layer down n z in
  z' = at_y z (y_of z') /\ free m others layer z' /\
  (if down then y_of z <= y_of z' /\ forall y', y_of z <= y' < y_of z' -> ~ free m others layer (at_y z y')
   else y_of z' <= y_of z /\ forall y', y_of z' < y' <= y_of z -> ~ free m others layer (at_y z y')).
Proof.
  induction n as [|n IH]; intros z A; [lia|]. cbn [zshift]. destruct (zway m others layer z) as [|o os] eqn:E.
  { cbv zeta. split; [now destruct z|]. split; [now apply zway_free|]. destruct down; (split; [lia|]; intros y' B; lia). }
  set (y1 := zbeyond down m (o :: os) z). assert (MOVE : if down then y_of z < y1 else y1 < y_of z).
  { unfold y1. destruct down.
    - destruct (zbeyond_down m (o :: os) z) as (q & I & -> & _); [congruence|]. rewrite <- E in I. apply zway_in in I. destruct I as (s & _ & _ & D & ->). unfold meets in D. lia.
    - destruct (zbeyond_up m (o :: os) z) as (q & I & -> & _); [congruence|]. rewrite <- E in I. apply zway_in in I. destruct I as (s & _ & _ & D & ->). unfold meets in D. lia. }
  assert (X : In o (zway m others layer z)) by (rewrite E; now left). apply zway_in in X. destruct X as (s & IS & LS & DS & ->).
  assert (LESS : (List.length (filter (ahead down m (at_y z y1)) others) < List.length (filter (ahead down m z) others))%nat).
  { apply (count_less _ _ _ s); [|exact IS| |].
    - intros a. unfold ahead. destruct down; cbn [at_y y_of h_of]; lia.
    - unfold ahead, meets in *. destruct down; lia.
    - unfold ahead, y1. destruct down; cbn [at_y y_of h_of].
      + destruct (zbeyond_down m (s_rect s :: os) z) as (q & _ & _ & U); [congruence|]. specialize (U (s_rect s) (or_introl eq_refl)). lia.
      + destruct (zbeyond_up m (s_rect s :: os) z) as (q & _ & _ & U); [congruence|]. specialize (U (s_rect s) (or_introl eq_refl)). lia. }
  destruct (IH (at_y z y1) ltac:(lia)) as (SH & FR & DIR). set (z' := zshift m others layer down n (at_y z y1)) in *. clearbody z'. cbv zeta. cbn [at_y x_of y_of w_of h_of] in SH, DIR.
  assert (BLOCK : forall y', (if down then y_of z <= y' < y1 else y1 < y' <= y_of z) -> ~ free m others layer (at_y z y')).
  { intros y' B F. unfold y1 in B. destruct down.
    - destruct (zbeyond_down m (s_rect s :: os) z) as (q & I & EQ & _); [congruence|]. rewrite EQ in B. rewrite <- E in I. apply zway_in in I. destruct I as (t & IT & LT & DT & ->). specialize (F t IT LT). unfold apart_by, meets, at_y in *; cbn [x_of y_of w_of h_of] in *. lia.
    - destruct (zbeyond_up m (s_rect s :: os) z) as (q & I & EQ & _); [congruence|]. rewrite EQ in B. rewrite <- E in I. apply zway_in in I. destruct I as (t & IT & LT & DT & ->). specialize (F t IT LT). unfold apart_by, meets, at_y in *; cbn [x_of y_of w_of h_of] in *. lia. }
  split; [exact SH|]. split; [exact FR|]. change (at_y (at_y z y1)) with (at_y z) in DIR. destruct down.
  - destruct DIR as [D1 D2]. split; [lia|]. intros y' B. destruct (Z_lt_le_dec y' y1); [apply BLOCK; lia|apply D2; lia].
  - destruct DIR as [D1 D2]. split; [lia|]. intros y' B. destruct (Z_lt_le_dec y1 y'); [apply BLOCK; lia|apply D2; lia].
Qed.
Lemma filter_length_le {A} (f : A -> bool) l : (List.length (filter f l) <= List.length l)%nat.
Proof. induction l as [|a l IH]; cbn; [lia|]. destruct (f a); cbn; lia. Qed.
Lemma push_up_iff a : push_down a = false <-> bottom_aligned a.
Proof. unfold push_down, bottom_aligned. rewrite negb_false_iff. lia. Qed.
Lemma find_ok r others m H e s : Forall2 spot_is (r_placed r) others -> at64 (r_margin r) m -> at64 (r_height r) H -> modest_margin m -> 0 <= H <= 1048576 -> Forall (fun s => modest_rect (s_rect s)) others -> spot_is e s -> modest_rect (s_rect s) ->
  exists b y, find_position r e = Some (add_fixed r (with_box e b), b) /\ nearest_free m others s y /\ rect_is b (at_y (s_rect s) (on_screen H (h_of (s_rect s)) y)) /\ modest_rect (at_y (s_rect s) (on_screen H (h_of (s_rect s)) y)).
Proof.
  intros F M HH LM LH LO (RE & LE & AE & PE) LS. unfold find_position. rewrite LE, AE.
  destruct (shift_both r others m (s_layer s) (push_down (s_align s)) F M LM LO (S (List.length (r_placed r))) _ _ RE (modest_within _ LS)) as [R W].
  assert (LEN : List.length (r_placed r) = List.length others) by (clear -F; induction F; cbn; congruence).
  destruct (zshift_nearest m others (s_layer s) (push_down (s_align s)) (S (List.length (r_placed r))) (s_rect s)) as (SH & FR & DIR).
  { rewrite LEN. pose proof (filter_length_le (ahead (push_down (s_align s)) m (s_rect s)) others). lia. }
  set (b := shift _ _ _ _ _) in *. set (z := zshift _ _ _ _ _ _) in *. clearbody b z. destruct R as (RX & RY & RW & RH). rewrite SH in RX, RW, RH. cbn [at_y x_of w_of h_of] in RX, RW, RH.
  unfold modest_rect, modest in LS. pose proof (sub_grid _ _ _ _ HH RH ltac:(lia)) as S1. pose proof (max_grid _ _ _ _ S1 (fl_grid 0)) as S2. destruct (clamp_grid _ _ _ _ _ _ RY (fl_grid 0) S2 ltac:(lia)) as (y & -> & CY).
  exists (with_y b y), (y_of z). split; [reflexivity|]. assert (EY : Z.max (64 * 0) (Z.min (y_of z) (Z.max (H - h_of (s_rect s)) (64 * 0))) = on_screen H (h_of (s_rect s)) (y_of z)) by (unfold on_screen, lowest; lia). rewrite EY in CY. split; [|split].
  - unfold nearest_free. split; [rewrite <- SH; exact FR|]. split; intros BA.
    + apply push_up_iff in BA. rewrite BA in DIR. exact DIR.
    + destruct (push_down (s_align s)) eqn:PD; [exact DIR|]. apply push_up_iff in PD. contradiction.
  - split; [exact RX|]. split; [exact CY|]. split; assumption.
  - unfold modest_rect, at_y, modest, on_screen, lowest; cbn [x_of y_of w_of h_of]. lia.
Qed.
Lemma run_ok H : 0 <= H <= 1048576 -> forall ops qs, Forall2 request_is ops qs -> Forall modest_request qs -> forall r others m, Forall2 spot_is (r_placed r) others -> at64 (r_margin r) m -> at64 (r_height r) H -> modest_margin m -> Forall (fun s => modest_rect (s_rect s)) others ->
  exists r' outs zs final, collide_run r ops = Some (r', outs) /\ Forall2 answer_is outs zs /\ expected H m others qs zs final /\ Forall2 spot_is (r_placed r') final.
Proof.
  intros LH ops. induction ops as [|o ops IH]; intros qs F FM r others m RO RM RH LM LO.
  { inversion F; subst. exists r, [], [], others. split; [reflexivity|]. split; [constructor|]. split; [constructor|exact RO]. }
  inversion F as [|? q ? qs' OQ F']; subst. inversion FM; subst. cbn [collide_run]. destruct o as [e|e|f|], q as [s|s|m'|]; cbn [request_is modest_request] in *; try contradiction; cbn [collide_step].
  - destruct (IH qs' F' ltac:(assumption) (add_fixed r e) (others ++ [s]) m) as (r' & outs & zs & final & -> & AN & EX & RF); cbn [add_fixed r_placed r_margin r_height]; try assumption.
    { apply Forall2_app; [exact RO|]. now constructor. } { apply Forall_app. split; [exact LO|]. now constructor. }
    exists r', (None :: outs), (None :: zs), final. split; [reflexivity|]. split; [constructor; [exact I|exact AN]|]. split; [now constructor|exact RF].
  - destruct (find_ok r others m H e s RO RM RH LM LH LO OQ ltac:(assumption)) as (b & y & -> & NF & RB & LB).
    destruct (IH qs' F' ltac:(assumption) (add_fixed r (with_box e b)) (others ++ [Spot (at_y (s_rect s) (on_screen H (h_of (s_rect s)) y)) (s_layer s) (s_align s) (s_priority s)]) m) as (r' & outs & zs & final & -> & AN & EX & RF); cbn [add_fixed r_placed r_margin r_height]; try assumption.
    { apply Forall2_app; [exact RO|]. constructor; [|constructor]. destruct OQ as (_ & L & A & P). split; [exact RB|]. cbn [with_box p_layer p_align p_priority s_layer s_align s_priority]. tauto. } { apply Forall_app. split; [exact LO|]. constructor; [exact LB|constructor]. }
    exists r', (Some b :: outs), (Some (at_y (s_rect s) (on_screen H (h_of (s_rect s)) y)) :: zs), final. split; [reflexivity|]. split; [constructor; [exact RB|exact AN]|]. split; [now constructor|exact RF].
  - destruct (IH qs' F' ltac:(assumption) (set_margin r f) others m') as (r' & outs & zs & final & -> & AN & EX & RF); cbn [set_margin r_placed r_margin r_height]; try assumption.
    exists r', (None :: outs), (None :: zs), final. split; [reflexivity|]. split; [constructor; [exact I|exact AN]|]. split; [now constructor|exact RF].
  - destruct (IH qs' F' ltac:(assumption) (clear_placed r) [] m) as (r' & outs & zs & final & -> & AN & EX & RF); cbn [clear_placed r_placed r_margin r_height]; try assumption; [constructor|constructor|].
    exists r', (None :: outs), (None :: zs), final. split; [reflexivity|]. split; [constructor; [exact I|exact AN]|]. split; [now constructor|exact RF].
Qed.
