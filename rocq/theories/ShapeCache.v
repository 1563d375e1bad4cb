(* The caches of shaping and glyph drawing are not seen. *)
From Verif Require Import Base BaseLemmas FloatModel ShapeModel ShapeSpec.

Lemma key_eqb_eq a b : key_eqb a b = true <-> a = b.
Proof.
  destruct a as [[[[t f] s] x] i], b as [[[[t' f'] s'] x'] i']. cbn [key_eqb]. rewrite !andb_true_iff, !str_eqb_eq, N.eqb_eq, !eqb_true_iff. split.
  - intros ((((-> & ->) & ->) & ->) & ->). reflexivity.
  - intros [= -> -> -> -> ->]. repeat split.
Qed.
Lemma gkey_eqb_eq a b : gkey_eqb a b = true <-> a = b.
Proof. destruct a as [[x y] z], b as [[x' y'] z']. cbn [gkey_eqb]. rewrite !andb_true_iff, !N.eqb_eq. split; [intros ((-> & ->) & ->); reflexivity|intros [= -> -> ->]; repeat split]. Qed.

Section Shapes.
  Context {data : Type}.
  Variable parse : data -> N -> option face.
  Variable value : N -> float.
  Variable fs : @files data.
  Definition files_ok (t : thread (data := data)) : Prop := forall p d, lookup_file (t_files t) p = Some d -> fs p = Some d.
  Definition shapes_ok (seen : list (call (data := data))) (t : thread (data := data)) : Prop := forall k s, lookup_key (t_shapes t) k = Some s -> exists b db, In (b, db, k) seen /\ straight parse value fs db k = Ok s.
  Lemma file_ok t p : files_ok t -> exists t', cached_file fs t p = (match fs p with Some d => Ok d | None => Err end, t') /\ files_ok t' /\ t_shapes t' = t_shapes t.
  Proof.
    intros F. unfold cached_file. destruct (lookup_file (t_files t) p) as [d|] eqn:L.
    - rewrite (F _ _ L). exists t. auto.
    - destruct (fs p) as [d|] eqn:P; [|exists t; auto]. eexists. split; [reflexivity|]. split; [|reflexivity]. intros q e. unfold lookup_file. cbn [t_files find fst snd].
      destruct (str_eqb p q) eqn:E; [apply str_eqb_eq in E; subst q; intros [= <-]; exact P|]. exact (F q e).
  Qed.
  Lemma style_ok t db text family size bold italic : files_ok t ->
    exists t', shape_with_style parse value fs db t text family size bold italic = (straight parse value fs db (text, family, size, bold, italic), t') /\ files_ok t' /\ t_shapes t' = t_shapes t.
  Proof.
    intros F. unfold shape_with_style, straight, face_of, data_of. destruct (find_font db family bold italic text) as [id|]; [|exists t; auto].
    destruct (face_source db id) as [[[d|p|p d] i]|]; [destruct (parse d i); exists t; auto| |destruct (parse d i); exists t; auto|exists t; auto].
    destruct (file_ok t p F) as (t' & -> & F' & S). destruct (fs p) as [d|]; [|exists t'; auto]. destruct (parse d i); exists t'; auto.
  Qed.
  Lemma lookup_cons k s l k' : lookup_key ((k, s) :: l) k' = if key_eqb k k' then Some s else lookup_key l k'.
  Proof. unfold lookup_key. cbn [find fst snd]. destruct (key_eqb k k'); reflexivity. Qed.
  Definition right (seen : list (call (data := data))) (c : call (data := data)) (a : res shaped) : Prop :=
    let '(b, db, k) := c in a = straight parse value fs db k \/ b = true /\ exists s b' db', a = Ok s /\ In (b', db', k) seen /\ straight parse value fs db' k = Ok s.
  Lemma ask_ok seen t c : files_ok t -> shapes_ok seen t -> (Z.of_nat (List.length (t_shapes t)) <= 8192)%Z ->
    exists a t', ask parse value fs t c = (a, t') /\ right seen c a /\ files_ok t' /\ shapes_ok (seen ++ [c]) t' /\ (Z.of_nat (List.length (t_shapes t')) <= 8192)%Z.
  Proof.
    intros F S L. destruct c as [[b db] [[[[text family] size] bold] italic]]. cbn [ask right]. set (k := (text, family, size, bold, italic)).
    assert (SS : forall t', t_shapes t' = t_shapes t -> shapes_ok (seen ++ [(b, db, k)]) t').
    { intros t' E k' s. rewrite E. intros H. destruct (S _ _ H) as (b' & db' & I & Q). exists b', db'. split; [apply in_or_app; left; exact I|exact Q]. }
    destruct (style_ok t db text family size bold italic F) as (t1 & E1 & F1 & S1). destruct b.
    2:{ rewrite E1. exists (straight parse value fs db k), t1. split; [reflexivity|]. split; [left; reflexivity|]. split; [exact F1|]. split; [exact (SS _ S1)|]. rewrite S1. exact L. }
    unfold shape_cached. fold k. destruct (lookup_key (t_shapes t) k) as [s|] eqn:K.
    - destruct (S _ _ K) as (b' & db' & I & Q). exists (Ok s), t. split; [reflexivity|]. split; [right; split; [reflexivity|]; exists s, b', db'; auto|]. split; [exact F|]. split; [exact (SS _ eq_refl)|exact L].
    - rewrite E1. fold k. destruct (straight parse value fs db k) as [s| |] eqn:Q; [|exists Err, t1|exists Panic, t1].
      + eexists (Ok s), _. split; [reflexivity|]. split; [left; reflexivity|]. split; [exact F1|]. split.
        * intros k' s'. cbn [t_shapes]. rewrite lookup_cons. destruct (key_eqb k k') eqn:KE.
          -- apply key_eqb_eq in KE. subst k'. intros [= <-]. exists true, db. split; [apply in_or_app; right; left; reflexivity|exact Q].
          -- destruct (8192 <=? Z.of_nat (List.length (t_shapes t1)))%Z; [intros H; discriminate H|]. exact (SS t1 S1 k' s').
        * cbn [t_shapes List.length]. destruct (Z.leb_spec 8192 (Z.of_nat (List.length (t_shapes t1)))) as [G|G]; cbn [List.length]; lia.
      + split; [reflexivity|]. split; [left; reflexivity|]. split; [exact F1|]. split; [exact (SS _ S1)|]. rewrite S1. exact L.
      + split; [reflexivity|]. split; [left; reflexivity|]. split; [exact F1|]. split; [exact (SS _ S1)|]. rewrite S1. exact L.
  Qed.
  Lemma asks_ok : forall cs seen t l t', files_ok t -> shapes_ok seen t -> (Z.of_nat (List.length (t_shapes t)) <= 8192)%Z -> asks parse value fs t cs = (l, t') ->
    (Z.of_nat (List.length (t_shapes t')) <= 8192)%Z /\ List.length l = List.length cs /\ forall i c a, nth_error cs i = Some c -> nth_error l i = Some a -> right (seen ++ firstn i cs) c a.
  Proof.
    induction cs as [|c cs IH]; intros seen t l t' F S L; cbn [asks].
    { intros [= <- <-]. split; [exact L|]. split; [reflexivity|]. intros [|i] c a H; discriminate H. }
    destruct (ask_ok seen t c F S L) as (a & t1 & E & R & F1 & S1 & L1). rewrite E. destruct (asks parse value fs t1 cs) as [l1 t2] eqn:E2. intros [= <- <-].
    destruct (IH _ _ _ _ F1 S1 L1 E2) as (L2 & N & H). split; [exact L2|]. split; [cbn [List.length]; rewrite N; reflexivity|]. intros [|i] c' a'; cbn [nth_error firstn].
    - intros [= <-] [= <-]. rewrite app_nil_r. exact R.
    - intros H1 H2. specialize (H i c' a' H1 H2). rewrite <- app_assoc in H. exact H.
  Qed.
  Lemma empty_ok : files_ok (Th [] []) /\ shapes_ok [] (Th [] []).
  Proof. split; [intros p d H|intros k s H]; discriminate H. Qed.
  Lemma asks_right cs l t : asks parse value fs (Th [] []) cs = (l, t) ->
    (Z.of_nat (List.length (t_shapes t)) <= 8192)%Z /\ List.length l = List.length cs /\ forall i c a, nth_error cs i = Some c -> nth_error l i = Some a -> right (firstn i cs) c a.
  Proof. intros E. exact (asks_ok cs [] _ _ _ (proj1 empty_ok) (proj2 empty_ok) ltac:(cbn; lia) E). Qed.
  Lemma asks_same db cs l t : (forall b db' k, In (b, db', k) cs -> db' = db) -> asks parse value fs (Th [] []) cs = (l, t) -> l = map (fun c => straight parse value fs db (snd c)) cs.
  Proof.
    intros D E. destruct (asks_right cs l t E) as (_ & N & H). apply nth_ext with (d := Err) (d' := Err); [rewrite map_length; exact N|]. intros i Hi.
    destruct (nth_error cs i) as [[[b db'] k]|] eqn:C; [|apply nth_error_None in C; exfalso; apply (Nat.lt_irrefl i); eapply Nat.lt_le_trans; [exact Hi|]; rewrite N; exact C].
    destruct (nth_error l i) as [a|] eqn:A; [|apply nth_error_None in A; lia].
    rewrite (nth_error_nth _ _ _ A). erewrite nth_error_nth by (rewrite nth_error_map, C; reflexivity). cbn [snd].
    assert (db' = db) as -> by (apply nth_error_In in C; exact (D _ _ _ C)).
    destruct (H _ _ _ C A) as [->|(_ & s & b' & db2 & -> & I & Q)]; [reflexivity|].
    assert (db2 = db) as -> by (apply (D b' db2 k); rewrite <- (firstn_skipn i cs); apply in_or_app; left; exact I). symmetry. exact Q.
  Qed.
End Shapes.

Section Glyphs.
  Context {data path : Type}.
  Variable parse : data -> N -> option face.
  Variable finish : list segment -> option path.
  Variable move_by : float -> float -> path -> option path.
  Variable fs : @files data.
  Variable db : @database data.
  Definition fonts_ok (r : renderer (data := data) (path := path)) : Prop := forall i x, lookup_font (r_fonts r) i = Some x -> data_of fs db i = Some x.
  (* seen: the font and size of every earlier text *)
  Definition cache_ok (seen : list (N * float)) (c : list (gkey * path)) : Prop :=
    forall id g x p, lookup_glyph c (id, g, x) = Some p -> exists sz f, In (id, sz) seen /\ fixed sz = x /\ face_of parse fs db id = Some f /\ outline finish f sz g = Some p.
  Lemma font_ok r id : fonts_ok r -> exists r', font_data fs db r id = (match data_of fs db id with Some d => Ok d | None => Err end, r') /\ fonts_ok r' /\ r_glyphs r' = r_glyphs r.
  Proof.
    intros F. unfold font_data. destruct (lookup_font (r_fonts r) id) as [d|] eqn:L.
    { rewrite (F _ _ L). exists r. auto. }
    assert (K : forall d i, data_of fs db id = Some (d, i) -> fonts_ok (Gr (r_glyphs r) ((id, (d, i)) :: r_fonts r))).
    { intros d i E j x. unfold lookup_font. cbn [r_fonts find fst snd]. destruct (N.eqb_spec id j) as [->|]; [intros [= <-]; exact E|exact (F j x)]. }
    unfold data_of in *. destruct (face_source db id) as [[[d|p|p d] i]|]; [|destruct (fs p) as [d|]| |]; try (exists r; now auto); (eexists; split; [reflexivity|split; [apply K; reflexivity|reflexivity]]).
  Qed.
  Lemma glyph_cons k (p : path) l k' : lookup_glyph ((k, p) :: l) k' = if gkey_eqb k k' then Some p else lookup_glyph l k'.
  Proof. unfold lookup_glyph. cbn [find fst snd]. destruct (gkey_eqb k k'); reflexivity. Qed.
  Definition off_at (sp : float) (i : nat) : float := Nat.iter i (fun o => f_add f32 o sp) (Fin 0).
  Lemma piece_some f s sp i g p l : outline finish f s (g_id g) = Some p -> match move_by (f_add f32 (g_x g) (off_at sp i)) (g_y g) p with Some q => q :: l | None => l end = piece finish move_by f s sp i g ++ l.
  Proof. intros E. unfold piece. rewrite E. fold (off_at sp i). destruct (move_by _ _ p); reflexivity. Qed.
  Lemma piece_none f s sp i g l : outline finish f s (g_id g) = None -> l = piece finish move_by f s sp i g ++ l.
  Proof. intros E. unfold piece. rewrite E. reflexivity. Qed.
  Lemma draw_ok seen id f sz sp : face_of parse fs db id = Some f -> In (id, sz) seen -> forall gs i c, cache_ok seen c ->
    exists size c', draw finish move_by f id sz sp c gs (off_at sp i) = (concat (map (fun '(j, g) => piece finish move_by f (size j) sp j g) (combine (seq i (List.length gs)) gs)), c') /\
      cache_ok seen c' /\ forall j, In (id, size j) seen /\ fixed (size j) = fixed sz.
  Proof.
    intros FF IS. induction gs as [|g gs IH]; intros i c C; cbn [draw List.length seq combine map concat].
    { exists (fun _ => sz), c. repeat split; assumption. }
    assert (NX : gs <> [] -> (match gs with [] => off_at sp i | _ => f_add f32 (off_at sp i) sp end) = off_at sp (S i)) by (destruct gs; [congruence|reflexivity]).
    assert (IH' : forall c, cache_ok seen c -> exists size c', draw finish move_by f id sz sp c gs (match gs with [] => off_at sp i | _ => f_add f32 (off_at sp i) sp end) =
      (concat (map (fun '(j, g) => piece finish move_by f (size j) sp j g) (combine (seq (S i) (List.length gs)) gs)), c') /\ cache_ok seen c' /\ forall j, In (id, size j) seen /\ fixed (size j) = fixed sz).
    { intros c1 C1. destruct gs as [|g' gs']; [|rewrite NX by discriminate; exact (IH (S i) c1 C1)]. exists (fun _ => sz), c1. cbn. repeat split; assumption. }
    assert (GL : forall size s1 n, (n <= i)%nat -> concat (map (fun '(j, g0) => piece finish move_by f ((fun j => if Nat.eqb j n then s1 else size j) j) sp j g0) (combine (seq (S i) (List.length gs)) gs)) = concat (map (fun '(j, g0) => piece finish move_by f (size j) sp j g0) (combine (seq (S i) (List.length gs)) gs))).
    { intros size s1 n NI. f_equal. apply map_ext_in. intros [j g0] I. apply in_combine_l in I. apply in_seq in I. cbv beta. replace (Nat.eqb j n) with false by (symmetry; apply Nat.eqb_neq; lia). reflexivity. }
    destruct (lookup_glyph c (id, g_id g, fixed sz)) as [p|] eqn:LK; [|destruct (outline finish f sz (g_id g)) as [p|] eqn:OL].
    - destruct (C _ _ _ _ LK) as (s1 & f1 & I1 & X1 & F1 & O1). rewrite FF in F1. injection F1 as <-. destruct (IH' c C) as (size & c' & -> & C' & H).
      exists (fun j => if Nat.eqb j i then s1 else size j), c'. split; [|split; [exact C'|intros j; destruct (Nat.eqb j i); [split; assumption|apply H]]].
      rewrite (GL size s1 i (le_n _)). f_equal. rewrite Nat.eqb_refl. apply piece_some. exact O1.
    - assert (C1 : cache_ok seen ((id, g_id g, fixed sz, p) :: c)).
      { intros id' g' x' p'. rewrite glyph_cons. destruct (gkey_eqb (id, g_id g, fixed sz) (id', g', x')) eqn:E; [|exact (C id' g' x' p')]. apply gkey_eqb_eq in E. injection E as <- <- <-. intros [= <-]. exists sz, f. repeat split; assumption. }
      destruct (IH' _ C1) as (size & c' & -> & C' & H). exists (fun j => if Nat.eqb j i then sz else size j), c'. split; [|split; [exact C'|intros j; destruct (Nat.eqb j i); [split; [assumption|reflexivity]|apply H]]].
      rewrite (GL size sz i (le_n _)). f_equal. rewrite Nat.eqb_refl. apply piece_some. exact OL.
    - destruct (IH' c C) as (size & c' & -> & C' & H). exists (fun j => if Nat.eqb j i then sz else size j), c'. split; [|split; [exact C'|intros j; destruct (Nat.eqb j i); [split; [assumption|reflexivity]|apply H]]].
      rewrite (GL size sz i (le_n _)). f_equal. rewrite Nat.eqb_refl. apply piece_none. exact OL.
  Qed.
  Definition sizes (cs : list gcall) : list (N * float) := map (fun '(s, id, _) => (id, s_size s)) cs.
  Lemma render_ok seen r s id sp : fonts_ok r -> cache_ok seen (r_glyphs r) ->
    exists size r', render parse finish move_by fs db r s id sp = (drawn_at parse finish move_by fs db (s, id, sp) size, r') /\ fonts_ok r' /\ cache_ok (seen ++ [(id, s_size s)]) (r_glyphs r') /\
      forall j, In (id, size j) (seen ++ [(id, s_size s)]) /\ fixed (size j) = fixed (s_size s).
  Proof.
    intros F C. assert (C0 : cache_ok (seen ++ [(id, s_size s)]) (r_glyphs r)).
    { intros i g x p H. destruct (C _ _ _ _ H) as (z & f & I & R). exists z, f. split; [apply in_or_app; left; exact I|exact R]. }
    assert (IN : In (id, s_size s) (seen ++ [(id, s_size s)])) by (apply in_or_app; right; left; reflexivity).
    unfold render, drawn_at, face_of. destruct (font_ok r id F) as (r1 & -> & F1 & G1). destruct (data_of fs db id) as [[d i]|] eqn:D.
    2:{ exists (fun _ => s_size s), r1. rewrite G1. repeat split; auto. }
    destruct (parse d i) as [f|] eqn:P; [|exists (fun _ => s_size s), r1; rewrite G1; repeat split; auto].
    rewrite G1. assert (FF : face_of parse fs db id = Some f) by (unfold face_of; rewrite D; exact P).
    destruct (draw_ok _ id f (s_size s) sp FF IN (s_glyphs s) 0 _ C0) as (size & c' & E & C' & H). change (off_at sp 0) with (Fin 0) in E. rewrite E. exists size. eexists. split; [reflexivity|]. split; [exact F1|]. split; [exact C'|exact H].
  Qed.
  Definition sharp (seen : list (N * float)) (c : gcall) (a : res (list path)) : Prop :=
    exists size, a = drawn_at parse finish move_by fs db c size /\ forall j, In (snd (fst c), size j) seen /\ fixed (size j) = fixed (s_size (fst (fst c))).
  Lemma renders_ok : forall cs seen r l r', fonts_ok r -> cache_ok seen (r_glyphs r) -> renders parse finish move_by fs db r cs = (l, r') ->
    List.length l = List.length cs /\ forall i c a, nth_error cs i = Some c -> nth_error l i = Some a -> sharp (seen ++ sizes (firstn (S i) cs)) c a.
  Proof.
    induction cs as [|[[s id] sp] cs IH]; intros seen r l r' F C; cbn [renders].
    { intros [= <- <-]. split; [reflexivity|]. intros [|i] c a H; discriminate H. }
    destruct (render_ok seen r s id sp F C) as (size & r1 & -> & F1 & C1 & H). destruct (renders parse finish move_by fs db r1 cs) as [l1 r2] eqn:E2. intros [= <- <-].
    destruct (IH _ _ _ _ F1 C1 E2) as (N & K). split; [cbn [List.length]; rewrite N; reflexivity|]. intros [|i] c a; cbn [nth_error].
    - intros [= <-] [= <-]. exists size. split; [reflexivity|]. cbn [fst snd firstn sizes map]. exact H.
    - intros H1 H2. specialize (K i c a H1 H2). rewrite <- app_assoc in K. exact K.
  Qed.
  Lemma renders_sharp cs l r : renders parse finish move_by fs db no_glyphs cs = (l, r) -> List.length l = List.length cs /\ forall i c a, nth_error cs i = Some c -> nth_error l i = Some a -> sharp (sizes (firstn (S i) cs)) c a.
  Proof. intros E. exact (renders_ok cs [] no_glyphs l r ltac:(intros i x H; discriminate H) ltac:(intros id g x p H; discriminate H) E). Qed.
End Glyphs.

Lemma sharp_exact {data path} parse finish move_by (fs : @files data) db (cs : list gcall) l (r : renderer (path := path)) :
  (forall s id sp s' id' sp', In (s, id, sp) cs -> In (s', id', sp') cs -> fixed (s_size s) = fixed (s_size s') -> s_size s = s_size s') ->
  renders parse finish move_by fs db no_glyphs cs = (l, r) -> l = map (fun c => drawn_at parse finish move_by fs db c (fun _ => s_size (fst (fst c)))) cs.
Proof.
  intros D E. destruct (renders_sharp parse finish move_by fs db cs l r E) as (N & H). apply nth_ext with (d := Err) (d' := Err); [rewrite map_length; exact N|]. intros i Hi.
  destruct (nth_error cs i) as [[[s id] sp]|] eqn:C; [|apply nth_error_None in C; exfalso; apply (Nat.lt_irrefl i); eapply Nat.lt_le_trans; [exact Hi|]; rewrite N; exact C].
  destruct (nth_error l i) as [a|] eqn:A; [|apply nth_error_None in A; lia].
  rewrite (nth_error_nth _ _ _ A). erewrite nth_error_nth by (rewrite nth_error_map, C; reflexivity).
  destruct (H _ _ _ C A) as (size & -> & Q). cbn [fst snd] in *. unfold drawn_at. destruct (face_of parse fs db id) as [f|]; [|reflexivity]. f_equal. unfold pieces. f_equal. apply map_ext. intros [j g]. f_equal.
  destruct (Q j) as [I X]. unfold sizes in I. apply in_map_iff in I. destruct I as ([[s' id'] sp'] & [= _ EQ] & I). rewrite <- EQ in *. apply (D s' id' sp' s id sp); [|exact (nth_error_In _ _ C)|exact X]. rewrite <- (firstn_skipn (S i) cs). apply in_or_app. left. exact I.
Qed.
