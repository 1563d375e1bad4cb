(* Which face a run of text is set in. *)
From Verif Require Import Base FontModel FontSpec FontProofs.

(* the face for a family name alone *)
Theorem family_exact db fam b i :
  exists jp, (jp <> [] <-> japanese_name fam) /\ (jp = [] \/ jp = map (fun n => query db [Name (lit n)] b i) japanese_faces) /\
  find_font db fam b i = match first_some (query db [Name fam; SansSerif] b i :: jp ++ [query db [SansSerif; Serif] b i; any_face db]) with Some x => Okay x | None => Err NoFont end.
Proof. exact (find_font_is db fam b i). Qed.
Print Assumptions family_exact.

(* With readable faces there is always an answer.  It is the family's face unless another shows more of the text: for a
   text with Chinese, Japanese or Korean characters the first best of the known faces for those, if it is better; otherwise
   the first best of all faces. *)
Theorem font_exact db fam b i text : database_ok db -> all_readable db -> faces db <> [] ->
  exists p r, find_font db fam b i = Okay p /\ find_font_for_text db fam b i text = Okay r /\
    ((east_asian text /\ first_best (score db text) (score db text p) (present db b i asian_faces) r) \/
     ((~ east_asian text \/ none_better (score db text) (score db text p) (present db b i asian_faces)) /\ best_from (score db text) p (ids db) r)).
Proof.
  intros D R N. destruct (find_font_some db fam b i N) as (p & E). destruct (choose_ok db text D R fam b i p E) as (r & E2 & H).
  exists p, r. rewrite present_is. auto.
Qed.
Print Assumptions font_exact.
(* so no text is set in a face that shows less of it than the face asked for, and a text without such characters in none
   that shows less than any face could *)
Theorem font_never_worse db fam b i text p r : database_ok db -> all_readable db -> find_font db fam b i = Okay p ->
  find_font_for_text db fam b i text = Okay r ->
  In r (ids db) /\ score db text p <= score db text r /\ (~ east_asian text -> forall x, In x (ids db) -> score db text x <= score db text r).
Proof.
  intros D R E E2. destruct (choose_ok db text D R fam b i p E) as (r' & E3 & H). assert (r' = r) by congruence. subst r'. clear E3.
  assert (F : forall l, first_best (score db text) (score db text p) l r -> In r l /\ score db text p < score db text r /\ forall x, In x l -> score db text x <= score db text r).
  { intros l (a & z & -> & B & A & Z). rewrite Forall_forall in A, Z. split; [apply in_elt|]. split; [exact B|]. intros x Hx. apply in_app_or in Hx. destruct Hx as [Hx|[->|Hx]]; [pose proof (A _ Hx); lia|lia|exact (Z _ Hx)]. }
  destruct H as [[A H]|[H B]].
  - destruct (F _ H) as (I1 & L & _). split; [|split; [lia|contradiction]]. unfold found in I1. apply in_flat_map in I1. destruct I1 as (n & _ & I1).
    destruct (query db [Name n] b i) as [x|] eqn:Q; [|destruct I1]. destruct I1 as [->|[]]. eapply (proj2 D); eauto.
  - destruct B as [[-> B]|B].
    + split; [eapply find_font_in; eauto|]. split; [lia|]. intros _ x Hx. unfold none_better in B. rewrite Forall_forall in B. exact (B _ Hx).
    + destruct (F _ B) as (I1 & L & M). split; [exact I1|]. split; [lia|]. intros _. exact M.
Qed.
Print Assumptions font_never_worse.
(* a face that shows the whole text is kept, whatever else is installed, readable or not *)
Theorem font_covered db fam b i text p : NoDup (ids db) -> find_font db fam b i = Okay p -> readable db p -> text <> [] ->
  score db text p = List.length text -> find_font_for_text db fam b i text = Okay p.
Proof. exact (covered db fam b i text p). Qed.
Print Assumptions font_covered.

(* One face that cannot be read makes a text fail that the chosen face shows all but one character of, and makes the
   empty text fail. *)
Definition latin (c : N) : bool := (32 <=? c)%N && (c <=? 126)%N.
Definition broken_db : database := Db [Fc 1 (Some latin); Fc 2 None] (fun l _ _ => match l with Name n :: _ => if str_eqb n (lit "Arial") then Some 1%N else None | _ => None end).
Theorem broken_face_refuted :
  find_font broken_db (lit "Arial") false false = Okay 1%N /\ find_font_for_text broken_db (lit "Arial") false false (lit "ok") = Okay 1%N /\
  find_font_for_text broken_db (lit "Arial") false false (lit "ok" ++ [8230%N]) = Err Unreadable /\
  find_font_for_text broken_db (lit "Arial") false false [] = Err Unreadable.
Proof. vm_compute. auto. Qed.
Print Assumptions broken_face_refuted.
(* A text with Chinese characters may be set in a known face that shows only some of it although another shows it all. *)
Definition cjk_db : database :=
  Db [Fc 1 (Some latin); Fc 2 (Some (fun c => cjk_char c)); Fc 3 (Some (fun c => latin c || cjk_char c))]
     (fun l _ _ => match l with [Name n] => if str_eqb n (lit "SimHei") then Some 2%N else None | _ => None end).
Theorem asian_best_refuted : exists text, east_asian text /\ find_font_for_text cjk_db (lit "Arial") false false text = Okay 2%N /\
  score cjk_db text 2 = 2 /\ score cjk_db text 3 = List.length text /\ List.length text = 3.
Proof. exists [97; 20013; 22269]%N. split; [exists 20013%N; split; [right; left; reflexivity|left; lia]|]. vm_compute. auto. Qed.
Print Assumptions asian_best_refuted.

Lemma cjk_db_ok : database_ok cjk_db /\ all_readable cjk_db /\ faces cjk_db <> [].
Proof.
  split; [split|split; [|discriminate]].
  - unfold ids. cbn. repeat constructor; cbn; intuition discriminate.
  - intros l b i x. cbn [query cjk_db]. destruct l as [|[n| |] [|? ?]]; try discriminate. destruct (str_eqb n (lit "SimHei")); [|discriminate]. intros H. injection H as <-. cbn. auto.
  - assert (K : forall f, In f (faces cjk_db) -> readable cjk_db (f_id f)).
    { intros f H. assert (G : exists g, f_glyphs f = Some g) by (destruct H as [<-|[<-|[<-|[]]]]; eexists; reflexivity). destruct G as (g & G). exists f, g. auto. }
    intros i H. apply in_map_iff in H. destruct H as (f & <- & H). apply K. exact H.
Qed.
Example latin_text : find_font_for_text cjk_db (lit "Nothing") true false (lit "plain") = Okay 1%N.
Proof. reflexivity. Qed.
Example kana_text : find_font_for_text cjk_db (lit "Meiryo") false false [12354; 12356]%N = Okay 2%N.
Proof. reflexivity. Qed.
Example mixed_text : find_font_for_text (Db (faces cjk_db) (fun _ _ _ => None)) (lit "x") false false [97; 20013; 22269]%N = Okay 3%N.
Proof. reflexivity. Qed.
