(* Writing a script out and reading it again. *)
From Verif Require Import Base BaseLemmas UuModel Utf8Model ParseModel ParseSpec ParseTracker ParseLines ParseSections ParseMain ParseProofs ParseLineProofs.

Lemma no_newline_app a b : no_newline (a ++ b) <-> no_newline a /\ no_newline b.
Proof. unfold no_newline. rewrite forallb_app. apply andb_true_iff. Qed.
Lemma join_no_newline sep l : no_newline sep -> Forall no_newline l -> no_newline (join sep l).
Proof.
  intros Hs. induction 1 as [|x l Hx _ IH]; [reflexivity|]. destruct l as [|y l]; [exact Hx|].
  change (join sep (x :: y :: l)) with (x ++ sep ++ join sep (y :: l)). rewrite !no_newline_app. auto.
Qed.
Lemma trim_no_newline v : no_newline v -> no_newline (trim v).
Proof. unfold no_newline. intros H. destruct (trim_spec v) as (a & b & E & _). rewrite E in H. exact (forallb_part _ _ _ _ H). Qed.
Lemma under_no_newline fmt : forall vals name, Forall no_newline vals -> no_newline (under fmt vals name).
Proof.
  induction fmt as [|f fs IH]; intros [|v vs] name H; try reflexivity. cbn [under]. destruct (eq_nocase f name).
  - apply trim_no_newline, (Forall_inv H). - apply IH, (Forall_inv_tail H).
Qed.

(* ---- the lines of the written text ---- *)
Definition flat (ls : list str) : str := flat_map (fun l => l ++ nl) ls.
Lemma flat_split ls t : Forall no_newline ls -> split_on is_nl (flat ls ++ t) = ls ++ split_on is_nl t.
Proof.
  induction 1 as [|l ls Hl _ IH]; [reflexivity|]. unfold flat, nl in *. cbn [flat_map]. rewrite <- !app_assoc. cbn [app].
  rewrite split_on_app by (try exact Hl; reflexivity). cbn [app] in IH. rewrite IH. reflexivity.
Qed.
Definition name_of (s : section) : str :=
  match s with SInfo _ _ => lit "Script Info" | SStyles _ => lit "V4+ Styles" | SEvents _ => lit "Events" | SFonts _ => lit "Fonts" | SGraphics _ => lit "Graphics" end.
Definition format_line (f : option (list str)) : list str := match f with Some f => [lit "Format: " ++ join (lit ", ") f] | None => [] end.
Definition media_lines (key : str) (m : media) : list str := (key ++ lit ": " ++ m_name m) :: m_lines m.
Definition lines_of (sf ef : option (list str)) (s : section) : list str :=
  match s with
  | SInfo fs _ => map (fun kv : str * str => fst kv ++ lit ": " ++ snd kv) fs
  | SStyles l => format_line sf ++ map (fun x => match sf with Some f => style_to_string_with x f | None => style_to_string x end) l
  | SEvents l => format_line ef ++ map (fun x => match ef with Some f => event_to_string_with x f | None => event_to_string x end) l
  | SFonts l => flat_map (media_lines (lit "fontname")) l
  | SGraphics l => flat_map (media_lines (lit "filename")) l
  end.
Definition header_text (s : section) : str := lit "[" ++ name_of s ++ lit "]".
Lemma flat_app a b : flat (a ++ b) = flat a ++ flat b. Proof. apply flat_map_app. Qed.
Lemma flat_map_flat {A} (f : A -> str) l : flat (map f l) = flat_map (fun x => f x ++ nl) l.
Proof. unfold flat. induction l as [|x l IH]; [reflexivity|]. cbn. rewrite IH. reflexivity. Qed.
Lemma flat_media key l : flat_map (media_to_string key) l = flat (flat_map (media_lines key) l).
Proof.
  induction l as [|m l IH]; [reflexivity|]. cbn [flat_map]. rewrite flat_app, <- IH. unfold media_to_string, media_lines, flat.
  cbn [flat_map]. rewrite <- !app_assoc. reflexivity.
Qed.
Lemma section_flat sf ef s : section_to_string sf ef s = flat (header_text s :: lines_of sf ef s).
Proof.
  destruct s as [fs sp|l|l|l|l]; cbn [section_to_string lines_of]; change (flat (?h :: ?r)) with ((h ++ nl) ++ flat r).
  - unfold info_to_string. change (header_text (SInfo fs sp)) with (lit "[Script Info]"). rewrite flat_map_flat, <- app_assoc. f_equal. f_equal.
    apply flat_map_ext. intros kv. rewrite <- !app_assoc. reflexivity.
  - change (header_text (SStyles l)) with (lit "[V4+ Styles]"). rewrite flat_app, flat_map_flat, <- app_assoc. f_equal. f_equal. f_equal.
    destruct sf; cbn; rewrite ?app_nil_r, <- ?app_assoc; reflexivity.
  - change (header_text (SEvents l)) with (lit "[Events]"). rewrite flat_app, flat_map_flat, <- app_assoc. f_equal. f_equal. f_equal.
    destruct ef; cbn; rewrite ?app_nil_r, <- ?app_assoc; reflexivity.
  - change (header_text (SFonts l)) with (lit "[Fonts]"). rewrite flat_media, <- app_assoc. reflexivity.
  - change (header_text (SGraphics l)) with (lit "[Graphics]"). rewrite flat_media, <- app_assoc. reflexivity.
Qed.
Definition all_lines (sf ef : option (list str)) (l : list section) : list str :=
  flat_map (fun s => header_text s :: lines_of sf ef s ++ [[]]) l.
Lemma written_lines sf ef l : l <> [] -> Forall (fun s => Forall no_newline (lines_of sf ef s)) l ->
  split_on is_nl (join nl (map (section_to_string sf ef) l)) = all_lines sf ef l.
Proof.
  intros Hl H. induction H as [|s l Hs Hr IH]; [congruence|]. cbn [map].
  assert (Hh : Forall no_newline (header_text s :: lines_of sf ef s)) by (constructor; [destruct s; reflexivity|exact Hs]).
  destruct l as [|s' l].
  - cbn [map join]. rewrite section_flat. rewrite <- (app_nil_r (flat _)). rewrite flat_split by exact Hh. unfold all_lines. cbn [flat_map].
    rewrite app_nil_r. reflexivity.
  - rewrite (join_cons nl) by discriminate. rewrite section_flat. rewrite flat_split by exact Hh. unfold nl at 1. cbn [app split_on]. change (is_nl 10) with true. cbv iota.
    rewrite IH by discriminate. unfold all_lines. cbn [flat_map app]. rewrite <- !app_assoc. reflexivity.
Qed.

(* ---- reading those lines ---- *)
Lemma located_app xs : forall pre ys, exists pre', located pre (xs ++ ys) = located pre xs ++ located pre' ys.
Proof.
  induction xs as [|x xs IH]; intros pre ys; [exists pre; reflexivity|]. cbn [app located].
  destruct (IH (pre ++ x ++ [10%N]) ys) as (p & E). exists p. rewrite E. reflexivity.
Qed.
Lemma sections_skip xs : forall pre ys, Forall (fun l => header_line l = false) xs ->
  exists pre', sections_in (located pre (xs ++ ys)) = sections_in (located pre' ys).
Proof.
  induction xs as [|x xs IH]; intros pre ys H; [exists pre; reflexivity|]. cbn [app located sections_in].
  pose proof (Forall_inv H) as Hx. cbn beta in Hx. rewrite Hx. apply IH, (Forall_inv_tail H).
Qed.
Lemma body_located xs : forall pre ys, Forall (fun l => header_line l = false) xs -> (forall y r, ys = y :: r -> header_line y = true) ->
  body (located pre (xs ++ ys)) = located pre xs.
Proof.
  induction xs as [|x xs IH]; intros pre ys H Hy; cbn [app located body].
  - destruct ys as [|y r]; [reflexivity|]. cbn [located body]. rewrite (Hy y r eq_refl). reflexivity.
  - pose proof (Forall_inv H) as Hx. cbn beta in Hx. rewrite Hx. f_equal. apply IH; [exact (Forall_inv_tail H)|exact Hy].
Qed.
Definition headed (ys : list str) : Prop := forall y r, ys = y :: r -> header_line y = true.
Lemma header_text_line s : header_line (header_text s) = true /\ header_closed (header_text s) = true /\ header_name (header_text s) = name_of s /\
  known_name (name_of s) = true.
Proof. destruct s; vm_compute; auto. Qed.
Lemma all_headed sf ef l : headed (all_lines sf ef l).
Proof. intros y r E. destruct l as [|s l]; [discriminate|]. injection E as <- _. apply header_text_line. Qed.
Lemma blank_no_header : header_line [] = false. Proof. reflexivity. Qed.
Lemma sections_written sf ef l : Forall (fun s => Forall (fun x => header_line x = false) (lines_of sf ef s)) l ->
  forall pre, Forall2 (fun s x => fst x = name_of s /\ exists p ys, headed ys /\ snd x = located p ((lines_of sf ef s ++ [[]]) ++ ys))
    l (sections_in (located pre (all_lines sf ef l))).
Proof.
  induction 1 as [|s l Hs _ IH]; intros pre; [constructor|]. unfold all_lines. cbn [flat_map app located sections_in].
  destruct (header_text_line s) as (H1 & _ & H2 & _). rewrite H1, H2. fold (all_lines sf ef l).
  assert (Hb : Forall (fun x => header_line x = false) (lines_of sf ef s ++ [[]])) by (apply Forall_app; split; [exact Hs|constructor; [reflexivity|constructor]]).
  constructor.
  - cbn [fst snd]. split; [reflexivity|]. exists (pre ++ header_text s ++ [10%N]), (all_lines sf ef l). split; [apply all_headed|reflexivity].
  - destruct (sections_skip (lines_of sf ef s ++ [[]]) (pre ++ header_text s ++ [10%N]) (all_lines sf ef l) Hb) as (p & E). rewrite E. apply IH.
Qed.
Lemma closed_written sf ef l pre : Forall (fun s => Forall (fun x => header_line x = false) (lines_of sf ef s)) l ->
  headers_closed (located pre (all_lines sf ef l)) = true.
Proof.
  unfold headers_closed. intros H. apply forallb_forall. intros [p x] Hin. destruct (located_in _ _ _ _ Hin) as (a & b & E & _).
  assert (Hx : In x (all_lines sf ef l)) by (rewrite E; apply in_or_app; right; left; reflexivity). clear - H Hx. cbn [snd].
  unfold all_lines in Hx. apply in_flat_map in Hx. destruct Hx as (s & Hs & Hx). rewrite Forall_forall in H. specialize (H s Hs).
  destruct Hx as [<-|Hx]; [destruct (header_text_line s) as (_ & -> & _); apply implb_true_r|].
  apply in_app_or in Hx. destruct Hx as [Hx|[<-|[]]]; [|reflexivity]. rewrite Forall_forall in H. rewrite (H x Hx). reflexivity.
Qed.

(* one event *)
Lemma type_trim ty d : trim (event_type_str ty ++ lit ":" ++ d) = event_type_str ty ++ lit ":" ++ trim_end d.
Proof.
  rewrite app_assoc. change (lit ":" ++ d) with (58%N :: d). change (lit ":") with [58%N].
  rewrite <- !app_assoc. cbn [app]. rewrite trim_mid by reflexivity. f_equal. destruct ty; vm_compute; reflexivity.
Qed.
Lemma trim_last_values fmt vals : event_values fmt vals -> event_values fmt (trim_last vals).
Proof.
  unfold event_values. rewrite trim_last_length, trim_last_init. destruct (named fmt (lit "Text")); [auto|].
  intros [H1 [[H2 H3]|H2]]; (split; [exact H1|]); [left|right]; auto using trim_last_free.
Qed.
Lemma event_written f ty vals sp n : f <> [] -> spelled event_columns f -> (In (lit "Actor") f -> named f (lit "Name") = false) ->
  event_values f vals -> parse_event_line (trim (event_to_string_with (event_of ty f vals sp) f)) f n = Ok (event_of ty f vals (Span 0 0 n 1)).
Proof.
  intros Hf Hs Ha Hv.
  assert (EF : format_or default_events_format f = f) by (destruct f; [congruence|reflexivity]).
  destruct (event_rewrite ty f vals (Span 0 0 n 1) Hf Hs Ha Hv) as [H1 H2].
  unfold event_to_string_with. change (e_type (event_of ty f vals sp)) with ty.
  set (vals' := map (event_value (event_of ty f vals (Span 0 0 n 1))) f) in *.
  replace (map (event_value (event_of ty f vals sp)) f) with vals' by reflexivity.
  change (lit ": ") with (lit ":" ++ lit " "). rewrite <- app_assoc. change (lit ",") with [44%N].
  assert (Hne : vals' <> []) by (unfold vals'; destruct f; [congruence|discriminate]).
  rewrite spaced_join by exact Hne. rewrite type_trim, trim_last_join by (apply spaced_ne, Hne).
  rewrite event_line_ok by (rewrite EF; apply trim_last_values, spaced_values, H1). rewrite EF. f_equal.
  rewrite (event_of_trims ty f _ vals'); [exact H2|]. rewrite trim_last_trim. apply spaced_trim.
Qed.
Lemma event_line_prefix ty d : format_of (event_type_str ty ++ lit ":" ++ d) = None.
Proof. destruct ty; vm_compute; reflexivity. Qed.
Lemma set_event_twice e a b : set_event_span (set_event_span e a) b = set_event_span e b. Proof. reflexivity. Qed.
Lemma set_event_of ty f vals a b : set_event_span (event_of ty f vals a) b = event_of ty f vals b. Proof. reflexivity. Qed.
Lemma event_string_shape e f : exists d, event_to_string_with e f = event_type_str (e_type e) ++ lit ":" ++ d.
Proof. eexists. unfold event_to_string_with. change (lit ": ") with (lit ":" ++ lit " "). rewrite <- app_assoc. reflexivity. Qed.
Definition F_of (ef : option (list str)) : list str := match ef with Some f => f | None => default_events_format end.
Definition event_text (ef : option (list str)) (e : event) : str := match ef with Some f => event_to_string_with e f | None => event_to_string e end.
Lemma event_text_with ef e : event_text ef e = event_to_string_with e (F_of ef).
Proof. destruct ef; [reflexivity|apply event_default_string]. Qed.
Definition good_events (ef : option (list str)) : Prop := forall f, ef = Some f -> format_ok f /\ spelled event_columns f /\
    (In (lit "Actor") f -> named f (lit "Name") = false).
Lemma F_good ef : good_events ef -> F_of ef <> [] /\ spelled event_columns (F_of ef) /\ (In (lit "Actor") (F_of ef) -> named (F_of ef) (lit "Name") = false).
Proof.
  destruct ef as [f|]; intros H.
  - destruct (H f eq_refl) as ((H1 & _) & H2 & H3). auto.
  - split; [discriminate|]. split; [apply default_spelled|].
    intros K. exfalso. revert K. cbn [F_of]. unfold default_events_format. cbn [map In]. intros K. repeat (destruct K as [K|K]; [vm_compute in K; discriminate|]). exact K.
Qed.
Lemma parse_line_default ef line n : good_events ef -> parse_event_line line (opt_list ef) n = parse_event_line line (F_of ef) n.
Proof. destruct ef; reflexivity. Qed.
Lemma format_or_F ef : good_events ef -> format_or default_events_format (opt_list ef) = F_of ef.
Proof. destruct ef as [f|]; intros H; [|reflexivity]. destruct (H f eq_refl) as ((H1 & _) & _). cbn. destruct f; [congruence|reflexivity]. Qed.
Lemma event_reads ef e : good_events ef -> event_ok (opt_list ef) e ->
  format_of (trim (event_text ef e)) = None /\ exists e', parse_event_line (trim (event_text ef e)) (opt_list ef) 0 = Ok e' /\ set_event_span e' here = set_event_span e here.
Proof.
  intros Hg (vals & _ & Hv & He). rewrite format_or_F in * by exact Hg. rewrite event_text_with.
  destruct (F_good ef Hg) as (H1 & H2 & H3). split.
  - destruct (event_string_shape e (F_of ef)) as (d & ->). rewrite type_trim. apply event_line_prefix.
  - rewrite parse_line_default by exact Hg. rewrite He. eexists. split; [apply event_written; assumption|]. reflexivity.
Qed.
Lemma events_read ef l : good_events ef -> Forall (event_ok (opt_list ef)) l -> forall miss pre,
  map (fun x => set_event_span x here) (fst (events_in miss (opt_list ef) (located pre (map (event_text ef) l ++ [[]])))) = map (fun x => set_event_span x here) l /\
  snd (events_in miss (opt_list ef) (located pre (map (event_text ef) l ++ [[]]))) = opt_list ef.
Proof.
  intros Hg. induction 1 as [|e l He _ IH]; intros miss pre.
  - cbn. split; reflexivity.
  - cbn [map app located events_in]. destruct (event_reads ef e Hg He) as (H1 & e' & H2 & H3). rewrite H1, H2.
    specialize (IH miss (pre ++ event_text ef e ++ [10%N])). destruct (events_in _ _ _) as [es g]. cbn [fst snd] in *. destruct IH as [IH1 IH2].
    split; [|exact IH2]. cbn [map]. rewrite set_event_twice, H3, IH1. reflexivity.
Qed.
(* the Format line *)
Lemma join_comma_space f : lit " " ++ join (lit ", ") f = match f with [] => lit " " | _ => join [44%N] (map (cons 32%N) f) end.
Proof.
  destruct f as [|x f]; [reflexivity|]. revert x. induction f as [|y f IH]; intros x; [reflexivity|].
  change (join (lit ", ") (x :: y :: f)) with (x ++ 44%N :: (lit " " ++ join (lit ", ") (y :: f))). rewrite IH. reflexivity.
Qed.
Lemma format_line_read f : format_ok f -> format_of (trim (lit "Format: " ++ join (lit ", ") f)) = Some f.
Proof.
  intros [Hf H]. change (lit "Format: ") with (lit "Format:" ++ lit " "). rewrite <- app_assoc, join_comma_space.
  destruct f as [|x f']; [congruence|]. set (f := x :: f') in *. change (lit "Format:" ++ ?d) with (lit "Format" ++ 58%N :: d).
  rewrite trim_mid by reflexivity. rewrite trim_last_join by discriminate.
  unfold format_of. assert (E : strip_prefix (lit "Format:") (trim_start (lit "Format") ++ 58%N :: join [44%N] (trim_last (map (cons 32%N) f))) = Some (join [44%N] (trim_last (map (cons 32%N) f)))).
  { apply strip_prefix_some. reflexivity. }
  rewrite E. f_equal. rewrite split_comma_join.
  - rewrite trim_last_trim, map_map. clear E Hf. induction H as [|v r [[Hv _] _] _ IH]; [reflexivity|]. cbn [map]. rewrite IH. f_equal. exact Hv.
  - subst f. cbn [map]. apply trim_last_ne.
  - apply trim_last_free. clear E Hf. induction H as [|v r [_ Hv] _ IH]; [constructor|]. cbn [map]. constructor; [exact Hv|exact IH].
Qed.
Lemma events_section_read ef l : good_events ef -> Forall (event_ok (opt_list ef)) l -> forall miss pre,
  map (fun x => set_event_span x here) (fst (events_in miss [] (located pre (lines_of None ef (SEvents l) ++ [[]])))) = map (fun x => set_event_span x here) l /\
  fmt_some (snd (events_in miss [] (located pre (lines_of None ef (SEvents l) ++ [[]])))) = ef.
Proof.
  intros Hg H miss pre. cbn [lines_of]. rewrite <- app_assoc. fold (event_text ef). destruct ef as [f|].
  - cbn [format_line app located events_in]. destruct (Hg f eq_refl) as (H1 & _). rewrite format_line_read by exact H1.
    destruct (events_read (Some f) l Hg H miss (pre ++ (lit "Format: " ++ join (lit ", ") f) ++ [10%N])) as [E1 E2]. cbn [opt_list] in *.
    split; [exact E1|]. change (fun x : event => event_to_string_with x f) with (event_text (Some f)). rewrite E2. destruct H1 as [H1 _]. destruct f; [congruence|reflexivity].
  - cbn [format_line app]. destruct (events_read None l Hg H miss pre) as [E1 E2]. cbn [opt_list] in *.
    split; [exact E1|]. change (fun x : event => event_to_string x) with (event_text None). rewrite E2. reflexivity.
Qed.

(* one style *)
Definition good_styles (f : list str) : Prop := format_ok f /\ spelled_style f /\ (In (lit "TertiaryColour") f -> named f (lit "OutlineColour") = false).
Lemma style_trim d : trim (lit "Style:" ++ d) = lit "Style:" ++ trim_end d.
Proof. change (lit "Style:" ++ ?d) with (lit "Style" ++ 58%N :: d). rewrite trim_mid by reflexivity. reflexivity. Qed.
Lemma style_reads f s : good_styles f -> style_ok f s ->
  format_of (trim (style_to_string_with s f)) = None /\
  exists d, strip_prefix (lit "Style:") (trim (style_to_string_with s f)) = Some d /\
  exists s', parse_style_line (trim d) f 0 = Ok s' /\ set_style_span s' here = set_style_span s here.
Proof.
  intros ((Hf & _) & Hs & Ht) (vals & _ & Hc & Hp & L & Es).
  assert (EF : format_or default_styles_format f = f) by (destruct f; [congruence|reflexivity]).
  destruct (style_rewrite f vals (Span 0 0 0 1) Hf Hs Ht Hc Hp L) as (H1 & H2 & H3).
  assert (Ev : map (style_value s) f = map (style_value (style_of None f vals (Span 0 0 0 1))) f) by (rewrite Es; reflexivity).
  unfold style_to_string_with. rewrite Ev. set (vals' := map (style_value (style_of None f vals (Span 0 0 0 1))) f) in *.
  change (lit "Style: ") with (lit "Style:" ++ lit " "). rewrite <- app_assoc, style_trim. change (lit ",") with [44%N].
  split; [reflexivity|]. eexists. split; [apply strip_prefix_some; reflexivity|]. rewrite trim_trim_end.
  assert (Hne : vals' <> []) by (unfold vals'; destruct f; [congruence|discriminate]).
  rewrite style_text_ok; [|exact Hne|exact H1|exact H2|rewrite EF; unfold vals'; rewrite map_length; lia].
  eexists. split; [reflexivity|]. rewrite EF, H3, Es. reflexivity.
Qed.
Lemma set_style_twice e a b : set_style_span (set_style_span e a) b = set_style_span e b. Proof. reflexivity. Qed.
Lemma styles_read f l : good_styles f -> Forall (style_ok f) l -> forall miss pre,
  map (fun x => set_style_span x here) (fst (styles_in miss f (located pre (map (fun x => style_to_string_with x f) l ++ [[]])))) = map (fun x => set_style_span x here) l /\
  snd (styles_in miss f (located pre (map (fun x => style_to_string_with x f) l ++ [[]]))) = f.
Proof.
  intros Hg. induction 1 as [|e l He _ IH]; intros miss pre.
  - cbn. split; reflexivity.
  - cbn [map app located styles_in]. destruct (style_reads f e Hg He) as (H1 & d & H2 & e' & H3 & H4). rewrite H1, H2, H3.
    specialize (IH miss (pre ++ style_to_string_with e f ++ [10%N])). destruct (styles_in _ _ _) as [es g]. cbn [fst snd] in *. destruct IH as [IH1 IH2].
    split; [|exact IH2]. cbn [map]. rewrite set_style_twice, H4, IH1. reflexivity.
Qed.
Lemma styles_section_read f l : good_styles f -> Forall (style_ok f) l -> forall miss pre,
  map (fun x => set_style_span x here) (fst (styles_in miss [] (located pre (lines_of (Some f) None (SStyles l) ++ [[]])))) = map (fun x => set_style_span x here) l /\
  snd (styles_in miss [] (located pre (lines_of (Some f) None (SStyles l) ++ [[]]))) = f.
Proof.
  intros Hg H miss pre. cbn [lines_of]. rewrite <- app_assoc.
  cbn [format_line app located styles_in]. rewrite format_line_read by apply Hg.
  exact (styles_read f l Hg H miss (pre ++ (lit "Format: " ++ join (lit ", ") f) ++ [10%N])).
Qed.

(* one field *)
Lemma trim_head v c r : trim_ok v -> v = c :: r -> is_ws c = false.
Proof.
  intros H ->. unfold trim_ok, trim in H. destruct (drop_while_spec is_ws (c :: r)) as (a & E & Ha & Hd). fold (trim_start (c :: r)) in *.
  pose proof (trim_end_start_head (trim_start (c :: r))) as Hh. rewrite H in Hh. destruct (trim_start (c :: r)) as [|d t]; [contradiction|]. subst d. exact Hd.
Qed.
Lemma ws_blank c : is_ws c = false -> blank c = false.
Proof.
  unfold is_ws, blank. intros H. destruct (N.eqb_spec c 32); [subst; discriminate|]. destruct (N.eqb_spec c 9); [subst; discriminate|].
  destruct (N.eqb_spec c 13); [subst; discriminate|]. reflexivity.
Qed.
Lemma field_reads kv p : field_ok kv -> info_fields [(p, fst kv ++ lit ": " ++ snd kv)] = [kv].
Proof.
  destruct kv as [k v]. intros ((Hk & _) & (Hv & _) & Hc & Hs). cbn [fst snd] in *. unfold info_fields. cbn [flat_map fst snd app].
  assert (Er : remark (k ++ lit ": " ++ v) = false).
  { unfold remark, content. destruct k as [|c k]; [reflexivity|]. cbn [app drop_while]. rewrite (ws_blank c (trim_head _ _ _ Hk eq_refl)).
    cbn in Hs. destruct (c =? 59)%N; [discriminate|]. destruct (c =? 35)%N; [discriminate|]. reflexivity. }
  rewrite Er. change (lit ": " ++ v) with (58%N :: lit " " ++ v). rewrite trim_mid by reflexivity.
  assert (Et : trim_start k = k).
  { destruct k as [|c k]; [reflexivity|]. unfold trim_start. cbn [drop_while]. rewrite (trim_head _ _ _ Hk eq_refl). reflexivity. }
  assert (Ef : find_char is_colon (k ++ 58%N :: trim_end (lit " " ++ v)) = Some (k, 58%N :: trim_end (lit " " ++ v))).
  { apply find_char_some. split; [reflexivity|]. split; [exact Hc|]. eexists _, _. split; reflexivity. }
  rewrite Et, Ef. rewrite trim_trim_end. rewrite Hk. change (trim (lit " " ++ v)) with (trim v). rewrite Hv. reflexivity.
Qed.
Lemma info_fields_cons x b : info_fields (x :: b) = info_fields [x] ++ info_fields b.
Proof. unfold info_fields. cbn [flat_map]. rewrite app_nil_r. reflexivity. Qed.
Lemma info_read fs : Forall field_ok fs -> forall pre,
  info_fields (located pre (map (fun kv : str * str => fst kv ++ lit ": " ++ snd kv) fs ++ [[]])) = fs.
Proof.
  induction 1 as [|kv fs H _ IH]; intros pre; [reflexivity|]. cbn [map app located]. rewrite info_fields_cons, field_reads, IH by exact H. reflexivity.
Qed.

(* media *)
Lemma data_read miss key fin data : Forall data_ok data -> forall pre q name acc ys, headed ys ->
  exists stop, media_in miss key fin (Some (q, name, acc)) (located pre (data ++ [] :: ys)) =
    [Media name (acc ++ data) (Span (blen q) stop (true_line q - miss) (true_col q))].
Proof.
  induction 1 as [|l data Hl _ IH]; intros pre q name acc ys Hy.
  - cbn [app located media_in]. rewrite blank_no_header. change (ends_data []) with true. cbv iota. rewrite app_nil_r.
    destruct ys as [|y ys]; cbn [located media_in close_entry app]; [eauto|]. rewrite (Hy y ys eq_refl). cbn. eauto.
  - destruct Hl as (_ & H1 & H2 & H3). cbn [app located media_in]. rewrite H1, H2.
    assert (E : first_is 59 (trim l) || first_is 33 (trim l) = false).
    { unfold first_is. destruct (trim l) as [|c r]; [reflexivity|]. cbn in H3. destruct (c =? 59)%N; [discriminate|]. destruct (c =? 33)%N; [discriminate|]. reflexivity. }
    rewrite E. destruct (IH (pre ++ l ++ [10%N]) q name (acc ++ [l]) ys Hy) as (stop & IH'). exists stop. rewrite IH', <- app_assoc. reflexivity.
Qed.
Lemma media_read miss key fin l : In key [lit "fontname"; lit "filename"] -> List.length l <= 1 -> Forall media_ok l -> forall pre ys, headed ys ->
  map bare_media (media_in miss key fin None (located pre ((flat_map (media_lines key) l ++ [[]]) ++ ys))) = map bare_media l.
Proof.
  intros Hk L H pre ys Hy. destruct l as [|m [|m' l]]; [|clear L|cbn in L; lia].
  - cbn [flat_map app located media_in]. change (header_line []) with false. cbv iota.
    change (starts_with (lit ";") (content []) || starts_with (lit "!:") (content [])) with false. cbv iota. cbn [content drop_while find_char].
    destruct ys as [|y ys]; [reflexivity|]. cbn [located media_in]. rewrite (Hy y ys eq_refl). reflexivity.
  - apply Forall_inv in H. destruct H as ((Hn & _) & Hd). cbn [flat_map media_lines]. rewrite app_nil_r. unfold media_lines. cbn [app located media_in].
    assert (E1 : header_line (key ++ lit ": " ++ m_name m) = false) by (destruct Hk as [<-|[<-|[]]]; reflexivity). rewrite E1.
    assert (E2 : content (key ++ lit ": " ++ m_name m) = key ++ lit ": " ++ m_name m) by (destruct Hk as [<-|[<-|[]]]; reflexivity). rewrite E2.
    assert (E3 : starts_with (lit ";") (key ++ lit ": " ++ m_name m) || starts_with (lit "!:") (key ++ lit ": " ++ m_name m) = false) by (destruct Hk as [<-|[<-|[]]]; reflexivity). rewrite E3.
    assert (E4 : find_char is_colon (key ++ lit ": " ++ m_name m) = Some (key, lit ": " ++ m_name m)).
    { apply find_char_some. split; [reflexivity|]. split; [destruct Hk as [<-|[<-|[]]]; reflexivity|]. eexists _, _. split; reflexivity. }
    rewrite E4. change (lit ": " ++ m_name m) with (58%N :: 32%N :: m_name m). cbv iota.
    assert (E5 : str_eqb (trim key) key = true) by (destruct Hk as [<-|[<-|[]]]; reflexivity). rewrite E5.
    change (trim (32%N :: m_name m)) with (trim (m_name m)). rewrite Hn.
    match goal with |- context [media_in ?a ?b ?c (Some (?q, ?n, ?acc)) (located ?p _)] => destruct (data_read a b c (m_lines m) Hd p q n acc ys Hy) as (stop & E) end.
    replace ((m_lines m ++ [[]]) ++ ys) with (m_lines m ++ [] :: ys) by (rewrite <- app_assoc; reflexivity).
    rewrite E. destruct m. reflexivity.
Qed.

(* the written lines are one line each and no headers *)
Definition line_ok (x : str) : Prop := no_newline x /\ header_line x = false.
Lemma format_line_ok f : format_ok f -> line_ok (lit "Format: " ++ join (lit ", ") f).
Proof.
  intros [_ H]. split; [|reflexivity]. apply no_newline_app. split; [reflexivity|]. apply join_no_newline; [reflexivity|].
  eapply Forall_impl; [|exact H]. intros v ((_ & Hv) & _). exact Hv.
Qed.
Lemma event_line_good ef e : good_events ef -> event_ok (opt_list ef) e -> line_ok (event_text ef e).
Proof.
  intros Hg (vals & Hn & _ & He). rewrite event_text_with. split.
  - unfold event_to_string_with. rewrite !no_newline_app. split; [destruct (e_type e); reflexivity|]. split; [reflexivity|].
    apply join_no_newline; [reflexivity|]. apply Forall_forall. intros x Hx. apply in_map_iff in Hx. destruct Hx as (c & <- & _).
    rewrite format_or_F in He by exact Hg. rewrite He. unfold event_value. cbn [assoc_str].
    repeat match goal with |- context [if ?b then _ else _] => destruct b end; cbn; unfold under_opt, or_zero;
      repeat match goal with |- context [if ?b then _ else _] => destruct b end; first [apply under_no_newline, Hn|reflexivity].
  - unfold event_to_string_with. destruct (e_type e); reflexivity.
Qed.
Lemma style_line_good f s : good_styles f -> style_ok f s -> line_ok (style_to_string_with s f).
Proof.
  intros Hg (vals & Hn & _ & _ & _ & He). split; [|reflexivity]. unfold style_to_string_with. rewrite !no_newline_app. split; [reflexivity|].
  apply join_no_newline; [reflexivity|]. apply Forall_forall. intros x Hx. apply in_map_iff in Hx. destruct Hx as (c & <- & _).
  rewrite He. unfold style_value. cbn [assoc_str].
  repeat match goal with |- context [if ?b then _ else _] => destruct b end; cbn; unfold under_opt, or_zero;
    repeat match goal with |- context [if ?b then _ else _] => destruct b end; first [apply under_no_newline, Hn|reflexivity].
Qed.
Lemma field_line_good kv : field_ok kv -> line_ok (fst kv ++ lit ": " ++ snd kv).
Proof.
  destruct kv as [k v]. intros ((Hk & Hk') & (Hv & Hv') & Hc & Hs). cbn [fst snd] in *. split; [rewrite !no_newline_app; repeat split; auto|].
  unfold header_line. destruct k as [|c k]; [reflexivity|]. unfold trim_start. cbn [app drop_while]. rewrite (trim_head _ _ _ Hk eq_refl).
  cbn in Hs. destruct (c =? 59)%N; [discriminate|]. destruct (c =? 35)%N; [discriminate|]. destruct (N.eqb_spec c 91) as [E|E]; [discriminate|].
  unfold starts_with. cbn [lit strip_prefix]. change (N_of_ascii "[") with 91%N. destruct (N.eqb_spec 91 c); [congruence|reflexivity].
Qed.
Lemma media_line_good key m : In key [lit "fontname"; lit "filename"] -> media_ok m -> Forall line_ok (media_lines key m).
Proof.
  intros Hk ((_ & Hn) & Hd). constructor.
  - split; [rewrite !no_newline_app|]; destruct Hk as [<-|[<-|[]]]; repeat split; auto.
  - eapply Forall_impl; [|exact Hd]. intros l (H1 & H2 & _). split; assumption.
Qed.
Lemma lines_good sf ef s : good_events ef -> (forall f, sf = Some f -> good_styles f) -> section_ok sf ef s -> Forall line_ok (lines_of sf ef s).
Proof.
  intros He Hs H. assert (Hmap : forall A (g : A -> str) (l : list A) (P : A -> Prop), (forall x, P x -> line_ok (g x)) -> Forall P l -> Forall line_ok (map g l)).
  { intros A g l P Hp Hl. apply Forall_forall. intros x Hx. apply in_map_iff in Hx. destruct Hx as (y & <- & Hy). rewrite Forall_forall in Hl. auto. }
  destruct s as [fs sp|l|l|l|l]; cbn [lines_of section_ok] in *.
  - eapply Hmap; [|exact H]. intros kv. apply field_line_good.
  - destruct sf as [f|].
    + constructor; [apply format_line_ok, (Hs f eq_refl)|]. eapply Hmap; [|exact H]. intros x. apply style_line_good, (Hs f eq_refl).
    + subst l. constructor.
  - apply Forall_app. split.
    + destruct ef as [f|]; constructor; [apply format_line_ok, (He f eq_refl)|constructor].
    + eapply Hmap; [|exact H]. intros x. apply event_line_good, He.
  - destruct H as [_ H]. apply Forall_flat_map. eapply Forall_impl; [|exact H]. intros m. apply media_line_good. left. reflexivity.
  - destruct H as [_ H]. apply Forall_flat_map. eapply Forall_impl; [|exact H]. intros m. apply media_line_good. right. left. reflexivity.
Qed.
Lemma line_ok_split l : Forall line_ok l -> Forall no_newline l /\ Forall (fun x => header_line x = false) l.
Proof. intros H. split; (eapply Forall_impl; [|exact H]; intros x [H1 H2]; assumption). Qed.

(* one section *)
Lemma section_reads src miss sf ef s p ys s' : good_events ef -> (forall f, sf = Some f -> good_styles f) -> section_ok sf ef s -> headed ys ->
  reads src miss (name_of s) (located p ((lines_of sf ef s ++ [[]]) ++ ys)) s' -> bare s' = bare s.
Proof.
  intros He Hs H Hy R. destruct (line_ok_split _ (lines_good sf ef s He Hs H)) as [_ Hh].
  assert (Hb : body (located p ((lines_of sf ef s ++ [[]]) ++ ys)) = located p (lines_of sf ef s ++ [[]])).
  { apply body_located; [|exact Hy]. apply Forall_app. split; [exact Hh|]. constructor; [reflexivity|constructor]. }
  destruct s as [fs sp|l|l|l|l]; cbn [section_ok] in H; destruct s' as [fs' sp'|l'|l'|l'|l']; cbn [reads] in R; destruct R as [R0 R]; try (vm_compute in R0; discriminate); clear R0; cbn [bare].
  - destruct R as [-> _]. rewrite Hb. cbn [lines_of]. rewrite info_read by exact H. reflexivity.
  - subst l'. rewrite Hb. f_equal. destruct sf as [f|].
    + apply (styles_section_read f l (Hs f eq_refl) H miss p).
    + subst l. reflexivity.
  - subst l'. rewrite Hb. f_equal. apply (events_section_read ef l He H miss p).
  - subst l'. f_equal. destruct H as [H1 H2]. apply media_read; [left; reflexivity|exact H1|exact H2|exact Hy].
  - subst l'. f_equal. destruct H as [H1 H2]. apply media_read; [right; left; reflexivity|exact H1|exact H2|exact Hy].
Qed.

(* the settings *)
Lemma after_styles f ls p ys acc : good_styles f -> Forall (style_ok f) ls -> headed ys ->
  let lines := located p ((lines_of (Some f) None (SStyles ls) ++ [[]]) ++ ys) in
  after_section acc (lit "V4+ Styles", lines) = (fst (fst acc), Some f, snd acc).
Proof.
  intros Hg H Hy lines. destruct acc as [[v s] e]. unfold after_section. change (str_eqb (lit "V4+ Styles") (lit "Script Info")) with false. cbv iota.
  change (styles_name (lit "V4+ Styles")) with true. cbv iota. f_equal. f_equal. unfold styles_format_of, lines.
  assert (Hl : Forall line_ok (lines_of (Some f) None (SStyles ls))).
  { apply (lines_good (Some f) None (SStyles ls)); [intros g E; discriminate|intros g E; injection E as <-; exact Hg|exact H]. }
  destruct (line_ok_split _ Hl) as [_ Hh]. rewrite body_located; [|apply Forall_app; split; [exact Hh|constructor; [reflexivity|constructor]]|exact Hy].
  destruct (styles_section_read f ls Hg H 0%N p) as [_ E]. destruct (styles_in 0 [] _) as [es g]. cbn [snd] in E. subst g.
  destruct Hg as ((Hne & _) & _). destruct es, f; try congruence; reflexivity.
Qed.
Definition after (sf ef : option (list str)) (acc : settings) (s : section) : settings :=
  let '(v, a, b) := acc in
  match s with
  | SInfo fs _ => (match declared fs with Some x => x | None => v end, a, b)
  | SStyles _ => (v, sf, b)
  | SEvents _ => (v, a, ef)
  | _ => acc
  end.
Lemma after_written sf ef s p ys acc : good_events ef -> (forall f, sf = Some f -> good_styles f) -> section_ok sf ef s -> headed ys ->
  after_section acc (name_of s, located p ((lines_of sf ef s ++ [[]]) ++ ys)) = after sf ef acc s.
Proof.
  intros He Hs H Hy. destruct (line_ok_split _ (lines_good sf ef s He Hs H)) as [_ Hh].
  assert (Hb : body (located p ((lines_of sf ef s ++ [[]]) ++ ys)) = located p (lines_of sf ef s ++ [[]])).
  { apply body_located; [|exact Hy]. apply Forall_app. split; [exact Hh|]. constructor; [reflexivity|constructor]. }
  destruct acc as [[v a] b]. destruct s as [fs sp|l|l|l|l]; cbn [section_ok after name_of] in *; unfold after_section.
  - change (str_eqb (lit "Script Info") (lit "Script Info")) with true. cbv iota. unfold info_version. rewrite Hb. cbn [lines_of].
    rewrite info_read by exact H. reflexivity.
  - destruct sf as [f|]; [apply (after_styles f l p ys (v, a, b) (Hs f eq_refl) H Hy)|]. subst l.
    change (str_eqb (lit "V4+ Styles") (lit "Script Info")) with false. cbv iota. change (styles_name (lit "V4+ Styles")) with true. cbv iota.
    unfold styles_format_of. rewrite Hb. reflexivity.
  - change (str_eqb (lit "Events") (lit "Script Info")) with false. cbv iota. change (styles_name (lit "Events")) with false. cbv iota.
    change (str_eqb (lit "Events") (lit "Events")) with true. cbv iota. unfold events_format_of. rewrite Hb.
    destruct (events_section_read ef l He H 0%N p) as [_ E]. f_equal. exact E.
  - reflexivity.
  - reflexivity.
Qed.
Lemma after_all sf ef l : forall v a b, fold_left (after sf ef) l (v, a, b) =
  (fold_left (fun v s => match s with SInfo fs _ => match declared fs with Some x => x | None => v end | _ => v end) l v,
   if existsb is_styles l then sf else a, if existsb is_events l then ef else b).
Proof.
  induction l as [|s l IH]; intros v a b; [reflexivity|]. cbn [fold_left existsb].
  destruct s; cbn [after is_styles is_events orb]; rewrite IH; try reflexivity.
  - destruct (existsb is_styles l); reflexivity.
  - destruct (existsb is_events l); reflexivity.
Qed.

Lemma Forall2_filter_all {A B} (P : A -> B -> Prop) (q : B -> bool) l m : Forall2 P l m -> (forall a b, P a b -> q b = true) -> filter q m = m.
Proof. intros H Hq. induction H as [|a b l m H1 _ IH]; [reflexivity|]. cbn. rewrite (Hq a b H1), IH. reflexivity. Qed.

Lemma script_roundtrip reg sc : script_ok sc -> small (script_to_string sc) ->
  exists sc', parse_with reg (script_to_string sc) = Done sc' /\ map bare (sc_sections sc') = map bare (sc_sections sc) /\
    sc_version sc' = sc_version sc /\ sc_styles_format sc' = sc_styles_format sc /\ sc_events_format sc' = sc_events_format sc.
Proof.
  intros [Hsec Hsf Hef Hv] Hsm. set (T := script_to_string sc) in *. set (sf := sc_styles_format sc) in *. set (ef := sc_events_format sc) in *.
  assert (He : good_events ef) by (intros f E; destruct (Hef f E) as (H1 & H2 & H3 & _); auto).
  assert (Hs : forall f, sf = Some f -> good_styles f) by (intros f E; destruct (Hsf f E) as (H1 & H2 & H3 & _); split; auto).
  destruct (parse_done reg T) as (sc' & E). exists sc'. split; [exact E|].
  assert (Hl : Forall (fun s => Forall line_ok (lines_of sf ef s)) (sc_sections sc)) by (eapply Forall_impl; [|exact Hsec]; intros s; apply lines_good; assumption).
  assert (Hn : Forall (fun s => Forall no_newline (lines_of sf ef s)) (sc_sections sc)) by (eapply Forall_impl; [|exact Hl]; intros s K; apply (line_ok_split _ K)).
  assert (Hh : Forall (fun s => Forall (fun x => header_line x = false) (lines_of sf ef s)) (sc_sections sc)) by (eapply Forall_impl; [|exact Hl]; intros s K; apply (line_ok_split _ K)).
  assert (Elines : sc_sections sc <> [] -> source_lines T = located [] (all_lines sf ef (sc_sections sc))).
  { intros Hne. assert (ET : bom T = [] /\ text T = T).
    { unfold T, script_to_string. destruct (sc_sections sc) as [|s r]; [congruence|]. cbn [map].
      assert (Hc : exists t, join nl (section_to_string sf ef s :: map (section_to_string sf ef) r) = 91%N :: t).
      { rewrite section_flat. destruct r as [|s2 r]; cbn [map join]; (eexists; reflexivity). }
      fold sf ef. destruct Hc as (t & Ec). rewrite Ec. split; reflexivity. }
    destruct ET as [E1 E2]. unfold source_lines, lines_at. rewrite E1, E2. f_equal. unfold T, script_to_string. apply written_lines; assumption. }
  destruct (sc_sections sc) as [|s0 r0] eqn:Esec.
  - (* no sections *)
    assert (ET : T = []) by (unfold T, script_to_string; rewrite Esec; reflexivity). rewrite ET in E.
    cbn in E. injection E as <-. cbn [map sc_sections sc_version sc_styles_format sc_events_format].
    split; [reflexivity|]. split; [rewrite Hv; reflexivity|].
    split; [destruct sf as [f|] eqn:Ef; [destruct (Hsf f eq_refl) as (_ & _ & _ & K); discriminate|reflexivity]|].
    destruct ef as [f|] eqn:Ef; [destruct (Hef f eq_refl) as (_ & _ & _ & K); discriminate|reflexivity].
  - rewrite <- Esec in *. assert (Hne : sc_sections sc <> []) by (rewrite Esec; discriminate). specialize (Elines Hne).
    pose proof (sections_written sf ef (sc_sections sc) Hh []) as W. rewrite <- Elines in W.
    destruct (parse_closed reg T sc' Hsm) as (R1 & R2 & _); [rewrite Elines; apply closed_written, Hh|exact E|].
    rewrite (Forall2_filter_all _ _ _ _ W) in R1, R2 by (intros a b [-> _]; apply header_text_line).
    assert (Hset : forall l m, Forall2 (fun s x => fst x = name_of s /\ exists p ys, headed ys /\ snd x = located p ((lines_of sf ef s ++ [[]]) ++ ys)) l m ->
      Forall (section_ok sf ef) l -> forall acc, fold_left after_section m acc = fold_left (after sf ef) l acc).
    { intros l m W'. induction W' as [|s x l m (X1 & p & ys & Hy & X2) _ IH]; intros Hl' acc; [reflexivity|]. cbn [fold_left]. destruct x as [n ls]. cbn [fst snd] in X1, X2. subst n ls.
      rewrite after_written by (try assumption; exact (Forall_inv Hl')). apply IH, (Forall_inv_tail Hl'). }
    rewrite (Hset _ _ W Hsec) in R2. unfold start_settings in R2. rewrite after_all in R2.
    assert (Hbare : forall l m, Forall2 (fun s x => fst x = name_of s /\ exists p ys, headed ys /\ snd x = located p ((lines_of sf ef s ++ [[]]) ++ ys)) l m ->
      Forall (section_ok sf ef) l -> forall l', Forall2 (fun x s => exists miss, reads T miss (fst x) (snd x) s) m l' -> map bare l' = map bare l).
    { intros l m W'. induction W' as [|s x l m (X1 & p & ys & Hy & X2) _ IH]; intros Hl' l' R; [inversion R; reflexivity|]. destruct x as [n ls]. cbn [fst snd] in X1, X2. subst n ls.
      inversion R as [|x' s' m' l'' (miss & R') Rt]; subst. cbn [map]. f_equal; [|apply IH; [exact (Forall_inv_tail Hl')|exact Rt]].
      eapply section_reads; [exact He|exact Hs|exact (Forall_inv Hl')|exact Hy|exact R']. }
    split; [exact (Hbare _ _ W Hsec _ R1)|]. unfold settings_sc in R2. injection R2 as V1 V2 V3.
    split; [rewrite V1, Hv; reflexivity|]. rewrite V2, V3. split.
    + destruct sf as [f|] eqn:Ef; [destruct (Hsf f eq_refl) as (_ & _ & _ & K); rewrite K; reflexivity|destruct (existsb is_styles _); reflexivity].
    + destruct ef as [f|] eqn:Ef; [destruct (Hef f eq_refl) as (_ & _ & _ & K); rewrite K; reflexivity|destruct (existsb is_events _); reflexivity].
Qed.
