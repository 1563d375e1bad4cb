(* Properties of the incremental parsing helpers: C16, C17, C57, C58. *)
From Verif Require Import Base BaseLemmas IncrModel IncrSpec IncrProofs IncrParseProofs IncrBounds ParseSpec ParseModel.
From Coq Require Import Lia.

(* ---- C17: line numbers ---- *)
Theorem line_number_counts_newlines : forall src pos, (1 + nl_bytes src pos <= u32_max)%N ->
  calculate_line_number src pos = Ok (1 + nl_bytes src pos)%N.
Proof. exact line_number_ok. Qed.
Print Assumptions line_number_counts_newlines.
Theorem line_number_at_boundary : forall a b, (1 + newlines a <= u32_max)%N -> calculate_line_number (a ++ b) (blen a) = Ok (true_line a).
Proof. exact line_number_at. Qed.
Print Assumptions line_number_at_boundary.
Theorem line_range_of_text : forall p m q, m ++ q <> [] -> (1 + newlines (p ++ m) <= u32_max)%N ->
  calculate_line_range (p ++ m ++ q) (blen p) (blen (p ++ m)) = Ok (true_line p, true_line (p ++ m)).
Proof. exact line_range_ok. Qed.
Print Assumptions line_range_of_text.
Example line_number_instance : calculate_line_number [97; 10; 233; 10; 98]%N 5 = Ok 3%N /\ calculate_line_range [97; 10; 233; 10; 98]%N 2 5 = Ok (2, 3)%N.
Proof. split; vm_compute; reflexivity. Qed.
(* For an insertion at the end of the text the start line is reported as 0. *)
Theorem line_range_at_end_refuted : exists src, calculate_line_range src (blen src) (blen src) = Ok (0, 1)%N.
Proof. exists (lit "abc"). vm_compute. reflexivity. Qed.
Print Assumptions line_range_at_end_refuted.

(* ---- C16: applying an edit and moving ranges ---- *)
Theorem build_modified_source_edits : forall src c, (exists src', edited src c src') ->
  exists src', build_modified_source src (ch_start c) (ch_end c) (ch_text c) = Ok src' /\ edited src c src'.
Proof. exact build_ok. Qed.
Print Assumptions build_modified_source_edits.
Theorem build_modified_source_only : forall src a b t src', build_modified_source src a b t = Ok src' -> edited src (Change a b t) src'.
Proof. exact build_inv. Qed.
Print Assumptions build_modified_source_only.
Theorem range_after_edit_moves : forall src src' c x y t, edited src c src' -> piece src x y t -> ch_end c <= x ->
  exists x' y', adjust_range x y c = Ok (x', y') /\ x' + ch_end c = x + ch_start c + blen (ch_text c) /\
    y' + ch_end c = y + ch_start c + blen (ch_text c) /\ piece src' x' y' t.
Proof. exact adjust_before. Qed.
Print Assumptions range_after_edit_moves.
Theorem range_before_edit_stays : forall src src' c x y t, edited src c src' -> piece src x y t -> y <= ch_start c -> x < y ->
  adjust_range x y c = Ok (x, y) /\ piece src' x y t.
Proof. exact adjust_after. Qed.
Print Assumptions range_before_edit_stays.
Theorem range_across_edit_covers : forall src src' c x y t, edited src c src' -> piece src x y t -> x < ch_end c -> ch_start c < y ->
  exists x' y' before after, adjust_range x y c = Ok (x', y') /\ x' = Nat.min x (ch_start c) /\
    piece_or_nil src x (ch_start c) before /\ piece_or_nil src (ch_end c) y after /\ piece src' x' y' (before ++ ch_text c ++ after).
Proof. exact adjust_overlap. Qed.
Print Assumptions range_across_edit_covers.
Theorem section_span_after_edit_moves : forall src src' c sp t, edited src c src' -> piece src (sp_start sp) (sp_end sp) t -> ch_end c <= sp_start sp ->
  piece src' (sp_start (adjust_span c sp)) (sp_end (adjust_span c sp)) t.
Proof. exact adjust_span_moves. Qed.
Print Assumptions section_span_after_edit_moves.
Theorem adjust_keeps_content : forall s c, bare (adjust_section_spans s c) = bare s.
Proof. exact adjust_bare. Qed.
Print Assumptions adjust_keeps_content.
Example range_instance : edited (lit "abcdef") (Change 1 3 (lit "XYZ")) (lit "aXYZdef") /\ piece (lit "abcdef") 4 6 (lit "ef") /\
  adjust_range 4 6 (Change 1 3 (lit "XYZ")) = Ok (5, 7) /\ adjust_range 2 5 (Change 1 3 (lit "XYZ")) = Ok (1, 6).
Proof.
  split; [exists (lit "a"), (lit "bc"), (lit "def"); repeat split|]. split; [exists (lit "abcd"), []; repeat split|]. split; vm_compute; reflexivity.
Qed.
(* A moved span keeps its old line number although lines were inserted in front
   of it. *)
Theorem moved_span_line_stale_refuted : exists src c src' sp t, edited src c src' /\ piece src (sp_start sp) (sp_end sp) t /\
  calculate_line_number src (sp_start sp) = Ok (sp_line sp) /\ ch_end c <= sp_start sp /\
  calculate_line_number src' (sp_start (adjust_span c sp)) <> Ok (sp_line (adjust_span c sp)).
Proof.
  exists (lit "ab"), (Change 0 0 nl), (nl ++ lit "ab"), (Span 1 2 1 2), (lit "b"). split; [exists [], [], (lit "ab"); repeat split|].
  split; [exists (lit "a"), []; repeat split|]. split; [vm_compute; reflexivity|]. split; [cbn; lia|]. vm_compute. discriminate.
Qed.
Print Assumptions moved_span_line_stale_refuted.
(* Looking back for a header may cut a character in two. *)
Theorem header_search_panics_refuted : exists src hint, is_boundary src hint = true /\ find_section_header_start src hint TEvents = Panic.
Proof. exists (repeat 233%N 60 ++ nl ++ lit "[Events]" ++ nl), 129. split; vm_compute; reflexivity. Qed.
Print Assumptions header_search_panics_refuted.

(* ---- C59: section boundary search ---- *)
Theorem section_end_without_header : forall a b, (forall h x, is_header h -> ~ occurs_at h x b) ->
  find_section_end (a ++ b) (blen a) = Ok (blen (a ++ b)).
Proof. exact section_end_none. Qed.
Print Assumptions section_end_without_header.
Theorem section_end_at_first_header : forall a b, (exists h x, is_header h /\ occurs_at h x b) ->
  exists h x k, is_header h /\ occurs_at h x b /\ (forall h' x', is_header h' -> occurs_at h' x' b -> List.length x <= List.length x') /\
    line_start_at (a ++ x) k /\ find_section_end (a ++ b) (blen a) = Ok k.
Proof. exact section_end_some. Qed.
Print Assumptions section_end_at_first_header.
Theorem line_start_is_unique : forall s k k', line_start_at s k -> line_start_at s k' -> k = k'.
Proof. exact line_start_unique. Qed.
Print Assumptions line_start_is_unique.
Theorem section_start_at_last_header : forall p w q t hint,
  blen p = hint - (blen (section_header t) + 100) -> blen p + blen w = Nat.min hint (blen (p ++ w ++ q)) ->
  ((forall x, ~ occurs_at (section_header t) x w) -> find_section_header_start (p ++ w ++ q) hint t = Err) /\
  ((exists x, occurs_at (section_header t) x w) ->
   exists x k, occurs_at (section_header t) x w /\ (forall x', occurs_at (section_header t) x' w -> List.length x' <= List.length x) /\
     line_start_at (p ++ x) k /\ find_section_header_start (p ++ w ++ q) hint t = Ok k).
Proof. exact header_window. Qed.
Print Assumptions section_start_at_last_header.
Example section_bounds_instance :
  find_section_end (lit "[Events]" ++ nl ++ lit "x" ++ nl ++ lit " [Fonts]" ++ nl ++ lit "[Graphics]") 9 = Ok 11 /\
  find_section_header_start (lit "a" ++ nl ++ lit " [Events]" ++ nl ++ lit "x") 13 TEvents = Ok 2 /\
  find_section_header_start (lit "a" ++ nl ++ lit " [Events]" ++ nl ++ lit "x") 13 TFonts = Err.
Proof. repeat split; vm_compute; reflexivity. Qed.

(* ---- C57: the difference of two scripts ---- *)
Theorem sections_equal_iff : forall a b, sections_equal a b = true <-> bare a = bare b.
Proof. exact sections_equal_eq. Qed.
Print Assumptions sections_equal_iff.
Theorem delta_rebuilds_new : forall old new, NoDup (map section_type_of (sc_sections old)) -> NoDup (map section_type_of (sc_sections new)) ->
  Permutation (map bare (apply_delta (sc_sections old) (calculate_delta old new))) (map bare (sc_sections new)).
Proof. exact delta_rebuilds. Qed.
Print Assumptions delta_rebuilds_new.
Theorem delta_modified_only : forall old new i n, In (i, n) (dl_modified (calculate_delta old new)) ->
  exists s, nth_error (sc_sections old) i = Some s /\ In n (sc_sections new) /\ section_type_of n = section_type_of s /\ bare n <> bare s.
Proof. exact delta_modified_differs. Qed.
Print Assumptions delta_modified_only.
Definition delta_old_script : script := Script AssV4 [SInfo [(lit "Title", lit "a")] here; SEvents []; SFonts []] [] None None.
Definition delta_new_script : script := Script AssV4 [SInfo [(lit "Title", lit "b")] here; SFonts []; SStyles []] [] None None.
Example delta_instance : NoDup (map section_type_of (sc_sections delta_old_script)) /\ NoDup (map section_type_of (sc_sections delta_new_script)) /\
  calculate_delta delta_old_script delta_new_script = Delta [SStyles []] [(0, SInfo [(lit "Title", lit "b")] here)] [1] [].
Proof. split; [repeat constructor; cbn; intuition discriminate|]. split; [repeat constructor; cbn; intuition discriminate|]. vm_compute. reflexivity. Qed.
(* With two sections of one type a change to the second goes unseen. *)
Theorem delta_misses_second_section_refuted : exists old new, delta_is_empty (calculate_delta old new) = true /\
  map bare (sc_sections old) <> map bare (sc_sections new).
Proof.
  exists (Script AssV4 [SInfo [(lit "a", lit "1")] here; SInfo [(lit "a", lit "1")] here] [] None None),
         (Script AssV4 [SInfo [(lit "a", lit "1")] here; SInfo [(lit "b", lit "2")] here] [] None None).
  split; [vm_compute; reflexivity|]. vm_compute. discriminate.
Qed.
Print Assumptions delta_misses_second_section_refuted.

(* ---- C58: incremental parsing ---- *)
Theorem affected_sections_overlap : forall sc c t, ch_start c <= ch_end c -> In t (affected_sections sc c) <->
  exists s sp, In s (sc_sections sc) /\ section_type_of s = t /\ section_span s = Some sp /\
    (ch_start c < sp_end sp /\ sp_start sp < ch_end c \/ ch_start c = ch_end c /\ ch_start c = sp_end sp).
Proof.
  intros sc c t H. unfold affected_sections. rewrite in_map_iff. split.
  - intros (s & E & K). apply filter_In in K. destruct K as [K A]. unfold affected in A. destruct (section_span s) as [sp|] eqn:Es; [|discriminate]. exists s, sp.
    rewrite orb_true_iff, !andb_true_iff, !Nat.ltb_lt, Nat.leb_le, Nat.eqb_eq in A. repeat split; auto. destruct A as [A|A]; [left|right]; lia.
  - intros (s & sp & K & E & Es & A). exists s. split; [exact E|]. apply filter_In. split; [exact K|]. unfold affected. rewrite Es.
    rewrite orb_true_iff, !andb_true_iff, !Nat.ltb_lt, Nat.leb_le, Nat.eqb_eq. destruct A as [A|A]; [left|right]; lia.
Qed.
Print Assumptions affected_sections_overlap.
Theorem parse_incremental_total : forall sc src c, ch_start c <= ch_end c -> exists sc', parse_incremental sc src c = Done sc'.
Proof. exact incremental_done. Qed.
Print Assumptions parse_incremental_total.
(* Full statement: whenever [edited old c new] and [parse old = Done sco], the
   sections of [parse_incremental sco new c] are those of [parse new].  Missing:
   texts outside the block shape (repeated sections, headers spelled otherwise,
   text in front of the first header), and edits that reach outside the spans of
   the sections; the refutations below show that the full statement is false. *)
Theorem incremental_is_fresh : forall c ob nb sco scn, ch_start c <= ch_end c -> Forall block_ok ob -> Forall block_ok nb -> NoDup (map bl_type nb) ->
  small (blocks_text ob) -> small (blocks_text nb) -> parse (blocks_text ob) = Done sco -> parse (blocks_text nb) = Done scn ->
  Forall2 (fun o n => bl_type o = bl_type n /\ (o = n \/ In (bl_type n) (affected_sections sco c))) ob nb ->
  exists sci, parse_incremental sco (blocks_text nb) c = Done sci /\ map bare (sc_sections sci) = map bare (sc_sections scn).
Proof. exact incremental_blocks. Qed.
Print Assumptions incremental_is_fresh.

Definition rows (l : list string) : str := flat_map (fun x => lit x ++ nl) l.
Definition info_block : block := Block TInfo (rows ["Title: a"]%string).
Definition old_events : block := Block TEvents (rows ["Format: Start, Text"; "Dialogue: 1,hi"]%string).
Definition new_events : block := Block TEvents (rows ["Format: Start, Text"; "Dialogue: 1,hello"]%string).
Definition old_result : script := Eval vm_compute in match parse (blocks_text [info_block; old_events]) with Done s => s | _ => Script AssV4 [] [] None None end.
Definition new_result : script := Eval vm_compute in match parse (blocks_text [info_block; new_events]) with Done s => s | _ => Script AssV4 [] [] None None end.
Definition hello_change : text_change := Change 64 66 (lit "hello").
Example incremental_instance : edited (blocks_text [info_block; old_events]) hello_change (blocks_text [info_block; new_events]) /\
  Forall block_ok [info_block; old_events] /\ Forall block_ok [info_block; new_events] /\
  parse (blocks_text [info_block; old_events]) = Done old_result /\ parse (blocks_text [info_block; new_events]) = Done new_result /\
  Forall2 (fun o n => bl_type o = bl_type n /\ (o = n \/ In (bl_type n) (affected_sections old_result hello_change))) [info_block; old_events] [info_block; new_events].
Proof.
  assert (B : forall b, In b [info_block; old_events; new_events] -> block_ok b).
  { intros b Hb. cbn [In] in Hb. repeat (destruct Hb as [<-|Hb]; [split; [repeat constructor; apply free_starts; vm_compute; reflexivity|split; [vm_compute; repeat constructor|]]|]); [| | |contradiction].
    - exists (lit "Title: a"). reflexivity.
    - exists (rows ["Format: Start, Text"]%string ++ lit "Dialogue: 1,hi"). reflexivity.
    - exists (rows ["Format: Start, Text"]%string ++ lit "Dialogue: 1,hello"). reflexivity. }
  split; [|split; [|split; [|split; [|split]]]].
  - exists (block_text info_block ++ rows ["[Events]"; "Format: Start, Text"]%string ++ lit "Dialogue: 1,"), (lit "hi"), nl. repeat split; vm_compute; reflexivity.
  - apply Forall_forall. intros b Hb. apply B. cbn in *. tauto.
  - apply Forall_forall. intros b Hb. apply B. cbn in *. tauto.
  - vm_compute; reflexivity.
  - vm_compute; reflexivity.
  - constructor; [split; [reflexivity|left; reflexivity]|]. constructor; [split; [reflexivity|right; vm_compute; auto]|constructor].
Qed.
(* An event line added after the last line of the text is not read. *)
Definition added_events : block := Block TEvents (rows ["Format: Start, Text"; "Dialogue: 1,hi"; "Dialogue: 2,ho"]%string).
Definition added_result : script := Eval vm_compute in match parse (blocks_text [info_block; added_events]) with Done s => s | _ => Script AssV4 [] [] None None end.
Definition added_incremental : script := Eval vm_compute in match parse_incremental old_result (blocks_text [info_block; added_events]) (Change 67 67 (rows ["Dialogue: 2,ho"]%string)) with Done s => s | _ => Script AssV4 [] [] None None end.
Theorem incremental_misses_new_line_refuted : exists old new c sco scn sci, edited old c new /\ parse old = Done sco /\ parse new = Done scn /\
  parse_incremental sco new c = Done sci /\ map bare (sc_sections sci) <> map bare (sc_sections scn).
Proof.
  exists (blocks_text [info_block; old_events]), (blocks_text [info_block; added_events]), (Change 67 67 (rows ["Dialogue: 2,ho"]%string)), old_result, added_result, added_incremental.
  split; [exists (blocks_text [info_block; old_events]), [], []; repeat split; vm_compute; reflexivity|].
  split; [vm_compute; reflexivity|]. split; [vm_compute; reflexivity|]. split; [vm_compute; reflexivity|]. vm_compute. discriminate.
Qed.
Print Assumptions incremental_misses_new_line_refuted.
(* A styles section under its older header "[V4 Styles]" disappears when it is edited. *)
Definition v4_source (name : string) : str := rows ["[V4 Styles]"; "Format: Name, Fontname"; name]%string.
Definition v4_old : script := Eval vm_compute in match parse (v4_source "Style: a,Arial") with Done s => s | _ => Script AssV4 [] [] None None end.
Theorem incremental_drops_old_styles_refuted : exists old new c sco sci s, edited old c new /\ parse old = Done sco /\
  sc_sections sco = [SStyles [s]] /\ parse_incremental sco new c = Done sci /\ sc_sections sci = [].
Proof.
  exists (v4_source "Style: a,Arial"), (v4_source "Style: b,Arial"), (Change 42 43 (lit "b")), v4_old. do 2 eexists.
  split; [exists (rows ["[V4 Styles]"; "Format: Name, Fontname"]%string ++ lit "Style: "), (lit "a"), (lit ",Arial" ++ nl); repeat split; vm_compute; reflexivity|].
  split; [vm_compute; reflexivity|]. split; [reflexivity|]. split; [vm_compute; reflexivity|]. reflexivity.
Qed.
Print Assumptions incremental_drops_old_styles_refuted.
(* A re-read section has offsets counted from its own header, not from the start
   of the text. *)
Definition hello_incremental : script := Eval vm_compute in match parse_incremental old_result (blocks_text [info_block; new_events]) hello_change with Done s => s | _ => Script AssV4 [] [] None None end.
Theorem incremental_offsets_refuted : exists old new c sco scn sci i e j f, edited old c new /\ parse old = Done sco /\ parse new = Done scn /\
  parse_incremental sco new c = Done sci /\ sc_sections scn = [i; SEvents [e]] /\ sc_sections sci = [j; SEvents [f]] /\
  sp_start (e_span e) = 52 /\ sp_start (e_span f) = 29.
Proof.
  exists (blocks_text [info_block; old_events]), (blocks_text [info_block; new_events]), hello_change, old_result, new_result, hello_incremental. do 4 eexists.
  split; [apply incremental_instance|]. split; [vm_compute; reflexivity|]. split; [vm_compute; reflexivity|]. split; [vm_compute; reflexivity|].
  split; [reflexivity|]. split; [reflexivity|]. split; reflexivity.
Qed.
Print Assumptions incremental_offsets_refuted.
(* Editing a Format line leaves the script's recorded format unchanged. *)
Definition fmt_mid (f : string) : str := rows ["[Events]"; "Dialogue: 0,1,2,a,b,3,4,5,c,hi"; f; "Dialogue: 2,ho"]%string.
Definition fmt_sco : script := Eval vm_compute in match parse (fmt_mid "Format: Start, Text") with Done s => s | _ => Script AssV4 [] [] None None end.
Definition fmt_scn : script := Eval vm_compute in match parse (fmt_mid "Format: Layer, Text") with Done s => s | _ => Script AssV4 [] [] None None end.
Theorem incremental_format_stale_refuted : exists old new c sco scn sci, edited old c new /\ parse old = Done sco /\ parse new = Done scn /\
  parse_incremental sco new c = Done sci /\ map bare (sc_sections sci) = map bare (sc_sections scn) /\ sc_events_format sci <> sc_events_format scn.
Proof.
  exists (fmt_mid "Format: Start, Text"), (fmt_mid "Format: Layer, Text"), (Change 48 53 (lit "Layer")), fmt_sco, fmt_scn. eexists.
  split; [exists (rows ["[Events]"; "Dialogue: 0,1,2,a,b,3,4,5,c,hi"]%string ++ lit "Format: "), (lit "Start"), (lit ", Text" ++ nl ++ lit "Dialogue: 2,ho" ++ nl); repeat split; vm_compute; reflexivity|].
  split; [vm_compute; reflexivity|]. split; [vm_compute; reflexivity|]. split; [vm_compute; reflexivity|]. split; [vm_compute; reflexivity|]. vm_compute. discriminate.
Qed.
Print Assumptions incremental_format_stale_refuted.
