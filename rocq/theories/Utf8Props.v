(* C06-C10, C52, C53: byte-order marks, truncation and text clean-up. *)
From Verif Require Import Base UuModel Utf8Model Utf8Spec Utf8Proofs.

(* ---- C06 ---- *)
(* U+FEFF, whose UTF-8 form is the mark, is removed from the front and nothing
   else is; the flag says whether it was there. *)
Theorem strip_bom_exact : forall text,
  (forall r, text = 65279%N :: r -> strip_bom text = Ok (r, true)) /\
  ((~ exists r, text = 65279%N :: r) -> strip_bom text = Ok (text, false)).
Proof.
  intros text. split.
  - intros r ->. rewrite strip_bom_spec. reflexivity.
  - intros H. rewrite strip_bom_spec. destruct text as [|c r]; [reflexivity|].
    destruct (N.eqb_spec c 65279); [subst; exfalso; eauto|reflexivity].
Qed.
Print Assumptions strip_bom_exact.
Example strip_bom_case : strip_bom (65279%N :: 65279%N :: lit "[S]") = Ok (65279%N :: lit "[S]", true) /\
  strip_bom (lit "[S]") = Ok (lit "[S]", false).
Proof. vm_compute. split; reflexivity. Qed.

Theorem detect_bom_longest : forall b t n, detect_bom b = Some (t, n) <->
  prefix_of (signature t) b /\ n = List.length (signature t) /\
  forall t', prefix_of (signature t') b -> List.length (signature t') <= n.
Proof. exact detect_some. Qed.
Print Assumptions detect_bom_longest.
Theorem detect_bom_absent : forall b, detect_bom b = None <-> forall t, ~ prefix_of (signature t) b.
Proof. exact detect_none. Qed.
Print Assumptions detect_bom_absent.
Example detect_bom_case : detect_bom [255; 254; 0; 0; 65]%N = Some (Utf32Le, 4) /\
  detect_bom [255; 254; 65; 0]%N = Some (Utf16Le, 2) /\ detect_bom [65; 66]%N = None.
Proof. vm_compute. auto. Qed.

(* Finding: the checker of validate_bom_handling tests UTF-16 first, so every
   UTF-32 (little endian) input is reported as UTF-16. *)
Theorem validate_bom_utf32le_refuted : forall r,
  detect_bom ([255; 254; 0; 0]%N ++ r) = Some (Utf32Le, 4) /\
  validate_bom_handling ([255; 254; 0; 0]%N ++ r) = Some NamesUtf16.
Proof. intros r. split; reflexivity. Qed.
Print Assumptions validate_bom_utf32le_refuted.
(* Finding: well-formed UTF-8 text without any mark is rejected when its first
   character is one of U+F000..U+FFFF other than U+FEC0..U+FEFF. *)
Theorem validate_bom_rejects_valid_text_refuted : exists text,
  detect_bom (as_bytes text) = None /\ validate_bom_handling (as_bytes text) = Some Suspicious.
Proof. exists [65313%N; 66%N]. vm_compute. split; reflexivity. Qed.
Print Assumptions validate_bom_rejects_valid_text_refuted.

(* ---- C07 ---- *)
Theorem truncate_longest_prefix : forall text n, exists p b, truncate_at_char_boundary text n = Ok (p, b) /\
  (exists r, text = p ++ r) /\ blen p <= n /\
  (forall q r, text = q ++ r -> blen q <= n -> blen q <= blen p) /\
  (b = true <-> p <> text).
Proof. exact truncate_spec. Qed.
Print Assumptions truncate_longest_prefix.
Example truncate_case : truncate_at_char_boundary [104; 233; 8364; 33]%N 5 = Ok ([104; 233]%N, true).
Proof. vm_compute. reflexivity. Qed.

(* ---- C08 ---- *)
Theorem line_endings_keep_lines : forall s,
  (exists ls, text_lines s ls) /\
  forall ls, text_lines s ls -> normalize_line_endings s = join [10%N] ls /\
    Forall (fun l => ~ In 10%N l /\ ~ In 13%N l) ls.
Proof.
  intros s. split; [apply text_lines_exists|]. intros ls H. split; [apply nle_lines; exact H|eapply text_lines_content; eauto].
Qed.
Print Assumptions line_endings_keep_lines.
Theorem line_endings_clean : forall s,
  ~ In 13%N (normalize_line_endings s) /\
  normalize_line_endings (normalize_line_endings s) = normalize_line_endings s /\
  (~ In 13%N s -> normalize_line_endings s = s) /\
  filter (fun c => negb ((c =? 10)%N || (c =? 13)%N)) (normalize_line_endings s) =
  filter (fun c => negb ((c =? 10)%N || (c =? 13)%N)) s.
Proof.
  intros s. split; [apply nle_no_cr|]. split; [apply nle_idem|]. split; [apply nle_id|]. apply (nle_other s).
Qed.
Print Assumptions line_endings_clean.
Example line_endings_case :
  text_lines [97; 13; 13; 10; 98; 13]%N [[97]; []; [98]; []]%N /\
  normalize_line_endings [97; 13; 13; 10; 98; 13]%N = [97; 10; 10; 98; 10]%N.
Proof.
  split; [|vm_compute; reflexivity].
  apply (tl_cr [97%N] [13; 10; 98; 13]%N); try (cbn; intuition discriminate).
  apply (tl_crlf [] [98; 13]%N); try (cbn; intuition discriminate).
  apply (tl_cr [98%N] []); try (cbn; intuition discriminate).
  apply tl_last; cbn; intuition discriminate.
Qed.

(* ---- C09 ---- *)
Theorem whitespace_normal_form : forall s b,
  (forall c, In c (normalize_whitespace s b) -> is_ws c = true -> c = 32%N \/ c = 10%N \/ c = 9%N) /\
  (b = true -> ~ exists p q, normalize_whitespace s b = p ++ [32%N; 32%N] ++ q) /\
  visible (normalize_whitespace s b) = visible s /\
  normalize_whitespace (normalize_whitespace s b) b = normalize_whitespace s b.
Proof.
  intros s b. split; [apply normalize_ws_chars|]. split; [intros ->; apply normalize_ws_no_double|].
  split; [apply normalize_ws_visible|apply normalize_ws_idem].
Qed.
Print Assumptions whitespace_normal_form.
(* Without collapsing, every position is accounted for. *)
Theorem whitespace_no_collapse_pointwise : forall s i,
  nth_error (normalize_whitespace s false) i =
  match nth_error s i with
  | Some c => Some (if is_ws c then (if (c =? 10)%N || (c =? 9)%N then c else 32%N) else c)
  | None => None
  end.
Proof.
  intros s i. unfold normalize_whitespace. cbv zeta. rewrite nth_error_map. destruct (nth_error s i) as [c|]; [|reflexivity].
  cbn. f_equal. unfold ws_to_space. destruct (is_ws c), (c =? 10)%N, (c =? 9)%N; reflexivity.
Qed.
Print Assumptions whitespace_no_collapse_pointwise.
(* Collapsing turns every maximal run of spaces into exactly one space. *)
Theorem whitespace_collapse_runs : forall s,
  squeezed (normalize_whitespace s false) (normalize_whitespace s true).
Proof. intros s. apply collapse_squeezed. Qed.
Print Assumptions whitespace_collapse_runs.
Example whitespace_case : normalize_whitespace [97; 160; 13; 9; 32; 32; 98]%N true = [97; 32; 9; 32; 98]%N.
Proof. vm_compute. reflexivity. Qed.

(* ---- C10 ---- *)
Theorem control_chars_removed_exactly : forall s t,
  kept (fun c => ~ control_code c \/ tab_or_newline c) s t <-> remove_control_chars s = t.
Proof.
  intros s t. split; [intros H; eapply kept_fun; [apply remove_kept|exact H]|intros <-; apply remove_kept].
Qed.
Print Assumptions control_chars_removed_exactly.
Example control_case : remove_control_chars [0; 97; 10; 127; 98; 133; 9]%N = [97; 10; 98; 9]%N.
Proof. vm_compute. reflexivity. Qed.

(* ---- C52 ---- *)
(* The lines of a text are what its newlines separate; each is written back
   without outer whitespace, and an empty last one is dropped. *)
Theorem trim_lines_exact : forall ws last, Forall no_newline (ws ++ [last]) ->
  trim_lines (between_newlines (ws ++ [last])) = between_newlines (map trim ws ++ match last with [] => [] | _ => [trim last] end).
Proof. exact trim_lines_of. Qed.
Theorem every_text_has_lines : forall s, exists ws last, Forall no_newline (ws ++ [last]) /\ s = between_newlines (ws ++ [last]).
Proof. exact text_newlines. Qed.
(* A second application removes one newline from the end, if there is one. *)
Theorem trim_lines_again : forall s,
  (forall u, trim_lines s = u ++ [10%N] -> trim_lines (trim_lines s) = u) /\
  ((forall u, trim_lines s <> u ++ [10%N]) -> trim_lines (trim_lines s) = trim_lines s).
Proof. exact trim_again. Qed.
Print Assumptions trim_lines_exact.
Print Assumptions every_text_has_lines.
Print Assumptions trim_lines_again.
Example trim_lines_case : trim_lines [32; 97; 13; 10; 9; 98; 32; 10; 10]%N = [97; 10; 98; 10]%N /\ trim_lines [97; 10; 98; 10]%N = [97; 10; 98]%N /\ trim_lines [97; 10; 98]%N = [97; 10; 98]%N /\
  Forall no_newline ([[32; 97; 13]; [9; 98; 32]; []]%N ++ [[]]).
Proof.
  split; [vm_compute; reflexivity|]. split; [vm_compute; reflexivity|]. split; [vm_compute; reflexivity|]. cbn [app]. repeat (apply Forall_cons || apply Forall_nil); intros I; cbn in I; repeat (destruct I as [I|I]; [discriminate I|]); exact I.
Qed.
(* Finding: trim_lines is not idempotent: every application drops one more
   trailing blank line. *)
Theorem trim_lines_idempotent_refuted : exists s, trim_lines (trim_lines s) <> trim_lines s.
Proof. exists [97; 10; 10; 10]%N. vm_compute. discriminate. Qed.
Print Assumptions trim_lines_idempotent_refuted.

(* ---- C53 ---- *)
(* The content check reports the byte offset of the first bad character, and
   removing control characters makes any text acceptable. *)
Theorem content_check_position : forall text p, first_invalid 0 text = Some p <->
  exists a c r, text = a ++ c :: r /\ is_valid_ass_text a = true /\ valid_ass_char c = false /\ p = blen a.
Proof. intros text p. apply (first_invalid_some 0 text p). Qed.
Print Assumptions content_check_position.
Theorem content_check_accepts : forall text,
  (first_invalid 0 text = None <-> forall c, In c text -> ~ control_code c \/ tab_or_newline c) /\
  first_invalid 0 (remove_control_chars text) = None.
Proof.
  intros text. split.
  - rewrite first_invalid_none. unfold is_valid_ass_text. rewrite forallb_forall.
    split; intros H c Hc; specialize (H c Hc); unfold valid_ass_char, is_ascii_graphic, is_control, control_code, tab_or_newline in *; lia.
  - rewrite first_invalid_none. apply removed_valid.
Qed.
Print Assumptions content_check_accepts.
Example content_check_case : first_invalid 0 [233; 10; 7; 97]%N = Some 3.
Proof. vm_compute. reflexivity. Qed.
