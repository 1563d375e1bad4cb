(* C04, C05, C51: embedded binary data. *)
From Verif Require Import Base UuModel UuSpec UuProofs.

(* C04: decode (encode data) = data for every byte sequence. *)
Theorem uu_encode_decode : forall filename data, bytes data ->
  decode_uu_data (uuencode_data filename data) = data.
Proof. exact uu_round_trip. Qed.
Print Assumptions uu_encode_decode.

Example uu_instance : bytes [0; 255; 7; 65]%N /\
  uuencode_data (lit "f") [0; 255; 7; 65]%N = [lit "begin 644 f"; lit "$ /\'00 "; lit "`"; lit "end"] /\
  decode_uu_data (uuencode_data (lit "f") [0; 255; 7; 65]%N) = [0; 255; 7; 65]%N.
Proof. split; [repeat (apply Forall_cons; [reflexivity|]); apply Forall_nil|split; vm_compute; reflexivity]. Qed.

(* C05, positive part: data whose last line is not mistaken for a comment is
   read back exactly, and nothing else of the section is disturbed. *)
Theorem font_section_round_trip : forall name data tail,
  bytes data -> ~ In 10%N name -> survives data ->
  tail = [] \/ at_next_section tail = true ->
  exists f, parse_fonts (font_entry name (uuencode_data name data) ++ tail) = Some ([f], tail) /\
    fst f = trim name /\ font_data f = data.
Proof.
  intros name data tail Hb Hn Hs Ht. exists (trim name, uuencode_data name data).
  split; [|split; [reflexivity|apply uu_round_trip, Hb]]. apply font_survives; auto.
  unfold no_nl. apply forallb_forall. intros c Hc. unfold is_nl.
  destruct (N.eqb_spec c 10); [subst; contradiction|reflexivity].
Qed.
Print Assumptions font_section_round_trip.

Example font_section_instance : survives (repeat 7%N 100) /\ bytes (repeat 7%N 100) /\
  at_next_section (lit "[Events]") = true.
Proof. split; [|split; [apply Forall_forall; intros x Hx; apply repeat_spec in Hx; subst; reflexivity|reflexivity]].
  unfold survives. vm_compute. repeat split; discriminate. Qed.

(* C05, negative part: in every other case the last chunk is lost. *)
Theorem font_section_loses_last_chunk : forall name data tail,
  bytes data -> ~ In 10%N name -> ~ survives data ->
  tail = [] \/ at_next_section tail = true ->
  exists f fs r, parse_fonts (font_entry name (uuencode_data name data) ++ tail) = Some (f :: fs, r) /\
    font_data f = without_last_chunk data /\
    List.length (without_last_chunk data) < List.length data.
Proof.
  intros name data tail Hb Hn. apply font_lost; auto.
  unfold no_nl. apply forallb_forall. intros c Hc. unfold is_nl.
  destruct (N.eqb_spec c 10); [subst; contradiction|reflexivity].
Qed.
Print Assumptions font_section_loses_last_chunk.

(* The data come back exactly when they survive. *)
Theorem font_section_exact : forall name data tail, bytes data -> ~ In 10%N name -> tail = [] \/ at_next_section tail = true ->
  exists f fs r, parse_fonts (font_entry name (uuencode_data name data) ++ tail) = Some (f :: fs, r) /\ (font_data f = data <-> survives data).
Proof.
  intros name data tail Hb Hn Ht. assert (D : survives data \/ ~ survives data).
  { unfold survives. destruct (Nat.eq_dec (List.length data mod 45) 1); [tauto|]. destruct (Nat.eq_dec (List.length data mod 45) 27); [tauto|]. destruct (Nat.eq_dec (List.length data mod 45) 3); [|tauto].
    destruct (N.le_gt_cases 4 (nth (List.length data - 3) data 0%N)) as [L|L]; [tauto|]. right. intros (_ & _ & K). specialize (K e). apply N.lt_nge in L. contradiction. }
  destruct D as [D|D].
  - destruct (font_section_round_trip name data tail Hb Hn D Ht) as (f & E & _ & F). exists f, [], tail. tauto.
  - destruct (font_section_loses_last_chunk name data tail Hb Hn D Ht) as (f & fs & r & E & F & L). exists f, fs, r. split; [exact E|]. split; [|tauto]. intros K. rewrite K in F. rewrite <- F in L. now apply Nat.lt_irrefl in L.
Qed.
Print Assumptions font_section_exact.
Theorem font_section_round_trip_refuted : exists name data f rest r, bytes data /\
  parse_fonts (font_entry name (uuencode_data name data)) = Some (f :: rest, r) /\ font_data f <> data.
Proof.
  exists (lit "a.ttf"), [7%N]. do 3 eexists. split; [apply Forall_cons; [reflexivity|apply Forall_nil]|].
  split; [vm_compute; reflexivity|]. vm_compute. discriminate.
Qed.
Print Assumptions font_section_round_trip_refuted.

(* Reading a section always terminates and stops at the end of the text or
   at a section header. *)
Theorem binary_section_total : forall body, exists entries rest,
  parse_fonts body = Some (entries, rest) /\ (rest = [] \/ at_next_section rest = true).
Proof. intros body. apply parse_binary_total. auto. Qed.
Print Assumptions binary_section_total.

(* C51: two fonts written one after the other: the second is always lost. *)
Theorem second_font_is_lost : forall n1 d1 n2 d2 tail,
  bytes d1 -> bytes d2 -> no_nl n1 -> no_nl n2 -> survives d1 -> survives d2 ->
  tail = [] \/ at_next_section tail = true ->
  exists f, parse_fonts (font_entry n1 (uuencode_data n1 d1) ++ font_entry n2 (uuencode_data n2 d2) ++ tail)
            = Some ([f], tail) /\ fst f = trim n1 /\ font_data f = d1.
Proof. exact second_font_swallowed. Qed.
Print Assumptions second_font_is_lost.

(* The same through the editor command on an empty document. *)
Theorem add_two_fonts_refuted : exists d1 d2 body f,
  add_font (add_font [] (lit "a") (uuencode_data (lit "a") d1)) (lit "b") (uuencode_data (lit "b") d2)
    = lit "
[Fonts]
" ++ body /\ parse_fonts body = Some ([f], []).
Proof. exists [1; 2]%N, [3; 4]%N. do 2 eexists. split; vm_compute; reflexivity. Qed.
Print Assumptions add_two_fonts_refuted.

(* With another section right after [Fonts], adding a font even corrupts the
   data of the font that was there before. *)
Theorem add_font_keeps_existing_refuted : exists d1 d2 before after f1 f2 r1 r2,
  before = font_entry (lit "a") (uuencode_data (lit "a") d1) ++ lit "[Events]
" /\
  add_font (lit "[Fonts]
" ++ before) (lit "b") (uuencode_data (lit "b") d2) = lit "[Fonts]
" ++ after /\
  parse_fonts before = Some ([f1], r1) /\ parse_fonts after = Some ([f2], r2) /\
  font_data f1 = d1 /\ font_data f2 <> d1.
Proof.
  exists [1; 2]%N, [3; 4]%N. do 6 eexists. split; [reflexivity|]. split; [vm_compute; reflexivity|].
  split; [vm_compute; reflexivity|]. split; [vm_compute; reflexivity|]. split; vm_compute; [reflexivity|discriminate].
Qed.
Print Assumptions add_font_keeps_existing_refuted.
