(* C03: colour texts. *)
From Verif Require Import Base NumSpec ColorModel ColorSpec ColorProofs.

(* Any dressing of eight hex digits spelling AABBGGRR gives exactly r,g,b,a. *)
Theorem color_parse_rgba : forall s d r g b a,
  (r < 256)%N -> (g < 256)%N -> (b < 256)%N -> (a < 256)%N ->
  dressed (trim s) d -> forallb is_hex d = true -> List.length d = 8 ->
  hex_value d = (a * 16777216 + b * 65536 + g * 256 + r)%N ->
  parse_bgr_color s = Ok (r, g, b, a).
Proof. exact color_rgba. Qed.
Print Assumptions color_parse_rgba.

(* Any dressing of six hex digits spelling BBGGRR gives r,g,b and alpha 0. *)
Theorem color_parse_rgb : forall s d r g b,
  (r < 256)%N -> (g < 256)%N -> (b < 256)%N ->
  dressed (trim s) d -> forallb is_hex d = true -> List.length d = 6 ->
  hex_value d = (b * 65536 + g * 256 + r)%N ->
  parse_bgr_color s = Ok (r, g, b, 0%N).
Proof. exact color_rgb. Qed.
Print Assumptions color_parse_rgb.

Example color_instance : parse_bgr_color (lit " &H80FF7F01& ") = Ok (1, 127, 255, 128)%N.
Proof. vm_compute. reflexivity. Qed.
Example color_hypotheses_met :
  dressed (trim (lit " &H80FF7F01& ")) (lit "80FF7F01") /\ forallb is_hex (lit "80FF7F01") = true /\
  List.length (lit "80FF7F01") = 8 /\
  hex_value (lit "80FF7F01") = (128 * 16777216 + 255 * 65536 + 127 * 256 + 1)%N.
Proof. split; [left; vm_compute; reflexivity|vm_compute; auto]. Qed.

(* Exactly the accepted texts, and the value of each. *)
Theorem color_parse_exact : forall s q, parse_bgr_color s = Ok q <->
  exists d v, dressed (trim s) d /\ hex_numeral_plus d v /\
   ((List.length d = 6 /\ q = (byte_at 0 v, byte_at 1 v, byte_at 2 v, 0%N)) \/
    (List.length d = 8 /\ q = (byte_at 0 v, byte_at 1 v, byte_at 2 v, byte_at 3 v))).
Proof. exact color_exact. Qed.
Print Assumptions color_parse_exact.

Theorem color_parse_no_panic : forall s, parse_bgr_color s <> Panic.
Proof. exact color_no_panic. Qed.
Print Assumptions color_parse_no_panic.

(* Finding: a plus sign counts as a digit position, so five hex digits are
   accepted: the claim that only 6 or 8 hex digits are accepted is false. *)
Theorem color_only_hex_digits_refuted : exists s q, parse_bgr_color s = Ok q /\
  ~ exists d, dressed (trim s) d /\ forallb is_hex d = true /\ (List.length d = 6 \/ List.length d = 8).
Proof.
  exists (lit "&H+12345"), (69, 35, 1, 0)%N. split; [vm_compute; reflexivity|].
  intros (d & Hd & Hh & Hl). change (trim (lit "&H+12345")) with (lit "&H+12345") in Hd.
  assert (G : In 43%N d \/ List.length d = 7 \/ forallb is_hex d = false).
  { unfold dressed in Hd. destruct Hd as [H|[H|[H|[H|[H|[H _]]]]]]; cbn in H; try discriminate; inversion H; subst.
    - destruct d as [|? [|? [|? [|? [|? [|? [|? d]]]]]]]; cbn in *; inversion H1; subst; auto.
    - left. cbn. auto.
    - right; right. reflexivity. }
  destruct G as [G|[G|G]]; [|destruct Hl; congruence|congruence].
  rewrite forallb_forall in Hh. apply Hh in G. vm_compute in G. discriminate.
Qed.
Print Assumptions color_only_hex_digits_refuted.
