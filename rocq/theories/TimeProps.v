(* C01, C02: time texts. *)
From Verif Require Import Base NumSpec TimeModel TimeSpec TimeProofs.

(* C01: parse (format t) = t for every u32 t. *)
Theorem time_format_parse_round_trip : forall t, (t <= 4294967295)%N ->
  parse_ass_time (format_ass_time t) = Ok t.
Proof. exact time_round_trip. Qed.
Print Assumptions time_format_parse_round_trip.

(* The formatted text also reads as h:m:s.cs with in-range fields. *)
Theorem time_format_fields : forall t, exists h m s cs,
  time_fields (format_ass_time t) h m s cs /\
  (m < 60)%N /\ (s < 60)%N /\ (cs < 100)%N /\ centis h m s cs = t.
Proof. exact format_fields. Qed.
Print Assumptions time_format_fields.

Example time_round_trip_instance : parse_ass_time (format_ass_time 4294967295) = Ok 4294967295%N
  /\ format_ass_time 4294967295 = lit "11930:27:52.95".
Proof. split; vm_compute; reflexivity. Qed.

(* C02: the accepted texts and their value.  The parser accepts t with value
   v iff t reads as four fields with minutes and seconds below 60 whose sum v
   fits in 32 bits. *)
Theorem time_parse_exact : forall t v, parse_ass_time t = Ok v <->
  exists h m s cs, time_fields t h m s cs /\ (m < 60)%N /\ (s < 60)%N /\
     v = centis h m s cs /\ (v <= 4294967295)%N.
Proof. exact parse_time_exact. Qed.
Print Assumptions time_parse_exact.

Example time_parse_instance : parse_ass_time (lit "1:02:03.45") = Ok 372345%N.
Proof. vm_compute. reflexivity. Qed.

(* C02 fails as stated: the parser panics (debug) or wraps (release) exactly
   when the four fields fit in u32 but their sum does not. *)
Theorem time_parse_panics_iff : forall t, parse_ass_time t = Panic <->
  exists h m s cs, time_fields t h m s cs /\
     (h <= 4294967295 /\ m <= 4294967295 /\ s <= 4294967295 /\ cs <= 4294967295)%N /\
     (m < 60)%N /\ (s < 60)%N /\ (4294967295 < centis h m s cs)%N.
Proof. exact parse_time_panics. Qed.
Print Assumptions time_parse_panics_iff.

Theorem time_parse_total_refuted : exists t, parse_ass_time t = Panic.
Proof. exists (lit "11931:00:00.00"). vm_compute. reflexivity. Qed.
Print Assumptions time_parse_total_refuted.
