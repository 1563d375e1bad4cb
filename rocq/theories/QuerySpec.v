(* What a query over events is meant to give. *)
From Coq Require Export Sorted Permutation.
From Verif Require Import Base ParseModel MapLib QueryModel StyleCmdSpec.

(* s is h:m:s.c and n the number of hundredths *)
Definition reads_cs (s : str) (n : N) : Prop :=
  exists h m x c H M X C, s = h ++ [58%N] ++ m ++ [58%N] ++ x ++ [46%N] ++ c /\ ~ In 58%N (h ++ m ++ x ++ c) /\ ~ In 46%N (x ++ c) /\
    parse_u32 h = Some H /\ parse_u32 m = Some M /\ parse_u32 x = Some X /\ parse_u32 c = Some C /\ n = (H * 360000 + M * 6000 + X * 100 + C)%N.
(* no time of e is too large for 32 bits *)
Definition fits (e : event) : Prop := forall n, reads_cs (e_start e) n \/ reads_cs (e_end e) n -> (n <= u32_max)%N.

(* e meets all that f asks except the times *)
Definition asks {A} (o : option A) (P : A -> Prop) : Prop := match o with Some a => P a | None => True end.
Definition shows_pattern (lower : str -> str) (cs : bool) (t p : str) : Prop := if cs then has p t else has (lower p) (lower t).
Definition matches_fields (lower : str -> str) (f : filter_) (e : event) : Prop :=
  asks (f_type f) (fun t => e_type e = t) /\ asks (f_style f) (shows_pattern lower (f_case f) (e_style e)) /\
  asks (f_text f) (shows_pattern lower (f_case f) (e_text e)) /\ asks (f_speaker f) (shows_pattern lower (f_case f) (e_name e)) /\
  asks (f_effect f) (shows_pattern lower (f_case f) (e_effect e)) /\ asks (f_layer f) (fun n => parse_u32 (e_layer e) = Some n).
Definition matches (lower : str -> str) (f : filter_) (e : event) : Prop :=
  matches_fields lower f e /\ asks (f_time f) (fun r => exists a b, reads_cs (e_start e) a /\ reads_cs (e_end e) b /\ (fst r <= a)%N /\ (b <= snd r)%N).

(* what an event is sorted by; an unreadable time or layer counts as 0 *)
Definition time_or_0 (s : str) (n : N) : Prop := reads_cs s n \/ (n = 0%N /\ forall m, ~ reads_cs s m).
Inductive sort_value (i : info) : criterion -> key -> Prop :=
| sv_start n : time_or_0 (e_start (n_event i)) n -> sort_value i ByStart (Num n)
| sv_end n : time_or_0 (e_end (n_event i)) n -> sort_value i ByEnd (Num n)
| sv_duration a b : time_or_0 (e_start (n_event i)) a -> time_or_0 (e_end (n_event i)) b -> sort_value i ByDuration (Num (b - a))
| sv_style : sort_value i ByStyle (Word (e_style (n_event i)))
| sv_speaker : sort_value i BySpeaker (Word (e_name (n_event i)))
| sv_layer n : parse_u32 (e_layer (n_event i)) = Some n -> sort_value i ByLayer (Num n)
| sv_no_layer : parse_u32 (e_layer (n_event i)) = None -> sort_value i ByLayer (Num 0)
| sv_index : sort_value i ByIndex (Num (N.of_nat (n_index i)))
| sv_text : sort_value i ByText (Word (e_text (n_event i))).
Definition less (a b : key) : Prop :=
  match a, b with Num x, Num y => (x < y)%N | Word x, Word y => str_lt x y | _, _ => False end.
Definition goes_before (up : bool) (a b : key) : Prop := if up then less a b else less b a.
(* a comes before b: by the first value, then by the second if there is one,
   and in the order of the script otherwise *)
Definition ordered (s : option sorting) (a b : info) : Prop :=
  match s with
  | None => n_index a < n_index b
  | Some s =>
    exists ka kb, sort_value a (by_ s) ka /\ sort_value b (by_ s) kb /\
      (goes_before (ascending s) ka kb \/
       (ka = kb /\ match then_by s with
                   | None => n_index a < n_index b
                   | Some c => exists la lb, sort_value a c la /\ sort_value b c lb /\ (goes_before (ascending s) la lb \/ (la = lb /\ n_index a < n_index b))
                   end))
  end.
(* i is the n-th event of the script *)
Definition event_info (evs : list event) (i : info) : Prop :=
  nth_error evs (n_index i) = Some (n_event i) /\ n_line i = 1 /\ n_range i = mkRange 0 0.
