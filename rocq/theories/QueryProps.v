(* C111-C112: querying the events of a document and reading a document. *)
From Verif Require Import Base BaseLemmas DocModel DocSpec ParseModel MapLib EventCmdModel StyleCmdSpec QueryModel QuerySpec QueryProofs.

(* ---- C111: queries ---- *)
(* The result of a query is the first q_limit elements of one list, which holds
   each event that matches exactly once, in the order asked for; first gives its
   head.  Only a query that looks at times asks that they fit 32 bits. *)
Theorem query_exact lower q d sc : parse (text d) = Done sc -> (timed q -> Forall fits (events_of sc)) ->
  exists full, execute lower q d = Done (match q_limit q with Some n => firstn n full | None => full end) /\
    first lower q d = Done (hd_error full) /\ NoDup (map n_index full) /\
    (forall i, In i full <-> event_info (events_of sc) i /\ matches lower (q_filter q) (n_event i)) /\
    StronglySorted (ordered (q_sort q)) full.
Proof. apply query_full. Qed.
(* indices and count agree with it *)
Theorem query_views lower q d l : execute lower q d = Done l -> indices lower q d = Done (map n_index l) /\ count lower q d = Done (List.length l).
Proof. intros E. unfold indices, count. now rewrite E. Qed.
(* A query with a time range panics if an event that meets the other conditions
   has a time of 2^32 hundredths or more. *)
Theorem query_time_crash lower q d sc i : parse (text d) = Done sc -> f_time (q_filter q) <> None ->
  event_info (events_of sc) i -> matches_fields lower (q_filter q) (n_event i) -> ~ fits (n_event i) -> execute lower q d = Crash.
Proof.
  intros E T I M F. unfold execute. rewrite E. cbn [bind]. unfold run_query. apply numbered_info in I. now rewrite (filters_crash_any lower _ _ i T I M F).
Qed.
(* a case of both: three events, the third with a start of 11930:28:00.00, which
   is 4294968000 hundredths *)
Definition opened (t : str) : doc := fresh 10 1000 t.
Definition nl : str := [10%N].
Definition head_ : str := lit "[Script Info]" ++ nl ++ lit "Title: T" ++ nl ++ lit "[Events]" ++ nl ++ lit "Format: Layer, Start, End, Style, Name, MarginL, MarginR, MarginV, Effect, Text" ++ nl.
Definition one : str := lit "Dialogue: 1,0:00:05.00,0:00:06.00,Main,Ann,0,0,0,,hello" ++ nl.
Definition two : str := lit "Comment: 0,0:00:01.00,0:00:02.00,Main,Bob,0,0,0,,note" ++ nl.
Definition three : str := lit "Dialogue: 0,11930:28:00.00,11930:28:01.00,Alt,Ann,0,0,0,,Hello again" ++ nl.
Definition by_start : query := Query (Filter (Some Dialogue) None None (Some (lit "ello")) None None None true) (Some (Sorting ByStart None true)) None.
Definition in_range : query := Query (Filter None None None None (Some (0, 900)%N) None None true) (Some (Sorting ByLayer (Some ByStart) true)) None.
Example query_example : let d := opened (head_ ++ one ++ two) in
  indices (fun s => s) in_range d = Done [1; 0] /\ indices (fun s => s) by_start d = Done [0] /\
  indices (fun s => s) (Query no_filter (Some (Sorting ByText None true)) None) (opened (head_ ++ one ++ two ++ three)) = Done [2; 0; 1].
Proof. repeat split; vm_compute; reflexivity. Qed.
Example query_crash_example : execute (fun s => s) in_range (opened (head_ ++ one ++ two ++ three)) = Crash.
Proof. vm_compute. reflexivity. Qed.
(* Sorting by time panics too, and the events need not match a range first. *)
Theorem sort_crash_refuted : ~ forall lower q d, f_time (q_filter q) = None -> execute lower q d <> Crash.
Proof. intros H. apply (H (fun s => s) by_start (opened (head_ ++ one ++ two ++ three))); [reflexivity|]. vm_compute. reflexivity. Qed.
(* The line and the range a query reports are not those of the event. *)
Theorem query_place_refuted : ~ forall d i x, get i d = Done (Some x) ->
  exists l, nth_error (lines (text d)) (n_line x - 1) = Some l /\ has (e_text (n_event x)) l.
Proof.
  intros H. specialize (H (opened (head_ ++ one)) 0). edestruct H as (l & E & K); [vm_compute; reflexivity|]. cbn [n_line Nat.sub] in E. vm_compute in E. injection E as <-.
  apply contains_has in K. vm_compute in K. discriminate K.
Qed.
(* Deleting what a query found deletes by another count: of two events, a
   picture and a line, asking to delete the picture deletes the line. *)
Definition picture : str := lit "Picture: 0,0:00:05.00,0:00:06.00,Main,Ann,0,0,0,,a.png" ++ nl.
Theorem delete_found_refuted : ~ forall d d' n sc sc', parse (text d) = Done sc ->
  delete_found 100 4 (fun s => s) (Filter (Some Picture) None None None None None None true) d = Done (d', Some n) -> parse (text d') = Done sc' ->
  forall e, In e (events_of sc) -> e_type e <> Picture -> In (e_text e) (map e_text (events_of sc')).
Proof.
  intros H. specialize (H (opened (head_ ++ picture ++ one))). eassert (K : In _ _); [eapply (H _ _ _ _); [vm_compute; reflexivity|vm_compute; reflexivity|vm_compute; reflexivity|right; left; reflexivity|discriminate]|].
  vm_compute in K. intuition discriminate.
Qed.

(* ---- C112: readers ---- *)
(* get i gives the i-th event, as a query would *)
Theorem get_exact i d sc : parse (text d) = Done sc -> exists o, get i d = Done o /\ forall x, o = Some x <-> event_info (events_of sc) x /\ n_index x = i.
Proof.
  intros E. unfold get. rewrite E. cbn [bind]. eexists. split; [reflexivity|]. intros x.
  assert (G : forall l k, k <= i -> get_loop i k l = match nth_error l (i - k) with Some e => Some (info_of i e) | None => None end).
  { induction l as [|e l IH]; intros k Hk; cbn [get_loop]; [destruct (i - k); reflexivity|]. destruct (Nat.eqb_spec k i) as [->|N]; [now rewrite Nat.sub_diag|]. rewrite IH by lia. replace (i - k) with (S (i - S k)) by lia. reflexivity. }
  rewrite G by lia. rewrite Nat.sub_0_r. unfold event_info. split.
  - destruct (nth_error (events_of sc) i) as [e|] eqn:Q; [|discriminate]. intros K. injection K as <-. cbn. auto.
  - intros [(H & L & R) <-]. rewrite H. destruct x. cbn in *. subst. reflexivity.
Qed.
(* all gives them all in order, and count_all their number *)
Theorem all_exact d sc : parse (text d) = Done sc -> exists l, all d = Done l /\ map n_event l = events_of sc /\ map n_index l = seq 0 (List.length (events_of sc)) /\ count_all d = Done (List.length (events_of sc)).
Proof.
  intros E. exists (numbered 0 (events_of sc)). unfold all, execute, count_all. rewrite E. cbn [bind]. unfold run_query. cbn [q_filter q_sort q_limit].
  assert (G : forall l, apply_filters (fun s => s) no_filter l = Done l) by (induction l as [|i l IH]; [reflexivity|]; cbn [apply_filters]; rewrite IH; reflexivity).
  rewrite G. cbn [bind]. split; [reflexivity|].
  assert (N : forall l k, map n_event (numbered k l) = l /\ map n_index (numbered k l) = seq k (List.length l)).
  { induction l as [|e l IH]; intros k; [split; reflexivity|]. cbn [numbered map List.length seq]. destruct (IH (S k)) as [-> ->]. split; reflexivity. }
  destruct (N (events_of sc) 0) as [N1 N2]. split; [exact N1|]. split; [exact N2|].
  unfold events_of. assert (F : forall l n, fold_left (fun n s => match s with SEvents l => n + List.length l | _ => n end) l n = n + List.length (flat_map (fun s => match s with SEvents l => l | _ => [] end) l)).
  { induction l as [|s l IH]; intros n; cbn [fold_left flat_map]; [cbn; lia|]. rewrite IH, app_length. destruct s; cbn [List.length]; lia. }
  now rewrite F.
Qed.
(* the texts that hold the pattern, in order *)
Theorem find_event_text_exact p d sc : parse (text d) = Done sc ->
  exists l, find_event_text p d = Done l /\ forall ts, Forall2 (fun e (o : option str) => match o with Some t => t = e_text e /\ has p t | None => ~ has p (e_text e) end) (events_of sc) ts ->
    l = flat_map (fun o => match o with Some t => [t] | None => [] end) ts.
Proof.
  intros E. unfold find_event_text. rewrite E. cbn [bind]. eexists. split; [reflexivity|]. intros ts F. induction F as [|e o l ts H F IH]; [reflexivity|]. cbn [filter flat_map]. pose proof (contains_has p (e_text e)) as C. destruct o as [t|].
  - destruct H as [-> H]. apply C in H. rewrite H. cbn [map app]. now rewrite IH.
  - destruct (contains p (e_text e)); [destruct H; now apply C|]. exact IH.
Qed.
(* a field has the value of its first line in the script info sections *)
Definition info_lines (sc : script) : list (str * str) := flat_map (fun s => match s with SInfo l _ => l | _ => [] end) (sc_sections sc).
Theorem field_value_exact key d sc : parse (text d) = Done sc -> exists o, get_field_value key d = Done o /\
  match o with
  | Some v => exists a b, info_lines sc = a ++ (key, v) :: b /\ ~ In key (map fst a)
  | None => ~ In key (map fst (info_lines sc))
  end.
Proof.
  intros E. unfold get_field_value. rewrite E. cbn [bind]. eexists. split; [reflexivity|].
  assert (F : forall l, match field_of key l with Some v => exists a b, l = a ++ (key, v) :: b /\ ~ In key (map fst a) | None => ~ In key (map fst l) end).
  { induction l as [|[k v] l IH]; cbn [field_of]; [intros []|]. destruct (str_eqb k key) eqn:K.
    - apply str_eqb_eq in K. subst. exists [], l. split; [reflexivity|intros []].
    - assert (K' : k <> key) by (intros ->; rewrite (proj2 (str_eqb_eq key key) eq_refl) in K; discriminate K). destruct (field_of key l) as [w|].
      + destruct IH as (a & b & -> & N). exists ((k, v) :: a), b. split; [reflexivity|]. cbn [map fst In]. tauto.
      + cbn [map fst In]. tauto. }
  unfold info_lines. induction (sc_sections sc) as [|s l IH]; [intros []|]. destruct s as [fs r| | | |]; cbn [find_field flat_map app]; try exact IH. specialize (F fs). destruct (field_of key fs) as [v|].
  - destruct F as (a & b & -> & N). exists a, (b ++ flat_map (fun s => match s with SInfo l _ => l | _ => [] end) l). split; [|exact N]. now rewrite <- app_assoc.
  - destruct (find_field key l) as [v|].
    + destruct IH as (a & b & -> & N). exists (fs ++ a), b. split; [now rewrite app_assoc|]. rewrite map_app, in_app_iff. tauto.
    + rewrite map_app, in_app_iff. tauto.
Qed.
(* the other readers *)
Theorem info_fields_exact d sc : parse (text d) = Done sc -> info_fields d = Done (map fst (info_lines sc)).
Proof.
  intros E. unfold info_fields, info_lines. rewrite E. cbn [bind]. f_equal. induction (sc_sections sc) as [|s l IH]; [reflexivity|]. cbn [flat_map]. rewrite map_app, <- IH. destruct s; reflexivity.
Qed.
Theorem flags_exact d sc : parse (text d) = Done sc -> sections_count d = Done (List.length (sc_sections sc)) /\
  (has_events d = Done true <-> exists l, In (SEvents l) (sc_sections sc)) /\ (has_styles d = Done true <-> exists l, In (SStyles l) (sc_sections sc)).
Proof.
  intros E. unfold sections_count, has_events, has_styles. rewrite E. cbn [bind]. split; [reflexivity|].
  split; (split; [intros K; injection K as K; apply existsb_exists in K as (s & I & K); destruct s; try discriminate K; eauto|intros [l I]; f_equal; apply existsb_exists; eexists; split; [exact I|reflexivity]]).
Qed.
Theorem styles_count_exact d sc : parse (text d) = Done sc -> styles_count d = Done (List.length (flat_map (fun s => match s with SStyles l => l | _ => [] end) (sc_sections sc))).
Proof.
  intros E. unfold styles_count. rewrite E. cbn [bind]. f_equal. assert (F : forall l n, fold_left (fun n s => match s with SStyles l => n + List.length l | _ => n end) l n = n + List.length (flat_map (fun s => match s with SStyles l => l | _ => [] end) l)).
  { induction l as [|s l IH]; intros n; cbn [fold_left flat_map]; [cbn; lia|]. rewrite IH, app_length. destruct s; cbn [List.length]; lia. }
  now rewrite F.
Qed.
Example readers_example : let d := opened (head_ ++ one ++ two) in
  count_all d = Done 2 /\ get_field_value (lit "Title") d = Done (Some (lit "T")) /\ find_event_text (lit "ell") d = Done [lit "hello"] /\ has_styles d = Done false /\ get 2 d = Done None.
Proof. repeat split; vm_compute; reflexivity. Qed.
(* An event without section, or in a second section, counts like the others. *)
Example two_sections_example : count_all (opened (head_ ++ one ++ head_ ++ two)) = Done 2.
Proof. vm_compute. reflexivity. Qed.

Print Assumptions query_exact.
Print Assumptions query_views.
Print Assumptions query_time_crash.
Print Assumptions sort_crash_refuted.
Print Assumptions query_place_refuted.
Print Assumptions delete_found_refuted.
Print Assumptions get_exact.
Print Assumptions all_exact.
Print Assumptions find_event_text_exact.
Print Assumptions field_value_exact.
Print Assumptions info_fields_exact.
Print Assumptions flags_exact.
Print Assumptions styles_count_exact.
