(* Specification vocabulary for the incremental parsing helpers. *)
From Verif Require Export IncrModel ParseSpec.
From Coq Require Export Permutation.

(* newline bytes among the first pos bytes *)
Definition nl_bytes (src : str) (pos : nat) : N := N.of_nat (count_occ N.eq_dec (firstn pos (as_bytes src)) 10%N).

(* t stands in src between the byte offsets a and b *)
Definition piece (src : str) (a b : nat) (t : str) : Prop :=
  exists x y, src = x ++ t ++ y /\ blen x = a /\ blen (x ++ t) = b.
(* the same, nothing when b is not after a *)
Definition piece_or_nil (src : str) (a b : nat) (t : str) : Prop :=
  if a <? b then piece src a b t else t = [].

(* src' is src with the change applied *)
Definition edited (src : str) (c : text_change) (src' : str) : Prop :=
  exists p m q, src = p ++ m ++ q /\ blen p = ch_start c /\ blen (p ++ m) = ch_end c /\ src' = p ++ ch_text c ++ q.

(* A delta read as instructions on the old sections. *)
Definition apply_delta (old : list section) (d : delta) : list section :=
  flat_map (fun p : nat * section =>
    if existsb (Nat.eqb (fst p)) (dl_removed d) then []
    else match find (fun m => fst m =? fst p) (dl_modified d) with
         | Some m => [snd m]
         | None => [snd p]
         end) (combine (seq 0 (List.length old)) old) ++ dl_added d.

(* ---- sources made of one block per section ---- *)
(* A block: a section header on its own line, then lines in which no section
   header occurs. *)
Record block := Block { bl_type : section_type; bl_rest : str }.
Definition block_text (b : block) : str := section_header (bl_type b) ++ [10%N] ++ bl_rest b.
Definition blocks_text (l : list block) : str := flat_map block_text l.
Definition free_of (p s : str) : Prop := forall a b, s <> a ++ p ++ b.
Definition block_ok (b : block) : Prop :=
  Forall (fun t => free_of (section_header t) (bl_rest b)) [TInfo; TStyles; TEvents; TFonts; TGraphics] /\
  Forall (fun l => header_line l = false) (split_on is_nl (bl_rest b)) /\
  exists r, bl_rest b = r ++ [10%N].
