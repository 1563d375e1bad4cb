(* Reading an override block with tag handlers registered: what is reported. *)
From Verif Require Export TagSpec HandlerSpec.
From Verif Require PluginModel.
Local Open Scope nat_scope.

(* who : the answer to a tag of that name and arguments.  A tag that is
   accepted costs 2; one that is rejected is kept and reported as malformed;
   the others are as without handlers. *)
Inductive reported_by (who : str -> str -> option PluginModel.verdict -> Prop) : nat -> list piece -> list tag -> list tag_diag -> Prop :=
| by_nil o : reported_by who o [] [] []
| by_char o c r ts ds : reported_by who (o + len_utf8 c) r ts ds -> reported_by who o (PChar c :: r) ts ds
| by_accept o n a r ts ds : who n a (Some PluginModel.Processed) -> reported_by who (o + blen (piece_text (PTag n a))) r ts ds ->
    reported_by who o (PTag n a :: r) (Tag n a 2 o :: ts) ds
| by_reject o n a m v r ts ds : who n a (Some (PluginModel.Failed m)) -> valued complexity_table n v -> reported_by who (o + blen (piece_text (PTag n a))) r ts ds ->
    reported_by who o (PTag n a :: r) (Tag n a v o :: ts) (Diag (piece_text (PTag n a)) o MalformedTag :: ds)
| by_none o n a v r ts ds : who n a None \/ who n a (Some PluginModel.Ignored) -> valued complexity_table n v -> reported_by who (o + blen (piece_text (PTag n a))) r ts ds ->
    reported_by who o (PTag n a :: r) (Tag n a v o :: ts) ds
| by_bad o d r ts ds : reported_by who (o + blen (piece_text (PBad d))) r ts ds ->
    reported_by who o (PBad d :: r) ts (Diag (piece_text (PBad d)) o EmptyOverride :: ds).
