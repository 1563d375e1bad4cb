(* What choosing a face for a text promises. *)
From Verif Require Import Base FontModel.

(* how many characters of the text a face shows *)
Definition score (db : database) (text : str) (i : N) : nat :=
  match find (fun f => (f_id f =? i)%N) (faces db) with
  | Some f => match f_glyphs f with Some g => List.length (filter g text) | None => 0 end
  | None => 0
  end.
Definition ids (db : database) : list N := map f_id (faces db).
(* a query finds faces of the database *)
Definition database_ok (db : database) : Prop := NoDup (ids db) /\ forall l b i x, query db l b i = Some x -> In x (ids db).
Definition readable (db : database) (i : N) : Prop := exists f g, In f (faces db) /\ f_id f = i /\ f_glyphs f = Some g.
Definition all_readable (db : database) : Prop := forall i, In i (ids db) -> readable db i.

(* the face for a family: the first of these questions that has an answer *)
Fixpoint first_some {A} (l : list (option A)) : option A := match l with [] => None | Some x :: _ => Some x | None :: r => first_some r end.
Definition has (p s : str) : Prop := exists a b, s = a ++ p ++ b.
Definition japanese_name (s : str) : Prop :=
  Exists (fun p => has (lit p) s) ["CJK"; "Noto Sans JP"; "Hiragino"; "Yu Gothic"; "MS Gothic"; "Meiryo"]%string.
Definition japanese_faces : list string :=
  ["Hiragino Sans"; "Hiragino Kaku Gothic Pro"; "Yu Gothic"; "MS Gothic"; "Meiryo"; "Noto Sans CJK JP"; "Noto Sans JP"]%string.
Definition any_face (db : database) : option N := match ids db with [] => None | i :: _ => Some i end.

(* Chinese, Japanese or Korean characters *)
Definition east_asian (text : str) : Prop :=
  exists c, In c text /\ (19968 <= c <= 40959 \/ 13312 <= c <= 19903 \/ 131072 <= c <= 173791 \/ 44032 <= c <= 55215 \/ 4352 <= c <= 4607 \/ 12352 <= c <= 12543)%N.
Definition asian_faces : list string :=
  ["Noto Sans CJK SC"; "Noto Sans SC"; "Source Han Sans CN"; "PingFang SC"; "Microsoft YaHei"; "SimHei"; "SimSun";
   "Noto Sans CJK TC"; "Noto Sans TC"; "Source Han Sans TW"; "PingFang TC"; "Heiti TC";
   "Noto Sans CJK JP"; "Noto Sans JP"; "Hiragino Sans"; "Hiragino Kaku Gothic Pro"; "Yu Gothic"; "MS Gothic"; "Meiryo";
   "Noto Sans CJK KR"; "Noto Sans KR"; "Apple SD Gothic Neo"; "Malgun Gothic"; "Source Han Sans"; "Noto Sans CJK"]%string.
Definition present (db : database) (b i : bool) (l : list string) : list N :=
  flat_map (fun n => match query db [Name (lit n)] b i with Some x => [x] | None => [] end) l.

(* the first of the best in a list, when better than the bound *)
Definition first_best (f : N -> nat) (bound : nat) (l : list N) (x : N) : Prop :=
  exists a z, l = a ++ x :: z /\ bound < f x /\ Forall (fun y => f y < f x) a /\ Forall (fun y => f y <= f x) z.
Definition none_better (f : N -> nat) (bound : nat) (l : list N) : Prop := Forall (fun y => f y <= bound) l.
(* p unless another is better *)
Definition best_from (f : N -> nat) (p : N) (l : list N) (x : N) : Prop := (x = p /\ none_better f (f p) l) \/ first_best f (f p) l x.
