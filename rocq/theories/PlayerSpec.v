(* What a user of the player relies on. *)
From Coq Require Import QArith Qabs.
From Verif Require Import Base FloatModel PlayerModel.

Section Spec.
  Variable X : outside.
  (* the script in use after a list of calls: the last that parsed *)
  Definition in_use (l : list (N * op)) : option str :=
    fold_left (fun s o => match snd o with Load t => match o_ends X t with Some _ => Some t | None => s end | _ => s end) l None.
  Definition cache_limit (l : list (N * op)) : nat := fold_left (fun n o => match snd o with CacheSize k => k | _ => n end) l 100.
  Definition cache_used (l : list (N * op)) : bool := fold_left (fun b o => match snd o with Caching k => k | _ => b end) l true.
  Definition is_load (o : op) : bool := match o with Load _ => true | _ => false end.
  (* the calls that move the position *)
  Definition sets_position (o : op) : bool := match o with Play | Seek _ | Forward | Backward => true | _ => false end.
  (* milliseconds of playing at a speed *)
  Definition played (ns : N) (speed : Q) : Q := (inject_Z (Z.of_N ns) / 1000000 * speed)%Q.
End Spec.
