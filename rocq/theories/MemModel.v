(* ass-editor/sessions/memory/{config,stats,pool,gc,strategy}.rs with the
   features std and arena.  An arena is the number of bytes it reports as
   allocated; what a reset leaves of them is a parameter.  Instants are counted
   in nanoseconds and read from an argument. *)
From Verif Require Import Base FloatModel.

(* config.rs 12-31 *)
Record config := Cf { max_size : N; reset_at : N; pressure_at : float; auto_gc : bool; gc_every : N; growth_at : float }.
(* 33-45; 0.8 as f64 *)
Definition default_config : config := Cf (64 * 1024 * 1024) 1000 (Fin (3602879701896397 # 4503599627370496)) true 30000000000 (Fin 2).
(* stats.rs 9-27, without reclaimable_memory, which nothing writes *)
Record stats := St { total : N; in_use : N; resets : N; cycles : N; peak : N }.
(* pool.rs 25-49 *)
Record pool := Po { p_cfg : config; p_primary : N; p_temp : N; p_stats : stats; p_ops : N; p_last : option N; p_at_gc : N }.
(* 58-71 *)
Definition with_config (c : config) : pool := Po c 0 0 (St 0 0 0 0 0) 0 None 0.
Definition ratio (a b : N) : float := f_div f64 (f_of_N f64 a) (f_of_N f64 b).
(* gc.rs 26-33 *)
Definition under_pressure (p : pool) : bool :=
  if (max_size (p_cfg p) =? 0)%N then false else f_lt (pressure_at (p_cfg p)) (ratio (in_use (p_stats p)) (max_size (p_cfg p))).
(* 36-58 *)
Definition should_gc (now : N) (p : pool) : bool :=
  auto_gc (p_cfg p) &&
  negb (match p_last p with Some t => (now - t <? gc_every (p_cfg p))%N | None => false end) &&
  (if (0 <? p_at_gc p)%N then f_lt (growth_at (p_cfg p)) (ratio (in_use (p_stats p)) (p_at_gc p))
   else (max_size (p_cfg p) / 2 <? in_use (p_stats p))%N).
(* 85-102 *)
Definition update (p : pool) : pool :=
  let u := (p_primary p + p_temp p)%N in let s := p_stats p in
  Po (p_cfg p) (p_primary p) (p_temp p) (St u u (resets s) (cycles s) (if (peak s <? u)%N then u else peak s)) (p_ops p) (p_last p) (p_at_gc p).

Section Pool.
  (* the bytes an arena still holds after a reset *)
  Variable left : N -> N.
  (* pool.rs 103-108 *)
  Definition reset_primary (p : pool) : pool :=
    let s := p_stats p in
    update (Po (p_cfg p) (left (p_primary p)) (p_temp p) (St (total s) (in_use s) (resets s + 1) (cycles s) (peak s)) 0 (p_last p) (p_at_gc p)).
  (* 112-115 *)
  Definition reset_temp (p : pool) : pool := update (Po (p_cfg p) (p_primary p) (left (p_temp p)) (p_stats p) (p_ops p) (p_last p) (p_at_gc p)).
  (* 119-122 *)
  Definition reset_all (p : pool) : pool := reset_temp (reset_primary p).
  (* gc.rs 14-23 *)
  Definition check_reset (now : N) (p : pool) : pool :=
    if (reset_at (p_cfg p) <=? p_ops p)%N || under_pressure p || should_gc now p then reset_primary p else p.
  (* pool.rs 82-86 *)
  Definition primary_mut (now : N) (p : pool) : pool := check_reset now (Po (p_cfg p) (p_primary p) (p_temp p) (p_stats p) (p_ops p + 1) (p_last p) (p_at_gc p)).
  (* gc.rs 61-82 *)
  Definition collect (now : N) (p : pool) : N * pool :=
    let before := in_use (p_stats p) in
    let p := reset_temp p in
    let p := if under_pressure p then reset_primary p else p in
    let s := p_stats p in
    ((before - in_use s)%N, Po (p_cfg p) (p_primary p) (p_temp p) (St (total s) (in_use s) (resets s) (cycles s + 1) (peak s)) (p_ops p) (Some now) (in_use s)).
  (* 105-118 *)
  Definition force_cleanup (now : N) (p : pool) : pool :=
    let p := reset_all p in
    update (Po (p_cfg p) (p_primary p) (p_temp p) (p_stats p) 0 (Some now) 0).
  (* pool.rs 139-141 *)
  Definition acceptable (p : pool) : bool := (in_use (p_stats p) <=? max_size (p_cfg p))%N.
  (* 144-146 *)
  Definition set_config (c : config) (p : pool) : pool := Po c (p_primary p) (p_temp p) (p_stats p) (p_ops p) (p_last p) (p_at_gc p).

  (* strategy.rs 14-33 *)
  Inductive strategy := OperationCount (n : N) | MemoryThreshold (n : N) | TimeInterval (d : N) | PressureRatio (r : float) | Hybrid | Manual.
  (* 43-53 *)
  Record manager := Mg { g_pool : pool; g_strategy : strategy; g_last : N }.
  (* 57-64 *)
  Definition manager_new (now : N) (s : strategy) : manager := Mg (with_config default_config) s now.
  (* 67-126 *)
  Definition evaluate (now : N) (m : manager) : bool * manager :=
    let p := g_pool m in
    let forced := (true, Mg (force_cleanup now p) (g_strategy m) (g_last m)) in
    let not := (false, m) in
    match g_strategy m with
    | OperationCount n => if (n <=? p_ops p)%N then forced else not
    | MemoryThreshold n => if (n <=? in_use (p_stats p))%N then forced else not
    | TimeInterval d => if (d <=? now - g_last m)%N then (true, Mg (force_cleanup now p) (g_strategy m) now) else not
    | PressureRatio r => if under_pressure p && f_le r (ratio (in_use (p_stats p)) (max_size (p_cfg p))) then forced else not
    | Hybrid => if (1000 <=? p_ops p)%N || under_pressure p || should_gc now p then (true, Mg (snd (collect now p)) Hybrid (g_last m)) else not
    | Manual => not
    end.

  (* what a user does with a pool; allocating goes through the arenas' shared references *)
  Inductive op := AllocPrimary (n : N) | AllocTemp (n : N) | PrimaryMut (now : N) | ResetPrimary | ResetTemp | ResetAll | Collect (now : N) | Force (now : N) | SetConfig (c : config).
  Definition step (p : pool) (o : op) : pool :=
    match o with
    | AllocPrimary n => Po (p_cfg p) (p_primary p + n) (p_temp p) (p_stats p) (p_ops p) (p_last p) (p_at_gc p)
    | AllocTemp n => Po (p_cfg p) (p_primary p) (p_temp p + n) (p_stats p) (p_ops p) (p_last p) (p_at_gc p)
    | PrimaryMut now => primary_mut now p
    | ResetPrimary => reset_primary p
    | ResetTemp => reset_temp p
    | ResetAll => reset_all p
    | Collect now => snd (collect now p)
    | Force now => force_cleanup now p
    | SetConfig c => set_config c p
    end.
  Definition run (l : list op) (p : pool) : pool := fold_left step l p.
End Pool.
