(* Model of ass-renderer pipeline/drawing/{mod,parse,spline}.rs.  tiny-skia's
   PathBuilder is outside: process_drawing_commands gives the calls made to it. *)
From Verif Require Export Base FloatModel ParseModel AnimModel.
From Verif Require Import CollideModel.

Definition point := (float * float)%type.
(* mod.rs:18-41 *)
Inductive draw_command :=
| MoveTo (p : point) | MoveToNoDraw (p : point) | LineTo (p : point)
| BezierTo (p1 p2 p3 : point)
| Spline (ps : list point) | ExtendSpline (ps : list point)
| ClosePath.

(* parse.rs:185-219; char::to_lowercase of an ASCII letter *)
Definition is_letter (c : char) : bool := ((65 <=? c) && (c <=? 90) || (97 <=? c) && (c <=? 122))%N.
Definition lower_letter (c : char) : char := if ((65 <=? c) && (c <=? 90))%N then (c + 32)%N else c.
Definition flush (cur : str) (ts : list str) : list str := match cur with [] => ts | _ => ts ++ [cur] end.
Fixpoint tokenize_go (text cur : str) (ts : list str) : list str :=
  match text with
  | [] => flush cur ts
  | c :: r =>
    if (c =? 92)%N then flush cur ts
    else if is_ws c then tokenize_go r [] (flush cur ts)
    else if is_letter c then tokenize_go r [] (flush cur ts ++ [[lower_letter c]])
    else tokenize_go r (cur ++ [c]) ts
  end.
Definition tokenize_drawing_commands (text : str) : list str := tokenize_go text [] [].

(* parse.rs:222-230 *)
Definition is_command (t : str) : bool := existsb (str_eqb t) (map lit ["m"; "n"; "l"; "b"; "s"; "p"; "c"]%string).
Inductive outcome (A : Type) := Yes (a : A) | No.
Arguments Yes {A}. Arguments No {A}.
Definition tok (ts : list str) (i : nat) : run str := need (nth_error ts i).
(* parse_coord(&tokens[i])?: No is an error that ends parse_draw_commands *)
Definition coord (ts : list str) (i : nat) : run (outcome float) :=
  t <- tok ts i ;; Done (match parse_float f32 t with Some x => Yes x | None => No end).
Definition pair_at (ts : list str) (i : nat) : run (outcome point) :=
  x <- coord ts i ;;
  match x with
  | No => Done No
  | Yes x => y <- coord ts (i + 1) ;; Done (match y with Yes y => Yes (x, y) | No => No end)
  end.
(* parse.rs:38-43, 53-58, 71-76, 121-129, 151-159: while i + 1 < tokens.len() && !is_command(&tokens[i]) *)
Fixpoint pairs (fuel : nat) (ts : list str) (i : nat) (acc : list point) : run (outcome (list point * nat)) :=
  match fuel with
  | 0 => Stuck
  | S f =>
    if i + 1 <? List.length ts then
      t <- tok ts i ;;
      if is_command t then Done (Yes (acc, i))
      else p <- pair_at ts i ;; match p with No => Done No | Yes p => pairs f ts (i + 2) (acc ++ [p]) end
    else Done (Yes (acc, i))
  end.
(* parse.rs:89-105 *)
Fixpoint triples (fuel : nat) (ts : list str) (i : nat) (acc : list draw_command) : run (outcome (list draw_command * nat)) :=
  match fuel with
  | 0 => Stuck
  | S f =>
    if i + 5 <? List.length ts then
      t <- tok ts i ;;
      if is_command t then Done (Yes (acc, i))
      else p <- pair_at ts i ;;
        match p with
        | No => Done No
        | Yes p => q <- pair_at ts (i + 2) ;;
          match q with
          | No => Done No
          | Yes q => r <- pair_at ts (i + 4) ;;
            match r with No => Done No | Yes r => triples f ts (i + 6) (acc ++ [BezierTo p q r]) end
          end
        end
    else Done (Yes (acc, i))
  end.
Definition last_is (f : draw_command -> bool) (cs : list draw_command) : bool := match rev cs with c :: _ => f c | [] => false end.
Definition is_nodraw c := match c with MoveToNoDraw _ => true | _ => false end.
Definition is_line c := match c with LineTo _ => true | _ => false end.
Definition is_bezier c := match c with BezierTo _ _ _ => true | _ => false end.
(* 0.01 as f32 *)
Definition hundredth : float := const32 (1 # 100).
(* parse.rs:131-138 *)
Definition close_spline (ps : list point) : list point :=
  match ps, rev ps with
  | first :: _, lst :: _ =>
    if f_lt hundredth (f_abs (sub32 (fst first) (fst lst))) || f_lt hundredth (f_abs (sub32 (snd first) (snd lst))) then ps ++ [first] else ps
  | _, _ => ps
  end.
(* parse.rs:20-182 *)
Fixpoint draw_loop (fuel : nat) (ts : list str) (i : nat) (cs : list draw_command) : run (outcome (list draw_command)) :=
  match fuel with
  | 0 => Stuck
  | S f =>
    if i <? List.length ts then
      t <- tok ts i ;;
      if str_eqb t (lit "m") then
        if i + 1 + 1 <? List.length ts then
          p <- pair_at ts (i + 1) ;;
          match p with
          | No => Done No
          | Yes p => q <- pairs f ts (i + 3) [] ;;
            match q with No => Done No | Yes (ps, j) => draw_loop f ts j (cs ++ MoveTo p :: map LineTo ps) end
          end
        else Done No
      else if str_eqb t (lit "n") then
        q <- pairs f ts (i + 1) [] ;;
        match q with
        | No => Done No
        | Yes (ps, j) => let cs' := cs ++ map MoveToNoDraw ps in if last_is is_nodraw cs' then draw_loop f ts j cs' else Done No
        end
      else if str_eqb t (lit "l") then
        q <- pairs f ts (i + 1) [] ;;
        match q with
        | No => Done No
        | Yes (ps, j) => let cs' := cs ++ map LineTo ps in if last_is is_line cs' then draw_loop f ts j cs' else Done No
        end
      else if str_eqb t (lit "b") then
        q <- triples f ts (i + 1) [] ;;
        match q with
        | No => Done No
        | Yes (bs, j) => let cs' := cs ++ bs in if last_is is_bezier cs' then draw_loop f ts j cs' else Done No
        end
      else if str_eqb t (lit "s") then
        q <- pairs f ts (i + 1) [] ;;
        match q with
        | No => Done No
        | Yes (ps, j) =>
          if 3 <=? List.length ps then draw_loop f ts j (cs ++ [Spline (close_spline ps)])
          else match ps with [] => draw_loop f ts j cs | _ => Done No end
        end
      else if str_eqb t (lit "p") then
        q <- pairs f ts (i + 1) [] ;;
        match q with
        | No => Done No
        | Yes (ps, j) =>
          if 3 <=? List.length ps then draw_loop f ts j (cs ++ [ExtendSpline ps])
          else match ps with [] => draw_loop f ts j cs | _ => Done No end
        end
      else if str_eqb t (lit "c") then draw_loop f ts (i + 1) (cs ++ [ClosePath])
      else draw_loop f ts (i + 1) cs
    else Done (Yes cs)
  end.
Definition parse_draw_commands (text : str) : run (outcome (list draw_command)) :=
  let ts := tokenize_drawing_commands text in draw_loop (S (S (List.length ts))) ts 0 [].

(* spline.rs:16-70; 0.5 and 3.0, 6.0 are f32 *)
Definition curve3 := (point * point * point)%type.
Definition bend (extended : bool) (base d : float) (plus : bool) : float :=
  let part := if extended then f_div f32 (mul32 (Fin (1 # 2)) d) (fl 3) else f_div f32 d (fl 6) in
  if plus then add32 base part else sub32 base part.
Definition control (extended : bool) (base a b : point) (plus : bool) : point :=
  (bend extended (fst base) (sub32 (fst b) (fst a)) plus, bend extended (snd base) (sub32 (snd b) (snd a)) plus).
Fixpoint curves (extended : bool) (prev : option point) (ps : list point) : list curve3 :=
  match ps with
  | p1 :: (p2 :: r) as rest =>
    let p0 := match prev with Some p => p | None => p1 end in
    let p3 := match r with p :: _ => p | [] => p2 end in
    (control extended p1 p0 p2 true, control extended p2 p1 p3 false, p2) :: curves extended (Some p1) rest
  | _ => []
  end.
Definition spline_to_bezier (ps : list point) (extended : bool) : list curve3 := if List.length ps <? 3 then [] else curves extended None ps.

(* mod.rs:44-109 *)
Inductive path_call := PMove (p : point) | PLine (p : point) | PCubic (a b c : point) | PClose.
Definition calls_of (c : draw_command) : list path_call :=
  match c with
  | MoveTo p | MoveToNoDraw p => [PMove p]
  | LineTo p => [PLine p]
  | BezierTo a b c => [PCubic a b c]
  | Spline ps => if 3 <=? List.length ps then map (fun k => let '(a, b, c) := k in PCubic a b c) (spline_to_bezier ps false) else []
  | ExtendSpline ps => if 3 <=? List.length ps then map (fun k => let '(a, b, c) := k in PCubic a b c) (spline_to_bezier ps true) else []
  | ClosePath => [PClose]
  end.
Definition process_drawing_commands (text : str) : run (option (list path_call)) :=
  r <- parse_draw_commands text ;;
  match r with
  | No => Done None
  | Yes [] => Done None
  | Yes cs => Done (Some (flat_map calls_of cs))
  end.
