(* A registry as a user sees it: who answers to a name, told by the calls made
   so far, the last one first. *)
From Verif Require Import Base PluginModel.

(* The handler of tag n: the first registered under that name since it was
   last free. *)
Fixpoint tag_owner (n : str) (past : list reg_call) : option tag_handler :=
  match past with
  | [] => None
  | RegisterTag h :: l =>
    match tag_owner n l with Some old => Some old | None => if str_eqb (th_name h) n then Some h else None end
  | RemoveTag m :: l => if str_eqb m n then None else tag_owner n l
  | Clear :: _ => None
  | _ :: l => tag_owner n l
  end.
Fixpoint section_owner (n : str) (past : list reg_call) : option section_processor :=
  match past with
  | [] => None
  | RegisterSection p :: l =>
    match section_owner n l with Some old => Some old | None => if str_eqb (sp_name p) n then Some p else None end
  | RemoveSection m :: l => if str_eqb m n then None else section_owner n l
  | Clear :: _ => None
  | _ :: l => section_owner n l
  end.
(* What a call must answer. *)
Definition right_answer (past : list reg_call) (c : reg_call) : reg_answer :=
  match c with
  | RegisterTag h => match tag_owner (th_name h) past with Some _ => Refused | None => Registered end
  | RegisterSection p => match section_owner (sp_name p) past with Some _ => Refused | None => Registered end
  | RemoveTag n => RemovedTag (tag_owner n past)
  | RemoveSection n => RemovedSection (section_owner n past)
  | Clear => Cleared
  end.
Fixpoint right_answers (past l : list reg_call) : list reg_answer :=
  match l with [] => [] | c :: l' => right_answer past c :: right_answers (c :: past) l' end.
