(** CmWitness.v -- concrete controllers and histories for the examples and refutations. *)
From Verif Require Import Base Events HwModel RmModel RmSys RmSpec RmWitness ChainModel CmModel.
Open Scope string_scope.
Open Scope list_scope.

Definition ctl (n : name) (chainable : bool) (cmd st refs exps fallback : list name) : ctrl :=
  {| c_name := n; c_chainable := chainable; c_cmd := IIndividual cmd; c_state := IIndividual st;
     c_fallback := fallback; c_refs := refs; c_exps := exps; c_lc := Unconfigured; c_chained := false;
     c_cloans := []; c_sloans := []; c_claimed := []; c_group := [] |}.

(** a plain position controller, an admittance-like chain of three *)
Definition pos := ctl "pos" false ["a/position"] ["a/position"] [] [] [].
Definition pid := ctl "pid" true ["a/position"] ["a/position"] ["pid/ref"] ["pid/est"] [].
Definition adm := ctl "adm" true ["pid/ref"] ["pid/est"] ["adm/ref"] [] [].
Definition plan := ctl "plan" false ["adm/ref"] [] [] [] [].

Definition up_hw : list cop := [CSetHw "gripper" Active; CSetHw "camera" Active; CSetHw "arm" Active].
Definition load_conf (cs : list ctrl) : list cop :=
  map (fun c => CLoad c true) cs ++ map (fun c => CConfigure (c_name c) []) cs.
Definition switch (a d : list name) (strict : bool) : list cop := [CRequest a d strict true; CPerform; CEvaluate].

Definition with_ctrl (e : env) (f : trace -> name -> ccb -> cbret) : env :=
  {| e_hw := e_hw e; e_hw_error := e_hw_error e; e_read := e_read e; e_write := e_write e;
     e_locked := e_locked e; e_due := e_due e; e_prepare := e_prepare e; e_perform := e_perform e;
     e_ctrl := f; e_ctrl_error := e_ctrl_error e; e_update := e_update e;
     e_update_due := e_update_due e; e_set_chained := e_set_chained e |}.
Definition with_update (e : env) (f : trace -> name -> rres) : env :=
  {| e_hw := e_hw e; e_hw_error := e_hw_error e; e_read := e_read e; e_write := e_write e;
     e_locked := e_locked e; e_due := e_due e; e_prepare := e_prepare e; e_perform := e_perform e;
     e_ctrl := e_ctrl e; e_ctrl_error := e_ctrl_error e; e_update := f;
     e_update_due := e_update_due e; e_set_chained := e_set_chained e |}.
Definition with_perform (e : env) (f : trace -> name -> list name -> list name -> rres) : env :=
  {| e_hw := e_hw e; e_hw_error := e_hw_error e; e_read := e_read e; e_write := e_write e;
     e_locked := e_locked e; e_due := e_due e; e_prepare := e_prepare e; e_perform := f;
     e_ctrl := e_ctrl e; e_ctrl_error := e_ctrl_error e; e_update := e_update e;
     e_update_due := e_update_due e; e_set_chained := e_set_chained e |}.

Definition state_of (x : res cm) (n : name) : option lc :=
  match x with Val m => match find_ctrl m n with Some c => Some (c_lc c) | None => None end | Crash => None end.
Definition names_of (x : res cm) : list name :=
  match x with Val m => map c_name (cm_ctrls m) | Crash => [] end.

(** the diamond on which the ordering fails: P -> C -> F -> X and P -> X *)
Definition dX := ctl "X" true ["a/position"] [] ["X/r1"; "X/r2"] [] [].
Definition dF := ctl "F" true ["X/r1"] [] ["F/r"] [] [].
Definition dC := ctl "C" true ["F/r"] [] ["C/r"] [] [].
Definition dP := ctl "P" false ["C/r"; "X/r2"] [] [] [] [].
Definition diamond_ops : list cop :=
  map (fun c => CLoad c true) [dX; dF; dC; dP] ++
  map (fun n => CConfigure n ["F"; "P"; "C"; "X"]) ["X"; "F"; "C"; "P"].
