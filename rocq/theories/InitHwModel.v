(** InitHwModel.v -- the controller manager brings the hardware components to their initial states.
    Models ControllerManager::set_initial_hardware_components_state, /repo/controller_manager/src/controller_manager.cpp
    882-1110 (logging, the parameter refresh and the notification timer omitted), on top of RmModel.
    The status map and the map of groups are unordered_maps: their iteration orders are the arguments [order]
    (over the components) and [gorder] (over the groups), about which nothing is assumed but that they enumerate. *)
From Verif Require Import Base Events HwModel RmModel.
Open Scope string_scope.
Open Scope list_scope.

(** hardware_components_initial_state.{unconfigured, inactive, shutdown_on_initial_state_failure} *)
Record iparams := { p_unconf : list name; p_inact : list name; p_shutdown : bool }.

(** the exception of 916 / 977 leaves the function *)
Inductive iout (A : Type) := Done (r : rm) (a : A) | Threw (r : rm).
Arguments Done {A}. Arguments Threw {A}.

(** set_components_to_state, 889-932; [todo] is components_to_activate *)
Fixpoint set_listed (e : env) (shut : bool) (target : lc) (ns : list name) (r : rm) (todo : list name) : iout (list name) :=
  match ns with
  | [] => Done r todo
  | n :: ns =>
    if String.eqb n "" then set_listed e shut target ns r todo
    else if mem n todo then
      let '(r1, ok) := set_component_state e r n target in
      if negb ok && shut then Threw r1
      else set_listed e shut target ns r1 (filter (fun m => negb (String.eqb m n)) todo)
    else set_listed e shut target ns r todo
  end.

(** set_component_state_with_error_handling over the members, stopping at the first failure: the configuration loop
    1009-1030 and the activation loop 1046-1067.  Returns those that succeeded and whether one failed. *)
Fixpoint try_all (e : env) (shut : bool) (target : lc) (ns : list name) (r : rm) (done : list name) : iout (list name * bool) :=
  match ns with
  | [] => Done r (done, false)
  | n :: ns =>
    let '(r1, ok) := set_component_state e r n target in
    if ok then try_all e shut target ns r1 (done ++ [n])
    else if shut then Threw r1 else Done r1 (done, true)
  end.
(** the rollback loop, 1072-1087 *)
Fixpoint roll_back (e : env) (ns : list name) (r : rm) : rm :=
  match ns with [] => r | n :: ns => roll_back e ns (fst (set_component_state e r n Inactive)) end.
(** one group, 1000-1094 *)
Definition one_group (e : env) (shut : bool) (ms : list name) (r : rm) : iout unit :=
  match try_all e shut Inactive ms r [] with
  | Threw r1 => Threw r1
  | Done r1 (_, true) => Done r1 tt
  | Done r1 (configured, false) =>
    match try_all e shut Active configured r1 [] with
    | Threw r2 => Threw r2
    | Done r2 (activated, true) => Done (roll_back e activated r2) tt
    | Done r2 (_, false) => Done r2 tt
    end
  end.
Definition group_of (r : rm) (n : name) : name := match find_hw r n with Some h => h_group h | None => "" end.
(** components_by_group, 950-963: the components of the group, in the iteration order of the status map *)
Definition members (r : rm) (todo : list name) (g : name) : list name := filter (fun n => String.eqb (group_of r n) g) todo.
Fixpoint groups_loop (e : env) (shut : bool) (todo : list name) (gs : list name) (r0 r : rm) : iout unit :=
  match gs with
  | [] => Done r tt
  | g :: gs => match one_group e shut (members r0 todo g) r with
               | Threw r1 => Threw r1
               | Done r1 _ => groups_loop e shut todo gs r0 r1
               end
  end.
(** ungrouped components, 1096-1103 *)
Fixpoint ungrouped_loop (e : env) (shut : bool) (ns : list name) (r : rm) : iout unit :=
  match ns with
  | [] => Done r tt
  | n :: ns =>
    let '(r1, ok) := set_component_state e r n Active in
    if negb ok && shut then Threw r1 else ungrouped_loop e shut ns r1
  end.

(** set_initial_hardware_components_state *)
Definition initial_states (e : env) (p : iparams) (order gorder : list name) (r : rm) : iout unit :=
  match set_listed e (p_shutdown p) Unconfigured (p_unconf p) r order with
  | Threw r1 => Threw r1
  | Done r1 todo1 =>
    match set_listed e (p_shutdown p) Inactive (p_inact p) r1 todo1 with
    | Threw r2 => Threw r2
    | Done r2 todo =>
      match groups_loop e (p_shutdown p) todo gorder r2 r2 with
      | Threw r3 => Threw r3
      | Done r3 _ => ungrouped_loop e (p_shutdown p) (members r2 todo "") r3
      end
    end
  end.
