(** BringupModel.v -- how a controller manager gets its hardware: construction with or without a robot description, and the
    descriptions that arrive on the topic afterwards.
    Models /repo/controller_manager/src/controller_manager.cpp (CM): the constructor taking a urdf 538-561,
    robot_description_callback 774-806, init_resource_manager 808-880; the description handed to controllers 2479;
    /repo/hardware_interface/src/resource_manager.cpp (RM): the constructors 1442-1510 and load_and_initialize_components
    1529-1622 with both values of handle_exceptions (LoadModel.v is the case true), import_joint_limiters 1624-1629.
    Simplifications: a message is its text together with what the parser makes of that text ([None]: it throws); parsing is
    ParserModel/XmlModel.  The constructor that is given a resource manager (562-610), activity publishers, diagnostics and
    timers are left out. *)
From Verif Require Import LimitsModel EnforceModel Base Events HwModel RmModel InitHwModel LoadModel.
Open Scope string_scope. Open Scope nat_scope. Open Scope list_scope.

(** Loading, with exceptions: RM 178-301, 684-781, 1187-1262, 1529-1622.  [LThrew]: an exception leaves
    load_and_initialize_components; this happens only when handle_exceptions is false (the `handle_exception_ ? void() :
    throw' of 233, 240, 247, 291, 298, 708, 715, 773, 780).  Not creating an instance stands for pluginlib's exception. *)
Inductive lres := LOk | LFail | LThrew.
Definition fails (handle : bool) : lres := if handle then LFail else LThrew.
Definition states_throw (le : lenv) (h : hwc) : bool := match le_states le (h_name h) with None => true | Some _ => false end.
Definition cmds_throw (le : lenv) (r : rm) (h : hwc) : bool :=
  match le_cmds le (h_name h) with None => true | Some ks => negb (snd (add_cmd_itfs ks r)) end.
Definition load_component_x (handle : bool) (e : env) (le : lenv) (ur : nat) (k : hkind) (d : hwdesc) (s : store) : store * lres :=
  if negb (le_create le k (d_plugin d)) then (s, fails handle)
  else
    let s1 := enter_maps ur d s in
    let '(h1, t1, threw) := hw_init e (fresh_hw ur k d) (rm_trace (s_rm s1)) in
    let r1 := with_trace (s_rm s1) t1 in
    if threw then (push (with_rm s1 r1) k h1, fails handle)
    else if negb (lc_eqb (h_lc h1) Unconfigured) then (push (with_rm s1 r1) k h1, LFail)
    else
      let '(r2, h2) := import_states le r1 h1 in
      if states_throw le h1 && negb handle then (push (with_rm s1 r2) k h2, LThrew)
      else
        let '(r3, h3) := match k with Sensor => (r2, h2) | _ => import_cmds le r2 h2 end in
        let throws := match k with Sensor => false | _ => cmds_throw le r2 h2 end in
        (push (with_rm s1 r3) k h3, if throws && negb handle then LThrew else LOk).
Fixpoint load_all_x (handle : bool) (e : env) (le : lenv) (ur : nat) (ds : list hwdesc) (s : store) : store * lres :=
  match ds with
  | [] => (s, LOk)
  | d :: ds' =>
      match aget (s_info s) (d_name d) with
      | Some _ => (s, LFail)
      | None =>
          match kind_of (d_type d) with
          | None => load_all_x handle e le ur ds' s
          | Some k =>
              let '(s', o) := load_component_x handle e le ur k d s in
              match o with LOk => load_all_x handle e le ur ds' s' | _ => (s', o) end
          end
      end
  end.
(** load_and_initialize_components; the answer is what are_components_initialized() says afterwards.  The flag is set before
    the loop (1552) and taken back only on the paths that reach the end: an exception leaves it set. *)
Definition load_x (handle : bool) (e : env) (le : lenv) (ur : nat) (ds : list hwdesc) (s : store) : store * bool :=
  let '(s1, o) := load_all_x handle e le ur ds s in
  match o with
  | LOk => if validate_storage (s_rm s1) ds then (s1, true) else (clear s1, false)
  | LFail => (clear s1, false)
  | LThrew => (s1, true)
  end.

(** A robot description: the text of the message and what parse_control_resources_from_urdf makes of it: the components and
    the limits of their joints. *)
Record desc := { x_text : name; x_parsed : option (list hwdesc * list hwinfo) }.
(** ResourceManagerParams: allow_controller_activation_with_inactive_hardware and
    return_failed_hardware_names_on_return_deactivate_write_cycle_ *)
Record settings := { allow_inactive : bool; report_deactivated : bool }.
(** what constructParams(clock, logger) leaves in them, RM 2659-2672, resource_manager_params.hpp *)
Definition default_settings : settings := {| allow_inactive := false; report_deactivated := true |}.

(** The parameters of the controller manager this code reads, what the plugins do, the orders in which the unordered maps
    are iterated (see InitHwModel), and the period of the limiters. *)
Record setup := {
  u_settings : settings; u_limits : bool; u_handle : bool; u_rate : nat; u_initial : iparams;
  u_env : env; u_le : lenv; u_order : rm -> list name; u_gorder : rm -> list name; u_period : F
}.

(** A resource manager: its storage, its joint limiters, components_are_loaded_and_initialized_, its settings *)
Record rman := { r_store : store; r_lims : world; r_loaded : bool; r_set : settings }.
(** A controller manager: robot_description_, resource_manager_, the runs of set_initial_hardware_components_state with
    their results, newest first, and how often init_services() ran *)
Record manager := { m_text : name; m_rm : rman; m_boots : list (iout unit); m_services : nat }.

(** A storage just constructed; the history of callbacks goes on *)
Definition new_store (t : trace) : store :=
  {| s_act := []; s_sen := []; s_sys := []; s_info := [];
     s_rm := {| rm_hw := []; rm_skeys := []; rm_ckeys := []; rm_claimed := []; rm_avs := []; rm_avc := []; rm_refs := [];
                rm_exps := []; rm_groups := []; rm_used := []; rm_trace := t |} |}.
(** ResourceManager::ResourceManager(params, false), RM 1477-1510 *)
Definition new_rman (u : setup) (st : settings) (t : trace) : rman :=
  {| r_store := new_store t; r_lims := empty_world (u_period u); r_loaded := false; r_set := st |}.

(** init_resource_manager once the resource manager exists, CM 826-880 *)
Definition init_rm (u : setup) (x : desc) (r : rman) : rman :=
  if String.eqb (x_text x) "" then r
  else match x_parsed x with
       | None => r
       | Some (ds, infos) =>
           let w := if u_limits u then import_limiters infos (r_lims r) else r_lims r in
           let '(s, ok) := load_x (u_handle u) (u_env u) (u_le u) (u_rate u) ds (r_store r) in
           {| r_store := s; r_lims := w; r_loaded := ok; r_set := r_set r |}
       end.
(** CM 798-805, 556-560: initial states, then the services, unless an exception left the former *)
Definition boot (u : setup) (m : manager) : manager :=
  let r := rm_of (r_store (m_rm m)) in
  let o := initial_states (u_env u) (u_initial u) (u_order u r) (u_gorder u r) r in
  {| m_text := m_text m; m_rm := m_rm m; m_boots := o :: m_boots m;
     m_services := match o with Done _ _ => S (m_services m) | Threw _ => m_services m end |}.
(** ControllerManager(executor, urdf, ...), CM 538-561; the resource manager is created with the user's settings
    (813-824) *)
Definition construct (u : setup) (x : desc) : manager :=
  let m := {| m_text := x_text x; m_rm := init_rm u x (new_rman u (u_settings u) []); m_boots := []; m_services := 0 |} in
  if r_loaded (m_rm m) then boot u m else m.
(** robot_description_callback, CM 774-806.  Had the exception of the initial states left an earlier call, the process would
    have ended: nothing is delivered any more. *)
Definition died (m : manager) : bool := match m_boots m with Threw _ :: _ => true | _ => false end.
Definition receive (u : setup) (m : manager) (x : desc) : manager :=
  if died m then m
  else
    let m1 := {| m_text := x_text x; m_rm := m_rm m; m_boots := m_boots m; m_services := m_services m |} in
    if r_loaded (m_rm m1) then m1
    else
      let r := init_rm u x (m_rm m1) in
      if r_loaded r
      then boot u {| m_text := m_text m1; m_rm := r; m_boots := m_boots m1; m_services := m_services m1 |}
      else {| m_text := m_text m1; m_rm := new_rman u default_settings (rm_trace (s_rm (r_store r)));
              m_boots := m_boots m1; m_services := m_services m1 |}.
Definition receive_all (u : setup) (m : manager) (xs : list desc) : manager := fold_left (receive u) xs m.
(** the description a controller loaded now is initialized with, CM 2479 *)
Definition given_to_controllers (m : manager) : name := m_text m.
