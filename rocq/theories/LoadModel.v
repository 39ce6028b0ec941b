(** LoadModel.v -- loading the hardware of a robot description.
    Models /repo/hardware_interface/src/resource_manager.cpp (RM): load_hardware 178-248,
    initialize_hardware 250-301, import_state_interfaces 684-716, insert_command_interface and
    import_command_interfaces 718-781, add_state_interfaces 977-1000, add_command_interfaces
    1023-1058, load_and_initialize_actuator/sensor/system 1187-1262, ResourceStorage::clear
    1331-1345, load_and_initialize_components 1529-1622, validate_storage 2673-2751.

    Simplifications: handle_exceptions is true (the default).  The parsed description (the list of
    [hwdesc]) is the input; parsing it is ParserModel.  What plugins do is given by oracles.
    Locks, statistics, logging, buffers' reserve() and introspection registration are left out. *)
From Coq Require Import Arith.
From Verif Require Import Base Events HwModel RmModel.
Open Scope string_scope. Open Scope nat_scope. Open Scope list_scope.

(** A joint, sensor or GPIO of the description (ComponentInfo, hardware_info.hpp): its name and the
    names of its state and command interfaces. *)
Record part := { p_name : name; p_states : list name; p_cmds : list name }.

(** HardwareInfo (hardware_info.hpp), the fields this code reads. *)
Record hwdesc := {
  d_name : name; d_type : name; d_plugin : name; d_group : name; d_rate : nat;
  d_joints : list part; d_sensors : list part; d_gpios : list part
}.

(** What the plugins do: is an instance created (RM 187-190; false also stands for the caught
    pluginlib exceptions); the interface names exported by the component of a given name
    ([None]: the export throws, which import_* catches). *)
Record lenv := {
  le_create : hkind -> name -> bool;
  le_states : name -> option (list name);
  le_cmds : name -> option (list name)
}.

(** The storage while loading: the three containers, hardware_info_map_ (name -> rw_rate; the
    interface lists are kept in the component record) and everything else in the [rm] record
    (whose rm_hw is not used here, see [rm_of]). *)
Record store := {
  s_act : list hwc; s_sen : list hwc; s_sys : list hwc;
  s_info : alist nat;
  s_rm : rm
}.
Definition comps (s : store) : list hwc := s_act s ++ s_sen s ++ s_sys s.
(** The resource manager the rest of the model works on. *)
Definition rm_of (s : store) : rm := with_hw (s_rm s) (comps s).

(** The type strings, RM 1548-1550; anything else is skipped by the three ifs 1577-1604. *)
Definition kind_of (t : name) : option hkind :=
  if String.eqb t "actuator" then Some Actuator
  else if String.eqb t "sensor" then Some Sensor
  else if String.eqb t "system" then Some System
  else None.

(** The rate loop, RM 1541-1546 *)
Definition rate_of (ur : nat) (d : hwdesc) : nat :=
  if (d_rate d =? 0) || (ur <? d_rate d) then ur else d_rate d.

(** container.emplace_back, per type (RM 1207, 1231, 1259) *)
Definition push (s : store) (k : hkind) (h : hwc) : store :=
  match k with
  | Actuator => {| s_act := s_act s ++ [h]; s_sen := s_sen s; s_sys := s_sys s;
                   s_info := s_info s; s_rm := s_rm s |}
  | Sensor => {| s_act := s_act s; s_sen := s_sen s ++ [h]; s_sys := s_sys s;
                 s_info := s_info s; s_rm := s_rm s |}
  | System => {| s_act := s_act s; s_sen := s_sen s; s_sys := s_sys s ++ [h];
                 s_info := s_info s; s_rm := s_rm s |}
  end.
Definition with_rm (s : store) (r : rm) : store :=
  {| s_act := s_act s; s_sen := s_sen s; s_sys := s_sys s; s_info := s_info s; s_rm := r |}.

(** map::insert: does not overwrite. *)
Definition ainsert {A} (m : alist A) (k : name) (v : A) : alist A :=
  match aget m k with Some _ => m | None => m ++ [(k, v)] end.

(** The component as created by load_hardware (RM 187-221): state UNKNOWN, no interfaces yet.
    [h_rated] is the test of the read and write loops (RM 2429-2432). *)
Definition fresh_hw (ur : nat) (k : hkind) (d : hwdesc) : hwc :=
  {| h_name := d_name d; h_kind := k; h_group := d_group d;
     h_rated := negb ((rate_of ur d =? 0) || (rate_of ur d =? ur));
     h_state := []; h_cmd := []; h_lc := Unknown |}.

(** load_hardware, RM 196-221: the entries it adds to the maps. *)
Definition enter_maps (ur : nat) (d : hwdesc) (s : store) : store :=
  let r := s_rm s in
  {| s_act := s_act s; s_sen := s_sen s; s_sys := s_sys s;
     s_info := ainsert (s_info s) (d_name d) (rate_of ur d);
     s_rm := with_used (with_groups r (ainsert (rm_groups r) (d_group d) ROk))
                       (ainsert (rm_used r) (d_name d) []) |}.

Definition set_states (h : hwc) (ks : list name) : hwc :=
  {| h_name := h_name h; h_kind := h_kind h; h_group := h_group h; h_rated := h_rated h;
     h_state := ks; h_cmd := h_cmd h; h_lc := h_lc h |}.
Definition set_cmds (h : hwc) (ks : list name) : hwc :=
  {| h_name := h_name h; h_kind := h_kind h; h_group := h_group h; h_rated := h_rated h;
     h_state := h_state h; h_cmd := ks; h_lc := h_lc h |}.

(** import_state_interfaces, RM 684-716 *)
Definition import_states (le : lenv) (r : rm) (h : hwc) : rm * hwc :=
  match le_states le (h_name h) with
  | None => (r, h)
  | Some ks => let '(r1, added) := add_state_itfs ks r in (r1, set_states h added)
  end.

(** import_command_interfaces, RM 752-781: an interface that already exists makes
    add_command_interfaces throw; what was inserted before stays, the component's list stays
    empty, the exception is caught. *)
Definition import_cmds (le : lenv) (r : rm) (h : hwc) : rm * hwc :=
  match le_cmds le (h_name h) with
  | None => (r, h)
  | Some ks => let '(r1, ok) := add_cmd_itfs ks r in (r1, if ok then set_cmds h ks else h)
  end.

(** load_and_initialize_actuator / _sensor / _system, RM 1187-1262.  Sensors do not import command
    interfaces (1222). *)
Definition load_component (e : env) (le : lenv) (ur : nat) (k : hkind) (d : hwdesc) (s : store)
  : store * bool :=
  if negb (le_create le k (d_plugin d)) then (s, false)
  else
    let s1 := enter_maps ur d s in
    let '(h1, t1, threw) := hw_init e (fresh_hw ur k d) (rm_trace (s_rm s1)) in
    let r1 := with_trace (s_rm s1) t1 in
    if threw || negb (lc_eqb (h_lc h1) Unconfigured)
    then (push (with_rm s1 r1) k h1, false)
    else
      let '(r2, h2) := import_states le r1 h1 in
      let '(r3, h3) := match k with Sensor => (r2, h2) | _ => import_cmds le r2 h2 end in
      (push (with_rm s1 r3) k h3, true).

(** The loop of load_and_initialize_components, RM 1555-1605 *)
Fixpoint load_all (e : env) (le : lenv) (ur : nat) (ds : list hwdesc) (s : store) : store * bool :=
  match ds with
  | [] => (s, true)
  | d :: ds' =>
      match aget (s_info s) (d_name d) with
      | Some _ => (s, false)                                        (* 1558-1569 *)
      | None =>
          match kind_of (d_type d) with
          | None => load_all e le ur ds' s
          | Some k =>
              let '(s', ok) := load_component e le ur k d s in
              if ok then load_all e le ur ds' s' else (s', false)
          end
      end
  end.

(** validate_storage, RM 2673-2751 *)
Definition part_states_ok (r : rm) (p : part) : bool :=
  forallb (fun i => mem (p_name p ++ "/" ++ i)%string (rm_skeys r)) (p_states p).
Definition part_cmds_ok (r : rm) (p : part) : bool :=
  forallb (fun i => mem (p_name p ++ "/" ++ i)%string (rm_ckeys r)) (p_cmds p).
Definition validate_storage (r : rm) (ds : list hwdesc) : bool :=
  forallb (fun d =>
    forallb (fun p => part_states_ok r p && part_cmds_ok r p) (d_joints d) &&
    forallb (part_states_ok r) (d_sensors d) &&
    forallb (fun p => part_states_ok r p && part_cmds_ok r p) (d_gpios d)) ds.

(** ResourceStorage::clear, RM 1331-1345: hw_group_state_, hardware_used_by_controllers_ and the
    controllers' interface maps are not cleared. *)
Definition clear (s : store) : store :=
  let r := s_rm s in
  {| s_act := []; s_sen := []; s_sys := []; s_info := [];
     s_rm := {| rm_hw := rm_hw r; rm_skeys := []; rm_ckeys := []; rm_claimed := [];
                rm_avs := []; rm_avc := []; rm_refs := rm_refs r; rm_exps := rm_exps r;
                rm_groups := rm_groups r; rm_used := rm_used r; rm_trace := rm_trace r |} |}.

(** load_and_initialize_components, RM 1529-1622 *)
Definition load (e : env) (le : lenv) (ur : nat) (ds : list hwdesc) (s : store) : store * bool :=
  let '(s1, ok) := load_all e le ur ds s in
  if ok && validate_storage (s_rm s1) ds then (s1, true) else (clear s1, false).
