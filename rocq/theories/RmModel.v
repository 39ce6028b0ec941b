(** RmModel.v -- the resource manager: component life cycles, interface availability, claims,
    hardware groups, read/write cycles, command-mode switches.
    Models /repo/hardware_interface/src/resource_manager.cpp (cited RM below).

    Simplifications (all definitions): handle_exceptions_ is true (the default), so exceptions of
    life-cycle callbacks are caught and reported as failure; locks are not modelled except the
    try_lock outcomes (oracle [e_locked]); statistics, logging, joint limiters are elsewhere or
    not modelled; the maps hardware_info_map_[h].state_interfaces / command_interfaces are stored
    in the component record. *)
From Verif Require Import Base Events HwModel.

Record rm := {
  rm_hw : list hwc;            (* actuators, then sensors, then systems: the order of the loops *)
  rm_skeys : list name;        (* keys of state_interface_map_ *)
  rm_ckeys : list name;        (* keys of command_interface_map_ *)
  rm_claimed : alist bool;     (* claimed_command_interface_map_ *)
  rm_avs : list name;          (* available_state_interfaces_ *)
  rm_avc : list name;          (* available_command_interfaces_ *)
  rm_refs : alist (list name); (* controllers_reference_interfaces_map_ *)
  rm_exps : alist (list name); (* controllers_exported_state_interfaces_map_ *)
  rm_groups : alist rtype;     (* hw_group_state_ *)
  rm_used : alist (list name); (* hardware_used_by_controllers_ *)
  rm_trace : trace
}.

Definition with_hw (r : rm) (x : list hwc) : rm :=
  {| rm_hw := x; rm_skeys := rm_skeys r; rm_ckeys := rm_ckeys r; rm_claimed := rm_claimed r;
     rm_avs := rm_avs r; rm_avc := rm_avc r; rm_refs := rm_refs r; rm_exps := rm_exps r;
     rm_groups := rm_groups r; rm_used := rm_used r; rm_trace := rm_trace r |}.
Definition with_trace (r : rm) (x : trace) : rm :=
  {| rm_hw := rm_hw r; rm_skeys := rm_skeys r; rm_ckeys := rm_ckeys r; rm_claimed := rm_claimed r;
     rm_avs := rm_avs r; rm_avc := rm_avc r; rm_refs := rm_refs r; rm_exps := rm_exps r;
     rm_groups := rm_groups r; rm_used := rm_used r; rm_trace := x |}.
Definition with_av (r : rm) (s c : list name) : rm :=
  {| rm_hw := rm_hw r; rm_skeys := rm_skeys r; rm_ckeys := rm_ckeys r; rm_claimed := rm_claimed r;
     rm_avs := s; rm_avc := c; rm_refs := rm_refs r; rm_exps := rm_exps r;
     rm_groups := rm_groups r; rm_used := rm_used r; rm_trace := rm_trace r |}.
Definition with_groups (r : rm) (x : alist rtype) : rm :=
  {| rm_hw := rm_hw r; rm_skeys := rm_skeys r; rm_ckeys := rm_ckeys r; rm_claimed := rm_claimed r;
     rm_avs := rm_avs r; rm_avc := rm_avc r; rm_refs := rm_refs r; rm_exps := rm_exps r;
     rm_groups := x; rm_used := rm_used r; rm_trace := rm_trace r |}.
Definition with_used (r : rm) (x : alist (list name)) : rm :=
  {| rm_hw := rm_hw r; rm_skeys := rm_skeys r; rm_ckeys := rm_ckeys r; rm_claimed := rm_claimed r;
     rm_avs := rm_avs r; rm_avc := rm_avc r; rm_refs := rm_refs r; rm_exps := rm_exps r;
     rm_groups := rm_groups r; rm_used := x; rm_trace := rm_trace r |}.
Definition with_claimed (r : rm) (x : alist bool) : rm :=
  {| rm_hw := rm_hw r; rm_skeys := rm_skeys r; rm_ckeys := rm_ckeys r; rm_claimed := x;
     rm_avs := rm_avs r; rm_avc := rm_avc r; rm_refs := rm_refs r; rm_exps := rm_exps r;
     rm_groups := rm_groups r; rm_used := rm_used r; rm_trace := rm_trace r |}.
Definition with_cmap (r : rm) (ck : list name) (cl : alist bool) : rm :=
  {| rm_hw := rm_hw r; rm_skeys := rm_skeys r; rm_ckeys := ck; rm_claimed := cl;
     rm_avs := rm_avs r; rm_avc := rm_avc r; rm_refs := rm_refs r; rm_exps := rm_exps r;
     rm_groups := rm_groups r; rm_used := rm_used r; rm_trace := rm_trace r |}.
Definition with_skeys (r : rm) (sk : list name) : rm :=
  {| rm_hw := rm_hw r; rm_skeys := sk; rm_ckeys := rm_ckeys r; rm_claimed := rm_claimed r;
     rm_avs := rm_avs r; rm_avc := rm_avc r; rm_refs := rm_refs r; rm_exps := rm_exps r;
     rm_groups := rm_groups r; rm_used := rm_used r; rm_trace := rm_trace r |}.
Definition with_refs (r : rm) (x : alist (list name)) : rm :=
  {| rm_hw := rm_hw r; rm_skeys := rm_skeys r; rm_ckeys := rm_ckeys r; rm_claimed := rm_claimed r;
     rm_avs := rm_avs r; rm_avc := rm_avc r; rm_refs := x; rm_exps := rm_exps r;
     rm_groups := rm_groups r; rm_used := rm_used r; rm_trace := rm_trace r |}.
Definition with_exps (r : rm) (x : alist (list name)) : rm :=
  {| rm_hw := rm_hw r; rm_skeys := rm_skeys r; rm_ckeys := rm_ckeys r; rm_claimed := rm_claimed r;
     rm_avs := rm_avs r; rm_avc := rm_avc r; rm_refs := rm_refs r; rm_exps := x;
     rm_groups := rm_groups r; rm_used := rm_used r; rm_trace := rm_trace r |}.

(** std::find_if by name over the component containers (RM 2318-2340). *)
Definition find_hw (r : rm) (n : name) : option hwc :=
  find (fun h => String.eqb (h_name h) n) (rm_hw r).

(** Writing a component back (the C++ code mutates it in place). *)
Definition put_hw_list (l : list hwc) (h : hwc) : list hwc :=
  map (fun x => if String.eqb (h_name x) (h_name h) then h else x) l.
Definition put_hw (r : rm) (h : hwc) : rm := with_hw r (put_hw_list (rm_hw r) h).

(** Run a transition of one component and write it back; the result is RM's
    trigger_and_print_hardware_state_transition (RM 212-...): new state = target, false when an
    exception was caught. *)
Definition run_transition (e : env) (f : env -> hwc -> trace -> hres) (target : lc)
    (r : rm) (h : hwc) : rm * bool :=
  let '(h', t', threw) := f e h (rm_trace r) in
  (with_trace (put_hw r h') t', negb threw && lc_eqb (h_lc h') target).

Definition set_group (r : rm) (g : name) (v : rtype) : rm :=
  if String.eqb g "" then r else with_groups r (aset (rm_groups r) g v).

(** configure_hardware, RM 303-392 *)
Definition configure_hardware (e : env) (r : rm) (h : hwc) : rm * bool :=
  let '(r1, ok) := run_transition e hw_configure Inactive r h in
  let r2 := if ok then with_av r1 (add_items (rm_avs r1) (h_state h))
                                  (add_items (rm_avc r1) (h_cmd h)) else r1 in
  (set_group r2 (h_group h) ROk, ok).

(** remove_all_hardware_interfaces_from_available_list, RM 394-440 *)
Definition remove_hw_itfs (r : rm) (h : hwc) : rm :=
  with_av r (remove_items (rm_avs r) (h_state h)) (remove_items (rm_avc r) (h_cmd h)).

(** cleanup_hardware, RM 442-477 *)
Definition cleanup_hardware (e : env) (r : rm) (h : hwc) : rm * bool :=
  let '(r1, ok) := run_transition e hw_cleanup Unconfigured r h in
  let r2 := if ok then remove_hw_itfs r1 h else r1 in
  (set_group r2 (h_group h) ROk, ok).

(** shutdown_hardware, RM 479-520 *)
Definition shutdown_hardware (e : env) (r : rm) (h : hwc) : rm * bool :=
  let '(r1, ok) := run_transition e hw_shutdown Finalized r h in
  (if ok then set_group (remove_hw_itfs r1 h) (h_group h) ROk else r1, ok).

(** activate_hardware, RM 522-547 *)
Definition activate_hardware (e : env) (r : rm) (h : hwc) : rm * bool :=
  run_transition e hw_activate Active r h.

(** deactivate_hardware, RM 549-582 *)
Definition deactivate_hardware (e : env) (r : rm) (h : hwc) : rm * bool :=
  run_transition e hw_deactivate Inactive r h.

(** Sequencing used by the nested switches: the second transition acts on the component as the
    first one left it. *)
Definition then_hw (x : rm * bool) (n : name) (f : rm -> hwc -> rm * bool) : rm * bool :=
  let '(r, ok) := x in
  if ok then match find_hw r n with Some h => f r h | None => (r, false) end else (r, false).

(** ResourceStorage::set_component_state, RM 584-680.  (The state-switch callback is the
    controller manager's notification and has no effect on the modelled state.) *)
Definition set_state_of (e : env) (r : rm) (h : hwc) (target : lc) : rm * bool :=
  match target, h_lc h with
  | Unconfigured, Unconfigured => (r, true)
  | Unconfigured, Inactive => cleanup_hardware e r h
  | Unconfigured, Active => then_hw (deactivate_hardware e r h) (h_name h) (cleanup_hardware e)
  | Inactive, Unconfigured => configure_hardware e r h
  | Inactive, Inactive => (r, true)
  | Inactive, Active => deactivate_hardware e r h
  | Active, Unconfigured => then_hw (configure_hardware e r h) (h_name h) (activate_hardware e)
  | Active, Inactive => activate_hardware e r h
  | Active, Active => (r, true)
  | Finalized, Unconfigured => shutdown_hardware e r h
  | Finalized, Inactive => shutdown_hardware e r h
  | Finalized, Active => then_hw (deactivate_hardware e r h) (h_name h) (shutdown_hardware e)
  | Finalized, Finalized => (r, true)
  | _, _ => (r, false)
  end.

(** ResourceManager::set_component_state, RM 2277-2360; target id/label translation is the
    caller's choice of [target].  Unknown component: ERROR.  true = OK. *)
Definition set_component_state (e : env) (r : rm) (n : name) (target : lc) : rm * bool :=
  match find_hw r n with
  | None => (r, false)
  | Some h => set_state_of e r h target
  end.

(** shutdown_components, RM 1512-1526.  The iteration order over the unordered map is replaced
    by the storage order. *)
Definition shutdown_components (e : env) (r : rm) : rm * bool :=
  fold_left (fun '(r, ok) n =>
               let '(r', b) := set_component_state e r n Finalized in (r', ok && b))
            (map h_name (rm_hw r)) (r, true).

(** update_hardware_component_group_state, RM 1351-1367.  hw_group_state_.at: the group of every
    loaded component is present (inserted by load_hardware, RM 211); the model returns the value
    itself should the entry be missing (excluded by the invariant). *)
Definition update_group (r : rm) (g : name) (v : rtype) : rm * rtype :=
  if String.eqb g "" then (r, v)
  else
    let gs := if rtype_eqb v ROk then rm_groups r else aset (rm_groups r) g v in
    (with_groups r gs, match aget gs g with Some w => w | None => v end).

(** Status of a read/write cycle: HardwareReadWriteStatus. *)
Record rwstatus := { rw_result : rtype; rw_failed : list name }.
Definition rw_ok : rwstatus := {| rw_result := ROk; rw_failed := [] |}.

(** component.error() from the manager. *)
Definition rm_error (e : env) (r : rm) (n : name) : rm :=
  match find_hw r n with
  | None => r
  | Some h => let '(h', t') := hw_error e h (rm_trace r) in with_trace (put_hw r h') t'
  end.

(** One component of ResourceManager::read, RM 2398-2463: call (if due), merge with the group
    state; an exception skips the group update and counts as ERROR. *)
Definition read_ret (e : env) (r : rm) (h : hwc) : rm * rtype :=
  if h_rated h && negb (e_due e (rm_trace r) (h_name h)) then update_group r (h_group h) ROk
  else
    let '(h', t', res) := hw_read e h (rm_trace r) in
    let r1 := with_trace (put_hw r h') t' in
    match res with
    | Throw => (r1, RError)
    | Ret v => update_group r1 (h_group h) v
    end.

Definition read_one (e : env) (acc : rm * rwstatus) (n : name) : rm * rwstatus :=
  let '(r, st) := acc in
  match find_hw r n with
  | None => acc
  | Some h =>
    if e_locked e (rm_trace r) n then acc
    else
      let '(r1, v) := read_ret e r h in
      match v with
      | ROk => (r1, st)
      | _ => (remove_hw_itfs (rm_error e r1 n) h,
              {| rw_result := RError; rw_failed := rw_failed st ++ [n] |})
      end
  end.

(** ResourceManager::read, RM 2385-2475 (the resources_lock_ try_lock succeeded). *)
Definition rm_read (e : env) (r : rm) : rm * rwstatus :=
  fold_left (read_one e) (map h_name (rm_hw r)) (r, rw_ok).

Definition write_ret (e : env) (r : rm) (h : hwc) : rm * rtype :=
  if h_rated h && negb (e_due e (rm_trace r) (h_name h)) then update_group r (h_group h) ROk
  else
    let '(h', t', res) := hw_write e h (rm_trace r) in
    let r1 := with_trace (put_hw r h') t' in
    match res with
    | Throw => (r1, RError)
    | Ret v => update_group r1 (h_group h) v
    end.

(** One component of ResourceManager::write, RM 2492-2570.
    return_failed_hardware_names_on_return_deactivate_write_cycle_ is true
    (resource_manager.hpp default); sensors are not in the write loop (RM 2576-2577). *)
Definition write_one (e : env) (acc : rm * rwstatus) (n : name) : rm * rwstatus :=
  let '(r, st) := acc in
  match find_hw r n with
  | None => acc
  | Some h =>
    if e_locked e (rm_trace r) n then acc
    else
      let '(r1, v) := write_ret e r h in
      match v with
      | ROk => (r1, st)
      | RError => (remove_hw_itfs (rm_error e r1 n) h,
                   {| rw_result := RError; rw_failed := rw_failed st ++ [n] |})
      | RDeactivate => (fst (set_component_state e r1 n Inactive),
                        {| rw_result := RDeactivate; rw_failed := rw_failed st ++ [n] |})
      end
  end.

Definition is_sensor (h : hwc) : bool := match h_kind h with Sensor => true | _ => false end.
Definition is_actuator (h : hwc) : bool := match h_kind h with Actuator => true | _ => false end.
Definition is_system (h : hwc) : bool := match h_kind h with System => true | _ => false end.

(** ResourceManager::write, RM 2478-2580: actuators and systems. *)
Definition rm_write (e : env) (r : rm) : rm * rwstatus :=
  fold_left (write_one e)
            (map h_name (filter (fun h => negb (is_sensor h)) (rm_hw r))) (r, rw_ok).

(** ------------------------------------------------------------ interfaces and claims *)

(** command_interface_is_available, RM 1940-1945; state_interface_is_available, RM 1671-1675 *)
Definition cmd_available (r : rm) (k : name) : bool := mem k (rm_avc r).
Definition state_available (r : rm) (k : name) : bool := mem k (rm_avs r).
(** command_interface_exists / state_interface_exists *)
Definition cmd_exists (r : rm) (k : name) : bool := mem k (rm_ckeys r).
Definition state_exists (r : rm) (k : name) : bool := mem k (rm_skeys r).

(** command_interface_is_claimed, RM 1889-1898; [None] = the .at throws. *)
Definition cmd_claimed (r : rm) (k : name) : option bool :=
  if cmd_available r k then aget (rm_claimed r) k else Some false.

(** claim_command_interface, RM 1901-1919; second component [false] = throws (not available,
    already claimed, or an .at fails).  The claimed flag is set before command_interface_map_.at
    can throw. *)
Definition claim_cmd (r : rm) (k : name) : rm * bool :=
  if cmd_available r k then
    match aget (rm_claimed r) k with
    | Some false => (with_claimed r (aset (rm_claimed r) k true), mem k (rm_ckeys r))
    | _ => (r, false)
    end
  else (r, false).

(** claim_state_interface, RM 1637-1647: no exclusivity; [false] = throws. *)
Definition claim_state (r : rm) (k : name) : bool := state_available r k && mem k (rm_skeys r).

(** release_command_interface, RM 1922-1926: operator[] assignment (creates a missing entry). *)
Definition release_cmd (r : rm) (k : name) : rm := with_claimed r (aset (rm_claimed r) k false).

(** add_command_interfaces(shared_ptr), RM 1044-1061: throws at the first duplicate key, the
    interfaces inserted before stay. [true] = completed. *)
Fixpoint add_cmd_itfs (ks : list name) (r : rm) : rm * bool :=
  match ks with
  | [] => (r, true)
  | k :: ks' =>
      if mem k (rm_ckeys r) then (r, false)
      else add_cmd_itfs ks' (with_cmap r (rm_ckeys r ++ [k])
             (match aget (rm_claimed r) k with
              | Some _ => rm_claimed r            (* emplace does not overwrite *)
              | None => aset (rm_claimed r) k false end))
  end.

(** import_controller_reference_interfaces, RM 1765-1772 *)
Definition import_refs (r : rm) (c : name) (ks : list name) : rm * bool :=
  let '(r1, ok) := add_cmd_itfs ks r in
  if ok then (with_refs r1 (aset (rm_refs r1) c ks), true) else (r1, false).

(** add_state_interfaces, RM 977-1000: duplicates are skipped (exception caught). *)
Fixpoint add_state_itfs (ks : list name) (r : rm) : rm * list name :=
  match ks with
  | [] => (r, [])
  | k :: ks' =>
      if mem k (rm_skeys r) then add_state_itfs ks' r
      else let '(r', added) := add_state_itfs ks' (with_skeys r (rm_skeys r ++ [k])) in
           (r', k :: added)
  end.

(** import_controller_exported_state_interfaces, RM 1694-1700 *)
Definition import_exps (r : rm) (c : name) (ks : list name) : rm :=
  let '(r1, added) := add_state_itfs ks r in with_exps r1 (aset (rm_exps r1) c added).

(** make_controller_reference_interfaces_available / _unavailable, RM 1781-1814;
    [None] = .at throws (controller unknown). *)
Definition make_refs_available (r : rm) (c : name) : option rm :=
  match aget (rm_refs r) c with
  | None => None
  | Some ks => Some (with_av r (rm_avs r) (add_items (rm_avc r) ks))
  end.
Definition make_refs_unavailable (r : rm) (c : name) : option rm :=
  match aget (rm_refs r) c with
  | None => None
  | Some ks => Some (with_av r (rm_avs r) (remove_items (rm_avc r) ks))
  end.

(** make_controller_exported_state_interfaces_available / _unavailable, RM 1711-1741 *)
Definition make_exps_available (r : rm) (c : name) : option rm :=
  match aget (rm_exps r) c with
  | None => None
  | Some ks => Some (with_av r (add_items (rm_avs r) ks) (rm_avc r))
  end.
Definition make_exps_unavailable (r : rm) (c : name) : option rm :=
  match aget (rm_exps r) c with
  | None => None
  | Some ks => Some (with_av r (remove_items (rm_avs r) ks) (rm_avc r))
  end.

(** remove_controller_reference_interfaces, RM 1817-1836 with remove_command_interfaces
    RM 1177-1185: maps only, the available list is not touched. *)
Definition remove_refs (r : rm) (c : name) : rm :=
  match aget (rm_refs r) c with
  | None => r
  | Some ks =>
      let r1 := with_refs r (adel (rm_refs r) c) in
      with_cmap r1 (remove_items (rm_ckeys r1) ks)
                (fold_left (fun m k => adel m k) ks (rm_claimed r1))
  end.

(** remove_controller_exported_state_interfaces, RM 1744-1762 *)
Definition remove_exps (r : rm) (c : name) : rm :=
  match aget (rm_exps r) c with
  | None => r
  | Some ks =>
      let r1 := with_exps r (adel (rm_exps r) c) in
      with_skeys r1 (remove_items (rm_skeys r1) ks)
  end.

(** cache_controller_to_hardware, RM 1839-1878: for every interface the first component (map
    order; storage order here) that owns it. *)
Definition cache_one (c : name) (r : rm) (k : name) : rm :=
  match find (fun h => mem k (h_cmd h) || mem k (h_state h)) (rm_hw r) with
  | None => r
  | Some h =>
      let cur := match aget (rm_used r) (h_name h) with Some l => l | None => [] end in
      with_used r (aset (rm_used r) (h_name h) (add_item cur c))
  end.
Definition cache_controller (r : rm) (c : name) (ks : list name) : rm :=
  fold_left (cache_one c) ks r.

(** get_cached_controllers_to_hardware, RM 1881-1886 *)
Definition cached_controllers (r : rm) (h : name) : list name :=
  match aget (rm_used r) h with Some l => l | None => [] end.

(** ------------------------------------------------------------ command-mode switch *)

(** find_common_hardware_interfaces, RM 96-124: iterates over the longer list, keeps members of
    the shorter one (equal lengths: the requested list is the "shorter"). *)
Definition common_itfs (hw req : list name) : list name :=
  if Nat.ltb (length hw) (length req)
  then filter (fun k => mem k hw) req
  else filter (fun k => mem k req) hw.

Inductive mode_op := MPrepare | MPerform.
Definition mode_call (e : env) (op : mode_op) (t : trace) (h : name) (s p : list name)
  : rres * trace :=
  match op with
  | MPrepare => let r := e_prepare e t h s p in (r, EvPrepare h s p r :: t)
  | MPerform => let r := e_perform e t h s p in (r, EvPerform h s p r :: t)
  end.

(** the call_prepare_mode_switch / call_perform_mode_switch lambdas, RM 2072-2142 / 2165-2236.
    [allow] = allow_controller_activation_with_inactive_hardware_. *)
Fixpoint mode_loop (e : env) (op : mode_op) (allow : bool) (start stop : list name)
    (hs : list hwc) (r : rm) (ret : bool) : rm * bool :=
  match hs with
  | [] => (r, ret)
  | h :: hs' =>
      let s := common_itfs (h_cmd h) start in
      let p := common_itfs (h_cmd h) stop in
      match s, p with
      | [], [] => mode_loop e op allow start stop hs' r ret
      | _, _ =>
        if negb (match s with [] => true | _ => false end) && lc_eqb (h_lc h) Inactive
           && negb allow
        then (r, false)                                     (* `return false` *)
        else
          match h_lc h with
          | Inactive | Active =>
              let '(res, t') := mode_call e op (rm_trace r) (h_name h) s p in
              mode_loop e op allow start stop hs' (with_trace r t')
                        (match res with Ret ROk => ret | _ => false end)
          | _ => mode_loop e op allow start stop hs' r false
          end
      end
  end.

Definition both_empty (a b : list name) : bool :=
  match a, b with [], [] => true | _, _ => false end.

(** prepare_command_mode_switch, RM 2016-2153 *)
Definition rm_prepare (e : env) (allow : bool) (r : rm) (start stop : list name) : rm * bool :=
  if both_empty start stop then (r, true)
  else if negb (forallb (cmd_exists r) start && forallb (cmd_exists r) stop) then (r, false)
  else if negb (forallb (cmd_available r) start && forallb (cmd_available r) stop) then (r, false)
  else
    let '(r1, a) := mode_loop e MPrepare allow start stop (filter is_actuator (rm_hw r)) r true in
    let '(r2, b) := mode_loop e MPrepare allow start stop (filter is_system (rm_hw r)) r1 true in
    (r2, a && b).

(** perform_command_mode_switch, RM 2155-2275: no existence/availability checks. *)
Definition rm_perform (e : env) (allow : bool) (r : rm) (start stop : list name) : rm * bool :=
  if both_empty start stop then (r, true)
  else
    let '(r1, a) := mode_loop e MPerform allow start stop (filter is_actuator (rm_hw r)) r true in
    let '(r2, b) := mode_loop e MPerform allow start stop (filter is_system (rm_hw r)) r1 true in
    (r2, a && b).

(** ------------------------------------------------------------ start *)

(** Loaded and initialised components (load_and_initialize_components, RM 1529-1618): all in
    UNCONFIGURED, nothing available, nothing claimed; group entries inserted (RM 211). *)
Definition rm_start (hs : list hwc) : rm :=
  {| rm_hw := map (fun h => set_lc h Unconfigured) hs;
     rm_skeys := flat_map h_state hs;
     rm_ckeys := flat_map h_cmd hs;
     rm_claimed := map (fun k => (k, false)) (flat_map h_cmd hs);
     rm_avs := []; rm_avc := []; rm_refs := []; rm_exps := [];
     rm_groups := map (fun h => (h_group h, ROk)) hs;
     rm_used := map (fun h => (h_name h, [])) hs;
     rm_trace := [] |}.
