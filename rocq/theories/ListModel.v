(** ListModel.v -- the services that report the state of the system: list_controllers, list_hardware_components and
    list_hardware_interfaces (/repo/controller_manager/src/controller_manager.cpp, cited CM; RM is
    /repo/hardware_interface/src/resource_manager.cpp).  They only read.  Not modelled: the fields type, is_async,
    update_rate, rw_rate, plugin_name and data_type (constants of the loaded plugin). *)
From Verif Require Import Base Events HwModel RmModel CmModel.
Open Scope string_scope.
Open Scope list_scope.

(** reference.substr(prefix_name.size() + 1), CM 2910 and 2916; [None]: std::out_of_range is thrown *)
Fixpoint drop_chars (n : nat) (s : string) : option string :=
  match n, s with O, _ => Some s | S n', String _ s' => drop_chars n' s' | S _, EmptyString => None end.
Definition strip (c : name) (k : name) : res name := of_option (drop_chars (S (String.length c)) k).

(** split_command_interface, CM 3796-3803.  Without a '/' the "interface type" is substr(0, size - 1). *)
Fixpoint but_last (s : string) : string :=
  match s with EmptyString => EmptyString | String a EmptyString => EmptyString | String a s' => String a (but_last s') end.
Definition split_itf (k : name) : name * name :=
  match prefix_of k with
  | Some p => (p, match drop_chars (S (String.length p)) k with Some s => s | None => "" end)
  | None => (k, but_last k)
  end.

(** std::set<std::string>::insert *)
Fixpoint set_insert (x : name) (l : list name) : list name :=
  match l with
  | [] => [x]
  | y :: l' => match String.compare x y with Lt => x :: l | Eq => l | Gt => y :: set_insert x l' end
  end.

(** controller_manager_msgs/msg/ChainConnection and ControllerState *)
Record conn := { k_name : name; k_itfs : list name }.
Record centry := {
  l_name : name; l_state : lc; l_chainable : bool; l_chained : bool;
  l_claimed : list name; l_cmds : list name; l_states : list name;
  l_refs : list name; l_exps : list name; l_conns : list conn
}.

(** for every x of the list, in order *)
Fixpoint rmap {A B} (f : A -> res B) (l : list A) : res (list B) :=
  match l with [] => Val [] | a :: l' => do b <- f a; do bs <- rmap f l'; Val (b :: bs) end.

(** the command interfaces that belong to a loaded controller, split: CM 2885-2896
    (controller_chain_map has one key per loaded controller, CM 2856-2859) *)
Definition chain_pairs (l : list ctrl) (ks : list name) : list (name * name) :=
  filter (fun p => mem (fst p) (map c_name l)) (map split_itf ks).
(** CM 2931-2943: the partners (a std::set), each with all the interfaces collected for the controller *)
Definition connections (ps : list (name * name)) : list conn :=
  map (fun p => {| k_name := p; k_itfs := map snd ps |}) (fold_left (fun s p => set_insert (fst p) s) ps []).

(** one controller of list_controllers_srv_cb, CM 2862-2928.  The two loops (entries, then connections) are merged:
    a controller's connections depend on its own interfaces only. *)
Definition list_one (m : cm) (c : ctrl) : res centry :=
  let on := is_lc Active c || is_lc Inactive c in
  let cmds := if on then cmd_names (cm_rm m) c else [] in
  do refs <- (if on && c_chainable c then
                do ks <- of_option (aget (rm_refs (cm_rm m)) (c_name c)); rmap (strip (c_name c)) ks else Val []);
  do exps <- (if on && c_chainable c then
                do ks <- of_option (aget (rm_exps (cm_rm m)) (c_name c)); rmap (strip (c_name c)) ks else Val []);
  Val {| l_name := c_name c; l_state := c_lc c; l_chainable := c_chainable c; l_chained := c_chained c;
         l_claimed := c_claimed c; l_cmds := cmds; l_states := if on then state_names (cm_rm m) c else [];
         l_refs := refs; l_exps := exps; l_conns := connections (chain_pairs (cm_ctrls m) cmds) |}.
(** list_controllers_srv_cb, CM 2840-2945.  An exception ends the service call (nothing catches it): [Crash]. *)
Definition list_controllers_srv (m : cm) : res (list centry) := rmap (list_one m) (cm_ctrls m).

(** controller_manager_msgs/msg/HardwareInterface *)
Record hentry := { i_name : name; i_available : bool; i_claimed : bool }.
(** CM 3164-3168, 3225-3229.  get_command_interface_data_type (RM 1937-1950) throws if the interface does not exist. *)
Definition cmd_entry (r : rm) (k : name) : res hentry :=
  if cmd_exists r k then
    do b <- of_option (cmd_claimed r k); Val {| i_name := k; i_available := cmd_available r k; i_claimed := b |}
  else Crash.
(** CM 3187-3191, 3216-3220, RM 1675-1688 *)
Definition state_entry (r : rm) (k : name) : res hentry :=
  if state_exists r k then Val {| i_name := k; i_available := state_available r k; i_claimed := false |} else Crash.
(** list_hardware_interfaces_srv_cb, CM 3203-3235; state_interface_keys / command_interface_keys list the two maps
    (the order of an unordered_map is unspecified; here: insertion order) *)
Definition list_hw_itfs (m : cm) : res (list hentry * list hentry) :=
  do s <- rmap (state_entry (cm_rm m)) (rm_skeys (cm_rm m));
  do c <- rmap (cmd_entry (cm_rm m)) (rm_ckeys (cm_rm m));
  Val (s, c).

(** controller_manager_msgs/msg/HardwareComponentState *)
Record hwentry := { w_name : name; w_kind : hkind; w_state : lc; w_cmds : list hentry; w_states : list hentry }.
(** list_hardware_components_srv_cb, CM 3138-3200, over get_components_status, RM 1983-2002 (component_info's lists are
    the interfaces imported when the component was loaded) *)
Definition hw_entry (r : rm) (h : hwc) : res hwentry :=
  do c <- rmap (cmd_entry r) (h_cmd h);
  do s <- rmap (state_entry r) (h_state h);
  Val {| w_name := h_name h; w_kind := h_kind h; w_state := h_lc h; w_cmds := c; w_states := s |}.
Definition list_hw (m : cm) : res (list hwentry) := rmap (hw_entry (cm_rm m)) (rm_hw (cm_rm m)).
