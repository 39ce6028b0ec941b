(** CmModel.v -- the controller manager: loading, configuring, switching, updating controllers.
    Models /repo/controller_manager/src/controller_manager.cpp (cited CM) together with the node
    life cycle of controllers (/repo/controller_interface/src/controller_interface_base.cpp, cited
    CI; the state machine itself is rclcpp_lifecycle, outside the repository).

    General simplifications.
    - Every operation is atomic except the switch, which is split into request (validation),
      perform (manage_switch, in the real-time thread or, if not asap, in the service thread),
      evaluation and timeout; real-time cycles and hardware state changes may happen in between.
      The double buffering of the controller list and the switch hand-shake are modelled at the
      interleaving level in RtModel.v; here there is one list.
    - Controllers are synchronous (is_async false); a controller's interface configurations,
      exported names and fallback list are constants of the loaded controller.
    - handle_exceptions is true (default).  Exceptions the code does not catch, stack overflow and
      std::map::at failures are the outcome [Crash].
    - messages, statistics, introspection and publishers are not modelled. *)
From Coq Require Import Ascii.
From Verif Require Import Base Events HwModel RmModel ChainModel.
Open Scope string_scope.
Open Scope list_scope.

Inductive res (A : Type) := Val (a : A) | Crash.
Arguments Val {A} a.
Arguments Crash {A}.
Definition bind {A B} (x : res A) (f : A -> res B) : res B :=
  match x with Val a => f a | Crash => Crash end.
Definition of_option {A} (o : option A) : res A := match o with Some a => Val a | None => Crash end.
Notation "'do' p <- x ; e" := (bind x (fun p => e)) (at level 200, p pattern, x at level 100, e at level 200).

Fixpoint rfold {A B} (f : A -> B -> res A) (l : list B) (a : A) : res A :=
  match l with [] => Val a | b :: l' => bind (f a b) (rfold f l') end.

(** InterfaceConfiguration, controller_interface_base.hpp.  A regular expression is any predicate
    on interface names. *)
Inductive icfg :=
| INone | IAll | IIndividual (ks : list name) | IBestEffort (ks : list name)
| IRegex (ps : list (name -> bool)).

(** ControllerSpec (controller_spec.hpp) and the controller object it points to. *)
Record ctrl := {
  c_name : name;
  c_chainable : bool;
  c_cmd : icfg;
  c_state : icfg;
  c_fallback : list name;
  c_refs : list name;          (* what export_reference_interfaces returns *)
  c_exps : list name;          (* what export_state_interfaces returns *)
  c_lc : lc;
  c_chained : bool;            (* in_chained_mode_ *)
  c_cloans : list name;        (* command_interfaces_ (LoanedCommandInterface objects) *)
  c_sloans : list name;        (* state_interfaces_ *)
  c_claimed : list name;       (* info.claimed_interfaces *)
  c_group : list name          (* controllers_chain_group *)
}.
Definition upd_lc (l : lc) (c : ctrl) : ctrl :=
  {| c_name := c_name c; c_chainable := c_chainable c; c_cmd := c_cmd c; c_state := c_state c;
     c_fallback := c_fallback c; c_refs := c_refs c; c_exps := c_exps c; c_lc := l;
     c_chained := c_chained c; c_cloans := c_cloans c; c_sloans := c_sloans c;
     c_claimed := c_claimed c; c_group := c_group c |}.
Definition upd_chained (b : bool) (c : ctrl) : ctrl :=
  {| c_name := c_name c; c_chainable := c_chainable c; c_cmd := c_cmd c; c_state := c_state c;
     c_fallback := c_fallback c; c_refs := c_refs c; c_exps := c_exps c; c_lc := c_lc c;
     c_chained := b; c_cloans := c_cloans c; c_sloans := c_sloans c;
     c_claimed := c_claimed c; c_group := c_group c |}.
Definition upd_loans (cl sl : list name) (c : ctrl) : ctrl :=
  {| c_name := c_name c; c_chainable := c_chainable c; c_cmd := c_cmd c; c_state := c_state c;
     c_fallback := c_fallback c; c_refs := c_refs c; c_exps := c_exps c; c_lc := c_lc c;
     c_chained := c_chained c; c_cloans := cl; c_sloans := sl;
     c_claimed := c_claimed c; c_group := c_group c |}.
Definition upd_claimed (l : list name) (c : ctrl) : ctrl :=
  {| c_name := c_name c; c_chainable := c_chainable c; c_cmd := c_cmd c; c_state := c_state c;
     c_fallback := c_fallback c; c_refs := c_refs c; c_exps := c_exps c; c_lc := c_lc c;
     c_chained := c_chained c; c_cloans := c_cloans c; c_sloans := c_sloans c;
     c_claimed := l; c_group := c_group c |}.
Definition upd_group (l : list name) (c : ctrl) : ctrl :=
  {| c_name := c_name c; c_chainable := c_chainable c; c_cmd := c_cmd c; c_state := c_state c;
     c_fallback := c_fallback c; c_refs := c_refs c; c_exps := c_exps c; c_lc := c_lc c;
     c_chained := c_chained c; c_cloans := c_cloans c; c_sloans := c_sloans c;
     c_claimed := c_claimed c; c_group := l |}.

(** switch_params_ while a switch is pending, controller_manager.hpp 725-765. *)
Record pend := {
  p_act : list name; p_deact : list name; p_to : list name; p_from : list name;
  p_start : list name;     (* activate_command_interface_request *)
  p_stop : list name;      (* deactivate_command_interface_request *)
  p_strict : bool; p_asap : bool;
  p_done : bool            (* manage_switch has run (do_switch = false) *)
}.

Record cm := {
  cm_rm : rm;
  cm_ctrls : list ctrl;                 (* the controller list, in execution order *)
  cm_spec : spec;                       (* controller_chain_spec_ *)
  cm_refc : alist (list name);          (* controller_chained_reference_interfaces_cache_ *)
  cm_stc : alist (list name);           (* controller_chained_state_interfaces_cache_ *)
  cm_pend : option pend
}.
Definition set_rm (m : cm) (r : rm) : cm :=
  {| cm_rm := r; cm_ctrls := cm_ctrls m; cm_spec := cm_spec m; cm_refc := cm_refc m;
     cm_stc := cm_stc m; cm_pend := cm_pend m |}.
Definition set_ctrls (m : cm) (l : list ctrl) : cm :=
  {| cm_rm := cm_rm m; cm_ctrls := l; cm_spec := cm_spec m; cm_refc := cm_refc m;
     cm_stc := cm_stc m; cm_pend := cm_pend m |}.
Definition set_topo (m : cm) (s : spec) (rc sc : alist (list name)) : cm :=
  {| cm_rm := cm_rm m; cm_ctrls := cm_ctrls m; cm_spec := s; cm_refc := rc; cm_stc := sc;
     cm_pend := cm_pend m |}.
Definition set_pend (m : cm) (p : option pend) : cm :=
  {| cm_rm := cm_rm m; cm_ctrls := cm_ctrls m; cm_spec := cm_spec m; cm_refc := cm_refc m;
     cm_stc := cm_stc m; cm_pend := p |}.

Definition is_lc (l : lc) (c : ctrl) : bool := lc_eqb (c_lc c) l.

(** std::find_if(controllers, controller_name_compare) *)
Definition find_in (l : list ctrl) (n : name) : option ctrl :=
  find (fun c => String.eqb (c_name c) n) l.
Definition find_ctrl (m : cm) (n : name) : option ctrl := find_in (cm_ctrls m) n.
Definition upd_in (l : list ctrl) (n : name) (f : ctrl -> ctrl) : list ctrl :=
  map (fun c => if String.eqb (c_name c) n then f c else c) l.
Definition upd (m : cm) (n : name) (f : ctrl -> ctrl) : cm := set_ctrls m (upd_in (cm_ctrls m) n f).

Definition emit (m : cm) (ev : event) : cm :=
  set_rm m (with_trace (cm_rm m) (ev :: rm_trace (cm_rm m))).

(** ------------------------------------------------------------ interface names *)

(** get_command_interfaces_names / get_state_interfaces_names, CM 184-282; [av] is the list of
    available interfaces. *)
Definition cfg_names (cfg : icfg) (av : list name) : list name :=
  match cfg with
  | INone => []
  | IAll => av
  | IIndividual ks => ks
  | IBestEffort ks => filter (fun k => mem k av) ks
  | IRegex ps => flat_map (fun p => filter p av) ps
  end.
Definition cmd_names (r : rm) (c : ctrl) : list name := cfg_names (c_cmd c) (rm_avc r).
Definition state_names (r : rm) (c : ctrl) : list name := cfg_names (c_state c) (rm_avs r).
Definition is_all (cfg : icfg) : bool := match cfg with IAll => true | _ => false end.

(** interface_name.substr(0, find_first_of('/')); [None] = no '/'. *)
Fixpoint prefix_of (k : string) : option string :=
  match k with
  | EmptyString => None
  | String c k' =>
      if Ascii.eqb c "/"%char then Some EmptyString
      else match prefix_of k' with Some p => Some (String c p) | None => None end
  end.

(** is_interface_a_chained_interface, CM 111-148: throws if there is no '/'. *)
Definition chained_to (l : list ctrl) (k : name) : res (option ctrl) :=
  match prefix_of k with None => Crash | Some p => Val (find_in l p) end.

(** extract_command_interfaces_for_controller, CM 322-335 *)
Definition extract_cmd (r : rm) (c : ctrl) : list name :=
  if is_lc Active c || is_lc Inactive c then cmd_names r c else [].

(** get_controller_list_command_interfaces, CM 427-442 *)
Definition list_cmds (m : cm) (ns : list name) : list name :=
  flat_map (fun n => match find_ctrl m n with Some c => extract_cmd (cm_rm m) c | None => [] end) ns.

(** get_active_controllers_using_command_interfaces_of_controller, CM 286-320 *)
Definition users_of (m : cm) (n : name) (acc : list name) : list name :=
  match find_ctrl m n with
  | None => acc
  | Some f =>
      fold_left (fun acc k =>
        fold_left (fun acc c =>
            if is_lc Active c && mem k (cmd_names (cm_rm m) c) then add_item acc (c_name c) else acc)
          (cm_ctrls m) acc)
        (cmd_names (cm_rm m) f) acc
  end.

(** ------------------------------------------------------------ node life cycle *)

(** release_interfaces, CI 282-286: destroying the loans releases the claims
    (loaned_command_interface.hpp). *)
Definition release_all (r : rm) (ks : list name) : rm := fold_left release_cmd ks r.
Definition release_itfs (m : cm) (n : name) : cm :=
  match find_ctrl m n with
  | None => m
  | Some c => upd (set_rm m (release_all (cm_rm m) (c_cloans c))) n (upd_loans [] [])
  end.

Definition ctrl_call (e : env) (m : cm) (n : name) (cb : ccb) : cbret * cm :=
  let r := e_ctrl e (rm_trace (cm_rm m)) n cb in (r, emit m (EvCtrlCb n cb r)).

(** ERRORPROCESSING: on_error, then release_interfaces (CI 162-170); SUCCESS -> unconfigured, else
    finalized (rclcpp_lifecycle). *)
Definition node_error (e : env) (m : cm) (n : name) : cm :=
  let ok := e_ctrl_error e (rm_trace (cm_rm m)) n in
  upd (release_itfs (emit m (EvCtrlErr n ok)) n) n (upd_lc (if ok then Unconfigured else Finalized)).

(** rclcpp_lifecycle transitions as used by the controllers (CI 117-170): an exception in a
    callback is treated as ERROR by rclcpp_lifecycle; a transition that is not valid in the
    current state changes nothing. *)
Definition node_transition (e : env) (m : cm) (n : name) (cb : ccb)
    (from : lc -> bool) (succ fail : lc) : cm :=
  match find_ctrl m n with
  | None => m
  | Some c =>
      if from (c_lc c) then
        let '(r, m1) := ctrl_call e m n cb in
        match r with
        | CbSuccess => upd m1 n (upd_lc succ)
        | CbFailure => upd m1 n (upd_lc fail)
        | CbError | CbThrow => node_error e m1 n
        end
      else m
  end.
Definition node_configure e m n := node_transition e m n CConfigure (lc_eqb Unconfigured) Inactive Unconfigured.
Definition node_cleanup e m n := node_transition e m n CCleanup (lc_eqb Inactive) Unconfigured Inactive.
Definition node_activate e m n := node_transition e m n CActivate (lc_eqb Inactive) Active Inactive.
Definition node_deactivate e m n := node_transition e m n CDeactivate (lc_eqb Active) Inactive Active.

(** shutdown additionally releases the interfaces after on_shutdown (CI 151-160) and is valid in
    unconfigured, inactive and active; FAILURE also ends in finalized. *)
Definition node_shutdown (e : env) (m : cm) (n : name) : cm :=
  match find_ctrl m n with
  | None => m
  | Some c =>
      match c_lc c with
      | Unconfigured | Inactive | Active =>
          let '(r, m1) := ctrl_call e m n CShutdown in
          let m2 := release_itfs m1 n in
          match r with
          | CbSuccess | CbFailure => upd m2 n (upd_lc Finalized)
          | CbError | CbThrow => node_error e m2 n
          end
      | _ => m
      end
  end.

(** set_chained_mode: chainable_controller_interface.cpp 232-255 (refused while active, asks
    on_set_chained_mode), controller_interface.cpp 38 (plain controllers: always refused). *)
Definition set_chained (e : env) (m : cm) (n : name) (on : bool) : cm :=
  match find_ctrl m n with
  | None => m
  | Some c =>
      if c_chainable c && negb (is_lc Active c) then
        let ok := e_set_chained e (rm_trace (cm_rm m)) n on in
        let m1 := emit m (EvChained n on ok) in
        if ok then upd m1 n (upd_chained on) else m1
      else m
  end.

(** ------------------------------------------------------------ (de)activation *)

(** Body of deactivate_controllers, CM 2535-2593; everything is inside a try block, a failing .at
    skips the rest. *)
Definition deactivate_one (e : env) (m : cm) (n : name) : cm :=
  match find_ctrl m n with
  | None => m
  | Some c =>
      if is_lc Active c then
        let m1 := release_itfs (node_deactivate e m n) n in
        if c_chainable c then
          let m2 := set_chained e m1 n false in
          match make_exps_unavailable (cm_rm m2) n with
          | None => m2
          | Some r3 =>
              match make_refs_unavailable r3 n with
              | None => set_rm m2 r3
              | Some r4 => set_rm m2 r4
              end
          end
        else m1
      else m
  end.
Definition deactivate_controllers (e : env) (m : cm) (ns : list name) : cm :=
  fold_left (deactivate_one e) ns m.

(** make both kinds of exported interfaces available (CM 2661-2663, 2791-2792); .at may throw *)
Definition exports_available (m : cm) (n : name) : res cm :=
  do r1 <- of_option (make_exps_available (cm_rm m) n);
  do r2 <- of_option (make_refs_available r1 n);
  Val (set_rm m r2).
Definition exports_unavailable (m : cm) (n : name) : res cm :=
  do r1 <- of_option (make_exps_unavailable (cm_rm m) n);
  do r2 <- of_option (make_refs_unavailable r1 n);
  Val (set_rm m r2).

(** the claim loop, CM 2689-2721: [None] = assignment not successful (all loans dropped). *)
Fixpoint claim_all (r : rm) (ks got : list name) : res (rm * option (list name)) :=
  match ks with
  | [] => Val (r, Some got)
  | k :: ks' =>
      match cmd_claimed r k with
      | None => Crash                                      (* .at throws, not caught here *)
      | Some true => Val (release_all r got, None)
      | Some false =>
          let '(r1, ok) := claim_cmd r k in
          if ok then claim_all r1 ks' (got ++ [k])
          else Val (release_all r1 got, None)
      end
  end.

(** one controller of activate_controllers, CM 2667-2794.  State: manager, is_successful,
    failed_controllers_command_interfaces. *)
Definition act_state := (cm * bool * list name)%type.
Definition activate_one (e : env) (st : act_state) (n : name) : res act_state :=
  let '(m, ok, failed) := st in
  match find_ctrl m n with
  | None => Val st
  | Some c =>
      let names := cmd_names (cm_rm m) c in
      do (r1, loans) <- claim_all (cm_rm m) names [];
      match loans with
      | None => Val (set_rm m r1, false, failed)
      | Some cl =>
          let snames := state_names r1 c in
          if forallb (claim_state r1) snames then
            (* assign_interfaces: the previous loans are destroyed *)
            let m1 := upd (set_rm m (release_all r1 (c_cloans c))) n (upd_loans cl snames) in
            let m2 := node_activate e m1 n in
            match find_ctrl m2 n with
            | None => Val (m2, ok, failed)
            | Some c2 =>
                if is_lc Active c2 then
                  if c_chainable c then do m3 <- exports_available m2 n; Val (m3, ok, failed)
                  else Val (m2, ok, failed)
                else
                  let m3 := release_itfs m2 n in
                  let failed' := add_items failed names in
                  if c_chainable c then do m4 <- exports_unavailable m3 n; Val (m4, false, failed')
                  else Val (m3, false, failed')
            end
          else Val (set_rm m (release_all r1 cl), false, failed)
      end
  end.

(** activate_controllers, CM 2639-2835.  [start] is
    switch_params_.activate_command_interface_request (also when called from update()). *)
Definition preactivate (m : cm) (n : name) : res cm :=
  match find_ctrl m n with
  | Some c => if c_chainable c then exports_available m n else Val m
  | None => Val m
  end.
Definition prep_perf (e : env) (allow : bool) (m : cm) (start stop : list name) : cm :=
  let '(r1, ok) := rm_prepare e allow (cm_rm m) start stop in
  set_rm m (if ok then fst (rm_perform e allow r1 start stop) else r1).
Definition activate_controllers (e : env) (allow : bool) (m : cm) (ns : list name) (strict : bool)
    (start : list name) : res cm :=
  do m1 <- rfold preactivate ns m;
  do (m2, ok, failed) <- rfold (activate_one e) ns (m1, true, []);
  if negb ok && strict then
    Val (prep_perf e allow (deactivate_controllers e m2 ns) [] start)
  else if negb (match failed with [] => true | _ => false end) then
    Val (prep_perf e allow m2 [] failed)
  else Val m2.

(** switch_chained_mode, CM 2595-2637 *)
Definition switch_chained_mode (e : env) (m : cm) (ns : list name) (on : bool) : cm :=
  fold_left (fun m n => match find_ctrl m n with
                        | Some c => if is_lc Active c then m else set_chained e m n on
                        | None => m end) ns m.

(** manage_switch, CM 3305-3369 (mutex obtained) *)
Definition manage_switch (e : env) (allow : bool) (m : cm) (p : pend) : res cm :=
  let '(r1, ok) := rm_perform e allow (cm_rm m) (p_start p) (p_stop p) in
  let m1 := set_rm m r1 in
  if negb ok then Val m1
  else
    let m2 := deactivate_controllers e m1 (p_deact p) in
    let m3 := switch_chained_mode e m2 (p_to p) true in
    let m4 := switch_chained_mode e m3 (p_from p) false in
    activate_controllers e allow m4 (p_act p) (p_strict p) (p_start p).

(** ------------------------------------------------------------ switch validation *)

(** working state of switch_controller_cb *)
Record sw := { w_rm : rm; w_act : list name; w_deact : list name; w_to : list name; w_from : list name;
               w_start : list name; w_stop : list name }.
Definition sw_lists (w : sw) (a d : list name) : sw :=
  {| w_rm := w_rm w; w_act := a; w_deact := d; w_to := w_to w; w_from := w_from w;
     w_start := w_start w; w_stop := w_stop w |}.
Definition sw_chain (w : sw) (r : rm) (t f : list name) : sw :=
  {| w_rm := r; w_act := w_act w; w_deact := w_deact w; w_to := t; w_from := f;
     w_start := w_start w; w_stop := w_stop w |}.
Definition sw_itfs (w : sw) (r : rm) (a b : list name) : sw :=
  {| w_rm := r; w_act := w_act w; w_deact := w_deact w; w_to := w_to w; w_from := w_from w;
     w_start := a; w_stop := b |}.

(** list_controllers lambda, CM 1966-2017: [None] = return ERROR. *)
Fixpoint list_controllers (l : list ctrl) (strict : bool) (ns got : list name) (ok : bool)
  : option (list name) :=
  match ns with
  | [] => if ok then Some got else None
  | n :: ns' =>
      match find_in l n with
      | Some _ => list_controllers l strict ns' (got ++ [n]) true
      | None => if strict then None
                else list_controllers l strict ns' got (match got with [] => false | _ => true end)
      end
  end.

(** propagate_deactivation_of_chained_mode, CM 3825-3886.  `break` leaves the loop over the
    controllers at the first listed controller that is not active. *)
Definition propagate_itf (l : list ctrl) (w : sw) (k : name) : res sw :=
  do f <- chained_to l k;
  Val (match f with
       | None => w
       | Some f => sw_chain w (w_rm w) (w_to w) (add_item (w_from w) (c_name f))
       end).
Fixpoint propagate (l cs : list ctrl) (w : sw) : res sw :=
  match cs with
  | [] => Val w
  | c :: cs' =>
      if mem (c_name c) (w_deact w) then
        if is_lc Active c then
          do w1 <- rfold (propagate_itf l) (cmd_names (w_rm w) c ++ state_names (w_rm w) c) w;
          propagate l cs' w1
        else Val w
      else propagate l cs' w
  end.

(** check_following_controllers_for_activate, CM 3888-4060: one interface of the loop.  [rec] is
    the recursive call; the result [false] = ERROR. *)
Definition follow_itf (rec : sw -> ctrl -> res (sw * bool)) (l : list ctrl) (c : ctrl)
    (cmds states : list name) (w : sw) (k : name) : res (sw * bool) :=
  do fo <- chained_to l k;
  match fo with
  | None => Val (w, true)
  | Some f =>
    if negb (c_chainable f) then Val (w, false)
    else
      let deact := mem (c_name f) (w_deact w) in
      if is_lc Active f && deact then
        (* ALL configurations have no strict dependency: continue *)
        Val (w, (mem k states && is_all (c_state c)) || (mem k cmds && is_all (c_cmd c)))
      else if negb (is_lc Active f) && negb (mem (c_name f) (w_act w)) then Val (w, false)
      else
        do (w1, ok) <- rec w f;
        if negb ok then Val (w1, false)
        else if negb (c_chained f) then
          if mem (c_name f) (w_to w1) then Val (w1, true)
          else
            do r1 <- of_option (make_exps_available (w_rm w1) (c_name f));
            if mem k cmds then
              do r2 <- of_option (make_refs_available r1 (c_name f));
              Val (sw_chain w1 r2 (w_to w1 ++ [c_name f]) (w_from w1), true)
            else Val (sw_chain w1 r1 (w_to w1) (w_from w1), true)
        else Val (sw_chain w1 (w_rm w1) (w_to w1) (remove1 (c_name f) (w_from w1)), true)
  end.
Fixpoint follow_loop (one : sw -> name -> res (sw * bool)) (ks : list name) (w : sw) : res (sw * bool) :=
  match ks with
  | [] => Val (w, true)
  | k :: ks' =>
      do (w1, ok) <- one w k;
      if ok then follow_loop one ks' w1 else Val (w1, false)
  end.
(** fuel exhausted = unbounded recursion (stack overflow) = [Crash] *)
Fixpoint check_following (fuel : nat) (l : list ctrl) (w : sw) (c : ctrl) : res (sw * bool) :=
  match fuel with
  | 0 => Crash
  | S fu =>
      let cmds := cmd_names (w_rm w) c in
      let states := state_names (w_rm w) c in
      follow_loop (follow_itf (check_following fu l) l c cmds states) (cmds ++ states) w
  end.

(** check_fallback_controllers_state_pre_activation, CM 4130-4290: one interface; [avail] and
    [exported] are the command or state variants. *)
Definition fallback_itf (l : list ctrl) (c : ctrl) (avail : name -> bool)
    (exported : name -> res (list name)) (k : name) : res bool :=
  if avail k then Val true
  else
    do fo <- chained_to l k;
    match fo with
    | None => Val false
    | Some f =>
        if is_lc Inactive f then
          if mem (c_name f) (c_fallback c) then
            do ks <- exported (c_name f); Val (mem k ks)
          else Val false
        else Val true
    end.
Fixpoint rforall (f : name -> res bool) (ks : list name) : res bool :=
  match ks with
  | [] => Val true
  | k :: ks' => do b <- f k; if b then rforall f ks' else Val false
  end.
Definition check_fallback_one (l : list ctrl) (r : rm) (c : ctrl) (n : name) : res bool :=
  match find_in l n with
  | None => Val false
  | Some fb =>
      if negb (is_lc Inactive fb || is_lc Active fb) then Val false
      else
        do a <- rforall (fallback_itf l c (cmd_available r) (fun n => of_option (aget (rm_refs r) n)))
                        (cmd_names r fb);
        if negb a then Val false
        else rforall (fallback_itf l c (state_available r) (fun n => of_option (aget (rm_exps r) n)))
                     (state_names r fb)
  end.
Definition check_fallback (l : list ctrl) (r : rm) (c : ctrl) : res bool :=
  rforall (check_fallback_one l r c) (c_fallback c).

(** check of one controller in the activate loop, CM 2042-2092 *)
Definition check_activate (l : list ctrl) (w : sw) (n : name) : res (sw * bool) :=
  match find_in l n with
  | None => Crash                                    (* the list was filtered by list_controllers *)
  | Some c =>
      do (w1, ok) <-
        (match c_lc c with
         | Unconfigured => Val (w, false)
         | Active => Val (w, mem n (w_deact w))
         | Inactive => check_following (S (length l)) l w c
         | _ => Val (w, false)
         end);
      if ok then do b <- check_fallback l (w_rm w1) c; Val (w1, b) else Val (w1, false)
  end.

(** loop over activate_request, CM 2036-2121: BEST_EFFORT erases the element (vector erase and
    `--ctrl_it`), STRICT rejects ([inr] = rejected; the availability changes stay). *)
Fixpoint act_loop (l : list ctrl) (strict : bool) (kept rest : list name) (w : sw) : res (sw + sw) :=
  match rest with
  | [] => Val (inl w)
  | n :: rest' =>
      do (w1, ok) <- check_activate l w n;
      if ok then act_loop l strict (kept ++ [n]) rest' w1
      else if strict then Val (inr w1)
      else act_loop l strict kept rest' (sw_lists w1 (kept ++ rest') (w_deact w1))
  end.

(** check_preceding_controllers_for_deactivate, CM 4062-4138 *)
Definition check_preceding (m : cm) (w : sw) (c : ctrl) : bool :=
  if negb (c_chainable c) then true
  else
    let cache x := match aget x (c_name c) with Some l => l | None => [] end in
    forallb (fun n => match find_ctrl m n with
                      | None => true
                      | Some p =>
                          negb (is_lc Inactive p && mem n (w_act w)) &&
                          negb (is_lc Active p && negb (mem n (w_deact w)))
                      end)
            (cache (cm_stc m) ++ cache (cm_refc m)).

(** loop over deactivate_request, CM 2124-2177 *)
Fixpoint deact_loop (m : cm) (strict : bool) (kept rest : list name) (w : sw) : option sw :=
  match rest with
  | [] => Some w
  | n :: rest' =>
      let ok := match find_ctrl m n with
                | None => false
                | Some c => is_lc Active c && check_preceding m w c
                end in
      if ok then deact_loop m strict (kept ++ [n]) rest' w
      else if strict then None
      else deact_loop m strict kept rest' (sw_lists w (w_act w) (kept ++ rest'))
  end.

(** one controller of the loop CM 2190-2318; [inr] = STRICT conflict (the calls of
    cache_controller_to_hardware made before it are kept). *)
Definition conflict_one (strict : bool) (w : sw) (c : ctrl) : sw + sw :=
  let n := c_name c in
  let act := is_lc Active c in
  let restart := (mem n (w_to w) || mem n (w_from w)) && act && negb (mem n (w_deact w)) in
  let w1 := if restart then sw_lists w (w_act w ++ [n]) (w_deact w ++ [n]) else w in
  let in_d := mem n (w_deact w1) in
  let in_a := mem n (w_act w1) in
  (* double stop *)
  let c1 := negb act && in_d in
  if c1 && strict then inr w else
  let w2 := if c1 then sw_lists w1 (w_act w1) (remove1 n (w_deact w1)) else w1 in
  let in_d := in_d && negb c1 in
  (* double activation *)
  let c2 := act && negb in_d && in_a in
  if c2 && strict then inr w else
  let w3 := if c2 then sw_lists w2 (remove1 n (w_act w2)) (w_deact w2) else w2 in
  let in_a := in_a && negb c2 in
  (* illegal activation *)
  let c3 := negb (is_lc Inactive c) && negb in_d && in_a in
  if c3 && strict then inr w else
  let w4 := if c3 then sw_lists w3 (remove1 n (w_act w3)) (w_deact w3) else w3 in
  let in_a := in_a && negb c3 in
  let w5 := sw_itfs w4 (w_rm w4)
              (if in_a then w_start w4 ++ extract_cmd (w_rm w4) c else w_start w4)
              (if in_d then w_stop w4 ++ extract_cmd (w_rm w4) c else w_stop w4) in
  inl (if in_a then
          sw_itfs w5 (cache_controller (w_rm w5) n
                        (cmd_names (w_rm w5) c ++ state_names (w_rm w5) c)) (w_start w5) (w_stop w5)
        else w5).
Fixpoint conflict_loop (strict : bool) (cs : list ctrl) (w : sw) : sw + sw :=
  match cs with
  | [] => inl w
  | c :: cs' => match conflict_one strict w c with inl w' => conflict_loop strict cs' w' | inr w' => inr w' end
  end.

(** check_for_interfaces_availability_to_activate, CM 4319-4424 *)
Definition future_available (l : list ctrl) (deact : list name) : option (list name) :=
  fold_left (fun acc n =>
      match acc, find_in l n with
      | Some a, Some c => Some (a ++ match c_cmd c with IIndividual ks => ks | _ => c_claimed c end)
      | _, _ => None
      end) deact (Some []).
Fixpoint avail_cmds (r : rm) (fut : list name) (ks taken : list name) : res (option (list name)) :=
  match ks with
  | [] => Val (Some taken)
  | k :: ks' =>
      if negb (cmd_available r k) then Val None
      else
        do cl <- of_option (cmd_claimed r k);
        if cl && negb (mem k fut) then Val None
        else if mem k taken then Val None
        else avail_cmds r fut ks' (taken ++ [k])
  end.
Fixpoint avail_loop (l : list ctrl) (r : rm) (fut deact ns taken : list name) : res bool :=
  match ns with
  | [] => Val true
  | n :: ns' =>
      if mem n deact then avail_loop l r fut deact ns' taken
      else
        match find_in l n with
        | None => Val false
        | Some c =>
            do o <- avail_cmds r fut (cmd_names r c) taken;
            match o with
            | None => Val false
            | Some taken' =>
                if forallb (state_available r) (state_names r c)
                then avail_loop l r fut deact ns' taken'
                else Val false
            end
        end
  end.
Definition check_availability (l : list ctrl) (w : sw) : res bool :=
  match future_available l (w_deact w) with
  | None => Val false
  | Some fut => avail_loop l (w_rm w) fut (w_deact w) (w_act w) []
  end.

Definition sw_empty (w : sw) : bool :=
  match w_act w, w_deact w with [], [] => true | _, _ => false end.

(** Answers of the switch request: rejected with ERROR, accepted with nothing to do (OK), pending. *)
Inductive swout := SwError | SwNothing | SwPending.

(** switch_controller_cb up to the hand-over to the real-time loop, CM 1860-2390. *)
Definition switch_request (e : env) (allow : bool) (m : cm) (act deact : list name)
    (strict asap : bool) : res (cm * swout) :=
  let l := cm_ctrls m in
  match list_controllers l strict deact [] true with
  | None => Val (m, SwError)
  | Some d =>
  match list_controllers l strict act [] true with
  | None => Val (m, SwError)
  | Some a =>
    let w0 := {| w_rm := cm_rm m; w_act := a; w_deact := d; w_to := []; w_from := [];
                 w_start := []; w_stop := [] |} in
    do w1 <- propagate l l w0;
    do x <- act_loop l strict [] a w1;
    match x with
    | inr w2 => Val (set_rm m (w_rm w2), SwError)
    | inl w2 =>
      match deact_loop m strict [] (w_deact w2) w2 with
      | None => Val (set_rm m (w_rm w2), SwError)
      | Some w3 =>
        if sw_empty w3 then Val (set_rm m (w_rm w3), SwNothing)
        else
        match conflict_loop strict l w3 with
        | inr w4 => Val (set_rm m (w_rm w4), SwError)
        | inl w4 =>
          if sw_empty w4 then Val (set_rm m (w_rm w4), SwNothing)
          else
            do b <- check_availability l w4;
            if negb b then Val (set_rm m (w_rm w4), SwError)
            else
              (* the RM answers true at once when both lists are empty, as the guard CM 2365-2367 *)
              let '(r5, ok) := rm_prepare e allow (w_rm w4) (w_start w4) (w_stop w4) in
              if negb ok then Val (set_rm m r5, SwError)
              else
                Val (set_pend (set_rm m r5)
                  (Some {| p_act := w_act w4; p_deact := w_deact w4; p_to := w_to w4;
                           p_from := w_from w4; p_start := w_start w4; p_stop := w_stop w4;
                           p_strict := strict; p_asap := asap; p_done := false |}), SwPending)
        end
      end
    end
  end
  end.

(** evaluate_switch_result, CM 337-425 (claimed_interfaces of every controller are refreshed). *)
Definition refresh_claimed (r : rm) (c : ctrl) : ctrl :=
  upd_claimed (if is_lc Active c then cmd_names r c else []) c.
Definition switch_ok (m : cm) (p : pend) : bool :=
  forallb (fun c =>
      (negb (mem (c_name c) (p_act p)) || is_lc Active c) &&
      (negb (mem (c_name c) (p_deact p) && negb (mem (c_name c) (p_act p))) || negb (is_lc Active c)))
    (cm_ctrls m).
Definition evaluate (m : cm) (p : pend) : cm * bool :=
  (set_pend (set_ctrls m (map (refresh_claimed (cm_rm m)) (cm_ctrls m))) None, switch_ok m p).

(** ------------------------------------------------------------ load / configure / unload *)

(** cleanup_controller_exported_interfaces, CM 5018-5028 *)
Definition cleanup_exports (m : cm) (n : name) : cm :=
  match find_ctrl m n with
  | Some c => if negb (is_lc Active c) && c_chainable c
              then set_rm m (remove_refs (remove_exps (cm_rm m) n) n) else m
  | None => m
  end.
Definition has_lc (m : cm) (n : name) (l : lc) : bool :=
  match find_ctrl m n with Some c => is_lc l c | None => false end.

(** cleanup_controller(spec), CM 1482-1506 *)
Definition cleanup_spec (e : env) (m : cm) (n : name) : cm * bool :=
  let m1 := node_cleanup e (cleanup_exports m n) n in (m1, has_lc m1 n Unconfigured).

(** cleanup_controller(name), CM 1508-1550 *)
Definition cleanup_controller (e : env) (m : cm) (n : name) : cm * bool :=
  match find_ctrl m n with
  | None => (m, false)
  | Some c =>
      match c_lc c with
      | Unconfigured => (m, true)
      | Active | Finalized => (m, false)
      | _ => cleanup_spec e m n
      end
  end.

(** unload_controller, CM 1415-1480.  (The destruction of the removed controller object calls
    shutdown again only if it is not finalized, CI 42-56: not modelled.) *)
Definition unload_controller (e : env) (m : cm) (n : name) : cm * bool :=
  match find_ctrl m n with
  | None => (m, false)
  | Some c =>
      if is_lc Active c then (m, false)
      else
        let '(m1, ok) := cleanup_controller e m n in
        if negb ok then (m1, false)
        else
          let m2 := set_topo m1 (spec_cleanup (cm_spec m1) n) (cm_refc m1) (cm_stc m1) in
          let m3 := if has_lc m2 n Inactive || has_lc m2 n Unconfigured then node_shutdown e m2 n else m2 in
          (* the loans of the destroyed object are destroyed with it *)
          let m4 := release_itfs m3 n in
          (set_ctrls m4 (filter (fun c => negb (String.eqb (c_name c) n)) (cm_ctrls m4)), true)
  end.

(** load_controller / add_controller_impl, CM 2447-2533: a fresh, unconfigured controller.
    [init_ok] = the plugin was found and init() succeeded. *)
Definition fresh (c : ctrl) : ctrl := 
  {| c_name := c_name c; c_chainable := c_chainable c; c_cmd := c_cmd c; c_state := c_state c;
     c_fallback := c_fallback c; c_refs := c_refs c; c_exps := c_exps c; c_lc := Unconfigured;
     c_chained := false; c_cloans := []; c_sloans := []; c_claimed := []; c_group := [] |}.
Definition load_controller (m : cm) (c : ctrl) (init_ok : bool) : cm * bool :=
  match find_ctrl m (c_name c) with
  | Some _ => (m, false)
  | None =>
      if init_ok then
        (set_topo (set_ctrls m (cm_ctrls m ++ [fresh c]))
                  (aset (cm_spec m) (c_name c) no_links)
                  (aset (cm_refc m) (c_name c) []) (aset (cm_stc m) (c_name c) []), true)
      else (m, false)
  end.

(** build_controllers_topology_info, CM 4891-4964 *)
Definition add_following (s : spec) (n f : name) : spec :=
  let x := get_links s n in
  aset s n {| following := add_item (following x) f; preceding := preceding x |}.
Definition add_preceding (s : spec) (n p : name) : spec :=
  let x := get_links s n in
  aset s n {| following := following x; preceding := add_item (preceding x) p |}.
Definition add_cache (x : alist (list name)) (n p : name) : alist (list name) :=
  aset x n (add_item (match aget x n with Some l => l | None => [] end) p).
Definition topo := (spec * alist (list name) * alist (list name))%type.
Definition topo_cmd (l : list ctrl) (c : ctrl) (t : topo) (k : name) : res topo :=
  let '(s, rc, sc) := t in
  do fo <- chained_to l k;
  Val (match fo with
       | None => t
       | Some f => (add_preceding (add_following s (c_name c) (c_name f)) (c_name f) (c_name c),
                    add_cache rc (c_name f) (c_name c), sc)
       end).
Definition topo_state (l : list ctrl) (c : ctrl) (t : topo) (k : name) : res topo :=
  let '(s, rc, sc) := t in
  do fo <- chained_to l k;
  Val (match fo with
       | None => t
       | Some f => (add_following (add_preceding s (c_name c) (c_name f)) (c_name f) (c_name c),
                    rc, add_cache sc (c_name f) (c_name c))
       end).
Definition topo_one (l : list ctrl) (r : rm) (t : topo) (c : ctrl) : res topo :=
  if is_lc Unconfigured c then Val t
  else
    do t1 <- rfold (topo_cmd l c) (cmd_names r c) t;
    rfold (topo_state l c) (state_names r c) t1.
Definition clear_vals {A} (v : A) (x : alist A) : alist A := map (fun '(k, _) => (k, v)) x.
Definition build_topology (m : cm) : res cm :=
  do (s, rc, sc) <- rfold (topo_one (cm_ctrls m) (cm_rm m)) (cm_ctrls m)
     (clear_vals no_links (cm_spec m), clear_vals [] (cm_refc m), clear_vals [] (cm_stc m));
  Val (set_topo m s rc sc).

(** ros2_control::is_unique, helpers.hpp *)
Fixpoint uniqueb (l : list name) : bool :=
  match l with [] => true | x :: l' => negb (mem x l') && uniqueb l' end.

(** the exported interfaces are acceptable: chainable_controller_interface.cpp 46-231 (prefix
    begins with the controller's name, no duplicates), CM 1690-1701 (not both empty) *)
Definition exports_ok (c : ctrl) : bool :=
  forallb (String.prefix (c_name c)) (c_refs c ++ c_exps c) && uniqueb (c_refs c) && uniqueb (c_exps c) &&
  negb (match c_refs c, c_exps c with [], [] => true | _, _ => false end).

(** The iteration order of the unordered_map: [order] if it enumerates the keys, the insertion
    order otherwise. *)
Definition same_set (a b : list name) : bool :=
  forallb (fun x => mem x b) a && forallb (fun x => mem x a) b.
Definition iteration (order : list name) (s : spec) : list name :=
  if same_set order (map fst s) then order else map fst s.

(** reordering at the end of configure_controller, CM 1766-1830 *)
Definition reorder (m : cm) (order : list name) : res cm :=
  do names <- of_option (order_all (cm_spec m) (iteration order (cm_spec m)) []);
  let sorted := flat_map (fun n => match find_ctrl m n with Some c => [c] | None => [] end) names in
  let grouped := map (fun c => match aget (cm_spec m) (c_name c) with
                               | Some _ => upd_group (chain_group (cm_spec m) (c_name c)) c
                               | None => c end) sorted in
  Val (set_ctrls m grouped).

(** configure_controller, CM 1592-1835.  (The update-rate warnings CM 1656-1679 are skipped: they
    only log; update rate 0 divides by zero there, see DESIGN.md.) *)
Definition configure_controller (e : env) (m : cm) (n : name) (order : list name) : res (cm * bool) :=
  match find_ctrl m n with
  | None => Val (m, false)
  | Some c =>
    match c_lc c with
    | Active | Finalized => Val (m, false)
    | _ =>
      let '(m1, ok1) := if is_lc Inactive c then cleanup_spec e m n else (m, true) in
      if negb ok1 then Val (m1, false)
      else
        let m2 := node_configure e (cleanup_exports m1 n) n in
        if negb (has_lc m2 n Inactive) then Val (m2, false)
        else if c_chainable c && negb (exports_ok c) then Val (fst (cleanup_spec e m2 n), false)
        else
          do m3 <- (if c_chainable c then
                      (* a duplicate command interface throws and is not caught, CM 1714 *)
                      let '(r1, ok) := import_refs (cm_rm m2) n (c_refs c) in
                      if negb ok then Crash
                      else
                        exports_unavailable (set_chained e (set_rm m2 (import_exps r1 n (c_exps c))) n false) n
                    else Val m2);
          if negb (uniqueb (cmd_names (cm_rm m3) c)) || negb (uniqueb (state_names (cm_rm m3) c))
          then Val (fst (cleanup_spec e m3 n), false)
          else
            do m4 <- build_topology m3;
            do m5 <- reorder m4 order;
            Val (m5, true)
    end
  end.

(** ------------------------------------------------------------ the real-time cycle *)

(** perform_hardware_command_mode_change, CM 3793-3823 *)
Definition mode_change (e : env) (allow : bool) (m : cm) (acts deacts : list name) : cm :=
  prep_perf e allow m (list_cmds m acts) (list_cmds m deacts).

(** read, CM 3282-3316 *)
Definition cm_read (e : env) (allow : bool) (m : cm) : cm :=
  let '(r1, st) := rm_read e (cm_rm m) in
  let m1 := set_rm m r1 in
  if rtype_eqb (rw_result st) ROk then m1
  else
    let ds := flat_map (cached_controllers r1) (rw_failed st) in
    deactivate_controllers e (mode_change e allow m1 [] ds) ds.

(** write, CM 3602-3680 *)
Definition cm_write (e : env) (allow : bool) (m : cm) : cm :=
  let '(r1, st) := rm_write e (cm_rm m) in
  let m1 := set_rm m r1 in
  let cached := flat_map (cached_controllers r1) (rw_failed st) in
  match rw_result st with
  | ROk => m1
  | RError => deactivate_controllers e (mode_change e allow m1 [] cached) cached
  | RDeactivate =>
      let ds := filter (fun n => match find_ctrl m1 n with
                                 | Some c => negb (match extract_cmd r1 c with [] => true | _ => false end)
                                 | None => false end) cached in
      deactivate_controllers e (mode_change e allow m1 [] ds) ds
  end.

(** one controller of the update loop, CM 3390-3527; the controller's own rate is the oracle
    [e_update_due].  State: manager, deactivate_controllers_list, ret. *)
Definition skipped (p : option pend) (n : name) : bool :=
  match p with
  | Some p => negb (p_done p) && negb (p_asap p) &&
              (mem n (p_act p) || mem n (p_deact p) || mem n (p_to p) || mem n (p_from p))
  | None => false
  end.
Definition update_one (e : env) (p : option pend) (st : cm * list name) (c : ctrl) : cm * list name :=
  let '(m, ds) := st in
  let n := c_name c in
  if skipped p n then st
  else if is_lc Active c && e_update_due e (rm_trace (cm_rm m)) n then
    let r := e_update e (rm_trace (cm_rm m)) n in
    let m1 := emit m (EvUpdate n r) in
    match r with
    | Ret ROk => (m1, ds)
    | _ => (m1, add_items ds (c_group c))
    end
  else st.

(** update, CM 3371-3600 without the final manage_switch (operation [CPerform]) and without
    enforce_command_limits (LimitsModel.v) *)
Definition cm_update (e : env) (allow : bool) (m : cm) : res cm :=
  let '(m1, ds) := fold_left (update_one e (cm_pend m)) (cm_ctrls m) (m, []) in
  match ds with
  | [] => Val m1
  | _ =>
      let fbs := flat_map (fun n => match find_ctrl m1 n with Some c => c_fallback c | None => [] end) ds in
      let fb_list := add_items [] fbs in
      let users := fold_left (fun acc f => users_of m1 f acc) fbs [] in
      let ds' := add_items ds users in
      let m2 := deactivate_controllers e (mode_change e allow m1 fb_list ds') ds' in
      match fb_list with
      | [] => Val m2
      | _ => activate_controllers e allow m2 fb_list true
               (match cm_pend m with Some p => p_start p | None => [] end)
      end
  end.

(** ------------------------------------------------------------ the system *)
Inductive cop :=
| CLoad (c : ctrl) (init_ok : bool)
| CUnload (n : name)
| CCleanup (n : name)
| CConfigure (n : name) (order : list name)
| CRequest (act deact : list name) (strict asap : bool)   (* switch_controller, up to the wait *)
| CPerform                                                (* manage_switch *)
| CTimeout                                                (* the wait timed out before manage_switch *)
| CEvaluate                                               (* the service call wakes up and answers *)
| CRead | CUpdate | CWrite
| CSetHw (h : name) (target : lc).                        (* set_hardware_component_state *)

Inductive cout := CBool (ok : bool) | CSw (o : swout) | CNone | CBlocked.

(** Service calls wait for the controllers lock while a switch is pending (services_lock_ and the
    recursive controllers_lock_ are held by switch_controller_cb): [CBlocked], no effect. *)
Definition serviced (m : cm) (x : res (cm * cout)) : res (cm * cout) :=
  match cm_pend m with Some _ => Val (m, CBlocked) | None => x end.
Definition to_out (x : cm * bool) : res (cm * cout) := Val (fst x, CBool (snd x)).

Definition cstep (e : env) (allow : bool) (m0 : cm) (o : cop) : res (cm * cout) :=
  let m := emit m0 EvOp in
  match o with
  | CLoad c ok => serviced m (to_out (load_controller m c ok))
  | CUnload n => serviced m (to_out (unload_controller e m n))
  | CCleanup n => serviced m (to_out (cleanup_controller e m n))
  | CConfigure n order => serviced m (do x <- configure_controller e m n order; to_out x)
  | CRequest a d s asap => serviced m (do (m', o) <- switch_request e allow m a d s asap; Val (m', CSw o))
  | CPerform =>
      match cm_pend m with
      | Some p =>
          if p_done p then Val (m, CNone)
          else
            do m1 <- manage_switch e allow m p;
            Val (set_pend m1 (Some {| p_act := p_act p; p_deact := p_deact p; p_to := p_to p;
                   p_from := p_from p; p_start := p_start p; p_stop := p_stop p;
                   p_strict := p_strict p; p_asap := p_asap p; p_done := true |}), CNone)
      | None => Val (m, CNone)
      end
  | CTimeout =>
      match cm_pend m with
      | Some p => if p_done p then Val (m, CNone) else Val (set_pend m None, CBool false)
      | None => Val (m, CNone)
      end
  | CEvaluate =>
      match cm_pend m with
      | Some p => if p_done p then to_out (evaluate m p) else Val (m, CNone)
      | None => Val (m, CNone)
      end
  | CRead => Val (cm_read e allow m, CNone)
  | CUpdate => do m1 <- cm_update e allow m; Val (m1, CNone)
  | CWrite => Val (cm_write e allow m, CNone)
  | CSetHw h t => let '(r1, ok) := set_component_state e (cm_rm m) h t in Val (set_rm m r1, CBool ok)
  end.

Definition crun (e : env) (allow : bool) (m : cm) (ops : list cop) : res cm :=
  rfold (fun m o => do (m', _) <- cstep e allow m o; Val m') ops m.

Definition cm_start (hs : list hwc) : cm :=
  {| cm_rm := rm_start hs; cm_ctrls := []; cm_spec := []; cm_refc := []; cm_stc := []; cm_pend := None |}.
