(** CmSpec.v -- specification vocabulary for switch requests: what a valid request is, in terms
    of the loaded controllers, their states, the interfaces they ask for and who holds them. *)
From Verif Require Import Base Events HwModel RmModel CmModel.

(** interface [k] is named "b/..." *)
Definition owned_by (k b : name) : Prop := prefix_of k = Some b.
(** [c] asks for command (state) interface [k] in state [m] *)
Definition wants_cmd (m : cm) (c : ctrl) (k : name) : Prop := In k (cmd_names (cm_rm m) c).
Definition wants_state (m : cm) (c : ctrl) (k : name) : Prop := In k (state_names (cm_rm m) c).
Definition wants (m : cm) (c : ctrl) (k : name) : Prop := wants_cmd m c k \/ wants_state m c k.

(** every requested name is a loaded controller *)
Definition all_loaded (m : cm) (ns : list name) : Prop :=
  forall n, In n ns -> exists c, In c (cm_ctrls m) /\ c_name c = n.
(** only active controllers are stopped *)
Definition stops_active (m : cm) (deact : list name) : Prop :=
  forall c, In c (cm_ctrls m) -> In (c_name c) deact -> c_lc c = Active.
(** only configured, idle controllers (or active ones stopped by the same request) are started *)
Definition starts_inactive (m : cm) (act deact : list name) : Prop :=
  forall c, In c (cm_ctrls m) -> In (c_name c) act ->
    c_lc c = Inactive \/ (c_lc c = Active /\ In (c_name c) deact).
(** whoever owns an interface a started controller asks for is chainable, and runs or is started
    too; a partner that is stopped by the request is tolerated only for a configuration of type ALL
    (m is the state before, m' the state after the request) *)
Definition asks_all (m : cm) (c : ctrl) (k : name) : Prop :=
  (c_cmd c = IAll /\ wants_cmd m c k) \/ (c_state c = IAll /\ wants_state m c k).
Definition partners_run (m m' : cm) (act deact : list name) : Prop :=
  forall c k f, In c (cm_ctrls m) -> In (c_name c) act -> c_lc c = Inactive ->
    wants m c k -> In f (cm_ctrls m) -> owned_by k (c_name f) ->
    c_chainable f = true /\
    ((c_lc f = Active /\ (~ In (c_name f) deact \/ asks_all m' c k)) \/
     (c_lc f <> Active /\ In (c_name f) act)).
(** two started controllers never ask for the same command interface *)
Definition no_conflict (m : cm) (act deact : list name) : Prop :=
  forall c1 c2 k, In c1 (cm_ctrls m) -> In c2 (cm_ctrls m) -> c_name c1 <> c_name c2 ->
    In (c_name c1) act -> In (c_name c2) act -> ~ In (c_name c1) deact -> ~ In (c_name c2) deact ->
    wants_cmd m c1 k -> ~ wants_cmd m c2 k.
(** a command interface a started controller asks for is free, or given up by a stopped one *)
Definition gives_up (c : ctrl) (k : name) : Prop :=
  match c_cmd c with IIndividual ks => In k ks | _ => In k (c_claimed c) end.
Definition interfaces_free (m : cm) (act deact stopped : list name) : Prop :=
  forall c k, In c (cm_ctrls m) -> In (c_name c) act -> ~ In (c_name c) deact ->
    wants_cmd m c k -> aget (rm_claimed (cm_rm m)) k = Some true ->
    exists d, In d (cm_ctrls m) /\ In (c_name d) stopped /\ gives_up d k.
(** every interface a started controller asks for by name is available after the request *)
Definition interfaces_available (m m' : cm) (act deact : list name) : Prop :=
  forall c k, In c (cm_ctrls m) -> In (c_name c) act -> ~ In (c_name c) deact ->
    (wants_cmd m c k -> In k (rm_avc (cm_rm m'))) /\ (wants_state m c k -> In k (rm_avs (cm_rm m'))).
(** the fallback controllers of a started controller are loaded and configured *)
Definition fallbacks_ready (m : cm) (act : list name) : Prop :=
  forall c f, In c (cm_ctrls m) -> In (c_name c) act -> In f (c_fallback c) ->
    exists d, In d (cm_ctrls m) /\ c_name d = f /\ (c_lc d = Inactive \/ c_lc d = Active).

(** a valid STRICT request (m before, m' after the request was looked at); [restarted]: active
    controllers the manager itself stops and starts again to change their chained mode *)
Definition valid_switch (m m' : cm) (a d : list name) : Prop :=
  all_loaded m (a ++ d) /\ stops_active m d /\ starts_inactive m a d /\ partners_run m m' a d /\
  no_conflict m a d /\ interfaces_available m m' a d /\ fallbacks_ready m a /\
  exists restarted, (forall n, In n restarted -> exists c, In c (cm_ctrls m) /\ c_name c = n /\ c_lc c = Active) /\
    interfaces_free m a d (d ++ restarted).

(** every active controller that asks by name for a command interface of a loaded controller finds
    that controller active *)
Definition commands_by_name (c : ctrl) (k : name) : Prop := exists ks, c_cmd c = IIndividual ks /\ In k ks.
Definition chain_intact (m : cm) : Prop :=
  forall c f k, In c (cm_ctrls m) -> In f (cm_ctrls m) -> c_lc c = Active ->
    commands_by_name c k -> owned_by k (c_name f) -> c_lc f = Active.

(** whoever owns an interface another controller commands by name is chainable (a controller that
    is not, but bears the name of a joint, would be mistaken for the owner of the joint's interfaces) *)
Definition owners_chainable (m : cm) : Prop :=
  forall c f k, In c (cm_ctrls m) -> In f (cm_ctrls m) -> commands_by_name c k -> owned_by k (c_name f) ->
    c_chainable f = true.

(** the life-cycle state of a loaded controller *)
Definition state_in (m : cm) (n : name) : option lc := option_map c_lc (find_ctrl m n).

(** every loaded controller except [n], in order *)
Definition others (n : name) (m : cm) : list ctrl := filter (fun c => negb (String.eqb (c_name c) n)) (cm_ctrls m).
(** [n] is not left half-configured: it is unconfigured or finalized, or its own on_cleanup
    answered FAILURE and it stayed configured *)
Definition at_rest (e : env) (m : cm) (n : name) : Prop :=
  state_in m n = Some Unconfigured \/ state_in m n = Some Finalized \/
  (state_in m n = Some Inactive /\ exists t, e_ctrl e t n Events.CCleanup = CbFailure).
(** the life-cycle callbacks of controllers in a trace, newest first *)
Definition life (m : cm) : trace :=
  filter (fun ev => match ev with EvCtrlCb _ _ _ | EvCtrlErr _ _ => true | _ => false end) (rm_trace (cm_rm m)).
