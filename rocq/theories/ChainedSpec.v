(** ChainedSpec.v -- vocabulary for C64: who commands the reference interfaces of a chainable controller. *)
From Verif Require Import Base Events HwModel RmModel ChainModel CmModel CmSpec FollowSpec.
Open Scope list_scope.

(** [c] can ask for command interface [k] (its command configuration evaluated with everything available) *)
Definition may_command (m : cm) (c : ctrl) (k : name) : Prop := In k (cfg_names (c_cmd c) (everything m)).
(** the chained mode reported for controller [n] *)
Definition chained_in (m : cm) (n : name) : option bool := option_map c_chained (find_ctrl m n).
(** user code: chained mode is never refused, on_deactivate never answers FAILURE *)
Definition chains_freely (e : env) : Prop := forall t n b, e_set_chained e t n b = true.
Definition stops_freely (e : env) : Prop := forall t n, e_ctrl e t n Events.CDeactivate <> CbFailure.
(** a controller that the request stops uses an interface of controller [n] *)
Definition stopped_user (m : cm) (deact : list name) (n : name) : Prop :=
  exists c k, In c (cm_ctrls m) /\ c_lc c = Active /\ In (c_name c) deact /\ may_want m c k /\ owned_by k n.
(** a controller that the request starts, or that keeps running, uses an interface of controller [n] *)
Definition running_user (m : cm) (act deact : list name) (n : name) : Prop :=
  exists c k, In c (cm_ctrls m) /\ (In (c_name c) act \/ (c_lc c = Active /\ ~ In (c_name c) deact)) /\ may_want m c k /\ owned_by k n.
