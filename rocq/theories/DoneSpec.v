(** DoneSpec.v -- specification: what a switch request asks for can be done, in terms of the
    controllers that are to run afterwards and the interfaces they name. *)
From Verif Require Import Base Events HwModel RmModel CmModel CmSpec UpdateSpec FollowSpec.

(** [c] is to run when the switch is over: it is started, or it runs and is not stopped *)
Definition runs_after (m : cm) (a d : list name) (c : ctrl) : Prop :=
  In c (cm_ctrls m) /\ (In (c_name c) a \/ (c_lc c = Active /\ ~ In (c_name c) d)).
(** command interface [k] can be used by a controller that is to run: it belongs to a hardware
    component and is available, or it is exported by a chainable controller that is to run too
    (available if that controller runs already; if it is claimed, a running controller holds it) *)
Definition cmd_served (m : cm) (a d : list name) (k : name) : Prop :=
  (In k (flat_map h_cmd (rm_hw (cm_rm m))) /\ In k (rm_avc (cm_rm m))) \/
  (exists g, runs_after m a d g /\ c_chainable g = true /\ exports_ref m g k /\
     (In (c_name g) a \/ In k (rm_avc (cm_rm m))) /\
     (aget (rm_claimed (cm_rm m)) k = Some true -> exists x, In x (cm_ctrls m) /\ c_lc x = Active /\ In k (c_cloans x))).
Definition state_served (m : cm) (a d : list name) (k : name) : Prop :=
  (In k (flat_map h_state (rm_hw (cm_rm m))) /\ In k (rm_avs (cm_rm m))) \/
  (exists g, runs_after m a d g /\ c_chainable g = true /\ exports_state m g k /\
     (In (c_name g) a \/ In k (rm_avs (cm_rm m)))).
(** the exports of a chainable controller are known to the resource manager *)
Definition registered (m : cm) (c : ctrl) : Prop :=
  aget (rm_refs (cm_rm m)) (c_name c) <> None /\ aget (rm_exps (cm_rm m)) (c_name c) <> None.
(** the controllers that are to run ask for their interfaces by name, every interface can be used,
    and no command interface is asked for by two of them *)
Definition realizable (m : cm) (a d : list name) : Prop :=
  (forall c, runs_after m a d c -> by_name c /\
     (forall k, wants_cmd m c k -> cmd_served m a d k) /\ (forall k, wants_state m c k -> state_served m a d k) /\
     (c_chainable c = true -> registered m c)) /\
  (forall c1 c2 k, runs_after m a d c1 -> runs_after m a d c2 -> c_name c1 <> c_name c2 ->
     wants_cmd m c1 k -> ~ wants_cmd m c2 k).
(** the activation and deactivation callbacks of controller [n] succeed *)
Definition works (e : env) (n : name) : Prop :=
  forall t, e_ctrl e t n CActivate = CbSuccess /\ e_ctrl e t n CDeactivate = CbSuccess.
(** every hardware component carries out the mode switches it has agreed to *)
Definition hardware_performs (e : env) : Prop := forall t n s p, e_perform e t n s p = Ret ROk.
(** the state of [n] after a switch that did what it was asked: *)
Definition asked_state (m : cm) (a d : list name) (n : name) : option lc :=
  if in_dec string_dec n a then Some Active else if in_dec string_dec n d then Some Inactive else state_in m n.
