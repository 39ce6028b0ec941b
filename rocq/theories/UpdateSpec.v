(** UpdateSpec.v -- vocabulary for C25 and C26: which controllers failed in a cycle, what replaces them, which
    controllers use a hardware component. *)
From Verif Require Import Base Events HwModel RmModel CmModel CmSpec.

(** the events of the step from [m] to [m'], newest first *)
Definition happened (m m' : cm) (t : trace) : Prop := rm_trace (cm_rm m') = t ++ EvOp :: rm_trace (cm_rm m).
(** controller [n] was updated in this step and did not report OK (an error or an exception) *)
Definition failed_update (m m' : cm) (n : name) : Prop :=
  exists t r, happened m m' t /\ In (EvUpdate n r) t /\ r <> Ret ROk.
(** [n] is in the chain group of a controller that failed in this step *)
Definition taken_out (m m' : cm) (n : name) : Prop :=
  exists c, In c (cm_ctrls m) /\ failed_update m m' (c_name c) /\ In n (c_group c).
(** [f] is listed as fallback of a controller that is taken out *)
Definition fallback_for (m m' : cm) (f : name) : Prop :=
  exists d, In d (cm_ctrls m) /\ taken_out m m' (c_name d) /\ In f (c_fallback d).
(** the on_deactivate callback of [n] never answers FAILURE *)
Definition deactivates (e : env) (n : name) : Prop := forall t, e_ctrl e t n Events.CDeactivate <> CbFailure.
(** all life-cycle callbacks of controllers succeed *)
Definition callbacks_succeed (e : env) : Prop := forall t n cb, e_ctrl e t n cb = CbSuccess.

(** a stand-alone fallback controller: configured, not chainable, all its interfaces belong to hardware and are available *)
Definition hw_interfaces (m : cm) (c : ctrl) : Prop :=
  (forall k, wants_cmd m c k -> In k (flat_map h_cmd (rm_hw (cm_rm m))) /\ In k (rm_avc (cm_rm m))) /\
  (forall k, wants_state m c k -> In k (flat_map h_state (rm_hw (cm_rm m))) /\ In k (rm_avs (cm_rm m))).
(** the controller asks for its interfaces by name *)
Definition by_name (c : ctrl) : Prop := exists ks ss, c_cmd c = IIndividual ks /\ c_state c = IIndividual ss /\ NoDup ks.

(** ---------------------------------------------------------------- C26: hardware errors *)
(** controller [c] uses an interface of component [h] *)
Definition owns (h : hwc) (k : name) : Prop := In k (h_cmd h) \/ In k (h_state h).
Definition uses (c : ctrl) (h : hwc) : Prop :=
  exists k, owns h k /\ ((exists ks, c_cmd c = IIndividual ks /\ In k ks) \/ (exists ss, c_state c = IIndividual ss /\ In k ss)).
(** no interface name belongs to two components *)
Definition sole_owners (m : cm) : Prop :=
  forall h1 h2 k, In h1 (rm_hw (cm_rm m)) -> In h2 (rm_hw (cm_rm m)) -> owns h1 k -> owns h2 k -> h_name h1 = h_name h2.
(** what the resource manager reports for the read / write of this cycle: result and failed_hardware_names *)
Definition read_report (e : env) (m : cm) : rwstatus := snd (rm_read e (cm_rm (emit m EvOp))).
Definition write_report (e : env) (m : cm) : rwstatus := snd (rm_write e (cm_rm (emit m EvOp))).
(** no controller of the history has fallback controllers *)
Definition without_fallbacks (ops : list cop) : Prop := forall c ok, In (CLoad c ok) ops -> c_fallback c = [].
