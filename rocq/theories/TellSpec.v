(** TellSpec.v -- words for what hardware components are told about command interfaces that start
    and stop being used (C58).  Nothing here refers to the algorithm of the model. *)
From Verif Require Import Base Events HwModel RmModel RmSpec RmSpec2 CmModel CmSpec UpdateSpec LifeSpec.
Open Scope list_scope.

(** [k] is a command interface of one of the controllers [ns] of [m]; configurations of type ALL,
    REGEX or BEST_EFFORT are evaluated with the interfaces available in [m'] *)
Definition commanded (m m' : cm) (ns : list name) (k : name) : Prop :=
  exists c, In c (cm_ctrls m) /\ In (c_name c) ns /\ wants_cmd m' c k.

(** the same for the controllers among [ns] that are configured (inactive or active) in [m] *)
Definition commanded_configured (m m' : cm) (ns : list name) (k : name) : Prop :=
  exists c, In c (cm_ctrls m) /\ In (c_name c) ns /\ (c_lc c = Inactive \/ c_lc c = Active) /\ wants_cmd m' c k.

(** the component [n] was told to prepare (perform) the switch, exactly with its own share of the
    interfaces that start and stop *)
Definition tells (op : mode_op) (m : cm) (start stop : name -> Prop) (ev : event) : Prop :=
  exists n h s p x, ev = RmSpec.mode_event op n s p x /\ find_hw (cm_rm m) n = Some h /\ h_kind h <> Sensor /\
    (forall k, In k s <-> start k /\ In k (h_cmd h)) /\ (forall k, In k p <-> stop k /\ In k (h_cmd h)) /\
    exists k, In k (h_cmd h) /\ (start k \/ stop k).

(** nothing else happened, and nobody was told twice *)
Definition told (op : mode_op) (m : cm) (start stop : name -> Prop) (t : trace) : Prop :=
  Forall (tells op m start stop) t /\ forall n, count (is_call op n) t <= 1.

(** moreover every actuator and system with such an interface was told, and all agreed *)
Definition all_agreed (op : mode_op) (m : cm) (start stop : name -> Prop) (t : trace) : Prop :=
  told op m start stop t /\
  Forall (fun ev => exists n s p, ev = RmSpec.mode_event op n s p (Ret ROk)) t /\
  forall n h, find_hw (cm_rm m) n = Some h -> h_kind h <> Sensor ->
    (exists k, In k (h_cmd h) /\ (start k \/ stop k)) -> count (is_call op n) t = 1.

Definition nothing : name -> Prop := fun _ => False.

(** the component can take part in a switch that only stops interfaces: it is configured and agrees *)
Definition can_stop (e : env) (m : cm) (stop : name -> Prop) : Prop :=
  (forall k, stop k -> In k (rm_ckeys (cm_rm m)) /\ In k (rm_avc (cm_rm m))) /\
  forall n h, find_hw (cm_rm m) n = Some h -> h_kind h <> Sensor -> (exists k, In k (h_cmd h) /\ stop k) ->
    configured (h_lc h) /\ (forall t s p, e_prepare e t n s p = Ret ROk /\ e_perform e t n s p = Ret ROk).

(** the state right after the hardware was read (written) in this cycle *)
Definition after_read (e : env) (m : cm) : cm := set_rm (emit m EvOp) (fst (rm_read e (cm_rm (emit m EvOp)))).
Definition after_write (e : env) (m : cm) : cm := set_rm (emit m EvOp) (fst (rm_write e (cm_rm (emit m EvOp)))).
(** controllers registered as users of the components that failed in this cycle *)
Definition users_of_failed (m : cm) (st : rwstatus) : list name :=
  flat_map (cached_controllers (cm_rm m)) (rw_failed st).

(** what happens when an accepted switch is carried out: the hardware is told first, exactly the
    interfaces that start and stop; if some component refuses nothing else happens and no controller
    changes; otherwise only controllers are called, and if an activation fails the hardware is told
    that the interfaces just started stop again *)
Definition carried_out (m m' : cm) (start stop : name -> Prop) : Prop :=
  exists now ctl prepared performed, happened m m' (performed ++ prepared ++ ctl ++ now) /\
    told MPerform m start stop now /\ Forall switches_ctrl ctl /\
    told MPrepare m nothing start prepared /\ told MPerform m nothing start performed /\
    (all_agreed MPerform m start stop now \/
     (performed = [] /\ prepared = [] /\ ctl = [] /\ cm_ctrls m' = cm_ctrls m)).
Definition waits (o : cop) : Prop := o <> CPerform /\ o <> CTimeout /\ o <> CEvaluate.

(** the command interfaces that start or stop when the update of controllers failed: those of the
    fallback controllers; those of the controllers taken out, and of active controllers that use a
    command interface of a fallback controller *)
Definition starts_in_update (m m' : cm) (k : name) : Prop :=
  exists c, In c (cm_ctrls m) /\ (c_lc c = Inactive \/ c_lc c = Active) /\ fallback_for m m' (c_name c) /\ wants_cmd m c k.
Definition in_the_way (m m' : cm) (c : ctrl) : Prop :=
  c_lc c = Active /\ exists f k, In f (cm_ctrls m) /\ fallback_for m m' (c_name f) /\ wants_cmd m f k /\ wants_cmd m c k.
Definition stops_in_update (m m' : cm) (k : name) : Prop :=
  exists c, In c (cm_ctrls m) /\ (c_lc c = Inactive \/ c_lc c = Active) /\ (taken_out m m' (c_name c) \/ in_the_way m m' c) /\ wants_cmd m c k.

(** the interfaces are there and every actuator and system concerned is configured and agrees *)
Definition can_switch (e : env) (allow : bool) (m : cm) (start stop : name -> Prop) : Prop :=
  (forall k, start k \/ stop k -> In k (rm_ckeys (cm_rm m)) /\ In k (rm_avc (cm_rm m))) /\
  forall n h, find_hw (cm_rm m) n = Some h -> h_kind h <> Sensor -> (exists k, In k (h_cmd h) /\ (start k \/ stop k)) ->
    configured (h_lc h) /\ (allow = true \/ h_lc h = Active \/ forall k, start k -> ~ In k (h_cmd h)) /\
    (forall t s p, e_prepare e t n s p = Ret ROk /\ e_perform e t n s p = Ret ROk).
Definition reads_hw (ev : event) : Prop := match ev with EvRead _ _ | EvHwErr _ _ => True | _ => False end.
Definition writes_hw (ev : event) : Prop := match ev with EvWrite _ _ | EvHwErr _ _ | EvHwCb _ _ _ => True | _ => False end.
