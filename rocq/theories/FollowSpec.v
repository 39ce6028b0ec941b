(** FollowSpec.v -- vocabulary for C15 and C22: which interfaces a request can make available, and when the validation
    of a request must return. *)
From Verif Require Import Base Events HwModel RmModel CmModel CmSpec.

(** [k] is one of the reference interfaces (exported state interfaces) registered for controller [f] *)
Definition exports_ref (m : cm) (f : ctrl) (k : name) : Prop := exists ks, aget (rm_refs (cm_rm m)) (c_name f) = Some ks /\ In k ks.
Definition exports_state (m : cm) (f : ctrl) (k : name) : Prop := exists ks, aget (rm_exps (cm_rm m)) (c_name f) = Some ks /\ In k ks.
(** [f] runs, or the request asks for it to be started, and it is chainable and not in chained mode *)
Definition may_be_chained (m : cm) (act : list name) (f : ctrl) : Prop :=
  In f (cm_ctrls m) /\ c_chainable f = true /\ c_chained f = false /\ (c_lc f = Active \/ In (c_name f) act).
(** no requested controller asks for an interface of a loaded controller *)
Definition no_chaining (m : cm) (act : list name) : Prop :=
  forall c k, In c (cm_ctrls m) -> In (c_name c) act -> wants m c k ->
    exists b, owned_by k b /\ forall f, In f (cm_ctrls m) -> c_name f <> b.
Definition same_availability (m m' : cm) : Prop :=
  rm_avc (cm_rm m') = rm_avc (cm_rm m) /\ rm_avs (cm_rm m') = rm_avs (cm_rm m).

(** every name that is, or can be made, available *)
Definition everything (m : cm) : list name :=
  rm_avc (cm_rm m) ++ rm_avs (cm_rm m) ++ flat_map snd (rm_refs (cm_rm m)) ++ flat_map snd (rm_exps (cm_rm m)).
(** [c] can ask for [k]: its configurations evaluated with everything available *)
Definition may_want (m : cm) (c : ctrl) (k : name) : Prop :=
  In k (cfg_names (c_cmd c) (everything m)) \/ In k (cfg_names (c_state c) (everything m)).
(** the controllers do not refer to each other in a circle *)
Definition acyclic (m : cm) : Prop :=
  exists rank : name -> nat, forall c f k, In c (cm_ctrls m) -> In f (cm_ctrls m) ->
    may_want m c k -> owned_by k (c_name f) -> rank (c_name f) < rank (c_name c).
(** every interface name has the form "owner/..." *)
Definition proper_names (m : cm) : Prop :=
  forall c k, In c (cm_ctrls m) -> may_want m c k -> exists b, owned_by k b.
(** every configured controller whose interfaces are asked for has its exports registered with the resource manager *)
Definition exports_registered (m : cm) : Prop :=
  forall c f k, In c (cm_ctrls m) -> In f (cm_ctrls m) -> may_want m c k -> owned_by k (c_name f) ->
    (c_lc f = Inactive \/ c_lc f = Active) ->
    aget (rm_refs (cm_rm m)) (c_name f) <> None /\ aget (rm_exps (cm_rm m)) (c_name f) <> None.
(** every command interface that is, or can be made, available has an entry in the table of claims *)
Definition claims_known (m : cm) : Prop :=
  forall k, (In k (rm_avc (cm_rm m)) \/ exists n ks, aget (rm_refs (cm_rm m)) n = Some ks /\ In k ks) ->
    aget (rm_claimed (cm_rm m)) k <> None.
(** every loaded controller the request asks to start is configured *)
Definition all_configured (m : cm) (act : list name) : Prop :=
  forall c, In c (cm_ctrls m) -> In (c_name c) act -> c_lc c = Inactive \/ c_lc c = Active.
