(** LoadSpec.v -- what "loading a robot description" should mean, in terms of the description, of
    what the plugins do and of what the resource manager lists afterwards. *)
From Coq Require Import Permutation.
From Verif Require Import Base Events HwModel RmModel LoadModel.
Open Scope string_scope. Open Scope nat_scope. Open Scope list_scope.

(** The three component types. *)
Definition known (d : hwdesc) : bool := mem (d_type d) ["actuator"; "sensor"; "system"].
Definition of_type (t : name) (d : hwdesc) : bool := String.eqb (d_type d) t.

(** Interfaces the description names ("joint/interface"). *)
Definition describes_state (ds : list hwdesc) (k : name) : Prop :=
  exists d p i, In d ds /\ (In p (d_joints d) \/ In p (d_sensors d) \/ In p (d_gpios d)) /\
    In i (p_states p) /\ k = (p_name p ++ "/" ++ i)%string.
Definition describes_cmd (ds : list hwdesc) (k : name) : Prop :=
  exists d p i, In d ds /\ (In p (d_joints d) \/ In p (d_gpios d)) /\
    In i (p_cmds p) /\ k = (p_name p ++ "/" ++ i)%string.

(** What the described components export: unknown types are not created, a sensor has no command
    interfaces, an export that throws exports nothing. *)
Definition or_nil {A} (o : option (list A)) : list A := match o with Some l => l | None => [] end.
Definition out_states (le : lenv) (d : hwdesc) : list name :=
  if known d then or_nil (le_states le (d_name d)) else [].
Definition out_cmds (le : lenv) (d : hwdesc) : list name :=
  if known d && negb (of_type "sensor" d) then or_nil (le_cmds le (d_name d)) else [].

(** Nothing is loaded. *)
Record nothing (s : store) : Prop := {
  no_comps : rm_hw (rm_of s) = [];
  no_states : rm_skeys (rm_of s) = [];
  no_cmds : rm_ckeys (rm_of s) = [];
  no_claims : rm_claimed (rm_of s) = [];
  no_av : rm_avs (rm_of s) = [] /\ rm_avc (rm_of s) = [];
  no_info : s_info s = []
}.

(** The read/write rate: the described one when it is between 1 and the manager's, otherwise the
    manager's. *)
Definition rate_ok (ur : nat) (d : hwdesc) (q : nat) : Prop :=
  (0 < d_rate d /\ d_rate d <= ur -> q = d_rate d) /\
  (d_rate d = 0 \/ ur < d_rate d -> q = ur).

(** A loaded component is the described one, in the state Unconfigured. *)
Definition is_loaded (k : hkind) (d : hwdesc) (h : hwc) : Prop :=
  h_name h = d_name d /\ h_kind h = k /\ h_group h = d_group d /\ h_lc h = Unconfigured.

(** The successful initializations, newest first. *)
Definition inits (ds : list hwdesc) : trace :=
  rev (map (fun d => EvHwCb (d_name d) HInit CbSuccess) (filter known ds)).

(** No component carries the name of an earlier one that was loaded. *)
Inductive names_distinct : list hwdesc -> Prop :=
| nd_nil : names_distinct []
| nd_cons d ds :
    (known d = true -> forall d', In d' ds -> d_name d' <> d_name d) ->
    names_distinct ds -> names_distinct (d :: ds).

(** Two resource managers nobody can tell apart: same components, same interfaces, same claims,
    same availability, same group states, same users. *)
Record same_manager (a b : rm) : Prop := {
  sm_hw : rm_hw a = rm_hw b;
  sm_states : Permutation (rm_skeys a) (rm_skeys b);
  sm_cmds : Permutation (rm_ckeys a) (rm_ckeys b);
  sm_claimed : forall k, aget (rm_claimed a) k = aget (rm_claimed b) k;
  sm_av : rm_avs a = rm_avs b /\ rm_avc a = rm_avc b;
  sm_refs : rm_refs a = rm_refs b /\ rm_exps a = rm_exps b;
  sm_groups : forall g, aget (rm_groups a) g = aget (rm_groups b) g;
  sm_used : forall n, aget (rm_used a) n = aget (rm_used b) n
}.

(** A resource manager just constructed. *)
Definition blank : store :=
  {| s_act := []; s_sen := []; s_sys := []; s_info := [];
     s_rm := {| rm_hw := []; rm_skeys := []; rm_ckeys := []; rm_claimed := []; rm_avs := [];
                rm_avc := []; rm_refs := []; rm_exps := []; rm_groups := []; rm_used := [];
                rm_trace := [] |} |}.
