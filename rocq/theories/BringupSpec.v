(** BringupSpec.v -- the words of property C77. *)
From Verif Require Import LimitsModel EnforceModel Base Events HwModel RmModel InitHwModel LoadModel LoadSpec BringupModel.
Open Scope string_scope. Open Scope nat_scope. Open Scope list_scope.

(** The manager has accepted a description. *)
Definition ready (m : manager) : Prop := r_loaded (m_rm m) = true.
(** Started without a description. *)
Definition no_desc : desc := {| x_text := ""; x_parsed := None |}.
Definition started (u : setup) : manager := construct u no_desc.
(** Nothing was done with any hardware: no component, no interface, no initial states, no services. *)
Definition waiting (m : manager) : Prop :=
  ~ ready m /\ nothing (r_store (m_rm m)) /\ m_boots m = [] /\ m_services m = 0.
(** The manager runs the hardware of description [x]: it was loaded into a new resource manager ([t]: the callbacks that were
    made before), the initial states were set once, and the services were started once (unless a component that could not
    reach its state ended the process). *)
Definition runs (u : setup) (x : desc) (m : manager) : Prop :=
  ready m /\
  exists ds infos t s, x_text x <> "" /\ x_parsed x = Some (ds, infos) /\
    load (u_env u) (u_le u) (u_rate u) ds (new_store t) = (s, true) /\
    r_store (m_rm m) = s /\
    m_boots m = [initial_states (u_env u) (u_initial u) (u_order u (rm_of s)) (u_gorder u (rm_of s)) (rm_of s)] /\
    m_services m = if died m then 0 else 1.
(** The limits in force are those of description [x] (or none, if enforcing them is switched off). *)
Definition limits_of (u : setup) (x : desc) (m : manager) : Prop :=
  exists ds infos, x_parsed x = Some (ds, infos) /\
    r_lims (m_rm m) = if u_limits u then import_limiters infos (empty_world (u_period u)) else empty_world (u_period u).

(** A description that can be loaded whatever happened before (compare C70). *)
Record good (u : setup) (x : desc) (ds : list hwdesc) (infos : list hwinfo) : Prop := {
  g_text : x_text x <> "";
  g_parsed : x_parsed x = Some (ds, infos);
  g_names : names_distinct ds;
  g_plugins : forall d k, In d ds -> kind_of (d_type d) = Some k -> le_create (u_le u) k (d_plugin d) = true;
  g_init : forall d t, In d ds -> known d = true -> e_hw (u_env u) t (d_name d) HInit = CbSuccess;
  g_states : forall k, describes_state ds k -> exists d, In d ds /\ In k (out_states (u_le u) d);
  g_cmds : forall k, describes_cmd ds k -> exists d, In d ds /\ In k (out_cmds (u_le u) d);
  g_own : NoDup (flat_map (out_cmds (u_le u)) ds)
}.
