(** AcceptSpec.v -- specification: what a STRICT switch request must satisfy to be accepted, in terms of the loaded
    controllers, the interfaces they name, and the hardware. *)
From Verif Require Import Base Events HwModel RmModel CmModel CmSpec UpdateSpec FollowSpec DoneSpec.

(** names tell who owns an interface: what a controller exports is called "its name/...", and no controller bears the
    name of a joint *)
Definition own_names (m : cm) : Prop :=
  (forall f k, In f (cm_ctrls m) -> exports_ref m f k \/ exports_state m f k -> owned_by k (c_name f)) /\
  (forall f k, In f (cm_ctrls m) -> In k (flat_map h_cmd (rm_hw (cm_rm m)) ++ flat_map h_state (rm_hw (cm_rm m))) ->
     ~ owned_by k (c_name f)).
(** the fallback controllers of a started controller [c] are configured, and what they ask for by name is available or is
    exported by another fallback of [c] *)
Definition fallbacks_usable (m : cm) (a : list name) : Prop :=
  forall c n, In c (cm_ctrls m) -> In (c_name c) a -> In n (c_fallback c) ->
    exists b, In b (cm_ctrls m) /\ c_name b = n /\ (c_lc b = Inactive \/ c_lc b = Active) /\
      (forall ks k, c_cmd b = IIndividual ks -> In k ks -> In k (rm_avc (cm_rm m)) \/
         exists f, In f (cm_ctrls m) /\ owned_by k (c_name f) /\ c_lc f = Inactive /\ In (c_name f) (c_fallback c) /\ exports_ref m f k) /\
      (forall ks k, c_state b = IIndividual ks -> In k ks -> In k (rm_avs (cm_rm m)) \/
         exists f, In f (cm_ctrls m) /\ owned_by k (c_name f) /\ c_lc f = Inactive /\ In (c_name f) (c_fallback c) /\ exports_state m f k).
(** the command interfaces of the running controllers are there *)
Definition running_available (m : cm) : Prop :=
  forall c k, In c (cm_ctrls m) -> c_lc c = Active -> wants_cmd m c k -> In k (rm_avc (cm_rm m)) /\ In k (rm_ckeys (cm_rm m)).
(** every hardware component with a command interface of a stopped controller, or of one that is to run, is active (or
    inactive and that is allowed) and agrees to every switch *)
Definition hardware_agrees (e : env) (allow : bool) (m : cm) (a d : list name) : Prop :=
  forall h c k, In h (rm_hw (cm_rm m)) -> In c (cm_ctrls m) -> In (c_name c) d \/ runs_after m a d c ->
    wants_cmd m c k -> In k (h_cmd h) ->
    (h_lc h = Active \/ (h_lc h = Inactive /\ allow = true)) /\ (forall t s p, e_prepare e t (h_name h) s p = Ret ROk).

(** a request that must be accepted: *)
Record acceptable (e : env) (allow : bool) (m : cm) (a d : list name) : Prop := {
  (* no switch is under way, something is asked for, nothing is asked for twice *)
  ac_idle : cm_pend m = None; ac_some : a ++ d <> []; ac_once : NoDup (a ++ d);
  (* the controllers are loaded; those to stop are active, those to start are inactive and not in chained mode *)
  ac_loaded : all_loaded m (a ++ d); ac_stop : stops_active m d;
  ac_start : forall c, In c (cm_ctrls m) -> In (c_name c) a -> c_lc c = Inactive /\ c_chained c = false;
  (* whoever is to run afterwards can: see [realizable] *)
  ac_real : realizable m a d;
  ac_named : forall c, In c (cm_ctrls m) -> In (c_name c) d -> by_name c;
  ac_own : own_names m; ac_fb : fallbacks_usable m a; ac_run : running_available m; ac_hw : hardware_agrees e allow m a d;
  (* the conditions of C22 under which the validation returns *)
  ac_acyc : acyclic m; ac_names : proper_names m; ac_reg : exports_registered m; ac_claims : claims_known m }.
