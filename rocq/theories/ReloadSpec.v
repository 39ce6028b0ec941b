(** ReloadSpec.v -- specification: when reload_controller_libraries must succeed. *)
From Verif Require Import Base Events HwModel RmModel CmModel CmSpec UpdateSpec FollowSpec DoneSpec AcceptSpec.
Open Scope list_scope.

Record stoppable (e : env) (allow : bool) (m : cm) : Prop := {
  (* no service is running; every controller is unconfigured, inactive or active *)
  st_idle : cm_pend m = None;
  st_lc : forall c, In c (cm_ctrls m) -> c_lc c = Unconfigured \/ c_lc c = Inactive \/ c_lc c = Active;
  (* the user code succeeds *)
  st_works : forall c, In c (cm_ctrls m) -> c_lc c = Active -> works e (c_name c);
  st_clean : forall t n, e_ctrl e t n Events.CCleanup = CbSuccess;
  st_hwp : hardware_performs e;
  (* the running controllers name their interfaces, which are available on hardware that is active and agrees *)
  st_named : forall c, In c (cm_ctrls m) -> c_lc c = Active -> by_name c;
  st_run : running_available m;
  st_hw : forall h c k, In h (rm_hw (cm_rm m)) -> In c (cm_ctrls m) -> c_lc c = Active -> wants_cmd m c k -> In k (h_cmd h) ->
    (h_lc h = Active \/ (h_lc h = Inactive /\ allow = true)) /\ (forall t s p, e_prepare e t (h_name h) s p = Ret ROk);
  (* names are proper and the validation of the switch returns (C22) *)
  st_own : own_names m; st_acyc : acyclic m; st_names : proper_names m; st_reg : exports_registered m; st_claims : claims_known m }.
