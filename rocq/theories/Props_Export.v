(** Props_Export.v -- C59: the interfaces a chainable controller exports follow its life cycle. *)
From Verif Require Import Base Events HwModel RmModel RmSys RmSpec RmSpec2 RmWitness ChainModel CmModel CmSpec CmWitness UpdateSpec ExportSpec CmExport7.
Open Scope string_scope.
Open Scope list_scope.

(** In every reachable state, for a controller whose callbacks may refuse but never fail with an error and whose
    on_cleanup succeeds: while it is configured (inactive or active) and chainable, the resource manager has exactly the
    interfaces it exports on record; while it is unconfigured, not chainable or not loaded, nothing. *)
Theorem c59_registered : forall e allow hs ops m n, wf_hw hs -> crun e allow (cm_start hs) ops = Val m -> steady e n -> cleans e n ->
  (forall c, In c (cm_ctrls m) -> c_name c = n -> c_chainable c = true -> configured (c_lc c) -> on_record m c) /\
  (forall c, In c (cm_ctrls m) -> c_name c = n -> c_chainable c = false \/ c_lc c = Unconfigured -> not_on_record m n) /\
  (forall c, In c (cm_ctrls m) -> c_name c = n -> c_lc c = Unconfigured \/ configured (c_lc c)) /\
  (~ In n (map c_name (cm_ctrls m)) -> not_on_record m n).
Proof. exact main_registered. Qed.
Print Assumptions c59_registered.
(** An active chainable controller (whose on_deactivate does not refuse) offers everything it exports, whatever hardware
    failures, rejected requests, rollbacks and switches of other controllers happened before. *)
Theorem c59_active_offered : forall e allow hs ops m c, wf_hw hs -> crun e allow (cm_start hs) ops = Val m -> deactivates e (c_name c) ->
  In c (cm_ctrls m) -> c_chainable c = true -> c_lc c = Active -> offered m (c_name c).
Proof. exact main_active_offered. Qed.
Print Assumptions c59_active_offered.
(** A successful configure_controller puts the exports on record and leaves them withdrawn. *)
Theorem c59_configured_withdrawn : forall e allow hs ops m n order m', wf_hw hs -> crun e allow (cm_start hs) ops = Val m ->
  cstep e allow m (CConfigure n order) = Val (m', CBool true) ->
  exists c', In c' (cm_ctrls m') /\ c_name c' = n /\ c_lc c' = Inactive /\ (c_chainable c' = true -> on_record m' c' /\ withdrawn m' n).
Proof. exact main_configured. Qed.
Print Assumptions c59_configured_withdrawn.
(** When an active chainable controller stops, for whatever reason (request, hardware failure, failing update,
    rollback), its exports are withdrawn by the same operation, unless that operation also tries to start it again. *)
Theorem c59_stopped_withdrawn : forall e allow hs ops m o m' out c c', wf_hw hs -> crun e allow (cm_start hs) ops = Val m ->
  cstep e allow m o = Val (m', out) ->
  In c (cm_ctrls m) -> c_chainable c = true -> c_lc c = Active -> on_record m c -> ~ In (c_name c) (may_start m o) ->
  In c' (cm_ctrls m') -> c_name c' = c_name c -> c_lc c' <> Active -> withdrawn m' (c_name c) /\ on_record m' c'.
Proof. exact main_stopped. Qed.
Print Assumptions c59_stopped_withdrawn.

Definition ops_chain : list cop := up_hw ++ load_conf [pid; adm; plan] ++ switch ["plan"; "adm"; "pid"] [] true.
Example c59_example_running : exists m c, crun env_ok true (cm_start plain) ops_chain = Val m /\ steady env_ok "pid" /\ cleans env_ok "pid" /\ deactivates env_ok "pid" /\
  In c (cm_ctrls m) /\ c_name c = "pid" /\ c_chainable c = true /\ c_lc c = Active /\ refs_of m "pid" = Some ["pid/ref"] /\ exps_of m "pid" = Some ["pid/est"] /\
  In "pid/ref" (rm_avc (cm_rm m)) /\ In "pid/est" (rm_avs (cm_rm m)).
Proof.
  do 2 eexists. split; [vm_compute; reflexivity|]. split; [split; discriminate|]. split; [intros t; reflexivity|]. split; [discriminate|].
  split; [left; reflexivity|]. split; [reflexivity|]. split; [reflexivity|]. split; [reflexivity|]. split; [vm_compute; reflexivity|]. split; [vm_compute; reflexivity|].
  split; rewrite <- mem_In; vm_compute; reflexivity.
Qed.
(** a hardware failure stops pid and withdraws its exports *)
Definition arm_dies := with_read env_ok (fun t h => if mem h ["arm"] then Ret RError else Ret ROk).
Example c59_example_stop : exists m m' out c c', crun arm_dies true (cm_start plain) ops_chain = Val m /\ cstep arm_dies true m CRead = Val (m', out) /\
  In c (cm_ctrls m) /\ c_name c = "pid" /\ c_chainable c = true /\ c_lc c = Active /\ on_record m c /\ ~ In "pid" (may_start m CRead) /\
  In c' (cm_ctrls m') /\ c_name c' = "pid" /\ c_lc c' = Inactive /\ ~ In "pid/ref" (rm_avc (cm_rm m')) /\ ~ In "pid/est" (rm_avs (cm_rm m')).
Proof.
  do 5 eexists. split; [vm_compute; reflexivity|]. split; [vm_compute; reflexivity|]. split; [left; reflexivity|]. split; [reflexivity|]. split; [reflexivity|]. split; [reflexivity|].
  split; [split; [vm_compute; reflexivity|exists ["pid/est"]; split; [vm_compute; reflexivity|intros x Hx; exact Hx]]|]. split; [intros []|].
  split; [left; reflexivity|]. split; [reflexivity|]. split; [reflexivity|]. split; rewrite <- mem_In; vm_compute; discriminate.
Qed.
Example c59_example_configured : exists m m', crun env_ok true (cm_start plain) (up_hw ++ [CLoad pid true]) = Val m /\
  cstep env_ok true m (CConfigure "pid" []) = Val (m', CBool true) /\ refs_of m "pid" = None /\ refs_of m' "pid" = Some ["pid/ref"].
Proof. do 2 eexists. split; [vm_compute; reflexivity|]. split; [vm_compute; reflexivity|]. vm_compute. auto. Qed.

(** The provisos are needed.  After an error in on_activate the controller is unconfigured, yet its exports stay on record. *)
Definition pid_breaks := with_ctrl env_ok (fun t n cb => match cb with Events.CActivate => if String.eqb n "pid" then CbError else CbSuccess | _ => CbSuccess end).
Theorem c59_registered_refuted_error : exists e allow hs ops m c, wf_hw hs /\ crun e allow (cm_start hs) ops = Val m /\ cleans e "pid" /\
  In c (cm_ctrls m) /\ c_name c = "pid" /\ c_lc c = Unconfigured /\ refs_of m "pid" = Some ["pid/ref"].
Proof.
  exists pid_breaks, true, plain, (up_hw ++ load_conf [pid] ++ switch ["pid"] [] true). do 2 eexists. split; [apply wf_plain|]. split; [vm_compute; reflexivity|]. split; [intros t; reflexivity|].
  split; [left; reflexivity|]. split; [reflexivity|]. split; [reflexivity|vm_compute; reflexivity].
Qed.
Print Assumptions c59_registered_refuted_error.
(** If on_cleanup refuses while an inactive controller is configured again, it stays inactive but has nothing on record any more. *)
Definition pid_keeps := with_ctrl env_ok (fun t n cb => match cb with Events.CCleanup => CbFailure | _ => CbSuccess end).
Theorem c59_registered_refuted_cleanup : exists e allow hs ops m c, wf_hw hs /\ crun e allow (cm_start hs) ops = Val m /\ steady e "pid" /\
  In c (cm_ctrls m) /\ c_name c = "pid" /\ c_chainable c = true /\ c_lc c = Inactive /\ not_on_record m "pid".
Proof.
  exists pid_keeps, true, plain, (up_hw ++ load_conf [pid] ++ [CConfigure "pid" []]). do 2 eexists. split; [apply wf_plain|]. split; [vm_compute; reflexivity|].
  split; [intros t cb; destruct cb; split; discriminate|]. split; [left; reflexivity|]. split; [reflexivity|]. split; [reflexivity|]. split; [reflexivity|vm_compute; auto].
Qed.
Print Assumptions c59_registered_refuted_cleanup.
(** A controller that refuses to be deactivated stays active with its exports withdrawn. *)
Definition pid_stays := with_ctrl env_ok (fun t n cb => match cb with Events.CDeactivate => CbFailure | _ => CbSuccess end).
Theorem c59_active_offered_refuted : exists e allow hs ops m c, wf_hw hs /\ crun e allow (cm_start hs) ops = Val m /\
  In c (cm_ctrls m) /\ c_name c = "pid" /\ c_chainable c = true /\ c_lc c = Active /\ refs_of m "pid" = Some ["pid/ref"] /\ ~ In "pid/ref" (rm_avc (cm_rm m)).
Proof.
  exists pid_stays, true, plain, (up_hw ++ load_conf [pid] ++ switch ["pid"] [] true ++ switch [] ["pid"] true). do 2 eexists. split; [apply wf_plain|]. split; [vm_compute; reflexivity|].
  split; [left; reflexivity|]. split; [reflexivity|]. split; [reflexivity|]. split; [reflexivity|]. split; [vm_compute; reflexivity|]. rewrite <- mem_In. vm_compute. discriminate.
Qed.
Print Assumptions c59_active_offered_refuted.
(** "Inactive means withdrawn" is false in general, even if every callback succeeds: a rejected request leaves pid's
    interfaces offered. *)
Theorem c59_inactive_withdrawn_refuted : exists hs ops m c, wf_hw hs /\ crun env_ok true (cm_start hs) ops = Val m /\
  In c (cm_ctrls m) /\ c_name c = "pid" /\ c_lc c = Inactive /\ refs_of m "pid" = Some ["pid/ref"] /\ In "pid/ref" (rm_avc (cm_rm m)).
Proof.
  exists plain, (up_hw ++ load_conf [pid; adm] ++ [CLoad plan true; CRequest ["adm"; "pid"; "plan"] [] true true]). do 2 eexists. split; [apply wf_plain|]. split; [vm_compute; reflexivity|].
  split; [left; reflexivity|]. split; [reflexivity|]. split; [reflexivity|]. split; [vm_compute; reflexivity|]. rewrite <- mem_In. vm_compute. reflexivity.
Qed.
Print Assumptions c59_inactive_withdrawn_refuted.
