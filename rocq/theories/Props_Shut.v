(** Props_Shut.v -- property C78: what is done when the process is asked to end. *)
From Verif Require Import Base Events HwModel RmModel RmSys RmSpec RmWitness ChainModel CmModel CmWitness CmSpec CmTopo UpdateSpec ShutModel ShutSpec ShutProofs ShutProofs2 Props_Cm.
Open Scope string_scope.
Open Scope list_scope.

(** C78.  After any history, shutting the controllers down takes each of them, in the manager's order, through exactly the
    callbacks of [farewell] and nothing else happens; the same controllers are listed afterwards; the answer is "all is well"
    exactly when every controller is finalized; no controller holds an interface any more and no command interface of the
    hardware is claimed. *)
Theorem c78_controllers : forall e allow hs ops m m' ok,
  wf_hw hs -> crun e allow (cm_start hs) ops = Val m -> shutdown_controllers e m = (m', ok) ->
  farewells e (rm_trace (cm_rm m)) (cm_ctrls m) (rm_trace (cm_rm m')) (map c_lc (cm_ctrls m')) /\
  map c_name (cm_ctrls m') = map c_name (cm_ctrls m) /\
  (ok = true <-> forall c, In c (cm_ctrls m') -> c_lc c = Finalized) /\
  (forall c, In c (cm_ctrls m') -> holds_nothing c) /\
  (forall k, In k (flat_map h_cmd hs) -> aget (rm_claimed (cm_rm m')) k <> Some true).
Proof. exact controllers_story. Qed.
Print Assumptions c78_controllers.

(** If the controllers' callbacks succeed: running controllers are deactivated and shut down, the others shut down, each
    callback once; all end finalized and the answer is "all is well". *)
Theorem c78_orderly : forall e allow hs ops m m' ok,
  wf_hw hs -> crun e allow (cm_start hs) ops = Val m -> callbacks_succeed e -> shutdown_controllers e m = (m', ok) ->
  ok = true /\ (forall c, In c (cm_ctrls m') -> c_lc c = Finalized) /\
  rm_trace (cm_rm m') = rev (flat_map goodbye (cm_ctrls m)) ++ rm_trace (cm_rm m).
Proof.
  intros e allow hs ops m m' ok W R CB S. destruct (controllers_story _ _ _ _ _ _ _ W R S) as (A & _ & C & _).
  destruct (farewells_ok _ _ _ _ _ CB A) as [T F].
  assert (X : forall c, In c (cm_ctrls m') -> c_lc c = Finalized).
  { intros c I. apply F; [|apply in_map; exact I]. intros d D. exact (reach_known _ _ _ _ _ _ R D). }
  split; [apply C; exact X|]. split; [exact X|exact T].
Qed.
Print Assumptions c78_orderly.

(** The whole callback: first all controllers, then, whatever came of that, the hardware: only callbacks of components follow;
    if the second answer is "all is well", every component is finalized; and it is, if the components' callbacks succeed. *)
Theorem c78_hardware_after_controllers : forall e allow hs ops m m' ok1 ok2,
  wf_hw hs -> crun e allow (cm_start hs) ops = Val m -> pre_shutdown e m = (m', ok1, ok2) ->
  exists m1, shutdown_controllers e m = (m1, ok1) /\ cm_ctrls m' = cm_ctrls m1 /\
    map h_name (rm_hw (cm_rm m')) = map h_name (rm_hw (cm_rm m)) /\
    (exists evs, rm_trace (cm_rm m') = evs ++ rm_trace (cm_rm m1) /\ Forall hardware_event evs) /\
    (ok2 = true -> forall h, In h (rm_hw (cm_rm m')) -> h_lc h = Finalized) /\
    (hw_callbacks_succeed e -> ok2 = true).
Proof. exact whole_story. Qed.
Print Assumptions c78_hardware_after_controllers.

Definition running : list cop := up_hw ++ load_conf [pos] ++ switch ["pos"] [] true.
(** The naive claim is false: a controller whose on_deactivate answers FAILURE loses its interfaces but stays active, its
    on_shutdown is never called, and the hardware is shut down all the same. *)
Theorem c78_always_finalized_refuted : exists e m m' c,
  crun e true (cm_start plain) running = Val m /\ pre_shutdown e m = (m', false, true) /\ In c (cm_ctrls m') /\
  c_lc c = Active /\ holds_nothing c /\ (forall r, ~ In (EvCtrlCb (c_name c) CShutdown r) (rm_trace (cm_rm m'))) /\
  forall h, In h (rm_hw (cm_rm m')) -> h_lc h = Finalized.
Proof.
  exists stubborn. do 3 eexists. split; [vm_compute; reflexivity|]. split; [vm_compute; reflexivity|].
  split; [left; reflexivity|]. split; [reflexivity|]. split; [split; reflexivity|]. split.
  - intros r H. cbn in H. repeat (destruct H as [H|H]; [discriminate H|]). exact H.
  - intros h H. cbn in H. repeat (destruct H as [<-|H]; [reflexivity|]). destruct H.
Qed.
Print Assumptions c78_always_finalized_refuted.

(** The hypotheses are met: a running controller on running hardware is deactivated and shut down, then the hardware. *)
Example c78_nonvacuous : exists m m' c,
  wf_hw plain /\ callbacks_succeed env_ok /\ hw_callbacks_succeed env_ok /\
  crun env_ok true (cm_start plain) running = Val m /\ cm_ctrls m = [c] /\ c_lc c = Active /\ c_cloans c <> [] /\
  pre_shutdown env_ok m = (m', true, true) /\
  map c_lc (cm_ctrls m') = [Finalized] /\ forall h, In h (rm_hw (cm_rm m')) -> h_lc h = Finalized.
Proof.
  do 3 eexists. split; [apply wf_plain|]. split; [intros t n cb; reflexivity|]. split; [intros t n cb; reflexivity|].
  split; [vm_compute; reflexivity|]. split; [reflexivity|]. split; [reflexivity|]. split; [discriminate|]. split; [vm_compute; reflexivity|].
  split; [reflexivity|]. intros h H. cbn in H. repeat (destruct H as [<-|H]; [reflexivity|]). destruct H.
Qed.
