(** Props_Tell.v -- C58: hardware is told exactly which command interfaces start and stop being used. *)
From Verif Require Import Base Events HwModel RmModel RmSys RmSpec RmSpec2 RmWitness ChainModel CmModel CmPrim CmTopo CmInv CmReach CmWitness CmSpec UpdateSpec LifeSpec TellSpec CmTell CmTell2 CmTell3 Props_Update.
Open Scope string_scope.
Open Scope list_scope.

(** C58: an accepted STRICT request starts the command interfaces of the controllers to activate (and of the controllers
    that are only restarted) and stops those of the controllers to deactivate (and restarted); before the answer every
    actuator and system with such an interface has agreed to exactly its share.  When the switch is carried out they are
    told exactly the same, before any controller is called; if one refuses, no controller changes; if an activation
    fails, they are told that the interfaces just started stop. *)
Theorem c58_switch : forall e allow hs ops m a d asap m1,
  wf_hw hs -> crun e allow (cm_start hs) ops = Val m ->
  cstep e allow m (CRequest a d true asap) = Val (m1, CSw SwPending) ->
  exists restarted, (forall n, In n restarted -> ~ In n d /\ state_in m n = Some Active) /\
    let start := commanded m m1 (a ++ restarted) in
    let stop := commanded m m1 (d ++ restarted) in
    (exists t, happened m m1 t /\ all_agreed MPrepare m start stop t) /\
    (forall mid m2 m3 out, Forall waits mid -> crun e allow m1 mid = Val m2 -> cstep e allow m2 CPerform = Val (m3, out) ->
       carried_out m2 m3 start stop).
Proof. exact main_tell. Qed.
Print Assumptions c58_switch.
(** non-vacuity: pos replaces both; the arm keeps a/position, the gripper only stops *)
Definition bothc := ctl "both" false ["a/position"; "g/position"] [] [] [] [].
Definition ops_both := up_hw ++ load_conf [bothc; pos] ++ switch ["both"] [] true.
Example c58_switch_example : exists m m1 m2,
  crun env_ok true (cm_start plain) ops_both = Val m /\ state_in m "both" = Some Active /\
  cstep env_ok true m (CRequest ["pos"] ["both"] true true) = Val (m1, CSw SwPending) /\
  happened m m1 [EvPrepare "arm" ["a/position"] ["a/position"] (Ret ROk); EvPrepare "gripper" [] ["g/position"] (Ret ROk)] /\
  crun env_ok true m1 [CRead; CUpdate; CWrite] = Val m2 /\ Forall waits [CRead; CUpdate; CWrite] /\
  exists m3, cstep env_ok true m2 CPerform = Val (m3, CNone) /\
    happened m2 m3 [EvCtrlCb "pos" Events.CActivate CbSuccess; EvCtrlCb "both" Events.CDeactivate CbSuccess;
                    EvPerform "arm" ["a/position"] ["a/position"] (Ret ROk); EvPerform "gripper" [] ["g/position"] (Ret ROk)].
Proof.
  do 3 eexists. split; [vm_compute; reflexivity|]. split; [vm_compute; reflexivity|]. split; [vm_compute; reflexivity|]. split; [vm_compute; reflexivity|].
  split; [vm_compute; reflexivity|]. split; [repeat constructor; discriminate|]. eexists. split; [vm_compute; reflexivity|]. vm_compute. reflexivity.
Qed.

(** C58, error handling of read: nothing happens after a read without error; otherwise the components are told, at most
    once each, to stop exactly the command interfaces of the controllers that use a failed component, before these
    controllers are stopped; and all are told if all of these interfaces are still available, their components
    configured and willing. *)
Theorem c58_read : forall e allow hs ops m m' out,
  wf_hw hs -> crun e allow (cm_start hs) ops = Val m -> cstep e allow m CRead = Val (m', out) ->
  exists reads later, happened m m' (later ++ reads) /\ Forall reads_hw reads /\
    let after := after_read e m in
    let stop := commanded_configured after after (users_of_failed after (read_report e m)) in
    (rw_result (read_report e m) = ROk -> later = []) /\
    (rw_result (read_report e m) <> ROk -> exists prepared performed ctl, later = ctl ++ performed ++ prepared /\
       told MPrepare after nothing stop prepared /\ told MPerform after nothing stop performed /\ Forall stops_ctrl ctl /\
       (can_stop e after stop -> all_agreed MPrepare after nothing stop prepared /\ all_agreed MPerform after nothing stop performed)).
Proof. exact main_read_tells. Qed.
Print Assumptions c58_read.
Theorem c58_write : forall e allow hs ops m m' out,
  wf_hw hs -> crun e allow (cm_start hs) ops = Val m -> cstep e allow m CWrite = Val (m', out) ->
  exists writes later, happened m m' (later ++ writes) /\ Forall writes_hw writes /\
    let after := after_write e m in
    let stop := commanded_configured after after (users_of_failed after (write_report e m)) in
    (rw_result (write_report e m) = ROk -> later = []) /\
    (rw_result (write_report e m) <> ROk -> exists prepared performed ctl, later = ctl ++ performed ++ prepared /\
       told MPrepare after nothing stop prepared /\ told MPerform after nothing stop performed /\ Forall stops_ctrl ctl /\
       (can_stop e after stop -> all_agreed MPrepare after nothing stop prepared /\ all_agreed MPerform after nothing stop performed)).
Proof. exact main_write_tells. Qed.
Print Assumptions c58_write.
(** non-vacuity: a component asks to be deactivated in write; its controller stops and it is told so *)
Definition arm_rest : env := with_write env_ok (fun _ n => if String.eqb n "arm" then Ret RDeactivate else Ret ROk).
Example c58_write_example : exists m m',
  crun arm_rest true (cm_start plain) ops_pos = Val m /\ cstep arm_rest true m CWrite = Val (m', CNone) /\
  happened m m' ([EvCtrlCb "pos" Events.CDeactivate CbSuccess; EvPerform "arm" [] ["a/position"] (Ret ROk); EvPrepare "arm" [] ["a/position"] (Ret ROk)]
     ++ [EvHwCb "arm" Events.HDeactivate CbSuccess; EvWrite "arm" (Ret RDeactivate); EvWrite "gripper" (Ret ROk)]).
Proof. do 2 eexists. split; [vm_compute; reflexivity|]. split; [vm_compute; reflexivity|]. vm_compute. reflexivity. Qed.

(** C58, error handling of update: after the updates nothing else happens unless a controller failed; then the components
    are told that the interfaces of the fallback controllers start and those of the controllers taken out, and of active
    controllers in the way of a fallback, stop; then controllers are stopped, then fallbacks started. *)
Theorem c58_update_partial : forall e allow hs ops m m' out,
  wf_hw hs -> crun e allow (cm_start hs) ops = Val m -> cstep e allow m CUpdate = Val (m', out) ->
  exists updates later, happened m m' (later ++ updates) /\ (forall ev, In ev updates -> exists n r, ev = EvUpdate n r) /\
    ((forall n, ~ taken_out m m' n) -> later = []) /\
    exists prepared performed down up undone, later = undone ++ up ++ down ++ performed ++ prepared /\
      told MPrepare m (starts_in_update m m') (stops_in_update m m') prepared /\
      told MPerform m (starts_in_update m m') (stops_in_update m m') performed /\
      Forall stops_ctrl down /\ Forall switches_ctrl up /\
      (cm_pend m = None -> undone = []) /\ Forall LifeSpec.mode_event undone /\
      ((exists n, taken_out m m' n) -> can_switch e allow m (starts_in_update m m') (stops_in_update m m') ->
         all_agreed MPrepare m (starts_in_update m m') (stops_in_update m m') prepared /\
         all_agreed MPerform m (starts_in_update m m') (stops_in_update m m') performed).
Proof. exact main_update_tells. Qed.
Print Assumptions c58_update_partial.
Definition bothf := ctl "bothf" false ["a/position"; "g/position"] [] [] [] ["safe"].
Example c58_update_example : exists m m',
  crun (fails ["bothf"]) true (cm_start plain) (up_hw ++ load_conf [bothf; safe] ++ switch ["bothf"] [] true) = Val m /\
  cstep (fails ["bothf"]) true m CUpdate = Val (m', CNone) /\
  happened m m' ([EvCtrlCb "safe" Events.CActivate CbSuccess; EvCtrlCb "bothf" Events.CDeactivate CbSuccess;
     EvPerform "arm" ["a/position"] ["a/position"] (Ret ROk); EvPerform "gripper" [] ["g/position"] (Ret ROk);
     EvPrepare "arm" ["a/position"] ["a/position"] (Ret ROk); EvPrepare "gripper" [] ["g/position"] (Ret ROk)]
     ++ [EvUpdate "bothf" (Ret RError)]).
Proof. do 2 eexists. split; [vm_compute; reflexivity|]. split; [vm_compute; reflexivity|]. vm_compute. reflexivity. Qed.

(** "Every component is told that an interface stops when its controller is stopped" is false after a hardware error: the
    request names an interface of the failed component, which is no longer available, and so the healthy gripper is
    never told that g/position stops, although both, which commands it, is stopped. *)
Theorem c58_healthy_not_told_refuted : exists e hs ops m m' c t,
  wf_hw hs /\ crun e true (cm_start hs) ops = Val m /\ In c (cm_ctrls m) /\ c_lc c = Active /\ wants_cmd m c "g/position" /\
  (forall t n s p, e_prepare e t n s p = Ret ROk /\ e_perform e t n s p = Ret ROk) /\
  rw_failed (read_report e m) = ["arm"] /\ In "g/position" (rm_avc (cm_rm (after_read e m))) /\
  cstep e true m CRead = Val (m', CNone) /\ state_in m' (c_name c) = Some Inactive /\
  happened m m' t /\ Forall (fun ev => ~ LifeSpec.mode_event ev) t.
Proof.
  exists arm_read, plain, ops_both. eexists. eexists. eexists (match crun arm_read true (cm_start plain) ops_both with Val m => match find_ctrl m "both" with Some c => c | None => bothc end | _ => bothc end).
  eexists [EvCtrlCb "both" Events.CDeactivate CbSuccess; EvHwErr "arm" _; EvRead "arm" (Ret RError); EvRead "camera" (Ret ROk); EvRead "gripper" (Ret ROk)].
  split; [exact wf_plain|]. split; [vm_compute; reflexivity|]. split; [vm_compute; first [left; reflexivity|right; left; reflexivity]|]. split; [vm_compute; reflexivity|].
  split; [vm_compute; right; left; reflexivity|]. split; [intros; split; reflexivity|]. split; [vm_compute; reflexivity|]. split; [vm_compute; repeat (first [left; reflexivity|right])|].
  split; [vm_compute; reflexivity|]. split; [vm_compute; reflexivity|]. split; [vm_compute; reflexivity|]. repeat constructor; intros [].
Qed.
Print Assumptions c58_healthy_not_told_refuted.
(** "If an activation fails the components are told that the interfaces just started stop" is false for fallbacks: the last
    word to the arm is that a/position starts, and no controller is active. *)
Definition safe_refuses : env := with_ctrl (fails ["main"]) (fun _ n cb => match cb with Events.CActivate => if String.eqb n "safe" then CbFailure else CbSuccess | _ => CbSuccess end).
Theorem c58_fallback_not_undone_refuted : exists e hs ops m m' t,
  wf_hw hs /\ crun e true (cm_start hs) ops = Val m /\ state_in m "main" = Some Active /\
  (forall t n s p, e_prepare e t n s p = Ret ROk /\ e_perform e t n s p = Ret ROk) /\
  cstep e true m CUpdate = Val (m', CNone) /\ happened m m' t /\
  filter (fun ev => match ev with EvPerform _ _ _ _ | EvPrepare _ _ _ _ => true | _ => false end) t =
     [EvPerform "arm" ["a/position"] ["a/position"] (Ret ROk); EvPrepare "arm" ["a/position"] ["a/position"] (Ret ROk)] /\
  Forall (fun c => c_lc c <> Active) (cm_ctrls m').
Proof.
  exists safe_refuses, plain, ops_main. do 2 eexists. eexists [EvCtrlCb "safe" Events.CActivate CbFailure; EvCtrlCb "main" Events.CDeactivate CbSuccess; _; _; EvUpdate "main" (Ret RError)].
  split; [exact wf_plain|]. split; [vm_compute; reflexivity|]. split; [vm_compute; reflexivity|]. split; [intros; split; reflexivity|].
  split; [vm_compute; reflexivity|]. split; [vm_compute; reflexivity|]. split; [vm_compute; reflexivity|]. vm_compute. repeat constructor; discriminate.
Qed.
Print Assumptions c58_fallback_not_undone_refuted.
