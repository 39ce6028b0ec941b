(** Props_Restart.v -- C16: what an OK answer does not say about controllers that are restarted. *)
From Coq Require Import String List Bool.
From Verif Require Import Base Events HwModel RmModel RmSys RmSpec RmWitness CmModel CmSpec CmWitness.
Import ListNotations.
Open Scope string_scope. Open Scope list_scope.

(** the arm refuses every mode switch in which something is stopped *)
Definition no_restart : env := with_perform env_ok (fun _ _ _ stop => match stop with [] => Ret ROk | _ => Ret RError end).

(** "OK means that the requested switch took place" is false for a controller that is both in the list of controllers to stop
    and in the list of controllers to start: when the hardware fails in perform_command_mode_switch nothing is stopped or
    started (no callback of the controller is called), and the answer to the STRICT request is OK, because the controller is
    still active. *)
Theorem c16_restart_refuted : exists e hs ops m m1 m2 m3 evs,
  wf_hw hs /\ crun e true (cm_start hs) ops = Val m /\
  cstep e true m (CRequest ["pos"] ["pos"] true true) = Val (m1, CSw SwPending) /\
  cstep e true m1 CPerform = Val (m2, CNone) /\
  cstep e true m2 CEvaluate = Val (m3, CBool true) /\
  rm_trace (cm_rm m3) = evs ++ rm_trace (cm_rm m) /\
  (exists s t, In (EvPerform "arm" s t (Ret RError)) evs) /\ (forall n cb r, ~ In (EvCtrlCb n cb r) evs).
Proof.
  exists no_restart, plain, (up_hw ++ load_conf [pos] ++ switch ["pos"] [] true). do 4 eexists.
  exists [EvOp; EvPerform "arm" ["a/position"] ["a/position"] (Ret RError); EvOp; EvPrepare "arm" ["a/position"] ["a/position"] (Ret ROk); EvOp].
  split; [exact wf_plain|]. split; [vm_compute; reflexivity|]. split; [vm_compute; reflexivity|]. split; [vm_compute; reflexivity|]. split; [vm_compute; reflexivity|].
  split; [vm_compute; reflexivity|]. split; [do 2 eexists; right; left; reflexivity|]. intros n cb r I.
  repeat (destruct I as [I|I]; [discriminate|]). destruct I.
Qed.
Print Assumptions c16_restart_refuted.
