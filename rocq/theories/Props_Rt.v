(** Props_Rt.v -- C23, C24: the real-time thread and the services. *)
From Coq Require Import List Bool String Arith.
Import ListNotations.
From Verif Require Import Base RtModel RtSpec RtProofs RtLive RtWitness.
Open Scope string_scope.
Open Scope list_scope.

(** C23, for every interleaving that meets [ok_schedule] (see RtSpec.v).  Missing for the full claim: the very first
    access of the real-time thread, and a thread overtaken by a timeout; see [c23_refuted_startup] and
    [c24_refuted_overtaken]. *)
Theorem c23_lists_partial : forall l s,
  ok_schedule start l -> run start l = Some s -> never_modified_in_use (history s).
Proof. exact main_lists. Qed.
Print Assumptions c23_lists_partial.
(** the same as the absence of a data race: no list is written while the real-time thread holds a reference to it *)
Theorem c23_no_race_partial : forall l s i,
  ok_schedule start l -> run start l = Some s -> rt_uses s i -> ~ sv_writes s i.
Proof. exact main_list_race. Qed.
Print Assumptions c23_no_race_partial.
(** without the assumption about the first access the claim is false: a controller loaded while the real-time thread
    makes its first access lets it iterate over a list that is cleared meanwhile *)
Theorem c23_refuted_startup : exists l s,
  run start l = Some s /\ along not_overtaken start l /\ ~ never_modified_in_use (history s).
Proof.
  exists startup_race. eexists. split; [vm_compute; reflexivity|]. split.
  - apply notb_ok. vm_compute. reflexivity.
  - vm_compute. intros H. decompose [and] H. discriminate.
Qed.
Print Assumptions c23_refuted_startup.

Example c23_example : exists s, ok_schedule start slow_run /\ run start slow_run = Some s /\
  In (EPublish ["a"; "b"]) (history s) /\ In (EBegin ["a"; "b"]) (history s) /\ In (ERead ["a"; "c"] ["a"; "c"]) (history s).
Proof.
  eexists. split; [apply ok_sched; vm_compute; reflexivity|]. split; [vm_compute; reflexivity|].
  vm_compute. split; [|split]; repeat (try (left; reflexivity); right).
Qed.
Example c23_race_example : exists l s, ok_schedule start l /\ run start l = Some s /\ rt_uses s true /\ sv_writes s false.
Proof.
  exists (setup ["a"; "c"] ++ rtn 3 ++ [ASv IList; ASv IGo]). eexists. split; [apply ok_sched; vm_compute; reflexivity|].
  split; [vm_compute; reflexivity|]. split.
  - exists ["a"; "c"]. left. reflexivity.
  - exists false. split; [left; reflexivity|reflexivity].
Qed.

(** C24, for every interleaving and every timeout point that meets [ok_schedule]. *)
Theorem c24_switch_partial : forall l s,
  ok_schedule start l -> run start l = Some s -> switched_once (history s).
Proof. exact main_switch. Qed.
Print Assumptions c24_switch_partial.
(** the request is never written while the real-time thread reads it *)
Theorem c24_no_race_partial : forall l s,
  ok_schedule start l -> run start l = Some s -> rt_reads_request s -> ~ sv_writes_request s.
Proof. exact main_request_race. Qed.
Print Assumptions c24_no_race_partial.
(** and the two threads never block each other for good: from every state they can both come to rest *)
Theorem c24_no_deadlock_partial : forall l s,
  ok_schedule start l -> run start l = Some s ->
  exists l' s', ok_schedule s l' /\ run s l' = Some s' /\ rt s' = RIdle /\ sv s' = SIdle.
Proof. exact main_no_deadlock. Qed.
Print Assumptions c24_no_deadlock_partial.
(** When a call times out between the real-time thread's reading of the flag and its taking of the mutex, the thread
    executes the request of the following call before that request was accepted, and then executes it again. *)
Definition activations (h : list ev) : nat := List.length (filter (fun e => match e with EAct _ _ _ => true | _ => false end) h).
Definition accepted (h : list ev) : nat := List.length (filter (fun e => match e with ERet ROk => true | _ => false end) h).
Theorem c24_refuted_overtaken : exists l s,
  run start l = Some s /\ along first_access_atomic start l /\
  ~ switched_once (history s) /\ activations (history s) = 2 /\ accepted (history s) = 1.
Proof.
  exists overtaken. eexists. split; [vm_compute; reflexivity|]. split.
  - apply faab_ok. vm_compute. reflexivity.
  - split; [|split; vm_compute; reflexivity]. vm_compute. intros H. decompose [and ex] H. congruence.
Qed.
Print Assumptions c24_refuted_overtaken.

(** the assumption is met by complete switches of both kinds and by a timeout *)
Example c24_example_asap : exists s, ok_schedule start asap_run /\ run start asap_run = Some s /\
  In (EAct TRt ["a"] true) (history s) /\ In (ERet ROk) (history s).
Proof.
  eexists. split; [apply ok_sched; vm_compute; reflexivity|]. split; [vm_compute; reflexivity|].
  vm_compute. split; repeat (try (left; reflexivity); right).
Qed.
Example c24_example_slow : exists s, ok_schedule start slow_run /\ run start slow_run = Some s /\
  In (EAct TSv ["a"] true) (history s) /\ In (EUpd "c") (history s) /\ In (ERet ROk) (history s).
Proof.
  eexists. split; [apply ok_sched; vm_compute; reflexivity|]. split; [vm_compute; reflexivity|].
  vm_compute. split; [|split]; repeat (try (left; reflexivity); right).
Qed.
Example c24_example_timeout : exists s, ok_schedule start timeout_run /\ run start timeout_run = Some s /\ In (ERet RTimeout) (history s).
Proof.
  eexists. split; [apply ok_sched; vm_compute; reflexivity|]. split; [vm_compute; reflexivity|].
  vm_compute. repeat (try (left; reflexivity); right).
Qed.
