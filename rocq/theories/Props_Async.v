(** Props_Async.v -- C75, C76: asynchronous hardware components and controllers. *)
From Coq Require Import List Bool Lia.
From Verif Require Import Base Events AsyncModel AsyncSpec AsyncProofs AsyncLife.
Import ListNotations.

(** C75.  For every schedule of the worker and the framework: *)
(** read() and write() never overlap with a life-cycle callback *)
Theorem c75_no_overlap : forall sensor l c, let tr := st_log (hrun (hstart sensor) l) in io_open c tr = true -> cb_open tr = false.
Proof. exact no_overlap_l. Qed.
Print Assumptions c75_no_overlap.
(** they run only in the documented states, which do not change under them *)
Theorem c75_states : forall sensor l e, In e (st_log (hrun (hstart sensor) l)) ->
  match e with
  | IoBegin Read c => c = Inactive \/ c = Active
  | IoBegin Write c => c = Active /\ sensor = false
  | CbBegin k c => allowed k c
  | _ => True end.
Proof. intros sensor l e H. exact (proj1 (Forall_forall _ _) (states_l sensor l) e H). Qed.
Print Assumptions c75_states.
Theorem c75_state_kept : forall sensor l, let s := hrun (hstart sensor) l in
  (io_open Read (st_log s) = true -> st_lc s = Inactive \/ st_lc s = Active) /\ (io_open Write (st_log s) = true -> st_lc s = Active).
Proof. exact unchanged_l. Qed.
Print Assumptions c75_state_kept.
(** one read() for each accepted cycle, no write() without a good read() before it *)
Theorem c75_one_cycle : forall sensor l, let tr := st_log (hrun (hstart sensor) l) in
  counts (begins Read) tr <= counts accepted tr <= S (counts (begins Read) tr) /\ counts (begins Write) tr <= counts good_read tr /\
  (st_wk (hrun (hstart sensor) l) = WIdle -> counts (begins Read) tr = counts accepted tr).
Proof. exact counts_l. Qed.
Print Assumptions c75_one_cycle.
(** asked while nothing is under way, the component answers the result of the last finished read() (write()) since activation *)
Theorem c75_read_reported : forall sensor l, let s := hrun (hstart sensor) l in at_rest s -> st_lc s = Inactive \/ st_lc s = Active ->
  st_log (hrun s [AReadLoad; ATrigger true]) = ReadAns true (last_io Read (st_log s)) :: st_log s.
Proof. exact read_reported_l. Qed.
Print Assumptions c75_read_reported.
Theorem c75_write_reported : forall l, let s := hrun (hstart false) l in at_rest s -> st_lc s = Active ->
  st_log (hrun s [AWriteAns]) = WriteAns (last_io Write (st_log s)) :: st_log s.
Proof. exact write_reported_l. Qed.
Print Assumptions c75_write_reported.
(** asked at any time, it never invents an error *)
Theorem c75_never_invented : forall sensor l n e o, st_log (hrun (hstart sensor) l) = n ++ e :: o ->
  match e with
  | ReadAns a r => r <> ROk -> a = true /\ In (IoEnd Read r) o
  | WriteAns r => r <> ROk -> In (IoEnd Write r) o
  | _ => True end.
Proof. exact invented_l. Qed.
Print Assumptions c75_never_invented.
(** the next thing the framework does after a bad answer is on_error (on_deactivate for DEACTIVATE from write) *)
Theorem c75_handled_next : forall sensor l n a o k, st_log (hrun (hstart sensor) l) = n ++ a :: o -> demands a k ->
  next_event n = None \/ exists c, next_event n = Some (CbBegin k c).
Proof. exact next_l. Qed.
Print Assumptions c75_handled_next.
(** the state is the one the life cycle gives for what the callbacks returned ([state_of], AsyncLife.v) *)
Theorem c75_lifecycle : forall sensor l, st_lc (hrun (hstart sensor) l) = state_of (st_log (hrun (hstart sensor) l)).
Proof. exact life_l. Qed.
Print Assumptions c75_lifecycle.
(** and a callback that errs in INACTIVE or ACTIVE is followed by on_error before anything else the framework does *)
Theorem c75_error_next : forall sensor l n k r o, st_log (hrun (hstart sensor) l) = n ++ CbEnd k r :: o -> errs k r ->
  state_of o = Inactive \/ state_of o = Active ->
  next_event n = None \/ exists c, next_event n = Some (CbBegin KError c).
Proof. exact error_next_l. Qed.
Print Assumptions c75_error_next.

Definition conf := [AOp KConfigure; APaused; AReturn CbSuccess].
Definition activ := [AOp KActivate; APaused; AReturn CbSuccess].
Definition cycle_r r := [AReadLoad; ATrigger true; AWork ROk; AWork r; AWork ROk].
(** non-vacuity: an active component, a full cycle with a failing write, its report and on_error *)
Example c75_example :
  let s := hrun (hstart false) (conf ++ activ ++ cycle_r ROk ++ [AWork ROk; AWork RError; AWork ROk]) in
  at_rest s /\ st_lc s = Active /\ last_io Write (st_log s) = RError /\
  st_log (hrun s [AWriteAns; APaused; AReturn CbSuccess]) = [CbEnd KError CbSuccess; CbBegin KError Active; WriteAns RError] ++ st_log s /\
  io_open Write (st_log (hrun (hstart false) (conf ++ activ ++ cycle_r ROk ++ [AWork ROk]))) = true /\
  counts accepted (st_log s) = 1 /\ demands (WriteAns RError) KError.
Proof. vm_compute. repeat split; auto. Qed.

(** "every error of read() is reported or still to be reported" is false: the stored result is loaded before the trigger, a cycle
    that ends in between is forgotten by the next *)
Theorem c75_lost_read_refuted :
  ~ (forall l, let s := hrun (hstart false) l in at_rest s -> In (IoEnd Read RError) (st_log s) ->
      (exists a, In (ReadAns a RError) (st_log s)) \/ last_io Read (st_log s) = RError).
Proof.
  intros H. specialize (H (conf ++ [AReadLoad; ATrigger true; AWork ROk; AReadLoad; AWork RError; AWork ROk; ATrigger true; AWork ROk; AWork ROk; AWork ROk; AWork ROk])).
  vm_compute in H. destruct H as [[a Ha]|Ha]; [split; reflexivity|repeat (first [left; reflexivity|right])| |discriminate].
  repeat (destruct Ha as [Ha|Ha]; [discriminate|]). destruct Ha.
Qed.
Print Assumptions c75_lost_read_refuted.
(** the same for write(), without any race inside a call: a cycle that ends after one trigger_write and another that ends before
    the next one *)
Theorem c75_lost_write_refuted :
  ~ (forall l, let s := hrun (hstart false) l in at_rest s -> In (IoEnd Write RError) (st_log s) ->
      In (WriteAns RError) (st_log s) \/ last_io Write (st_log s) = RError).
Proof.
  intros H. specialize (H (conf ++ activ ++ cycle_r ROk ++ [AWork ROk; AWriteAns; AWork RError; AWork ROk] ++ cycle_r ROk ++ [AWork ROk; AWork ROk; AWork ROk; AWriteAns])).
  vm_compute in H. destruct H as [Ha|Ha]; [split; reflexivity|repeat (first [left; reflexivity|right])| |discriminate].
  repeat (destruct Ha as [Ha|Ha]; [discriminate|]). destruct Ha.
Qed.
Print Assumptions c75_lost_write_refuted.
(** "an answer after on_configure is about a read() after on_configure" is false: an error from before is answered, and the
    component goes through on_error again *)
Theorem c75_stale_refuted :
  ~ (forall l a r o, st_log (hrun (hstart false) l) = ReadAns a r :: o -> unread o = true -> r = ROk).
Proof.
  intros H.
  set (sched := conf ++ cycle_r RError ++ [AReadLoad; ATrigger true; AWork ROk; AWork RError; AWork ROk; APaused; AReturn CbSuccess] ++ conf ++ [AReadLoad; ATrigger true]).
  assert (E : st_log (hrun (hstart false) sched) = ReadAns true RError :: tl (st_log (hrun (hstart false) sched))) by (vm_compute; reflexivity).
  assert (U : unread (tl (st_log (hrun (hstart false) sched))) = true) by (vm_compute; reflexivity).
  specialize (H sched true RError _ E U). discriminate.
Qed.
Print Assumptions c75_stale_refuted.
(** prepare/perform_command_mode_switch do overlap with read() and write() *)
Theorem c75_mode_switch_refuted :
  ~ (forall l c, let tr := st_log (hrun (hstart false) l) in mode_open tr = true -> io_open c tr = false).
Proof.
  intros H. specialize (H (conf ++ activ ++ cycle_r ROk ++ [AWork ROk; AModeBegin]) Write). vm_compute in H. specialize (H eq_refl). discriminate.
Qed.
Print Assumptions c75_mode_switch_refuted.

(** C76.  Asynchronous controllers. *)
(** update() begins only while the controller is active and no other update() runs *)
Theorem c76_only_active : forall l n o, ct_log (crun cstart l) = n ++ UBegin :: o -> active_of o = true /\ upd_open o = false.
Proof. exact begun_l. Qed.
Print Assumptions c76_only_active.
(** and every end of update() is the end of one that began *)
Theorem c76_update_ends : forall l n o, ct_log (crun cstart l) = n ++ UEnd :: o -> upd_open o = true.
Proof. exact update_ends_l. Qed.
Print Assumptions c76_update_ends.
(** an activation makes the controller run again, whatever was prepared for it before *)
Theorem c76_revived : forall l, let s := crun cstart l in
  ct_active s = false -> ct_lp s = LRest -> ct_run s = false -> ct_sv s <> SRequested ->
  ct_log (crun s [CActivate; CLoad; CTrigger true]) = UBegin :: Activated :: ct_log s.
Proof. exact revived_l. Qed.
Print Assumptions c76_revived.
(** if nothing fails and the request to deactivate does not fall between the loop's look at the flag and its trigger, update()
    never overlaps with on_deactivate() *)
Theorem c76_no_overlap : forall l, undivided cstart l -> let tr := ct_log (crun cstart l) in upd_open tr = true -> deact_open tr = false.
Proof. exact no_overlap_c. Qed.
Print Assumptions c76_no_overlap.
Definition up := [CActivate; CLoad; CTrigger true].
Example c76_example :
  undivided cstart (up ++ [CPrepare; CLoad; CWork; CWaited; CRequest; CLoad; CSwitch; CDone true]) /\
  ct_log (crun cstart (up ++ [CPrepare; CLoad; CWork; CWaited; CRequest; CLoad; CSwitch; CDone true])) = [DEnd true; DBegin; UEnd; Skipped; UBegin; Activated].
Proof. cbn. repeat split; discriminate. Qed.
(** without these conditions it does: an error, *)
Theorem c76_overlap_on_error_refuted : ~ (forall l, let tr := ct_log (crun cstart l) in upd_open tr = true -> deact_open tr = false).
Proof. intros H. specialize (H (up ++ [CFail]) eq_refl). discriminate. Qed.
Print Assumptions c76_overlap_on_error_refuted.
(** or, with no error at all, the race *)
Theorem c76_overlap_race_refuted :
  ~ (forall l, ~ In CFail l -> let tr := ct_log (crun cstart l) in upd_open tr = true -> deact_open tr = false).
Proof.
  intros H. specialize (H [CActivate; CLoad; CPrepare; CWaited; CTrigger true; CRequest; CSwitch]). cbn in H.
  discriminate H; [|reflexivity]. intros Hin. repeat (destruct Hin as [Hin|Hin]; [discriminate|]). destruct Hin.
Qed.
Print Assumptions c76_overlap_race_refuted.
(** a request that is given up after prepare_for_deactivation leaves the controller active and never updated again, whatever
    happens, until it is activated anew *)
Theorem c76_rejected_starves : forall l l2, let s := crun cstart l in
  ct_active s = true -> ct_sv s = SRest -> ct_run s = false -> ct_lp s = LRest ->
  let t := crun s [CPrepare; CWaited; CReject] in
  ct_active t = true /\ hd_error (ct_log t) = Some Rejected /\
  ((exists n, ct_log (crun t l2) = n ++ ct_log t /\ In Activated n) \/ updates (ct_log (crun t l2)) = updates (ct_log t)).
Proof. exact rejected_l. Qed.
Print Assumptions c76_rejected_starves.
Example c76_rejected_example :
  let s := crun cstart (up ++ [CWork]) in
  (ct_active s = true /\ ct_sv s = SRest /\ ct_run s = false /\ ct_lp s = LRest) /\
  ct_log (crun s [CPrepare; CWaited; CReject; CLoad; CTrigger true; CLoad; CTrigger true]) = [Skipped; Skipped; Rejected; UEnd; UBegin; Activated].
Proof. cbn. repeat split. Qed.
(** a rejected request, a failure and a new activation: the flag that was left set does no harm *)
Example c76_revived_example :
  let s := crun cstart (up ++ [CWork; CPrepare; CWaited; CReject; CFail; CDone true]) in
  (ct_active s = false /\ ct_lp s = LRest /\ ct_run s = false /\ ct_sv s <> SRequested) /\ ct_skip s = true /\
  ct_log (crun s [CActivate; CLoad; CTrigger true]) = UBegin :: Activated :: ct_log s.
Proof. cbn. repeat split. discriminate. Qed.
Example c75_life_example :
  let s := hrun (hstart false) (conf ++ activ ++ [AOp KDeactivate; APaused; AReturn CbError; APaused; AReturn CbSuccess]) in
  st_log s = [CbEnd KError CbSuccess; CbBegin KError Active] ++ CbEnd KDeactivate CbError ::
             [CbBegin KDeactivate Active; CbEnd KActivate CbSuccess; CbBegin KActivate Inactive; CbEnd KConfigure CbSuccess; CbBegin KConfigure Unconfigured] /\
  errs KDeactivate CbError /\ st_lc s = Unconfigured.
Proof. cbn. repeat split; auto. discriminate. Qed.
