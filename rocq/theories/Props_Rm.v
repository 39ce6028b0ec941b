(** Props_Rm.v -- C01..C11: the resource manager and its hardware components.
    [hs] are the loaded components, [e] the behaviour of all user code (any function of the
    history), [ops] any sequence of manager operations. *)
From Verif Require Import Base Events HwModel RmModel RmSys RmSpec RmSpec2 RmWitness
  HwProofs RmProofs RmInv RmAvail RmCycle RmGroup RmTurn RmRw RmMode RmMain RmExact.
Open Scope string_scope.
Open Scope list_scope.

(** C01 (component): every callback a component receives in any sequence of operations is allowed
    by the documented life cycle, and the reported state is the one the results prescribe. *)
Theorem c01_component_follows_life_cycle : forall e h ops,
  h_lc h = Unknown ->
  lives (h_name h) (h_kind h) Unknown (snd (hrun e (h, []) ops)) = Some (AIn (h_lc (fst (hrun e (h, []) ops)))).
Proof. exact main_component_life. Qed.
Print Assumptions c01_component_follows_life_cycle.
Example c01_component_example :
  let h := hw_ "arm" System "" [] ["a"] in
  let '(h', t) := hrun env_ok (h, []) [HopInit; HopWrite; HopConfigure; HopActivate; HopWrite; HopError] in
  h_lc h = Unknown /\ h_lc h' = Unconfigured /\ length t = 5.
Proof. vm_compute. auto. Qed.

(** C01 (manager): the same for every loaded component under every history of the manager. *)
Theorem c01_manager_follows_life_cycle : forall e allow hs ops n h,
  wf_hw hs ->
  find_hw (sy_rm (rrun e allow (sys_start hs) ops)) n = Some h ->
  lives n (h_kind h) Unconfigured (rm_trace (sy_rm (rrun e allow (sys_start hs) ops))) = Some (AIn (h_lc h)).
Proof. exact main_manager_life. Qed.
Print Assumptions c01_manager_follows_life_cycle.

(** C02: whenever a read (write) of a component appears in the history, the automaton reading the
    history before it says inactive or active (active, and not a sensor). *)
Theorem c02_read_write_only_when_allowed : forall e allow hs ops n h t1 ev t2,
  wf_hw hs ->
  find_hw (sy_rm (rrun e allow (sys_start hs) ops)) n = Some h ->
  rm_trace (sy_rm (rrun e allow (sys_start hs) ops)) = t1 ++ ev :: t2 ->
  (forall r, ev = EvRead n r ->
     exists l, lives n (h_kind h) Unconfigured t2 = Some (AIn l) /\ (l = Inactive \/ l = Active)) /\
  (forall r, ev = EvWrite n r ->
     lives n (h_kind h) Unconfigured t2 = Some (AIn Active) /\ h_kind h <> Sensor).
Proof. exact main_rw_allowed. Qed.
Print Assumptions c02_read_write_only_when_allowed.
(** ... and in the other states the call answers OK without an event. *)
Theorem c02_other_states_untouched : forall e h t,
  (~ configured (h_lc h) -> hw_read e h t = (h, t, Ret ROk)) /\
  (h_lc h <> Active \/ h_kind h = Sensor -> hw_write e h t = (h, t, Ret ROk)).
Proof. exact main_untouched. Qed.
Print Assumptions c02_other_states_untouched.
(** C02, the other half: in a read cycle every configured component whose lock is free and whose own
    rate lets it through is read exactly once; nobody is read twice or written. *)
Theorem c02_cycle_reads : forall e allow hs ops n h evs,
  wf_hw hs ->
  let s := rrun e allow (sys_start hs) ops in
  let s' := fst (rstep e allow s ORead) in
  find_hw (sy_rm s) n = Some h ->
  rm_trace (sy_rm s') = evs ++ EvOp :: rm_trace (sy_rm s) ->
  (configured (h_lc h) -> (forall t, e_locked e t n = false) -> h_rated h = false \/ (forall t, e_due e t n = true) ->
     count (is_read n) evs = 1) /\
  count (is_read n) evs <= 1 /\ (~ configured (h_lc h) -> count (is_read n) evs = 0) /\ count (is_write n) evs = 0.
Proof. exact main_cycle_reads. Qed.
Print Assumptions c02_cycle_reads.
(** ... and in a write cycle every active actuator or system is written exactly once. *)
Theorem c02_cycle_writes : forall e allow hs ops n h evs,
  wf_hw hs ->
  let s := rrun e allow (sys_start hs) ops in
  let s' := fst (rstep e allow s OWrite) in
  find_hw (sy_rm s) n = Some h ->
  rm_trace (sy_rm s') = evs ++ EvOp :: rm_trace (sy_rm s) ->
  (h_lc h = Active -> h_kind h <> Sensor -> (forall t, e_locked e t n = false) ->
   h_rated h = false \/ (forall t, e_due e t n = true) -> count (is_write n) evs = 1) /\
  count (is_write n) evs <= 1 /\ (h_lc h <> Active \/ h_kind h = Sensor -> count (is_write n) evs = 0).
Proof. exact main_cycle_writes. Qed.
Print Assumptions c02_cycle_writes.
Example c02_cycle_example :
  let s := rrun env_ok true (sys_start plain) all_up in
  exists evs, rm_trace (sy_rm (fst (rstep env_ok true s ORead))) = evs ++ EvOp :: rm_trace (sy_rm s) /\
    count (is_read "arm") evs = 1 /\ count (is_read "camera") evs = 1.
Proof. eexists [_; _; _]. vm_compute. auto. Qed.
Example c02_example :
  let s := rrun env_ok true (sys_start plain) (all_up ++ [ORead; OWrite]) in
  In (EvRead "camera" (Ret ROk)) (rm_trace (sy_rm s)) /\ In (EvWrite "arm" (Ret ROk)) (rm_trace (sy_rm s)).
Proof. vm_compute. tauto. Qed.

(** C03, the part that holds: a finalized component stays finalized under every operation if it
    belongs to no hardware group, and under every operation except read/write cycles otherwise. *)
Theorem c03_finalized_stays_partial : forall e allow hs ops o n h,
  wf_hw hs ->
  let s := rrun e allow (sys_start hs) ops in
  find_hw (sy_rm s) n = Some h -> h_lc h = Finalized ->
  h_group h = "" \/ (o <> ORead /\ o <> OWrite) ->
  lc_of (sy_rm (fst (rstep e allow s o))) n = Some Finalized.
Proof. exact main_finalized_stays. Qed.
Print Assumptions c03_finalized_stays_partial.
Example c03_example :
  let s := rrun env_ok true (sys_start plain) [OSet "arm" Finalized] in
  lc_of (sy_rm s) "arm" = Some Finalized.
Proof. vm_compute. reflexivity. Qed.
(** C03 is false as stated: in a group, the read error of another member runs on_error of the
    finalized component, which brings it back to unconfigured. *)
Theorem c03_finalized_stays_refuted : exists e hs ops n,
  wf_hw hs /\
  lc_of (sy_rm (rrun e true (sys_start hs) ops)) n = Some Finalized /\
  lc_of (sy_rm (fst (rstep e true (rrun e true (sys_start hs) ops) ORead))) n = Some Unconfigured.
Proof.
  exists env_grip_read, grouped, [OSet "gripper" Active; OSet "arm" Finalized], "arm".
  split; [exact wf_grouped|]. vm_compute. auto.
Qed.
Print Assumptions c03_finalized_stays_refuted.

(** C04: OK means the target state is reached; all other components keep theirs. *)
Theorem c04_set_state_ok_means_reached : forall e allow hs ops n target,
  wf_hw hs ->
  let s := rrun e allow (sys_start hs) ops in
  let s' := fst (rstep e allow s (OSet n target)) in
  (snd (rstep e allow s (OSet n target)) = OutBool true -> lc_of (sy_rm s') n = Some target) /\
  (forall m, m <> n -> lc_of (sy_rm s') m = lc_of (sy_rm s) m).
Proof. exact main_set_state. Qed.
Print Assumptions c04_set_state_ok_means_reached.
Example c04_example :
  snd (rstep env_ok true (sys_start plain) (OSet "arm" Active)) = OutBool true /\
  snd (rstep env_act_err true (sys_start plain) (OSet "arm" Active)) = OutBool false.
Proof. vm_compute. auto. Qed.

(** C04: what happens on the way: exactly the callbacks leading to the target, in order, up to the
    first that does not succeed; if all succeed the answer is OK; if there is no way (from
    FINALIZED, or to UNKNOWN) the answer is ERROR and nothing happens. *)
Theorem c04_request_runs_the_path : forall e allow hs ops n h target,
  wf_hw hs ->
  let s := rrun e allow (sys_start hs) ops in
  let s' := fst (rstep e allow s (OSet n target)) in
  let out := snd (rstep e allow s (OSet n target)) in
  find_hw (sy_rm s) n = Some h ->
  match path (h_lc h) target with
  | None => out = OutBool false /\ rm_trace (sy_rm s') = EvOp :: rm_trace (sy_rm s) /\ rm_hw (sy_rm s') = rm_hw (sy_rm s)
  | Some cs => exists evs, rm_trace (sy_rm s') = evs ++ EvOp :: rm_trace (sy_rm s) /\
      follows cs (callbacks n evs) /\
      (succeeds e n -> out = OutBool true /\ evs = rev (map (fun cb => EvHwCb n cb CbSuccess) cs))
  end.
Proof. exact main_progress. Qed.
Print Assumptions c04_request_runs_the_path.
(** C04: shutting everything down: OK means every component is FINALIZED, and if no callback fails
    the answer is OK. *)
Theorem c04_shutdown_all : forall e allow hs ops,
  wf_hw hs ->
  let s := rrun e allow (sys_start hs) ops in
  let s' := fst (rstep e allow s OShutdown) in
  (snd (rstep e allow s OShutdown) = OutBool true -> forall n, In n (map h_name hs) -> lc_of (sy_rm s') n = Some Finalized) /\
  ((forall n, succeeds e n) -> snd (rstep e allow s OShutdown) = OutBool true).
Proof. exact main_shutdown_all. Qed.
Print Assumptions c04_shutdown_all.
Example c04_path_example :
  succeeds env_ok "arm" /\
  callbacks "arm" (rm_trace (sy_rm (rrun env_ok true (sys_start plain) [OSet "arm" Active; OShutdown]))) =
    [(HConfigure, CbSuccess); (HActivate, CbSuccess); (HDeactivate, CbSuccess); (HShutdown, CbSuccess)] /\
  callbacks "arm" (rm_trace (sy_rm (rrun env_act_err true (sys_start plain) [OSet "arm" Active]))) =
    [(HConfigure, CbSuccess); (HActivate, CbError)] /\
  snd (rstep env_ok true (rrun env_ok true (sys_start plain) [OShutdown]) (OSet "arm" Inactive)) = OutBool false.
Proof. split; [intros t cb; reflexivity|]. vm_compute. auto. Qed.
(** C04, the converse is false: OK does not mean that every callback succeeded.  When on_cleanup
    fails and on_error succeeds the component is UNCONFIGURED, and the request for UNCONFIGURED
    answers OK. *)
Theorem c04_ok_despite_failure_refuted : exists e hs ops n target evs,
  wf_hw hs /\
  let s := rrun e true (sys_start hs) ops in
  snd (rstep e true s (OSet n target)) = OutBool true /\
  rm_trace (sy_rm (fst (rstep e true s (OSet n target)))) = evs ++ EvOp :: rm_trace (sy_rm s) /\
  In (EvHwCb n HCleanup CbFailure) evs.
Proof.
  exists {| e_hw := fun _ _ cb => match cb with HCleanup => CbFailure | _ => CbSuccess end;
            e_hw_error := e_hw_error env_ok; e_read := e_read env_ok; e_write := e_write env_ok; e_locked := e_locked env_ok;
            e_due := e_due env_ok; e_prepare := e_prepare env_ok; e_perform := e_perform env_ok; e_ctrl := e_ctrl env_ok;
            e_ctrl_error := e_ctrl_error env_ok; e_update := e_update env_ok; e_update_due := e_update_due env_ok;
            e_set_chained := e_set_chained env_ok |}, plain, [OSet "arm" Inactive], "arm", Unconfigured.
  eexists [_; _]. split; [exact wf_plain|]. vm_compute. auto 6.
Qed.
Print Assumptions c04_ok_despite_failure_refuted.

(** C05: while a component is configured, all its interfaces are available (every history). *)
Theorem c05_configured_interfaces_available : forall e allow hs ops n h,
  wf_hw hs ->
  let r := sy_rm (rrun e allow (sys_start hs) ops) in
  find_hw r n = Some h -> configured (h_lc h) -> all_available r h.
Proof. exact main_available. Qed.
Print Assumptions c05_configured_interfaces_available.
(** C05, converse, for hardware whose transition callbacks never demand error handling: while it is
    not configured none is available. *)
Theorem c05_unconfigured_interfaces_unavailable_partial : forall e allow hs ops n h,
  wf_hw hs -> no_transition_errors e ->
  let r := sy_rm (rrun e allow (sys_start hs) ops) in
  find_hw r n = Some h -> ~ configured (h_lc h) -> none_available r h.
Proof. exact main_unavailable. Qed.
Print Assumptions c05_unconfigured_interfaces_unavailable_partial.
Example c05_example :
  no_transition_errors env_grip_read /\
  let r := sy_rm (rrun env_grip_read true (sys_start plain) (all_up ++ [ORead])) in
  lc_of r "gripper" = Some Unconfigured /\ rm_avc r = ["a/position"; "a/velocity"].
Proof. split; [intros t n; repeat split; auto; discriminate|]. vm_compute. auto. Qed.
(** C05 is false as an equivalence: after on_activate returned ERROR the component is unconfigured
    and its interfaces are still available. *)
Theorem c05_unconfigured_interfaces_unavailable_refuted : exists e hs ops n h,
  wf_hw hs /\ find_hw (sy_rm (rrun e true (sys_start hs) ops)) n = Some h /\ ~ configured (h_lc h) /\
  exists k, In k (h_cmd h) /\ In k (rm_avc (sy_rm (rrun e true (sys_start hs) ops))).
Proof.
  exists env_act_err, plain, [OSet "arm" Active], "arm".
  eexists. split; [exact wf_plain|]. split; [vm_compute; reflexivity|]. split.
  - intros [C|C]; discriminate.
  - exists "a/position". split; [left; reflexivity|]. vm_compute. auto.
Qed.
Print Assumptions c05_unconfigured_interfaces_unavailable_refuted.

(** C06: at most one live loan per hardware command interface, in every history. *)
Theorem c06_hardware_loans_exclusive : forall e allow hs ops k,
  wf_hw hs -> In k (flat_map h_cmd hs) ->
  count_occ string_dec (sy_loans (rrun e allow (sys_start hs) ops)) k <= 1.
Proof. exact main_exclusive_hw. Qed.
Print Assumptions c06_hardware_loans_exclusive.
(** Same for every command interface (hardware or reference) in histories that never remove a
    reference interface while it is on loan (see C07). *)
Theorem c06_all_loans_exclusive : forall e allow hs ops k,
  wf_hw hs -> no_removal_on_loan e allow (sys_start hs) ops ->
  count_occ string_dec (sy_loans (rrun e allow (sys_start hs) ops)) k <= 1.
Proof. exact main_exclusive_all. Qed.
Print Assumptions c06_all_loans_exclusive.
(** Claims are refused for interfaces that are on loan or not available. *)
Theorem c06_claim_refused : forall e allow hs ops k,
  wf_hw hs -> no_removal_on_loan e allow (sys_start hs) ops ->
  let s := rrun e allow (sys_start hs) ops in
  In k (sy_loans s) \/ ~ In k (rm_avc (sy_rm s)) ->
  snd (rstep e allow s (OClaim k)) = OutBool false /\ sy_loans (fst (rstep e allow s (OClaim k))) = sy_loans s.
Proof. exact main_claim_refused. Qed.
Print Assumptions c06_claim_refused.
(** Releasing a hardware interface's loan makes it claimable again (while available) and does not
    change the claimability of any other. *)
Theorem c06_release_makes_claimable : forall e allow hs ops k,
  wf_hw hs -> In k (flat_map h_cmd hs) ->
  let s := rrun e allow (sys_start hs) ops in
  In k (sy_loans s) ->
  let s' := fst (rstep e allow s (ORelease k)) in
  ~ In k (sy_loans s') /\
  (In k (rm_avc (sy_rm s)) -> snd (rstep e allow s' (OClaim k)) = OutBool true) /\
  (forall k', k' <> k -> snd (rstep e allow s' (OClaim k')) = snd (rstep e allow s (OClaim k'))).
Proof. exact main_release. Qed.
Print Assumptions c06_release_makes_claimable.
(** The exact condition: a claim of a hardware interface is granted iff the interface is available
    and not on loan; no history leaves an interface claimed without a live loan. *)
Theorem c06_claim_granted_exactly : forall e allow hs ops k,
  wf_hw hs -> In k (flat_map h_cmd hs) ->
  let s := rrun e allow (sys_start hs) ops in
  let s' := fst (rstep e allow s (OClaim k)) in
  (In k (rm_avc (sy_rm s)) /\ ~ In k (sy_loans s) ->
     snd (rstep e allow s (OClaim k)) = OutBool true /\ sy_loans s' = k :: sy_loans s) /\
  (~ (In k (rm_avc (sy_rm s)) /\ ~ In k (sy_loans s)) ->
     snd (rstep e allow s (OClaim k)) = OutBool false /\ sy_loans s' = sy_loans s).
Proof. exact main_claim_iff. Qed.
Print Assumptions c06_claim_granted_exactly.
Example c06_example :
  let s := rrun env_ok true (sys_start plain) (all_up ++ [OClaim "a/position"; OClaim "a/position"; OClaim "g/position"]) in
  sy_loans s = ["g/position"; "a/position"] /\
  no_removal_on_loan env_ok true (sys_start plain) (all_up ++ [OClaim "a/position"; OClaim "a/position"; OClaim "g/position"]) /\
  sy_loans (rrun env_ok true s [ORelease "a/position"; OClaim "a/position"]) = ["a/position"; "g/position"].
Proof. vm_compute. intuition. Qed.

(** C07 is false: reference interfaces that are removed and imported again while on loan can be
    claimed a second time. *)
Theorem c07_reexport_keeps_exclusive_refuted : exists e hs ops k,
  wf_hw hs /\ count_occ string_dec (sy_loans (rrun e true (sys_start hs) ops)) k = 2.
Proof.
  exists env_ok, plain,
    [OImportRefs "pid" ["pid/effort"]; ORefsAvailable "pid"; OClaim "pid/effort"; ORemoveRefs "pid";
     OImportRefs "pid" ["pid/effort"]; ORefsAvailable "pid"; OClaim "pid/effort"], "pid/effort".
  split; [exact wf_plain|]. vm_compute. reflexivity.
Qed.
Print Assumptions c07_reexport_keeps_exclusive_refuted.

(** C08 (1): what a group remembers is a function of the observable history: once a member's read
    or write has returned ERROR/DEACTIVATE the group is bad until a member's on_configure,
    on_cleanup or on_shutdown.  In a bad group every member fails the next read cycle. *)
Theorem c08_bad_group_fails_every_member : forall e allow hs ops n h,
  wf_hw hs ->
  let s := rrun e allow (sys_start hs) ops in
  find_hw (sy_rm s) n = Some h -> h_group h <> "" -> (forall t, e_locked e t n = false) ->
  group_state (members hs (h_group h)) (rm_trace (sy_rm s)) <> ROk ->
  exists st, snd (rstep e allow s ORead) = OutStatus st /\ rw_result st <> ROk /\ In n (rw_failed st).
Proof. exact main_bad_group_read. Qed.
Print Assumptions c08_bad_group_fails_every_member.
(** The same for a write cycle in which no member is configured/cleaned up/shut down. *)
Theorem c08_bad_group_fails_every_member_write : forall e allow hs ops n h,
  wf_hw hs ->
  let s := rrun e allow (sys_start hs) ops in
  let s' := fst (rstep e allow s OWrite) in
  find_hw (sy_rm s) n = Some h -> h_kind h <> Sensor -> h_group h <> "" -> (forall t, e_locked e t n = false) ->
  group_state (members hs (h_group h)) (rm_trace (sy_rm s)) <> ROk ->
  (forall evs, rm_trace (sy_rm s') = evs ++ EvOp :: rm_trace (sy_rm s) ->
     Forall (fun ev => ~ clears (members hs (h_group h)) ev) evs) ->
  exists st, snd (rstep e allow s OWrite) = OutStatus st /\ rw_result st <> ROk /\ In n (rw_failed st).
Proof. exact main_bad_group_write. Qed.
Print Assumptions c08_bad_group_fails_every_member_write.
(** (2) within the cycle: when the read of member m fails, every later member fails. *)
Theorem c08_error_reaches_later_members : forall e allow hs ops m n h v evs,
  wf_hw hs ->
  let s := rrun e allow (sys_start hs) ops in
  find_hw (sy_rm s) n = Some h -> h_group h <> "" -> In m (members hs (h_group h)) ->
  (forall t, e_locked e t n = false) ->
  before m n (map h_name hs) ->
  rm_trace (sy_rm (fst (rstep e allow s ORead))) = evs ++ EvOp :: rm_trace (sy_rm s) ->
  In (EvRead m (Ret v)) evs -> v <> ROk ->
  exists st, snd (rstep e allow s ORead) = OutStatus st /\ In n (rw_failed st).
Proof. exact main_later_members. Qed.
Print Assumptions c08_error_reaches_later_members.
(** (3) the group is bad after a failing read cycle of a member, and stays so over any history
    without a clearing callback of a member. *)
Theorem c08_group_stays_bad : forall ms t evs,
  (exists m v, In m ms /\ v <> ROk /\ (In (EvRead m (Ret v)) evs \/ In (EvWrite m (Ret v)) evs)) ->
  Forall (fun ev => ~ clears ms ev) evs ->
  group_state ms (evs ++ t) <> ROk.
Proof. exact main_group_stays_bad. Qed.
Print Assumptions c08_group_stays_bad.
(** (4) other groups are unaffected: a member fails only if its own device failed in this cycle or
    its own group was bad, by its own members' history, when its turn came. *)
Theorem c08_failures_stay_in_group : forall e allow hs ops n h st,
  wf_hw hs ->
  let s := rrun e allow (sys_start hs) ops in
  let s' := fst (rstep e allow s ORead) in
  find_hw (sy_rm s) n = Some h -> snd (rstep e allow s ORead) = OutStatus st -> In n (rw_failed st) ->
  exists evs, rm_trace (sy_rm s') = evs ++ EvOp :: rm_trace (sy_rm s) /\
  (Exists (read_failed n) evs \/
   (h_group h <> "" /\ exists e1 e2, evs = e2 ++ e1 /\
      group_state (members hs (h_group h)) (e1 ++ EvOp :: rm_trace (sy_rm s)) <> ROk)).
Proof. exact main_failures_in_group_exact. Qed.
Print Assumptions c08_failures_stay_in_group.
Example c08_example :
  let s := rrun env_grip_read true (sys_start grouped) all_up in
  snd (rstep env_grip_read true s ORead) = OutStatus {| rw_result := RError; rw_failed := ["gripper"; "arm"] |} /\
  group_state (members grouped "G") (rm_trace (sy_rm (fst (rstep env_grip_read true s ORead)))) = RError /\
  before "gripper" "arm" (map h_name grouped).
Proof.
  vm_compute. split; [reflexivity|]. split; [reflexivity|]. exists [], ["camera"], []. reflexivity.
Qed.

(** C09 (read): OK iff nothing failed; no duplicates; groupless components are listed exactly if
    their device's read failed (returned other than OK, or threw) in this cycle; every component
    whose device failed is listed. *)
Theorem c09_read_failed_list_exact : forall e allow hs ops,
  wf_hw hs ->
  let s := rrun e allow (sys_start hs) ops in
  exists st evs, snd (rstep e allow s ORead) = OutStatus st /\
    rm_trace (sy_rm (fst (rstep e allow s ORead))) = evs ++ EvOp :: rm_trace (sy_rm s) /\
    (rw_result st = ROk <-> rw_failed st = []) /\ NoDup (rw_failed st) /\
    (forall n, In n (rw_failed st) -> In n (map h_name hs)) /\
    forall n h, find_hw (sy_rm s) n = Some h ->
      (Exists (read_failed n) evs -> In n (rw_failed st)) /\
      (h_group h = "" -> In n (rw_failed st) -> Exists (read_failed n) evs).
Proof. exact main_read_list. Qed.
Print Assumptions c09_read_failed_list_exact.
Theorem c09_write_failed_list_exact : forall e allow hs ops,
  wf_hw hs ->
  let s := rrun e allow (sys_start hs) ops in
  exists st evs, snd (rstep e allow s OWrite) = OutStatus st /\
    rm_trace (sy_rm (fst (rstep e allow s OWrite))) = evs ++ EvOp :: rm_trace (sy_rm s) /\
    (rw_result st = ROk <-> rw_failed st = []) /\ NoDup (rw_failed st) /\
    (forall n, In n (rw_failed st) -> In n (map h_name hs)) /\
    forall n h, find_hw (sy_rm s) n = Some h ->
      (Exists (write_failed n) evs -> In n (rw_failed st)) /\
      (h_group h = "" -> In n (rw_failed st) -> Exists (write_failed n) evs).
Proof. exact main_write_list. Qed.
Print Assumptions c09_write_failed_list_exact.
Example c09_example :
  let s := rrun env_grip_read true (sys_start plain) all_up in
  snd (rstep env_grip_read true s ORead) = OutStatus {| rw_result := RError; rw_failed := ["gripper"] |} /\
  snd (rstep env_grip_deact true s OWrite) = OutStatus {| rw_result := RDeactivate; rw_failed := ["gripper"] |}.
Proof. vm_compute. auto. Qed.

(** C10 (read): listed components are no longer configured, all others are untouched. *)
Theorem c10_read_failure_unconfigures : forall e allow hs ops st n h,
  wf_hw hs ->
  let s := rrun e allow (sys_start hs) ops in
  let s' := fst (rstep e allow s ORead) in
  snd (rstep e allow s ORead) = OutStatus st -> find_hw (sy_rm s) n = Some h ->
  (In n (rw_failed st) -> exists l, lc_of (sy_rm s') n = Some l /\ ~ configured l) /\
  (~ In n (rw_failed st) -> find_hw (sy_rm s') n = Some h).
Proof. exact main_read_life. Qed.
Print Assumptions c10_read_failure_unconfigures.
(** C10 (write): ERROR and exceptions unconfigure, DEACTIVATE runs on_deactivate (and, if that
    succeeds, leaves the component inactive), all components not listed are untouched. *)
Theorem c10_write_failure_effects : forall e allow hs ops st n h evs,
  wf_hw hs ->
  let s := rrun e allow (sys_start hs) ops in
  let s' := fst (rstep e allow s OWrite) in
  snd (rstep e allow s OWrite) = OutStatus st -> find_hw (sy_rm s) n = Some h ->
  rm_trace (sy_rm s') = evs ++ EvOp :: rm_trace (sy_rm s) ->
  (In (EvWrite n (Ret RError)) evs \/ In (EvWrite n Throw) evs ->
     exists l, lc_of (sy_rm s') n = Some l /\ ~ configured l) /\
  (In (EvWrite n (Ret RDeactivate)) evs -> exists x, In (EvHwCb n HDeactivate x) evs /\
     (x = CbSuccess -> lc_of (sy_rm s') n = Some Inactive)) /\
  (~ In n (rw_failed st) -> find_hw (sy_rm s') n = Some h).
Proof. exact main_write_life. Qed.
Print Assumptions c10_write_failure_effects.
Example c10_example :
  let s := rrun env_grip_deact true (sys_start plain) all_up in
  lc_of (sy_rm (fst (rstep env_grip_deact true s OWrite))) "gripper" = Some Inactive /\
  lc_of (sy_rm (fst (rstep env_grip_read true s ORead))) "gripper" = Some Unconfigured.
Proof. vm_compute. auto. Qed.

(** C11: command-mode switches. *)
Theorem c11_prepare_switch : forall e allow hs ops start stop b,
  wf_hw hs ->
  let s := rrun e allow (sys_start hs) ops in
  let s' := fst (rstep e allow s (OPrepare start stop)) in
  snd (rstep e allow s (OPrepare start stop)) = OutBool b ->
  exists evs, rm_trace (sy_rm s') = evs ++ EvOp :: rm_trace (sy_rm s) /\ rm_hw (sy_rm s') = rm_hw (sy_rm s) /\
    Forall (forwarded MPrepare (sy_rm s) start stop) evs /\
    (b = true ->
       Forall (fun ev => exists n s p, ev = EvPrepare n s p (Ret ROk)) evs /\
       (forall k, In k start \/ In k stop -> In k (rm_ckeys (sy_rm s)) /\ In k (rm_avc (sy_rm s))) /\
       forall n h, find_hw (sy_rm s) n = Some h -> h_kind h <> Sensor -> concerned h start stop ->
          configured (h_lc h) /\ (exists s p x, In (EvPrepare n s p x) evs) /\
          (allow = false -> (exists k, In k start /\ In k (h_cmd h)) -> h_lc h = Active)).
Proof. exact main_prepare. Qed.
Print Assumptions c11_prepare_switch.
Theorem c11_perform_switch : forall e allow hs ops start stop b,
  wf_hw hs ->
  let s := rrun e allow (sys_start hs) ops in
  let s' := fst (rstep e allow s (OPerform start stop)) in
  snd (rstep e allow s (OPerform start stop)) = OutBool b ->
  exists evs, rm_trace (sy_rm s') = evs ++ EvOp :: rm_trace (sy_rm s) /\ rm_hw (sy_rm s') = rm_hw (sy_rm s) /\
    Forall (forwarded MPerform (sy_rm s) start stop) evs /\
    (b = true ->
       Forall (fun ev => exists n s p, ev = EvPerform n s p (Ret ROk)) evs /\
       forall n h, find_hw (sy_rm s) n = Some h -> h_kind h <> Sensor -> concerned h start stop ->
          configured (h_lc h) /\ (exists s p x, In (EvPerform n s p x) evs) /\
          (allow = false -> (exists k, In k start /\ In k (h_cmd h)) -> h_lc h = Active)).
Proof. exact main_perform. Qed.
Print Assumptions c11_perform_switch.
(** C11, exactly once and no refusal without a reason. *)
Theorem c11_prepare_exact : forall e allow hs ops start stop b,
  wf_hw hs ->
  let s := rrun e allow (sys_start hs) ops in
  let s' := fst (rstep e allow s (OPrepare start stop)) in
  snd (rstep e allow s (OPrepare start stop)) = OutBool b ->
  exists evs, rm_trace (sy_rm s') = evs ++ EvOp :: rm_trace (sy_rm s) /\
    (forall n, count (is_call MPrepare n) evs <= 1) /\
    (b = true -> forall n h, find_hw (sy_rm s) n = Some h -> h_kind h <> Sensor -> concerned h start stop -> count (is_call MPrepare n) evs = 1) /\
    ((forall k, In k start \/ In k stop -> In k (rm_ckeys (sy_rm s)) /\ In k (rm_avc (sy_rm s))) ->
     switch_possible e MPrepare allow (sy_rm s) start stop -> b = true).
Proof. exact main_prepare_exact. Qed.
Print Assumptions c11_prepare_exact.
Theorem c11_perform_exact : forall e allow hs ops start stop b,
  wf_hw hs ->
  let s := rrun e allow (sys_start hs) ops in
  let s' := fst (rstep e allow s (OPerform start stop)) in
  snd (rstep e allow s (OPerform start stop)) = OutBool b ->
  exists evs, rm_trace (sy_rm s') = evs ++ EvOp :: rm_trace (sy_rm s) /\
    (forall n, count (is_call MPerform n) evs <= 1) /\
    (b = true -> forall n h, find_hw (sy_rm s) n = Some h -> h_kind h <> Sensor -> concerned h start stop -> count (is_call MPerform n) evs = 1) /\
    (switch_possible e MPerform allow (sy_rm s) start stop -> b = true).
Proof. exact main_perform_exact. Qed.
Print Assumptions c11_perform_exact.
Example c11_example :
  let s := rrun env_ok false (sys_start plain) all_up in
  snd (rstep env_ok false s (OPrepare ["a/position"] ["g/position"])) = OutBool true /\
  snd (rstep env_ok false s (OPrepare ["x/position"] [])) = OutBool false /\
  In (EvPrepare "arm" ["a/position"] [] (Ret ROk))
     (rm_trace (sy_rm (fst (rstep env_ok false s (OPrepare ["a/position"] ["g/position"]))))).
Proof. vm_compute. auto. Qed.
