(** Props_Life.v -- properties C53, C54, C55: the update cycle, the life cycle of controllers, what operations call. *)
From Verif Require Import Base Events HwModel RmModel RmSys RmSpec RmWitness ChainModel CmModel CmWitness CmSpec CmTopo UpdateSpec LifeSpec CmCycle.
Open Scope string_scope.
Open Scope list_scope.

(** C53.  One update cycle after any history: the update callbacks run first, in the order of the controller list, each
    controller at most once; only active controllers that are not part of a switch being performed by the service call
    are updated, and every one of them that is due is updated; nothing that follows in the same cycle (deactivation,
    fallback activation) updates a controller. *)
Theorem c53_update_cycle : forall e allow hs ops m m' out,
  crun e allow (cm_start hs) ops = Val m -> cstep e allow m CUpdate = Val (m', out) ->
  exists later ups, happened m m' (later ++ ups) /\
    (forall ev, In ev ups -> exists n r, ev = EvUpdate n r) /\ (forall n r, ~ In (EvUpdate n r) later) /\
    sublist (updated ups) (map c_name (cm_ctrls m)) /\ NoDup (updated ups) /\
    (forall n, In n (updated ups) -> has_turn m n) /\
    (forall n, has_turn m n -> (forall t, e_update_due e t n = true) -> In n (updated ups)).
Proof.
  intros e allow hs ops m m' out R H. pose proof (reach_NI _ _ _ _ _ R) as N.
  destruct (main_cycle _ _ _ _ _ N H) as (later & ups & A & B & C & D & E). exists later, ups.
  split; [exact A|]. split; [exact B|]. split; [exact C|]. split; [exact D|]. split; [|exact E].
  eapply sub_nodup; [exact D|]. apply N.
Qed.
Print Assumptions c53_update_cycle.
(** ... and no other operation updates a controller *)
Theorem c53_only_in_the_update_cycle : forall e allow hs ops m o m' out t n r,
  crun e allow (cm_start hs) ops = Val m -> cstep e allow m o = Val (m', out) -> happened m m' t ->
  In (EvUpdate n r) t -> o = CUpdate.
Proof.
  intros e allow hs ops m o m' out t n r R H A I. destruct (main_step _ _ _ _ _ _ (reach_NI _ _ _ _ _ R) H) as (t' & A' & F & _).
  unfold happened in *. rewrite A in A'. apply app_inv_tail in A'. subst t'. rewrite Forall_forall in F. specialize (F _ I).
  destruct o; cbn in F; try tauto.
Qed.
Print Assumptions c53_only_in_the_update_cycle.
(** Non-vacuity: a chain of three running controllers, the one in the middle reports an error: all three were updated,
    in list order, before they were stopped. *)
Definition chain3 : list cop := up_hw ++ load_conf [pos; pid; adm; plan] ++ switch ["pid"; "adm"; "plan"] [] true.
Definition adm_fails : env := with_update env_ok (fun _ n => if String.eqb n "adm" then Ret RError else Ret ROk).
Definition trace_since (m m' : cm) : trace := firstn (length (rm_trace (cm_rm m')) - S (length (rm_trace (cm_rm m)))) (rm_trace (cm_rm m')).
Example c53_example : exists m m',
  crun adm_fails true (cm_start plain) chain3 = Val m /\ cstep adm_fails true m CUpdate = Val (m', CNone) /\
  map c_name (cm_ctrls m) = ["pos"; "pid"; "plan"; "adm"] /\
  has_turn m "pid" /\ ~ has_turn m "pos" /\ updated (trace_since m m') = ["pid"; "plan"; "adm"] /\ state_in m' "adm" <> Some Active.
Proof. 
  eexists. eexists. split; [vm_compute; reflexivity|]. split; [vm_compute; reflexivity|]. split; [vm_compute; reflexivity|].
  split; [split; [vm_compute; reflexivity|intros (p & E & _); discriminate]|].
  split; [intros [E _]; vm_compute in E; discriminate|]. split; [vm_compute; reflexivity|]. vm_compute. discriminate.
Qed.

(** C54.  Every operation, after any history, calls the life-cycle callbacks of a controller only in the state the life
    cycle allows them in, every failing callback is followed by on_error, and the state the manager reports afterwards
    is the state those callbacks lead to; on_set_chained_mode is called only while the controller is not active, and
    the controller is in chained mode exactly as it last accepted.  A controller disappears only by unloading it, and
    is then not active. *)
Theorem c54_life_cycle : forall e allow hs ops m o m' out,
  crun e allow (cm_start hs) ops = Val m -> cstep e allow m o = Val (m', out) ->
  exists t, happened m m' t /\ forall n c, find_ctrl m n = Some c ->
    (exists c', find_ctrl m' n = Some c' /\ phase n (PState (c_lc c)) t = Some (PState (c_lc c')) /\
       chained_by n (c_chained c) t = c_chained c') \/
    (o = CUnload n /\ find_ctrl m' n = None /\ exists l, l <> Active /\ phase n (PState (c_lc c)) t = Some (PState l)).
Proof.
  intros e allow hs ops m o m' out R H. destruct (main_step _ _ _ _ _ _ (reach_NI _ _ _ _ _ R) H) as (t & A & _ & [F]).
  exists t. split; [exact A|exact F].
Qed.
Print Assumptions c54_life_cycle.
(** The same over whole histories: from the moment it is loaded, unconfigured, until it is unloaded. *)
Theorem c54_loaded : forall e allow m c m', cstep e allow m (CLoad c true) = Val (m', CBool true) ->
  exists c', find_ctrl m (c_name c) = None /\ cm_ctrls m' = cm_ctrls m ++ [c'] /\
    c_name c' = c_name c /\ c_lc c' = Unconfigured /\ c_chained c' = false /\ c_cloans c' = [] /\ c_sloans c' = [].
Proof. exact main_load. Qed.
Print Assumptions c54_loaded.
Theorem c54_history : forall e allow hs before ops m m' n c,
  crun e allow (cm_start hs) before = Val m -> crun e allow m ops = Val m' ->
  find_ctrl m n = Some c -> ~ In (CUnload n) ops ->
  exists t c', rm_trace (cm_rm m') = t ++ rm_trace (cm_rm m) /\ find_ctrl m' n = Some c' /\
    phase n (PState (c_lc c)) t = Some (PState (c_lc c')) /\ chained_by n (c_chained c) t = c_chained c'.
Proof. intros e allow hs before ops m m' n c R. exact (main_history e allow n ops m m' c (reach_NI _ _ _ _ _ R)). Qed.
Print Assumptions c54_history.
(** what the automaton forbids, spelled out: an update of a controller that is not active, and the activation of an
    active one, are not runs of it *)
Example c54_strict : phase "pid" (PState Inactive) [EvUpdate "pid" (Ret ROk)] = None /\
  phase "pid" (PState Active) [EvCtrlCb "pid" Events.CActivate CbSuccess] = None /\
  phase "pid" (PState Active) [EvChained "pid" true true] = None /\
  phase "pid" (PState Inactive) [EvUpdate "pid" (Ret ROk); EvCtrlCb "pid" Events.CActivate CbSuccess] = Some (PState Active) /\
  phase "pid" (PState Active) [EvUpdate "pid" (Ret ROk); EvCtrlCb "pid" Events.CDeactivate CbError] = None.
Proof. vm_compute. auto. Qed.
(** Non-vacuity: pid is restarted in chained mode when adm is started on top of it *)
Example c54_example : exists m m', crun env_ok true (cm_start plain) (up_hw ++ load_conf [pid; adm] ++ switch ["pid"] [] true) = Val m /\
  crun env_ok true m (switch ["adm"] [] true) = Val m' /\ chained_in m "pid" = Some false /\ chained_in m' "pid" = Some true /\
  exists t, rm_trace (cm_rm m') = t ++ rm_trace (cm_rm m) /\
    filter (fun ev => match ev with EvCtrlCb "pid" _ _ | EvChained "pid" _ _ => true | _ => false end) t =
      [EvCtrlCb "pid" Events.CActivate CbSuccess; EvChained "pid" true true; EvChained "pid" false true; EvCtrlCb "pid" Events.CDeactivate CbSuccess].
Proof.
  eexists. eexists. split; [vm_compute; reflexivity|]. split; [vm_compute; reflexivity|]. split; [vm_compute; reflexivity|]. split; [vm_compute; reflexivity|].
  match goal with |- exists t, rm_trace (cm_rm ?a) = _ ++ rm_trace (cm_rm ?b) /\ _ => exists (firstn (length (rm_trace (cm_rm a)) - length (rm_trace (cm_rm b))) (rm_trace (cm_rm a))) end.
  split; vm_compute; reflexivity.
Qed.

(** C55.  Every operation calls only the user code that is its own (LifeSpec.may_call): e.g. configuring a controller
    calls no other controller and no hardware, a switch request calls no controller at all, only the update cycle
    updates, only read/write and component state changes touch hardware life cycles. *)
Theorem c55_only_their_own_callbacks : forall e allow hs ops m o m' out,
  crun e allow (cm_start hs) ops = Val m -> cstep e allow m o = Val (m', out) ->
  exists t, happened m m' t /\ forall ev, In ev t -> may_call o ev.
Proof.
  intros e allow hs ops m o m' out R H. destruct (main_step _ _ _ _ _ _ (reach_NI _ _ _ _ _ R) H) as (t & A & F & _).
  exists t. split; [exact A|]. rewrite Forall_forall in F. exact F.
Qed.
Print Assumptions c55_only_their_own_callbacks.
Example c55_example : exists m m', crun env_ok true (cm_start plain) (up_hw ++ load_conf [pid; adm] ++ switch ["pid"] [] true) = Val m /\
  cstep env_ok true m (CConfigure "adm" []) = Val (m', CBool true) /\
  trace_since m m' = [EvChained "adm" false true; EvCtrlCb "adm" Events.CConfigure CbSuccess; EvCtrlCb "adm" Events.CCleanup CbSuccess].
Proof. eexists. eexists. split; [vm_compute; reflexivity|]. split; [vm_compute; reflexivity|]. vm_compute. reflexivity. Qed.
