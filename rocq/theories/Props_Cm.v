(** Props_Cm.v -- C12 onwards: controllers, their interfaces, their life cycle.
    [hs] are the hardware components, [e] the behaviour of all user code (any function of the
    history), [ops] any history of operations of the manager (load, configure, switch requests,
    real-time cycles with their failures, ...). *)
From Verif Require Import Base Events HwModel RmModel RmSys RmSpec RmWitness ChainModel
  CmModel CmPrim ChainSpec CmTopo CmInv CmExcl CmReach CmSpec CmSwitch CmOutcome CmLoad CmCache CmIntact CmWitness.
Open Scope string_scope.
Open Scope list_scope.

(** C12, second half: a controller that is not active holds no loan. *)
Theorem c12_not_active_holds_nothing : forall e allow hs ops m c,
  wf_hw hs -> crun e allow (cm_start hs) ops = Val m ->
  In c (cm_ctrls m) -> c_lc c <> Active -> c_cloans c = [] /\ c_sloans c = [].
Proof. exact main_idle. Qed.
Print Assumptions c12_not_active_holds_nothing.
(** C12, first half: an active controller holds exactly the interfaces it asked for by name, in
    that order, provided its on_deactivate never answers FAILURE. *)
Theorem c12_active_holds_all_partial : forall e allow hs ops m c,
  crun e allow (cm_start hs) ops = Val m ->
  In c (cm_ctrls m) -> c_lc c = Active ->
  (forall t, e_ctrl e t (c_name c) CDeactivate <> CbFailure) ->
  (forall ks, c_cmd c = IIndividual ks -> c_cloans c = ks) /\
  (forall ks, c_state c = IIndividual ks -> c_sloans c = ks).
Proof. exact main_holds. Qed.
Print Assumptions c12_active_holds_all_partial.
Example c12_example : exists m c d,
  crun env_ok true (cm_start plain) (up_hw ++ load_conf [pid; adm] ++ switch ["pid"; "adm"] [] true) = Val m /\
  find_ctrl m "adm" = Some c /\ c_lc c = Active /\ c_cloans c = ["pid/ref"] /\ c_sloans c = ["pid/est"] /\
  state_of (crun env_ok true m (switch [] ["adm"] true)) "adm" = Some Inactive /\
  crun env_ok true m (switch [] ["adm"] true) = Val d.
Proof. do 3 eexists. split; [vm_compute; reflexivity|]. split; [vm_compute; reflexivity|]. vm_compute. repeat split. Qed.

(** C12 is false without that proviso: when on_deactivate answers FAILURE the controller stays
    active, but its interfaces are taken away. *)
Definition stubborn : env := with_ctrl env_ok (fun _ n cb =>
  match cb with CDeactivate => CbFailure | _ => CbSuccess end).
Theorem c12_active_holds_all_refuted : exists hs e ops m c,
  wf_hw hs /\ crun e true (cm_start hs) ops = Val m /\ In c (cm_ctrls m) /\ c_lc c = Active /\
  c_cmd c = IIndividual ["a/position"] /\ c_cloans c = [] /\
  aget (rm_claimed (cm_rm m)) "a/position" = Some false.
Proof.
  exists plain, stubborn, (up_hw ++ load_conf [pos] ++ switch ["pos"] [] true ++ switch [] ["pos"] true).
  do 2 eexists. split; [apply wf_plain|]. split; [vm_compute; reflexivity|]. split; [left; reflexivity|].
  vm_compute. repeat split.
Qed.
Print Assumptions c12_active_holds_all_refuted.

(** C13, for the command interfaces of the hardware: never two controllers holding one, and the
    holder has it once and it is marked claimed. *)
Theorem c13_hardware_interface_one_holder_partial : forall e allow hs ops m k c1 c2,
  wf_hw hs -> In k (flat_map h_cmd hs) ->
  crun e allow (cm_start hs) ops = Val m ->
  In c1 (cm_ctrls m) -> In c2 (cm_ctrls m) -> c_name c1 <> c_name c2 ->
  In k (c_cloans c1) -> In k (c_cloans c2) -> False.
Proof. exact main_exclusive. Qed.
Print Assumptions c13_hardware_interface_one_holder_partial.
Theorem c13_held_is_claimed_partial : forall e allow hs ops m k c,
  wf_hw hs -> In k (flat_map h_cmd hs) ->
  crun e allow (cm_start hs) ops = Val m -> In c (cm_ctrls m) -> In k (c_cloans c) ->
  aget (rm_claimed (cm_rm m)) k = Some true /\ count_occ string_dec (c_cloans c) k = 1.
Proof. exact main_claimed. Qed.
Print Assumptions c13_held_is_claimed_partial.
Definition pos2 := ctl "pos2" false ["a/position"] [] [] [] [].
Example c13_example : exists m c,
  crun env_ok true (cm_start plain)
    (up_hw ++ load_conf [pos; pos2] ++ switch ["pos"] [] true ++ switch ["pos2"] [] true) = Val m /\
  find_ctrl m "pos" = Some c /\ c_cloans c = ["a/position"] /\
  state_of (Val m) "pos2" = Some Inactive /\
  state_of (crun env_ok true m (switch ["pos2"] ["pos"] true)) "pos2" = Some Active /\
  state_of (crun env_ok true m (switch ["pos2"] ["pos"] true)) "pos" = Some Inactive.
Proof. do 2 eexists. split; [vm_compute; reflexivity|]. split; [vm_compute; reflexivity|]. vm_compute. repeat split. Qed.

(** C13 is false for reference interfaces: a hardware error deactivates the controller F whose
    references P commands, but not P; F can then be configured again, which removes and re-creates
    its references, and a second controller Q gets the same reference interface. *)
Definition rF := ctl "F" true ["a/position"] [] ["F/ref"] [] [].
Definition rP := ctl "P" false ["F/ref"] [] [] [] [].
Definition rQ := ctl "Q" false ["F/ref"] [] [] [] [].
Definition first_read_fails : env := with_read env_ok (fun t h =>
  if String.eqb h "arm" &&
     negb (existsb (fun ev => match ev with EvRead "arm" _ => true | _ => false end) t)
  then Ret RError else Ret ROk).
Theorem c13_one_holder_refuted : exists hs e ops m c1 c2,
  wf_hw hs /\ crun e true (cm_start hs) ops = Val m /\
  In c1 (cm_ctrls m) /\ In c2 (cm_ctrls m) /\ c_name c1 <> c_name c2 /\
  c_lc c1 = Active /\ c_lc c2 = Active /\ In "F/ref" (c_cloans c1) /\ In "F/ref" (c_cloans c2).
Proof.
  exists plain, first_read_fails,
    (up_hw ++ load_conf [rF; rP; rQ] ++ switch ["P"; "F"] [] true ++
     [CRead; CSetHw "arm" Active; CConfigure "F" []] ++ switch ["F"; "Q"] [] true).
  eexists. exists
    (match find_ctrl (match crun first_read_fails true (cm_start plain)
    (up_hw ++ load_conf [rF; rP; rQ] ++ switch ["P"; "F"] [] true ++
     [CRead; CSetHw "arm" Active; CConfigure "F" []] ++ switch ["F"; "Q"] [] true) with Val m => m | Crash => cm_start [] end) "P" with Some c => c | None => rP end).
  exists
    (match find_ctrl (match crun first_read_fails true (cm_start plain)
    (up_hw ++ load_conf [rF; rP; rQ] ++ switch ["P"; "F"] [] true ++
     [CRead; CSetHw "arm" Active; CConfigure "F" []] ++ switch ["F"; "Q"] [] true) with Val m => m | Crash => cm_start [] end) "Q" with Some c => c | None => rP end).
  split; [apply wf_plain|]. split; [vm_compute; reflexivity|].
  vm_compute. split; [tauto|]. split; [tauto|]. split; [discriminate|]. repeat split; auto.
Qed.
Print Assumptions c13_one_holder_refuted.

(** C30 *)
Theorem c30_names_unique : forall e allow hs ops m,
  crun e allow (cm_start hs) ops = Val m -> NoDup (map c_name (cm_ctrls m)).
Proof. exact main_unique. Qed.
Print Assumptions c30_names_unique.
Example c30_example : exists m m',
  crun env_ok true (cm_start plain) (load_conf [pos; pid]) = Val m /\
  cstep env_ok true m (CLoad pos true) = Val (m', CBool false) /\
  names_of (Val m') = ["pos"; "pid"].
Proof. do 2 eexists. split; [vm_compute; reflexivity|]. split; vm_compute; reflexivity. Qed.

(** C14: a request (STRICT or not) that is answered with an error changed the life-cycle state of
    no controller, holds or releases no interface, touches no hardware, and leaves nothing behind
    that a later cycle could still perform. *)
Theorem c14_rejected_changes_nothing : forall e allow m a d strict asap m',
  cstep e allow m (CRequest a d strict asap) = Val (m', CSw SwError) ->
  cm_ctrls m' = cm_ctrls m /\ cm_pend m' = cm_pend m /\ cm_pend m' = None /\
  rm_claimed (cm_rm m') = rm_claimed (cm_rm m) /\ rm_hw (cm_rm m') = rm_hw (cm_rm m) /\
  incl (rm_avc (cm_rm m)) (rm_avc (cm_rm m')) /\ incl (rm_avs (cm_rm m)) (rm_avs (cm_rm m')).
Proof. exact main_rejected. Qed.
Print Assumptions c14_rejected_changes_nothing.
Theorem c14_nothing_left_to_perform : forall e allow m o m' out, cm_pend m = None ->
  o = CPerform \/ o = CTimeout \/ o = CEvaluate -> cstep e allow m o = Val (m', out) ->
  cm_ctrls m' = cm_ctrls m /\ cm_pend m' = None /\ out = CNone.
Proof. exact main_nothing_pending. Qed.
Print Assumptions c14_nothing_left_to_perform.
(** ... and an invalid STRICT request is answered with an error: every request that is not, is
    valid in the sense of CmSpec.v. *)
Theorem c14_invalid_is_rejected : forall e allow hs ops m a d asap m' out,
  crun e allow (cm_start hs) ops = Val m ->
  cstep e allow m (CRequest a d true asap) = Val (m', out) ->
  out <> CSw SwError -> out <> CBlocked ->
  valid_switch m m' a d.
Proof. exact main_strict_valid. Qed.
Print Assumptions c14_invalid_is_rejected.
(** one request accepted, one rejected for each of: unknown controller, controller in the wrong
    state, missing chain partner, conflicting interface *)
Definition out_of (x : res (cm * cout)) : option cout := match x with Val (_, o) => Some o | Crash => None end.
Example c14_example : exists m,
  crun env_ok true (cm_start plain) (up_hw ++ load_conf [pid; adm; pos; pos2]) = Val m /\
  out_of (cstep env_ok true m (CRequest ["pid"; "adm"] [] true true)) = Some (CSw SwPending) /\
  out_of (cstep env_ok true m (CRequest ["pid"; "nobody"] [] true true)) = Some (CSw SwError) /\
  out_of (cstep env_ok true m (CRequest [] ["pid"] true true)) = Some (CSw SwError) /\
  out_of (cstep env_ok true m (CRequest ["adm"] [] true true)) = Some (CSw SwError) /\
  out_of (cstep env_ok true m (CRequest ["pos"; "pos2"] [] true true)) = Some (CSw SwError).
Proof. eexists. split; [vm_compute; reflexivity|]. vm_compute. repeat split. Qed.

(** C16: what the answer of an accepted STRICT request says about the controllers, for any
    operations [mid] (cycles, hardware errors, other requests) between the request and the answer:
    the answer is OK if and only if every controller to be activated, and every controller the
    manager restarts to change its chained mode, is active, and every controller to be deactivated
    (and not re-activated) is not. *)
Theorem c16_answer_reflects_outcome : forall e allow hs ops m a d asap m1 mid m2 m3 b,
  crun e allow (cm_start hs) ops = Val m ->
  cstep e allow m (CRequest a d true asap) = Val (m1, CSw SwPending) ->
  Forall not_end mid -> crun e allow m1 mid = Val m2 ->
  cstep e allow m2 CEvaluate = Val (m3, CBool b) ->
  exists restarted,
    (forall n, In n restarted -> ~ In n d /\ state_in m n = Some Active) /\
    (b = true <->
      (forall n, In n a \/ In n restarted -> state_in m3 n = Some Active) /\
      (forall n, In n d -> ~ In n a -> exists l, state_in m3 n = Some l /\ l <> Active)).
Proof. exact main_answer. Qed.
Print Assumptions c16_answer_reflects_outcome.
(** OK when all callbacks succeed; an error when on_activate of one fails *)
Definition pid_wont : env := with_ctrl env_ok (fun _ n cb =>
  match cb with CActivate => if String.eqb n "pid" then CbFailure else CbSuccess | _ => CbSuccess end).
Example c16_example : exists m m1 m2 m3,
  crun env_ok true (cm_start plain) (up_hw ++ load_conf [pid; pos] ++ switch ["pos"] [] true) = Val m /\
  cstep env_ok true m (CRequest ["pid"] ["pos"] true true) = Val (m1, CSw SwPending) /\
  crun env_ok true m1 [CPerform] = Val m2 /\
  cstep env_ok true m2 CEvaluate = Val (m3, CBool true) /\
  state_in m3 "pid" = Some Active /\ state_in m3 "pos" = Some Inactive /\
  exists m2' m3', crun pid_wont true m1 [CPerform] = Val m2' /\
    cstep pid_wont true m2' CEvaluate = Val (m3', CBool false) /\ state_in m3' "pid" = Some Inactive.
Proof.
  do 4 eexists. split; [vm_compute; reflexivity|]. split; [vm_compute; reflexivity|].
  split; [vm_compute; reflexivity|]. split; [vm_compute; reflexivity|].
  split; [vm_compute; reflexivity|]. split; [vm_compute; reflexivity|].
  do 2 eexists. split; [vm_compute; reflexivity|]. split; vm_compute; reflexivity.
Qed.

(** C28: unload and cleanup requests for an active controller do nothing but answer with an error. *)
Theorem c28_refused_when_active : forall e allow m o n m' out c, cm_pend m = None ->
  o = CUnload n \/ o = CCleanup n -> find_ctrl m n = Some c -> c_lc c = Active ->
  cstep e allow m o = Val (m', out) ->
  m' = emit m EvOp /\ out = CBool false.
Proof. exact main_unload_active. Qed.
Print Assumptions c28_refused_when_active.
(** A successful unload removes exactly the named controller, a failed one removes none; no other
    controller is touched. *)
Theorem c28_unload_removes_exactly_one : forall e allow hs ops m n m' b,
  crun e allow (cm_start hs) ops = Val m ->
  cstep e allow m (CUnload n) = Val (m', CBool b) ->
  if b then cm_ctrls m' = others n m /\ In n (map c_name (cm_ctrls m)) /\ state_in m n <> Some Active
  else map c_name (cm_ctrls m') = map c_name (cm_ctrls m) /\ others n m' = others n m.
Proof. exact main_unload. Qed.
Print Assumptions c28_unload_removes_exactly_one.
Theorem c28_cleanup_touches_one : forall e allow hs ops m n m' b,
  crun e allow (cm_start hs) ops = Val m ->
  cstep e allow m (CCleanup n) = Val (m', CBool b) ->
  map c_name (cm_ctrls m') = map c_name (cm_ctrls m) /\ others n m' = others n m /\
  (b = true -> state_in m' n = Some Unconfigured).
Proof. exact main_cleanup. Qed.
Print Assumptions c28_cleanup_touches_one.
Example c28_example : exists m,
  crun env_ok true (cm_start plain) (up_hw ++ load_conf [pos; pid] ++ switch ["pos"] [] true) = Val m /\
  state_in m "pos" = Some Active /\
  out_of (cstep env_ok true m (CUnload "pos")) = Some (CBool false) /\
  out_of (cstep env_ok true m (CCleanup "pos")) = Some (CBool false) /\
  out_of (cstep env_ok true m (CUnload "pid")) = Some (CBool true) /\
  names_of (crun env_ok true m [CUnload "pid"]) = ["pos"].
Proof. eexists. split; [vm_compute; reflexivity|]. vm_compute. repeat split. Qed.

(** C29: a configure request for an active, finalized or unknown controller does nothing. *)
Theorem c29_refused : forall e allow m n order m' out, cm_pend m = None ->
  find_ctrl m n = None \/ state_in m n = Some Active \/ state_in m n = Some Finalized ->
  cstep e allow m (CConfigure n order) = Val (m', out) ->
  m' = emit m EvOp /\ out = CBool false.
Proof. exact main_configure_refused. Qed.
Print Assumptions c29_refused.
(** A failed one leaves all others alone and the controller not configured (CmSpec.at_rest). *)
Theorem c29_failed_leaves_unconfigured : forall e allow hs ops m n order m',
  crun e allow (cm_start hs) ops = Val m ->
  cstep e allow m (CConfigure n order) = Val (m', CBool false) ->
  state_in m n = Some Unconfigured \/ state_in m n = Some Inactive ->
  map c_name (cm_ctrls m') = map c_name (cm_ctrls m) /\ others n m' = others n m /\ at_rest e m' n.
Proof. exact main_configure_failed. Qed.
Print Assumptions c29_failed_leaves_unconfigured.
(** A successful one leaves it inactive and changes the state of no other controller; ... *)
Theorem c29_done : forall e allow hs ops m n order m',
  crun e allow (cm_start hs) ops = Val m ->
  cstep e allow m (CConfigure n order) = Val (m', CBool true) ->
  state_in m' n = Some Inactive /\ (forall k, k <> n -> state_in m' k = state_in m k).
Proof. exact main_configure_done. Qed.
Print Assumptions c29_done.
(** ... it called on_cleanup first if the controller was configured before, then on_configure,
    and no other life-cycle callback of any controller. *)
Theorem c29_cleaned_up_first : forall e allow m n order m',
  cstep e allow m (CConfigure n order) = Val (m', CBool true) ->
  exists before, life m' = EvCtrlCb n Events.CConfigure CbSuccess :: before ++ life m /\
    (state_in m n = Some Unconfigured /\ before = [] \/
     state_in m n = Some Inactive /\
       (before = [EvCtrlCb n Events.CCleanup CbSuccess] \/ exists r, before = [EvCtrlErr n true; EvCtrlCb n Events.CCleanup r])).
Proof. exact main_configure_calls. Qed.
Print Assumptions c29_cleaned_up_first.
Definition no_cleanup : env := with_ctrl env_ok (fun _ n cb =>
  match cb with Events.CCleanup => CbFailure | _ => CbSuccess end).
Example c29_example : exists m m1,
  crun env_ok true (cm_start plain) (up_hw ++ load_conf [pos; pid] ++ switch ["pos"] [] true) = Val m /\
  out_of (cstep env_ok true m (CConfigure "pos" [])) = Some (CBool false) /\
  cstep env_ok true m (CConfigure "pid" []) = Val (m1, CBool true) /\
  life m1 = EvCtrlCb "pid" Events.CConfigure CbSuccess :: EvCtrlCb "pid" Events.CCleanup CbSuccess :: life m /\
  out_of (cstep no_cleanup true m (CConfigure "pid" [])) = Some (CBool false).
Proof.
  do 2 eexists. split; [vm_compute; reflexivity|]. split; [vm_compute; reflexivity|].
  split; [vm_compute; reflexivity|]. split; vm_compute; reflexivity.
Qed.

(** C17: in every history made of operations in which nothing fails at run time (no hardware or
    update error, no switch that was not answered OK), every STRICT switch being over disjoint
    lists, no active controller commands an interface of a loaded controller that is not active.
    Missing: what happens after a failure, see the refutations below. *)
Theorem c17_chain_intact_partial : forall e allow hs ops m, cleans_up e ->
  orderly e allow (cm_start hs) ops m -> chain_intact m.
Proof. exact main_orderly_start. Qed.
Print Assumptions c17_chain_intact_partial.
(** the two kinds of steps, from any reachable state in which the chains are intact *)
Theorem c17_switch_keeps_chains_partial : forall e allow hs ops m a d asap m1 m2 m3, cleans_up e ->
  crun e allow (cm_start hs) ops = Val m -> chain_intact m -> owners_chainable m ->
  (forall n, In n a -> ~ In n d) ->
  cstep e allow m (CRequest a d true asap) = Val (m1, CSw SwPending) ->
  cstep e allow m1 CPerform = Val (m2, CNone) ->
  cstep e allow m2 CEvaluate = Val (m3, CBool true) ->
  chain_intact m3.
Proof. exact main_intact_switch. Qed.
Print Assumptions c17_switch_keeps_chains_partial.
Theorem c17_calm_keeps_chains_partial : forall e allow hs ops m o m' out,
  crun e allow (cm_start hs) ops = Val m -> chain_intact m -> calm e m o ->
  cstep e allow m o = Val (m', out) -> chain_intact m'.
Proof. exact main_intact_other. Qed.
Print Assumptions c17_calm_keeps_chains_partial.
(** an orderly history that starts and stops a chain of two controllers *)
Ltac calm_load := let Hx := fresh in let O := fresh in let I := fresh in let E := fresh in
  intros ? ? Hx (? & E & I) O; vm_compute in Hx;
  repeat destruct Hx as [<-|Hx]; try destruct Hx; vm_compute in E; injection E as <-;
  repeat destruct I as [<-|I]; try destruct I; vm_compute in O; discriminate.
Ltac one_calm := eapply or_calm; [first [exact I|vm_compute; reflexivity|calm_load]|vm_compute; reflexivity|].
Example c17_example : exists m,
  orderly env_ok true (cm_start plain)
    (up_hw ++ load_conf [rF; rP] ++ switch ["P"; "F"] [] true ++ [CRead; CWrite] ++ switch [] ["P"; "F"] true) m /\
  state_of (Val m) "P" = Some Inactive.
Proof.
  eexists. split.
  - cbn [up_hw load_conf switch app map c_name rF rP ctl].
    do 7 one_calm.
    eapply or_switch; [| |vm_compute; reflexivity|vm_compute; reflexivity|vm_compute; reflexivity|].
    { intros c f k Hc Hf (ks & E & I) O. vm_compute in Hc, Hf.
      destruct Hc as [<-|[<-|[]]]; vm_compute in E; injection E as <-; destruct I as [<-|[]]; vm_compute in O;
        destruct Hf as [<-|[<-|[]]]; vm_compute in O; try discriminate; reflexivity. }
    { intros n _ []. }
    do 2 one_calm.
    eapply or_switch; [| |vm_compute; reflexivity|vm_compute; reflexivity|vm_compute; reflexivity|].
    { intros c f k Hc Hf (ks & E & I) O. vm_compute in Hc, Hf.
      destruct Hc as [<-|[<-|[]]]; vm_compute in E; injection E as <-; destruct I as [<-|[]]; vm_compute in O;
        destruct Hf as [<-|[<-|[]]]; vm_compute in O; try discriminate; reflexivity. }
    { intros n []. }
    apply or_nil.
  - vm_compute. reflexivity.
Qed.
(** C17 is false in general: a hardware read error deactivates F, which claims the interfaces of
    that hardware, but not P, which commands F ... *)
Definition broken (x : res cm) : bool :=
  match x with Val m => match find_ctrl m "P", find_ctrl m "F" with
    Some p, Some f => match c_lc p, c_lc f with Active, Inactive => true | _, _ => false end | _, _ => false end | Crash => false end.
Lemma broken_not_intact m : broken (Val m) = true ->
  (forall c, find_ctrl m "P" = Some c -> commands_by_name c "F/ref") -> ~ chain_intact m.
Proof.
  intros B W CI. unfold broken in B. destruct (find_ctrl m "P") as [p|] eqn:FP; [|discriminate].
  destruct (find_ctrl m "F") as [f|] eqn:FF; [|discriminate].
  assert (LF : c_lc f = Active).
  { apply (CI p f "F/ref"); [exact (proj1 (find_some _ _ FP))|exact (proj1 (find_some _ _ FF))| |apply W; reflexivity|].
    - destruct (c_lc p); try discriminate; reflexivity.
    - pose proof (proj2 (find_some _ _ FF)) as N. apply String.eqb_eq in N. rewrite N. reflexivity. }
  rewrite LF in B. destruct (c_lc p); discriminate.
Qed.
Theorem c17_chain_intact_refuted : exists hs e ops m,
  wf_hw hs /\ cleans_up e /\ crun e true (cm_start hs) ops = Val m /\ ~ chain_intact m.
Proof.
  exists plain, first_read_fails, (up_hw ++ load_conf [rF; rP] ++ switch ["P"; "F"] [] true ++ [CRead]).
  eexists. split; [apply wf_plain|]. split; [intros t n; discriminate|]. split; [vm_compute; reflexivity|].
  apply broken_not_intact; [vm_compute; reflexivity|].
  intros c H. vm_compute in H. injection H as <-. exists ["F/ref"]. vm_compute. auto.
Qed.
Print Assumptions c17_chain_intact_refuted.
(** ... and a BEST_EFFORT switch over both in which on_activate of F fails leaves P active (a STRICT
    one stops P again). *)
Definition F_wont : env := with_ctrl env_ok (fun _ n cb =>
  match cb with CActivate => if String.eqb n "F" then CbFailure else CbSuccess | _ => CbSuccess end).
Theorem c17_failed_activation_refuted : exists hs e ops m,
  wf_hw hs /\ cleans_up e /\ crun e true (cm_start hs) ops = Val m /\ ~ chain_intact m.
Proof.
  exists plain, F_wont, (up_hw ++ load_conf [rF; rP] ++ switch ["P"; "F"] [] false).
  eexists. split; [apply wf_plain|]. split; [intros t n; discriminate|]. split; [vm_compute; reflexivity|].
  apply broken_not_intact; [vm_compute; reflexivity|].
  intros c H. vm_compute in H. injection H as <-. exists ["F/ref"]. vm_compute. auto.
Qed.
Print Assumptions c17_failed_activation_refuted.

(** C18: a STRICT request that deactivates the chainable controller [f] but not the active
    controller [c], which asks by name for an interface of [f], is answered with an error (or not
    served at all while another request is pending), when on_cleanup never answers FAILURE. *)
Theorem c18_preceding_must_stop_too_partial : forall e allow hs ops m a d asap m' out c f k, cleans_up e ->
  crun e allow (cm_start hs) ops = Val m ->
  cstep e allow m (CRequest a d true asap) = Val (m', out) ->
  In c (cm_ctrls m) -> In f (cm_ctrls m) -> c_chainable f = true -> c_lc c = Active ->
  (exists ks, (c_cmd c = IIndividual ks \/ c_state c = IIndividual ks) /\ In k ks) -> owned_by k (c_name f) ->
  In (c_name f) d -> ~ In (c_name c) d -> out = CSw SwError \/ out = CBlocked.
Proof. exact main_preceding. Qed.
Print Assumptions c18_preceding_must_stop_too_partial.
Example c18_example : exists m c f,
  crun env_ok true (cm_start plain) (up_hw ++ load_conf [rF; rP] ++ switch ["P"; "F"] [] true) = Val m /\
  find_ctrl m "P" = Some c /\ find_ctrl m "F" = Some f /\ c_lc c = Active /\ c_chainable f = true /\
  c_cmd c = IIndividual ["F/ref"] /\
  out_of (cstep env_ok true m (CRequest [] ["F"] true true)) = Some (CSw SwError) /\
  out_of (cstep env_ok true m (CRequest [] ["F"; "P"] true true)) = Some (CSw SwPending).
Proof. do 3 eexists. split; [vm_compute; reflexivity|]. split; [vm_compute; reflexivity|]. split; [vm_compute; reflexivity|]. vm_compute. repeat split. Qed.
(** without the proviso it is false: P, whose list of state interfaces has a duplicate, is refused
    by configure_controller after its on_configure succeeded; if its on_cleanup then fails it stays
    inactive, can be activated, and the manager does not know that it precedes F. *)
Definition dup_P := ctl "P" false ["F/ref"] ["a/position"; "a/position"] [] [] [].
Theorem c18_refuted : exists hs e ops m a d m' c f,
  wf_hw hs /\ crun e true (cm_start hs) ops = Val m /\
  cstep e true m (CRequest a d true true) = Val (m', CSw SwPending) /\
  find_ctrl m "P" = Some c /\ find_ctrl m "F" = Some f /\ c_chainable f = true /\ c_lc c = Active /\
  commands_by_name c "F/ref" /\ In "F" d /\ ~ In "P" d.
Proof.
  exists plain, no_cleanup, (up_hw ++ load_conf [rF; dup_P] ++ switch ["P"; "F"] [] true).
  eexists. exists [], ["F"]. eexists. eexists. eexists.
  split; [apply wf_plain|]. split; [vm_compute; reflexivity|]. split; [vm_compute; reflexivity|].
  split; [vm_compute; reflexivity|]. split; [vm_compute; reflexivity|]. split; [reflexivity|]. split; [reflexivity|].
  split; [exists ["F/ref"]; vm_compute; auto|]. split; [left; reflexivity|]. intros [H|[]]; discriminate.
Qed.
Print Assumptions c18_refuted.
