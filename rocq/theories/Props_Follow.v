(** Props_Follow.v -- C15: what a rejected switch request leaves behind.  C22: validating a switch request returns. *)
From Verif Require Import Base Events HwModel RmModel RmSys RmSpec RmWitness ChainModel CmModel CmWitness CmSpec FollowSpec CmSwitch CmFollow.
Open Scope string_scope.
Open Scope list_scope.

(** * C15 *)
(** A rejected request leaves the availability of interfaces as it was, if no controller to be started asks for an
    interface of another loaded controller (what is missing: requests with chains, refuted below). *)
Theorem c15_unchanged_partial : forall e allow m a d strict asap m', no_chaining m a ->
  switch_request e allow m a d strict asap = Val (m', SwError) -> same_availability m m'.
Proof. intros e allow m a d strict asap m'. exact (main_unchanged e allow m a d strict asap m' SwError). Qed.
Print Assumptions c15_unchanged_partial.
(** In every case nothing becomes unavailable, and whatever becomes available is exported by a chainable controller that
    runs or is named in the activate list. *)
Theorem c15_only_exports : forall e allow m a d strict asap m',
  switch_request e allow m a d strict asap = Val (m', SwError) ->
  (forall k, In k (rm_avc (cm_rm m')) <->
     In k (rm_avc (cm_rm m)) \/ (In k (rm_avc (cm_rm m')) /\ exists f, may_be_chained m a f /\ exports_ref m f k)) /\
  (forall k, In k (rm_avs (cm_rm m')) <->
     In k (rm_avs (cm_rm m)) \/ (In k (rm_avs (cm_rm m')) /\ exists f, may_be_chained m a f /\ exports_state m f k)).
Proof. intros e allow m a d strict asap m'. exact (main_origin e allow m a d strict asap m' SwError). Qed.
Print Assumptions c15_only_exports.

(** a second position controller is rejected while the first one runs *)
Definition pos2 := ctl "pos2" false ["a/position"] [] [] [] [].
Example c15_example : exists m m', crun env_ok true (cm_start plain) (up_hw ++ load_conf [pos; pos2] ++ switch ["pos"] [] true) = Val m /\
  no_chaining m ["pos2"] /\ switch_request env_ok true m ["pos2"] [] true true = Val (m', SwError).
Proof.
  eexists. eexists. split; [vm_compute; reflexivity|]. split; [|vm_compute; reflexivity].
  intros c k Hc Hn Hw. destruct Hc as [<-|[<-|[]]]; destruct Hn as [Hn|[]]; try (vm_compute in Hn; discriminate).
  destruct Hw as [Hw|Hw]; vm_compute in Hw; [|destruct Hw]. destruct Hw as [<-|[]].
  exists "a". split; [vm_compute; reflexivity|]. intros f [<-|[<-|[]]]; vm_compute; discriminate.
Qed.
(** The chain adm -> pid is fine, plan is not configured: the whole STRICT request is rejected, but pid's interfaces
    have become available although pid is inactive. *)
Theorem c15_refuted : exists e allow hs ops m a strict m' k c, crun e allow (cm_start hs) ops = Val m /\
  switch_request e allow m a [] strict true = Val (m', SwError) /\
  ~ In k (rm_avc (cm_rm m)) /\ In k (rm_avc (cm_rm m')) /\
  find_ctrl m' "pid" = Some c /\ c_lc c = Inactive /\ In k (c_refs c).
Proof.
  exists env_ok, true, plain, (up_hw ++ load_conf [pid; adm] ++ [CLoad plan true]).
  eexists. exists ["adm"; "pid"; "plan"], true. eexists. exists "pid/ref". eexists.
  split; [vm_compute; reflexivity|]. split; [vm_compute; reflexivity|].
  split; [rewrite <- mem_In; vm_compute; discriminate|]. split; [rewrite <- mem_In; vm_compute; reflexivity|].
  split; [vm_compute; reflexivity|]. split; [reflexivity|left; reflexivity].
Qed.
Print Assumptions c15_refuted.
(** Worse: when pid is unloaded afterwards its interface stays "available", and the next request for a controller that
    asks for it ends in an uncaught std::out_of_range. *)
Theorem c15_refuted_crash : exists e allow hs ops m, crun e allow (cm_start hs) ops = Val m /\
  switch_request e allow m ["adm"] [] true true = Crash.
Proof.
  exists env_ok, true, plain,
    (up_hw ++ load_conf [pid; adm] ++ [CLoad plan true; CRequest ["adm"; "pid"; "plan"] [] true true; CUnload "pid"]).
  eexists. split; vm_compute; reflexivity.
Qed.
Print Assumptions c15_refuted_crash.

(** * C22 *)
(** Validation returns whenever the controllers do not refer to each other in a circle, the interface names are
    well-formed, the configured controllers have their exports registered and the requested controllers are configured
    (what is missing: each of these can fail in a reachable state, see the refutations). *)
Theorem c22_returns_partial : forall e allow m a d strict asap,
  acyclic m -> proper_names m -> exports_registered m -> claims_known m -> all_configured m a ->
  exists m' o, switch_request e allow m a d strict asap = Val (m', o).
Proof. exact main_returns. Qed.
Print Assumptions c22_returns_partial.

Example c22_example : exists m, crun env_ok true (cm_start plain) (up_hw ++ load_conf [pid; adm; plan]) = Val m /\
  acyclic m /\ proper_names m /\ exports_registered m /\ claims_known m /\ all_configured m ["plan"; "adm"; "pid"] /\
  exists m', switch_request env_ok true m ["plan"; "adm"; "pid"] [] true true = Val (m', SwPending).
Proof.
  eexists. split; [vm_compute; reflexivity|].
  match goal with |- acyclic ?m /\ _ => set (M := m) end.
  assert (W : forall c k, In c (cm_ctrls M) -> may_want M c k ->
     (c_name c = "pid" /\ k = "a/position") \/ (c_name c = "adm" /\ (k = "pid/ref" \/ k = "pid/est")) \/ (c_name c = "plan" /\ k = "adm/ref")).
  { intros c k Hc Hw. destruct Hc as [<-|[<-|[<-|[]]]]; destruct Hw as [Hw|Hw]; cbn in Hw |- *; repeat (destruct Hw as [Hw|Hw]); try (destruct Hw); auto 8. }
  assert (N : forall f, In f (cm_ctrls M) -> c_name f = "plan" \/ c_name f = "adm" \/ c_name f = "pid").
  { intros f [<-|[<-|[<-|[]]]]; cbn; auto. }
  split; [|split; [|split; [|split; [|split]]]].
  - exists (fun n => if String.eqb n "pid" then 0 else if String.eqb n "adm" then 1 else 2).
    intros c f k Hc Hf Hw Ho. unfold owned_by in Ho.
    destruct (W c k Hc Hw) as [(E & ->)|[(E & [-> | ->])|(E & ->)]]; rewrite E; cbn in Ho; injection Ho as Ho; rewrite <- Ho in *;
      destruct (N f Hf) as [X|[X|X]]; try (rewrite X in Ho; discriminate); cbn; auto.
  - intros c k Hc Hw. destruct (W c k Hc Hw) as [(E & ->)|[(E & [-> | ->])|(E & ->)]]; eexists; reflexivity.
  - intros c f k Hc Hf Hw Ho _. destruct (W c k Hc Hw) as [(E & ->)|[(E & [-> | ->])|(E & ->)]]; unfold owned_by in Ho; cbn in Ho; injection Ho as Ho; rewrite <- Ho;
      try (split; vm_compute; discriminate).
    destruct (N f Hf) as [X|[X|X]]; rewrite X in Ho; discriminate.
  - intros k H. assert (K : In k ["g/position"; "a/position"; "a/velocity"; "pid/ref"; "adm/ref"]).
    { destruct H as [H|(n & ks & H & Hk)].
      - cbn in H. repeat (destruct H as [<-|H]); try destruct H; cbn; auto 8.
      - apply aget_In in H. cbn in H. destruct H as [H|[H|[]]]; injection H as <- <-; destruct Hk as [<-|[]]; cbn; auto 8. }
    repeat (destruct K as [<-|K]); try destruct K; vm_compute; discriminate.
  - intros c Hc _. left. destruct Hc as [<-|[<-|[<-|[]]]]; reflexivity.
  - eexists. vm_compute. reflexivity.
Qed.

(** Two chainable controllers that command each other can be loaded and configured; checking one of them for activation
    together with the other never ends: the recursion exceeds every depth (in the code: stack overflow). *)
Definition cA := ctl "A" true ["B/r"] [] ["A/r"] [] [].
Definition cB := ctl "B" true ["A/r"] [] ["B/r"] [] [].
Definition both_requested (m : cm) : sw :=
  {| w_rm := cm_rm m; w_act := ["A"; "B"]; w_deact := []; w_to := []; w_from := []; w_start := []; w_stop := [] |}.
Theorem c22_refuted_cycle : exists e allow hs ops m c, crun e allow (cm_start hs) ops = Val m /\
  find_ctrl m "A" = Some c /\ c_lc c = Inactive /\
  (forall depth, check_following depth (cm_ctrls m) (both_requested m) c = Crash) /\
  switch_request e allow m ["A"; "B"] [] true true = Crash.
Proof.
  exists env_ok, true, plain, (up_hw ++ load_conf [cA; cB]). eexists. eexists.
  split; [vm_compute; reflexivity|]. split; [vm_compute; reflexivity|]. split; [reflexivity|]. split; [|vm_compute; reflexivity].
  match goal with |- forall depth, check_following depth _ ?w ?c = _ => set (W := w); set (C := c) end.
  match goal with |- forall depth, check_following depth ?l _ _ = _ => set (L := l) end.
  destruct (find_in L "B") as [D|] eqn:FB; [|vm_compute in FB; discriminate].
  assert (X : forall depth, check_following depth L W C = Crash /\ check_following depth L W D = Crash).
  { assert (DD : c_name D = "B") by (vm_compute in FB; injection FB as <-; reflexivity).
    induction depth as [|n [IH1 IH2]]; [split; reflexivity|].
    assert (ED : find_in L "A" = Some C) by (vm_compute; reflexivity).
    assert (CmdC : cmd_names (w_rm W) C = ["B/r"]) by (vm_compute; reflexivity).
    assert (CmdD : cmd_names (w_rm W) D = ["A/r"]) by (vm_compute in FB; injection FB as <-; vm_compute; reflexivity).
    assert (ChD : c_chainable D = true) by (vm_compute in FB; injection FB as <-; vm_compute; reflexivity).
    assert (LD : is_lc Active D = false) by (vm_compute in FB; injection FB as <-; vm_compute; reflexivity).
    assert (StC : state_names (w_rm W) C = []) by (vm_compute; reflexivity).
    assert (StD : state_names (w_rm W) D = []) by (vm_compute in FB; injection FB as <-; vm_compute; reflexivity).
    split.
    - cbn [check_following]. rewrite CmdC, StC. cbn [app follow_loop]. unfold follow_itf.
      change (chained_to L "B/r") with (Val (find_in L "B")). rewrite FB. cbn [bind]. rewrite ChD, LD, DD. cbn [negb andb].
      change (mem "B" (w_act W)) with true. cbn [negb]. rewrite IH2. reflexivity.
    - cbn [check_following]. rewrite CmdD, StD. cbn [app follow_loop]. unfold follow_itf.
      change (chained_to L "A/r") with (Val (find_in L "A")). rewrite ED. cbn [bind].
      change (c_chainable C) with true. change (is_lc Active C) with false. change (c_name C) with "A". cbn [negb andb].
      change (mem "A" (w_act W)) with true. cbn [negb]. rewrite IH1. reflexivity. }
  intros depth. apply X.
Qed.
Print Assumptions c22_refuted_cycle.
(** Starting adm together with the loaded but not configured pid ends in an uncaught std::out_of_range instead of an
    error answer. *)
Theorem c22_refuted_unconfigured : exists e allow hs ops m, crun e allow (cm_start hs) ops = Val m /\
  acyclic m /\ switch_request e allow m ["adm"; "pid"] [] true true = Crash /\
  exists m', switch_request e allow m ["pid"; "adm"] [] true true = Val (m', SwError).
Proof.
  exists env_ok, true, plain, (up_hw ++ load_conf [adm] ++ [CLoad pid true]). eexists.
  split; [vm_compute; reflexivity|]. split; [|split; [vm_compute; reflexivity|eexists; vm_compute; reflexivity]].
  exists (fun n => if String.eqb n "pid" then 0 else 1).
  intros c f k Hc Hf Hw Ho. unfold owned_by in Ho.
  destruct Hc as [<-|[<-|[]]]; destruct Hw as [Hw|Hw]; cbn in Hw; repeat (destruct Hw as [<-|Hw]); try (destruct Hw);
    cbn in Ho; injection Ho as Ho; destruct Hf as [<-|[<-|[]]]; try discriminate Ho; cbn; auto.
Qed.
Print Assumptions c22_refuted_unconfigured.
