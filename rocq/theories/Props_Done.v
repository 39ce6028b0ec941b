(** Props_Done.v -- property C52: an accepted STRICT switch request does what it was asked. *)
From Verif Require Import Base Events HwModel RmModel RmSys RmSpec RmWitness ChainModel CmModel CmWitness CmSpec UpdateSpec FollowSpec DoneSpec CmDone.
Open Scope string_scope.
Open Scope list_scope.

(** C52.  After any history, let a STRICT request to start [a] and stop [d] be accepted, in a state where what it asks
    for can be done: the controllers that are to run afterwards ask for interfaces that are available (or exported by
    another controller that is to run), no two of them for the same command interface, their callbacks succeed and the
    hardware carries out the mode switch.  Then the switch is performed without an exception and answered "ok",
    exactly the controllers of [a] are started and those of [d] stopped, every other controller is in the state it was
    in (also the ones that were restarted to change their chained mode), and every started controller holds exactly
    the command and state interfaces it asks for. *)
Theorem c52_accepted_switch_is_done : forall e allow hs ops m a d asap m1,
  wf_hw hs -> crun e allow (cm_start hs) ops = Val m ->
  NoDup a -> realizable m a d -> (forall n, In n a \/ state_in m n = Some Active -> works e n) -> hardware_performs e ->
  cstep e allow m (CRequest a d true asap) = Val (m1, CSw SwPending) ->
  exists m2 m3, cstep e allow m1 CPerform = Val (m2, CNone) /\ cstep e allow m2 CEvaluate = Val (m3, CBool true) /\
    (forall n, state_in m3 n = asked_state m a d n) /\
    (forall c, In c (cm_ctrls m3) -> In (c_name c) a -> c_cloans c = cmd_names (cm_rm m3) c /\ c_sloans c = state_names (cm_rm m3) c).
Proof. exact main_done. Qed.
Print Assumptions c52_accepted_switch_is_done.

(** Non-vacuity: pid runs on its own; adm (which commands pid) and plan (which commands adm) are started.  pid is
    restarted in chained mode on the way. *)
Definition chain_ops : list cop := up_hw ++ load_conf [pid; adm; plan] ++ switch ["pid"] [] true.
Definition chain_m : cm := match crun env_ok true (cm_start plain) chain_ops with Val m => m | Crash => cm_start plain end.
Example c52_example : crun env_ok true (cm_start plain) chain_ops = Val chain_m /\ wf_hw plain /\ NoDup ["adm"; "plan"] /\
  realizable chain_m ["adm"; "plan"] [] /\ (forall n, works env_ok n) /\ hardware_performs env_ok /\
  (exists m1, cstep env_ok true chain_m (CRequest ["adm"; "plan"] [] true true) = Val (m1, CSw SwPending)) /\
  map c_chained (cm_ctrls chain_m) = [false; false; false] /\
  (exists m3, crun env_ok true chain_m (switch ["adm"; "plan"] [] true) = Val m3 /\
     map (fun c => (c_name c, c_lc c, c_chained c, c_cloans c)) (cm_ctrls m3) =
       [("pid", Active, true, ["a/position"]); ("plan", Active, false, ["adm/ref"]); ("adm", Active, true, ["pid/ref"])]).
Proof.
  split; [vm_compute; reflexivity|]. split; [apply wf_plain|].
  split; [repeat constructor; cbn; intuition discriminate|].
  split; [|split; [intros n t; split; reflexivity|split; [intros ? ? ? ?; reflexivity|split; [eexists; vm_compute; reflexivity|split; [vm_compute; reflexivity|eexists; split; vm_compute; reflexivity]]]]].
  assert (exists mm, crun env_ok true (cm_start plain) chain_ops = Val mm) as (mm & E) by (eexists; vm_compute; reflexivity).
  assert (E' : chain_m = mm) by (unfold chain_m; rewrite E; reflexivity). rewrite E'. clear E'.
  vm_compute in E. injection E as <-.
  match goal with |- realizable ?x _ _ => set (M := x) end.
  assert (P : exists p, find_in (cm_ctrls M) "pid" = Some p /\ In p (cm_ctrls M) /\ c_name p = "pid" /\ c_lc p = Active /\ c_chainable p = true)
    by (eexists; split; [reflexivity|]; cbn; auto).
  assert (Q : exists p, find_in (cm_ctrls M) "adm" = Some p /\ In p (cm_ctrls M) /\ c_name p = "adm" /\ c_chainable p = true)
    by (eexists; split; [reflexivity|]; cbn; auto).
  destruct P as (p & _ & Pin & Pn & Pa & Pc). destruct Q as (q & _ & Qin & Qn & Qc).
  assert (R1 : cmd_served M ["adm"; "plan"] [] "pid/ref").
  { right. exists p. split; [split; auto; right; auto|]. split; [auto|]. split; [exists ["pid/ref"]; rewrite Pn; split; [reflexivity|cbn; auto]|].
    split; [right; cbn; auto 8|]. intros X. vm_compute in X. discriminate. }
  assert (R2 : cmd_served M ["adm"; "plan"] [] "adm/ref").
  { right. exists q. split; [split; auto; left; rewrite Qn; cbn; auto|]. split; [auto|]. split; [exists ["adm/ref"]; rewrite Qn; split; [reflexivity|cbn; auto]|].
    split; [left; rewrite Qn; cbn; auto 8|]. intros X. vm_compute in X. discriminate. }
  assert (R3 : cmd_served M ["adm"; "plan"] [] "a/position") by (left; cbn; auto 10).
  assert (S1 : state_served M ["adm"; "plan"] [] "pid/est").
  { right. exists p. split; [split; auto; right; auto|]. split; [auto|]. split; [exists ["pid/est"]; rewrite Pn; split; [reflexivity|cbn; auto]|].
    right; cbn; auto 8. }
  assert (S2 : state_served M ["adm"; "plan"] [] "a/position") by (left; cbn; auto 10).
  clear p Pin Pn Pa Pc q Qin Qn Qc.
  split.
  - intros c [Hc _]. destruct Hc as [<-|[<-|[<-|[]]]].
    all: split; [eexists; eexists; repeat split; repeat constructor; cbn; tauto|].
    all: split; [intros k Hk; vm_compute in Hk; repeat (destruct Hk as [<-|Hk]); try destruct Hk; assumption|].
    all: split; [intros k Hk; vm_compute in Hk; repeat (destruct Hk as [<-|Hk]); try destruct Hk; assumption|].
    all: intros X; try discriminate X; split; vm_compute; discriminate.
  - intros c1 c2 k [H1 _] [H2 _] N W1 W2. destruct H1 as [<-|[<-|[<-|[]]]]; destruct H2 as [<-|[<-|[<-|[]]]]; try (apply N; reflexivity).
    all: vm_compute in W1, W2; repeat (destruct W1 as [<-|W1]); try destruct W1; repeat (destruct W2 as [W2|W2]); try discriminate W2; destruct W2.
Qed.

(** What acceptance alone does not give: pid runs and holds a/position; a request starts adm, which commands pid, and
    pos, which commands a/position itself.  Because pid is to be restarted in chained mode, the check for conflicting
    interfaces does not see that it holds a/position: the request is accepted, then pos gets a/position, the restart
    of pid fails, and the switch ends with an error and with pid stopped. *)
Theorem c52_acceptance_suffices_refuted : exists e allow hs ops m a d asap m1 m2 m3,
  wf_hw hs /\ crun e allow (cm_start hs) ops = Val m /\ NoDup a /\ (forall n, works e n) /\ hardware_performs e /\
  cstep e allow m (CRequest a d true asap) = Val (m1, CSw SwPending) /\
  cstep e allow m1 CPerform = Val (m2, CNone) /\ cstep e allow m2 CEvaluate = Val (m3, CBool false) /\
  (exists x y k, runs_after m a d x /\ runs_after m a d y /\ c_name x <> c_name y /\ wants_cmd m x k /\ wants_cmd m y k) /\
  state_in m "pid" = Some Active /\ asked_state m a d "pid" = Some Active /\ state_in m3 "pid" <> Some Active.
Proof.
  exists env_ok, true, plain, (up_hw ++ load_conf [pid; adm; pos] ++ switch ["pid"] [] true).
  eexists. exists ["pos"; "adm"], [], true. eexists. eexists. eexists.
  split; [apply wf_plain|]. split; [vm_compute; reflexivity|]. split; [repeat constructor; cbn; intuition discriminate|].
  split; [intros n t; split; reflexivity|]. split; [intros ? ? ? ?; reflexivity|].
  split; [vm_compute; reflexivity|]. split; [vm_compute; reflexivity|]. split; [vm_compute; reflexivity|].
  split; [|split; [reflexivity|split; [reflexivity|vm_compute; discriminate]]].
  match goal with |- context [runs_after ?m _ _ _] => set (M := m) end.
  destruct (find_in (cm_ctrls M) "pid") as [x|] eqn:Ex; [|discriminate]. destruct (find_in (cm_ctrls M) "pos") as [y|] eqn:Ey; [|discriminate].
  exists x, y, "a/position". vm_compute in Ex, Ey. injection Ex as <-. injection Ey as <-.
  split; [split; [cbn; auto 6|right; split; [reflexivity|intros []]]|]. split; [split; [cbn; auto 6|left; cbn; auto]|].
  split; [discriminate|]. split; vm_compute; auto.
Qed.
Print Assumptions c52_acceptance_suffices_refuted.
