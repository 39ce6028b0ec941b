(** Props_Best.v -- property C62: BEST_EFFORT switch requests. *)
From Verif Require Import Base Events HwModel RmModel RmSys RmSpec RmWitness ChainModel CmModel CmWitness CmSpec CmCache UpdateSpec FollowSpec DoneSpec AcceptSpec BestSpec CmBest CmBystander Props_Done Props_Accept.
Open Scope string_scope.
Open Scope list_scope.

(** C62.  What STRICT accepts, BEST_EFFORT accepts with the same result (the switch under way is the same but for its
    strictness), ... *)
Theorem c62_what_strict_accepts : forall e allow m a d asap m1 o,
  cstep e allow m (CRequest a d true asap) = Val (m1, CSw o) -> o <> SwError ->
  cstep e allow m (CRequest a d false asap) = Val (as_best_effort m1, CSw o).
Proof. exact main_best. Qed.
Print Assumptions c62_what_strict_accepts.
(** ... so a request that is possible ([acceptable], as for C61) is carried out exactly, ... *)
Theorem c62_valid_is_done : forall e allow hs ops m a d asap, wf_hw hs -> cleans_up e -> crun e allow (cm_start hs) ops = Val m ->
  acceptable e allow m a d -> (forall n, In n a \/ state_in m n = Some Active -> works e n) -> hardware_performs e ->
  exists m1 m2 m3, cstep e allow m (CRequest a d false asap) = Val (m1, CSw SwPending) /\
    cstep e allow m1 CPerform = Val (m2, CNone) /\ cstep e allow m2 CEvaluate = Val (m3, CBool true) /\
    (forall n, state_in m3 n = asked_state m a d n) /\
    (forall c, In c (cm_ctrls m3) -> In (c_name c) a -> c_cloans c = cmd_names (cm_rm m3) c /\ c_sloans c = state_names (cm_rm m3) c).
Proof. exact main_best_done. Qed.
Print Assumptions c62_valid_is_done.
(** ... names of controllers that are not loaded are ignored (as long as a list does not consist of them), ... *)
Theorem c62_unknown_ignored : forall e allow m a d asap, some_known m a -> some_known m d ->
  cstep e allow m (CRequest a d false asap) = cstep e allow m (CRequest (loaded_of m a) (loaded_of m d) false asap).
Proof. exact main_unknown. Qed.
Print Assumptions c62_unknown_ignored.
(** ... and (STRICT or BEST_EFFORT, whatever the callbacks answer) nobody is started who was not asked for and was not
    running, ... *)
Theorem c62_starts_only_requested : forall e allow hs ops m a d strict asap m1 m2 out, crun e allow (cm_start hs) ops = Val m ->
  cstep e allow m (CRequest a d strict asap) = Val (m1, CSw SwPending) -> cstep e allow m1 CPerform = Val (m2, out) ->
  forall n, state_in m2 n = Some Active -> In n a \/ state_in m n = Some Active.
Proof. exact main_starts_only. Qed.
Print Assumptions c62_starts_only_requested.
(** ... and a controller that is not named and exports nothing any loaded controller could want is not touched at all: its
    state, its interfaces and its chained mode are as before. *)
Theorem c62_bystanders_untouched : forall e allow m a d strict asap m1 m2 out n, ~ In n a -> ~ In n d ->
  (forall c k, In c (cm_ctrls m) -> may_want m c k -> ~ owned_by k n) ->
  cstep e allow m (CRequest a d strict asap) = Val (m1, CSw SwPending) -> cstep e allow m1 CPerform = Val (m2, out) ->
  find_ctrl m2 n = find_ctrl m n.
Proof. exact main_bystander. Qed.
Print Assumptions c62_bystanders_untouched.

Definition gripper_c := ctl "grip" false ["g/position"] [] [] [] [].
Definition be_ops := up_hw ++ load_conf [CmWitness.pos; gripper_c] ++ switch ["grip"] [] true.
(** the hypotheses are met: STRICT accepts a start of pos; BEST_EFFORT with an unknown name added starts pos and leaves
    the running grip alone; c61_example gives an acceptable request *)
Example c62_example : exists m m1 m2, crun env_ok true (cm_start plain) be_ops = Val m /\
  map (fun c => (c_name c, c_lc c)) (cm_ctrls m) = [("pos", Inactive); ("grip", Active)] /\
  some_known m ["pos"; "nobody"] /\ ~ some_known m ["nobody"] /\ loaded_of m ["pos"; "nobody"] = ["pos"] /\
  (exists m1', cstep env_ok true m (CRequest ["pos"] [] true true) = Val (m1', CSw SwPending)) /\
  cstep env_ok true m (CRequest ["pos"; "nobody"] [] false true) = Val (m1, CSw SwPending) /\
  cstep env_ok true m1 CPerform = Val (m2, CNone) /\
  map (fun c => (c_name c, c_lc c)) (cm_ctrls m2) = [("pos", Active); ("grip", Active)] /\
  (forall c k, In c (cm_ctrls m) -> may_want m c k -> ~ owned_by k "grip").
Proof.
  eexists. eexists. eexists. split; [vm_compute; reflexivity|]. split; [reflexivity|].
  split; [right; exists "pos"; split; [left; reflexivity|left; reflexivity]|].
  split; [intros [X|(n & [<-|[]] & [X|[X|[]]])]; discriminate|]. split; [reflexivity|].
  split; [eexists; vm_compute; reflexivity|]. split; [vm_compute; reflexivity|]. split; [vm_compute; reflexivity|]. split; [reflexivity|].
  intros c k Ic W. destruct Ic as [<-|[<-|[]]]; destruct W as [W|W]; cbn in W; repeat (destruct W as [<-|W]); try destruct W; discriminate.
Qed.

(** "BEST_EFFORT does what is possible" fails when all names of one list are unknown: nothing is done, although the
    running controller could be stopped. *)
Theorem c62_all_unknown_refuted : exists e allow hs ops m, wf_hw hs /\ (forall n, works e n) /\ hardware_performs e /\
  crun e allow (cm_start hs) ops = Val m /\ cm_pend m = None /\
  (exists m1, cstep e allow m (CRequest [] ["grip"] false true) = Val (m1, CSw SwPending)) /\
  (exists m1, cstep e allow m (CRequest ["nobody"] ["grip"] false true) = Val (m1, CSw SwError)).
Proof.
  exists env_ok, true, plain, be_ops. eexists. split; [apply wf_plain|]. split; [intros n t; split; reflexivity|]. split; [intros ? ? ? ?; reflexivity|].
  split; [vm_compute; reflexivity|]. split; [reflexivity|]. split; eexists; vm_compute; reflexivity.
Qed.
Print Assumptions c62_all_unknown_refuted.

(** Nor does BEST_EFFORT keep chains together: top commands pid, both are to be started; pid is left out (its fallback is
    not loaded), but top, accepted before, is started all the same: it runs and commands a controller that does not. *)
Definition top := ctl "top" false ["pid/ref"] [] [] [] [].
Definition pid_fb := ctl "pid" true ["a/position"] ["a/position"] ["pid/ref"] ["pid/est"] ["missing"].
Theorem c62_chain_refuted : exists e allow hs ops m, wf_hw hs /\ (forall n, works e n) /\ hardware_performs e /\
  crun e allow (cm_start hs) ops = Val m /\
  (exists ops0, ops = ops0 ++ switch ["top"; "pid"] [] false) /\
  map (fun c => (c_name c, c_lc c, c_cloans c)) (cm_ctrls m) = [("top", Active, ["pid/ref"]); ("pid", Inactive, [])].
Proof.
  exists env_ok, true, plain, ((up_hw ++ load_conf [pid_fb; top]) ++ switch ["top"; "pid"] [] false). eexists. split; [apply wf_plain|].
  split; [intros n t; split; reflexivity|]. split; [intros ? ? ? ?; reflexivity|].
  split; [vm_compute; reflexivity|]. split; [eexists; reflexivity|]. vm_compute. reflexivity.
Qed.
Print Assumptions c62_chain_refuted.
