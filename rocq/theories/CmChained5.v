(** CmChained5.v -- the three facts for every reachable state (controller names are unique there). *)
From Verif Require Import Base Events HwModel RmModel RmSys RmSpec RmProofs RmInv CmModel CmPrim CmInv CmSpec CmSwitch FollowSpec UpdateSpec ChainedSpec CmTopo CmChained CmChained2 CmChained3 CmChained4.
Open Scope list_scope.
Section Reach.
Variables (e : env) (allow : bool) (hs : list hwc) (ops : list cop) (m : cm).
Hypothesis (R : crun e allow (cm_start hs) ops = Val m).
Lemma reach_nodup : NoDup (map c_name (cm_ctrls m)).
Proof. apply (reach_NI e allow hs ops m R). Qed.
End Reach.
Lemma reach_started e allow hs ops m a d strict asap m1 m2 out p f k : crun e allow (cm_start hs) ops = Val m -> chains_freely e -> stops_freely e ->
  cstep e allow m (CRequest a d strict asap) = Val (m1, CSw SwPending) -> cstep e allow m1 CPerform = Val (m2, out) ->
  In p (cm_ctrls m) -> c_lc p = Inactive -> by_name p -> wants_cmd m p k -> In f (cm_ctrls m) -> owned_by k (c_name f) ->
  ~ stopped_user m d (c_name f) -> state_in m2 (c_name p) = Some Active -> chained_in m2 (c_name f) = Some true.
Proof. intros R. apply main_started. eapply reach_nodup. exact R. Qed.
Lemma reach_only e allow hs ops m a d strict asap m1 m2 out n : crun e allow (cm_start hs) ops = Val m -> chains_freely e ->
  cstep e allow m (CRequest a d strict asap) = Val (m1, CSw SwPending) -> cstep e allow m1 CPerform = Val (m2, out) ->
  chained_in m n = Some false -> chained_in m2 n = Some true ->
  exists c k, In c (cm_ctrls m) /\ (In (c_name c) a \/ c_lc c = Active) /\ may_command m c k /\ owned_by k n.
Proof. intros R. apply main_only. eapply reach_nodup. exact R. Qed.
Lemma reach_released e allow hs ops m a d asap m1 m2 out p f k : crun e allow (cm_start hs) ops = Val m -> chains_freely e -> stops_freely e ->
  cstep e allow m (CRequest a d true asap) = Val (m1, CSw SwPending) -> cstep e allow m1 CPerform = Val (m2, out) ->
  In p (cm_ctrls m) -> In (c_name p) d -> by_name p -> wants m p k -> In f (cm_ctrls m) -> c_chainable f = true -> owned_by k (c_name f) ->
  ~ running_user m a d (c_name f) -> state_in m2 (c_name p) <> Some Active -> chained_in m2 (c_name f) = Some false.
Proof. intros R. apply main_released. eapply reach_nodup. exact R. Qed.
