(** Props_Chained.v -- property C64: chained mode follows the chain. *)
From Verif Require Import Base Events HwModel RmModel RmSys RmSpec RmWitness ChainModel CmModel CmWitness CmSpec FollowSpec UpdateSpec ChainedSpec CmChained5 Props_Cm.
Open Scope string_scope.
Open Scope list_scope.

(** C64.  If a switch starts a controller [p] that commands an interface of controller [f] by name, [f] is in chained mode
    afterwards.  (Missing: the case where the same request stops a user of [f]; false there, see c64_observer_refuted.) *)
Theorem c64_started_partial : forall e allow hs ops m a d strict asap m1 m2 out p f k,
  crun e allow (cm_start hs) ops = Val m -> chains_freely e -> stops_freely e ->
  cstep e allow m (CRequest a d strict asap) = Val (m1, CSw SwPending) -> cstep e allow m1 CPerform = Val (m2, out) ->
  In p (cm_ctrls m) -> c_lc p = Inactive -> by_name p -> wants_cmd m p k -> In f (cm_ctrls m) -> owned_by k (c_name f) ->
  ~ stopped_user m d (c_name f) -> state_in m2 (c_name p) = Some Active -> chained_in m2 (c_name f) = Some true.
Proof. exact reach_started. Qed.
Print Assumptions c64_started_partial.
(** No switch puts a controller into chained mode unless a controller that runs, or is to be started, commands one of its
    interfaces. *)
Theorem c64_only_if_commanded : forall e allow hs ops m a d strict asap m1 m2 out n,
  crun e allow (cm_start hs) ops = Val m -> chains_freely e ->
  cstep e allow m (CRequest a d strict asap) = Val (m1, CSw SwPending) -> cstep e allow m1 CPerform = Val (m2, out) ->
  chained_in m n = Some false -> chained_in m2 n = Some true ->
  exists c k, In c (cm_ctrls m) /\ (In (c_name c) a \/ c_lc c = Active) /\ may_command m c k /\ owned_by k n.
Proof. exact reach_only. Qed.
Print Assumptions c64_only_if_commanded.
(** When a STRICT switch stops a user of [f] and no controller that runs afterwards uses [f], [f] is out of chained mode. *)
Theorem c64_released : forall e allow hs ops m a d asap m1 m2 out p f k,
  crun e allow (cm_start hs) ops = Val m -> chains_freely e -> stops_freely e ->
  cstep e allow m (CRequest a d true asap) = Val (m1, CSw SwPending) -> cstep e allow m1 CPerform = Val (m2, out) ->
  In p (cm_ctrls m) -> In (c_name p) d -> by_name p -> wants m p k -> In f (cm_ctrls m) -> c_chainable f = true -> owned_by k (c_name f) ->
  ~ running_user m a d (c_name f) -> state_in m2 (c_name p) <> Some Active -> chained_in m2 (c_name f) = Some false.
Proof. exact reach_released. Qed.
Print Assumptions c64_released.

Definition fol := ctl "F" true ["a/position"] [] ["F/r1"; "F/r2"] ["F/s"] [].
Definition prec1 := ctl "P1" false ["F/r1"] [] [] [] [].
Definition prec2 := ctl "P2" false ["F/r2"] [] [] [] [].
Definition obs := ctl "O" false [] ["F/s"] [] [] [].
Definition base := up_hw ++ load_conf [fol; prec1; prec2; obs].
Definition modes (e : env) (ops : list cop) : option (list (name * lc * bool * list name)) :=
  match crun e true (cm_start plain) ops with Val m => Some (map (fun c => (c_name c, c_lc c, c_chained c, c_cloans c)) (cm_ctrls m)) | Crash => None end.
Example c64_free : chains_freely env_ok /\ stops_freely env_ok.
Proof. split; [intros t n b; reflexivity|intros t n H; discriminate H]. Qed.
(** F runs alone; P1 is started: F is restarted in chained mode; P1 is stopped: F is restarted out of chained mode. *)
Example c64_example :
  (exists m m1 m2 out, crun env_ok true (cm_start plain) (base ++ switch ["F"] [] true) = Val m /\
     cstep env_ok true m (CRequest ["P1"] [] true true) = Val (m1, CSw SwPending) /\ cstep env_ok true m1 CPerform = Val (m2, out) /\
     state_in m2 "P1" = Some Active /\ chained_in m "F" = Some false /\ chained_in m2 "F" = Some true /\ ~ stopped_user m [] "F") /\
  (exists m m1 m2 out, crun env_ok true (cm_start plain) (base ++ switch ["F"; "P1"] [] true) = Val m /\
     cstep env_ok true m (CRequest [] ["P1"] true true) = Val (m1, CSw SwPending) /\ cstep env_ok true m1 CPerform = Val (m2, out) /\
     state_in m2 "P1" = Some Inactive /\ state_in m2 "F" = Some Active /\ chained_in m "F" = Some true /\ chained_in m2 "F" = Some false /\ ~ running_user m [] ["P1"] "F").
Proof.
  split; do 4 eexists; (split; [vm_compute; reflexivity|]); (split; [vm_compute; reflexivity|]); (split; [vm_compute; reflexivity|]);
  (split; [reflexivity|]); (split; [reflexivity|]); (split; [reflexivity|]).
  - intros (c & k & _ & _ & [] & _).
  - split; [reflexivity|]. intros (c & k & Ic & R & W & Ow). vm_compute in Ic.
    destruct Ic as [<-|[<-|[<-|[<-|[]]]]]; destruct R as [R|[R N]]; try (destruct R; fail); try discriminate R; try (apply N; left; reflexivity);
    destruct W as [W|W]; vm_compute in W; repeat (destruct W as [<-|W]); try destruct W; discriminate Ow.
Qed.

(** False in general, with user code that always succeeds and switches that report success: a controller runs, commands
    "F/...", and F is not in chained mode, ... *)
Definition commanded_unchained (m : cm) (p f : ctrl) (k : name) : Prop :=
  In p (cm_ctrls m) /\ In f (cm_ctrls m) /\ c_lc p = Active /\ c_lc f = Active /\ c_chainable f = true /\
  In k (c_cloans p) /\ owned_by k (c_name f) /\ c_chained f = false.
Definition ends_so (ops : list cop) (act deact : list name) (k : name) : Prop := exists m0 m p f,
  crun env_ok true (cm_start plain) (base ++ ops ++ [CRequest act deact true true; CPerform]) = Val m0 /\
  cstep env_ok true m0 CEvaluate = Val (m, CBool true) /\ commanded_unchained m p f k.
Ltac so := do 4 eexists; (split; [vm_compute; reflexivity|]); (split; [vm_compute; reflexivity|]); unfold commanded_unchained; cbn [cm_ctrls].
(** ... after one of two controllers that command F was stopped, *)
Theorem c64_two_users_refuted : ends_so (switch ["F"; "P1"; "P2"] [] true) [] ["P1"] "F/r2".
Proof. so. split; [right; left; reflexivity|]. split; [right; right; left; reflexivity|]. cbn. do 3 (split; [reflexivity|]). split; [left; reflexivity|]. split; reflexivity. Qed.
Print Assumptions c64_two_users_refuted.
(** ... after the only controller that commands F was restarted, *)
Theorem c64_restart_refuted : ends_so (switch ["F"; "P1"] [] true) ["P1"] ["P1"] "F/r1".
Proof. so. split; [left; reflexivity|]. split; [right; right; left; reflexivity|]. cbn. do 3 (split; [reflexivity|]). split; [left; reflexivity|]. split; reflexivity. Qed.
Print Assumptions c64_restart_refuted.
(** ... after a controller that commands F was started and one that only reads a state of F was stopped. *)
Theorem c64_observer_refuted : ends_so (switch ["F"; "O"] [] true) ["P1"] ["O"] "F/r1".
Proof. so. split; [left; reflexivity|]. split; [right; right; left; reflexivity|]. cbn. do 3 (split; [reflexivity|]). split; [left; reflexivity|]. split; reflexivity. Qed.
Print Assumptions c64_observer_refuted.
(** And a controller can run in chained mode with nobody to command it: F fails to start once, together with P1; when it is
    started alone later it is still in chained mode. *)
Definition once_fails : env := with_ctrl env_ok (fun t n cb => match cb with
  | CActivate => if String.eqb n "F" && negb (existsb (fun ev => match ev with EvCtrlCb "F" CActivate _ => true | _ => false end) t) then CbFailure else CbSuccess
  | _ => CbSuccess end).
Theorem c64_left_chained_refuted : chains_freely once_fails /\ stops_freely once_fails /\ exists m0 m f,
  crun once_fails true (cm_start plain) (base ++ switch ["F"; "P1"] [] true ++ [CRequest ["F"] [] true true; CPerform]) = Val m0 /\
  cstep once_fails true m0 CEvaluate = Val (m, CBool true) /\
  In f (cm_ctrls m) /\ c_name f = "F" /\ c_lc f = Active /\ c_chained f = true /\ forall c, In c (cm_ctrls m) -> c_lc c = Active -> c = f.
Proof.
  split; [intros t n b; reflexivity|]. split; [intros t n H; discriminate H|].
  do 3 eexists; (split; [vm_compute; reflexivity|]); (split; [vm_compute; reflexivity|]). cbn [cm_ctrls].
  split; [right; right; left; reflexivity|]. split; [reflexivity|]. split; [reflexivity|]. split; [reflexivity|].
  intros c [<-|[<-|[<-|[<-|[]]]]] L; try discriminate L. reflexivity.
Qed.
Print Assumptions c64_left_chained_refuted.
