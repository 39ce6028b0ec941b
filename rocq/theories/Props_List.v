(** Props_List.v -- C60: what the list services report is true. *)
From Verif Require Import Base Events HwModel RmModel RmSys RmSpec RmSpec2 RmWitness ChainModel CmModel CmSpec CmWitness UpdateSpec ExportSpec ListModel ListSpec ListProofs.
Open Scope string_scope.
Open Scope list_scope.

(** list_controllers always answers (it does not throw) with one entry per loaded controller, in execution order, and every
    entry describes its controller: state, chainable, chained mode, the interfaces it asks for, what it exports, which
    controllers it is connected to.  Provisos as for C59. *)
Theorem c60_controllers : forall e allow hs ops m, wf_hw hs -> crun e allow (cm_start hs) ops = Val m ->
  (forall c, In c (cm_ctrls m) -> steady e (c_name c) /\ cleans e (c_name c) /\ exports_named c) ->
  exists l, list_controllers_srv m = Val l /\ Forall2 (describes m) (cm_ctrls m) l.
Proof. exact main_controllers. Qed.
Print Assumptions c60_controllers.
(** When a switch request is answered, the claimed interfaces reported are those the controller asks for if it is active
    (the ones it holds, if it asks for them by name) and none otherwise. *)
Theorem c60_claimed_after_switch : forall e allow hs ops m m' b l, crun e allow (cm_start hs) ops = Val m ->
  cstep e allow m CEvaluate = Val (m', CBool b) -> list_controllers_srv m' = Val l ->
  Forall2 (fun c x => l_name x = c_name c /\ (c_lc c <> Active -> l_claimed x = []) /\
     (c_lc c = Active -> forall k, In k (l_claimed x) <-> wants_cmd m' c k) /\
     (c_lc c = Active -> deactivates e (c_name c) -> forall ks, c_cmd c = IIndividual ks -> l_claimed x = c_cloans c)) (cm_ctrls m') l.
Proof. exact main_claimed. Qed.
Print Assumptions c60_claimed_after_switch.
(** list_hardware_components always answers, with every component, its state, and for each of its interfaces whether it is
    available (it is if the component is configured) and claimed (it is available and an active controller holds it). *)
Theorem c60_components : forall e allow hs ops m, wf_hw hs -> crun e allow (cm_start hs) ops = Val m ->
  exists l, list_hw m = Val l /\ Forall2 (describes_hw e m) (rm_hw (cm_rm m)) l.
Proof. exact main_components. Qed.
Print Assumptions c60_components.
(** list_hardware_interfaces always answers; nothing is listed twice; every interface of every component and every
    interface exported by a controller is listed. *)
Theorem c60_interfaces : forall e allow hs ops m, wf_hw hs -> crun e allow (cm_start hs) ops = Val m ->
  exists s c, list_hw_itfs m = Val (s, c) /\ NoDup (map i_name s) /\ NoDup (map i_name c) /\
   (forall h k, In h (rm_hw (cm_rm m)) -> In k (h_cmd h) -> exists x, In x c /\ describes_cmd e m h k x) /\
   (forall h k, In h (rm_hw (cm_rm m)) -> In k (h_state h) -> exists x, In x s /\ describes_state e h k x) /\
   (forall n ks k, refs_of m n = Some ks -> In k ks -> exists x, In x c /\ i_name x = k /\ (i_available x = true <-> In k (rm_avc (cm_rm m)))) /\
   (forall n ks k, exps_of m n = Some ks -> In k ks -> exists x, In x s /\ i_name x = k /\ (i_available x = true <-> In k (rm_avs (cm_rm m))) /\ i_claimed x = false).
Proof. exact main_interfaces. Qed.
Print Assumptions c60_interfaces.

Definition ops_list : list cop := up_hw ++ load_conf [pid; adm; plan] ++ switch ["plan"; "adm"; "pid"] [] true.
Example c60_example : exists m l, crun env_ok true (cm_start plain) ops_list = Val m /\
  (forall c, In c (cm_ctrls m) -> steady env_ok (c_name c) /\ cleans env_ok (c_name c) /\ exports_named c) /\
  list_controllers_srv m = Val l /\
  map (fun x => (l_name x, l_state x, l_chained x, l_claimed x, l_refs x)) l =
    [("pid", Active, true, ["a/position"], ["ref"]); ("plan", Active, false, ["adm/ref"], []); ("adm", Active, true, ["pid/ref"], ["ref"])] /\
  map (fun x => map (fun y => (k_name y, k_itfs y)) (l_conns x)) l = [[]; [("adm", ["ref"])]; [("pid", ["ref"])]].
Proof.
  do 2 eexists. split; [vm_compute; reflexivity|]. split; [|split; [vm_compute; reflexivity|split; vm_compute; reflexivity]].
  intros c Hc. split; [split; discriminate|]. split; [intros t; reflexivity|]. intros k Hk.
  repeat (destruct Hc as [<-|Hc]); try destruct Hc; cbn in Hk; repeat (destruct Hk as [<-|Hk]); try destruct Hk.
  all: try (exists "ref"; reflexivity). all: exists "est"; reflexivity.
Qed.
Example c60_example_hw : exists m s c, crun env_ok true (cm_start plain) ops_list = Val m /\ list_hw_itfs m = Val (s, c) /\
  map (fun x => (i_name x, i_available x, i_claimed x)) c =
    [("g/position", true, false); ("a/position", true, true); ("a/velocity", true, false); ("pid/ref", true, true); ("adm/ref", true, true)].
Proof. do 3 eexists. split; [vm_compute; reflexivity|]. split; [vm_compute; reflexivity|]. vm_compute. reflexivity. Qed.

(** Claimed interfaces are not kept up to date in between: after a hardware failure stopped "pos", list_controllers still
    reports the interface as claimed, while the controller is inactive and the interface is free. *)
Definition arm_fails := with_read env_ok (fun t h => if mem h ["arm"] then Ret RError else Ret ROk).
Theorem c60_claimed_refuted : exists e hs ops m l s c, wf_hw hs /\ crun e true (cm_start hs) ops = Val m /\
  list_controllers_srv m = Val l /\ list_hw_itfs m = Val (s, c) /\
  map (fun x => (l_name x, l_state x, l_claimed x)) l = [("pos", Inactive, ["a/position"])] /\
  map (fun x => (i_name x, i_claimed x)) c = [("g/position", false); ("a/position", false); ("a/velocity", false)].
Proof.
  exists arm_fails, plain, (up_hw ++ load_conf [CmWitness.pos] ++ switch ["pos"] [] true ++ [CRead]). do 4 eexists. split; [apply wf_plain|].
  split; [vm_compute; reflexivity|]. split; [vm_compute; reflexivity|]. split; [vm_compute; reflexivity|]. split; vm_compute; reflexivity.
Qed.
Print Assumptions c60_claimed_refuted.
(** The interfaces listed for a connection are not only those of that partner: "both" commands left/l and right/r, and each
    of its two connections lists l and r. *)
Definition left := ctl "left" true ["a/position"] [] ["left/l"] [] [].
Definition right := ctl "right" true ["g/position"] [] ["right/r"] [] [].
Definition both := ctl "both" false ["left/l"; "right/r"] [] [] [] [].
Theorem c60_connections_refuted : exists hs ops m l x y, wf_hw hs /\ crun env_ok true (cm_start hs) ops = Val m /\
  list_controllers_srv m = Val l /\ In x l /\ l_name x = "both" /\ In y (l_conns x) /\ k_name y = "left" /\ k_itfs y = ["l"; "r"] /\
  refs_of m "left" = Some ["left/l"].
Proof.
  exists plain, (up_hw ++ load_conf [left; right; both]). do 4 eexists. split; [apply wf_plain|].
  split; [vm_compute; reflexivity|]. split; [vm_compute; reflexivity|]. split; [cbn; left; reflexivity|]. split; [reflexivity|]. split; [left; reflexivity|]. split; [reflexivity|]. split; [reflexivity|vm_compute; reflexivity].
Qed.
Print Assumptions c60_connections_refuted.
(** The proviso on on_cleanup is needed: list_controllers itself throws after an inactive controller refused to be cleaned
    up while being configured again. *)
Definition keeps := with_ctrl env_ok (fun t n cb => match cb with Events.CCleanup => CbFailure | _ => CbSuccess end).
Theorem c60_answers_refuted : exists e hs ops m, wf_hw hs /\ crun e true (cm_start hs) ops = Val m /\
  (forall n, steady e n) /\ list_controllers_srv m = Crash.
Proof.
  exists keeps, plain, (up_hw ++ load_conf [pid] ++ [CConfigure "pid" []]). eexists. split; [apply wf_plain|]. split; [vm_compute; reflexivity|].
  split; [intros n t cb; destruct cb; split; discriminate|vm_compute; reflexivity].
Qed.
Print Assumptions c60_answers_refuted.
