(** Props_Update.v -- C25, C26, C51: the error paths of the control loop; no claimed interface is lost. *)
From Verif Require Import Base Events HwModel RmModel RmSys RmSpec RmWitness ChainModel
  CmModel CmPrim CmTopo CmInv CmReach CmSpec CmWitness UpdateSpec CmLeak CmDeact CmErr CmFallback CmHwErr.
Open Scope string_scope.
Open Scope list_scope.

(** C51: a hardware command interface is claimed exactly when an active controller holds it. *)
Theorem c51_claimed_iff_held : forall e allow hs ops m k,
  wf_hw hs -> In k (flat_map h_cmd hs) -> crun e allow (cm_start hs) ops = Val m ->
  (aget (rm_claimed (cm_rm m)) k = Some true <->
   exists c, In c (cm_ctrls m) /\ c_lc c = Active /\ In k (c_cloans c)).
Proof. exact main_held. Qed.
Print Assumptions c51_claimed_iff_held.
Example c51_example : exists m m2,
  crun env_ok true (cm_start plain) (up_hw ++ load_conf [pos] ++ switch ["pos"] [] true) = Val m /\
  aget (rm_claimed (cm_rm m)) "a/position" = Some true /\
  crun env_ok true m (switch [] ["pos"] true) = Val m2 /\ aget (rm_claimed (cm_rm m2)) "a/position" = Some false.
Proof. do 2 eexists. split; [vm_compute; reflexivity|]. split; [vm_compute; reflexivity|]. split; [vm_compute; reflexivity|]. vm_compute. reflexivity. Qed.

(** C25, first half: after the update in which a controller failed, no controller of its chain group is active,
    unless it answers FAILURE to on_deactivate or is itself the fallback of a controller taken out. *)
Theorem c25_taken_out : forall e allow hs ops m m' o n,
  crun e allow (cm_start hs) ops = Val m -> cstep e allow m CUpdate = Val (m', o) ->
  taken_out m m' n -> deactivates e n -> ~ fallback_for m m' n -> state_in m' n <> Some Active.
Proof. intros e allow hs ops m m' o n R HS. exact (main_taken_out e allow m m' o (reach_NI _ _ _ _ _ R) HS n). Qed.
Print Assumptions c25_taken_out.
(** C25, second half, for stand-alone fallbacks: when every fallback of this step is a configured, not chainable
    controller that asks by name for available hardware interfaces, no two of them want the same command interface,
    and the callbacks succeed, then every fallback is active afterwards.  Missing for the full claim: chainable
    fallbacks and fallbacks that ask for interfaces of other controllers. *)
Theorem c25_fallback_partial : forall e allow hs ops m m' o,
  wf_hw hs -> crun e allow (cm_start hs) ops = Val m -> cstep e allow m CUpdate = Val (m', o) ->
  callbacks_succeed e ->
  (forall f, fallback_for m m' f -> exists c, In c (cm_ctrls m) /\ c_name c = f /\ c_lc c = Inactive /\
     c_chainable c = false /\ by_name c /\ hw_interfaces m c) ->
  (forall c1 c2 k, In c1 (cm_ctrls m) -> In c2 (cm_ctrls m) ->
     fallback_for m m' (c_name c1) -> fallback_for m m' (c_name c2) -> c_name c1 <> c_name c2 ->
     wants_cmd m c1 k -> ~ wants_cmd m c2 k) ->
  forall f, fallback_for m m' f -> state_in m' f = Some Active.
Proof. intros e allow hs ops m m' o W R HS CB PL DJ. exact (main_fallback e allow m m' o (reach_FI _ _ _ _ _ W R) HS CB PL DJ). Qed.
Print Assumptions c25_fallback_partial.

Definition fails (ns : list name) : env :=
  with_update env_ok (fun _ n => if mem n ns then Ret RError else Ret ROk).
Definition mainc := ctl "main" false ["a/position"] ["a/position"] [] [] ["safe"].
Definition safe := ctl "safe" false ["a/position"] ["a/position"] [] [] [].
Definition ops_main := up_hw ++ load_conf [mainc; safe] ++ switch ["main"] [] true.
(** non-vacuity: main fails, safe takes over the same command interface in that cycle *)
Example c25_example : exists m m',
  crun (fails ["main"]) true (cm_start plain) ops_main = Val m /\ state_in m "main" = Some Active /\
  cstep (fails ["main"]) true m CUpdate = Val (m', CNone) /\
  callbacks_succeed (fails ["main"]) /\ taken_out m m' "main" /\ fallback_for m m' "safe" /\
  state_in m' "main" = Some Inactive /\ state_in m' "safe" = Some Active.
Proof.
  eexists. eexists. split; [vm_compute; reflexivity|]. split; [vm_compute; reflexivity|]. split; [vm_compute; reflexivity|].
  split; [intros t n cb; reflexivity|].
  match goal with |- taken_out ?a ?b _ /\ _ => set (m := a); set (m' := b) end.
  assert (F : failed_update m m' "main").
  { assert (X : exists t, rm_trace (cm_rm m') = t ++ EvOp :: rm_trace (cm_rm m) /\ In (EvUpdate "main" (Ret RError)) t).
    { exists (firstn (length (rm_trace (cm_rm m')) - S (length (rm_trace (cm_rm m)))) (rm_trace (cm_rm m'))).
      split; [vm_compute; reflexivity|]. vm_compute. repeat (first [left; reflexivity|right]). }
    destruct X as (t & X & Y). exists t, (Ret RError). split; [exact X|]. split; [exact Y|]. discriminate. }
  assert (IM : exists c, In c (cm_ctrls m) /\ c_name c = "main" /\ c_group c = ["main"] /\ c_fallback c = ["safe"]).
  { eexists. split; [vm_compute; first [left; reflexivity|right; left; reflexivity]|]. vm_compute. auto. }
  destruct IM as (c & Ic & Nc & Gc & Fc).
  assert (T : taken_out m m' "main"). { exists c. rewrite Nc, Gc. split; [exact Ic|]. split; [exact F|left; reflexivity]. }
  split; [exact T|]. split; [exists c; rewrite Nc, Fc; split; [exact Ic|split; [exact T|left; reflexivity]]|]. vm_compute. auto.
Qed.

(** C25 is false for fallbacks in general: main and other fail in the same cycle and their fallbacks both need
    a/position; each fallback was accepted when its controller was started.  Nothing is active afterwards. *)
Definition other := ctl "other" false ["g/position"] [] [] [] ["safe2"].
Definition safe2 := ctl "safe2" false ["a/position"; "g/position"] [] [] [] [].
Theorem c25_fallback_refuted : exists e hs ops m m',
  wf_hw hs /\ callbacks_succeed e /\ crun e true (cm_start hs) ops = Val m /\
  state_in m "main" = Some Active /\ state_in m "other" = Some Active /\
  cstep e true m CUpdate = Val (m', CNone) /\
  map (state_in m') ["main"; "safe"; "other"; "safe2"] = [Some Inactive; Some Inactive; Some Inactive; Some Inactive].
Proof.
  exists (fails ["main"; "other"]), plain, (up_hw ++ load_conf [mainc; safe; other; safe2] ++ switch ["main"] [] true ++ switch ["other"] [] true).
  eexists. eexists. split; [exact wf_plain|]. split; [intros t n cb; reflexivity|]. split; [vm_compute; reflexivity|].
  split; [vm_compute; reflexivity|]. split; [vm_compute; reflexivity|]. split; [vm_compute; reflexivity|]. vm_compute. reflexivity.
Qed.
Print Assumptions c25_fallback_refuted.
(** and taking over can break a chain: lone fails, its fallback needs a/position, so pid is stopped -- but adm, which
    commands pid, and plan stay active. *)
Definition lone := ctl "lone" false ["g/position"] [] [] [] ["safe3"].
Definition safe3 := ctl "safe3" false ["a/position"; "g/position"] [] [] [] [].
Theorem c25_chain_refuted : exists e hs ops m m',
  wf_hw hs /\ callbacks_succeed e /\ crun e true (cm_start hs) ops = Val m /\
  map (state_in m) ["pid"; "adm"; "plan"] = [Some Active; Some Active; Some Active] /\
  cstep e true m CUpdate = Val (m', CNone) /\
  map (state_in m') ["lone"; "safe3"; "pid"; "adm"; "plan"] = [Some Inactive; Some Active; Some Inactive; Some Active; Some Active].
Proof.
  exists (fails ["lone"]), plain, (up_hw ++ load_conf [pid; adm; plan; lone; safe3] ++ switch ["pid"; "adm"; "plan"] [] true ++ switch ["lone"] [] true).
  eexists. eexists. split; [exact wf_plain|]. split; [intros t n cb; reflexivity|]. split; [vm_compute; reflexivity|].
  split; [vm_compute; reflexivity|]. split; [vm_compute; reflexivity|]. vm_compute. reflexivity.
Qed.
Print Assumptions c25_chain_refuted.

(** C26: in a history without fallback controllers, a controller that names an interface of a component reported as
    failed is not active after that read, whatever the rest of the system does. *)
Theorem c26_read_partial : forall e allow hs ops m m' out c h,
  wf_hw hs -> crun e allow (cm_start hs) ops = Val m -> without_fallbacks ops -> sole_owners m ->
  In c (cm_ctrls m) -> In h (rm_hw (cm_rm m)) -> uses c h -> deactivates e (c_name c) ->
  rw_result (read_report e m) <> ROk -> In (h_name h) (rw_failed (read_report e m)) ->
  cstep e allow m CRead = Val (m', out) -> state_in m' (c_name c) <> Some Active.
Proof. exact main_read_error. Qed.
Print Assumptions c26_read_partial.
(** The same for write when the overall result is ERROR; when it is DEACTIVATE, for controllers that command something. *)
Theorem c26_write_partial : forall e allow hs ops m m' out c h,
  wf_hw hs -> crun e allow (cm_start hs) ops = Val m -> without_fallbacks ops -> sole_owners m ->
  In c (cm_ctrls m) -> In h (rm_hw (cm_rm m)) -> uses c h -> deactivates e (c_name c) ->
  In (h_name h) (rw_failed (write_report e m)) ->
  rw_result (write_report e m) = RError \/
  rw_result (write_report e m) = RDeactivate /\ (exists k, commands_by_name c k) ->
  cstep e allow m CWrite = Val (m', out) -> state_in m' (c_name c) <> Some Active.
Proof. exact main_write_error. Qed.
Print Assumptions c26_write_partial.
(** non-vacuity: the arm fails in its first read with pos active *)
Definition arm_read : env := with_read env_ok (fun _ n => if String.eqb n "arm" then Ret RError else Ret ROk).
Definition arm_write : env := with_write env_ok (fun _ n => if String.eqb n "arm" then Ret RError else Ret ROk).
Definition ops_pos := up_hw ++ load_conf [pos] ++ switch ["pos"] [] true.
Example c26_example : exists m c h m' m2,
  crun arm_read true (cm_start plain) ops_pos = Val m /\ without_fallbacks ops_pos /\ sole_owners m /\
  In c (cm_ctrls m) /\ In h (rm_hw (cm_rm m)) /\ h_name h = "arm" /\ c_name c = "pos" /\ c_lc c = Active /\ uses c h /\
  read_report arm_read m = {| rw_result := RError; rw_failed := ["arm"] |} /\
  cstep arm_read true m CRead = Val (m', CNone) /\ state_in m' "pos" = Some Inactive /\
  crun arm_write true (cm_start plain) (ops_pos ++ [CWrite]) = Val m2 /\ state_in m2 "pos" = Some Inactive.
Proof.
  do 5 eexists. split; [vm_compute; reflexivity|]. split.
  { intros c ok H. cbn in H. repeat (destruct H as [H|H]; [try discriminate H; injection H as <- _; reflexivity|]). destruct H. }
  split.
  { intros h1 h2 k H1 H2 O1 O2. unfold owns in *. cbn in H1, H2.
    destruct H1 as [<-|[<-|[<-|[]]]]; destruct H2 as [<-|[<-|[<-|[]]]]; try reflexivity; exfalso; cbn in O1, O2;
      destruct O1 as [O1|O1]; destruct O2 as [O2|O2];
      repeat (first [destruct O1 as [O1|O1]|destruct O2 as [O2|O2]]); try contradiction; subst; discriminate. }
  split; [left; reflexivity|]. split; [right; right; left; reflexivity|]. split; [reflexivity|]. split; [reflexivity|]. split; [reflexivity|].
  split; [exists "a/position"; split; [left; left; reflexivity|left; eexists; split; [reflexivity|left; reflexivity]]|].
  split; [vm_compute; reflexivity|]. split; [vm_compute; reflexivity|]. split; [vm_compute; reflexivity|]. split; [vm_compute; reflexivity|].
  vm_compute. reflexivity.
Qed.
(** C26 is false with fallbacks: a fallback started by update() is not recorded as a user of the hardware, and stays
    active when the component it commands fails in the next cycle. *)
Definition fb_read : env := with_read (fails ["main"]) (fun t n =>
  if String.eqb n "arm" then (if existsb (fun ev => match ev with EvUpdate _ _ => true | _ => false end) t then Ret RError else Ret ROk) else Ret ROk).
Theorem c26_refuted_fallback : exists e hs ops m m',
  wf_hw hs /\ crun e true (cm_start hs) ops = Val m /\ state_in m "safe" = Some Active /\
  read_report e m = {| rw_result := RError; rw_failed := ["arm"] |} /\
  cstep e true m CRead = Val (m', CNone) /\ state_in m' "safe" = Some Active.
Proof.
  exists fb_read, plain, (ops_main ++ [CUpdate]). do 2 eexists. split; [exact wf_plain|]. split; [vm_compute; reflexivity|].
  split; [vm_compute; reflexivity|]. split; [vm_compute; reflexivity|]. split; [vm_compute; reflexivity|]. vm_compute. reflexivity.
Qed.
Print Assumptions c26_refuted_fallback.
(** And for write: the gripper fails with ERROR, then the arm asks for DEACTIVATE; the overall result is DEACTIVATE and
    a controller that only reads the failed gripper stays active. *)
Definition mixed_write : env := with_write env_ok (fun _ n =>
  if String.eqb n "gripper" then Ret RError else if String.eqb n "arm" then Ret RDeactivate else Ret ROk).
Definition watch := ctl "watch" false [] ["g/position"] [] [] [].
Theorem c26_refuted_write : exists e hs ops m m',
  wf_hw hs /\ crun e true (cm_start hs) ops = Val m /\ without_fallbacks ops /\ state_in m "watch" = Some Active /\
  In "gripper" (rw_failed (write_report e m)) /\ (forall t, e_write e t "gripper" = Ret RError) /\
  cstep e true m CWrite = Val (m', CNone) /\ state_in m' "watch" = Some Active.
Proof.
  exists mixed_write, plain, (up_hw ++ load_conf [watch] ++ switch ["watch"] [] true). do 2 eexists. split; [exact wf_plain|]. split; [vm_compute; reflexivity|].
  split. { intros c ok H. cbn in H. repeat (destruct H as [H|H]; [try discriminate H; injection H as <- _; reflexivity|]). destruct H. }
  split; [vm_compute; reflexivity|]. split; [vm_compute; left; reflexivity|]. split; [reflexivity|]. split; [vm_compute; reflexivity|]. vm_compute. reflexivity.
Qed.
Print Assumptions c26_refuted_write.
