(** Props_Tools.v -- C83: the unspawner and the hardware spawner. *)
From Coq Require Import String List Bool Arith.
From Verif Require Import Base Events HwModel RmModel RmSys RmSpec RmWitness CmModel CmSpec CmWitness SpawnModel SpawnSpec ToolsModel ToolsSpec ToolsProofs CmIntact Props_Spawn.
Import ListNotations.
Open Scope string_scope. Open Scope nat_scope. Open Scope list_scope.

(** Exit code 0 of the unspawner, if it was not interrupted, means that it unloaded every controller it was given, each at a
    moment when it was loaded and not running, although the answer to its stop request is ignored; such a controller is gone
    unless someone else loaded it again; whatever else was requested meanwhile. *)
Theorem c83_exit0_means_unloaded : forall e allow hs ops ns script m w,
  crun e allow (cm_start hs) ops = Val m -> unspawner e allow ns script m = Val (w, Exit0) -> no_signal script ->
  forall n, In n ns -> unloaded_by_it w n.
Proof. intros e allow hs ops ns script m w R H. exact (proj1 (proj2 (unspawner_all e allow hs ops ns script m w Exit0 R H)) eq_refl). Qed.
Print Assumptions c83_exit0_means_unloaded.

(** In every other case those before some controller have been unloaded and no request to unload one after it was made.
    ("Other": another ending, or some controller that it has not unloaded.) *)
Theorem c83_stops_at_the_first_failure : forall e allow hs ops ns script m w x,
  crun e allow (cm_start hs) ops = Val m -> unspawner e allow ns script m = Val (w, x) -> ns <> [] ->
  (exists n, In n ns /\ ~ unloaded_by_it w n) \/ x <> Exit0 ->
  exists before n after, ns = before ++ n :: after /\ (forall k, In k before -> unloaded_by_it w k) /\
    forall f m1 k m2, In (Mine f m1 (CUnload k) m2) (w_log w) -> In k before \/ k = n.
Proof. intros e allow hs ops ns script m w x R H. exact (proj2 (proj2 (proj2 (unspawner_all e allow hs ops ns script m w x R H)))). Qed.
Print Assumptions c83_stops_at_the_first_failure.

(** Exit code 1 means that the manager refused to unload one of them; a refused stop alone is no reason. *)
Theorem c83_exit1_means_refused : forall e allow hs ops ns script m w,
  crun e allow (cm_start hs) ops = Val m -> unspawner e allow ns script m = Val (w, Exit1) ->
  exists f m1 n m2, In n ns /\ In (Mine f m1 (CUnload n) m2) (w_log w) /\ cstep e allow m1 (CUnload n) = Val (m2, CBool false).
Proof. intros e allow hs ops ns script m w R H. exact (proj1 (proj2 (proj2 (unspawner_all e allow hs ops ns script m w Exit1 R H))) eq_refl). Qed.
Print Assumptions c83_exit1_means_refused.

(** It asks for one thing more than unloading them: to stop all of them, strictly; and the log is what happened. *)
Theorem c83_unspawner_asks_nothing_else : forall e allow hs ops ns script m w x,
  crun e allow (cm_start hs) ops = Val m -> unspawner e allow ns script m = Val (w, x) ->
  tells e allow (w_log w) m (w_cm w) /\
  forall f m1 o m2, In (Mine f m1 o m2) (w_log w) ->
    (o = CRequest [] ns true true \/ o = CTimeout \/ o = CEvaluate) \/ exists n, In n ns /\ o = CUnload n.
Proof. intros e allow hs ops ns script m w x R H. exact (proj1 (unspawner_all e allow hs ops ns script m w x R H)). Qed.
Print Assumptions c83_unspawner_asks_nothing_else.

(** "Exit code 0 means that they are unloaded" is false for an interrupt: Ctrl-C while it waits for an answer ends it with
    exit code 0 and both controllers stay loaded and running. *)
Definition m_run : cm := match spawner env_ok true (a_line both false false) false (repeat easy 8) m_up with Val (w, _) => w_cm w | Crash => m_up end.
Definition unspawns (script : list call) (x : ending) (check : world -> bool) : bool := ends_as (unspawner env_ok true ["pid"; "adm"] script m_run) x check.
Definition gone (n : name) (w : world) : bool := match state_in (w_cm w) n with None => true | _ => false end.
Theorem c83_ctrl_c_refuted : exists script w, unspawner env_ok true ["pid"; "adm"] script m_run = Val (w, Exit0) /\
  state_in m_run "pid" = Some Active /\ state_in m_run "adm" = Some Active /\ state_in (w_cm w) "pid" = Some Active /\ state_in (w_cm w) "adm" = Some Active.
Proof.
  exists [kill].
  destruct (ends_as_ok (unspawner env_ok true ["pid"; "adm"] [kill] m_run) Exit0
    (fun w => in_state "pid" Active w && in_state "adm" Active w && in_state "pid" Active (begin m_run []) && in_state "adm" Active (begin m_run []))%bool) as (w & E & C); [vm_compute; reflexivity|].
  repeat (apply andb_true_iff in C; let X := fresh "X" in destruct C as (C & X)). exists w. split; [exact E|].
  repeat split; (apply in_state_ok; assumption) || (match goal with |- state_in m_run ?n = _ => exact (in_state_ok n Active (begin m_run []) ltac:(assumption)) end).
Qed.
Print Assumptions c83_ctrl_c_refuted.

Lemma m_run_reached : exists ops, crun env_ok true (cm_start plain) ops = Val m_run.
Proof.
  destruct (ends_as_ok (spawner env_ok true (a_line both false false) false (repeat easy 8) m_up) Exit0 (fun _ => true)) as (w & E & _); [vm_compute; reflexivity|].
  unfold m_run. rewrite E. assert (ND : NoDup (names both)) by (repeat constructor; cbn; intuition discriminate).
  destruct (SpawnMain.spawner_log env_ok true plain (a_line both false false) up_hw false (repeat easy 8) m_up w Exit0 m_up_is ND E) as (T & _).
  assert (G : forall log m m', (exists ops, crun env_ok true (cm_start plain) ops = Val m) -> tells env_ok true log m m' -> exists ops, crun env_ok true (cm_start plain) ops = Val m').
  { induction log as [|x log IH]; intros m m' R Tl; [cbn in Tl; subst m'; exact R|].
    destruct x as [f m1 o m2|f m1 o m2]; cbn in Tl; destruct Tl as (Tl & <- & out & S); destruct (IH _ _ R Tl) as (ops1 & R1); exists (ops1 ++ [o]); eapply CmIntact.crun_snoc; eassumption. }
  eapply G; [|exact T]. exists up_hw. exact m_up_is.
Qed.
(** both run; it stops them in one request and unloads both; the second script loses the first answer of the first unload,
    which then is refused because the controller is gone *)
Example c83_example : (exists ops, crun env_ok true (cm_start plain) ops = Val m_run) /\ no_signal (repeat easy 3) /\ 
  unspawns (repeat easy 3) Exit0 (fun w => gone "pid" w && gone "adm" w)%bool = true /\
  unspawns [easy; slow; easy] Exit1 (fun w => gone "pid" w && in_state "adm" Inactive w)%bool = true.
Proof. split; [exact m_run_reached|]. split; [apply easy_quiet|]. vm_compute. auto. Qed.

(** The hardware spawner goes through the components it was given in order and reports each (all of them, unless a service was
    not there, an answer stayed out or it was interrupted): [NotLoaded] exactly if there is no such component; [Done] only
    if its request took the component to the state; [Refused] only if the manager refused; never [Elsewhere]. *)
Theorem c83_hardware_spawner_reports : forall e allow hs ops target ns script m w said x,
  wf_hw hs -> crun e allow (cm_start hs) ops = Val m -> hardware_spawner e allow target ns script m = Val (w, said, x) ->
  (exists rest, ns = map fst said ++ rest /\ (x = Exit0 -> no_signal script -> rest = [])) /\
  forall n rep, In (n, rep) said ->
    (rep = NotLoaded <-> ~ In n (map h_name hs)) /\
    (rep = Done -> reached_by_it w n target) /\
    (rep = Refused -> exists f m1 m2, In (Mine f m1 (CSetHw n target) m2) (w_log w) /\ cstep e allow m1 (CSetHw n target) = Val (m2, CBool false)) /\
    rep <> Elsewhere.
Proof.
  intros e allow hs ops target ns script m w said x W R H.
  destruct (bring_up_went e allow hs target W ns [] (begin m script) w said x (begin_inv e allow hs script m (ex_intro _ ops R)) eq_refl H) as (_ & _ & new & -> & P & A).
  split; [exact P|]. intros n rep I. destruct (A _ I) as (An & NE & K). cbn [fst snd] in K, NE. split; [exact K|].
  unfold answer_of in An. cbn [fst snd] in An. split; [intros ->; exact An|]. split; [|exact NE].
  intros ->. destruct An as (f & m1 & m2 & b & I1 & C & ->). eauto.
Qed.
Print Assumptions c83_hardware_spawner_reports.

(** All it asks for is the target state of components it was given. *)
Theorem c83_hardware_spawner_asks_nothing_else : forall e allow hs ops target ns script m w said x,
  wf_hw hs -> crun e allow (cm_start hs) ops = Val m -> hardware_spawner e allow target ns script m = Val (w, said, x) ->
  tells e allow (w_log w) m (w_cm w) /\
  forall f m1 o m2, In (Mine f m1 o m2) (w_log w) -> exists n, In n ns /\ o = CSetHw n target.
Proof.
  intros e allow hs ops target ns script m w said x W R H.
  destruct (bring_up_went e allow hs target W ns [] (begin m script) w said x (begin_inv e allow hs script m (ex_intro _ ops R)) eq_refl H) as (_ & (new & E & Q & T) & _).
  cbn in E. rewrite app_nil_r in E. rewrite E. split; [exact T|exact Q].
Qed.
Print Assumptions c83_hardware_spawner_asks_nothing_else.

(** "Exit code 0 means that the components are in the state" is false, even if all services answer and nothing interrupts it:
    a refusal and a name that does not exist are only reported. *)
Theorem c83_hardware_exit0_refuted : exists script w said, no_signal script /\
  hardware_spawner env_act_err true Active ["arm"; "leg"] script (cm_start plain) = Val (w, said, Exit0) /\
  said = [("arm", Refused); ("leg", NotLoaded)] /\ lc_of (cm_rm (w_cm w)) "arm" <> Some Active.
Proof. exists (repeat easy 4). do 2 eexists. split; [apply easy_quiet|]. split; [vm_compute; reflexivity|]. split; [reflexivity|]. vm_compute. discriminate. Qed.
Print Assumptions c83_hardware_exit0_refuted.
Definition reports (r : res (world * list (name * report) * ending)) : option (list (name * report) * ending * list (option lc)) :=
  match r with Val (w, said, x) => Some (said, x, map (lc_of (cm_rm (w_cm w))) ["arm"; "gripper"]) | Crash => None end.
Example c83_hardware_example : reports (hardware_spawner env_ok true Active ["arm"; "leg"; "gripper"] (repeat easy 5) (cm_start plain)) =
  Some ([("arm", Done); ("leg", NotLoaded); ("gripper", Done)], Exit0, [Some Active; Some Active]) /\ wf_hw plain.
Proof. split; [vm_compute; reflexivity|exact wf_plain]. Qed.
