(** Props_InitHw.v -- C47: initial hardware states respect groups.
    [rm_start hs] is the resource manager after loading the components [hs]. *)
From Coq Require Import Permutation.
From Verif Require Import Base Events HwModel RmModel RmSys RmSpec RmWitness InitHwModel InitHwSpec InitHwProofs.
Open Scope string_scope.
Open Scope list_scope.

(** C47 for the members that no parameter lists (what is missing: members listed in a parameter, and
    shutdown_on_initial_state_failure; see the refutations): whatever the callbacks do and whatever the iteration
    orders are, all of them are active in the end, or one of them failed and none is active except those whose
    on_deactivate did not succeed. *)
Theorem c47_groups_partial : forall e p hs order gorder g,
  wf_hw hs -> orders hs order gorder -> p_shutdown p = false -> g <> "" ->
  exists r, initial_states e p order gorder (rm_start hs) = Done r tt /\
  ((forall n, to_activate hs p g n -> is_active r n) \/
   (exists n, to_activate hs p g n /\ (cb_failed n HConfigure (rm_trace r) \/ cb_failed n HActivate (rm_trace r))) /\
   (forall n, to_activate hs p g n -> ~ is_active r n \/ cb_failed n HDeactivate (rm_trace r))).
Proof.
  intros e p hs order gorder g W O S G. destruct (main_started e p hs order gorder W O S) as (r & E & [H _ _ _]).
  exists r. split; [exact E|]. exact (H g G).
Qed.
Print Assumptions c47_groups_partial.
(** each component outside groups is handled by itself *)
Theorem c47_ungrouped : forall e p hs order gorder n,
  wf_hw hs -> orders hs order gorder -> p_shutdown p = false -> to_activate hs p "" n ->
  exists r, initial_states e p order gorder (rm_start hs) = Done r tt /\
  (is_active r n \/ ~ is_active r n /\ (cb_failed n HConfigure (rm_trace r) \/ cb_failed n HActivate (rm_trace r))).
Proof.
  intros e p hs order gorder n W O S G. destruct (main_started e p hs order gorder W O S) as (r & E & [_ H _ _]).
  exists r. split; [exact E|]. exact (H n G).
Qed.
Print Assumptions c47_ungrouped.
(** listed components get the listed state *)
Theorem c47_listed : forall e p hs order gorder n,
  wf_hw hs -> orders hs order gorder -> p_shutdown p = false -> In n (map h_name hs) -> n <> "" ->
  exists r, initial_states e p order gorder (rm_start hs) = Done r tt /\
  (In n (p_unconf p) -> lc_of r n = Some Unconfigured) /\
  (~ In n (p_unconf p) -> In n (p_inact p) -> lc_of r n = Some Inactive \/
     ~ is_active r n /\ (cb_failed n HConfigure (rm_trace r) \/ cb_failed n HActivate (rm_trace r))).
Proof.
  intros e p hs order gorder n W O S I N. destruct (main_started e p hs order gorder W O S) as (r & E & [_ _ H1 H2]).
  exists r. split; [exact E|]. split; [exact (H1 n I N)|exact (H2 n I N)].
Qed.
Print Assumptions c47_listed.

Definition no_lists := {| p_unconf := []; p_inact := []; p_shutdown := false |}.
Lemma wf_grouped' : wf_hw grouped.
Proof. constructor; simpl; repeat (constructor; [simpl; intuition discriminate|]); constructor. Qed.
Definition fails (n : name) (cb : hcb) : env :=
  with_hwcb env_ok (fun _ m c => if String.eqb m n then match c, cb with HActivate, HActivate | HConfigure, HConfigure => CbFailure | _, _ => CbSuccess end else CbSuccess).
Lemma orders_grouped : orders grouped ["arm"; "camera"; "gripper"] ["G"].
Proof.
  split; [|split].
  - apply perm_trans with ["camera"; "arm"; "gripper"]; [apply perm_swap|]. apply perm_trans with ["camera"; "gripper"; "arm"].
    + apply perm_skip, perm_swap.
    + apply perm_swap.
  - repeat constructor. intros [].
  - intros g. cbn. split.
    + intros [<-|[]]. split; [discriminate|]. eexists. split; [now left|reflexivity].
    + intros [H1 (h & [<-|[<-|[<-|[]]]] & H2)]; cbn in H2; subst; tauto.
Qed.
(** the second of two members fails to activate: the first one is taken back *)
Example c47_example : wf_hw grouped /\ orders grouped ["arm"; "camera"; "gripper"] ["G"] /\
  to_activate grouped no_lists "G" "arm" /\ to_activate grouped no_lists "G" "gripper" /\ to_activate grouped no_lists "" "camera" /\
  (exists r, initial_states env_ok no_lists ["arm"; "camera"; "gripper"] ["G"] (rm_start grouped) = Done r tt /\
     lc_of r "arm" = Some Active /\ lc_of r "gripper" = Some Active /\ lc_of r "camera" = Some Active) /\
  (exists r, initial_states (fails "gripper" HActivate) no_lists ["arm"; "camera"; "gripper"] ["G"] (rm_start grouped) = Done r tt /\
     lc_of r "arm" = Some Inactive /\ lc_of r "gripper" = Some Inactive /\ lc_of r "camera" = Some Active).
Proof.
  split; [exact wf_grouped'|]. split; [exact orders_grouped|].
  assert (T : forall h, In h grouped -> to_activate grouped no_lists (h_group h) (h_name h)).
  { intros h H. exists h. split; [exact H|]. split; [reflexivity|]. split; [reflexivity|]. right. intros [[]|[]]. }
  split; [exact (T _ (or_intror (or_intror (or_introl eq_refl))))|]. split; [exact (T _ (or_introl eq_refl))|].
  split; [exact (T _ (or_intror (or_introl eq_refl)))|].
  split; eexists; (split; [vm_compute; reflexivity|vm_compute; auto]).
Qed.

(** A member listed in "inactive" fails to configure: the other member of its group is activated and stays active. *)
Theorem c47_refuted_listed_member : exists e p hs order gorder r,
  wf_hw hs /\ orders hs order gorder /\ p_shutdown p = false /\
  initial_states e p order gorder (rm_start hs) = Done r tt /\
  group_of r "arm" = group_of r "gripper" /\ group_of r "arm" = "G" /\
  In "gripper" (p_inact p) /\ lc_of r "gripper" = Some Unconfigured /\ is_active r "arm" /\ ~ cb_failed "arm" HDeactivate (rm_trace r).
Proof.
  exists (fails "gripper" HConfigure), {| p_unconf := []; p_inact := ["gripper"]; p_shutdown := false |}, grouped, ["arm"; "camera"; "gripper"], ["G"].
  eexists. split; [exact wf_grouped'|]. split; [exact orders_grouped|]. split; [reflexivity|]. split; [vm_compute; reflexivity|].
  split; [vm_compute; reflexivity|]. split; [vm_compute; reflexivity|]. split; [now left|]. split; [vm_compute; reflexivity|].
  split; [vm_compute; reflexivity|]. intros (c & H & _). vm_compute in H.
  repeat (destruct H as [H|H]; [discriminate|]). destruct H.
Qed.
Print Assumptions c47_refuted_listed_member.
(** With shutdown_on_initial_state_failure the exception skips the rollback: the members activated before stay active. *)
Theorem c47_refuted_shutdown : exists e p hs order gorder r,
  wf_hw hs /\ orders hs order gorder /\
  initial_states e p order gorder (rm_start hs) = Threw r /\
  group_of r "arm" = group_of r "gripper" /\ group_of r "arm" = "G" /\ lc_of r "gripper" = Some Inactive /\ is_active r "arm".
Proof.
  exists (fails "gripper" HActivate), {| p_unconf := []; p_inact := []; p_shutdown := true |}, grouped, ["arm"; "camera"; "gripper"], ["G"].
  eexists. split; [exact wf_grouped'|]. split; [exact orders_grouped|]. split; [vm_compute; reflexivity|].
  vm_compute. auto.
Qed.
Print Assumptions c47_refuted_shutdown.
