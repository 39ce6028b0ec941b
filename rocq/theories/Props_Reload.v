(** Props_Reload.v -- property C63: reload_controller_libraries. *)
From Verif Require Import Base Events HwModel RmModel RmSys RmSpec RmWitness ChainModel CmModel CmWitness CmSpec UpdateSpec FollowSpec DoneSpec AcceptSpec ReloadModel ReloadSpec CmReload CmReload2 Props_Update.
Open Scope string_scope.
Open Scope list_scope.

(** C63.  Without force_kill, and with an active controller, the service refuses and does nothing, ... *)
Theorem c63_refused : forall e allow m rt n, state_in m n = Some Active -> reload e allow m false rt = Val (m, false).
Proof. exact main_reload_refused. Qed.
Print Assumptions c63_refused.
(** ... if it answers ok, no controller is left and no command interface of the hardware is claimed, whatever the real-time
    loop did meanwhile; and whatever it answers, it only drops controllers from the front of the list. *)
Theorem c63_ok_means_empty : forall e allow hs ops m force rt m' b, wf_hw hs -> crun e allow (cm_start hs) ops = Val m -> cm_pend m = None ->
  reload e allow m force rt = Val (m', b) ->
  cm_pend m' = None /\ (b = true -> cm_ctrls m' = [] /\ forall k, In k (flat_map h_cmd hs) -> aget (rm_claimed (cm_rm m')) k <> Some true) /\
  exists k, map c_name (cm_ctrls m') = skipn k (map c_name (cm_ctrls m)).
Proof. exact main_reload. Qed.
Print Assumptions c63_ok_means_empty.
(** With force_kill it succeeds whenever the controllers can be stopped (ReloadSpec.v), provided the real-time loop gets to
    perform the switch first; afterwards it may do anything. *)
Theorem c63_forced_succeeds : forall e allow hs ops m post rest, wf_hw hs -> crun e allow (cm_start hs) ops = Val m -> stoppable e allow m ->
  exists m', reload e allow m true ((CPerform :: post) :: rest) = Val (m', true).
Proof. exact main_reload_done. Qed.
Print Assumptions c63_forced_succeeds.

Definition grip_c := ctl "grip" false ["g/position"] [] [] [] [].
Definition rl_ops := up_hw ++ load_conf [CmWitness.pos; grip_c] ++ switch ["grip"] [] true.
Example c63_example : exists m, crun env_ok true (cm_start plain) rl_ops = Val m /\ state_in m "grip" = Some Active /\ state_in m "pos" = Some Inactive /\
  stoppable env_ok true m /\
  (exists m', reload env_ok true m true [[CRead; CUpdate; CPerform; CWrite]; [CRead; CWrite]] = Val (m', true)) /\
  (exists m', reload env_ok true m true [[CRead; CUpdate; CWrite]] = Val (m', false)).
Proof.
  eexists. split; [vm_compute; reflexivity|]. split; [reflexivity|]. split; [reflexivity|].
  split; [|split; eexists; vm_compute; reflexivity].
  match goal with |- stoppable _ _ ?x => set (M := x) end.
  assert (WW : forall c k, In c (cm_ctrls M) -> may_want M c k -> k = "a/position" \/ k = "g/position").
  { intros c k Hc Hw. destruct Hc as [<-|[<-|[]]]; destruct Hw as [Hw|Hw]; cbn in Hw; repeat (destruct Hw as [Hw|Hw]); try destruct Hw; auto. }
  assert (NN : forall c, In c (cm_ctrls M) -> c_name c = "pos" \/ c_name c = "grip") by (intros c [<-|[<-|[]]]; cbn; auto).
  constructor.
  - reflexivity.
  - intros c [<-|[<-|[]]]; cbn; auto.
  - intros c _ _ t. split; reflexivity.
  - reflexivity.
  - intros ? ? ? ?; reflexivity.
  - intros c [<-|[<-|[]]] L; [discriminate L|]. do 2 eexists. split; [reflexivity|]. split; [reflexivity|]. repeat (constructor; [cbn; intuition discriminate|]). constructor.
  - intros c k [<-|[<-|[]]] L Wk; [discriminate L|]. cbn in Wk. destruct Wk as [<-|[]]. vm_compute. auto 8.
  - intros h c k Hh Hc L Wk Hk. split; [|intros; reflexivity]. destruct Hh as [<-|[<-|[<-|[]]]]; auto.
  - split.
    + intros f k Hf [(ks & A & K)|(ks & A & K)]; vm_compute in A; discriminate A.
    + intros f k Hf Hk Ho. assert (Q : prefix_of k = Some "g" \/ prefix_of k = Some "a" \/ prefix_of k = Some "c").
      { cbn in Hk. repeat (destruct Hk as [<-|Hk]); try destruct Hk; cbn; auto. }
      unfold owned_by in Ho. rewrite Ho in Q. destruct (NN f Hf) as [X|X]; rewrite X in Q; destruct Q as [Q|[Q|Q]]; discriminate.
  - exists (fun _ => 0). intros c f k Hc Hf Hw Ho. unfold owned_by in Ho. destruct (WW c k Hc Hw) as [-> | ->]; cbn in Ho; injection Ho as Ho; destruct (NN f Hf) as [X|X]; rewrite X in Ho; discriminate.
  - intros c k Hc Hw. destruct (WW c k Hc Hw) as [-> | ->]; eexists; reflexivity.
  - intros c f k Hc Hf Hw Ho _. unfold owned_by in Ho. destruct (WW c k Hc Hw) as [-> | ->]; cbn in Ho; injection Ho as Ho; destruct (NN f Hf) as [X|X]; rewrite X in Ho; discriminate.
  - intros k H. assert (K : In k ["g/position"; "a/position"; "a/velocity"]).
    { destruct H as [H|(n & ks & H & Hk)]; [|discriminate H]. cbn in H. repeat (destruct H as [<-|H]); try destruct H; cbn; auto 8. }
    repeat (destruct K as [<-|K]); try destruct K; vm_compute; discriminate.
Qed.

(** A controller that is finalized (its on_error failed) cannot be unloaded, so the service can never succeed again, forced or
    not. *)
Definition conf_error : env := {| e_hw := e_hw env_ok; e_hw_error := e_hw_error env_ok; e_read := e_read env_ok; e_write := e_write env_ok;
     e_locked := e_locked env_ok; e_due := e_due env_ok; e_prepare := e_prepare env_ok; e_perform := e_perform env_ok;
     e_ctrl := (fun _ n cb => match cb with Events.CConfigure => CbError | _ => CbSuccess end); e_ctrl_error := (fun _ _ => false);
     e_set_chained := e_set_chained env_ok; e_update := e_update env_ok; e_update_due := e_update_due env_ok |}.
Theorem c63_finalized_refuted : exists e allow hs ops m, wf_hw hs /\ crun e allow (cm_start hs) ops = Val m /\ cm_pend m = None /\
  (forall n, state_in m n <> Some Active) /\ state_in m "pos" = Some Finalized /\
  forall force rt, exists m', reload e allow m force rt = Val (m', false) /\ state_in m' "pos" = Some Finalized.
Proof.
  exists conf_error, true, plain, (up_hw ++ [CLoad CmWitness.pos true; CConfigure "pos" []]).
  eexists. split; [exact wf_plain|]. split; [vm_compute; reflexivity|]. split; [reflexivity|].
  split; [intros n; unfold state_in; cbn; match goal with |- context [if ?b then _ else _] => destruct b end; discriminate|]. split; [reflexivity|].
  intros [|] [|r rt]; eexists; (split; [vm_compute; reflexivity|reflexivity]).
Qed.
Print Assumptions c63_finalized_refuted.
