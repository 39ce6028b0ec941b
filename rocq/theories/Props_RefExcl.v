(** Props_RefExcl.v -- C13 for every command interface, those of the hardware and those that
    chainable controllers offer to others. *)
From Verif Require Import Base Events HwModel RmModel RmSys RmSpec RmWitness ChainModel
  CmModel CmPrim ChainSpec CmReach CmSpec CmWitness ExportSpec RefExclSpec CmRefExcl.
Open Scope string_scope.
Open Scope list_scope.

(** C13: in every history in which no controller is configured, cleaned up or unloaded while one
    of its registered reference interfaces is held (RefExclSpec.v), no interface is held by two
    controllers.  Without that condition it is false: [c13_one_holder_refuted] in Props_Cm.v. *)
Theorem c13_one_holder_while_undisturbed_partial : forall e allow hs ops m k c1 c2,
  wf_hw hs -> undisturbed e allow hs ops k ->
  crun e allow (cm_start hs) ops = Val m ->
  In c1 (cm_ctrls m) -> In c2 (cm_ctrls m) -> c_name c1 <> c_name c2 ->
  In k (c_cloans c1) -> In k (c_cloans c2) -> False.
Proof. exact main_one_holder. Qed.
Print Assumptions c13_one_holder_while_undisturbed_partial.
(** ... and what is held is registered, marked claimed, and held once. *)
Theorem c13_held_while_undisturbed_partial : forall e allow hs ops m k c,
  wf_hw hs -> undisturbed e allow hs ops k ->
  crun e allow (cm_start hs) ops = Val m -> In c (cm_ctrls m) -> In k (c_cloans c) ->
  aget (rm_claimed (cm_rm m)) k = Some true /\ In k (rm_ckeys (cm_rm m)) /\ count_occ string_dec (c_cloans c) k = 1.
Proof. exact main_held. Qed.
Print Assumptions c13_held_while_undisturbed_partial.

(** A chain P -> F is started and stopped, F is configured again, then unloaded and loaded again;
    P starts again with F and holds the new interface; Q cannot have it. *)
Definition rF := ctl "F" true ["a/position"] [] ["F/ref"] [] [].
Definition rP := ctl "P" false ["F/ref"] [] [] [] [].
Definition rQ := ctl "Q" false ["F/ref"] [] [] [] [].
Definition story : list cop :=
  up_hw ++ load_conf [rF; rP; rQ] ++ switch ["P"; "F"] [] true ++ switch [] ["P"; "F"] true ++
  [CConfigure "F" []; CUnload "F"] ++ load_conf [rF] ++ switch ["P"; "F"] [] true ++ switch ["Q"] [] true.
Example c13_undisturbed_example : exists m c,
  undisturbed env_ok true plain story "F/ref" /\
  crun env_ok true (cm_start plain) story = Val m /\
  find_ctrl m "P" = Some c /\ c_cloans c = ["F/ref"] /\ state_of (Val m) "Q" = Some Inactive /\
  refs_of m "F" = Some ["F/ref"].
Proof.
  do 2 eexists. split; [apply undisturbed_check; vm_compute; reflexivity|].
  split; [vm_compute; reflexivity|]. split; [vm_compute; reflexivity|]. vm_compute. repeat split.
Qed.
