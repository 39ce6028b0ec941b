(** Props_Kinds.v -- property C65: the kinds of interface configuration are honoured. *)
From Verif Require Import Base Events HwModel RmModel RmSys RmSpec RmWitness ChainModel CmModel CmWitness CmSpec UpdateSpec RmInv KindsSpec CmKinds Props_Cm.
Open Scope string_scope.
Open Scope list_scope.

(** C65.  A controller never holds an interface its configuration does not select. *)
Theorem c65_only_selected : forall e allow hs ops m c,
  crun e allow (cm_start hs) ops = Val m -> In c (cm_ctrls m) ->
  (forall k, In k (c_cloans c) -> selects (c_cmd c) k) /\ (forall k, In k (c_sloans c) -> selects (c_state c) k).
Proof. exact reach_selected. Qed.
Print Assumptions c65_only_selected.
(** When an operation starts a controller, the controller holds every hardware interface that its configuration selects
    and that was available (with a by-name configuration: otherwise it is not started at all), and no hardware interface
    that was not available. *)
Theorem c65_started_gets : forall e allow hs ops m o m' out c,
  wf_hw hs -> crun e allow (cm_start hs) ops = Val m -> cstep e allow m o = Val (m', out) ->
  (forall t, e_ctrl e t (c_name c) Events.CDeactivate <> CbFailure) ->
  state_in m (c_name c) <> Some Active -> In c (cm_ctrls m') -> c_lc c = Active ->
  (forall k, In k (hw_cmds (cm_rm m)) -> selects (c_cmd c) k -> In k (rm_avc (cm_rm m)) -> In k (c_cloans c)) /\
  (forall k, In k (hw_states (cm_rm m)) -> selects (c_state c) k -> In k (rm_avs (cm_rm m)) -> In k (c_sloans c)) /\
  (forall k, In k (hw_cmds (cm_rm m)) -> In k (c_cloans c) -> In k (rm_avc (cm_rm m))) /\
  (forall k, In k (hw_states (cm_rm m)) -> In k (c_sloans c) -> In k (rm_avs (cm_rm m))).
Proof.
  exact (fun e allow hs ops m o m' out c W R H HE NA Hc A =>
    match reach_gets e allow hs ops m o m' out c W R H HE NA Hc A with
    | conj A1 (conj A2 (conj _ (conj A4 A5))) =>
        conj (fun k K S V => A1 k S K V) (conj (fun k K S V => A2 k S K V) (conj (fun k K S => A4 k S K) (fun k K S => A5 k S K)))
    end).
Qed.
Print Assumptions c65_started_gets.
(** A controller whose patterns match an available hardware command interface twice is never started. *)
Theorem c65_overlap_never_starts : forall e allow hs ops m o m' out c k,
  wf_hw hs -> crun e allow (cm_start hs) ops = Val m -> cstep e allow m o = Val (m', out) ->
  (forall t, e_ctrl e t (c_name c) Events.CDeactivate <> CbFailure) ->
  In k (hw_cmds (cm_rm m)) -> In k (rm_avc (cm_rm m)) -> selects_twice (c_cmd c) k ->
  state_in m (c_name c) <> Some Active -> In c (cm_ctrls m') -> c_lc c <> Active.
Proof.
  exact (fun e allow hs ops m o m' out c k W R H HE K1 K2 T NA Hc A =>
    proj1 (proj2 (proj2 (reach_gets e allow hs ops m o m' out c W R H HE NA Hc A))) k K1 K2 T).
Qed.
Print Assumptions c65_overlap_never_starts.

Definition kind (n : name) (cmd st : icfg) : ctrl :=
  {| c_name := n; c_chainable := false; c_cmd := cmd; c_state := st;
     c_fallback := []; c_refs := []; c_exps := []; c_lc := Unconfigured; c_chained := false;
     c_cloans := []; c_sloans := []; c_claimed := []; c_group := [] |}.
Definition ends (s : string) (k : name) : bool := String.eqb (String.substring (String.length k - String.length s) (String.length s) k) s.
Definition begins (s : string) (k : name) : bool := String.prefix s k.
Definition broadcaster := kind "b" INone IAll.
Definition some := kind "s" (IBestEffort ["a/position"; "zz/none"]) (IBestEffort ["c/image"; "zz/none"]).
Definition rest := kind "r" (IRegex [ends "/velocity"; begins "g/"]) INone.
Definition over := kind "o" (IRegex [ends "/position"; begins "a/"]) INone.
Definition base65 := up_hw ++ load_conf [broadcaster; some; rest].
Definition loans65 (ops : list cop) : option (list (name * lc * list name * list name)) :=
  match crun env_ok true (cm_start plain) ops with Val m => Some (map (fun c => (c_name c, c_lc c, c_cloans c, c_sloans c)) (cm_ctrls m)) | Crash => None end.
Example c65_wf : wf_hw plain. Proof. exact wf_plain. Qed.
Example c65_example : match loans65 (base65 ++ switch ["b"; "s"; "r"] [] true) with
  | Some l => exists sts, In ("b", Active, [], sts) l /\ In "c/image" sts /\ 1 < List.length sts /\ In ("s", Active, ["a/position"], ["c/image"]) l /\ In ("r", Active, ["a/velocity"; "g/position"], []) l
  | None => False end.
Proof. vm_compute. eexists. split; [auto|]. split; [tauto|]. split; [repeat constructor|]. split; auto. Qed.
(** hence this claim is false: a configured controller, all whose interfaces are available and unclaimed, can be started.
    ("o" matches "a/position" twice; configuring it does not detect this because the hardware is brought up afterwards.) *)
Theorem c65_overlap_refuted : exists m m1,
  crun env_ok true (cm_start plain) (load_conf [over] ++ up_hw) = Val m /\ state_in m "o" = Some Inactive /\
  (forall k, In k (rm_ckeys (cm_rm m)) -> In k (rm_avc (cm_rm m)) /\ aget (rm_claimed (cm_rm m)) k = Some false) /\
  cstep env_ok true m (CRequest ["o"] [] true true) = Val (m1, CSw SwError).
Proof.
  do 2 eexists. split; [vm_compute; reflexivity|]. split; [reflexivity|].
  split; [|vm_compute; reflexivity].
  intros k H. vm_compute in H. vm_compute. repeat (destruct H as [<-|H]; [split; [tauto|reflexivity]|]). destruct H.
Qed.
Print Assumptions c65_overlap_refuted.
