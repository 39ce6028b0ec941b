(** Props_Accept.v -- property C61: a STRICT switch request that can be carried out is accepted (and then carried out). *)
From Verif Require Import Base Events HwModel RmModel RmSys RmSpec RmWitness ChainModel CmModel CmWitness CmSpec CmCache UpdateSpec FollowSpec DoneSpec CmDone AcceptSpec CmAccept Props_Done.
Open Scope string_scope.
Open Scope list_scope.

(** C61.  After any history (nobody's on_cleanup answering FAILURE), a STRICT request to start [a] and stop [d] that is
    [acceptable] -- see AcceptSpec.v -- is accepted, ... *)
Theorem c61_valid_is_accepted : forall e allow hs ops m a d asap,
  wf_hw hs -> cleans_up e -> crun e allow (cm_start hs) ops = Val m -> acceptable e allow m a d ->
  exists m1, cstep e allow m (CRequest a d true asap) = Val (m1, CSw SwPending).
Proof. exact main_accepts. Qed.
Print Assumptions c61_valid_is_accepted.
(** ... and if in addition the callbacks of the controllers succeed and the hardware carries out what it agreed to, the
    service answers "ok", exactly [a] is started and [d] stopped, and the started controllers hold all their interfaces. *)
Theorem c61_valid_is_done : forall e allow hs ops m a d asap,
  wf_hw hs -> cleans_up e -> crun e allow (cm_start hs) ops = Val m -> acceptable e allow m a d ->
  (forall n, In n a \/ state_in m n = Some Active -> works e n) -> hardware_performs e ->
  exists m1 m2 m3, cstep e allow m (CRequest a d true asap) = Val (m1, CSw SwPending) /\
    cstep e allow m1 CPerform = Val (m2, CNone) /\ cstep e allow m2 CEvaluate = Val (m3, CBool true) /\
    (forall n, state_in m3 n = asked_state m a d n) /\
    (forall c, In c (cm_ctrls m3) -> In (c_name c) a -> c_cloans c = cmd_names (cm_rm m3) c /\ c_sloans c = state_names (cm_rm m3) c).
Proof. exact main_accepted_done. Qed.
Print Assumptions c61_valid_is_done.

(** Non-vacuity: pid runs on its own; a request starts adm (which commands and observes pid) and plan (which commands adm). *)
Example c61_example : crun env_ok true (cm_start plain) chain_ops = Val chain_m /\ wf_hw plain /\ cleans_up env_ok /\
  acceptable env_ok true chain_m ["adm"; "plan"] [] /\ (forall n, works env_ok n) /\ hardware_performs env_ok.
Proof.
  destruct c52_example as (E & W & ND & RE & WO & HP & _).
  split; [exact E|]. split; [exact W|]. split; [intros t n; discriminate|]. split; [|split; [exact WO|exact HP]].
  assert (exists mm, crun env_ok true (cm_start plain) chain_ops = Val mm) as (mm & E2) by (eexists; vm_compute; reflexivity).
  assert (E' : chain_m = mm) by congruence. rewrite E' in RE |- *. clear E' E. vm_compute in E2. injection E2 as <-.
  match goal with |- acceptable _ _ ?x _ _ => set (M := x) in * end.
  assert (WW : forall c k, In c (cm_ctrls M) -> may_want M c k ->
     (c_name c = "pid" /\ k = "a/position") \/ (c_name c = "adm" /\ (k = "pid/ref" \/ k = "pid/est")) \/ (c_name c = "plan" /\ k = "adm/ref")).
  { intros c k Hc Hw. destruct Hc as [<-|[<-|[<-|[]]]]; destruct Hw as [Hw|Hw]; cbn in Hw |- *; repeat (destruct Hw as [Hw|Hw]); try (destruct Hw); auto 8. }
  assert (NN : forall f, In f (cm_ctrls M) -> c_name f = "plan" \/ c_name f = "adm" \/ c_name f = "pid").
  { intros f [<-|[<-|[<-|[]]]]; cbn; auto. }
  constructor.
  - reflexivity.
  - discriminate.
  - exact ND.
  - intros n [<-|[<-|[]]]; [exists (nth 2 (cm_ctrls M) pid)|exists (nth 1 (cm_ctrls M) pid)]; cbn; auto.
  - intros c _ [].
  - intros c Hc Ha. destruct Hc as [<-|[<-|[<-|[]]]]; try (split; reflexivity). cbn in Ha. destruct Ha as [Ha|[Ha|[]]]; discriminate.
  - exact RE.
  - intros c _ [].
  - split.
    + intros f k Hf [(ks & A & K)|(ks & A & K)]; destruct Hf as [<-|[<-|[<-|[]]]]; vm_compute in A; try discriminate A; injection A as <-;
        repeat (destruct K as [<-|K]); try destruct K; reflexivity.
    + intros f k Hf Hk Ho. assert (Q : prefix_of k = Some "g" \/ prefix_of k = Some "a" \/ prefix_of k = Some "c").
      { cbn in Hk. repeat (destruct Hk as [<-|Hk]); try destruct Hk; cbn; auto. }
      unfold owned_by in Ho. rewrite Ho in Q. destruct (NN f Hf) as [X|[X|X]]; rewrite X in Q; destruct Q as [Q|[Q|Q]]; discriminate.
  - intros c n Hc _ Hn. destruct Hc as [<-|[<-|[<-|[]]]]; destruct Hn.
  - intros c k Hc Lc Wk. destruct Hc as [<-|[<-|[<-|[]]]]; try discriminate Lc. vm_compute in Wk. destruct Wk as [<-|[]]. split; cbn; auto 8.
  - intros h c k Hh Hc _ Wk Hk. split; [|intros; reflexivity]. destruct Hh as [<-|[<-|[<-|[]]]]; auto.
  - exists (fun n => if String.eqb n "pid" then 0 else if String.eqb n "adm" then 1 else 2).
    intros c f k Hc Hf Hw Ho. unfold owned_by in Ho.
    destruct (WW c k Hc Hw) as [(E & ->)|[(E & [-> | ->])|(E & ->)]]; rewrite E; cbn in Ho; injection Ho as Ho; rewrite <- Ho in *;
      destruct (NN f Hf) as [X|[X|X]]; try (rewrite X in Ho; discriminate); cbn; auto.
  - intros c k Hc Hw. destruct (WW c k Hc Hw) as [(E & ->)|[(E & [-> | ->])|(E & ->)]]; eexists; reflexivity.
  - intros c f k Hc Hf Hw Ho _. destruct (WW c k Hc Hw) as [(E & ->)|[(E & [-> | ->])|(E & ->)]]; unfold owned_by in Ho; cbn in Ho; injection Ho as Ho; rewrite <- Ho;
      try (split; vm_compute; discriminate).
    destruct (NN f Hf) as [X|[X|X]]; rewrite X in Ho; discriminate.
  - intros k H. assert (K : In k ["g/position"; "a/position"; "a/velocity"; "pid/ref"; "adm/ref"]).
    { destruct H as [H|(n & ks & H & Hk)].
      - cbn in H. repeat (destruct H as [<-|H]); try destruct H; cbn; auto 8.
      - apply CmFollow.aget_In in H. cbn in H. destruct H as [H|[H|[]]]; injection H as <- <-; destruct Hk as [<-|[]]; cbn; auto 8. }
    repeat (destruct K as [<-|K]); try destruct K; vm_compute; discriminate.
Qed.

(** The condition on the hardware of a controller that is to be stopped cannot be dropped: pos runs on the arm, the arm is
    taken to "unconfigured" by its own service, and from then on pos cannot be stopped: every request is rejected because
    its command interface is no longer available, although pos is active and nobody depends on it. *)
Theorem c61_stop_refuted : exists e allow hs ops m, wf_hw hs /\ cleans_up e /\ (forall n, works e n) /\ hardware_performs e /\
  (forall t n s p, e_prepare e t n s p = Ret ROk) /\ crun e allow (cm_start hs) ops = Val m /\ cm_pend m = None /\
  map (fun c => (c_name c, c_lc c)) (cm_ctrls m) = [("pos", Active)] /\
  forall strict asap, exists m1, cstep e allow m (CRequest [] ["pos"] strict asap) = Val (m1, CSw SwError).
Proof.
  exists env_ok, true, plain, (up_hw ++ load_conf [CmWitness.pos] ++ switch ["pos"] [] true ++ [CSetHw "arm" Unconfigured]). eexists.
  split; [apply wf_plain|]. split; [intros t n; discriminate|]. split; [intros n t; split; reflexivity|]. split; [intros ? ? ? ?; reflexivity|].
  split; [intros; reflexivity|]. split; [vm_compute; reflexivity|]. split; [reflexivity|]. split; [reflexivity|].
  intros [|] [|]; eexists; vm_compute; reflexivity.
Qed.
Print Assumptions c61_stop_refuted.

(** Nor can the condition that the stopped controllers ask for their interfaces by name: safe, which asks for a/position if
    it is there, was started by update() as the fallback of main and holds a/position.  A request to replace it by pos is
    rejected: the manager does not know that stopping safe frees the interface, because the record of claimed interfaces
    is only refreshed at the end of a switch. *)
Definition main_f := ctl "main" false ["a/velocity"] [] [] [] ["safe"].
Definition safe_b : ctrl := {| c_name := "safe"; c_chainable := false; c_cmd := IBestEffort ["a/position"]; c_state := INone; c_fallback := [];
  c_refs := []; c_exps := []; c_lc := Unconfigured; c_chained := false; c_cloans := []; c_sloans := []; c_claimed := []; c_group := [] |}.
Definition main_fails : env := with_update env_ok (fun _ n => if String.eqb n "main" then Ret RError else Ret ROk).
Theorem c61_stale_claims_refuted : exists e allow hs ops m, wf_hw hs /\ cleans_up e /\ (forall n, works e n) /\ hardware_performs e /\
  (forall t n s p, e_prepare e t n s p = Ret ROk) /\ crun e allow (cm_start hs) ops = Val m /\ cm_pend m = None /\
  map (fun c => (c_name c, c_lc c, c_cloans c)) (cm_ctrls m) = [("main", Inactive, []); ("safe", Active, ["a/position"]); ("pos", Inactive, [])] /\
  forall strict asap, exists m1, cstep e allow m (CRequest ["pos"] ["safe"] strict asap) = Val (m1, CSw SwError).
Proof.
  exists main_fails, true, plain, (up_hw ++ load_conf [main_f; safe_b; CmWitness.pos] ++ switch ["main"] [] true ++ [CUpdate]). eexists.
  split; [apply wf_plain|]. split; [intros t n; discriminate|]. split; [intros n t; split; reflexivity|]. split; [intros ? ? ? ?; reflexivity|].
  split; [intros; reflexivity|]. split; [vm_compute; reflexivity|]. split; [reflexivity|]. split; [reflexivity|].
  intros [|] [|]; eexists; vm_compute; reflexivity.
Qed.
Print Assumptions c61_stale_claims_refuted.
