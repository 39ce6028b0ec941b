(** CmAvail.v -- availability of the hardware's interfaces over histories of the controller manager. *)
From Verif Require Import Base Events HwModel RmModel RmSys RmSpec HwProofs RmProofs RmInv RmAvail RmMode CmModel CmPrim CmTopo CmInv CmExcl CmReach CmRefs.
Open Scope list_scope.

Lemma release_av ks : forall r, av_same r (release_all r ks).
Proof. unfold release_all. induction ks as [|k ks IH]; intros r; [split; reflexivity|]. cbn [fold_left]. destruct (IH (release_cmd r k)) as [A B]. split; assumption. Qed.
Lemma claim_cmd_av r k : av_same r (fst (claim_cmd r k)).
Proof. unfold claim_cmd. destruct (cmd_available r k); [|split; reflexivity]. destruct (aget (rm_claimed r) k) as [[]|]; split; reflexivity. Qed.
Lemma claim_all_av : forall ks r got r1 o, claim_all r ks got = Val (r1, o) -> av_same r r1.
Proof.
  induction ks as [|k ks IH]; intros r got r1 o H; cbn [claim_all] in H; [injection H as <- _; split; reflexivity|].
  destruct (cmd_claimed r k) as [[]|] eqn:E; try discriminate. 
  - injection H as <- _. apply release_av.
  - pose proof (claim_cmd_av r k) as [A B]. destruct (claim_cmd r k) as [r2 []]; cbn [fst] in *.
    + destruct (IH _ _ _ _ H) as [C D]. split; congruence.
    + injection H as <- _. destruct (release_av got r2) as [C D]. split; congruence.
Qed.

Section R.
Variables (e : env) (allow : bool).
Let Q := no_transition_errors e.
Lemma AvInv_maps r r' : rm_hw r' = rm_hw r -> rm_avs r' = rm_avs r -> rm_avc r' = rm_avc r -> AvInv Q r -> AvInv Q r'.
Proof. intros A B C. apply AvInv_same; [exact A|split; assumption]. Qed.
Lemma read_AvInv r : wfr r -> AvInv Q r -> AvInv Q (fst (rm_read e r)).
Proof.
  intros W A. unfold rm_read. pose proof (fold_AvInv Q (read_one e) (map h_name (rm_hw r)) r rw_ok) as H. apply H; [|exact W|exact A].
  intros. split; [apply read_one_only|apply read_one_avok]; assumption.
Qed.
Lemma write_AvInv r : wfr r -> AvInv Q r -> AvInv Q (fst (rm_write e r)).
Proof.
  intros W A. unfold rm_write. pose proof (fold_AvInv Q (write_one e) (map h_name (filter (fun h => negb (is_sensor h)) (rm_hw r))) r rw_ok) as H.
  apply H; [|exact W|exact A]. intros. split; [apply write_one_only|apply write_one_avok]; assumption.
Qed.
Lemma remove_refs_av r n : av_same r (remove_refs r n) /\ rm_hw (remove_refs r n) = rm_hw r.
Proof. split; [|apply (proj1 (hw_same_remove_refs r n))]. unfold remove_refs. destruct (aget _ _); split; reflexivity. Qed.
Lemma remove_exps_av r n : av_same r (remove_exps r n) /\ rm_hw (remove_exps r n) = rm_hw r.
Proof. split; [|apply (proj1 (hw_same_remove_exps r n))]. unfold remove_exps. destruct (aget _ _); split; reflexivity. Qed.

Lemma prim_AvInv KS m m' : RI (cm_rm m) -> wfr (cm_rm m) -> prim e allow KS m m' -> AvInv Q (cm_rm m) -> AvInv Q (cm_rm m').
Proof.
  intros [Hn _ K] W P A. 
  assert (Kr := ki_refs _ K). assert (Ke := ki_exps _ K). 
  assert (CR : forall n c r1 o ks, claim_all (cm_rm m) (cmd_names (cm_rm m) c) [] = Val (r1, o) -> find_ctrl m n = Some c ->
     AvInv Q r1 /\ AvInv Q (release_all r1 ks)).
  { intros n c r1 o ks HC _. pose proof (claim_all_av _ _ _ _ _ HC) as [V1 V2]. destruct (claim_all_maps _ _ _ _ _ HC) as (V3 & _).
    assert (A1 : AvInv Q r1) by (eapply AvInv_maps; eassumption). split; [exact A1|].
    destruct (release_av ks r1) as [V4 V5]. destruct (release_maps ks r1) as (V6 & _). eapply AvInv_maps; eassumption. }
  assert (RR : forall r ks, AvInv Q r -> AvInv Q (release_all r ks)).
  { intros r ks A1. destruct (release_av ks r) as [V4 V5]. destruct (release_maps ks r) as (V6 & _). eapply AvInv_maps; eassumption. }
  destruct P; cbn [upd set_ctrls set_rm set_topo set_pend cm_rm emit]; try exact A.
  - eapply AvInv_maps; [..|exact A]; reflexivity.
  - apply read_AvInv; assumption.
  - apply write_AvInv; assumption.
  - destruct (set_component_state_ok e (cm_rm m) h t Hn) as [O _]. pose proof (set_state_avok e (cm_rm m) h t Hn) as AO. eapply AvInv_step; eassumption.
  - destruct (rm_prepare_evolve e allow (cm_rm m) a d Hn) as [_ H0]. eapply AvInv_same; [exact H0|apply rm_prepare_av|exact A].
  - destruct (rm_perform_evolve e allow (cm_rm m) a d Hn) as [_ H0]. eapply AvInv_same; [exact H0|apply rm_perform_av|exact A].
  - unfold make_refs_available in H. destruct (aget (rm_refs _) n) as [ks|] eqn:E; [|discriminate]. injection H as <-.
    eapply AvInv_frame; [..|exact A]; simpl; [reflexivity| | |tauto].
    + split; simpl; [apply (av_nd _ _ A)|apply NoDup_add_items, (av_nd _ _ A)].
    + intros k Hk. rewrite In_add_items. split; [|tauto]. intros [|C]; [assumption|]. exfalso. exact (Kr n ks k E C Hk).
  - unfold make_refs_unavailable in H. destruct (aget (rm_refs _) n) as [ks|] eqn:E; [|discriminate]. injection H as <-.
    destruct (remove_items_spec ks (rm_avc (cm_rm m)) (proj2 (av_nd _ _ A))) as [S1 S2].
    eapply AvInv_frame; [..|exact A]; simpl; [reflexivity| | |tauto].
    + split; simpl; [apply (av_nd _ _ A)|exact S1].
    + intros k Hk. rewrite S2. split; [tauto|]. intros C. split; [exact C|]. intros C2. exact (Kr n ks k E C2 Hk).
  - unfold make_exps_available in H. destruct (aget (rm_exps _) n) as [ks|] eqn:E; [|discriminate]. injection H as <-.
    eapply AvInv_frame; [..|exact A]; simpl; [reflexivity| |tauto|].
    + split; simpl; [apply NoDup_add_items, (av_nd _ _ A)|apply (av_nd _ _ A)].
    + intros k Hk. rewrite In_add_items. split; [|tauto]. intros [|C]; [assumption|]. exfalso. exact (Ke n ks k E C Hk).
  - unfold make_exps_unavailable in H. destruct (aget (rm_exps _) n) as [ks|] eqn:E; [|discriminate]. injection H as <-.
    destruct (remove_items_spec ks (rm_avs (cm_rm m)) (proj1 (av_nd _ _ A))) as [S1 S2].
    eapply AvInv_frame; [..|exact A]; simpl; [reflexivity| |tauto|].
    + split; simpl; [exact S1|apply (av_nd _ _ A)].
    + intros k Hk. rewrite S2. split; [tauto|]. intros C. split; [exact C|]. intros C2. exact (Ke n ks k E C2 Hk).
  - eapply AvInv_same; [apply (proj1 (hw_same_cache n ks (cm_rm m)))|apply cache_av|exact A].
  - unfold import_refs. pose proof (add_cmd_av (c_refs c) (cm_rm m)) as [V1 V2]. pose proof (hw_same_add_cmd (c_refs c) (cm_rm m)) as [V3 _].
    destruct (add_cmd_itfs (c_refs c) (cm_rm m)) as [r1 ok]. simpl in *. destruct ok; simpl; (eapply AvInv_same; [..|exact A]; [exact V3|split; assumption]).
  - unfold import_exps. pose proof (add_state_av (c_exps c) (cm_rm m)) as [V1 V2]. pose proof (hw_same_add_state (c_exps c) (cm_rm m)) as [V3 _].
    destruct (add_state_itfs (c_exps c) (cm_rm m)) as [r1 added]. simpl in *. eapply AvInv_same; [..|exact A]; [exact V3|split; assumption].
  - destruct (remove_exps_av (cm_rm m) n) as [[V1 V2] V3]. destruct (remove_refs_av (remove_exps (cm_rm m) n) n) as [[V4 V5] V6].
    eapply AvInv_maps; [..|exact A]; congruence.
  - apply RR. exact A.
  - eapply CR; eassumption.
  - eapply CR; eassumption.
  - apply RR. eapply CR; eassumption.
  - apply RR. eapply CR; eassumption.
  - eapply (CR n c r1 None []); eassumption.
  - eapply CR; eassumption.
  - match goal with HB : build_topology m = Val m', HO : reorder _ _ = Val m'' |- _ =>
      unfold build_topology in HB; apply bind_val in HB; destruct HB as ([[s rc] sc] & _ & E); injection E as <-;
      unfold reorder in HO; apply bind_val in HO; destruct HO as (names & _ & E); injection E as <- end. exact A.
Qed.

Record WI (m : cm) : Prop := { wi_xi : XI m; wi_wf : wfr (cm_rm m); wi_av : AvInv Q (cm_rm m) }.
Lemma reach_WI hs ops m : wf_hw hs -> crun e allow (cm_start hs) ops = Val m -> WI m.
Proof.
  intros W H. eapply (crun_inv e allow WI); [|..|exact H].
  - intros x [[[A _ _] _] _ _]. apply A.
  - intros a b [A B C] P. constructor.
    + destruct A as [A1 A2]. constructor; [eapply prim_CI; eassumption|eapply prim_RX; [apply A1|eassumption|exact A2]].
    + destruct B as (N & C1 & C2). split.
      * destruct A as [[_ AR _] _]. destruct (prim_RI _ _ _ _ _ AR P) as [X _ _]. exact X.
      * rewrite hw_cmds_statics, hw_states_statics. rewrite (prim_statics _ _ _ _ _ (ci_r _ (xi_ci _ A)) P). rewrite <- hw_cmds_statics, <- hw_states_statics. split; assumption.
    + eapply prim_AvInv; [apply A|exact B|exact P|exact C].
  - constructor.
    + apply (reach_XI e allow hs [] _ W). reflexivity.
    + destruct W as [A B C]. repeat split.
      * unfold names_ok. simpl. rewrite map_name_set. exact A.
      * unfold hw_cmds. simpl. rewrite flat_map_set by reflexivity. exact B.
      * unfold hw_states. simpl. rewrite flat_map_set by reflexivity. exact C.
    + constructor.
      * split; constructor.
      * intros n h Hf Hc. rewrite (find_start_lc _ _ _ Hf) in Hc. destruct Hc; discriminate.
      * intros _ n h Hf _. split; intros k _ [].
Qed.
End R.
