(** CmKinds.v -- the interface configuration kinds are honoured (C65). *)
From Coq Require Import Lia.
From Verif Require Import Base Events HwModel RmModel RmSys RmSpec RmProofs RmInv RmAvail ChainModel CmModel CmPrim ChainSpec CmTopo CmInv CmSpec CmExcl CmReach CmLeak CmSwitch CmOutcome CmLoad CmIntact UpdateSpec CmDeact CmErr CmFallback KindsSpec.
Open Scope list_scope.

Lemma sel_names cfg av k : In k (cfg_names cfg av) -> selects cfg k.
Proof.
  destruct cfg; cbn [cfg_names selects]; auto.
  - intros H. apply filter_In in H. tauto.
  - intros H. apply in_flat_map in H. destruct H as (p & Hp & H). apply filter_In in H. exists p. tauto.
Qed.
Lemma names_sel cfg av k : selects cfg k -> In k av -> In k (cfg_names cfg av).
Proof.
  destruct cfg; cbn [cfg_names selects]; auto; try tauto.
  - intros H A. apply filter_In. split; [exact H|]. apply mem_In. exact A.
  - intros (p & Hp & H) A. apply in_flat_map. exists p. split; [exact Hp|]. apply filter_In. tauto.
Qed.
Lemma twice_dup cfg av k : selects_twice cfg k -> In k av -> ~ NoDup (cfg_names cfg av).
Proof.
  destruct cfg; cbn [cfg_names selects_twice]; try tauto. intros (a & p & b & q & d & -> & Hp & Hq) A ND.
  rewrite flat_map_app in ND. cbn [flat_map] in ND. rewrite flat_map_app in ND. cbn [flat_map] in ND.
  assert (N1 : NoDup (filter p av ++ flat_map (fun p0 => filter p0 av) b ++ filter q av ++ flat_map (fun p0 => filter p0 av) d)).
  { clear -ND. induction (flat_map (fun p0 => filter p0 av) a) as [|x l IH]; [exact ND|]. apply IH. inversion ND; assumption. }
  assert (Ip : In k (filter p av)) by (apply filter_In; tauto).
  assert (Iq : In k (filter q av)) by (apply filter_In; tauto).
  apply in_split in Ip. destruct Ip as (l1 & l2 & E). rewrite E, <- app_assoc in N1. cbn [app] in N1. apply NoDup_remove_2 in N1.
  apply N1. apply in_app_iff. right. apply in_app_iff. right. apply in_app_iff. right. apply in_app_iff. left. exact Iq.
Qed.

(** held loans are selected *)
Definition sel_ok (c : ctrl) : Prop := (forall k, In k (c_cloans c) -> selects (c_cmd c) k) /\ (forall k, In k (c_sloans c) -> selects (c_state c) k).
Definition Sel (m : cm) : Prop := forall c, In c (cm_ctrls m) -> sel_ok c.
Lemma Sel_upd m n f : Sel m -> (forall c, find_ctrl m n = Some c -> In c (cm_ctrls m) -> sel_ok (f c)) -> NI m -> Sel (upd m n f).
Proof.
  intros H Hf HN c Hc. cbn [upd set_ctrls cm_ctrls] in Hc. apply In_upd in Hc. destruct Hc as [[Hc _]|(c0 & Hc & Hn & ->)]; [apply H; exact Hc|].
  apply Hf; [|exact Hc]. rewrite <- Hn. exact (NoDup_find _ _ (proj1 HN) Hc).
Qed.
Lemma prim_Sel e allow KS m m' : NI m -> prim e allow KS m m' -> Sel m -> Sel m'.
Proof.
  intros HN P HF.
  assert (SR : forall r, Sel (set_rm m r)) by (intros r; exact HF).
  assert (RUN : forall c r1 cl, claim_all (cm_rm m) (cmd_names (cm_rm m) c) [] = Val (r1, Some cl) -> forall k, In k cl -> selects (c_cmd c) k).
  { intros c r1 cl H k Hk. apply claim_all_got in H. rewrite app_nil_l in H. subst cl. eapply sel_names. exact Hk. }
  assert (Z : forall c c', c_cloans c = [] -> c_sloans c = [] -> c' = c -> sel_ok c').
  { intros c c' E1 E2 ->. split; intros k Hk; [rewrite E1 in Hk|rewrite E2 in Hk]; destruct Hk. }
  destruct P; try (exact (SR _)).
  - apply Sel_upd; [exact HF| |exact HN]. intros c0 F Hin. exact (HF c0 Hin).
  - apply (Sel_upd (set_rm m _)); [apply SR| |exact HN]. intros c0 F Hin. split; intros k [].
  - apply (Sel_upd (set_rm m _)); [apply SR| |exact HN]. intros c0 F Hin. 
    change (find_ctrl (set_rm m (release_all r1 (c_cloans c))) n) with (find_ctrl m n) in F. assert (c0 = c) by congruence. subst.
    split; intros k Hk; cbn [set_run upd_loans upd_lc c_cloans c_cmd c_sloans c_state] in *; [eapply RUN; eassumption|eapply sel_names; exact Hk].
  - apply (Sel_upd (set_rm m _)); [apply SR| |exact HN]. intros c0 F Hin. 
    change (find_ctrl (set_rm m (release_all r1 (c_cloans c))) n) with (find_ctrl m n) in F. assert (c0 = c) by congruence. subst.
    split; intros k Hk; cbn [set_run upd_loans upd_lc c_cloans c_cmd c_sloans c_state] in *; [eapply RUN; eassumption|eapply sel_names; exact Hk].
  - apply (Sel_upd (set_rm m _)); [apply SR| |exact HN]. intros c0 F Hin. split; intros k [].
  - apply (Sel_upd (set_rm m _)); [apply SR| |exact HN]. intros c0 F Hin. split; intros k [].
  - apply Sel_upd; [exact HF| |exact HN]. intros c0 F Hin. exact (HF c0 Hin).
  - intros x Hx. cbn [set_topo set_ctrls cm_ctrls] in Hx. apply in_app_iff in Hx. destruct Hx as [Hx|[<-|[]]]; [exact (HF x Hx)|]. split; intros k [].
  - intros x Hx. cbn [set_topo set_ctrls cm_ctrls] in Hx. apply filter_In in Hx. exact (HF x (proj1 Hx)).
  - intros x Hx. match goal with HB : build_topology m = Val m' , HO : reorder _ _ = Val m'' |- _ =>
      destruct (reorder_members _ _ _ _ HN HB HO x Hx) as (c & g & Hc & ->) end. exact (HF c Hc).
  - exact HF.
  - intros x Hx. cbn [set_ctrls cm_ctrls] in Hx. apply in_map_iff in Hx. destruct Hx as (c & <- & Hc). exact (HF c Hc).
Qed.
Lemma reach_selected e allow hs ops m c : crun e allow (cm_start hs) ops = Val m -> In c (cm_ctrls m) ->
  (forall k, In k (c_cloans c) -> selects (c_cmd c) k) /\ (forall k, In k (c_sloans c) -> selects (c_state c) k).
Proof.
  intros H. assert (X : NI m /\ Sel m); [|exact (proj2 X c)].
  eapply (crun_inv e allow (fun m => NI m /\ Sel m)); [| | |exact H].
  - intros x Hx. exact (proj1 (proj1 Hx)).
  - intros a b [A B] P. split; [eapply prim_NI; eassumption|eapply prim_Sel; eassumption].
  - split; [split; [constructor|intros n []]|intros x []].
Qed.

(** ---------------------------------------------------------------- a starting controller gets everything it selects *)
Definition hwc_av (m0 m : cm) : Prop :=
  (forall k, In k (hw_cmds (cm_rm m0)) -> (In k (rm_avc (cm_rm m0)) <-> In k (rm_avc (cm_rm m)))) /\
  (forall k, In k (hw_states (cm_rm m0)) -> (In k (rm_avs (cm_rm m0)) <-> In k (rm_avs (cm_rm m)))).
Definition still (k : pk) : Prop := k = KUp \/ k = KPend.
Lemma remove_items_sub x : forall xs l, In x (remove_items l xs) -> In x l.
Proof.
  unfold remove_items. induction xs as [|y xs IH]; intros l H; cbn [fold_left] in H; [exact H|]. apply IH in H. apply In_remove1_sub in H. exact H.
Qed.
Lemma prim_hwav' e allow m m' : RI (cm_rm m) -> prim e allow still m m' -> hwc_av m m'.
Proof.
  intros HR P.
  assert (AV : forall r', av_same (cm_rm m) r' ->
    (forall k, In k (hw_cmds (cm_rm m)) -> (In k (rm_avc (cm_rm m)) <-> In k (rm_avc r'))) /\
    (forall k, In k (hw_states (cm_rm m)) -> (In k (rm_avs (cm_rm m)) <-> In k (rm_avs r')))).
  { intros r' [E1 E2]. rewrite E1, E2. split; intros k _; reflexivity. }
  assert (RL : forall ks r, av_same (cm_rm m) r -> av_same (cm_rm m) (release_all r ks)).
  { unfold release_all. induction ks as [|x ks IH]; intros r H; [exact H|]. apply IH. exact H. }
  assert (CA : forall ks r got r1 o, claim_all r ks got = Val (r1, o) -> av_same (cm_rm m) r -> av_same (cm_rm m) r1).
  { induction ks as [|x ks IH]; intros r got r1 o; cbn [claim_all]; [intros [= <- _]; auto|].
    destruct (cmd_claimed r x) as [[]|]; [intros [= <- _] H; apply RL; exact H| |discriminate].
    unfold claim_cmd. destruct (cmd_available r x); [|intros [= <- _] H; apply RL; exact H].
    destruct (aget (rm_claimed r) x) as [[]|]; try (intros [= <- _] H; apply RL; exact H).
    destruct (mem x (rm_ckeys r)); [intros H K; eapply IH; [exact H|exact K]|intros [= <- _] H; apply RL; exact H]. }
  assert (A0 : av_same (cm_rm m) (cm_rm m)) by (split; reflexivity).
  destruct P; unfold hwc_av; try (exfalso; match goal with H : still _ |- _ => destruct H; discriminate end);
    try (apply AV; exact A0); try (apply AV; split; reflexivity); cbn [set_rm cm_rm upd set_ctrls];
    try (apply AV; repeat apply RL; try exact A0; eapply CA; [eassumption|exact A0]).
  - apply AV. apply rm_prepare_av.
  - apply AV. apply rm_perform_av.
  - unfold make_refs_available in *. destruct (aget (rm_refs (cm_rm m)) n) as [ks|] eqn:Er; [|discriminate].
    match goal with H : Some _ = Some r |- _ => injection H as <- end. cbn [with_av rm_avc rm_avs].
    split; intros k Hk; [|reflexivity]. rewrite In_add_items. split; [tauto|]. intros [H|C]; [exact H|]. elim (ki_refs _ (i_k _ HR) _ _ _ Er C Hk).
  - unfold make_refs_unavailable in *. destruct (aget (rm_refs (cm_rm m)) n) as [ks|] eqn:Er; [|discriminate].
    match goal with H : Some _ = Some r |- _ => injection H as <- end. cbn [with_av rm_avc rm_avs].
    split; intros k Hk; [|reflexivity]. split; [|apply remove_items_sub].
    intros H. apply remove_items_keep; [|exact H]. intros C. exact (ki_refs _ (i_k _ HR) _ _ _ Er C Hk).
  - unfold make_exps_available in *. destruct (aget (rm_exps (cm_rm m)) n) as [ks|] eqn:Er; [|discriminate].
    match goal with H : Some _ = Some r |- _ => injection H as <- end. cbn [with_av rm_avc rm_avs].
    split; intros k Hk; [reflexivity|]. rewrite In_add_items. split; [tauto|]. intros [H|C]; [exact H|]. elim (ki_exps _ (i_k _ HR) _ _ _ Er C Hk).
  - unfold make_exps_unavailable in *. destruct (aget (rm_exps (cm_rm m)) n) as [ks|] eqn:Er; [|discriminate].
    match goal with H : Some _ = Some r |- _ => injection H as <- end. cbn [with_av rm_avc rm_avs].
    split; intros k Hk; [reflexivity|]. split; [|apply remove_items_sub].
    intros H. apply remove_items_keep; [|exact H]. intros C. exact (ki_exps _ (i_k _ HR) _ _ _ Er C Hk).
  - apply AV. unfold cache_controller. clear.
    assert (X : forall l r, av_same (cm_rm m) r -> av_same (cm_rm m) (fold_left (cache_one n) l r)).
    { induction l as [|x l IH]; intros r H; [exact H|]. cbn [fold_left]. apply IH. unfold cache_one. destruct (find _ (rm_hw r)); exact H. }
    apply X. split; reflexivity.
  - apply AV. apply RL. exact A0.
Qed.
Lemma claim_all_avc : forall ks r got r1 cl, claim_all r ks got = Val (r1, Some cl) -> forall k, In k ks -> In k (rm_avc r).
Proof.
  induction ks as [|x ks IH]; intros r got r1 cl; cbn [claim_all]; [intros _ k []|].
  destruct (cmd_claimed r x) as [[]|] eqn:EC; [discriminate| |discriminate].
  unfold claim_cmd. destruct (cmd_available r x) eqn:EA; [|discriminate].
  destruct (aget (rm_claimed r) x) as [[]|] eqn:E; try discriminate.
  destruct (mem x (rm_ckeys r)); [|discriminate]. intros H k [<-|Hk].
  - unfold cmd_available in EA. apply mem_In. exact EA.
  - exact (IH _ _ _ _ H k Hk).
Qed.
Lemma claim_all_avs : forall ks r got r1 o, claim_all r ks got = Val (r1, o) -> rm_avs r1 = rm_avs r.
Proof.
  assert (RL : forall ks r, rm_avs (release_all r ks) = rm_avs r).
  { unfold release_all. induction ks as [|x ks IH]; intros r; [reflexivity|]. cbn [fold_left]. rewrite IH. reflexivity. }
  induction ks as [|x ks IH]; intros r got r1 o; cbn [claim_all]; [intros [= <- _]; auto|].
  destruct (cmd_claimed r x) as [[]|]; [intros [= <- _]; rewrite RL; reflexivity| |discriminate].
  unfold claim_cmd. destruct (cmd_available r x); [|intros [= <- _]; rewrite RL; reflexivity].
  destruct (aget (rm_claimed r) x) as [[]|]; try (intros [= <- _]; rewrite RL; reflexivity).
  destruct (mem x (rm_ckeys r)); [intros H; apply IH in H; exact H|intros [= <- _]; rewrite RL; reflexivity].
Qed.

(** what a controller that runs holds, relative to the state [m0] in which the operation began *)
Definition gets (m0 : cm) (c : ctrl) : Prop := c_lc c = Active ->
  (forall k, selects (c_cmd c) k -> In k (hw_cmds (cm_rm m0)) -> In k (rm_avc (cm_rm m0)) -> In k (c_cloans c)) /\
  (forall k, selects (c_state c) k -> In k (hw_states (cm_rm m0)) -> In k (rm_avs (cm_rm m0)) -> In k (c_sloans c)) /\
  (forall k, In k (hw_cmds (cm_rm m0)) -> In k (rm_avc (cm_rm m0)) -> ~ selects_twice (c_cmd c) k) /\
  (forall k, In k (c_cloans c) -> In k (hw_cmds (cm_rm m0)) -> In k (rm_avc (cm_rm m0))) /\
  (forall k, In k (c_sloans c) -> In k (hw_states (cm_rm m0)) -> In k (rm_avs (cm_rm m0))).
Definition Gets (m0 : cm) (n : name) (m : cm) : Prop := forall c, In c (cm_ctrls m) -> c_name c = n -> gets m0 c.

Lemma prim_Gets e allow m0 n m m' : (forall t, e_ctrl e t n CDeactivate <> CbFailure) -> NI m -> hwc_av m0 m ->
  Gets m0 n m -> prim e allow still m m' -> Gets m0 n m'.
Proof.
  intros HE HN [HA HS] HL P. pose proof (proj1 HN) as ND.
  assert (U : forall n0 f, (forall c, In c (cm_ctrls m) -> c_name c = n0 -> n0 = n -> gets m0 (f c)) ->
     (forall c, c_name (f c) = c_name c) ->
     forall c, In c (upd_in (cm_ctrls m) n0 f) -> c_name c = n -> gets m0 c).
  { intros n0 f Hf Hn c Hc Hcn. apply In_upd in Hc. destruct Hc as [[Hc _]|(c0 & Hc & Hc0 & ->)]; [apply HL; assumption|].
    apply Hf; [exact Hc|exact Hc0|]. rewrite <- Hcn, Hn. symmetry. exact Hc0. }
  assert (CL : forall c r1 cl, claim_all (cm_rm m) (cmd_names (cm_rm m) c) [] = Val (r1, Some cl) -> forallb (claim_state r1) (state_names r1 c) = true ->
    (forall k, selects (c_cmd c) k -> In k (hw_cmds (cm_rm m0)) -> In k (rm_avc (cm_rm m0)) -> In k cl) /\
    (forall k, selects (c_state c) k -> In k (hw_states (cm_rm m0)) -> In k (rm_avs (cm_rm m0)) -> In k (state_names r1 c)) /\
    (forall k, In k (hw_cmds (cm_rm m0)) -> In k (rm_avc (cm_rm m0)) -> ~ selects_twice (c_cmd c) k) /\
    (forall k, In k cl -> In k (hw_cmds (cm_rm m0)) -> In k (rm_avc (cm_rm m0))) /\
    (forall k, In k (state_names r1 c) -> In k (hw_states (cm_rm m0)) -> In k (rm_avs (cm_rm m0)))).
  { intros c r1 cl H FS. pose proof (claim_all_avc _ _ _ _ _ H) as AC. pose proof (claim_all_got _ _ _ _ _ H) as G. rewrite app_nil_l in G. pose proof (claim_all_avs _ _ _ _ _ H) as E.
    apply claim_all_some in H. destruct H as (N & _ & _). subst cl. split; [|split; [|split; [|split]]].
    - intros k S K1 K2. apply names_sel; [exact S|apply HA; assumption].
    - intros k S K1 K2. unfold state_names. rewrite E. apply names_sel; [exact S|apply HS; assumption].
    - intros k K1 K2 T. exact (twice_dup _ _ _ T (proj1 (HA k K1) K2) N).
    - intros k K1 K2. apply (HA k K2). apply AC. exact K1.
    - intros k K1 K2. apply (HS k K2). rewrite <- E. rewrite forallb_forall in FS. specialize (FS k K1). unfold claim_state, state_available in FS.
      apply andb_prop in FS. apply mem_In. exact (proj1 FS). }
  destruct P; unfold Gets; try (exfalso; match goal with H : still _ |- _ => destruct H; discriminate end); try exact HL; try (apply U; [|reflexivity]; intros c0 Hc0 Hn0 En).
  - intros A. cbn [upd_lc c_lc] in A. contradiction.
  - intros A. cbn [set_stop upd_lc c_lc] in A. match goal with H : Active = Active -> _ |- _ => idtac | H : l = Active -> _ |- _ => destruct (H A) as (_ & t & Ht) end. subst n. exfalso. exact (HE t Ht).
  - assert (c0 = c) by (eapply find_same; eassumption). subst c0. intros _. cbn [set_run upd_lc upd_loans c_cmd c_cloans c_state c_sloans].
    eapply CL; eassumption.
  - assert (c0 = c) by (eapply find_same; eassumption). subst c0. intros _. cbn [set_run upd_lc upd_loans c_cmd c_cloans c_state c_sloans].
    eapply CL; eassumption.
  - intros A. cbn [set_stop upd_lc c_lc] in A. contradiction.
  - intros A. cbn [upd_loans c_lc] in A. assert (c0 = c) by (eapply find_same; eassumption). subst c0. contradiction.
  - intros A. exact (HL c0 Hc0 (eq_trans Hn0 En) A).
  - intros c0 Hc Hcn. cbn [set_ctrls cm_ctrls] in Hc. apply in_map_iff in Hc. destruct Hc as (c & <- & Hin). exact (HL c Hin Hcn).
Qed.
Lemma steps_Gets e allow m0 n m m' : (forall t, e_ctrl e t n CDeactivate <> CbFailure) -> CI m -> hwc_av m0 m -> statics (cm_rm m) = statics (cm_rm m0) ->
  Gets m0 n m -> steps e allow still m m' -> Gets m0 n m'.
Proof.
  intros HE HC HA HS HG S.
  assert (X : CI m' /\ hwc_av m0 m' /\ statics (cm_rm m') = statics (cm_rm m0) /\ Gets m0 n m'); [|tauto].
  induction S as [|m1 m2 S IH P]; [tauto|]. destruct IH as (C1 & A1 & S1 & G1).
  split; [eapply prim_CI; eassumption|]. split; [|split].
  - destruct (prim_hwav' _ _ _ _ (ci_r _ C1) P) as [B1 B2]. destruct A1 as [A1 A2]. split; intros k K1.
    + rewrite (A1 k K1). apply B1. rewrite hw_cmds_statics, S1, <- hw_cmds_statics. exact K1.
    + rewrite (A2 k K1). apply B2. rewrite hw_states_statics, S1, <- hw_states_statics. exact K1.
  - rewrite (prim_statics _ _ _ _ _ (ci_r _ C1) P). exact S1.
  - eapply prim_Gets; [exact HE|exact (ci_n _ C1)|exact A1|exact G1|exact P].
Qed.


Lemma starts_quiet e allow m o m' out : NI m -> o <> CPerform -> o <> CUpdate -> cstep e allow m o = Val (m', out) -> steps e allow no_up m m'.
Proof.
  intros HN N1 N2. pose proof (proj1 HN) as ND. unfold cstep. set (m0 := emit m EvOp).
  assert (S0 : steps e allow no_up m m0) by (apply emit_step; reflexivity).
  assert (SV : forall x, (x = Val (m', out) -> steps e allow no_up m0 m') -> serviced m0 x = Val (m', out) -> steps e allow no_up m m').
  { intros x Hx H. unfold serviced in H. destruct (cm_pend m0); [injection H as <- <-; exact S0|].
    eapply steps_trans; [exact S0|apply Hx; exact H]. }
  destruct o; try (elim N1; reflexivity); try (elim N2; reflexivity).
  - apply SV. intros [= <- <-]. apply load_steps. discriminate.
  - apply SV. intros [= <- <-]. apply unload_steps; [discriminate|discriminate|exact ND].
  - apply SV. intros [= <- <-]. apply cleanup_controller_steps. discriminate.
  - apply SV. intros H. apply bind_val in H. destruct H as ([m1 b] & H & H1). injection H1 as <- <-.
    eapply configure_steps; [..|exact H]; discriminate.
  - apply SV. intros H. apply bind_val in H. destruct H as ([m1 b] & H & H1). injection H1 as <- <-.
    apply (request_steps e allow no_up) in H. destruct H as (r & S & [[-> _]|(p & -> & _)]); [exact S|].
    eapply s_one; [exact S|]. apply p_pend. discriminate.
  - destruct (cm_pend m0) as [p|]; [|intros [= <- <-]; exact S0].
    destruct (p_done p); intros [= <- <-]; [exact S0|]. eapply s_one; [exact S0|apply p_pend; discriminate].
  - destruct (cm_pend m0) as [p|]; [|intros [= <- <-]; exact S0].
    destruct (p_done p); intros [= <- <-]; [|exact S0].
    eapply steps_trans; [exact S0|]. apply (evaluate_steps e allow no_up ltac:(discriminate) m0 p).
  - intros [= <- <-]. eapply steps_trans; [exact S0|apply read_steps; discriminate].
  - intros [= <- <-]. eapply steps_trans; [exact S0|apply write_steps; discriminate].
  - assert (kh : no_up KHw) by discriminate. pose proof (p_sethw e allow no_up m0 h target kh) as K. destruct (set_component_state e (cm_rm m0) h target) as [r1 ok].
    intros [= <- <-]. eapply s_one; [exact S0|exact K].
Qed.
Lemma starts_still e allow m o m' out : NI m -> o = CPerform \/ o = CUpdate -> cstep e allow m o = Val (m', out) -> steps e allow still m m'.
Proof.
  intros HN HO. pose proof (proj1 HN) as ND. unfold cstep. set (m0 := emit m EvOp).
  assert (S0 : steps e allow still m m0) by (apply emit_step; reflexivity).
  assert (KU : still KUp) by (left; reflexivity). assert (KP : still KPend) by (right; reflexivity).
  destruct HO as [->| ->].
  - destruct (cm_pend m0) as [p|]; [|intros [= <- <-]; exact S0].
    destruct (p_done p); [intros [= <- <-]; exact S0|].
    intros H. apply bind_val in H. destruct H as (m1 & H & H1). injection H1 as <- <-.
    apply (manage_switch_steps e allow still KU) in H. eapply s_one; [eapply steps_trans; [exact S0|exact H]|]. apply p_pend. exact KP.
  - intros H. apply bind_val in H. destruct H as (m1 & H & H1). injection H1 as <- <-.
    eapply steps_trans; [exact S0|eapply update_steps; [..|exact H]]; exact KU.
Qed.
Lemma reach_gets e allow hs ops m o m' out c : wf_hw hs -> crun e allow (cm_start hs) ops = Val m -> cstep e allow m o = Val (m', out) ->
  (forall t, e_ctrl e t (c_name c) CDeactivate <> CbFailure) ->
  state_in m (c_name c) <> Some Active -> In c (cm_ctrls m') -> gets m c.
Proof.
  intros W R H HE NA Hc A. pose proof (reach_CI _ _ _ _ _ W R) as HC. pose proof (ci_n _ HC) as HN.
  assert (D : (o = CPerform \/ o = CUpdate) \/ (o <> CPerform /\ o <> CUpdate)).
  { destruct o; try (right; split; discriminate); left; [left|right]; reflexivity. }
  destruct D as [D|[D1 D2]].
  - pose proof (starts_still _ _ _ _ _ _ HN D H) as S.
    refine (steps_Gets e allow m (c_name c) m m' HE HC _ eq_refl _ S c Hc eq_refl A); [split; intros; reflexivity|].
    intros x Hx En Ax. exfalso. apply NA. rewrite <- En. unfold state_in, find_ctrl. rewrite (NoDup_find _ _ (proj1 HN) Hx). rewrite <- Ax. reflexivity.
  - pose proof (starts_quiet _ _ _ _ _ _ HN D1 D2 H) as S.
    destruct (steps_na e allow no_up m m' ltac:(intros C; apply C; reflexivity) HN S) as [_ K].
    destruct (K c Hc A) as (c0 & H0 & (En & _) & A0). exfalso. apply NA. rewrite En. unfold state_in, find_ctrl. rewrite (NoDup_find _ _ (proj1 HN) H0). rewrite <- A0. reflexivity.
Qed.
