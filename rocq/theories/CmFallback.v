(** CmFallback.v -- plain fallback controllers of a failing controller become active (C25). *)
From Coq Require Import Lia.
From Verif Require Import Base Events HwModel RmModel RmSys RmSpec RmProofs RmInv RmAvail ChainModel CmModel CmPrim ChainSpec CmTopo CmInv CmSpec CmExcl CmReach CmLeak CmSwitch CmOutcome CmLoad CmIntact UpdateSpec CmDeact CmErr. 
From Verif Require RmWitness.

(** ---------------------------------------------------------------- loans come from the configuration *)
Definition fits (c : ctrl) : Prop := forall k, In k (c_cloans c) -> In k (cfg_names (c_cmd c) [k]).
Definition Fit (m : cm) : Prop := forall c, In c (cm_ctrls m) -> fits c.
Lemma cfg_one cfg av k : In k (cfg_names cfg av) -> In k (cfg_names cfg [k]).
Proof.
  destruct cfg; cbn [cfg_names]; auto.
  - intros _. left. reflexivity.
  - intros H. apply filter_In in H. apply filter_In. split; [tauto|]. apply mem_In. left. reflexivity.
  - intros H. apply in_flat_map in H. destruct H as (p & Hp & H). apply filter_In in H. apply in_flat_map. exists p. split; [exact Hp|].
    cbn [filter]. destruct H as [_ ->]. left. reflexivity.
Qed.
Lemma cfg_any cfg av k : In k (cfg_names cfg [k]) -> In k av -> In k (cfg_names cfg av).
Proof.
  destruct cfg; cbn [cfg_names]; auto.
  - intros H A. apply filter_In in H. apply filter_In. split; [tauto|]. apply mem_In. exact A.
  - intros H A. apply in_flat_map in H. destruct H as (p & Hp & H). apply in_flat_map. exists p. split; [exact Hp|].
    apply filter_In in H. apply filter_In. tauto.
Qed.
Lemma Fit_upd m n f : Fit m -> (forall c, find_ctrl m n = Some c -> In c (cm_ctrls m) -> fits (f c)) -> NI m -> Fit (upd m n f).
Proof.
  intros H Hf HN c Hc. cbn [upd set_ctrls cm_ctrls] in Hc. apply In_upd in Hc. destruct Hc as [[Hc _]|(c0 & Hc & Hn & ->)]; [apply H; exact Hc|].
  apply Hf; [|exact Hc]. rewrite <- Hn. exact (NoDup_find _ _ (proj1 HN) Hc).
Qed.
Lemma prim_Fit e allow KS m m' : NI m -> prim e allow KS m m' -> Fit m -> Fit m'.
Proof.
  intros HN P HF.
  assert (SR : forall r, Fit (set_rm m r)) by (intros r; exact HF).
  assert (RUN : forall c r1 cl, claim_all (cm_rm m) (cmd_names (cm_rm m) c) [] = Val (r1, Some cl) -> forall k, In k cl -> In k (cfg_names (c_cmd c) [k])).
  { intros c r1 cl H k Hk. apply claim_all_got in H. rewrite app_nil_l in H. subst cl. eapply cfg_one. exact Hk. }
  destruct P; try (exact (SR _)).
  - apply Fit_upd; [exact HF| |exact HN]. intros c0 F Hin. exact (HF c0 Hin).
  - apply (Fit_upd (set_rm m _)); [apply SR| |exact HN]. intros c0 F Hin k [].
  - apply (Fit_upd (set_rm m _)); [apply SR| |exact HN]. intros c0 F Hin k Hk. cbn [set_run upd_loans upd_lc c_cloans c_cmd] in *.
    change (find_ctrl (set_rm m (release_all r1 (c_cloans c))) n) with (find_ctrl m n) in F. assert (c0 = c) by congruence. subst.
    eapply RUN; eassumption.
  - apply (Fit_upd (set_rm m _)); [apply SR| |exact HN]. intros c0 F Hin k Hk. cbn [set_run upd_loans upd_lc c_cloans c_cmd] in *.
    change (find_ctrl (set_rm m (release_all r1 (c_cloans c))) n) with (find_ctrl m n) in F. assert (c0 = c) by congruence. subst.
    eapply RUN; eassumption.
  - apply (Fit_upd (set_rm m _)); [apply SR| |exact HN]. intros c0 F Hin k [].
  - apply (Fit_upd (set_rm m _)); [apply SR| |exact HN]. intros c0 F Hin k [].
  - apply Fit_upd; [exact HF| |exact HN]. intros c0 F Hin. exact (HF c0 Hin).
  - intros x Hx. cbn [set_topo set_ctrls cm_ctrls] in Hx. apply in_app_iff in Hx. destruct Hx as [Hx|[<-|[]]]; [exact (HF x Hx)|]. intros k [].
  - intros x Hx. cbn [set_topo set_ctrls cm_ctrls] in Hx. apply filter_In in Hx. exact (HF x (proj1 Hx)).
  - intros x Hx. match goal with HB : build_topology m = Val m' , HO : reorder _ _ = Val m'' |- _ =>
      destruct (reorder_members _ _ _ _ HN HB HO x Hx) as (c & g & Hc & ->) end. exact (HF c Hc).
  - exact HF.
  - intros x Hx. cbn [set_ctrls cm_ctrls] in Hx. apply in_map_iff in Hx. destruct Hx as (c & <- & Hc). exact (HF c Hc).
Qed.

(** ---------------------------------------------------------------- a claim flag exists for every hardware interface *)
Definition Known (k : name) (r : rm) : Prop := aget (rm_claimed r) k <> None.
Lemma claim_all_known k : forall ks r got r1 o, claim_all r ks got = Val (r1, o) -> Known k r -> Known k r1.
Proof.
  assert (R : forall r got, Known k r -> Known k (release_all r got)).
  { intros r got H. unfold Known. rewrite release_claimed. destruct (mem k got); [discriminate|exact H]. }
  induction ks as [|x ks IH]; intros r got r1 o; cbn [claim_all]; [intros [= <- _]; auto|].
  destruct (cmd_claimed r x) as [[]|]; [intros [= <- _]; apply R| |discriminate].
  unfold claim_cmd. destruct (cmd_available r x); [|intros [= <- _]; apply R].
  destruct (aget (rm_claimed r) x) as [[]|] eqn:E; try (intros [= <- _]; apply R).
  assert (W : Known k r -> Known k (with_claimed r (aset (rm_claimed r) x true))).
  { unfold Known. cbn [with_claimed rm_claimed]. rewrite aget_aset. destruct (String.eqb k x); [discriminate|auto]. }
  destruct (mem x (rm_ckeys r)); [intros H K; eapply IH; [exact H|apply W; exact K]|intros [= <- _] K; apply R; apply W; exact K].
Qed.
Lemma add_cmd_known k ks : forall r, Known k r -> Known k (fst (add_cmd_itfs ks r)).
Proof.
  induction ks as [|x ks IH]; intros r H; cbn [add_cmd_itfs fst]; [exact H|]. destruct (mem x (rm_ckeys r)); [exact H|].
  apply IH. unfold Known in *. cbn [with_cmap rm_claimed]. destruct (aget (rm_claimed r) x) eqn:E; [exact H|].
  rewrite aget_aset. destruct (String.eqb k x); [discriminate|exact H].
Qed.
Lemma prim_Known e allow KS m m' k : NI m -> RI (cm_rm m) -> In k (hw_cmds (cm_rm m)) -> prim e allow KS m m' -> Known k (cm_rm m) -> Known k (cm_rm m').
Proof.
  intros HN HR Hk P HK.
  assert (CS : forall r', rm_claimed r' = rm_claimed (cm_rm m) -> Known k r') by (intros r' E; unfold Known; rewrite E; exact HK).
  assert (EV : forall r', evolve (cm_rm m) r' -> Known k r') by (intros r' E; apply CS; apply (ev_claimed _ _ E)).
  assert (RL : forall r ks, Known k r -> Known k (release_all r ks)).
  { intros r ks H. unfold Known. rewrite release_claimed. destruct (mem k ks); [discriminate|exact H]. }
  destruct P; try exact HK; cbn [set_rm cm_rm upd set_ctrls].
  - apply EV. apply rm_read_evolve. apply HR.
  - apply EV. apply rm_write_evolve. apply HR.
  - destruct (set_component_state_ok e (cm_rm m) h t (i_names _ HR)) as [[E _ _] _]. apply EV. exact E.
  - destruct (rm_prepare_evolve e allow (cm_rm m) a d (i_names _ HR)) as [E _]. apply EV. exact E.
  - destruct (rm_perform_evolve e allow (cm_rm m) a d (i_names _ HR)) as [E _]. apply EV. exact E.
  - apply CS. eapply refs_av_maps; eassumption.
  - apply CS. eapply refs_un_maps; eassumption.
  - apply CS. eapply exps_av_maps; eassumption.
  - apply CS. eapply exps_un_maps; eassumption.
  - apply CS. apply claimed_same_cache.
  - unfold import_refs. pose proof (add_cmd_known k (c_refs c) _ HK) as K. destruct (add_cmd_itfs _ _) as [r1 []]; exact K.
  - apply CS. apply claimed_same_import_exps.
  - unfold Known. rewrite remove_refs_claimed; [exact HK|apply HR|exact Hk].
  - apply RL. exact HK.
  - apply RL. eapply claim_all_known; eassumption.
  - apply RL. eapply claim_all_known; eassumption.
  - apply RL. apply RL. eapply claim_all_known; eassumption.
  - apply RL. apply RL. eapply claim_all_known; eassumption.
  - eapply claim_all_known; eassumption.
  - apply RL. eapply claim_all_known; eassumption.
  - match goal with HB : build_topology m = Val m' , HO : reorder _ _ = Val m'' |- _ =>
      destruct (build_topology_spec m m' (proj2 HN) HB) as (s & rc & sc & Em & K & _); subst m';
      assert (H' : NI (set_topo m s rc sc)) by (split; [exact (proj1 HN)|]; intros x Hx; apply K; apply (proj2 HN); exact Hx);
      destruct (reorder_spec _ _ _ H' HO) as (names & L & _ & Em & _ & PM & _); subst m'' end. exact HK.
Qed.

(** ---------------------------------------------------------------- the reachable states *)
Record FI (m : cm) : Prop := { fi_ci : CI m; fi_fit : Fit m; fi_hw : forall k, In k (hw_cmds (cm_rm m)) -> KI k m /\ Known k (cm_rm m) }.
Lemma prim_FI e allow KS m m' : prim e allow KS m m' -> FI m -> FI m'.
Proof.
  intros P [A B C]. constructor.
  - eapply prim_CI; eassumption.
  - eapply prim_Fit; [apply A|exact P|exact B].
  - intros k Hk. assert (Hk' : In k (hw_cmds (cm_rm m))).
    { rewrite hw_cmds_statics, <- (prim_statics _ _ _ _ _ (ci_r _ A) P), <- hw_cmds_statics. exact Hk. }
    destruct (C k Hk') as [K1 K2]. split; [eapply prim_KI; eassumption|eapply prim_Known; [apply A|apply A|exact Hk'|exact P|exact K2]].
Qed.
Lemma steps_FI e allow KS m m' : steps e allow KS m m' -> FI m -> FI m'.
Proof. intros S H. eapply (steps_inv e allow KS FI); [|exact H|exact S]. intros a b Ha P. eapply prim_FI; eassumption. Qed.
Lemma start_FI hs : wf_hw hs -> FI (cm_start hs).
Proof.
  intros W. constructor; [apply start_CI; exact W|intros c []|].
  intros k Hk. assert (Hk' : In k (flat_map h_cmd hs)).
  { unfold hw_cmds in Hk. simpl in Hk. rewrite flat_map_set in Hk by reflexivity. exact Hk. }
  split.
  - apply (reach_KI RmWitness.env_ok true hs [] (cm_start hs) k W Hk'). reflexivity.
  - unfold Known, cm_start. cbn [cm_rm]. unfold rm_start. cbn [rm_claimed]. clear -Hk'. revert Hk'. generalize (flat_map h_cmd hs). intros l.
    induction l as [|x l IH]; [intros []|]. cbn [map aget]. intros H. destruct (String.eqb_spec k x) as [->|Ne]; [discriminate|].
    apply IH. destruct H as [H|H]; [congruence|exact H].
Qed.
Lemma reach_FI e allow hs ops m : wf_hw hs -> crun e allow (cm_start hs) ops = Val m -> FI m.
Proof.
  intros W H. eapply (crun_inv e allow FI); [intros x Hx; exact (proj1 (ci_n _ (fi_ci _ Hx)))|intros a b Ha P; eapply prim_FI; eassumption|apply start_FI; exact W|exact H].
Qed.

(** ---------------------------------------------------------------- availability of hardware interfaces *)
Lemma remove_items_keep x xs : ~ In x xs -> forall l, In x l -> In x (remove_items l xs).
Proof.
  unfold remove_items. induction xs as [|y xs IH]; intros N l H; cbn [fold_left]; [exact H|].
  apply IH; [intros C; apply N; right; exact C|]. apply In_remove1_neq; [intros C; apply N; left; congruence|exact H].
Qed.
Definition calm (k : pk) : Prop := False.
Lemma prim_hwav e allow m m' : RI (cm_rm m) -> prim e allow calm m m' ->
  (forall k, In k (hw_cmds (cm_rm m)) -> In k (rm_avc (cm_rm m)) -> In k (rm_avc (cm_rm m'))) /\
  (forall k, In k (hw_states (cm_rm m)) -> In k (rm_avs (cm_rm m)) -> In k (rm_avs (cm_rm m'))).
Proof.
  intros HR P.
  assert (AV : forall r', av_same (cm_rm m) r' ->
    (forall k, In k (hw_cmds (cm_rm m)) -> In k (rm_avc (cm_rm m)) -> In k (rm_avc r')) /\
    (forall k, In k (hw_states (cm_rm m)) -> In k (rm_avs (cm_rm m)) -> In k (rm_avs r'))).
  { intros r' [E1 E2]. rewrite E1, E2. split; intros k _ H; exact H. }
  assert (RL : forall ks r, av_same (cm_rm m) r -> av_same (cm_rm m) (release_all r ks)).
  { unfold release_all. induction ks as [|x ks IH]; intros r H; [exact H|]. apply IH. exact H. }
  assert (CA : forall ks r got r1 o, claim_all r ks got = Val (r1, o) -> av_same (cm_rm m) r -> av_same (cm_rm m) r1).
  { induction ks as [|x ks IH]; intros r got r1 o; cbn [claim_all]; [intros [= <- _]; auto|].
    destruct (cmd_claimed r x) as [[]|]; [intros [= <- _] H; apply RL; exact H| |discriminate].
    unfold claim_cmd. destruct (cmd_available r x); [|intros [= <- _] H; apply RL; exact H].
    destruct (aget (rm_claimed r) x) as [[]|]; try (intros [= <- _] H; apply RL; exact H).
    destruct (mem x (rm_ckeys r)); [intros H K; eapply IH; [exact H|exact K]|intros [= <- _] H; apply RL; exact H]. }
  assert (A0 : av_same (cm_rm m) (cm_rm m)) by (split; reflexivity).
  destruct P; try (exfalso; match goal with H : calm _ |- _ => exact H end);
    try (apply AV; exact A0); try (apply AV; split; reflexivity); cbn [set_rm cm_rm upd set_ctrls];
    try (apply AV; repeat apply RL; try exact A0; eapply CA; [eassumption|exact A0]).
  - apply AV. apply rm_prepare_av.
  - apply AV. apply rm_perform_av.
  - unfold make_refs_available in *. destruct (aget (rm_refs (cm_rm m)) n) as [ks|]; [|discriminate].
    match goal with H : Some _ = Some r |- _ => injection H as <- end. cbn [with_av rm_avc rm_avs].
    split; intros k _ H; [|exact H]. apply In_add_items. left. exact H.
  - unfold make_refs_unavailable in *. destruct (aget (rm_refs (cm_rm m)) n) as [ks|] eqn:Er; [|discriminate].
    match goal with H : Some _ = Some r |- _ => injection H as <- end. cbn [with_av rm_avc rm_avs].
    split; intros k Hk H; [|exact H]. apply remove_items_keep; [|exact H]. intros C. exact (ki_refs _ (i_k _ HR) _ _ _ Er C Hk).
  - unfold make_exps_available in *. destruct (aget (rm_exps (cm_rm m)) n) as [ks|]; [|discriminate].
    match goal with H : Some _ = Some r |- _ => injection H as <- end. cbn [with_av rm_avc rm_avs].
    split; intros k _ H; [exact H|]. apply In_add_items. left. exact H.
  - unfold make_exps_unavailable in *. destruct (aget (rm_exps (cm_rm m)) n) as [ks|] eqn:Er; [|discriminate].
    match goal with H : Some _ = Some r |- _ => injection H as <- end. cbn [with_av rm_avc rm_avs].
    split; intros k Hk H; [exact H|]. apply remove_items_keep; [|exact H]. intros C. exact (ki_exps _ (i_k _ HR) _ _ _ Er C Hk).
  - apply AV. unfold cache_controller. clear.
    assert (X : forall l r, av_same (cm_rm m) r -> av_same (cm_rm m) (fold_left (cache_one n) l r)).
    { induction l as [|x l IH]; intros r H; [exact H|]. cbn [fold_left]. apply IH. unfold cache_one. destruct (find _ (rm_hw r)); exact H. }
    apply X. split; reflexivity.
  - apply AV. apply RL. exact A0.
Qed.
Lemma steps_hwav e allow m m' : FI m -> steps e allow calm m m' -> 
  (forall k, In k (hw_cmds (cm_rm m)) -> In k (rm_avc (cm_rm m)) -> In k (rm_avc (cm_rm m'))) /\
  (forall k, In k (hw_states (cm_rm m)) -> In k (rm_avs (cm_rm m)) -> In k (rm_avs (cm_rm m'))) /\
  statics (cm_rm m') = statics (cm_rm m).
Proof.
  intros HF S. revert HF. induction S as [|m1 m2 S IH P]; intros HF; [auto|]. destruct (IH HF) as (A & B & C).
  pose proof (steps_FI _ _ _ _ _ S HF) as F1. pose proof (ci_r _ (fi_ci _ F1)) as R1. destruct (prim_hwav _ _ _ _ R1 P) as [A1 B1].
  split; [|split].
  - intros k Hk H. apply A1; [|apply A; assumption]. rewrite hw_cmds_statics, C, <- hw_cmds_statics. exact Hk.
  - intros k Hk H. apply B1; [|apply B; assumption]. rewrite hw_states_statics, C, <- hw_states_statics. exact Hk.
  - rewrite (prim_statics _ _ _ _ _ R1 P). exact C.
Qed.

(** ---------------------------------------------------------------- who is deactivated for the fallbacks *)
Lemma users_mono m f : forall acc x, In x acc -> In x (users_of m f acc).
Proof.
  unfold users_of. destruct (find_ctrl m f) as [fc|]; [|auto]. generalize (cmd_names (cm_rm m) fc) as ks.
  assert (I : forall k l acc x, In x acc -> In x (fold_left (fun acc c => if is_lc Active c && mem k (cmd_names (cm_rm m) c) then add_item acc (c_name c) else acc) l acc)).
  { intros k. induction l as [|c l IH]; intros acc x H; [exact H|]. cbn [fold_left]. apply IH. destruct (_ && _); [apply In_add_item; right|]; exact H. }
  induction ks as [|k ks IH]; intros acc x H; [exact H|]. cbn [fold_left]. apply IH. apply I. exact H.
Qed.
Lemma users_In m f fc k c : find_ctrl m f = Some fc -> In k (cmd_names (cm_rm m) fc) -> In c (cm_ctrls m) -> c_lc c = Active ->
  In k (cmd_names (cm_rm m) c) -> forall acc, In (c_name c) (users_of m f acc).
Proof.
  intros F Hk Hc L Hkc. unfold users_of. rewrite F. revert Hk. generalize (cmd_names (cm_rm m) fc) as ks.
  assert (I : forall k l acc x, In x acc -> In x (fold_left (fun acc c => if is_lc Active c && mem k (cmd_names (cm_rm m) c) then add_item acc (c_name c) else acc) l acc)).
  { intros k0. induction l as [|c0 l IH]; intros acc x H; [exact H|]. cbn [fold_left]. apply IH. destruct (_ && _); [apply In_add_item; right|]; exact H. }
  assert (J : forall l acc, In c l -> In (c_name c) (fold_left (fun acc c => if is_lc Active c && mem k (cmd_names (cm_rm m) c) then add_item acc (c_name c) else acc) l acc)).
  { induction l as [|c0 l IH]; intros acc [].
    - subst c0. cbn [fold_left]. apply I. unfold is_lc. rewrite L. apply mem_In in Hkc. rewrite Hkc. cbn [lc_eqb andb]. apply In_add_item. left. reflexivity.
    - cbn [fold_left]. apply IH. assumption. }
  assert (K : forall ks acc x, In x acc -> In x (fold_left (fun acc k => fold_left (fun acc c => if is_lc Active c && mem k (cmd_names (cm_rm m) c) then add_item acc (c_name c) else acc) (cm_ctrls m) acc) ks acc)).
  { induction ks as [|k0 ks IH]; intros acc x H; [exact H|]. cbn [fold_left]. apply IH. apply I. exact H. }
  induction ks as [|k0 ks IH]; intros [] acc; cbn [fold_left]; [subst k0; apply K; apply J; exact Hc|apply IH; assumption].
Qed.
Lemma users_all m f fc k c : find_ctrl m f = Some fc -> In k (cmd_names (cm_rm m) fc) -> In c (cm_ctrls m) -> c_lc c = Active ->
  In k (cmd_names (cm_rm m) c) -> forall fs acc, In f fs -> In (c_name c) (fold_left (fun acc f => users_of m f acc) fs acc).
Proof.
  intros F Hk Hc L Hkc.
  assert (M : forall fs acc x, In x acc -> In x (fold_left (fun acc f => users_of m f acc) fs acc)).
  { induction fs as [|g fs IH]; intros acc x H; [exact H|]. cbn [fold_left]. apply IH. apply users_mono. exact H. }
  induction fs as [|g fs IH]; intros acc []; cbn [fold_left]; [subst g; apply M; eapply users_In; eassumption|apply IH; assumption].
Qed.

(** deactivation does not touch a controller that is not active *)
Lemma deactivate_one_idle e m n g c : find_ctrl m g = Some c -> c_lc c <> Active -> find_ctrl (deactivate_one e m n) g = Some c.
Proof.
  intros F L. destruct (string_dec n g) as [->|Ne].
  - unfold deactivate_one. rewrite F. unfold is_lc. destruct (lc_eqb (c_lc c) Active) eqn:E; [apply lc_eqb_eq in E; contradiction|exact F].
  - unfold deactivate_one. destruct (find_ctrl m n) as [d|]; [|exact F]. destruct (is_lc Active d); [|exact F]. cbv zeta.
    set (m1 := release_itfs (node_deactivate e m n) n).
    assert (F1 : find_ctrl m1 g = Some c).
    { unfold m1. rewrite (fr_other n (node_deactivate e m n)); [|apply frame_release|congruence].
      rewrite (fr_other n m); [exact F|apply frame_transition|congruence]. }
    destruct (c_chainable d); [|exact F1].
    assert (F2 : find_ctrl (set_chained e m1 n false) g = Some c).
    { unfold set_chained. destruct (find_ctrl m1 n) as [d1|]; [|exact F1]. destruct (c_chainable d1); [|exact F1].
      destruct (_ : bool); [|exact F1]. destruct (e_set_chained e _ n false); [|exact F1].
      rewrite (fr_other n (emit m1 (EvChained n false true))); [exact F1|apply frame_upd; apply keeps_chained|congruence]. }
    destruct (make_exps_unavailable _ n) as [r3|]; [|exact F2]. destruct (make_refs_unavailable r3 n); exact F2.
Qed.
Lemma deactivate_idle e ns : forall m g c, find_ctrl m g = Some c -> c_lc c <> Active -> find_ctrl (deactivate_controllers e m ns) g = Some c.
Proof.
  unfold deactivate_controllers. induction ns as [|n ns IH]; intros m g c F L; [exact F|]. cbn [fold_left].
  apply IH; [apply deactivate_one_idle; assumption|exact L].
Qed.

(** ---------------------------------------------------------------- activation of plain controllers *)
Lemma claim_all_ok : forall ks r got, NoDup ks ->
  (forall k, In k ks -> In k (rm_avc r) /\ aget (rm_claimed r) k = Some false /\ In k (rm_ckeys r)) ->
  exists r1, claim_all r ks got = Val (r1, Some (got ++ ks)) /\ rm_avc r1 = rm_avc r /\ rm_avs r1 = rm_avs r /\
    rm_ckeys r1 = rm_ckeys r /\ rm_skeys r1 = rm_skeys r.
Proof.
  induction ks as [|k ks IH]; intros r got ND H; cbn [claim_all].
  { exists r. rewrite app_nil_r. auto 6. }
  destruct (H k (or_introl eq_refl)) as (A & B & C). unfold cmd_claimed, cmd_available. apply mem_In in A. rewrite A, B.
  unfold claim_cmd, cmd_available. rewrite A, B. apply mem_In in C. rewrite C.
  inversion ND as [|? ? NK ND']; subst.
  destruct (IH (with_claimed r (aset (rm_claimed r) k true)) (got ++ [k]) ND') as (r1 & E & E1 & E2 & E3 & E4).
  - intros x Hx. destruct (H x (or_intror Hx)) as (A' & B' & C'). cbn [with_claimed rm_avc rm_claimed rm_ckeys]. split; [exact A'|]. split; [|exact C'].
    rewrite aget_aset_other; [exact B'|]. intros Ek. apply NK. congruence.
  - exists r1. rewrite E, <- app_assoc. split; [reflexivity|]. auto.
Qed.

(** what a plain fallback needs when it is started *)
Definition startable (m : cm) (g : name) : Prop :=
  exists c, find_ctrl m g = Some c /\ c_lc c = Inactive /\ c_chainable c = false /\ c_cloans c = [] /\
    NoDup (cmd_names (cm_rm m) c) /\ (exists ks, c_cmd c = IIndividual ks) /\ (exists ss, c_state c = IIndividual ss) /\
    (forall k, In k (cmd_names (cm_rm m) c) -> In k (rm_avc (cm_rm m)) /\ aget (rm_claimed (cm_rm m)) k = Some false /\ In k (rm_ckeys (cm_rm m))) /\
    (forall k, In k (state_names (cm_rm m) c) -> In k (rm_avs (cm_rm m)) /\ In k (rm_skeys (cm_rm m))).
Lemma activate_one_ok e m g : callbacks_succeed e -> startable m g -> exists m1,
  activate_one e (m, true, []) g = Val (m1, true, []) /\ state_in m1 g = Some Active /\
  (forall g' , g' <> g -> find_ctrl m1 g' = find_ctrl m g') /\
  rm_avc (cm_rm m1) = rm_avc (cm_rm m) /\ rm_avs (cm_rm m1) = rm_avs (cm_rm m) /\ rm_ckeys (cm_rm m1) = rm_ckeys (cm_rm m) /\ rm_skeys (cm_rm m1) = rm_skeys (cm_rm m) /\
  (forall c k, find_ctrl m g = Some c -> ~ In k (cmd_names (cm_rm m) c) -> aget (rm_claimed (cm_rm m1)) k = aget (rm_claimed (cm_rm m)) k).
Proof.
  intros CB (c & F & L & CH & CL & ND & (ks & EC) & (ss & ES) & HC & HS).
  destruct (claim_all_ok _ _ [] ND HC) as (r1 & E & E1 & E2 & E3 & E4). rewrite app_nil_l in E.
  unfold activate_one. rewrite F, E. cbn [bind]. cbv beta iota.
  assert (SN : state_names r1 c = state_names (cm_rm m) c) by (unfold state_names; rewrite E2; reflexivity).
  assert (FS : forallb (claim_state r1) (state_names r1 c) = true).
  { rewrite SN. apply forallb_forall. intros k Hk. destruct (HS k Hk) as [A B]. unfold claim_state, state_available. rewrite E2, E4.
    apply mem_In in A. apply mem_In in B. rewrite A, B. reflexivity. }
  rewrite FS, CL. change (release_all r1 []) with r1.
  set (mA := upd (set_rm m r1) g _).
  assert (FA : find_ctrl mA g = Some (upd_loans (cmd_names (cm_rm m) c) (state_names r1 c) c)).
  { unfold mA. rewrite (find_upd_same (set_rm m r1) g _ g c); [rewrite String.eqb_refl; reflexivity|reflexivity|exact F]. }
  unfold node_activate, node_transition. rewrite FA. cbn [upd_loans c_lc]. rewrite L. cbn [lc_eqb]. unfold ctrl_call. rewrite CB.
  set (mB := emit mA _). set (mC := upd mB g (upd_lc Active)).
  assert (FB : find_ctrl mB g = Some (upd_loans (cmd_names (cm_rm m) c) (state_names r1 c) c)) by exact FA.
  assert (FC : find_ctrl mC g = Some (upd_lc Active (upd_loans (cmd_names (cm_rm m) c) (state_names r1 c) c))).
  { unfold mC. rewrite (find_upd_same mB g (upd_lc Active) g _ (fun _ => eq_refl) FB). rewrite String.eqb_refl. reflexivity. }
  rewrite FC. change (is_lc Active (upd_lc Active (upd_loans (cmd_names (cm_rm m) c) (state_names r1 c) c))) with true. cbv iota.
  rewrite CH. exists mC. split; [reflexivity|]. split; [unfold state_in; rewrite FC; reflexivity|]. split.
  { intros g' Ne. unfold mC. rewrite (fr_other g mB); [|apply frame_upd; apply keeps_lc|exact Ne].
    change (find_ctrl mB g') with (find_ctrl mA g'). unfold mA. rewrite (fr_other g (set_rm m r1)); [reflexivity|apply frame_upd; apply keeps_loans|exact Ne]. }
  split; [exact E1|]. split; [exact E2|]. split; [exact E3|]. split; [exact E4|].
  intros c0 k F0 NK. assert (c0 = c) by congruence. subst c0. change (cm_rm mC) with (with_trace r1 (rm_trace (cm_rm mB))). cbn [with_trace rm_claimed].
  apply claim_all_some in E. destruct E as (_ & _ & E). rewrite E. destruct (mem k (cmd_names (cm_rm m) c)) eqn:M; [apply mem_In in M; contradiction|reflexivity].
Qed.

Lemma names_by r r' c : (exists ks, c_cmd c = IIndividual ks) -> cmd_names r c = cmd_names r' c.
Proof. intros (ks & E). unfold cmd_names. rewrite E. reflexivity. Qed.
Lemma snames_by r r' c : (exists ks, c_state c = IIndividual ks) -> state_names r c = state_names r' c.
Proof. intros (ks & E). unfold state_names. rewrite E. reflexivity. Qed.

Lemma activate_loop_ok e : callbacks_succeed e -> forall gs m, NoDup gs -> (forall g, In g gs -> startable m g) ->
  (forall g1 g2 c1 c2 k, In g1 gs -> In g2 gs -> g1 <> g2 -> find_ctrl m g1 = Some c1 -> find_ctrl m g2 = Some c2 ->
     In k (cmd_names (cm_rm m) c1) -> ~ In k (cmd_names (cm_rm m) c2)) ->
  exists m1, rfold (activate_one e) gs (m, true, []) = Val (m1, true, []) /\ (forall g, In g gs -> state_in m1 g = Some Active) /\
    (forall g, ~ In g gs -> find_ctrl m1 g = find_ctrl m g).
Proof.
  intros CB. induction gs as [|g gs IH]; intros m ND ST DJ; cbn [rfold].
  { exists m. split; [reflexivity|]. split; [intros g []|reflexivity]. }
  inversion ND as [|? ? NG ND']; subst.
  destruct (activate_one_ok e m g CB (ST g (or_introl eq_refl))) as (m1 & E & SA & FO & A1 & A2 & A3 & A4 & CK). rewrite E. cbn [bind].
  destruct (ST g (or_introl eq_refl)) as (cg & Fg & _).
  assert (OT : forall x, In x gs -> x <> g) by (intros x Hx C; subst; contradiction).
  destruct (IH m1 ND') as (m2 & E2 & S2 & F2).
  - intros x Hx. destruct (ST x (or_intror Hx)) as (c & F & L & CH & CL & N & EC & ES & HC & HS). exists c.
    rewrite (FO x (OT x Hx)). rewrite (names_by (cm_rm m1) (cm_rm m) c EC), (snames_by (cm_rm m1) (cm_rm m) c ES).
    split; [exact F|]. split; [exact L|]. split; [exact CH|]. split; [exact CL|]. split; [exact N|]. split; [exact EC|]. split; [exact ES|].
    rewrite A1, A2, A3, A4. split; [|exact HS]. intros k Hk. destruct (HC k Hk) as (P1 & P2 & P3). split; [exact P1|]. split; [|exact P3].
    rewrite (CK cg k Fg); [exact P2|]. apply (DJ x g c cg k); [right; exact Hx|left; reflexivity|exact (OT x Hx)|exact F|exact Fg|exact Hk].
  - intros g1 g2 c1 c2 k H1 H2 Ne F1 F2. rewrite (FO g1 (OT _ H1)) in F1. rewrite (FO g2 (OT _ H2)) in F2.
    destruct (ST g1 (or_intror H1)) as (d1 & G1 & _ & _ & _ & _ & EC1 & _). destruct (ST g2 (or_intror H2)) as (d2 & G2 & _ & _ & _ & _ & EC2 & _).
    assert (d1 = c1) by congruence. assert (d2 = c2) by congruence. subst d1 d2.
    rewrite (names_by (cm_rm m1) (cm_rm m) c1 EC1), (names_by (cm_rm m1) (cm_rm m) c2 EC2). apply (DJ g1 g2); auto; right; assumption.
  - exists m2. split; [exact E2|]. split.
    + intros x [<-|Hx]; [|apply S2; exact Hx]. unfold state_in. rewrite (F2 g NG). exact SA.
    + intros x Hx. rewrite F2 by (intros C; apply Hx; right; exact C). apply FO. intros C. apply Hx. left. congruence.
Qed.

Section Fallback.
Variables (e : env) (allow : bool) (m m' : cm) (o : cout).
Hypothesis HF : FI m.
Hypothesis HS : cstep e allow m CUpdate = Val (m', o).
Hypothesis CB : callbacks_succeed e.
Hypothesis PL : forall f, fallback_for m m' f -> exists c, In c (cm_ctrls m) /\ c_name c = f /\ c_lc c = Inactive /\ c_chainable c = false /\ by_name c /\ hw_interfaces m c.
Hypothesis DJ : forall c1 c2 k, In c1 (cm_ctrls m) -> In c2 (cm_ctrls m) -> fallback_for m m' (c_name c1) -> fallback_for m m' (c_name c2) ->
   c_name c1 <> c_name c2 -> wants_cmd m c1 k -> ~ wants_cmd m c2 k.

Lemma main_fallback f : fallback_for m m' f -> state_in m' f = Some Active.
Proof using HF HS CB PL DJ.
  pose proof (ci_n _ (fi_ci _ HF)) as HN. pose proof (proj1 HN) as ND.
  destruct (taken_list _ _ _ _ _ HN HS) as (m1 & ds & x & [E _] & SM & TO & FB & K). intros Hf.
  destruct ds as [|d ds]; [apply FB in Hf; destruct Hf|]. cbv zeta in K.
  set (fbs := fbs_of m (d :: ds)) in *. set (us := fold_left _ fbs []) in *. set (dl := add_items (d :: ds) us) in *.
  set (m2 := deactivate_controllers e (mode_change e allow m1 (add_items [] fbs) dl) dl) in *.
  assert (FL : forall g, In g (add_items [] fbs) <-> fallback_for m m' g).
  { intros g. rewrite In_add_items, FB. cbn [In]. tauto. }
  assert (DS : forall n, deactivates e n) by (intros n t; rewrite CB; discriminate).
  assert (F1 : FI m1).
  { exact (steps_FI _ _ _ _ _ (SM calm) HF). }
  assert (S12 : steps e allow calm m1 m2).
  { unfold m2. eapply steps_trans; [apply prep_perf_steps|apply deactivate_steps]. }
  pose proof (steps_FI _ _ _ _ _ S12 F1) as F2. destruct (steps_hwav _ _ _ _ F1 S12) as (AV & AS & ST).
  (* every fallback can be started in m2 *)
  assert (SB : forall g, fallback_for m m' g -> exists c, In c (cm_ctrls m) /\ c_name c = g /\ find_ctrl m2 g = Some c /\ by_name c /\ startable m2 g).
  { intros g Hg. destruct (PL g Hg) as (c & Hc & Nc & Lc & CH & (ks & ss & EC & ES & NDk) & HC & HSt). exists c. split; [exact Hc|]. split; [exact Nc|].
    assert (Fc : find_ctrl m1 g = Some c) by (rewrite E, <- Nc; exact (NoDup_find _ _ ND Hc)).
    assert (Fc2 : find_ctrl m2 g = Some c) by (unfold m2; apply deactivate_idle; [unfold mode_change, prep_perf; destruct (rm_prepare _ _ _ _ _); exact Fc|congruence]).
    split; [exact Fc2|]. split; [exists ks, ss; auto|]. exists c. split; [exact Fc2|]. split; [exact Lc|]. split; [exact CH|].
    split; [apply (ci_l _ (fi_ci _ HF) c Hc); congruence|]. unfold cmd_names, state_names. rewrite EC, ES. cbn [cfg_names].
    split; [exact NDk|]. split; [exists ks; reflexivity|]. split; [exists ss; reflexivity|].
    unfold wants_cmd, wants_state, cmd_names, state_names in HC, HSt. rewrite EC in HC. rewrite ES in HSt. cbn [cfg_names] in HC, HSt.
    assert (STm : statics (cm_rm m2) = statics (cm_rm m)) by (rewrite ST, E; reflexivity).
    split.
    - intros k Hk. destruct (HC k Hk) as [H1 H2]. assert (HW : In k (hw_cmds (cm_rm m1))) by (rewrite E; exact H1).
      assert (A1 : In k (rm_avc (cm_rm m1))) by (rewrite E; exact H2).
      assert (HW2 : In k (hw_cmds (cm_rm m2))) by (rewrite hw_cmds_statics, STm, <- hw_cmds_statics; exact H1).
      destruct (fi_hw _ F2 k HW2) as [KK KN].
      split; [apply AV; assumption|]. split; [|apply (ki_c _ (i_k _ (ci_r _ (fi_ci _ F2)))); exact HW2].
      destruct (aget (rm_claimed (cm_rm m2)) k) as [[]|] eqn:EA; [exfalso|reflexivity|exfalso; exact (KN EA)].
      destruct (cnt_held _ _ (ki_held _ _ KK EA)) as (h & Hh & Kh).
      assert (Lh : c_lc h = Active).
      { destruct (lc_eqb (c_lc h) Active) eqn:L; [apply lc_eqb_eq; exact L|]. exfalso.
        assert (N : c_lc h <> Active) by (intros C; apply lc_eqb_eq in C; congruence).
        destruct (ci_l _ (fi_ci _ F2) h Hh N) as [Z _]. rewrite Z in Kh. destruct Kh. }
      pose proof (fi_fit _ F2 h Hh k Kh) as FT.
      destruct (steps_na e allow calm m1 m2 (fun C => C) (ci_n _ (fi_ci _ F1)) S12) as [_ NA].
      destruct (NA h Hh Lh) as (h1 & Hh1 & SC & Lh1). destruct SC as (Nh & _ & Ch & _).
      assert (IU : In (c_name h1) us).
      { unfold us. eapply (users_all m1 g c k h1); [exact Fc| |exact Hh1|exact Lh1| |apply FB; exact Hg].
        - unfold cmd_names. rewrite EC. exact Hk.
        - unfold cmd_names. rewrite <- Ch. eapply cfg_any; eassumption. }
      assert (OFF : state_in m2 (c_name h1) <> Some Active).
      { unfold m2. apply deactivate_off; [apply DS|]. left. unfold dl. apply In_add_items. right. exact IU. }
      apply OFF. rewrite <- Nh. rewrite (state_of_In m2 h (proj1 (ci_n _ (fi_ci _ F2))) Hh), Lh. reflexivity.
    - intros k Hk. destruct (HSt k Hk) as [H1 H2].
      assert (HW2 : In k (hw_states (cm_rm m2))) by (rewrite hw_states_statics, STm, <- hw_states_statics; exact H1).
      split; [apply AS; [rewrite E; exact H1|rewrite E; exact H2]|apply (ki_s _ (i_k _ (ci_r _ (fi_ci _ F2)))); exact HW2]. }
  assert (NDF : NoDup (add_items [] fbs)) by (apply NoDup_add_items; constructor).
  destruct (add_items [] fbs) as [|f0 fl] eqn:EF; [apply FL in Hf; destruct Hf|]. fold m2 in K.
  assert (IN : forall g, In g (f0 :: fl) -> fallback_for m m' g) by (intros g Hg; apply FL; exact Hg).
  unfold activate_controllers in K. apply bind_val in K. destruct K as (m3 & K1 & K).
  assert (P3 : forall gs, incl gs (f0 :: fl) -> rfold preactivate gs m2 = Val m2).
  { induction gs as [|g gs IH]; intros I; [reflexivity|]. cbn [rfold].
    destruct (SB g (IN g (I g (or_introl eq_refl)))) as (c & _ & _ & Fc & _ & (c' & Fc' & _ & CH & _)).
    unfold preactivate at 1. rewrite Fc'. rewrite CH. cbn [bind]. apply IH. intros z Hz. apply I. right. exact Hz. }
  rewrite (P3 (f0 :: fl) (incl_refl _)) in K1. injection K1 as <-.
  destruct (activate_loop_ok e CB (f0 :: fl) m2 NDF) as (m4 & E4 & SA & _).
  - intros g Hg. destruct (SB g (IN g Hg)) as (c & _ & _ & _ & _ & S). exact S.
  - intros g1 g2 c1 c2 k H1 H2 Ne Fg1 Fg2. destruct (SB g1 (IN g1 H1)) as (d1 & D1 & N1 & G1 & B1 & _). destruct (SB g2 (IN g2 H2)) as (d2 & D2 & N2 & G2 & B2 & _).
    assert (d1 = c1) by congruence. assert (d2 = c2) by congruence. subst d1 d2.
    destruct B1 as (ks1 & ? & B1 & _). destruct B2 as (ks2 & ? & B2 & _).
    rewrite (names_by (cm_rm m2) (cm_rm m) c1 (ex_intro _ _ B1)), (names_by (cm_rm m2) (cm_rm m) c2 (ex_intro _ _ B2)).
    apply (DJ c1 c2 k D1 D2); [rewrite N1; apply IN; exact H1|rewrite N2; apply IN; exact H2|congruence].
  - rewrite E4 in K. cbn [bind] in K. cbv beta iota in K. cbn [negb andb] in K. injection K as <-. apply SA. apply FL. exact Hf.
Qed.
End Fallback.
