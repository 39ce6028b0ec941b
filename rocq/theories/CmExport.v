(** CmExport.v -- proofs for C59: records and availability of exported interfaces. *)
From Coq Require Import Lia Permutation.
From Verif Require Import Base Events HwModel RmModel RmSys RmSpec RmSpec2 HwProofs RmProofs RmInv RmAvail RmMode RmExact ChainModel CmModel CmPrim ChainSpec CmTopo CmInv CmSpec CmReach CmSwitch CmOutcome CmLoad CmIntact FollowSpec UpdateSpec CmDeact CmErr CmFallback LifeSpec CmLife CmRefs DoneSpec CmDone CmCycle ExportSpec.
Open Scope list_scope.

(** state interfaces of hardware and of controllers never share a name, nor do the exports of two controllers *)
Record Dis (n : name) (r : rm) : Prop := {
  di_refs : forall n0 ks0 ks k, n0 <> n -> aget (rm_refs r) n0 = Some ks0 -> aget (rm_refs r) n = Some ks -> In k ks -> ~ In k ks0;
  di_exps : forall n0 ks0 ks k, n0 <> n -> aget (rm_exps r) n0 = Some ks0 -> aget (rm_exps r) n = Some ks -> In k ks -> ~ In k ks0;
  di_hwc : forall ks k, aget (rm_refs r) n = Some ks -> In k ks -> ~ In k (hw_cmds r);
  di_hws : forall ks k, aget (rm_exps r) n = Some ks -> In k ks -> ~ In k (hw_states r) }.
Lemma Dis_of n r : KInv r -> RX r -> Dis n r.
Proof.
  intros K X. constructor.
  - intros n0 ks0 ks k N A B I I0. exact (rx_dis _ X n0 n ks0 ks k N A B I0 I).
  - intros n0 ks0 ks k N A B I I0. exact (rx_dise _ X n0 n ks0 ks k N A B I0 I).
  - intros ks k A I. exact (ki_refs _ K n ks k A I).
  - intros ks k A I. exact (ki_exps _ K n ks k A I).
Qed.
Lemma Dis_ext n r r' : rm_refs r' = rm_refs r -> rm_exps r' = rm_exps r -> statics r' = statics r -> Dis n r -> Dis n r'.
Proof.
  intros A B C [D1 D2 D3 D4]. constructor; rewrite ?A, ?B; auto.
  - intros ks k. rewrite hw_cmds_statics, C, <- hw_cmds_statics. apply D3.
  - intros ks k. rewrite hw_states_statics, C, <- hw_states_statics. apply D4.
Qed.

Section One.
Variables (e : env) (allow : bool) (n : name).

(** what happens to controller [n] and its records in an operation that neither configures, cleans up nor (un)loads *)
Definition kept_lc (c c' : ctrl) : Prop := steady e n -> (configured (c_lc c') /\ configured (c_lc c)) \/ c_lc c' = c_lc c.
Record XW (m m' : cm) : Prop := {
  xw_refs : rm_refs (cm_rm m') = rm_refs (cm_rm m); xw_exps : rm_exps (cm_rm m') = rm_exps (cm_rm m);
  xw_st : statics (cm_rm m') = statics (cm_rm m);
  xw_find : match find_ctrl m n with None => find_ctrl m' n = None
            | Some c => exists c', find_ctrl m' n = Some c' /\ same_const c c' /\ kept_lc c c' end }.
Lemma same_const_refl c : same_const c c. Proof. unfold same_const. auto 8. Qed.
Lemma same_const_trans a b c : same_const a b -> same_const b c -> same_const a c.
Proof. unfold same_const. intros (A1&A2&A3&A4&A5&A6&A7) (B1&B2&B3&B4&B5&B6&B7). repeat split; congruence. Qed.
Lemma XW_same m m' : rm_refs (cm_rm m') = rm_refs (cm_rm m) -> rm_exps (cm_rm m') = rm_exps (cm_rm m) -> statics (cm_rm m') = statics (cm_rm m) ->
  find_ctrl m' n = find_ctrl m n -> XW m m'.
Proof.
  intros A B C D. constructor; auto. rewrite D. destruct (find_ctrl m n) as [c|]; [|reflexivity]. exists c. split; [reflexivity|]. split; [apply same_const_refl|]. intros _. right. reflexivity.
Qed.
Lemma XW_refl m : XW m m. Proof. apply XW_same; reflexivity. Qed.
Lemma XW_trans a b c : XW a b -> XW b c -> XW a c.
Proof.
  intros [A1 A2 A3 A4] [B1 B2 B3 B4]. constructor; try congruence. destruct (find_ctrl a n) as [x|].
  - destruct A4 as (y & Fy & Sy & Ky). rewrite Fy in B4. destruct B4 as (z & Fz & Sz & Kz). exists z. split; [exact Fz|].
    split; [eapply same_const_trans; eassumption|]. intros S. destruct (Kz S) as [[K1 K2]|K1], (Ky S) as [[K3 K4]|K3]; [left; auto|left; split; [exact K1|rewrite <- K3; exact K2]|left; split; [rewrite K1; exact K3|exact K4]|right; congruence].
  - rewrite A4 in B4. exact B4.
Qed.
Definition Avail (m : cm) : Prop := forall c, find_ctrl m n = Some c -> c_lc c = Active -> c_chainable c = true -> offered m n.
Record XR (m m' : cm) : Prop := { xr_w : XW m m'; xr_av : deactivates e n -> Dis n (cm_rm m) -> Avail m -> Avail m' }.
Lemma XR_refl m : XR m m. Proof. constructor; [apply XW_refl|auto]. Qed.
Lemma XR_dis m m' : XW m m' -> Dis n (cm_rm m) -> Dis n (cm_rm m').
Proof. intros [A B C _]. apply Dis_ext; assumption. Qed.
Lemma XR_trans a b c : XR a b -> XR b c -> XR a c.
Proof.
  intros [A1 A2] [B1 B2]. constructor; [eapply XW_trans; eassumption|]. intros D H V. apply B2; auto. eapply XR_dis; eassumption.
Qed.
(** availability of what [n] exports is not reduced *)
Definition kept_av (r r' : rm) : Prop :=
  (forall ks k, aget (rm_refs r) n = Some ks -> In k ks -> In k (rm_avc r) -> In k (rm_avc r')) /\
  (forall ks k, aget (rm_exps r) n = Some ks -> In k ks -> In k (rm_avs r) -> In k (rm_avs r')).
Lemma kept_same r r' : rm_avc r' = rm_avc r -> rm_avs r' = rm_avs r -> kept_av r r'.
Proof. intros A B. split; intros; congruence. Qed.
Lemma XR_of m m' : XW m m' -> 
  (forall c c', find_ctrl m n = Some c -> find_ctrl m' n = Some c' -> c_lc c' = Active -> c_lc c = Active) ->
  (Dis n (cm_rm m) -> kept_av (cm_rm m) (cm_rm m')) -> XR m m'.
Proof.
  intros W L K. constructor; [exact W|]. intros D H V c' F' A Ch. destruct W as [W1 W2 W3 W4].
  destruct (find_ctrl m n) as [c|] eqn:F; [|congruence]. destruct W4 as (c2 & F2 & SC & _). assert (c2 = c') by congruence. subst c2.
  assert (Cc : c_chainable c = true) by (destruct SC as (_ & S & _); congruence).
  destruct (V c F (L c c' eq_refl F' A) Cc) as [O1 O2]. destruct (K H) as [K1 K2]. unfold offered, refs_of, exps_of in *. rewrite W1, W2. split; intros ks k R I.
  - eapply K1; eauto.
  - eapply K2; eauto.
Qed.
(** steps that leave the controllers alone *)
Lemma XR_rm m r : rm_refs r = rm_refs (cm_rm m) -> rm_exps r = rm_exps (cm_rm m) -> statics r = statics (cm_rm m) ->
  (Dis n (cm_rm m) -> kept_av (cm_rm m) r) -> XR m (set_rm m r).
Proof.
  intros A B C K. apply XR_of; [apply XW_same; auto|intros c c' F F'; change (find_ctrl (set_rm m r) n) with (find_ctrl m n) in F'; congruence|exact K].
Qed.
Lemma XR_same m m' : cm_ctrls m' = cm_ctrls m -> rm_refs (cm_rm m') = rm_refs (cm_rm m) -> rm_exps (cm_rm m') = rm_exps (cm_rm m) -> statics (cm_rm m') = statics (cm_rm m) ->
  rm_avc (cm_rm m') = rm_avc (cm_rm m) -> rm_avs (cm_rm m') = rm_avs (cm_rm m) -> XR m m'.
Proof.
  intros C A B S V1 V2. assert (FE : find_ctrl m' n = find_ctrl m n) by (unfold find_ctrl; rewrite C; reflexivity).
  apply XR_of; [apply XW_same; auto|intros c c' F F'; congruence|intros _; apply kept_same; assumption].
Qed.
Lemma XR_emit m ev : XR m (emit m ev). Proof. apply XR_same; reflexivity. Qed.
Lemma XR_maps m r : same_maps (cm_rm m) r -> rm_avc r = rm_avc (cm_rm m) -> rm_avs r = rm_avs (cm_rm m) -> XR m (set_rm m r).
Proof. intros (A1&A2&A3&A4&A5&A6) V1 V2. apply XR_same; auto. unfold statics. cbn [set_rm cm_rm]. rewrite A1. reflexivity. Qed.
Lemma XR_upd m n0 f : keeps f -> (forall c, find_ctrl m n = Some c -> n0 = n -> kept_lc c (f c) /\ (c_lc (f c) = Active -> c_lc c = Active)) -> XR m (upd m n0 f).
Proof.
  intros K H. assert (KN : forall c, c_name (f c) = c_name c) by (intros c; apply (proj1 (K c))).
  assert (FE : forall c, find_ctrl m n = Some c -> find_ctrl (upd m n0 f) n = Some (if String.eqb n n0 then f c else c)).
  { intros c F. apply find_upd_same; assumption. }
  assert (FN : find_ctrl m n = None -> find_ctrl (upd m n0 f) n = None).
  { intros F. unfold find_ctrl in *. cbn [upd set_ctrls cm_ctrls]. rewrite find_upd by exact KN. rewrite F. reflexivity. }
  apply XR_of; [constructor; try reflexivity| |intros _; apply kept_same; reflexivity].
  - destruct (find_ctrl m n) as [c|] eqn:F; [|auto]. eexists. split; [apply FE; reflexivity|].
    destruct (String.eqb n n0) eqn:E; [|split; [apply same_const_refl|intros _; right; reflexivity]]. apply String.eqb_eq in E.
    split; [apply K|]. apply (H c eq_refl). auto.
  - intros c c' F F'. rewrite (FE c F) in F'. injection F' as <-. destruct (String.eqb n n0) eqn:E; [|auto]. apply String.eqb_eq in E. apply (H c F). auto.
Qed.
Lemma XR_release m n0 : XR m (release_itfs m n0).
Proof.
  unfold release_itfs. destruct (find_ctrl m n0) as [c0|]; [|apply XR_refl].
  eapply XR_trans; [apply XR_maps; [apply release_maps|apply release_avc|apply release_avs]|].
  apply XR_upd; [intros c; unfold same_const; cbn; auto 8|]. intros c _ _. split; [intros _; right; reflexivity|cbn; auto].
Qed.
Lemma XR_chained m n0 b : XR m (set_chained e m n0 b).
Proof.
  unfold set_chained. destruct (find_ctrl m n0) as [c0|]; [|apply XR_refl]. destruct (_ && _); [|apply XR_refl].
  destruct (e_set_chained _ _ _ _); [|apply XR_emit]. eapply XR_trans; [apply XR_emit|].
  apply XR_upd; [intros c; unfold same_const; cbn; auto 8|]. intros c _ _. split; [intros _; right; reflexivity|cbn; auto].
Qed.
(** transitions that stay among inactive and active, errors aside *)
Lemma XW_transition m n0 cb (from : lc -> bool) succ fail : (forall l, from l = true -> configured l) -> configured succ -> configured fail ->
  XW m (node_transition e m n0 cb from succ fail).
Proof.
  intros Cf Cs Cl. unfold node_transition. destruct (find_ctrl m n0) as [c0|] eqn:F0; [|apply XW_refl]. destruct (from (c_lc c0)) eqn:Fr; [|apply XW_refl].
  cbn [ctrl_call]. set (r := e_ctrl e (rm_trace (cm_rm m)) n0 cb).
  assert (XE : XW m (emit m (EvCtrlCb n0 cb r))) by apply XR_emit.
  assert (U : forall l, configured l -> XW m (upd (emit m (EvCtrlCb n0 cb r)) n0 (upd_lc l))).
  { intros l Cc. eapply XW_trans; [exact XE|]. constructor; try reflexivity.
    destruct (find_ctrl (emit m _) n) as [c|] eqn:F; [|].
    - eexists. split; [apply find_upd_same; [reflexivity|exact F]|]. destruct (String.eqb n n0) eqn:E; [|split; [apply same_const_refl|intros _; right; reflexivity]].
      split; [unfold same_const; cbn; auto 8|]. intros _. cbn. apply String.eqb_eq in E. subst n0.
      change (find_ctrl (emit m (EvCtrlCb n cb r)) n) with (find_ctrl m n) in F. assert (c = c0) by congruence. subst c. left. split; [exact Cc|apply Cf; exact Fr].
    - unfold find_ctrl in *. cbn [upd set_ctrls cm_ctrls]. rewrite find_upd by reflexivity. rewrite F. reflexivity. }
  assert (Er : (r = CbError \/ r = CbThrow) -> XW m (node_error e (emit m (EvCtrlCb n0 cb r)) n0)).
  { intros Hr. unfold node_error. cbv zeta. eapply XW_trans; [exact XE|]. set (ev := EvCtrlErr n0 _). eapply XW_trans; [apply (XR_emit _ ev)|]. eapply XW_trans; [apply (XR_release _ n0)|].
    set (m1 := release_itfs _ _). constructor; try reflexivity. destruct (find_ctrl m1 n) as [c|] eqn:F.
    - eexists. split; [apply find_upd_same; [reflexivity|exact F]|]. destruct (String.eqb n n0) eqn:E; [|split; [apply same_const_refl|intros _; right; reflexivity]].
      split; [unfold same_const; cbn; auto 8|]. intros S. apply String.eqb_eq in E. subst n0. exfalso. destruct (S (rm_trace (cm_rm m)) cb) as [S1 S2]. fold r in S1, S2. destruct Hr; contradiction.
    - unfold find_ctrl in *. cbn [upd set_ctrls cm_ctrls]. rewrite find_upd by reflexivity. rewrite F. reflexivity. }
  destruct r; [apply U; exact Cs|apply U; exact Cl|apply Er; auto|apply Er; auto].
Qed.
(** nothing changes for other controllers *)
Lemma find_transition_other m n0 cb from succ fail : n0 <> n -> find_ctrl (node_transition e m n0 cb from succ fail) n = find_ctrl m n.
Proof.
  intros N. assert (E : String.eqb n n0 = false) by (apply String.eqb_neq; auto).
  assert (U : forall m f, (forall c, c_name (f c) = c_name c) -> find_ctrl (upd m n0 f) n = find_ctrl m n).
  { intros m1 f Kf. unfold find_ctrl. cbn [upd set_ctrls cm_ctrls]. rewrite find_upd by exact Kf. rewrite E. destruct (find_in _ _); reflexivity. }
  unfold node_transition. destruct (find_ctrl m n0) as [c0|] eqn:F0; [|reflexivity]. destruct (from (c_lc c0)); [|reflexivity]. cbn [ctrl_call].
  destruct (e_ctrl e _ n0 cb); try (rewrite U by reflexivity; reflexivity).
  all: unfold node_error; cbv zeta; rewrite U by reflexivity; unfold release_itfs; destruct (find_ctrl _ n0); [rewrite U by reflexivity; reflexivity|reflexivity].
Qed.
Lemma rm_transition m n0 cb from succ fail : rm_avc (cm_rm (node_transition e m n0 cb from succ fail)) = rm_avc (cm_rm m) /\ rm_avs (cm_rm (node_transition e m n0 cb from succ fail)) = rm_avs (cm_rm m).
Proof.
  unfold node_transition. destruct (find_ctrl m n0) as [c0|] eqn:F0; [|auto]. destruct (from (c_lc c0)); [|auto]. cbn [ctrl_call].
  destruct (e_ctrl e _ n0 cb); try (split; reflexivity).
  all: unfold node_error, release_itfs; cbv zeta; destruct (find_ctrl _ n0); cbn [upd set_ctrls set_rm cm_rm emit]; rewrite ?release_avc, ?release_avs; split; reflexivity.
Qed.
Lemma conf_in l : lc_eqb Inactive l = true -> configured l. Proof. intros E. apply lc_eqb_eq in E. subst. left. reflexivity. Qed.
Lemma conf_ac l : lc_eqb Active l = true -> configured l. Proof. intros E. apply lc_eqb_eq in E. subst. right. reflexivity. Qed.

(** making exports (un)available *)
Lemma refs_un_XR m n0 r : make_refs_unavailable (cm_rm m) n0 = Some r -> n0 <> n -> XR m (set_rm m r).
Proof.
  unfold make_refs_unavailable. destruct (aget _ n0) as [ks0|] eqn:E; [|discriminate]. intros [= <-] N. apply XR_rm; try reflexivity.
  intros D. split; cbn [with_av rm_avc rm_avs]; intros ks k R I H; [|exact H]. apply remove_items_keep; [|exact H]. exact (di_refs _ _ D n0 ks0 ks k N E R I).
Qed.
Lemma exps_un_XR m n0 r : make_exps_unavailable (cm_rm m) n0 = Some r -> n0 <> n -> XR m (set_rm m r).
Proof.
  unfold make_exps_unavailable. destruct (aget _ n0) as [ks0|] eqn:E; [|discriminate]. intros [= <-] N. apply XR_rm; try reflexivity.
  intros D. split; cbn [with_av rm_avc rm_avs]; intros ks k R I H; [exact H|]. apply remove_items_keep; [|exact H]. exact (di_exps _ _ D n0 ks0 ks k N E R I).
Qed.
Lemma refs_av_XR m n0 r : make_refs_available (cm_rm m) n0 = Some r -> XR m (set_rm m r).
Proof.
  unfold make_refs_available. destruct (aget _ n0) as [ks0|] eqn:E; [|discriminate]. intros [= <-]. apply XR_rm; try reflexivity.
  intros D. split; cbn [with_av rm_avc rm_avs]; intros ks k R I H; [apply In_add_items; left|]; exact H.
Qed.
Lemma exps_av_XR m n0 r : make_exps_available (cm_rm m) n0 = Some r -> XR m (set_rm m r).
Proof.
  unfold make_exps_available. destruct (aget _ n0) as [ks0|] eqn:E; [|discriminate]. intros [= <-]. apply XR_rm; try reflexivity.
  intros D. split; cbn [with_av rm_avc rm_avs]; intros ks k R I H; [|apply In_add_items; left]; exact H.
Qed.
Lemma refs_un_XW m n0 r : make_refs_unavailable (cm_rm m) n0 = Some r -> XW m (set_rm m r).
Proof. intros H. destruct (refs_un_maps _ _ _ H) as [(A1&A2&A3&A4&A5&A6) _]. apply XW_same; auto. unfold statics. cbn [set_rm cm_rm]. rewrite A1. reflexivity. Qed.
Lemma exps_un_XW m n0 r : make_exps_unavailable (cm_rm m) n0 = Some r -> XW m (set_rm m r).
Proof. intros H. destruct (exps_un_maps _ _ _ H) as [(A1&A2&A3&A4&A5&A6) _]. apply XW_same; auto. unfold statics. cbn [set_rm cm_rm]. rewrite A1. reflexivity. Qed.

Lemma deactivate_one_XR m n0 : XR m (deactivate_one e m n0).
Proof.
  destruct (string_dec n0 n) as [->|N].
  - assert (W : XW m (deactivate_one e m n)).
    { unfold deactivate_one. destruct (find_ctrl m n) as [c|]; [|apply XW_refl]. destruct (is_lc Active c); [|apply XW_refl].
      assert (W1 : XW m (release_itfs (node_deactivate e m n) n)).
      { eapply XW_trans; [apply (XW_transition m n); [exact conf_ac|left; reflexivity|right; reflexivity]|apply XR_release]. }
      destruct (c_chainable c); [|exact W1]. eapply XW_trans; [exact W1|]. eapply XW_trans; [apply XR_chained|].
      destruct (make_exps_unavailable _ n) as [r3|] eqn:E3; [|apply XW_refl].
      pose proof (exps_un_XW _ _ _ E3) as W3.
      destruct (make_refs_unavailable r3 n) as [r4|] eqn:E4; [|exact W3].
      eapply XW_trans; [exact W3|]. exact (refs_un_XW (set_rm _ r3) n r4 E4). }
    constructor; [exact W|]. intros D _ _ c F A _. pose proof (deactivate_one_off e m n D) as Off. unfold state_in in Off. rewrite F in Off. cbn in Off. congruence.
  - unfold deactivate_one. destruct (find_ctrl m n0) as [c|]; [|apply XR_refl]. destruct (is_lc Active c); [|apply XR_refl].
    assert (W0 : XR m (node_deactivate e m n0)).
    { destruct (rm_transition m n0 CDeactivate (lc_eqb Active) Inactive Active) as [V1 V2].
      pose proof (XW_transition m n0 CDeactivate (lc_eqb Active) Inactive Active conf_ac (or_introl eq_refl) (or_intror eq_refl)) as W.
      apply XR_of; [exact W| |intros _; apply kept_same; assumption].
      intros x y Fx Fy. unfold node_deactivate in Fy. rewrite find_transition_other in Fy by exact N. congruence. }
    assert (W1 : XR m (release_itfs (node_deactivate e m n0) n0)) by (eapply XR_trans; [exact W0|apply XR_release]).
    destruct (c_chainable c); [|exact W1]. eapply XR_trans; [exact W1|]. eapply XR_trans; [apply XR_chained|].
    destruct (make_exps_unavailable _ n0) as [r3|] eqn:E3; [|apply XR_refl].
    pose proof (exps_un_XR _ _ _ E3 N) as W3.
    destruct (make_refs_unavailable r3 n0) as [r4|] eqn:E4; [|exact W3].
    eapply XR_trans; [exact W3|]. exact (refs_un_XR (set_rm _ r3) n0 r4 E4 N).
Qed.
Lemma deactivate_XR ns : forall m, XR m (deactivate_controllers e m ns).
Proof.
  unfold deactivate_controllers. induction ns as [|x ns IH]; intros m; [apply XR_refl|]. cbn [fold_left]. eapply XR_trans; [apply deactivate_one_XR|apply IH].
Qed.
Lemma exports_av_XR m n0 m' : exports_available m n0 = Val m' -> XR m m'.
Proof.
  unfold exports_available. intros H. apply bind_val in H. destruct H as (r1 & H1 & H). apply bind_val in H. destruct H as (r2 & H2 & H). injection H as <-.
  unfold of_option in H1, H2. destruct (make_exps_available _ n0) as [x1|] eqn:E1; [|discriminate]. injection H1 as ->.
  destruct (make_refs_available r1 n0) as [x2|] eqn:E2; [|discriminate]. injection H2 as ->.
  eapply XR_trans; [exact (exps_av_XR m n0 r1 E1)|]. exact (refs_av_XR (set_rm m r1) n0 r2 E2).
Qed.
Lemma exports_av_offered m n0 m' : exports_available m n0 = Val m' -> offered m' n0.
Proof.
  unfold exports_available, make_exps_available, make_refs_available. intros H. apply bind_val in H. destruct H as (r1 & H1 & H). apply bind_val in H. destruct H as (r2 & H2 & H). injection H as <-.
  destruct (aget (rm_exps _) n0) as [es|] eqn:E1; [|discriminate]. injection H1 as <-. cbn [with_av rm_refs] in H2. destruct (aget (rm_refs _) n0) as [rs|] eqn:E2; [|discriminate]. injection H2 as <-.
  unfold offered, refs_of, exps_of. cbn [set_rm cm_rm with_av rm_refs rm_exps rm_avc rm_avs]. rewrite E1, E2.
  split; intros ks k [= <-] I; apply In_add_items; right; exact I.
Qed.
Lemma exports_un_XW m n0 m' : exports_unavailable m n0 = Val m' -> XW m m'.
Proof.
  unfold exports_unavailable. intros H. apply bind_val in H. destruct H as (r1 & H1 & H). apply bind_val in H. destruct H as (r2 & H2 & H). injection H as <-.
  unfold of_option in H1, H2. destruct (make_exps_unavailable _ n0) as [x1|] eqn:E1; [|discriminate]. injection H1 as ->.
  destruct (make_refs_unavailable r1 n0) as [x2|] eqn:E2; [|discriminate]. injection H2 as ->.
  eapply XW_trans; [exact (exps_un_XW m n0 r1 E1)|]. exact (refs_un_XW (set_rm m r1) n0 r2 E2).
Qed.
Lemma exports_un_XR m n0 m' : exports_unavailable m n0 = Val m' -> n0 <> n -> XR m m'.
Proof.
  unfold exports_unavailable. intros H N. apply bind_val in H. destruct H as (r1 & H1 & H). apply bind_val in H. destruct H as (r2 & H2 & H). injection H as <-.
  unfold of_option in H1, H2. destruct (make_exps_unavailable _ n0) as [x1|] eqn:E1; [|discriminate]. injection H1 as ->.
  destruct (make_refs_unavailable r1 n0) as [x2|] eqn:E2; [|discriminate]. injection H2 as ->.
  eapply XR_trans; [exact (exps_un_XR m n0 r1 E1 N)|]. exact (refs_un_XR (set_rm m r1) n0 r2 E2 N).
Qed.
Lemma exports_un_find m n0 m' : exports_unavailable m n0 = Val m' -> find_ctrl m' n = find_ctrl m n.
Proof.
  unfold exports_unavailable. intros H. apply bind_val in H. destruct H as (r1 & H1 & H). apply bind_val in H. destruct H as (r2 & H2 & H). injection H as <-. reflexivity.
Qed.
Lemma claim_all_avs : forall ks r got r1 o, claim_all r ks got = Val (r1, o) -> rm_avc r1 = rm_avc r /\ rm_avs r1 = rm_avs r.
Proof.
  induction ks as [|k ks IH]; intros r got r1 o; cbn [claim_all]; [intros [= <- <-]; auto|].
  destruct (cmd_claimed r k) as [[]|]; [intros [= <- <-]; rewrite release_avc, release_avs; auto| |discriminate].
  destruct (claim_cmd r k) as [r2 ok] eqn:C. assert (V : rm_avc r2 = rm_avc r /\ rm_avs r2 = rm_avs r).
  { unfold claim_cmd in C. destruct (cmd_available r k); [|injection C as <- _; auto]. destruct (aget _ k) as [[]|]; injection C as <- _; auto. }
  destruct ok; [intros H; destruct (IH _ _ _ _ H); destruct V; split; congruence|intros [= <- <-]; rewrite release_avc, release_avs; exact V].
Qed.
Lemma loan_keeps a b : keeps (upd_loans a b). Proof. intros c. unfold same_const. cbn. auto 8. Qed.
Lemma activate_one_XR st n0 st' : activate_one e st n0 = Val st' -> XR (act_rm st) (act_rm st').
Proof.
  destruct st as [[m ok] failed]. unfold activate_one, act_rm. cbn [fst]. destruct (find_ctrl m n0) as [c|] eqn:F; [|intros [= <-]; apply XR_refl].
  intros H. apply bind_val in H. destruct H as ((r1 & loans) & HC & H). pose proof (claim_all_maps _ _ _ _ _ HC) as MP. destruct (claim_all_avs _ _ _ _ _ HC) as [V1 V2].
  destruct loans as [cl|]; [|injection H as <-; cbn [fst]; apply XR_maps; assumption].
  destruct (forallb _ _).
  2:{ injection H as <-. cbn [fst]. apply XR_maps; [eapply same_maps_trans; [exact MP|apply release_maps]|rewrite release_avc; exact V1|rewrite release_avs; exact V2]. }
  set (m1 := upd (set_rm m (release_all r1 (c_cloans c))) n0 (upd_loans cl (state_names r1 c))) in *.
  assert (X1 : XR m m1).
  { eapply XR_trans; [apply XR_maps; [eapply same_maps_trans; [exact MP|apply (release_maps (c_cloans c))]|rewrite release_avc; exact V1|rewrite release_avs; exact V2]|].
    apply XR_upd; [apply loan_keeps|]. intros x _ _. split; [intros _; right; reflexivity|cbn; auto]. }
  pose proof (XW_transition m1 n0 CActivate (lc_eqb Inactive) Active Inactive conf_in (or_intror eq_refl) (or_introl eq_refl)) as WA.
  fold (node_activate e m1 n0) in WA. destruct (rm_transition m1 n0 CActivate (lc_eqb Inactive) Active Inactive) as [VA1 VA2].
  fold (node_activate e m1 n0) in VA1, VA2. set (m2 := node_activate e m1 n0) in *.
  destruct (string_dec n0 n) as [->|N].
  - assert (NA : forall m3, XW m m3 -> (forall c3, find_ctrl m3 n = Some c3 -> c_lc c3 <> Active) -> XR m m3).
    { intros m3 W3 N3. constructor; [exact W3|]. intros _ _ _ x Fx Ax _. elim (N3 x Fx Ax). }
    assert (W2 : XW m m2) by (eapply XW_trans; [apply X1|exact WA]).
    destruct (find_ctrl m2 n) as [c2|] eqn:F2; [|injection H as <-; cbn [fst]; apply NA; [exact W2|intros c3 F3; congruence]].
    assert (Ch2 : c_chainable c2 = c_chainable c).
    { destruct W2 as [_ _ _ W]. rewrite F in W. destruct W as (y & Fy & (_ & S & _) & _). congruence. }
    destruct (is_lc Active c2) eqn:L2.
    + destruct (c_chainable c) eqn:Ch.
      * apply bind_val in H. destruct H as (m3 & H3 & H). injection H as <-. cbn [fst]. constructor; [eapply XW_trans; [exact W2|apply (exports_av_XR _ _ _ H3)]|].
        intros _ _ _ x _ _ _. eapply exports_av_offered. exact H3.
      * injection H as <-. cbn [fst]. constructor; [exact W2|]. intros _ _ _ x Fx _ Cx. congruence.
    + assert (L2' : c_lc c2 <> Active) by (intros X; unfold is_lc in L2; rewrite X in L2; discriminate).
      assert (W3 : XW m (release_itfs m2 n)) by (eapply XW_trans; [exact W2|apply XR_release]).
      assert (N3 : forall c3, find_ctrl (release_itfs m2 n) n = Some c3 -> c_lc c3 <> Active).
      { intros c3 F3. unfold release_itfs in F3. rewrite F2 in F3. rewrite (find_upd_same _ n (upd_loans [] []) n c2) in F3; [|reflexivity|exact F2].
        rewrite String.eqb_refl in F3. injection F3 as <-. exact L2'. }
      destruct (c_chainable c).
      * apply bind_val in H. destruct H as (m4 & H4 & H). injection H as <-. cbn [fst]. apply NA; [eapply XW_trans; [exact W3|eapply exports_un_XW; exact H4]|].
        intros c4 F4. rewrite (exports_un_find _ _ _ H4) in F4. apply N3. exact F4.
      * injection H as <-. cbn [fst]. apply NA; assumption.
  - assert (X2 : XR m m2).
    { eapply XR_trans; [exact X1|]. apply XR_of; [exact WA| |intros _; apply kept_same; assumption].
      intros x y Fx Fy. unfold m2, node_activate in Fy. rewrite find_transition_other in Fy by exact N. congruence. }
    destruct (find_ctrl m2 n0) as [c2|]; [|injection H as <-; exact X2]. destruct (is_lc Active c2).
    + destruct (c_chainable c).
      * apply bind_val in H. destruct H as (m3 & H3 & H). injection H as <-. cbn [fst]. eapply XR_trans; [exact X2|eapply exports_av_XR; exact H3].
      * injection H as <-. exact X2.
    + destruct (c_chainable c).
      * apply bind_val in H. destruct H as (m4 & H4 & H). injection H as <-. cbn [fst]. eapply XR_trans; [exact X2|]. eapply XR_trans; [apply XR_release|]. eapply exports_un_XR; eassumption.
      * injection H as <-. cbn [fst]. eapply XR_trans; [exact X2|apply XR_release].
Qed.
Lemma rfold_XR {A B} (f : A -> B -> res A) (p : A -> cm) : (forall a b a', f a b = Val a' -> XR (p a) (p a')) ->
  forall l a a', rfold f l a = Val a' -> XR (p a) (p a').
Proof.
  intros H. induction l as [|b l IH]; intros a a' E; cbn [rfold] in E; [injection E as <-; apply XR_refl|].
  apply bind_val in E. destruct E as (a1 & E1 & E). eapply XR_trans; [eapply H; exact E1|apply IH; exact E].
Qed.
End One.
