(** CmExport7.v -- main lemmas of C59. *)
From Coq Require Import Lia Permutation.
From Verif Require Import Base Events HwModel RmModel RmSys RmSpec RmSpec2 HwProofs RmProofs RmInv RmAvail RmMode RmExact ChainModel CmModel CmPrim ChainSpec CmTopo CmInv CmSpec CmReach CmSwitch CmOutcome CmLoad CmIntact FollowSpec UpdateSpec CmDeact CmErr CmFallback LifeSpec CmLife CmRefs DoneSpec CmDone CmCycle ExportSpec CmExport CmExport2 CmExport3 CmExport4 CmExport5 CmExport6.
Open Scope list_scope.

Lemma main_registered e allow hs ops m n : wf_hw hs -> crun e allow (cm_start hs) ops = Val m -> steady e n -> cleans e n ->
  (forall c, In c (cm_ctrls m) -> c_name c = n -> c_chainable c = true -> configured (c_lc c) -> on_record m c) /\
  (forall c, In c (cm_ctrls m) -> c_name c = n -> c_chainable c = false \/ c_lc c = Unconfigured -> not_on_record m n) /\
  (forall c, In c (cm_ctrls m) -> c_name c = n -> c_lc c = Unconfigured \/ configured (c_lc c)) /\
  (~ In n (map c_name (cm_ctrls m)) -> not_on_record m n).
Proof.
  intros HW HC S C. destruct (reach_HI e allow n hs ops m HW HC) as [(_ & _ & HN) _ R _]. specialize (R S C). unfold Reg in R.
  assert (F : forall c, In c (cm_ctrls m) -> c_name c = n -> find_ctrl m n = Some c) by (intros c I E; rewrite <- E; apply find_of_NI; assumption).
  split; [|split; [|split]].
  - intros c I E Ch Cf. rewrite (F c I E) in R. destruct Cf as [L|L]; rewrite L, Ch in R; exact R.
  - intros c I E [Ch|L]; rewrite (F c I E) in R; [rewrite Ch in R; destruct (c_lc c); try contradiction; exact R|rewrite L in R; exact R].
  - intros c I E. rewrite (F c I E) in R. unfold configured. destruct (c_lc c); try contradiction; auto.
  - intros N. apply find_in_none in N. unfold find_ctrl in R. rewrite N in R. exact R.
Qed.
Lemma main_active_offered e allow hs ops m c : wf_hw hs -> crun e allow (cm_start hs) ops = Val m -> deactivates e (c_name c) ->
  In c (cm_ctrls m) -> c_chainable c = true -> c_lc c = Active -> offered m (c_name c).
Proof.
  intros HW HC D I Ch L. destruct (reach_HI e allow (c_name c) hs ops m HW HC) as [(_ & _ & HN) _ _ V]. apply (V D c); [apply find_of_NI; assumption|exact L|exact Ch].
Qed.
Lemma main_configured e allow hs ops m n order m' : wf_hw hs -> crun e allow (cm_start hs) ops = Val m -> cstep e allow m (CConfigure n order) = Val (m', CBool true) ->
  exists c', In c' (cm_ctrls m') /\ c_name c' = n /\ c_lc c' = Inactive /\ (c_chainable c' = true -> on_record m' c' /\ withdrawn m' n).
Proof.
  intros HW HC H. destruct (reach_HI e allow n hs ops m HW HC) as [HG D _ _]. pose proof (G_op e allow m HG) as HG0. unfold cstep in H. cbv zeta in H.
  set (m0 := emit m EvOp) in *. unfold serviced in H. destruct (cm_pend m0); [discriminate|]. apply bind_val in H. destruct H as ((m1 & b) & H1 & H). unfold to_out in H. cbn [fst snd] in H. injection H as <- ->.
  destruct (configure_self_ok e allow n m0 order m1 HG0 D H1) as (c & c' & F & F' & SC & L & X). exists c'. split; [eapply find_in_In; exact F'|]. split; [eapply find_in_name; exact F'|].
  split; [exact L|]. intros Ch. apply X. rewrite <- (proj1 (proj2 SC)). exact Ch.
Qed.
Lemma main_stopped e allow hs ops m o m' out c c' : wf_hw hs -> crun e allow (cm_start hs) ops = Val m -> cstep e allow m o = Val (m', out) ->
  In c (cm_ctrls m) -> c_chainable c = true -> c_lc c = Active -> on_record m c -> ~ In (c_name c) (may_start m o) ->
  In c' (cm_ctrls m') -> c_name c' = c_name c -> c_lc c' <> Active -> withdrawn m' (c_name c) /\ on_record m' c'.
Proof.
  intros HW HC H Ic Ch L (O1 & es & O2 & O3) NS Ic' Nm L'. set (n := c_name c) in *.
  destruct (reach_HI e allow n hs ops m HW HC) as [HG D _ _]. pose proof (G_op e allow m HG) as HG0. pose proof (G_step e allow m o m' out H HG) as HG'.
  assert (F : find_ctrl m n = Some c) by (apply find_of_NI; [apply HG|exact Ic]).
  assert (F' : find_ctrl m' n = Some c') by (rewrite <- Nm; apply find_of_NI; [apply HG'|exact Ic']).
  assert (DI : Dis n (cm_rm m)) by (apply Dis_of; apply HG).
  assert (KN : known n m) by (unfold known; rewrite O1, O2; split; discriminate).
  assert (WM : W n m) by (intros x Fx Lx; congruence).
  assert (X : WR e n m m').
  { pose proof (WR_emit e n m EvOp) as XE. destruct (manages o) eqn:Mo.
    - exfalso. apply L'. 
      (* an operation that manages a controller does nothing to a running one *)
      destruct (string_dec (subject o) n) as [E|N].
      + assert (m' = emit m EvOp).
        { unfold cstep in H. set (m0 := emit m EvOp) in *. assert (F0 : find_ctrl m0 n = Some c) by exact F.
          destruct o; try discriminate Mo; cbv zeta in H; unfold serviced in H; (destruct (cm_pend m0); [injection H as <- _; reflexivity|]); cbn [subject] in E; try rewrite E in H.
          - unfold load_controller in H. rewrite E, F0 in H. cbn in H. injection H as <- _. reflexivity.
          - unfold unload_controller in H. rewrite F0 in H. unfold is_lc in H. rewrite L in H. cbn in H. injection H as <- _. reflexivity.
          - unfold cleanup_controller in H. rewrite F0, L in H. cbn in H. injection H as <- _. reflexivity.
          - unfold configure_controller in H. rewrite F0, L in H. cbn in H. injection H as <- _. reflexivity. }
        subst m'. change (find_ctrl m n = Some c') in F'. congruence.
      + destruct (step_YK e allow n m o m' out HG0 H Mo N) as [_ Y]. rewrite F in Y. destruct Y as (x & Fx & _ & Lx). congruence.
    - eapply WR_trans; [exact XE|]. unfold cstep in H. set (m0 := emit m EvOp) in *. assert (NS0 : ~ In n (may_start m0 o)) by exact NS.
      destruct o; try discriminate Mo; cbv zeta in H; cbn [may_start] in NS0.
      + unfold serviced in H. destruct (cm_pend m0); [injection H as <- _; apply WR_refl|]. apply bind_val in H. destruct H as ((m1 & o1) & H1 & H). injection H as <- _.
        exfalso. apply L'. apply request_grow in H1. destruct H1 as (r & _ & [(-> & _)|(p & -> & _)]); change (find_ctrl m n = Some c') in F'; congruence.
      + destruct (cm_pend m0) as [p|]; [|injection H as <- _; apply WR_refl]. destruct (p_done p); [injection H as <- _; apply WR_refl|].
        apply bind_val in H. destruct H as (m1 & H1 & H). injection H as <- _. eapply WR_trans; [eapply WR_manage; eassumption|]. apply WR_same; try reflexivity. apply XR_same; reflexivity.
      + destruct (cm_pend m0) as [p|]; [|injection H as <- _; apply WR_refl]. destruct (p_done p); injection H as <- _; [apply WR_refl|]. apply WR_same; try reflexivity. apply XR_same; reflexivity.
      + destruct (cm_pend m0) as [p|]; [|injection H as <- _; apply WR_refl]. destruct (p_done p); [|injection H as <- _; apply WR_refl].
        exfalso. apply L'. assert (Em : m' = set_pend (set_ctrls m0 (map (refresh_claimed (cm_rm m0)) (cm_ctrls m0))) None) by (unfold to_out, evaluate in H; cbn [fst snd] in H; congruence).
        rewrite Em in F'. unfold find_ctrl in F'. cbn [set_pend set_ctrls cm_ctrls] in F'. rewrite CmOutcome.find_refresh in F'. change (find_in (cm_ctrls m0) n) with (find_ctrl m n) in F'. rewrite F in F'. injection F' as <-. exact L.
      + injection H as <- _. apply WR_read. apply HG0.
      + apply bind_val in H. destruct H as (m1 & H1 & H). injection H as <- _. eapply WR_update; eassumption.
      + injection H as <- _. apply WR_write. apply HG0.
      + exfalso. apply L'. destruct (set_component_state e (cm_rm m0) h target) as [r1 ok]. injection H as <- _. change (find_ctrl m n = Some c') in F'. congruence. }
  pose proof (wr_w _ _ _ _ X) as XW0. pose proof (xw_find _ _ _ _ XW0) as FX. rewrite F in FX. destruct FX as (y & Fy & SC & _). assert (y = c') by congruence. subst y.
  split.
  - apply (wr_k _ _ _ _ X DI D KN WM c' F' L'). rewrite (proj1 (proj2 SC)). exact Ch.
  - destruct SC as (S1 & _ & _ & _ & _ & S6 & S7). unfold on_record, refs_of, exps_of in *. rewrite (xw_refs _ _ _ _ XW0), (xw_exps _ _ _ _ XW0), S1, S6, S7. split; [exact O1|]. exists es. auto.
Qed.
