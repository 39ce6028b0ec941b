(** CmReload2.v -- proof that reload_controller_libraries succeeds when it can. *)
From Verif Require Import Base Events HwModel RmModel RmSys RmSpec RmSpec2 RmInv RmAvail RmProofs RmMode ChainModel CmModel CmPrim ChainSpec CmTopo ChainMain CmInv CmExcl CmReach CmSpec CmSwitch CmOutcome CmLoad CmCache CmCache2 UpdateSpec FollowSpec CmFollow CmLeak CmDeact CmFallback CmRefs DoneSpec CmDone TellSpec CmTell CmIntact AcceptSpec CmAccept BestSpec CmPend CmBest CmHwErr ReloadModel ReloadSpec CmReload.
Open Scope list_scope.

Lemma in_active m n : In n (active_names m) <-> exists c, In c (cm_ctrls m) /\ c_name c = n /\ c_lc c = Active.
Proof.
  unfold active_names. rewrite in_map_iff. split.
  - intros (c & <- & F). apply filter_In in F. destruct F as [I L]. apply active_dec in L. eauto.
  - intros (c & I & <- & L). exists c. split; [reflexivity|]. apply filter_In. split; [exact I|apply active_dec; exact L].
Qed.
Lemma NoDup_active m : NoDup (map c_name (cm_ctrls m)) -> NoDup (active_names m).
Proof.
  unfold active_names. induction (cm_ctrls m) as [|c l IH]; intros H; [constructor|]. cbn [map] in H. inversion H as [|? ? X Y]. subst. cbn [filter].
  destruct (is_lc Active c); [|apply IH; exact Y]. cbn [map]. constructor; [|apply IH; exact Y]. intros I. apply X. apply in_map_iff in I. destruct I as (d & E & I).
  apply filter_In in I. rewrite <- E. apply in_map. apply I.
Qed.
Lemma stoppable_acceptable e allow m : NI m -> stoppable e allow m -> active_names m <> [] -> acceptable e allow m [] (active_names m).
Proof.
  intros [ND _] S NE. assert (Q : forall c, In c (cm_ctrls m) -> In (c_name c) (active_names m) -> c_lc c = Active).
  { intros c I A. apply in_active in A. destruct A as (d & Id & E & L). assert (X : Some c = Some d) by (rewrite <- (NoDup_find _ _ ND I), <- (NoDup_find _ _ ND Id), E; reflexivity). injection X as ->. exact L. }
  assert (NR : forall c, ~ runs_after m [] (active_names m) c).
  { intros c (I & [[]|[L N]]). apply N. apply in_active. eauto. }
  constructor.
  - apply S.
  - exact NE.
  - apply NoDup_active. exact ND.
  - intros n Hn. cbn [app] in Hn. apply in_active in Hn. destruct Hn as (c & I & E & _). eauto.
  - intros c I A. apply Q; assumption.
  - intros c _ [].
  - split; [intros c X; destruct (NR c X)|]. intros c1 c2 k X. destruct (NR c1 X).
  - intros c I A. apply (st_named _ _ _ S c I). apply Q; assumption.
  - apply S.
  - intros c n _ [].
  - apply S.
  - intros h c k Ih Ic [A|A] Wk Hk; [|destruct (NR c A)]. apply (st_hw _ _ _ S h c k Ih Ic (Q c Ic A) Wk Hk).
  - apply S.
  - apply S.
  - apply S.
  - apply S.
Qed.
Lemma prop_empty l : forall cs w, w_deact w = [] -> propagate l cs w = Val w.
Proof. induction cs as [|c cs IH]; intros w E; cbn [propagate]; [reflexivity|]. rewrite E. cbn [mem existsb]. apply IH. exact E. Qed.
Lemma stop_none e allow m rt : cm_pend m = None -> exists m1, stop_all e allow m [] rt = Val (m1, true) /\ cm_ctrls m1 = cm_ctrls m /\ cm_pend m1 = None.
Proof.
  intros P. unfold stop_all, cstep, serviced. set (me := emit m EvOp). assert (Pe : cm_pend me = None) by exact P. rewrite Pe.
  unfold switch_request. cbn [list_controllers]. rewrite prop_empty by reflexivity. cbn [bind act_loop deact_loop w_deact sw_empty w_act].
  eexists. split; [reflexivity|]. split; [reflexivity|exact P].
Qed.
Definition tame (m : cm) : Prop := forall c, In c (cm_ctrls m) -> c_lc c = Unconfigured \/ c_lc c = Inactive.
Lemma tame_idle m : tame m -> idle m.
Proof. intros T c I. destruct (T c I) as [-> | ->]; discriminate. Qed.
Lemma unload_works e allow m n c : (forall t k, e_ctrl e t k Events.CCleanup = CbSuccess) -> NI m -> cm_pend m = None -> find_ctrl m n = Some c -> c_lc c = Unconfigured \/ c_lc c = Inactive ->
  exists m', cstep e allow m (CUnload n) = Val (m', CBool true) /\ cm_ctrls m' = others n m /\ cm_pend m' = None.
Proof.
  intros CL HN P F L. assert (E : exists m', cstep e allow m (CUnload n) = Val (m', CBool true)).
  { unfold cstep, serviced, to_out. set (me := emit m EvOp). assert (Pe : cm_pend me = None) by exact P. rewrite Pe. unfold unload_controller.
    assert (Fe : find_ctrl me n = Some c) by exact F. rewrite Fe.
    assert (LA : is_lc Active c = false) by (unfold is_lc; destruct L as [-> | ->]; reflexivity). rewrite LA.
    assert (CC : exists m1, cleanup_controller e me n = (m1, true)).
    { unfold cleanup_controller. rewrite Fe. destruct L as [L|L]; rewrite L; [eauto|]. unfold cleanup_spec.
      set (mx := cleanup_exports me n). assert (Fx : find_ctrl mx n = Some c).
      { unfold mx, cleanup_exports. rewrite Fe. destruct (negb (is_lc Active c) && c_chainable c); exact Fe. }
      eexists. f_equal. unfold node_cleanup, node_transition. rewrite Fx, L. cbn [lc_eqb]. unfold ctrl_call. rewrite CL. unfold has_lc.
      match goal with |- context [find_ctrl (upd ?x n ?f) n] => rewrite (find_upd_same x n f n c) by (exact Fx || (intros; reflexivity)) end. rewrite String.eqb_refl. reflexivity. }
    destruct CC as (m1 & ->). cbn [negb]. eexists. reflexivity. }
  destruct E as (m' & E). exists m'. split; [exact E|]. destruct (unload_pend _ _ _ _ _ _ HN P E) as [P' _]. split; [|exact P'].
  unfold cstep, serviced, to_out in E. set (me := emit m EvOp) in *. assert (Pe : cm_pend me = None) by exact P. rewrite Pe in E. injection E as <- B.
  apply (unload_frame e me n (proj1 HN)). exact B.
Qed.
Lemma unload_all_done e allow hs : (forall t k, e_ctrl e t k Events.CCleanup = CbSuccess) -> forall ns ops m rt, crun e allow (cm_start hs) ops = Val m -> cm_pend m = None ->
  map c_name (cm_ctrls m) = ns -> tame m -> exists m', unload_all e allow m ns rt = Val (m', true).
Proof.
  intros CL. induction ns as [|n ns IH]; intros ops m rt R P N T; cbn [unload_all]; [eauto|].
  pose proof (reach_NI _ _ _ _ _ R) as HN. destruct (cm_ctrls m) as [|c l] eqn:EC; [discriminate|]. cbn [map] in N. injection N as N1 N2.
  assert (F : find_ctrl m n = Some c). { unfold find_ctrl, find_in. rewrite EC. cbn [find]. rewrite N1, String.eqb_refl. reflexivity. }
  assert (Ic : In c (cm_ctrls m)) by (rewrite EC; left; reflexivity).
  destruct (unload_works e allow m n c CL HN P F (T c Ic)) as (m1 & H1 & C1 & P1). rewrite H1. cbn [bind].
  assert (T1 : tame m1). { intros x Hx. rewrite C1 in Hx. apply filter_In in Hx. apply T. apply Hx. }
  destruct (idle_rt e allow (hd [] rt) m1 (tame_idle _ T1)) as (m2 & H2 & C2 & P2); [unfold settled; rewrite P1; exact I|]. rewrite H2. cbn [bind].
  assert (N3 : map c_name (cm_ctrls m2) = ns).
  { rewrite C2, C1. unfold others. rewrite EC. cbn [filter]. rewrite N1, String.eqb_refl. cbn [negb]. destruct HN as [ND _]. rewrite EC in ND. cbn [map] in ND. inversion ND as [|? ? X _]. subst.
    clear - X. induction l as [|d l IH]; [reflexivity|]. cbn [filter map]. destruct (String.eqb_spec (c_name d) (c_name c)) as [E|_]; [exfalso; apply X; left; exact E|]. cbn [negb map]. f_equal. apply IH. intros I. apply X. right. exact I. }
  destruct (reach_runs _ _ _ _ _ _ R (rt_trans _ _ _ _ _ (rt_one _ _ _ _ _ _ H1) (rt_rt _ _ _ _ _ H2))) as (ops2 & R2).
  apply (IH ops2 m2 (tl rt) R2); [congruence|exact N3|]. intros x Hx. rewrite C2 in Hx. apply T1. exact Hx.
Qed.
Lemma main_reload_done e allow hs ops m post rest : wf_hw hs -> crun e allow (cm_start hs) ops = Val m -> stoppable e allow m ->
  exists m', reload e allow m true ((CPerform :: post) :: rest) = Val (m', true).
Proof.
  intros W R S. pose proof (reach_NI _ _ _ _ _ R) as HN.
  assert (CU : cleans_up e). { intros t n. rewrite (st_clean _ _ _ S). discriminate. }
  assert (X : exists m1, stop_all e allow m (active_names m) (CPerform :: post) = Val (m1, true) /\ tame m1).
  { destruct (active_names m) as [|x act] eqn:EA.
    - destruct (stop_none e allow m (CPerform :: post) (st_idle _ _ _ S)) as (m1 & H & C & _). exists m1. split; [exact H|].
      intros c Ic. rewrite C in Ic. destruct (st_lc _ _ _ S c Ic) as [L|[L|L]]; [auto|auto|].
      assert (Z : In (c_name c) (active_names m)) by (apply in_active; eauto). rewrite EA in Z. destruct Z.
    - assert (HA : acceptable e allow m [] (active_names m)) by (apply stoppable_acceptable; [exact HN|exact S|rewrite EA; discriminate]).
      rewrite <- EA. clear x act EA.
      destruct (main_best_done e allow hs ops m [] (active_names m) false W CU R HA) as (m1 & m2 & m3 & H1 & H2 & H3 & H4 & _).
      { intros n [[]|A]. unfold state_in in A. destruct (find_ctrl m n) as [c|] eqn:F; [|discriminate]. cbn in A. rewrite <- (find_in_name _ _ _ F). apply (st_works _ _ _ S c (find_in_In _ _ _ F)). congruence. }
      { apply S. }
      unfold stop_all. rewrite H1. cbn [bind]. unfold rt_run. cbn [filter rt_op]. unfold crun. cbn [rfold]. rewrite H2. cbn [bind].
      assert (C3 : exists p, cm_pend m2 = Some p /\ p_done p = true /\ cm_ctrls m3 = map (refresh_claimed (cm_rm (emit m2 EvOp))) (cm_ctrls m2) /\ switch_ok (emit m2 EvOp) p = true).
      { unfold cstep in H3. change (cm_pend (emit m2 EvOp)) with (cm_pend m2) in H3. destruct (cm_pend m2) as [p|]; [|discriminate]. exists p. destruct (p_done p); [|discriminate].
        unfold to_out, evaluate in H3. cbn [fst snd] in H3. injection H3 as <- B. auto. }
      destruct C3 as (p & Pp & Dp & C3 & OK).
      assert (R2 : exists ops2, crun e allow (cm_start hs) ops2 = Val m2) by (apply (reach_runs _ _ _ _ _ _ R); eapply rt_trans; eapply rt_one; eassumption).
      assert (T2 : forall c, In c (cm_ctrls m2) -> c_lc c = Unconfigured \/ c_lc c = Inactive).
      { intros c Ic. destruct R2 as (ops2 & R2). pose proof (reach_NI _ _ _ _ _ R2) as [ND2 _].
        pose proof (H4 (c_name c)) as Q. assert (Q3 : state_in m3 (c_name c) = Some (c_lc c)).
        { unfold state_in, find_ctrl. rewrite C3, find_refresh, (NoDup_find _ _ ND2 Ic). reflexivity. }
        rewrite Q3 in Q. unfold asked_state in Q. destruct (in_dec string_dec (c_name c) []) as [[]|_].
        destruct (in_dec string_dec (c_name c) (active_names m)) as [_|NA]; [injection Q as ->; auto|].
        unfold state_in in Q. destruct (find_ctrl m (c_name c)) as [d|] eqn:F; [|discriminate]. cbn in Q. injection Q as Q. rewrite Q.
        destruct (st_lc _ _ _ S d (find_in_In _ _ _ F)) as [L|[L|L]]; [auto|auto|]. exfalso. apply NA. apply in_active. exists d. split; [exact (find_in_In _ _ _ F)|]. split; [apply (find_in_name _ _ _ F)|exact L]. }
      destruct (idle_rt e allow post m2 (tame_idle m2 T2)) as (m2' & H2' & C2' & P2'); [unfold settled; rewrite Pp; exact Dp|].
      unfold rt_run, crun in H2'. rewrite H2'. cbn [bind]. rewrite P2', Pp, Dp. unfold cstep. change (cm_pend (emit m2' EvOp)) with (cm_pend m2'). rewrite P2', Pp, Dp.
      unfold to_out, evaluate. cbn [bind fst snd]. eexists. split.
      + f_equal. f_equal. unfold switch_ok in *. change (cm_ctrls (emit m2' EvOp)) with (cm_ctrls m2'). rewrite C2'. exact OK.
      + intros c Ic. cbn [cm_ctrls set_pend set_ctrls] in Ic. apply in_map_iff in Ic. destruct Ic as (c0 & <- & I0). change (cm_ctrls (emit m2' EvOp)) with (cm_ctrls m2') in I0. rewrite C2' in I0.
        destruct (refresh_keeps (cm_rm (emit m2' EvOp)) c0) as [_ ->]. apply T2. exact I0. }
  destruct X as (m1 & H1 & T1). destruct (stop_all_kept _ _ _ _ _ _ _ (st_idle _ _ _ S) H1) as (A & B & C).
  destruct (reach_runs _ _ _ _ _ _ R A) as (ops1 & R1). unfold reload. cbn [hd tl].
  assert (Z : exists m', (do (m0, ok) <- stop_all e allow m (active_names m) (CPerform :: post); if ok then unload_all e allow m0 (map c_name (cm_ctrls m)) rest else Val (m0, false)) = Val (m', true)).
  { rewrite H1. cbn [bind]. exact (unload_all_done e allow hs (st_clean _ _ _ S) _ ops1 m1 rest R1 B C T1). }
  destruct (active_names m) as [|x act]; destruct (cm_ctrls m) as [|c l]; try (eexists; reflexivity); exact Z.
Qed.
