(** CmReload.v -- proofs about reload_controller_libraries. *)
From Verif Require Import Base Events HwModel RmModel RmSys RmSpec RmSpec2 RmInv RmAvail RmProofs RmMode ChainModel CmModel CmPrim ChainSpec CmTopo ChainMain CmInv CmExcl CmReach CmSpec CmSwitch CmOutcome CmLoad CmCache CmCache2 UpdateSpec FollowSpec CmFollow CmLeak CmDeact CmFallback CmRefs DoneSpec CmDone TellSpec CmTell CmIntact AcceptSpec CmAccept BestSpec CmPend CmBest CmHwErr ReloadModel.
Open Scope list_scope.

Lemma crun_app e allow : forall o1 m o2, crun e allow m (o1 ++ o2) = (do m1 <- crun e allow m o1; crun e allow m1 o2).
Proof.
  unfold crun. induction o1 as [|o o1 IH]; intros m o2; cbn [app rfold]; [reflexivity|].
  destruct (cstep e allow m o) as [[m' x]|]; cbn [bind]; [apply IH|reflexivity].
Qed.
Lemma crun_one e allow m o m' out : cstep e allow m o = Val (m', out) -> crun e allow m [o] = Val m'.
Proof. intros H. unfold crun. cbn [rfold]. rewrite H. reflexivity. Qed.
(** what the service does is a sequence of operations *)
Definition runs_to (e : env) (allow : bool) (m m' : cm) : Prop := exists ops, crun e allow m ops = Val m'.
Lemma rt_refl e allow m : runs_to e allow m m. Proof. exists []. reflexivity. Qed.
Lemma rt_trans e allow a b c : runs_to e allow a b -> runs_to e allow b c -> runs_to e allow a c.
Proof. intros (o1 & H1) (o2 & H2). exists (o1 ++ o2). rewrite crun_app, H1. exact H2. Qed.
Lemma rt_one e allow m o m' out : cstep e allow m o = Val (m', out) -> runs_to e allow m m'.
Proof. intros H. exists [o]. eapply crun_one. exact H. Qed.
Lemma rt_rt e allow m ops m' : rt_run e allow m ops = Val m' -> runs_to e allow m m'.
Proof. intros H. exists (filter rt_op ops). exact H. Qed.
Lemma reach_runs e allow hs ops m m' : crun e allow (cm_start hs) ops = Val m -> runs_to e allow m m' -> exists ops', crun e allow (cm_start hs) ops' = Val m'.
Proof. intros H (o & R). exists (ops ++ o). rewrite crun_app, H. exact R. Qed.

(** the real-time loop keeps the list of controllers, and neither starts nor ends a request *)
Lemma rt_step_kept e allow m o m' out : rt_op o = true -> cstep e allow m o = Val (m', out) ->
  map c_name (cm_ctrls m') = map c_name (cm_ctrls m) /\ (cm_pend m = None -> cm_pend m' = None).
Proof.
  intros R H. assert (KU : quiet_kinds KUp) by (split; discriminate). assert (KH : quiet_kinds KHw) by (split; discriminate).
  destruct (cm_pend m) as [p|] eqn:P.
  - split; [|discriminate]. eapply (pending_kept e allow m o m' out p P H); destruct o; discriminate.
  - destruct o; try discriminate R; unfold cstep in H; set (me := emit m EvOp) in *; assert (Pe : cm_pend me = None) by exact P.
    + rewrite Pe in H. injection H as <- _. auto.
    + injection H as <- _. assert (S : steps e allow quiet_kinds me (cm_read e allow me)) by (apply read_steps; exact KH).
      apply quiet_steps in S. destruct S as [S1 S2]. split; [exact S2|]. intros _. congruence.
    + apply bind_val in H. destruct H as (m1 & H & E). injection E as <- _.
      assert (S : steps e allow quiet_kinds me m1) by (eapply update_steps; [exact KU|exact H]).
      apply quiet_steps in S. destruct S as [S1 S2]. split; [exact S2|]. intros _. congruence.
    + injection H as <- _. assert (S : steps e allow quiet_kinds me (cm_write e allow me)) by (apply write_steps; exact KH).
      apply quiet_steps in S. destruct S as [S1 S2]. split; [exact S2|]. intros _. congruence.
Qed.
Lemma rt_kept e allow : forall ops m m', rt_run e allow m ops = Val m' ->
  map c_name (cm_ctrls m') = map c_name (cm_ctrls m) /\ (cm_pend m = None -> cm_pend m' = None).
Proof.
  unfold rt_run, crun. induction ops as [|o ops IH]; intros m m' H; cbn [filter rfold] in H; [injection H as <-; auto|].
  destruct (rt_op o) eqn:R; [|apply IH; exact H]. cbn [rfold] in H. apply bind_val in H. destruct H as (m1 & H1 & H).
  apply bind_val in H1. destruct H1 as ([m1' out] & H1 & E). injection E as <-. destruct (rt_step_kept _ _ _ _ _ _ R H1) as [A B]. destruct (IH _ _ H) as [A' B'].
  split; [congruence|auto].
Qed.

(** while no controller is active the real-time loop leaves the controllers alone *)
Definition idle (m : cm) : Prop := forall c, In c (cm_ctrls m) -> c_lc c <> Active.
Definition settled (m : cm) : Prop := match cm_pend m with Some p => p_done p = true | None => True end.
Lemma idle_is m n c : idle m -> find_ctrl m n = Some c -> is_lc Active c = false.
Proof. intros I F. apply not_true_is_false. intros L. apply active_dec in L. exact (I c (find_in_In _ _ _ F) L). Qed.
Lemma idle_deact e ns : forall m, idle m -> deactivate_controllers e m ns = m.
Proof.
  unfold deactivate_controllers. induction ns as [|n ns IH]; intros m I; cbn [fold_left]; [reflexivity|].
  assert (E : deactivate_one e m n = m). { unfold deactivate_one. destruct (find_ctrl m n) as [c|] eqn:F; [|reflexivity]. rewrite (idle_is m n c I F). reflexivity. }
  rewrite E. apply IH. exact I.
Qed.
Lemma idle_update e p : forall l m ds, (forall c, In c l -> is_lc Active c = false) -> fold_left (update_one e p) l (m, ds) = (m, ds).
Proof.
  induction l as [|c l IH]; intros m ds I; cbn [fold_left]; [reflexivity|].
  assert (E : update_one e p (m, ds) c = (m, ds)). { unfold update_one. rewrite (I c (or_introl eq_refl)). cbn [andb]. destruct (skipped p (c_name c)); reflexivity. }
  rewrite E. apply IH. intros x Hx. apply I. right. exact Hx.
Qed.
Lemma idle_step e allow m o : rt_op o = true -> idle m -> settled m ->
  exists m', cstep e allow m o = Val (m', CNone) /\ cm_ctrls m' = cm_ctrls m /\ cm_pend m' = cm_pend m.
Proof.
  intros R I S. unfold settled in S. destruct o; try discriminate R; unfold cstep; set (me := emit m EvOp).
  - change (cm_pend me) with (cm_pend m). destruct (cm_pend m) as [p|] eqn:P; [rewrite S|]; exists me; auto.
  - eexists. split; [reflexivity|]. unfold cm_read. destruct (rm_read e (cm_rm me)) as [r1 st]. destruct (rtype_eqb (rw_result st) ROk); [auto|].
    rewrite idle_deact; [unfold mode_change, prep_perf; match goal with |- context [rm_prepare ?a ?b ?c ?d ?f] => destruct (rm_prepare a b c d f) end; auto|].
    unfold mode_change, prep_perf. match goal with |- context [rm_prepare ?a ?b ?c ?d ?f] => destruct (rm_prepare a b c d f) end. exact I.
  - unfold cm_update. rewrite idle_update; [eexists; split; [reflexivity|auto]|]. intros c Ic. apply not_true_is_false. intros L. apply active_dec in L. exact (I c Ic L).
  - eexists. split; [reflexivity|]. unfold cm_write. destruct (rm_write e (cm_rm me)) as [r1 st].
    assert (Q : forall ds, cm_ctrls (deactivate_controllers e (mode_change e allow (set_rm me r1) [] ds) ds) = cm_ctrls m /\ cm_pend (deactivate_controllers e (mode_change e allow (set_rm me r1) [] ds) ds) = cm_pend m).
    { intros ds. rewrite idle_deact; [unfold mode_change, prep_perf; match goal with |- context [rm_prepare ?a ?b ?c ?d ?f] => destruct (rm_prepare a b c d f) end; auto|].
      unfold mode_change, prep_perf. match goal with |- context [rm_prepare ?a ?b ?c ?d ?f] => destruct (rm_prepare a b c d f) end. exact I. }
    destruct (rw_result st); [auto|apply Q|apply Q].
Qed.
Lemma idle_rt e allow : forall ops m, idle m -> settled m -> exists m', rt_run e allow m ops = Val m' /\ cm_ctrls m' = cm_ctrls m /\ cm_pend m' = cm_pend m.
Proof.
  unfold rt_run, crun. induction ops as [|o ops IH]; intros m I S; cbn [filter rfold]; [eauto|]. destruct (rt_op o) eqn:R; [|apply IH; assumption].
  destruct (idle_step e allow m o R I S) as (m1 & H1 & C1 & P1). cbn [rfold]. rewrite H1. cbn [bind].
  destruct (IH m1) as (m2 & H2 & C2 & P2); [unfold idle; rewrite C1; exact I|unfold settled; rewrite P1; exact S|]. exists m2. split; [exact H2|]. split; congruence.
Qed.

(** ---------------------------------------------------------------- soundness *)
Lemma unload_pend e allow m n m' out : NI m -> cm_pend m = None -> cstep e allow m (CUnload n) = Val (m', out) -> cm_pend m' = None /\ exists b, out = CBool b.
Proof.
  intros HN P H. unfold cstep, serviced in H. set (me := emit m EvOp) in *. assert (Pe : cm_pend me = None) by exact P. rewrite Pe in H. unfold to_out in H. injection H as <- <-.
  split; [|eauto]. assert (S : steps e allow CmOutcome.no_pend me (fst (unload_controller e me n))) by (apply unload_steps; first [exact (proj1 HN)|unfold CmOutcome.no_pend; discriminate]).
  apply steps_pend in S; [congruence|]. intros X. apply X. reflexivity.
Qed.
Lemma unload_all_ok e allow hs : forall ns ops m rt m' b, crun e allow (cm_start hs) ops = Val m -> cm_pend m = None -> map c_name (cm_ctrls m) = ns ->
  unload_all e allow m ns rt = Val (m', b) -> runs_to e allow m m' /\ cm_pend m' = None /\ (b = true -> cm_ctrls m' = []) /\ exists k, map c_name (cm_ctrls m') = skipn k ns.
Proof.
  induction ns as [|n ns IH]; intros ops m rt m' b R P N H; cbn [unload_all] in H.
  { injection H as <- <-. split; [apply rt_refl|]. split; [exact P|]. split; [intros _; apply map_eq_nil in N; exact N|exists 0; exact N]. }
  apply bind_val in H. destruct H as ([m1 o] & H1 & H). pose proof (rt_one _ _ _ _ _ _ H1) as R1. destruct (unload_pend _ _ _ _ _ _ (reach_NI _ _ _ _ _ R) P H1) as (P1 & b1 & ->).
  pose proof (main_unload _ _ _ _ _ _ _ _ R H1) as U. destruct b1.
  - destruct U as (U & _ & _). apply bind_val in H. destruct H as (m2 & H2 & H). destruct (rt_kept _ _ _ _ _ H2) as [N2 P2].
    assert (N3 : map c_name (cm_ctrls m2) = ns).
    { rewrite N2, U. pose proof (reach_NI _ _ _ _ _ R) as [ND _]. unfold others. revert N ND. destruct (cm_ctrls m) as [|c l]; [discriminate|]. cbn [map filter]. intros [= <- <-] ND.
      rewrite String.eqb_refl. cbn [negb]. inversion ND as [|? ? X _]. subst. clear - X. induction l as [|d l IH]; [reflexivity|]. cbn [filter map].
      destruct (String.eqb_spec (c_name d) (c_name c)) as [E|_]; [exfalso; apply X; left; exact E|]. cbn [negb map]. f_equal. apply IH. intros I. apply X. right. exact I. }
    pose proof (rt_trans _ _ _ _ _ R1 (rt_rt _ _ _ _ _ H2)) as R2. destruct (reach_runs _ _ _ _ _ _ R R2) as (ops2 & RR2).
    destruct (IH ops2 m2 (tl rt) m' b RR2 (P2 P1) N3 H) as (A & B & C & k & D). split; [eapply rt_trans; eassumption|]. split; [exact B|]. split; [exact C|]. exists (S k). exact D.
  - destruct U as [U _]. injection H as <- <-. split; [exact R1|]. split; [exact P1|]. split; [discriminate|]. exists 0. cbn [skipn]. congruence.
Qed.
Lemma stop_all_kept e allow m act rt m' b : cm_pend m = None -> stop_all e allow m act rt = Val (m', b) ->
  runs_to e allow m m' /\ cm_pend m' = None /\ map c_name (cm_ctrls m') = map c_name (cm_ctrls m).
Proof.
  intros P H. unfold stop_all in H. apply bind_val in H. destruct H as ([m1 o] & H1 & H). pose proof (rt_one _ _ _ _ _ _ H1) as R1.
  assert (Q : cm_ctrls m1 = cm_ctrls m /\ exists x, o = CSw x /\ (x <> SwPending -> cm_pend m1 = None)).
  { unfold cstep, serviced in H1. set (me := emit m EvOp) in *. assert (Pe : cm_pend me = None) by exact P. rewrite Pe in H1. apply bind_val in H1. destruct H1 as ([m1' x] & H1 & E). injection E as <- <-.
    destruct (request_grow _ _ _ _ _ _ _ _ _ H1) as (r & _ & [[-> N]|(p & -> & -> & _)]); split; try reflexivity; eexists; (split; [reflexivity|]); [intros _; exact Pe|intros N; contradiction]. }
  destruct Q as (C1 & x & -> & PN). destruct x.
  - injection H as <- <-. split; [exact R1|]. split; [apply PN; discriminate|congruence].
  - injection H as <- <-. split; [exact R1|]. split; [apply PN; discriminate|congruence].
  - apply bind_val in H. destruct H as (m2 & H2 & H). destruct (rt_kept _ _ _ _ _ H2) as [N2 P2]. pose proof (rt_trans _ _ _ _ _ R1 (rt_rt _ _ _ _ _ H2)) as R2.
    destruct (cm_pend m2) as [p|] eqn:Pp; [|injection H as <- <-; split; [exact R2|split; [exact Pp|congruence]]].
    destruct (p_done p) eqn:D; apply bind_val in H; destruct H as ([m3 o3] & H3 & H); injection H as <- _; pose proof (rt_one _ _ _ _ _ _ H3) as R3;
      (split; [eapply rt_trans; eassumption|]); unfold cstep in H3; change (cm_pend (emit m2 EvOp)) with (cm_pend m2) in H3; rewrite Pp, D in H3.
    + unfold to_out, evaluate in H3. cbn [fst snd] in H3. injection H3 as <- _. split; [reflexivity|]. cbn [cm_ctrls set_pend set_ctrls]. rewrite map_map. change (cm_ctrls (emit m2 EvOp)) with (cm_ctrls m2).
      rewrite (map_ext (fun x => c_name (refresh_claimed (cm_rm (emit m2 EvOp)) x)) c_name (fun x => proj1 (refresh_keeps _ x))). congruence.
    + injection H3 as <- _. split; [reflexivity|]. change (map c_name (cm_ctrls m2) = map c_name (cm_ctrls m)). congruence.
Qed.
Lemma main_reload e allow hs ops m force rt m' b : wf_hw hs -> crun e allow (cm_start hs) ops = Val m -> cm_pend m = None ->
  reload e allow m force rt = Val (m', b) ->
  cm_pend m' = None /\ (b = true -> cm_ctrls m' = [] /\ forall k, In k (flat_map h_cmd hs) -> aget (rm_claimed (cm_rm m')) k <> Some true) /\
  exists k, map c_name (cm_ctrls m') = skipn k (map c_name (cm_ctrls m)).
Proof.
  intros W R P H. unfold reload in H.
  assert (X : (m' = m /\ b = false) \/ (m' = m /\ b = true /\ cm_ctrls m = []) \/
    (exists m1 ok, stop_all e allow m (active_names m) (hd [] rt) = Val (m1, ok) /\ (if ok then unload_all e allow m1 (map c_name (cm_ctrls m)) (tl rt) else Val (m1, false)) = Val (m', b))).
  { destruct (active_names m) as [|x act]; [|destruct force].
    - destruct (cm_ctrls m) as [|c l]; [injection H as <- <-; auto|]. apply bind_val in H. destruct H as ([m1 ok] & H1 & H). right. right. exists m1, ok. auto.
    - destruct (cm_ctrls m) as [|c l]; [injection H as <- <-; auto|]. apply bind_val in H. destruct H as ([m1 ok] & H1 & H). right. right. exists m1, ok. auto.
    - injection H as <- <-. auto. }
  assert (Y : runs_to e allow m m' /\ cm_pend m' = None /\ (b = true -> cm_ctrls m' = []) /\ exists k, map c_name (cm_ctrls m') = skipn k (map c_name (cm_ctrls m))).
  { destruct X as [[-> ->]|[(-> & -> & E)|(m1 & ok & H1 & H2)]].
    - split; [apply rt_refl|]. split; [exact P|]. split; [discriminate|]. exists 0. reflexivity.
    - split; [apply rt_refl|]. split; [exact P|]. split; [intros _; exact E|]. exists 0. reflexivity.
    - destruct (stop_all_kept _ _ _ _ _ _ _ P H1) as (A & B & C). destruct ok.
      + destruct (reach_runs _ _ _ _ _ _ R A) as (ops1 & R1). destruct (unload_all_ok e allow hs _ ops1 m1 (tl rt) m' b R1 B C H2) as (A2 & B2 & C2 & k & D2).
        split; [eapply rt_trans; eassumption|]. split; [exact B2|]. split; [exact C2|]. exists k. exact D2.
      + injection H2 as <- <-. split; [exact A|]. split; [exact B|]. split; [discriminate|]. exists 0. exact C. }
  destruct Y as (Y1 & Y2 & Y3 & Y4). split; [exact Y2|]. split; [|exact Y4]. intros B. specialize (Y3 B). split; [exact Y3|].
  intros k Hk T. destruct (reach_runs _ _ _ _ _ _ R Y1) as (ops' & R'). apply (main_held _ _ _ _ _ k W Hk R') in T. destruct T as (c & Ic & _). rewrite Y3 in Ic. destruct Ic.
Qed.
Lemma main_reload_refused e allow m rt n : state_in m n = Some Active -> reload e allow m false rt = Val (m, false).
Proof.
  intros H. unfold reload. assert (I : active_names m <> []).
  { unfold state_in in H. destruct (find_ctrl m n) as [c|] eqn:F; [|discriminate]. cbn in H. injection H as H. intros E.
    assert (J : In (c_name c) (active_names m)). { unfold active_names. apply in_map. apply filter_In. split; [eapply find_in_In; exact F|apply active_dec; exact H]. }
    rewrite E in J. destruct J. }
  destruct (active_names m); [contradiction|reflexivity].
Qed.
