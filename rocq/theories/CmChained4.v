(** CmChained4.v -- a controller leaves chained mode when its last user stops. *)
From Verif Require Import Base Events HwModel RmModel RmSys RmSpec RmProofs RmInv CmModel CmPrim CmInv CmSpec CmSwitch FollowSpec CmFollow UpdateSpec CmDeact BestSpec CmBystander CmDone ChainedSpec CmChained CmChained2 CmChained3.
Open Scope list_scope.

Section F.
Variables (m : cm) (n : name) (a0 d0 : list name).
Let l := cm_ctrls m.
Hypothesis NR : ~ running_user m a0 d0 n.
Lemma prop_from_mono ks : forall w w', rfold (propagate_itf l) ks w = Val w' -> In n (w_from w) -> In n (w_from w').
Proof.
  induction ks as [|k ks IH]; intros w w' H I; cbn [rfold] in H; [injection H as <-; exact I|]. apply bind_val in H. destruct H as (w1 & H1 & H).
  eapply IH; [exact H|]. unfold propagate_itf in H1. apply bind_val in H1. destruct H1 as (fo & _ & H1). injection H1 as <-. destruct fo; [|exact I]. cbn. apply In_add_item. right. exact I.
Qed.
Lemma prop_from_hit k ks : owned_by k n -> In n (map c_name l) -> forall w w', rfold (propagate_itf l) ks w = Val w' -> In k ks -> In n (w_from w').
Proof.
  intros Ow In_n. induction ks as [|k' ks IH]; intros w w' H I; [destruct I|]. cbn [rfold] in H. apply bind_val in H. destruct H as (w1 & H1 & H).
  destruct I as [->|I]; [|eapply IH; eassumption]. eapply prop_from_mono; [exact H|]. unfold propagate_itf in H1. apply bind_val in H1. destruct H1 as (fo & C & H1). injection H1 as <-.
  unfold chained_to in C. rewrite Ow in C. injection C as <-. destruct (find_in l n) as [f|] eqn:F.
  - cbn. apply In_add_item. left. symmetry. eapply find_in_name. exact F.
  - exfalso. apply find_in_none in F. contradiction.
Qed.
Lemma prop_mono cs : forall w w', propagate l cs w = Val w' -> In n (w_from w) -> In n (w_from w').
Proof.
  induction cs as [|c cs IH]; intros w w' H I; cbn [propagate] in H; [injection H as <-; exact I|]. destruct (mem (c_name c) (w_deact w)); [|eapply IH; eassumption].
  destruct (is_lc Active c); [|injection H as <-; exact I]. apply bind_val in H. destruct H as (w1 & H1 & H). eapply IH; [exact H|]. eapply prop_from_mono; eassumption.
Qed.
Lemma prop_hit p k : by_name p -> wants m p k -> owned_by k n -> In n (map c_name l) -> forall cs w w', 
  (forall c, In c cs -> In (c_name c) (w_deact w) -> c_lc c = Active) -> In p cs -> In (c_name p) (w_deact w) -> propagate l cs w = Val w' -> In n (w_from w').
Proof.
  intros Bp Wk Ow In_n. induction cs as [|c cs IH]; intros w w' HA Ip Id H; [destruct Ip|]. cbn [propagate] in H.
  destruct (mem (c_name c) (w_deact w)) eqn:Md.
  - assert (La : is_lc Active c = true) by (apply active_dec; apply HA; [left; reflexivity|apply mem_In; exact Md]). rewrite La in H.
    apply bind_val in H. destruct H as (w1 & H1 & H). destruct Ip as [->|Ip].
    + eapply prop_mono; [exact H|]. eapply prop_from_hit; [exact Ow|exact In_n|exact H1|]. unfold wants, wants_cmd, wants_state, cmd_names, state_names in *.
      destruct Bp as (ks & ss & E1 & E2 & _). rewrite E1, E2 in *. apply in_app_iff. exact Wk.
    + destruct (propagate_itfs_same l _ _ _ H1) as [[S1 S2 S3 S4] _]. eapply IH; [|exact Ip|rewrite S2; exact Id|exact H]. intros x Ix D. apply HA; [right; exact Ix|congruence].
  - destruct Ip as [->|Ip]; [apply mem_In in Id; congruence|]. eapply IH; [|exact Ip|exact Id|exact H]. intros x Ix D. apply HA; [right; exact Ix|exact D].
Qed.
Record fw (w : sw) : Prop := { fw_ev : ev m (w_rm w); fw_act : w_act w = a0; fw_deact : w_deact w = d0; fw_from : In n (w_from w); fw_to : ~ In n (w_to w) }.
Definition runs_on (c : ctrl) : Prop := In c l /\ (In (c_name c) a0 \/ (c_lc c = Active /\ ~ In (c_name c) d0)).
Lemma fw_follow : forall fuel w c w' ok, runs_on c -> check_following fuel l w c = Val (w', ok) -> fw w -> fw w'.
Proof.
  induction fuel as [|fu IH]; intros w c w' ok Rc H O; cbn [check_following] in H; [discriminate|]. cbv zeta in H.
  assert (HW : forall k, In k (cmd_names (w_rm w) c ++ state_names (w_rm w) c) -> may_want m c k) by (intros k' Hk'; eapply ev_may; [apply (fw_ev _ O)|exact Hk']).
  revert HW H. generalize (cmd_names (w_rm w) c ++ state_names (w_rm w) c). generalize (cmd_names (w_rm w) c) (state_names (w_rm w) c).
  intros cmds states ks. revert w O. induction ks as [|k ks IHk]; intros w O Hks H; cbn [follow_loop] in H; [injection H as <- _; exact O|].
  apply bind_val in H. destruct H as ([w1 ok1] & H1 & H).
  assert (O1 : fw w1).
  { clear H. unfold follow_itf in H1. apply bind_val in H1. destruct H1 as (fo & C & H1). destruct fo as [f|]; [|injection H1 as <- _; exact O].
    destruct (owner_of m k f C) as [If Ow].
    assert (NE : c_name f <> n). { intros E. apply NR. exists c, k. destruct Rc as [Ic Rc]. rewrite <- E. repeat split; auto. apply Hks. left. reflexivity. }
    destruct (negb (c_chainable f)); [injection H1 as <- _; exact O|]. cbv zeta in H1. destruct (is_lc Active f && mem (c_name f) (w_deact w))%bool eqn:Df; [injection H1 as <- _; exact O|].
    destruct (negb (is_lc Active f) && negb (mem (c_name f) (w_act w)))%bool eqn:Rn; [injection H1 as <- _; exact O|].
    apply bind_val in H1. destruct H1 as ([w2 ok2] & H2 & H1).
    assert (Rf : runs_on f).
    { split; [exact If|]. destruct (mem (c_name f) (w_act w)) eqn:Ma; [left; rewrite <- (fw_act _ O); apply mem_In; exact Ma|]. right.
      destruct (is_lc Active f) eqn:La; [|discriminate Rn]. split; [apply active_dec; exact La|]. intros I. rewrite <- (fw_deact _ O) in I. apply mem_In in I. rewrite I in Df. discriminate Df. }
    pose proof (IH w f w2 ok2 Rf H2 O) as O2. clear H2. destruct ok2; cbn [negb] in H1; [|injection H1 as <- _; exact O2].
    destruct (negb (c_chained f)).
    - destruct (mem (c_name f) (w_to w2)); [injection H1 as <- _; exact O2|].
      apply bind_val in H1. destruct H1 as (r1 & E1 & H1). destruct (make_exps_available (w_rm w2) (c_name f)) eqn:M1; [|discriminate]. injection E1 as ->.
      pose proof (ev_exps m _ _ _ M1 (fw_ev _ O2)) as V1. destruct (mem k cmds).
      + apply bind_val in H1. destruct H1 as (r2 & E2 & H1). destruct (make_refs_available r1 (c_name f)) eqn:M2; [|discriminate]. injection E2 as ->.
        injection H1 as <- _. destruct O2 as [V A D F T]. constructor; cbn; try assumption; [eapply ev_refs; eassumption|].
        intros I. apply in_app_iff in I. destruct I as [I|[I|[]]]; [exact (T I)|congruence].
      + injection H1 as <- _. destruct O2 as [V A D F T]. constructor; cbn; assumption.
    - injection H1 as <- _. destruct O2 as [V A D F T]. constructor; cbn; try assumption. apply remove1_other; [congruence|exact F]. }
  destruct ok1; [|injection H as <- _; exact O1]. eapply IHk; [exact O1| |exact H]. intros k' Hk'. apply Hks. right. exact Hk'.
Qed.
Lemma fw_act_loop : forall rest kept w x, incl rest a0 -> fw w -> act_loop l true kept rest w = Val (inl x) -> fw x.
Proof.
  induction rest as [|y rest IH]; intros kept w x Hi O H; cbn [act_loop] in H; [injection H as <-; exact O|].
  apply bind_val in H. destruct H as ([w1 ok] & H1 & H). destruct ok; [|discriminate]. eapply IH; [intros z Hz; apply Hi; right; exact Hz| |exact H].
  unfold check_activate in H1. destruct (find_in l y) as [c|] eqn:F; [|discriminate]. apply bind_val in H1. destruct H1 as ([w2 ok2] & H2 & H1).
  assert (O2 : fw w2).
  { destruct (c_lc c); try (injection H2 as <- _; exact O). eapply fw_follow; [|exact H2|exact O]. split; [eapply find_in_In; exact F|]. left. rewrite (find_in_name _ _ _ F). apply Hi. left. reflexivity. }
  destruct ok2; [|discriminate]. apply bind_val in H1. destruct H1 as (b & _ & H1). assert (w1 = w2) by congruence. subst w1. exact O2.
Qed.
End F.
Lemma deact_active mm : forall rest kept w w', deact_loop mm true kept rest w = Some w' -> forall x, In x rest -> exists c, find_ctrl mm x = Some c /\ c_lc c = Active.
Proof.
  induction rest as [|y rest IH]; intros kept w w' H x I; [destruct I|]. cbn [deact_loop] in H. cbv zeta in H.
  destruct (find_ctrl mm y) as [c|] eqn:F; [|discriminate]. destruct (is_lc Active c && check_preceding mm w c)%bool eqn:B; [|discriminate].
  destruct I as [->|I]; [|eapply IH; eassumption]. exists c. split; [exact F|]. apply active_dec. apply andb_prop in B. tauto.
Qed.

Lemma request_from e allow m n a d asap m1 p k f : NoDup (map c_name (cm_ctrls m)) -> switch_request e allow m a d true asap = Val (m1, SwPending) ->
  In p (cm_ctrls m) -> In (c_name p) d -> by_name p -> wants m p k -> owned_by k n -> In f (cm_ctrls m) -> c_name f = n -> ~ running_user m a d n ->
  exists q, cm_pend m1 = Some q /\ p_done q = false /\ cm_ctrls m1 = cm_ctrls m /\ In n (p_from q) /\ ~ In n (p_to q) /\ (c_lc f = Active -> In n (p_deact q)).
Proof.
  intros ND H Ip Id Bp Wk Ow If Nf NR. unfold switch_request in H. set (l := cm_ctrls m) in *.
  destruct (list_controllers l true d [] true) as [d'|] eqn:Ed; [|discriminate]. destruct (list_controllers l true a [] true) as [a'|] eqn:Ea; [|discriminate].
  destruct (list_strict l d [] d' Ed) as [Ed' _]. destruct (list_strict l a [] a' Ea) as [Ea' _]. cbn [app] in Ed', Ea'. subst a' d'. clear Ed Ea.
  apply bind_val in H. destruct H as (w1 & H1 & H). set (w0 := {| w_rm := cm_rm m |}) in H1.
  destruct (propagate_same l l _ _ H1) as ([S1 S2 S3 S4] & Sr & St). cbn in S1, S2, Sr, St.
  apply bind_val in H. destruct H as (x & H2 & H). destruct x as [w2|w2]; [|discriminate].
  destruct (act_loop_strict l _ _ _ _ H2) as ([_ D2 _ _] & _). cbn [either] in D2.
  destruct (deact_loop m true [] (w_deact w2) w2) as [w3|] eqn:E3; [|discriminate]. pose proof (deact_active m _ _ _ _ E3) as DA. rewrite D2, S2 in DA.
  destruct (deact_loop_strict m _ _ _ _ E3) as [-> _].
  assert (F1 : In n (w_from w1)).
  { apply (prop_hit m n p k Bp Wk Ow ltac:(rewrite <- Nf; apply in_map; exact If) l w0 w1); [|exact Ip|exact Id|exact H1].
    intros c Ic D. cbn in D. destruct (DA _ D) as (c' & F & La). unfold find_ctrl in F. fold l in F. rewrite (NoDup_find _ _ ND Ic) in F. congruence. }
  assert (O1 : fw m n a d w1). { constructor; auto; [rewrite Sr; apply ev_start|rewrite St; auto]. }
  pose proof (fw_act_loop m n a d NR a [] w1 w2 (incl_refl a) O1 H2) as O2.
  destruct (sw_empty w2); [discriminate|]. destruct (conflict_loop true l w2) as [w4|w4] eqn:E4; [|discriminate].
  destruct (conflict_res true l w2 w4 ND E4) as (T4 & F4 & _ & A4 & R4 & D4). destruct (sw_empty w4); [discriminate|].
  apply bind_val in H. destruct H as (b & _ & H). destruct b; cbn [negb] in H; [|discriminate].
  destruct (rm_prepare e allow (w_rm w4) (w_start w4) (w_stop w4)) as [r5 ok]. destruct ok; cbn [negb] in H; [|discriminate].
  injection H as <-. eexists. split; [reflexivity|]. split; [reflexivity|]. split; [reflexivity|]. cbn. destruct O2 as [_ _ _ OF OT].
  rewrite T4, F4. split; [exact OF|]. split; [exact OT|]. intros La. rewrite <- Nf. apply R4; [exact If|exact La|]. right. rewrite Nf. exact OF.
Qed.

Lemma main_released e allow m a d asap m1 m2 out p f k : NoDup (map c_name (cm_ctrls m)) -> chains_freely e -> stops_freely e ->
  cstep e allow m (CRequest a d true asap) = Val (m1, CSw SwPending) -> cstep e allow m1 CPerform = Val (m2, out) ->
  In p (cm_ctrls m) -> In (c_name p) d -> by_name p -> wants m p k -> In f (cm_ctrls m) -> c_chainable f = true -> owned_by k (c_name f) ->
  ~ running_user m a d (c_name f) -> state_in m2 (c_name p) <> Some Active -> chained_in m2 (c_name f) = Some false.
Proof.
  intros ND HS HD H1 H2 Ip Id Bp Wk If Cf Ow NS Sp. unfold cstep, serviced in H1. set (me := emit m EvOp) in *. destruct (cm_pend me); [discriminate|].
  apply bind_val in H1. destruct H1 as ([m1' o] & H1 & E). assert (m1' = m1) by congruence. assert (o = SwPending) by congruence. subst m1' o. clear E.
  pose proof H1 as H1'. destruct (request_from e allow me (c_name f) a d asap m1 p k f ND H1 Ip Id Bp Wk Ow If eq_refl NS) as (q & Pq & Dq & C1 & Fr & To & De).
  unfold cstep in H2. change (cm_pend (emit m1 EvOp)) with (cm_pend m1) in H2. rewrite Pq, Dq in H2.
  apply bind_val in H2. destruct H2 as (m3 & H2 & E2). injection E2 as E2 _. set (mx := emit m1 EvOp) in H2.
  assert (F3 : forall n, find_ctrl m2 n = find_ctrl m3 n) by (intros n; rewrite <- E2; reflexivity). clear E2.
  unfold state_in in Sp. rewrite F3 in Sp. fold (state_in m3 (c_name p)) in Sp. unfold chained_in. rewrite F3. clear F3 m2.
  assert (La : c_lc p = Active).
  { destruct (request_strict e allow me a d asap m1 SwPending ND H1') as [[X _]|[[X _]|(_ & q' & R & _ & S)]]; [discriminate|discriminate|].
    exact (sf_stop _ _ _ _ _ _ S p Ip Id). }
  assert (Fx : forall c, In c (cm_ctrls m) -> find_ctrl mx (c_name c) = Some c).
  { intros c Ic. unfold find_ctrl. change (cm_ctrls mx) with (cm_ctrls m1). rewrite C1. apply NoDup_find; assumption. }
  assert (Kx : ck (c_name f) mx = Some (true, c_chained f)) by (unfold ck; rewrite (Fx f If); cbn; rewrite Cf; reflexivity).
  destruct (manage_split e allow mx q m3 H2) as [E|(r1 & m4 & m6 & E4 & E6 & R)].
  { exfalso. apply Sp. unfold state_in. assert (Y : find_ctrl m3 (c_name p) = find_ctrl mx (c_name p)) by (unfold find_ctrl; rewrite E; reflexivity). rewrite Y, (Fx p Ip). cbn. congruence. }
  set (ma := set_rm mx r1) in E4. assert (Ka : ck (c_name f) ma = Some (true, c_chained f)) by exact Kx.
  assert (S2 : state_in (deactivate_controllers e ma (p_deact q)) (c_name f) <> Some Active).
  { apply deactivate_off; [intros t; apply HD|]. destruct (is_lc Active f) eqn:Lf; [left; apply De; apply active_dec; exact Lf|right].
    unfold state_in. change (find_ctrl ma (c_name f)) with (find_ctrl mx (c_name f)). rewrite (Fx f If). cbn. intros X. injection X as X. apply active_dec in X. congruence. }
  pose proof (ckx_deact e (c_name f) (p_deact q) ma) as X2. rewrite Ka in X2.
  destruct (ck (c_name f) (deactivate_controllers e ma (p_deact q))) as [[x y]|] eqn:K2; [|discriminate X2]. cbn in X2. assert (x = true) by congruence. subst x.
  assert (K4 : ck (c_name f) m4 = Some (true, false)).
  { rewrite E4. eapply ck_switch; [exact HS|exact Fr| |rewrite st_switch; exact S2].
    rewrite (ck_find (c_name f) _ _ (by_chain e (c_name f) (p_to q) true _ To)). exact K2. }
  pose proof (E6 HS (c_name f)) as K6. rewrite K4 in K6. pose proof (ck_deact e (c_name f) HS (p_act q) _ _ K6) as K7.
  destruct R as [R|R]; rewrite R; [unfold ck in K6; destruct (find_ctrl m6 (c_name f)); [|discriminate]; cbn in *; congruence|].
  unfold ck in K7. destruct (find_ctrl (deactivate_controllers e m6 (p_act q)) (c_name f)); [|discriminate]. cbn in *. congruence.
Qed.
