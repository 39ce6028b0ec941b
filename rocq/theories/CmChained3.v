(** CmChained3.v -- performing a switch: the chained mode of the controllers. *)
From Verif Require Import Base Events HwModel RmModel RmSys RmSpec RmProofs RmInv CmModel CmPrim CmInv CmSpec CmSwitch FollowSpec CmFollow UpdateSpec CmDeact BestSpec CmBystander CmDone ChainedSpec CmChained CmChained2 CmTopo.
Open Scope list_scope.

Section K.
Variables (e : env) (allow : bool) (n : name).
Hypothesis (HS : chains_freely e).
Definition ck (m : cm) : option (bool * bool) := option_map (fun c => (c_chainable c, c_chained c)) (find_ctrl m n).
Lemma ck_find m m' : find_ctrl m' n = find_ctrl m n -> ck m' = ck m. Proof. unfold ck. intros ->. reflexivity. Qed.
Lemma ck_upd m k f : (forall c, c_name (f c) = c_name c) -> (forall c, c_chainable (f c) = c_chainable c /\ c_chained (f c) = c_chained c) -> ck (upd m k f) = ck m.
Proof.
  intros A B. unfold ck, upd, find_ctrl. cbn [set_ctrls cm_ctrls]. rewrite find_upd by exact A. destruct (find_in (cm_ctrls m) n) as [c|]; [|reflexivity].
  cbn [option_map]. destruct (String.eqb n k); [|reflexivity]. destruct (B c) as [-> ->]. reflexivity.
Qed.
Lemma ck_release m k : ck (release_itfs m k) = ck m.
Proof.
  unfold release_itfs. destruct (find_ctrl m k) as [c|]; [|reflexivity]. rewrite ck_upd; [reflexivity|reflexivity|split; reflexivity].
Qed.
Lemma ck_error m k : ck (node_error e m k) = ck m.
Proof. unfold node_error. cbv zeta. rewrite ck_upd; [|reflexivity|split; reflexivity]. rewrite ck_release. reflexivity. Qed.
Lemma ck_transition m k cb from s f : ck (node_transition e m k cb from s f) = ck m.
Proof.
  unfold node_transition. destruct (find_ctrl m k) as [c|]; [|reflexivity]. destruct (from (c_lc c)); [|reflexivity]. unfold ctrl_call.
  destruct (e_ctrl e (rm_trace (cm_rm m)) k cb); rewrite ?ck_error; try reflexivity; (rewrite ck_upd; [reflexivity|reflexivity|split; reflexivity]).
Qed.
Lemma ck_set_other m k b : k <> n -> ck (set_chained e m k b) = ck m.
Proof. intros N. apply ck_find. apply (fr_other k _ _ (frame_chained e k m b)). auto. Qed.
Lemma ck_set_own m b c : find_ctrl m n = Some c -> c_chainable c = true -> c_lc c <> Active -> ck (set_chained e m n b) = Some (true, b).
Proof.
  intros F C L. unfold set_chained. rewrite F, C. assert (X : is_lc Active c = false) by (destruct (is_lc Active c) eqn:Y; [apply active_dec in Y; contradiction|reflexivity]).
  rewrite X. cbn [negb andb]. rewrite HS. cbv zeta. unfold ck.
  change (find_ctrl (upd (emit m (EvChained n b true)) n (upd_chained b)) n) with (find_in (upd_in (cm_ctrls m) n (upd_chained b)) n).
  rewrite find_upd by reflexivity. unfold find_ctrl in F. rewrite F, String.eqb_refl. cbn. rewrite C. reflexivity.
Qed.
(** setting a mode never produces the other one *)
Lemma ck_set_keep m k b x : ck m = Some (x, b) -> ck (set_chained e m k b) = Some (x, b).
Proof.
  intros K. destruct (string_dec k n) as [->|N]; [|rewrite ck_set_other by exact N; exact K].
  pose proof K as K'. unfold ck in K'. destruct (find_ctrl m n) as [c|] eqn:F; [|discriminate]. cbn in K'. injection K' as Kx Kb.
  destruct (c_chainable c) eqn:C.
  - destruct (is_lc Active c) eqn:L.
    + unfold set_chained. rewrite F, C, L. cbn. exact K.
    + rewrite (ck_set_own m b c F C); [congruence|]. intros E. apply active_dec in E. congruence.
  - unfold set_chained. rewrite F, C. cbn. exact K.
Qed.
Lemma st_set m k b x : state_in (set_chained e m k b) x = state_in m x.
Proof.
  destruct (like_chained e m k b) as (K & _). specialize (K x). unfold state_in. destruct (find_ctrl m x) as [c|].
  - destruct K as (c' & -> & _ & L & _). cbn. congruence.
  - rewrite K. reflexivity.
Qed.
Lemma st_switch ns b x : forall m, state_in (switch_chained_mode e m ns b) x = state_in m x.
Proof.
  unfold switch_chained_mode. induction ns as [|k ns IH]; intros m; cbn [fold_left]; [reflexivity|]. rewrite IH.
  destruct (find_ctrl m k) as [c|]; [|reflexivity]. destruct (is_lc Active c); [reflexivity|]. apply st_set.
Qed.
Lemma ck_switch_keep ns b x : forall m, ck m = Some (x, b) -> ck (switch_chained_mode e m ns b) = Some (x, b).
Proof.
  unfold switch_chained_mode. induction ns as [|k ns IH]; intros m K; cbn [fold_left]; [exact K|]. apply IH.
  destruct (find_ctrl m k) as [c|]; [|exact K]. destruct (is_lc Active c); [exact K|]. apply ck_set_keep. exact K.
Qed.
Lemma ck_switch ns b : forall m y, In n ns -> ck m = Some (true, y) -> state_in m n <> Some Active -> ck (switch_chained_mode e m ns b) = Some (true, b).
Proof.
  induction ns as [|k ns IH]; intros m y I K S; [destruct I|]. change (switch_chained_mode e m (k :: ns) b) with
    (switch_chained_mode e (match find_ctrl m k with Some c => if is_lc Active c then m else set_chained e m k b | None => m end) ns b).
  destruct (string_dec k n) as [->|N].
  - pose proof K as K'. unfold ck in K'. destruct (find_ctrl m n) as [c|] eqn:F; [|discriminate]. cbn in K'. injection K' as Kx Kb.
    assert (L : c_lc c <> Active) by (intros E; apply S; unfold state_in; rewrite F; cbn; congruence).
    assert (X : is_lc Active c = false) by (destruct (is_lc Active c) eqn:Y; [apply active_dec in Y; contradiction|reflexivity]). rewrite X.
    apply ck_switch_keep. eapply ck_set_own; eassumption.
  - assert (In n ns) by (destruct I as [I|I]; [congruence|exact I]). destruct (find_ctrl m k) as [c|]; [|eapply IH; eassumption].
    destruct (is_lc Active c); [eapply IH; eassumption|]. eapply IH; [assumption|rewrite ck_set_other by exact N; exact K|rewrite st_set; exact S].
Qed.
(** deactivation never switches chained mode on *)
Lemma ck_deact1 m k x : ck m = Some (x, false) -> ck (deactivate_one e m k) = Some (x, false).
Proof.
  intros K. unfold deactivate_one. destruct (find_ctrl m k) as [c|]; [|exact K]. destruct (is_lc Active c); [|exact K].
  assert (K1 : ck (release_itfs (node_deactivate e m k) k) = Some (x, false)) by (rewrite ck_release; unfold node_deactivate; rewrite ck_transition; exact K).
  destruct (c_chainable c); [|exact K1]. pose proof (ck_set_keep _ k false x K1) as K2. set (m2 := set_chained e _ k false) in *.
  destruct (make_exps_unavailable (cm_rm m2) k) as [r3|]; [|exact K2]. destruct (make_refs_unavailable r3 k); exact K2.
Qed.
Lemma ck_deact ns x : forall m, ck m = Some (x, false) -> ck (deactivate_controllers e m ns) = Some (x, false).
Proof.
  unfold deactivate_controllers. induction ns as [|k ns IH]; intros m K; cbn [fold_left]; [exact K|]. apply IH. apply ck_deact1. exact K.
Qed.
(** deactivation keeps it a chainable controller *)
Lemma ckx_set m k b : option_map fst (ck (set_chained e m k b)) = option_map fst (ck m).
Proof.
  destruct (like_chained e m k b) as (K & _). specialize (K n). unfold ck. destruct (find_ctrl m n) as [c|].
  - destruct K as (c' & -> & S & _). cbn. destruct S as (_ & -> & _). reflexivity.
  - rewrite K. reflexivity.
Qed.
Lemma ckx_deact ns : forall m, option_map fst (ck (deactivate_controllers e m ns)) = option_map fst (ck m).
Proof.
  unfold deactivate_controllers. induction ns as [|k ns IH]; intros m; cbn [fold_left]; [reflexivity|]. rewrite IH. clear IH.
  unfold deactivate_one. destruct (find_ctrl m k) as [c|]; [|reflexivity]. destruct (is_lc Active c); [|reflexivity].
  assert (K1 : ck (release_itfs (node_deactivate e m k) k) = ck m) by (rewrite ck_release; unfold node_deactivate; apply ck_transition).
  destruct (c_chainable c); [|rewrite K1; reflexivity]. rewrite <- K1. set (m1 := release_itfs _ k). rewrite <- (ckx_set m1 k false). set (m2 := set_chained e _ k false) in *.
  destruct (make_exps_unavailable (cm_rm m2) k) as [r3|]; [|reflexivity]. destruct (make_refs_unavailable r3 k); reflexivity.
Qed.
Lemma ck_act1 m ok f k m' ok' f' : activate_one e (m, ok, f) k = Val (m', ok', f') -> ck m' = ck m.
Proof.
  intros H. unfold activate_one in H. destruct (find_ctrl m k) as [c|]; [|injection H as <- _ _; reflexivity]. cbv zeta in H.
  apply bind_val in H. destruct H as ([r1 [cl|]] & _ & H); [|injection H as <- _ _; reflexivity].
  destruct (forallb (claim_state r1) (state_names r1 c)); [|injection H as <- _ _; reflexivity].
  set (m1 := upd _ k _) in H. assert (E1 : ck m1 = ck m) by (unfold m1; rewrite ck_upd; [reflexivity|reflexivity|split; reflexivity]).
  set (m2 := node_activate e m1 k) in H. assert (E2 : ck m2 = ck m) by (rewrite <- E1; apply ck_transition).
  destruct (find_ctrl m2 k) as [c2|]; [|injection H as <- _ _; exact E2]. destruct (is_lc Active c2).
  - destruct (c_chainable c); [|injection H as <- _ _; exact E2]. apply bind_val in H. destruct H as (m3 & H3 & H). injection H as <- _ _. rewrite (ck_find _ _ (by_ex n _ _ _ H3)). exact E2.
  - assert (E3 : ck (release_itfs m2 k) = ck m) by (rewrite ck_release; exact E2).
    destruct (c_chainable c); [|injection H as <- _ _; exact E3]. apply bind_val in H. destruct H as (m3 & H3 & H). injection H as <- _ _. rewrite (ck_find _ _ (by_un n _ _ _ H3)). exact E3.
Qed.
Lemma ck_acts ns : forall m ok f m' ok' f', rfold (activate_one e) ns (m, ok, f) = Val (m', ok', f') -> ck m' = ck m.
Proof.
  induction ns as [|k ns IH]; intros m ok f m' ok' f' H; cbn [rfold] in H; [injection H as <- _ _; reflexivity|]. apply bind_val in H. destruct H as ([[m1 ok1] f1] & H1 & H).
  rewrite (IH _ _ _ _ _ _ H). eapply ck_act1. exact H1.
Qed.
End K.

(** a controller that is not active becomes active only if the request says so *)
Lemma off_manage e allow x m q m' : deactivates e x -> ~ In x (p_act q) -> state_in m x <> Some Active -> manage_switch e allow m q = Val m' -> state_in m' x <> Some Active.
Proof.
  intros D N S H. unfold manage_switch in H. destruct (rm_perform e allow (cm_rm m) (p_start q) (p_stop q)) as [r1 ok]. destruct ok; cbn [negb] in H; [|injection H as <-; exact S].
  cbv zeta in H. set (m2 := deactivate_controllers e (set_rm m r1) (p_deact q)) in H.
  assert (S2 : state_in m2 x <> Some Active) by (apply deactivate_off; [exact D|right; exact S]).
  set (m4 := switch_chained_mode e _ (p_from q) false) in H. assert (S4 : state_in m4 x <> Some Active) by (unfold m4; rewrite !st_switch; exact S2). clearbody m4.
  unfold activate_controllers in H. apply bind_val in H. destruct H as (m5 & H5 & H). apply bind_val in H. destruct H as ([[m6 ok6] f6] & H6 & H).
  assert (S6 : state_in m6 x <> Some Active) by (unfold state_in; rewrite (by_acts e x _ _ _ _ _ _ _ N H6), (by_pre x _ _ _ H5); exact S4).
  destruct (negb ok6 && p_strict q)%bool; [injection H as <-; unfold state_in; rewrite by_pp; apply deactivate_off; auto|].
  destruct (negb match f6 with [] => true | _ => false end); injection H as <-; [unfold state_in; rewrite by_pp|]; exact S6.
Qed.
(** the chained mode after the switch, when it was not rolled back *)
Lemma manage_split e allow m q m' : manage_switch e allow m q = Val m' ->
  (cm_ctrls m' = cm_ctrls m) \/
  exists r1 m4 m6, m4 = switch_chained_mode e (switch_chained_mode e (deactivate_controllers e (set_rm m r1) (p_deact q)) (p_to q) true) (p_from q) false /\
    (chains_freely e -> forall n, ck n m6 = ck n m4) /\
    ((forall n, find_ctrl m' n = find_ctrl m6 n) \/ forall n, find_ctrl m' n = find_ctrl (deactivate_controllers e m6 (p_act q)) n).
Proof.
  intros H. unfold manage_switch in H. destruct (rm_perform e allow (cm_rm m) (p_start q) (p_stop q)) as [r1 ok]. destruct ok; cbn [negb] in H; [|injection H as <-; left; reflexivity].
  right. cbv zeta in H. set (m4 := switch_chained_mode e _ (p_from q) false) in H. unfold activate_controllers in H. apply bind_val in H. destruct H as (m5 & H5 & H). apply bind_val in H. destruct H as ([[m6 ok6] f6] & H6 & H).
  exists r1, m4, m6. split; [reflexivity|]. split; [intros HS n; rewrite (ck_acts e n _ _ _ _ _ _ _ H6); apply ck_find; apply (by_pre n _ _ _ H5)|].
  destruct (negb ok6 && p_strict q)%bool; [right; injection H as <-; intros n; rewrite by_pp; reflexivity|].
  left. destruct (negb match f6 with [] => true | _ => false end); injection H as <-; intros n; [apply by_pp|reflexivity].
Qed.

Section Main.
Variables (e : env) (allow : bool).
Lemma ck_chained n m c y : find_ctrl m n = Some c -> ck n m = Some (c_chainable c, y) -> c_chained c = y.
Proof. unfold ck. intros ->. cbn. congruence. Qed.
Lemma main_started m a d strict asap m1 m2 out p f k : NoDup (map c_name (cm_ctrls m)) -> chains_freely e -> stops_freely e ->
  cstep e allow m (CRequest a d strict asap) = Val (m1, CSw SwPending) -> cstep e allow m1 CPerform = Val (m2, out) ->
  In p (cm_ctrls m) -> c_lc p = Inactive -> by_name p -> wants_cmd m p k -> In f (cm_ctrls m) -> owned_by k (c_name f) ->
  ~ stopped_user m d (c_name f) -> state_in m2 (c_name p) = Some Active -> chained_in m2 (c_name f) = Some true.
Proof.
  intros ND HS HD H1 H2 Ip Lp Bp Wk If Ow NS Sp. unfold cstep, serviced in H1. set (me := emit m EvOp) in *. destruct (cm_pend me); [discriminate|].
  apply bind_val in H1. destruct H1 as ([m1' o] & H1 & E). assert (m1' = m1) by congruence. assert (o = SwPending) by congruence. subst m1' o. clear E.
  destruct (request_chained e allow me (c_name f) ND a d strict asap m1 p f k H1 Ip Lp Bp Wk If eq_refl Ow) as (q & Pq & Dq & C1 & Fr & G).
  assert (NF : ~ In (c_name f) (p_from q)) by (intros I; exact (NS (Fr I))). clear Fr.
  unfold cstep in H2. change (cm_pend (emit m1 EvOp)) with (cm_pend m1) in H2. rewrite Pq, Dq in H2.
  apply bind_val in H2. destruct H2 as (m3 & H2 & E2). injection E2 as E2 _. set (mx := emit m1 EvOp) in H2.
  assert (F3 : forall n, find_ctrl m2 n = find_ctrl m3 n) by (intros n; rewrite <- E2; reflexivity). clear E2.
  assert (Sx : state_in mx (c_name p) = Some Inactive).
  { unfold state_in, find_ctrl. change (cm_ctrls mx) with (cm_ctrls m1). rewrite C1. change (cm_ctrls me) with (cm_ctrls m). rewrite (NoDup_find _ _ ND Ip). cbn. congruence. }
  unfold state_in in Sp. rewrite F3 in Sp. fold (state_in m3 (c_name p)) in Sp. unfold chained_in. rewrite F3. clear F3 m2.
  destruct (in_dec string_dec (c_name p) (p_act q)) as [Pa|Pa].
  2:{ exfalso. eapply (off_manage e allow (c_name p) mx q m3); [intros t; apply HD|exact Pa|rewrite Sx; discriminate|exact H2|exact Sp]. }
  destruct (G Pa) as (Cf & Gu & Gc). clear G.
  assert (Fx : find_ctrl mx (c_name f) = Some f).
  { unfold find_ctrl. change (cm_ctrls mx) with (cm_ctrls m1). rewrite C1. apply NoDup_find; assumption. }
  assert (Kx : ck (c_name f) mx = Some (true, c_chained f)) by (unfold ck; rewrite Fx; cbn; rewrite Cf; reflexivity).
  destruct (manage_split e allow mx q m3 H2) as [E|(r1 & m4 & m6 & E4 & E6 & R)].
  { exfalso. unfold state_in, find_ctrl in Sp. rewrite E in Sp. fold (find_ctrl mx (c_name p)) in Sp. fold (state_in mx (c_name p)) in Sp. congruence. }
  destruct R as [R|R].
  2:{ exfalso. unfold state_in in Sp. rewrite R in Sp. revert Sp. apply deactivate_off; [intros t; apply HD|]. left. exact Pa. }
  assert (K4 : ck (c_name f) m4 = Some (true, true)).
  { rewrite E4. set (ma := set_rm mx r1). assert (Ka : ck (c_name f) ma = Some (true, c_chained f)) by exact Kx.
    rewrite (ck_find (c_name f) _ _ (by_chain e (c_name f) (p_from q) false _ NF)).
    destruct (c_chained f) eqn:Cc.
    - assert (K2 : ck (c_name f) (deactivate_controllers e ma (p_deact q)) = Some (true, true)).
      { destruct (is_lc Active f) eqn:Lf.
        - assert (La : c_lc f = Active) by (apply active_dec; exact Lf). rewrite (ck_find (c_name f) _ _ (by_deact e (c_name f) (p_deact q) ma (Gc eq_refl NF La))). exact Ka.
        - clear - Lf Fx Ka. assert (Fa : find_ctrl ma (c_name f) = Some f) by exact Fx. clearbody ma. revert ma Ka Fa. unfold deactivate_controllers.
          induction (p_deact q) as [|x xs IH]; intros ma Ka Fa; cbn [fold_left]; [exact Ka|].
          assert (X : find_ctrl (deactivate_one e ma x) (c_name f) = find_ctrl ma (c_name f)).
          { destruct (string_dec x (c_name f)) as [->|N]; [|apply by_deact1; exact N]. unfold deactivate_one. rewrite Fa, Lf. exact Fa. }
          apply IH; [rewrite (ck_find _ _ _ X); exact Ka|rewrite X; exact Fa]. }
      apply ck_switch_keep; [exact HS|exact K2].
    - destruct (Gu eq_refl) as [T Dd]. eapply ck_switch; [exact HS|exact T|apply ck_deact; [exact HS|exact Ka]|].
      apply deactivate_off; [intros t; apply HD|]. destruct (is_lc Active f) eqn:Lf; [left; apply Dd; apply active_dec; exact Lf|right].
      unfold state_in. change (find_ctrl ma (c_name f)) with (find_ctrl mx (c_name f)). rewrite Fx. cbn. intros X. injection X as X. apply active_dec in X. congruence. }
  rewrite R. specialize (E6 HS (c_name f)). rewrite K4 in E6. unfold ck in E6. destruct (find_ctrl m6 (c_name f)) as [c|]; [|discriminate]. cbn in *. congruence.
Qed.
Lemma main_only m a d strict asap m1 m2 out n : NoDup (map c_name (cm_ctrls m)) -> chains_freely e ->
  cstep e allow m (CRequest a d strict asap) = Val (m1, CSw SwPending) -> cstep e allow m1 CPerform = Val (m2, out) ->
  chained_in m n = Some false -> chained_in m2 n = Some true ->
  exists c k, In c (cm_ctrls m) /\ (In (c_name c) a \/ c_lc c = Active) /\ may_command m c k /\ owned_by k n.
Proof.
  intros ND HS H1 H2 K0 K2. unfold cstep, serviced in H1. set (me := emit m EvOp) in *. destruct (cm_pend me); [discriminate|].
  apply bind_val in H1. destruct H1 as ([m1' o] & H1 & E). assert (m1' = m1) by congruence. assert (o = SwPending) by congruence. subst m1' o. clear E.
  destruct (request_to e allow me n ND a d strict asap m1 H1) as (q & Pq & Dq & C1 & T).
  destruct (in_dec string_dec n (p_to q)) as [I|N]; [exact (proj2 (T I))|]. exfalso.
  unfold cstep in H2. change (cm_pend (emit m1 EvOp)) with (cm_pend m1) in H2. rewrite Pq, Dq in H2.
  apply bind_val in H2. destruct H2 as (m3 & H2 & E2). injection E2 as E2 _. set (mx := emit m1 EvOp) in H2.
  assert (F3 : find_ctrl m2 n = find_ctrl m3 n) by (rewrite <- E2; reflexivity). unfold chained_in in K2. rewrite F3 in K2. clear F3 E2.
  assert (Fx : find_ctrl mx n = find_ctrl m n) by (unfold find_ctrl; change (cm_ctrls mx) with (cm_ctrls m1); rewrite C1; reflexivity).
  unfold chained_in in K0. rewrite <- Fx in K0. destruct (find_ctrl mx n) as [c|] eqn:F; [|discriminate]. cbn in K0. injection K0 as K0.
  assert (Kx : ck n mx = Some (c_chainable c, false)) by (unfold ck; rewrite F; cbn; rewrite K0; reflexivity).
  destruct (manage_split e allow mx q m3 H2) as [E|(r1 & m4 & m6 & E4 & E6 & R)].
  { unfold find_ctrl in K2, F. rewrite E, F in K2. cbn in K2. congruence. }
  assert (K4 : ck n m4 = Some (c_chainable c, false)).
  { rewrite E4. apply ck_switch_keep; [exact HS|]. rewrite (ck_find n _ _ (by_chain e n (p_to q) true _ N)). apply ck_deact; [exact HS|exact Kx]. }
  pose proof (E6 HS n) as K6. rewrite K4 in K6. pose proof (ck_deact e n HS (p_act q) _ _ K6) as K7.
  destruct R as [R|R]; rewrite R in K2; [unfold ck in K6; destruct (find_ctrl m6 n); [|discriminate]; cbn in *; congruence|].
  unfold ck in K7. destruct (find_ctrl (deactivate_controllers e m6 (p_act q)) n); [|discriminate]. cbn in *. congruence.
Qed.
End Main.
