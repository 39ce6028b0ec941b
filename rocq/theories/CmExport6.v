(** CmExport6.v -- a controller that stops withdraws its exports. *)
From Coq Require Import Lia Permutation.
From Verif Require Import Base Events HwModel RmModel RmSys RmSpec RmSpec2 HwProofs RmProofs RmInv RmAvail RmMode RmExact ChainModel CmModel CmPrim ChainSpec CmTopo CmInv CmSpec CmReach CmSwitch CmOutcome CmLoad CmIntact FollowSpec UpdateSpec CmDeact CmErr CmFallback LifeSpec CmLife CmRefs DoneSpec CmDone CmCycle ExportSpec CmExport CmExport2 CmExport3 CmExport4 CmExport5.
Open Scope list_scope.

Section Stop.
Variables (e : env) (allow : bool) (n : name).
Notation XW := (XW e n).
(** if [n] is loaded, chainable and not running, its exports are withdrawn *)
Definition W (m : cm) : Prop := forall c, find_ctrl m n = Some c -> c_lc c <> Active -> c_chainable c = true -> withdrawn m n.
Definition known (m : cm) : Prop := refs_of m n <> None /\ exps_of m n <> None.
Record WR (m m' : cm) : Prop := { wr_w : XW m m'; wr_nd : nd (cm_rm m) -> nd (cm_rm m'); wr_k : Dis n (cm_rm m) -> nd (cm_rm m) -> known m -> W m -> W m' }.
Lemma WR_refl m : WR m m. Proof. constructor; auto. apply XW_refl. Qed.
Lemma known_XW m m' : XW m m' -> known m -> known m'.
Proof. intros X [A B]. unfold known, refs_of, exps_of in *. rewrite (xw_refs _ _ _ _ X), (xw_exps _ _ _ _ X). auto. Qed.
Lemma WR_trans a b c : WR a b -> WR b c -> WR a c.
Proof.
  intros [A1 A2 A3] [B1 B2 B3]. constructor; [eapply XW_trans; eassumption|auto|]. intros D N K H. apply B3; auto; [eapply XR_dis; eassumption|eapply known_XW; eassumption].
Qed.
Definition noadd (r r' : rm) : Prop :=
  (forall ks k, aget (rm_refs r) n = Some ks -> In k ks -> In k (rm_avc r') -> In k (rm_avc r)) /\
  (forall ks k, aget (rm_exps r) n = Some ks -> In k ks -> In k (rm_avs r') -> In k (rm_avs r)).
Lemma noadd_same r r' : rm_avc r' = rm_avc r -> rm_avs r' = rm_avs r -> noadd r r'.
Proof. intros A B. split; intros; congruence. Qed.
Lemma WR_of m m' : XW m m' -> (nd (cm_rm m) -> nd (cm_rm m')) -> 
  (forall c c', find_ctrl m n = Some c -> find_ctrl m' n = Some c' -> c_lc c = Active -> c_lc c' = Active) ->
  (Dis n (cm_rm m) -> noadd (cm_rm m) (cm_rm m')) -> WR m m'.
Proof.
  intros X N L A. constructor; [exact X|exact N|]. intros D Nd K H c' F' L' Ch. pose proof (xw_find _ _ _ _ X) as Fx. destruct (find_ctrl m n) as [c|] eqn:F; [|congruence].
  destruct Fx as (x & Fx & SC & _). assert (x = c') by congruence. subst x. destruct (H c F) as [W1 W2].
  - intros Q. apply L'. exact (L c c' eq_refl F' Q).
  - rewrite <- (proj1 (proj2 SC)). exact Ch.
  - destruct (A D) as [A1 A2]. unfold withdrawn, refs_of, exps_of in *. rewrite (xw_refs _ _ _ _ X), (xw_exps _ _ _ _ X). split; intros ks k Gk Ik V; [eapply W1|eapply W2]; eauto.
Qed.
Lemma WR_same m m' : XR e n m m' -> find_ctrl m' n = find_ctrl m n -> rm_avc (cm_rm m') = rm_avc (cm_rm m) -> rm_avs (cm_rm m') = rm_avs (cm_rm m) -> WR m m'.
Proof.
  intros X F A B. apply WR_of; [apply X|apply nd_same; assumption|intros c c' F1 F2; congruence|]. intros _. apply noadd_same; assumption.
Qed.
Lemma WR_emit m ev : WR m (emit m ev). Proof. apply WR_same; try reflexivity. apply XR_emit. Qed.
Lemma find_upd_o m n0 f : (forall c, c_name (f c) = c_name c) -> (forall c, c_lc (f c) = c_lc c) -> forall c c', find_ctrl m n = Some c -> find_ctrl (upd m n0 f) n = Some c' -> c_lc c = Active -> c_lc c' = Active.
Proof. intros Kf Lf c c' F F' L. rewrite (find_upd_same m n0 f n c Kf F) in F'. injection F' as <-. destruct (String.eqb n n0); [rewrite Lf|]; exact L. Qed.
Lemma WR_release m n0 : WR m (release_itfs m n0).
Proof.
  destruct (q_release_itfs m n0) as (_ & _ & A & B). apply WR_of; [apply XR_release|apply nd_same; assumption| |intros _; apply noadd_same; assumption].
  unfold release_itfs. destruct (find_ctrl m n0) as [c0|]; [|intros; congruence]. intros c c' F. apply find_upd_o; try reflexivity. exact F.
Qed.
Lemma WR_chained m n0 b : WR m (set_chained e m n0 b).
Proof.
  destruct (q_chained e m n0 b) as (_ & _ & A & B). apply WR_of; [apply XR_chained|apply nd_same; assumption| |intros _; apply noadd_same; assumption].
  unfold set_chained. destruct (find_ctrl m n0) as [c0|]; [|intros; congruence]. destruct (_ && _); [|intros; congruence]. cbv zeta. destruct (e_set_chained _ _ _ _); [|intros c c' F F'; change (find_ctrl m n = Some c') in F'; congruence].
  intros c c' F. apply find_upd_o; try reflexivity. exact F.
Qed.
Lemma nd_grow r r' : rm_avc r' = rm_avc r -> rm_avs r' = rm_avs r -> nd r -> nd r'. Proof. apply nd_same. Qed.
Lemma prep_perf_av m a d : rm_avc (cm_rm (prep_perf e allow m a d)) = rm_avc (cm_rm m) /\ rm_avs (cm_rm (prep_perf e allow m a d)) = rm_avs (cm_rm m).
Proof.
  unfold prep_perf. destruct (rm_prepare_av e allow (cm_rm m) a d) as [A B]. destruct (rm_prepare e allow (cm_rm m) a d) as [r1 ok]. cbn [fst] in A, B. cbn [set_rm cm_rm]. destruct ok; [|auto].
  destruct (rm_perform_av e allow r1 a d). split; congruence.
Qed.
Lemma WR_prep_perf m a d : WR m (prep_perf e allow m a d).
Proof. destruct (prep_perf_av m a d). apply WR_same; try assumption; [apply prep_perf_XR|]. unfold prep_perf. destruct (rm_prepare _ _ _ _ _). reflexivity. Qed.
Lemma WR_mode_change m a d : WR m (mode_change e allow m a d). Proof. apply WR_prep_perf. Qed.
(** making the exports of another controller (un)available *)
Lemma WR_av m n0 m' : exports_available m n0 = Val m' -> n0 <> n -> WR m m'.
Proof.
  intros H N. pose proof (exports_av_XR e n _ _ _ H) as X. unfold exports_available, make_exps_available in H. destruct (aget (rm_exps (cm_rm m)) n0) as [es|] eqn:E1; [|discriminate]. cbn [of_option bind] in H.
  unfold make_refs_available in H. cbn [with_av rm_refs] in H. destruct (aget (rm_refs (cm_rm m)) n0) as [ks|] eqn:E2; [|discriminate]. cbn [of_option bind] in H. injection H as <-.
  apply WR_of; [apply X|intros [A B]; split; cbn; apply NoDup_add_items; assumption|intros c c' F F'; change (find_ctrl m n = Some c') in F'; congruence|].
  intros D. split; cbn [set_rm cm_rm with_av rm_avc rm_avs]; intros l k Gl I V; apply In_add_items in V; destruct V as [V|V]; try exact V; exfalso.
  - exact (di_refs _ _ D n0 ks l k N E2 Gl I V).
  - exact (di_exps _ _ D n0 es l k N E1 Gl I V).
Qed.
Lemma WR_un_ctl m n0 m' : exports_unavailable m n0 = Val m' -> WR m m'.
Proof.
  intros H. pose proof (exports_un_XW e n _ _ _ H) as X. unfold exports_unavailable, make_exps_unavailable in H. destruct (aget (rm_exps (cm_rm m)) n0) as [es|] eqn:E1; [|discriminate]. cbn [of_option bind] in H.
  unfold make_refs_unavailable in H. cbn [with_av rm_refs] in H. destruct (aget (rm_refs (cm_rm m)) n0) as [ks|] eqn:E2; [|discriminate]. cbn [of_option bind] in H. injection H as <-.
  apply WR_of; [exact X|intros [A B]; split; cbn; apply remove_items_spec; assumption|intros c c' F F'; change (find_ctrl m n = Some c') in F'; congruence|].
  intros D. split; cbn [set_rm cm_rm with_av rm_avc rm_avs]; intros l k Gl I V; apply remove_sub in V; exact V.
Qed.
Lemma WR_trans_other m n0 cb (from : lc -> bool) succ fail : n0 <> n -> (forall l, from l = true -> configured l) -> configured succ -> configured fail ->
  WR m (node_transition e m n0 cb from succ fail).
Proof.
  intros N A B C. destruct (q_transition e m n0 cb from succ fail) as (_ & _ & V1 & V2). apply WR_of; [apply XW_transition; assumption|apply nd_same; assumption| |intros _; apply noadd_same; assumption].
  intros c c' F F'. rewrite find_transition_other in F' by exact N. congruence.
Qed.
Lemma WR_deactivate_one m n0 : WR m (deactivate_one e m n0).
Proof.
  destruct (string_dec n0 n) as [->|N].
  - pose proof (xr_w _ _ _ _ (deactivate_one_XR e n m n)) as X.
    unfold deactivate_one in *. destruct (find_ctrl m n) as [c|] eqn:F; [|apply WR_refl]. destruct (is_lc Active c) eqn:LA; [|apply WR_refl].
    assert (Q1 : quiet_rm (cm_rm m) (cm_rm (release_itfs (node_deactivate e m n) n))) by (eapply q_trans; [apply (q_transition e m n CDeactivate (lc_eqb Active) Inactive Active)|apply q_release_itfs]).
    destruct (c_chainable c) eqn:Ch.
    2:{ destruct Q1 as (_ & _ & A & B). constructor; [exact X|apply nd_same; assumption|]. intros _ _ _ _ c' F' _ Ch'. pose proof (xw_find _ _ _ _ X) as Fx. rewrite F in Fx. destruct Fx as (y & Fy & SC & _).
        assert (y = c') by congruence. subst y. rewrite (proj1 (proj2 SC)) in Ch'. congruence. }
    set (m2 := set_chained e _ n false) in *. assert (Q2 : quiet_rm (cm_rm m) (cm_rm m2)) by (eapply q_trans; [exact Q1|apply q_chained]). destruct Q2 as (R1 & R2 & V1 & V2).
    assert (ND2 : nd (cm_rm m) -> nd (cm_rm m2)) by (apply nd_same; assumption).
    destruct (make_exps_unavailable (cm_rm m2) n) as [r3|] eqn:E3.
    2:{ constructor; [exact X|exact ND2|]. intros _ _ [_ K] _. exfalso. apply K. unfold exps_of. rewrite <- R2. unfold make_exps_unavailable in E3. destruct (aget (rm_exps (cm_rm m2)) n); [discriminate|reflexivity]. }
    destruct (make_refs_unavailable r3 n) as [r4|] eqn:E4.
    2:{ assert (ER : rm_refs r3 = rm_refs (cm_rm m2) /\ (nd (cm_rm m2) -> nd r3)).
        { unfold make_exps_unavailable in E3. destruct (aget (rm_exps (cm_rm m2)) n); [|discriminate]. injection E3 as <-. split; [reflexivity|]. intros [A B]. split; [apply remove_items_spec; exact A|exact B]. }
        constructor; [exact X|cbn; tauto|]. intros _ _ [K _] _. exfalso. apply K. unfold refs_of. rewrite <- R1, <- (proj1 ER). unfold make_refs_unavailable in E4. destruct (aget (rm_refs r3) n); [discriminate|reflexivity]. }
    assert (U : exports_unavailable m2 n = Val (set_rm m2 r4)) by (unfold exports_unavailable; rewrite E3; cbn [of_option bind]; rewrite E4; reflexivity).
    destruct (un_self n m2 _ U) as (_ & _ & _ & WD). constructor; [exact X| |].
    + intros Nd. apply (wr_nd _ _ (WR_un_ctl _ _ _ U)). apply ND2. exact Nd.
    + intros _ Nd _ _ c' _ _ _. apply WD. apply ND2. exact Nd.
  - unfold deactivate_one. destruct (find_ctrl m n0) as [c|]; [|apply WR_refl]. destruct (is_lc Active c); [|apply WR_refl].
    assert (W1 : WR m (release_itfs (node_deactivate e m n0) n0)) by (eapply WR_trans; [apply WR_trans_other; [exact N|exact conf_ac|left; reflexivity|right; reflexivity]|apply WR_release]).
    destruct (c_chainable c); [|exact W1]. eapply WR_trans; [exact W1|]. eapply WR_trans; [apply (WR_chained _ n0 false)|]. set (m2 := set_chained e (release_itfs (node_deactivate e m n0) n0) n0 false).
    destruct (make_exps_unavailable (cm_rm m2) n0) as [r3|] eqn:E3; [|apply WR_refl].
    destruct (make_refs_unavailable r3 n0) as [r4|] eqn:E4.
    + eapply WR_un_ctl. unfold exports_unavailable. rewrite E3. cbn [of_option bind]. rewrite E4. reflexivity.
    + apply WR_of; [eapply exps_un_XW; exact E3| |intros x y Fx Fy; change (find_ctrl m2 n = Some y) in Fy; congruence|].
      * unfold make_exps_unavailable in E3. destruct (aget (rm_exps (cm_rm m2)) n0); [|discriminate]. injection E3 as <-. intros [A B]. split; [apply remove_items_spec; exact A|exact B].
      * intros _. unfold make_exps_unavailable in E3. destruct (aget (rm_exps (cm_rm m2)) n0); [|discriminate]. injection E3 as <-. split; cbn [set_rm cm_rm with_av rm_avc rm_avs]; intros ? k ? ? V; [exact V|apply remove_sub in V; exact V].
Qed.
Lemma WR_deactivate ns : forall m, WR m (deactivate_controllers e m ns).
Proof. unfold deactivate_controllers. induction ns as [|x ns IH]; intros m; cbn [fold_left]; [apply WR_refl|]. eapply WR_trans; [apply WR_deactivate_one|apply IH]. Qed.
Lemma WR_preactivate m n0 m' : preactivate m n0 = Val m' -> n0 <> n -> WR m m'.
Proof.
  unfold preactivate. intros H N. destruct (find_ctrl m n0) as [c|]; [|injection H as <-; apply WR_refl]. destruct (c_chainable c); [eapply WR_av; eassumption|injection H as <-; apply WR_refl].
Qed.
Lemma WR_activate_one st n0 st' : activate_one e st n0 = Val st' -> n0 <> n -> WR (act_rm st) (act_rm st').
Proof.
  intros H N. destruct st as [[m ok] failed]. unfold activate_one, act_rm in *. cbn [fst] in *. destruct (find_ctrl m n0) as [c|] eqn:F; [|injection H as <-; apply WR_refl].
  apply bind_val in H. destruct H as ((r1 & loans) & HC & H). pose proof (claim_all_maps _ _ _ _ _ HC) as MP. destruct (claim_all_avs _ _ _ _ _ HC) as [V1 V2].
  destruct loans as [cl|].
  2:{ injection H as <-. cbn [fst]. apply WR_same; try assumption; [apply XR_maps; assumption|reflexivity]. }
  destruct (forallb _ _).
  2:{ injection H as <-. cbn [fst]. apply WR_same; [apply XR_maps; [eapply same_maps_trans; [exact MP|apply release_maps]|rewrite release_avc; exact V1|rewrite release_avs; exact V2]|reflexivity|cbn; rewrite release_avc; exact V1|cbn; rewrite release_avs; exact V2]. }
  set (m1 := upd (set_rm m (release_all r1 (c_cloans c))) n0 (upd_loans cl (state_names r1 c))) in *.
  assert (X1 : WR m m1).
  { eapply WR_trans; [apply (WR_same m (set_rm m (release_all r1 (c_cloans c)))); [apply XR_maps; [eapply same_maps_trans; [exact MP|apply (release_maps (c_cloans c))]|rewrite release_avc; exact V1|rewrite release_avs; exact V2]|reflexivity|cbn; rewrite release_avc; exact V1|cbn; rewrite release_avs; exact V2]|].
    apply WR_of; [apply XR_upd; [apply loan_keeps|intros x _ _; split; [intros _; right; reflexivity|cbn; auto]]|auto| |intros _; apply noadd_same; reflexivity].
    intros x y Fx. apply find_upd_o; try reflexivity. exact Fx. }
  assert (X2 : WR m (node_activate e m1 n0)) by (eapply WR_trans; [exact X1|apply WR_trans_other; [exact N|exact conf_in|right; reflexivity|left; reflexivity]]).
  set (m2 := node_activate e m1 n0) in *.
  destruct (find_ctrl m2 n0) as [c2|]; [|injection H as <-; exact X2]. destruct (is_lc Active c2); destruct (c_chainable c).
  - apply bind_val in H. destruct H as (m3 & H3 & H). injection H as <-. cbn [fst]. eapply WR_trans; [exact X2|eapply WR_av; eassumption].
  - injection H as <-. exact X2.
  - apply bind_val in H. destruct H as (m4 & H4 & H). injection H as <-. cbn [fst]. eapply WR_trans; [exact X2|]. eapply WR_trans; [apply WR_release|]. eapply WR_un_ctl; eassumption.
  - injection H as <-. cbn [fst]. eapply WR_trans; [exact X2|apply WR_release].
Qed.
Lemma rfold_WR {A} (f : A -> name -> res A) (p : A -> cm) : (forall a x a', f a x = Val a' -> x <> n -> WR (p a) (p a')) ->
  forall l a a', rfold f l a = Val a' -> ~ In n l -> WR (p a) (p a').
Proof.
  intros H. induction l as [|x l IH]; intros a a' R N; cbn [rfold] in R; [injection R as <-; apply WR_refl|].
  apply bind_val in R. destruct R as (a1 & R1 & R). eapply WR_trans; [eapply H; [exact R1|intros ->; apply N; left; reflexivity]|]. apply (IH a1 a' R). intros I. apply N. right. exact I.
Qed.
Lemma WR_activate m ns strict start m' : activate_controllers e allow m ns strict start = Val m' -> ~ In n ns -> WR m m'.
Proof.
  unfold activate_controllers. intros H N. unfold bind in H. destruct (rfold preactivate ns m) as [m1|] eqn:E1; [|discriminate].
  destruct (rfold (activate_one e) ns (m1, true, [])) as [[[m2 ok] failed]|] eqn:E2; [|discriminate].
  assert (X1 : WR m m1) by (eapply (rfold_WR preactivate (fun x => x)); [|exact E1|exact N]; intros; eapply WR_preactivate; eassumption).
  assert (X2 : WR m1 m2) by (eapply (rfold_WR (activate_one e) act_rm) in E2; [exact E2| |exact N]; intros; eapply WR_activate_one; eassumption).
  assert (X : WR m m2) by (eapply WR_trans; eassumption).
  destruct (negb ok && strict).
  - injection H as <-. eapply WR_trans; [exact X|]. eapply WR_trans; [apply WR_deactivate|apply WR_prep_perf].
  - destruct (negb _); injection H as <-; [eapply WR_trans; [exact X|apply WR_prep_perf]|exact X].
Qed.
Lemma WR_chained_mode ns b : forall m, WR m (switch_chained_mode e m ns b).
Proof.
  unfold switch_chained_mode. induction ns as [|n0 ns IH]; intros m; cbn [fold_left]; [apply WR_refl|]. eapply WR_trans; [|apply IH].
  destruct (find_ctrl m n0) as [c|]; [|apply WR_refl]. destruct (is_lc Active c); [apply WR_refl|apply WR_chained].
Qed.
Lemma WR_perform m a d : WR m (set_rm m (fst (rm_perform e allow (cm_rm m) a d))).
Proof. destruct (rm_perform_av e allow (cm_rm m) a d). apply WR_same; try assumption; [apply grow_XR; apply grow_perform|reflexivity]. Qed.
Lemma WR_manage m p m' : manage_switch e allow m p = Val m' -> ~ In n (p_act p) -> WR m m'.
Proof.
  unfold manage_switch. pose proof (WR_perform m (p_start p) (p_stop p)) as G. destruct (rm_perform _ _ _ _ _) as [r1 ok]. cbn [fst] in G. intros H N.
  destruct (negb ok); [injection H as <-; exact G|]. eapply WR_trans; [exact G|]. eapply WR_trans; [apply WR_deactivate|].
  eapply WR_trans; [apply (WR_chained_mode (p_to p) true)|]. eapply WR_trans; [apply (WR_chained_mode (p_from p) false)|]. eapply WR_activate; eassumption.
Qed.
Lemma WR_hw m r : names_ok (cm_rm m) -> hwonly (cm_rm m) r -> evolve (cm_rm m) r -> (nd (cm_rm m) -> nd r) -> WR m (set_rm m r).
Proof.
  intros NK A B C. apply WR_of; [apply hw_XR; assumption|exact C|intros x y Fx Fy; change (find_ctrl m n = Some y) in Fy; congruence|].
  intros D. destruct A as [A1 A2]. split; cbn [set_rm cm_rm]; intros ks k G I V; [apply A1|apply A2]; try exact V; [eapply di_hwc|eapply di_hws]; eassumption.
Qed.
Lemma WR_read m : RI (cm_rm m) -> WR m (cm_read e allow m).
Proof.
  intros HR. pose proof (i_names _ HR) as NK. unfold cm_read. pose proof (rm_read_hwonly e (cm_rm m) NK) as A. pose proof (rm_read_evolve e (cm_rm m) NK) as B.
  pose proof (prim_nd e allow any_kind m _ HR (p_read e allow any_kind m I)) as C. cbn [set_rm cm_rm] in C. destruct (rm_read e (cm_rm m)) as [r1 st]. cbn [fst] in A, B, C.
  pose proof (WR_hw m r1 NK A B C) as X. destruct (rtype_eqb _ _); [exact X|]. eapply WR_trans; [exact X|]. eapply WR_trans; [apply WR_mode_change|apply WR_deactivate].
Qed.
Lemma WR_write m : RI (cm_rm m) -> WR m (cm_write e allow m).
Proof.
  intros HR. pose proof (i_names _ HR) as NK. unfold cm_write. pose proof (rm_write_hwonly e (cm_rm m) NK) as A. pose proof (rm_write_evolve e (cm_rm m) NK) as B.
  pose proof (prim_nd e allow any_kind m _ HR (p_write e allow any_kind m I)) as C. cbn [set_rm cm_rm] in C. destruct (rm_write e (cm_rm m)) as [r1 st]. cbn [fst] in A, B, C.
  pose proof (WR_hw m r1 NK A B C) as X. destruct (rw_result st); (eapply WR_trans; [exact X|]); [apply WR_refl| |]; (eapply WR_trans; [apply WR_mode_change|apply WR_deactivate]).
Qed.
Lemma WR_update m m' : cm_update e allow m = Val m' -> ~ In n (flat_map c_fallback (cm_ctrls m)) -> WR m m'.
Proof.
  unfold cm_update. intros H N.
  assert (X : forall l p m0 ds, WR m0 (fst (fold_left (update_one e p) l (m0, ds))) /\ cm_ctrls (fst (fold_left (update_one e p) l (m0, ds))) = cm_ctrls m0).
  { induction l as [|c l IH]; intros p m0 ds; cbn [fold_left]; [split; [apply WR_refl|reflexivity]|].
    assert (U : WR m0 (fst (update_one e p (m0, ds) c)) /\ cm_ctrls (fst (update_one e p (m0, ds) c)) = cm_ctrls m0).
    { unfold update_one. destruct (skipped p (c_name c)); [split; [apply WR_refl|reflexivity]|]. destruct (is_lc Active c && _); [|split; [apply WR_refl|reflexivity]].
      destruct (e_update _ _ _) as [[| |]|]; cbn [fst]; (split; [apply WR_emit|reflexivity]). }
    destruct (update_one e p (m0, ds) c) as [m1 ds1]. cbn [fst] in U. destruct U as [U1 U2]. destruct (IH p m1 ds1) as [I1 I2]. split; [eapply WR_trans; eassumption|congruence]. }
  specialize (X (cm_ctrls m) (cm_pend m) m []). destruct (fold_left (update_one e (cm_pend m)) (cm_ctrls m) (m, [])) as [m1 ds]. cbn [fst] in X. destruct X as [X XC].
  destruct ds as [|d ds]; [injection H as <-; exact X|]. cbv zeta in H.
  set (fbs := flat_map (fun n => match find_ctrl m1 n with Some c => c_fallback c | None => [] end) (d :: ds)) in *.
  assert (NF : ~ In n (add_items [] fbs)).
  { intros I. apply In_add_items in I. destruct I as [[]|I]. apply N. unfold fbs in I. apply in_flat_map in I. destruct I as (x & _ & I). destruct (find_ctrl m1 x) as [c|] eqn:F; [|destruct I].
    apply in_flat_map. exists c. split; [rewrite <- XC; eapply find_in_In; exact F|exact I]. }
  set (us := add_items (d :: ds) _) in *.
  assert (X2 : WR m (deactivate_controllers e (mode_change e allow m1 (add_items [] fbs) us) us)).
  { eapply WR_trans; [exact X|]. eapply WR_trans; [apply WR_mode_change|apply WR_deactivate]. }
  destruct (add_items [] fbs) as [|f fs] eqn:EF.
  - injection H as <-. exact X2.
  - eapply WR_trans; [exact X2|]. eapply WR_activate; eassumption.
Qed.
End Stop.
