(** CmExport2.v -- the operations that neither configure, clean up nor (un)load a controller. *)
From Coq Require Import Lia Permutation.
From Verif Require Import Base Events HwModel RmModel RmSys RmSpec RmSpec2 HwProofs RmProofs RmInv RmAvail RmMode RmExact ChainModel CmModel CmPrim ChainSpec CmTopo CmInv CmSpec CmReach CmSwitch CmOutcome CmLoad CmIntact FollowSpec UpdateSpec CmDeact CmErr CmFallback LifeSpec CmLife CmRefs DoneSpec CmDone CmCycle ExportSpec CmExport.
Open Scope list_scope.

(** hardware operations only touch the availability of hardware interfaces *)
Definition hwonly (r r' : rm) : Prop :=
  (forall k, ~ In k (hw_cmds r) -> (In k (rm_avc r) <-> In k (rm_avc r'))) /\ (forall k, ~ In k (hw_states r) -> (In k (rm_avs r) <-> In k (rm_avs r'))).
Lemma hwonly_refl r : hwonly r r. Proof. split; intros; reflexivity. Qed.
Lemma hwonly_trans a b c : statics b = statics a -> hwonly a b -> hwonly b c -> hwonly a c.
Proof.
  intros S [A1 A2] [B1 B2]. split; intros k N; [rewrite A1 by exact N; apply B1|rewrite A2 by exact N; apply B2].
  - rewrite hw_cmds_statics, S, <- hw_cmds_statics. exact N.
  - rewrite hw_states_statics, S, <- hw_states_statics. exact N.
Qed.
Lemma hwonly_same r r' : av_same r r' -> hwonly r r'.
Proof. intros [A B]. split; intros; rewrite ?A, ?B; reflexivity. Qed.
Lemma remove_sub xs : forall (l : list name) k, In k (remove_items l xs) -> In k l.
Proof. induction xs as [|x xs IH]; intros l k H; [exact H|]. apply IH in H. eapply In_remove1_sub. exact H. Qed.
Lemma hw_in r n h k : find_hw r n = Some h -> (In k (h_cmd h) -> In k (hw_cmds r)) /\ (In k (h_state h) -> In k (hw_states r)).
Proof. intros F. apply find_some in F. destruct F as [F _]. split; intros I; apply in_flat_map; exists h; auto. Qed.
Lemma hwonly_remove r r' n h : av_same r r' -> find_hw r n = Some h -> hwonly r (remove_hw_itfs r' h).
Proof.
  intros [A B] F. split; cbn [remove_hw_itfs with_av rm_avc rm_avs]; intros k N; (split; intros H; [apply CmFallback.remove_items_keep; rewrite ?A, ?B; auto; intros I; apply N; eapply (hw_in r n h k F); exact I|apply remove_sub in H; congruence]).
Qed.
Lemma hwonly_group r r' g v : hwonly r r' -> hwonly r (set_group r' g v).
Proof. intros H. unfold set_group. destruct (String.eqb g ""); [exact H|]. destruct H. split; auto. Qed.
Lemma rt_av e f target r h : av_same r (fst (run_transition e f target r h)).
Proof. destruct (hw_of_rt e f target r h). split; assumption. Qed.
Lemma configure_hwonly e r n h : find_hw r n = Some h -> hwonly r (fst (configure_hardware e r h)).
Proof.
  intros F. unfold configure_hardware. pose proof (rt_av e hw_configure Inactive r h) as V. destruct (run_transition _ _ _ _ _) as [r1 ok]. cbn [fst] in *. apply hwonly_group.
  destruct ok; [|apply hwonly_same; exact V]. destruct V as [A B]. split; cbn [with_av rm_avc rm_avs]; intros k N; rewrite In_add_items, ?A, ?B; (split; [auto|intros [H|H]; [exact H|exfalso; apply N; eapply (hw_in r n h k F); exact H]]).
Qed.
Lemma cleanup_hwonly e r n h : find_hw r n = Some h -> hwonly r (fst (cleanup_hardware e r h)).
Proof.
  intros F. unfold cleanup_hardware. pose proof (rt_av e hw_cleanup Unconfigured r h) as V. destruct (run_transition _ _ _ _ _) as [r1 ok]. cbn [fst] in *. apply hwonly_group.
  destruct ok; [eapply hwonly_remove; eassumption|apply hwonly_same; exact V].
Qed.
Lemma shutdown_hwonly e r n h : find_hw r n = Some h -> hwonly r (fst (shutdown_hardware e r h)).
Proof.
  intros F. unfold shutdown_hardware. pose proof (rt_av e hw_shutdown Finalized r h) as V. destruct (run_transition _ _ _ _ _) as [r1 ok]. cbn [fst] in *.
  destruct ok; [apply hwonly_group; eapply hwonly_remove; eassumption|apply hwonly_same; exact V].
Qed.
Lemma act_hwonly e r h : hwonly r (fst (activate_hardware e r h)). Proof. apply hwonly_same. apply rt_av. Qed.
Lemma deact_hwonly e r h : hwonly r (fst (deactivate_hardware e r h)). Proof. apply hwonly_same. apply rt_av. Qed.
Lemma then_hwonly r x n f : statics (fst x) = statics r -> hwonly r (fst x) -> (forall r1 h1, find_hw r1 n = Some h1 -> hwonly r1 (fst (f r1 h1))) -> hwonly r (fst (then_hw x n f)).
Proof.
  intros S H K. unfold then_hw. destruct x as [r1 ok]. cbn [fst] in *. destruct ok; [|exact H]. destruct (find_hw r1 n) as [h1|] eqn:F; [|exact H].
  eapply hwonly_trans; [exact S|exact H|apply K; exact F].
Qed.
Lemma only_st n r x : only n r x -> statics x = statics r.
Proof. intros O. apply evolve_statics. exact (on_ev _ _ _ O). Qed.
Lemma set_state_hwonly e r n target : names_ok r -> hwonly r (fst (set_component_state e r n target)).
Proof.
  intros NK. unfold set_component_state. destruct (find_hw r n) as [h|] eqn:F; [|apply hwonly_refl].
  pose proof (find_some _ _ F) as [_ Nh]. apply String.eqb_eq in Nh.
  assert (SD : statics (fst (deactivate_hardware e r h)) = statics r) by (destruct (deactivate_hardware_ok e r h n NK F) as [O _]; eapply only_st; exact O).
  assert (SC : statics (fst (configure_hardware e r h)) = statics r) by (destruct (configure_hardware_ok e r h n NK F) as [O _]; eapply only_st; exact O).
  unfold set_state_of. rewrite Nh. destruct target, (h_lc h); cbn [fst]; try apply hwonly_refl; try (eapply configure_hwonly; eassumption); try apply act_hwonly; try apply deact_hwonly; try (eapply cleanup_hwonly; eassumption); try (eapply shutdown_hwonly; eassumption).
  - apply then_hwonly; [exact SD|apply deact_hwonly|intros; eapply cleanup_hwonly; eassumption].
  - apply then_hwonly; [exact SC|eapply configure_hwonly; eassumption|intros; apply act_hwonly].
  - apply then_hwonly; [exact SD|apply deact_hwonly|intros; eapply shutdown_hwonly; eassumption].
Qed.
Lemma error_av e r n : av_same r (rm_error e r n).
Proof. unfold rm_error. destruct (find_hw r n) as [h|]; [|split; reflexivity]. destruct (hw_error e h (rm_trace r)). split; reflexivity. Qed.
Lemma read_one_hwonly e r st n : hwonly r (fst (read_one e (r, st) n)).
Proof.
  unfold read_one. destruct (find_hw r n) as [h|] eqn:F; [|apply hwonly_refl]. destruct (e_locked _ _ _); [apply hwonly_refl|].
  pose proof (read_ret_av e r h) as V. destruct (read_ret e r h) as [r1 v]. cbn [fst] in V.
  destruct v; cbn [fst]; [apply hwonly_same; exact V| |]; (eapply hwonly_remove; [|exact F]; pose proof (error_av e r1 n) as [A B]; destruct V; split; congruence).
Qed.
Lemma write_one_hwonly e r st n : names_ok r -> hwonly r (fst (write_one e (r, st) n)).
Proof.
  intros NK. unfold write_one. destruct (find_hw r n) as [h|] eqn:F; [|apply hwonly_refl]. destruct (e_locked _ _ _); [apply hwonly_refl|].
  pose proof (write_ret_av e r h) as V. pose proof (write_ret_only e r n h NK F) as O. destruct (write_ret e r h) as [r1 v]. cbn [fst] in V, O.
  destruct v; cbn [fst]; [apply hwonly_same; exact V| |].
  - eapply hwonly_remove; [|exact F]; pose proof (error_av e r1 n) as [A B]; destruct V; split; congruence.
  - eapply hwonly_trans; [eapply only_st; exact O|apply hwonly_same; exact V|]. apply set_state_hwonly. eapply names_ok_evolve; [exact (on_ev _ _ _ O)|exact NK].
Qed.
Lemma fold_hwonly {B} (f : rm * B -> name -> rm * B) l : (forall r b n, names_ok r -> evolve r (fst (f (r, b) n))) -> (forall r b n, names_ok r -> hwonly r (fst (f (r, b) n))) ->
  forall r b, names_ok r -> hwonly r (fst (fold_left f l (r, b))).
Proof.
  intros E H. induction l as [|n l IH]; intros r b NK; cbn [fold_left]; [apply hwonly_refl|].
  pose proof (E r b n NK) as E1. pose proof (H r b n NK) as H1. destruct (f (r, b) n) as [r1 b1]. cbn [fst] in *.
  eapply hwonly_trans; [apply evolve_statics; exact E1|exact H1|apply IH; eapply names_ok_evolve; eassumption].
Qed.
Lemma rm_read_hwonly e r : names_ok r -> hwonly r (fst (rm_read e r)).
Proof. intros NK. unfold rm_read. apply fold_hwonly; [|intros; apply read_one_hwonly|exact NK]. intros. apply (on_ev n). apply read_one_only. assumption. Qed.
Lemma rm_write_hwonly e r : names_ok r -> hwonly r (fst (rm_write e r)).
Proof. intros NK. unfold rm_write. apply fold_hwonly; [|intros; apply write_one_hwonly; assumption|exact NK]. intros. apply (on_ev n). apply write_one_only. assumption. Qed.
Lemma hw_XR e n m r : hwonly (cm_rm m) r -> evolve (cm_rm m) r -> XR e n m (set_rm m r).
Proof.
  intros [A B] E. apply XR_rm; [exact (ev_refs _ _ E)|exact (ev_exps _ _ E)|apply evolve_statics; exact E|].
  intros D. split; intros ks k G I V; [apply A|apply B]; try exact V; [eapply di_hwc|eapply di_hws]; eassumption.
Qed.
Lemma grow_XR e n m r : grow (cm_rm m) r -> XR e n m (set_rm m r).
Proof.
  intros G. apply XR_rm; [apply G|apply G|unfold statics; rewrite (g_hw _ _ G); reflexivity|]. intros _. split; intros ks k _ _ V; [apply (g_avc _ _ G)|apply (g_avs _ _ G)]; exact V.
Qed.
Section Two.
Variables (e : env) (allow : bool) (n : name).
Notation XR := (XR e n).
Lemma prep_perf_XR m a d : XR m (prep_perf e allow m a d).
Proof.
  unfold prep_perf. pose proof (grow_prepare e allow (cm_rm m) a d) as G. destruct (rm_prepare e allow (cm_rm m) a d) as [r1 ok]. cbn [fst] in G. apply grow_XR.
  destruct ok; [|exact G]. eapply grow_trans; [exact G|apply grow_perform].
Qed.
Lemma preactivate_XR m n0 m' : preactivate m n0 = Val m' -> XR m m'.
Proof.
  unfold preactivate. intros H. destruct (find_ctrl m n0) as [c|]; [|injection H as <-; apply XR_refl]. destruct (c_chainable c); [eapply exports_av_XR; exact H|injection H as <-; apply XR_refl].
Qed.
Lemma activate_XR m ns strict start m' : activate_controllers e allow m ns strict start = Val m' -> XR m m'.
Proof.
  unfold activate_controllers. intros H. unfold bind in H. destruct (rfold preactivate ns m) as [m1|] eqn:E1; [|discriminate].
  destruct (rfold (activate_one e) ns (m1, true, [])) as [[[m2 ok] failed]|] eqn:E2; [|discriminate].
  assert (X1 : XR m m1) by (eapply (rfold_XR e n preactivate (fun x => x)); [|exact E1]; intros; eapply preactivate_XR; eassumption).
  assert (X2 : XR m1 m2) by (eapply (rfold_XR e n (activate_one e) act_rm) in E2; [exact E2|]; intros; eapply activate_one_XR; eassumption).
  assert (X : XR m m2) by (eapply XR_trans; eassumption).
  destruct (negb ok && strict).
  - injection H as <-. eapply XR_trans; [exact X|]. eapply XR_trans; [apply deactivate_XR|apply prep_perf_XR].
  - destruct (negb _); injection H as <-; [eapply XR_trans; [exact X|apply prep_perf_XR]|exact X].
Qed.
Lemma chained_XR ns b : forall m, XR m (switch_chained_mode e m ns b).
Proof.
  unfold switch_chained_mode. induction ns as [|n0 ns IH]; intros m; cbn [fold_left]; [apply XR_refl|]. eapply XR_trans; [|apply IH].
  destruct (find_ctrl m n0) as [c|]; [|apply XR_refl]. destruct (is_lc Active c); [apply XR_refl|apply XR_chained].
Qed.
Lemma manage_XR m p m' : manage_switch e allow m p = Val m' -> XR m m'.
Proof.
  unfold manage_switch. pose proof (grow_perform e allow (cm_rm m) (p_start p) (p_stop p)) as G. destruct (rm_perform _ _ _ _ _) as [r1 ok]. cbn [fst] in G. intros H.
  destruct (negb ok); [injection H as <-; apply grow_XR; exact G|]. eapply XR_trans; [apply grow_XR; exact G|]. eapply XR_trans; [apply deactivate_XR|].
  eapply XR_trans; [apply (chained_XR (p_to p) true)|]. eapply XR_trans; [apply (chained_XR (p_from p) false)|]. eapply activate_XR; exact H.
Qed.
Lemma request_XR m a d strict asap m' o : switch_request e allow m a d strict asap = Val (m', o) -> XR m m'.
Proof.
  intros H. apply request_grow in H. destruct H as (r & G & [(-> & _)|(p & -> & _)]); [apply grow_XR; exact G|]. eapply XR_trans; [apply grow_XR; exact G|apply XR_same; reflexivity].
Qed.
Lemma mode_change_XR m a d : XR m (mode_change e allow m a d).
Proof.
  unfold mode_change. repeat (match goal with |- context [if ?b then _ else _] => destruct b end); try apply XR_refl; try apply prep_perf_XR.
Qed.
Lemma read_XR m : names_ok (cm_rm m) -> XR m (cm_read e allow m).
Proof.
  intros NK. unfold cm_read. pose proof (rm_read_hwonly e (cm_rm m) NK) as A. pose proof (rm_read_evolve e (cm_rm m) NK) as B. destruct (rm_read e (cm_rm m)) as [r1 st]. cbn [fst] in A, B.
  destruct (rtype_eqb _ _); [apply hw_XR; assumption|]. eapply XR_trans; [apply (hw_XR e n m r1); assumption|]. eapply XR_trans; [apply mode_change_XR|apply deactivate_XR].
Qed.
Lemma write_XR m : names_ok (cm_rm m) -> XR m (cm_write e allow m).
Proof.
  intros NK. unfold cm_write. pose proof (rm_write_hwonly e (cm_rm m) NK) as A. pose proof (rm_write_evolve e (cm_rm m) NK) as B. destruct (rm_write e (cm_rm m)) as [r1 st]. cbn [fst] in A, B.
  destruct (rw_result st); (eapply XR_trans; [apply (hw_XR e n m r1); assumption|]); [apply XR_refl| |]; (eapply XR_trans; [apply mode_change_XR|apply deactivate_XR]).
Qed.
Lemma sethw_XR m h t : names_ok (cm_rm m) -> XR m (set_rm m (fst (set_component_state e (cm_rm m) h t))).
Proof.
  intros NK. apply hw_XR; [apply set_state_hwonly; exact NK|]. destruct (set_component_state_ok e (cm_rm m) h t NK) as [[E _ _] _]. exact E.
Qed.
Lemma update_XR m m' : cm_update e allow m = Val m' -> XR m m'.
Proof.
  unfold cm_update. intros H.
  assert (X : forall l p m0 ds, XR m0 (fst (fold_left (update_one e p) l (m0, ds)))).
  { induction l as [|c l IH]; intros p m0 ds; cbn [fold_left]; [apply XR_refl|].
    assert (U : XR m0 (fst (update_one e p (m0, ds) c))).
    { unfold update_one. destruct (skipped p (c_name c)); [apply XR_refl|]. destruct (is_lc Active c && _); [|apply XR_refl].
      destruct (e_update _ _ _) as [[| |]|]; cbn [fst]; apply XR_emit. }
    destruct (update_one e p (m0, ds) c) as [m1 ds1]. cbn [fst] in U. eapply XR_trans; [exact U|apply IH]. }
  specialize (X (cm_ctrls m) (cm_pend m) m []). destruct (fold_left (update_one e (cm_pend m)) (cm_ctrls m) (m, [])) as [m1 ds]. cbn [fst] in X.
  destruct ds as [|d ds]; [injection H as <-; exact X|]. cbv zeta in H.
  match goal with H : match ?l with _ => _ end = _ |- _ => destruct l as [|f fs] end.
  - injection H as <-. eapply XR_trans; [exact X|]. eapply XR_trans; [apply mode_change_XR|apply deactivate_XR].
  - eapply XR_trans; [exact X|]. eapply XR_trans; [apply mode_change_XR|]. eapply XR_trans; [apply deactivate_XR|eapply activate_XR; exact H].
Qed.
End Two.
