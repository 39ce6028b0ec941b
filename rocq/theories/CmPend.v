(** CmPend.v -- carrying out a switch does not look at the record of the pending switch in the state (it gets its
    parameters as arguments). *)
From Verif Require Import Base Events HwModel RmModel CmModel.
Open Scope list_scope.

Section P.
Variable (e : env) (allow : bool) (x : option pend).
Local Notation P m := (set_pend m x).
Lemma P_release m n : release_itfs (P m) n = P (release_itfs m n).
Proof. unfold release_itfs. change (find_ctrl (P m) n) with (find_ctrl m n). destruct (find_ctrl m n); reflexivity. Qed.
Lemma P_error m n : node_error e (P m) n = P (node_error e m n).
Proof.
  unfold node_error. change (rm_trace (cm_rm (P m))) with (rm_trace (cm_rm m)). 
  change (emit (P m) (EvCtrlErr n (e_ctrl_error e (rm_trace (cm_rm m)) n))) with (P (emit m (EvCtrlErr n (e_ctrl_error e (rm_trace (cm_rm m)) n)))).
  rewrite P_release. reflexivity.
Qed.
Lemma P_trans m n cb f s fl : node_transition e (P m) n cb f s fl = P (node_transition e m n cb f s fl).
Proof.
  unfold node_transition. change (find_ctrl (P m) n) with (find_ctrl m n). destruct (find_ctrl m n) as [c|]; [|reflexivity].
  destruct (f (c_lc c)); [|reflexivity]. unfold ctrl_call. change (rm_trace (cm_rm (P m))) with (rm_trace (cm_rm m)).
  destruct (e_ctrl e (rm_trace (cm_rm m)) n cb) eqn:E; try reflexivity;
    match goal with |- node_error e (emit (P m) ?ev) n = _ => change (emit (P m) ev) with (P (emit m ev)) end; apply P_error.
Qed.
Lemma P_chained m n on : set_chained e (P m) n on = P (set_chained e m n on).
Proof.
  unfold set_chained. change (find_ctrl (P m) n) with (find_ctrl m n). destruct (find_ctrl m n) as [c|]; [|reflexivity].
  destruct (_ && _); [|reflexivity]. change (rm_trace (cm_rm (P m))) with (rm_trace (cm_rm m)). destruct (e_set_chained e (rm_trace (cm_rm m)) n on); reflexivity.
Qed.
Lemma P_deact1 m n : deactivate_one e (P m) n = P (deactivate_one e m n).
Proof.
  unfold deactivate_one. change (find_ctrl (P m) n) with (find_ctrl m n). destruct (find_ctrl m n) as [c|]; [|reflexivity].
  destruct (is_lc Active c); [|reflexivity]. unfold node_deactivate. rewrite P_trans, P_release. destruct (c_chainable c); [|reflexivity].
  rewrite P_chained. cbv zeta. set (m2 := set_chained e _ n false). change (cm_rm (P m2)) with (cm_rm m2).
  destruct (make_exps_unavailable (cm_rm m2) n) as [r3|]; [|reflexivity]. destruct (make_refs_unavailable r3 n); reflexivity.
Qed.
Lemma P_deact ns : forall m, deactivate_controllers e (P m) ns = P (deactivate_controllers e m ns).
Proof.
  unfold deactivate_controllers. induction ns as [|n ns IH]; intros m; cbn [fold_left]; [reflexivity|]. rewrite P_deact1. apply IH.
Qed.
Lemma P_chain ns on : forall m, switch_chained_mode e (P m) ns on = P (switch_chained_mode e m ns on).
Proof.
  unfold switch_chained_mode. induction ns as [|n ns IH]; intros m; cbn [fold_left]; [reflexivity|].
  change (find_ctrl (P m) n) with (find_ctrl m n). rewrite <- IH. f_equal. destruct (find_ctrl m n) as [c|]; [|reflexivity].
  destruct (is_lc Active c); [reflexivity|apply P_chained].
Qed.
Definition PM (r : res cm) : res cm := do m <- r; Val (P m).
Lemma P_ex m n : exports_available (P m) n = PM (exports_available m n).
Proof.
  unfold exports_available, PM. change (cm_rm (P m)) with (cm_rm m). destruct (make_exps_available (cm_rm m) n) as [r|]; [|reflexivity]. cbn [of_option bind].
  destruct (make_refs_available r n); reflexivity.
Qed.
Lemma P_un m n : exports_unavailable (P m) n = PM (exports_unavailable m n).
Proof.
  unfold exports_unavailable, PM. change (cm_rm (P m)) with (cm_rm m). destruct (make_exps_unavailable (cm_rm m) n) as [r|]; [|reflexivity]. cbn [of_option bind].
  destruct (make_refs_unavailable r n); reflexivity.
Qed.
Lemma P_pre ns : forall m, rfold preactivate ns (P m) = PM (rfold preactivate ns m).
Proof.
  induction ns as [|n ns IH]; intros m; cbn [rfold]; [reflexivity|].
  assert (Q : preactivate (P m) n = PM (preactivate m n)).
  { unfold preactivate. change (find_ctrl (P m) n) with (find_ctrl m n). destruct (find_ctrl m n) as [c|]; [|reflexivity]. destruct (c_chainable c); [apply P_ex|reflexivity]. }
  rewrite Q. unfold PM. destruct (preactivate m n) as [m1|]; cbn [bind]; [apply IH|reflexivity].
Qed.
Definition PA (r : res act_state) : res act_state := do (m, ok, f) <- r; Val (P m, ok, f).
Lemma P_act1 m ok f n : activate_one e (P m, ok, f) n = PA (activate_one e (m, ok, f) n).
Proof.
  unfold activate_one. change (find_ctrl (P m) n) with (find_ctrl m n). destruct (find_ctrl m n) as [c|]; [|reflexivity].
  change (cm_rm (P m)) with (cm_rm m). cbv zeta. destruct (claim_all (cm_rm m) (cmd_names (cm_rm m) c) []) as [[r1 [cl|]]|]; cbn [bind]; try reflexivity.
  destruct (forallb (claim_state r1) (state_names r1 c)); [|reflexivity].
  change (upd (set_rm (P m) (release_all r1 (c_cloans c))) n (upd_loans cl (state_names r1 c))) with (P (upd (set_rm m (release_all r1 (c_cloans c))) n (upd_loans cl (state_names r1 c)))).
  set (m1 := upd _ n _). unfold node_activate. rewrite P_trans. set (m2 := node_transition e m1 _ _ _ _ _). change (find_ctrl (P m2) n) with (find_ctrl m2 n).
  destruct (find_ctrl m2 n) as [c2|]; [|reflexivity]. destruct (is_lc Active c2).
  - destruct (c_chainable c); [|reflexivity]. rewrite P_ex. unfold PM, PA. destruct (exports_available m2 n); reflexivity.
  - rewrite P_release. destruct (c_chainable c); [|reflexivity]. rewrite P_un. unfold PM, PA. destruct (exports_unavailable (release_itfs m2 n) n); reflexivity.
Qed.
Lemma P_acts ns : forall m ok f, rfold (activate_one e) ns (P m, ok, f) = PA (rfold (activate_one e) ns (m, ok, f)).
Proof.
  induction ns as [|n ns IH]; intros m ok f; cbn [rfold]; [reflexivity|]. rewrite P_act1. unfold PA at 1.
  destruct (activate_one e (m, ok, f) n) as [[[m1 ok1] f1]|]; cbn [bind]; [apply IH|reflexivity].
Qed.
Lemma P_pp m s t : prep_perf e allow (P m) s t = P (prep_perf e allow m s t).
Proof. unfold prep_perf. change (cm_rm (P m)) with (cm_rm m). destruct (rm_prepare e allow (cm_rm m) s t). reflexivity. Qed.
Lemma manage_set_pend m p : manage_switch e allow (P m) p = PM (manage_switch e allow m p).
Proof.
  unfold manage_switch. change (cm_rm (P m)) with (cm_rm m). destruct (rm_perform e allow (cm_rm m) (p_start p) (p_stop p)) as [r ok].
  destruct ok; cbn [negb]; [|reflexivity]. cbv zeta. change (set_rm (P m) r) with (P (set_rm m r)). rewrite P_deact, !P_chain.
  set (m4 := switch_chained_mode _ _ _ false). unfold activate_controllers. rewrite P_pre. unfold PM at 1.
  destruct (rfold preactivate (p_act p) m4) as [m5|]; cbn [bind]; [|reflexivity]. rewrite P_acts. unfold PA.
  destruct (rfold (activate_one e) (p_act p) (m5, true, [])) as [[[m6 ok6] f6]|]; cbn [bind]; [|reflexivity].
  destruct (negb ok6 && p_strict p); [rewrite P_deact, P_pp; reflexivity|]. destruct (negb match f6 with [] => true | _ => false end); [rewrite P_pp; reflexivity|reflexivity].
Qed.
End P.
