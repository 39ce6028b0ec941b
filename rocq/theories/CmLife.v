(** CmLife.v -- the events of one operation follow the controllers' life cycles (LifeSpec.v). *)
From Coq Require Import Lia Permutation.
From Verif Require Import Base Events HwModel RmModel HwProofs RmProofs RmInv ChainModel CmModel CmPrim ChainSpec CmTopo CmInv CmSpec CmReach CmSwitch CmOutcome CmLoad CmIntact UpdateSpec CmDeact CmErr LifeSpec.

Lemma phase_app n y : forall x s, phase n s (y ++ x) = match phase n s x with Some s' => phase n s' y | None => None end.
Proof.
  induction y as [|ev y IH]; intros x s; cbn [app phase]; [destruct (phase n s x); reflexivity|].
  rewrite IH. destruct (phase n s x); reflexivity.
Qed.
Lemma chained_app n y : forall x b, chained_by n b (y ++ x) = chained_by n (chained_by n b x) y.
Proof.
  induction y as [|ev y IH]; intros x b; cbn [app chained_by]; [reflexivity|].
  destruct ev; try apply IH. destruct ok; [|apply IH]. destruct (String.eqb c n); [reflexivity|apply IH].
Qed.

(** trace extension by events satisfying P *)
Definition ext (P : event -> Prop) (t t' : trace) : Prop := exists x, t' = x ++ t /\ Forall P x.
Lemma ext_refl P t : ext P t t. Proof. exists []. auto. Qed.
Lemma ext_trans P a b c : ext P a b -> ext P b c -> ext P a c.
Proof. intros (x & -> & X) (y & -> & Y). exists (y ++ x). rewrite app_assoc. split; [reflexivity|apply Forall_app; auto]. Qed.
Lemma ext_cons (P : event -> Prop) t ev : P ev -> ext P t (ev :: t).
Proof. intros H. exists [ev]. split; [reflexivity|constructor; auto]. Qed.
Lemma ext_weak (P Q : event -> Prop) t t' : (forall ev, P ev -> Q ev) -> ext P t t' -> ext Q t t'.
Proof. intros H (x & E & F). exists x. split; [exact E|]. eapply Forall_impl; eassumption. Qed.

Record LF (P : event -> Prop) (m m' : cm) : Prop := {
  lf_ev : exists x, rm_trace (cm_rm m') = x ++ rm_trace (cm_rm m) /\ Forall P x /\
    forall n c, find_ctrl m n = Some c -> exists c', find_ctrl m' n = Some c' /\
      phase n (PState (c_lc c)) x = Some (PState (c_lc c')) /\ chained_by n (c_chained c) x = c_chained c' }.
Section Life.
Variable P : event -> Prop.
Lemma LF_refl m : LF P m m.
Proof. constructor. exists []. split; [reflexivity|]. split; [constructor|]. intros n c H. exists c. auto. Qed.
Lemma LF_trans a b c : LF P a b -> LF P b c -> LF P a c.
Proof.
  intros [(x & X1 & X2 & X3)] [(y & Y1 & Y2 & Y3)]. constructor. exists (y ++ x). rewrite Y1, X1. split; [apply app_assoc|].
  split; [apply Forall_app; auto|]. intros n z Hz. destruct (X3 n z Hz) as (z1 & F1 & A1 & B1). destruct (Y3 n z1 F1) as (z2 & F2 & A2 & B2).
  exists z2. split; [exact F2|]. rewrite phase_app, A1, chained_app, B1. auto.
Qed.
(** events that are not about controllers *)
Definition calm_ev (ev : event) : Prop := match ev with EvCtrlCb _ _ _ | EvCtrlErr _ _ | EvUpdate _ _ | EvChained _ _ _ => False | _ => True end.
Lemma calm_phase n x : Forall calm_ev x -> forall s, phase n s x = Some s.
Proof. induction 1 as [|ev x H _ IH]; intros s; cbn [phase]; [reflexivity|]. rewrite IH. destruct ev; try destruct H; reflexivity. Qed.
Lemma calm_chained n x : Forall calm_ev x -> forall b, chained_by n b x = b.
Proof. induction 1 as [|ev x H _ IH]; intros b; cbn [chained_by]; [reflexivity|]. destruct ev; try destruct H; apply IH. Qed.
Lemma LF_calm m m' : ext (fun ev => calm_ev ev /\ P ev) (rm_trace (cm_rm m)) (rm_trace (cm_rm m')) -> 
  (forall n c, find_ctrl m n = Some c -> exists c', find_ctrl m' n = Some c' /\ c_lc c' = c_lc c /\ c_chained c' = c_chained c) -> LF P m m'.
Proof.
  intros (x & E & F) H. constructor. exists x. split; [exact E|]. split; [eapply Forall_impl; [|exact F]; intros ev [_ K]; exact K|].
  assert (C : Forall calm_ev x) by (eapply Forall_impl; [|exact F]; intros ev [K _]; exact K).
  intros n c Hc. destruct (H n c Hc) as (c' & F' & E1 & E2). exists c'. rewrite (calm_phase n x C), (calm_chained n x C), E1, E2. auto.
Qed.
Lemma LF_same m m' : rm_trace (cm_rm m') = rm_trace (cm_rm m) ->
  (forall n c, find_ctrl m n = Some c -> exists c', find_ctrl m' n = Some c' /\ c_lc c' = c_lc c /\ c_chained c' = c_chained c) -> LF P m m'.
Proof. intros E H. apply LF_calm; [|exact H]. rewrite E. apply ext_refl. Qed.
Lemma LF_rm m r : ext (fun ev => calm_ev ev /\ P ev) (rm_trace (cm_rm m)) (rm_trace r) -> LF P m (set_rm m r).
Proof. intros H. apply LF_calm; [exact H|]. intros n c Hc. exists c. auto. Qed.
Lemma LF_rm_same m r : rm_trace r = rm_trace (cm_rm m) -> LF P m (set_rm m r).
Proof. intros H. apply LF_rm. rewrite H. apply ext_refl. Qed.
Lemma LF_upd m n f : (forall c, c_name (f c) = c_name c) -> (forall c, c_lc (f c) = c_lc c) -> (forall c, c_chained (f c) = c_chained c) -> LF P m (upd m n f).
Proof.
  intros Hn H1 H2. apply LF_same; [reflexivity|]. intros k c Hc. rewrite (find_upd_same m n f k c Hn Hc).
  eexists. split; [reflexivity|]. destruct (String.eqb k n); auto.
Qed.
Lemma LF_release m n : LF P m (release_itfs m n).
Proof.
  unfold release_itfs. destruct (find_ctrl m n); [|apply LF_refl]. eapply LF_trans; [apply LF_rm_same; apply release_keeps_trace|].
  apply LF_upd; reflexivity.
Qed.
(** one event of controller n, followed by the update of its state *)
Lemma LF_one m n c ev m' : P ev -> find_ctrl m n = Some c -> (forall k, k <> n -> forall s, phase1 k s ev = Some s) ->
  (forall k b, k <> n -> chained_by k b [ev] = b) -> rm_trace (cm_rm m') = ev :: rm_trace (cm_rm m) ->
  (forall k, k <> n -> find_ctrl m' k = find_ctrl m k) ->
  (exists c', find_ctrl m' n = Some c' /\ phase1 n (PState (c_lc c)) ev = Some (PState (c_lc c')) /\ chained_by n (c_chained c) [ev] = c_chained c') ->
  LF P m m'.
Proof.
  intros HP F N1 N2 T O (c' & F' & A & B). constructor. exists [ev]. split; [exact T|]. split; [constructor; auto|].
  intros k d Hd. destruct (string_dec k n) as [->|Ne].
  - rewrite F in Hd. injection Hd as <-. exists c'. cbn [phase]. auto.
  - exists d. rewrite (O k Ne). split; [exact Hd|]. cbn [phase]. rewrite (N1 k Ne). split; [reflexivity|apply N2; exact Ne].
Qed.
Lemma other_cb n cb r k : k <> n -> forall s, phase1 k s (EvCtrlCb n cb r) = Some s.
Proof. intros Ne s. cbn. destruct (String.eqb_spec n k); [congruence|reflexivity]. Qed.
(** a callback that failed, then on_error *)
Variable e : env.
Definition cb_ok (n : name) (cb : ccb) : Prop := (forall r, P (EvCtrlCb n cb r)) /\ (forall ok, P (EvCtrlErr n ok)).
Lemma LF_error m n c cb r m1 : cb_ok n cb -> find_ctrl m n = Some c -> may_run cb (c_lc c) = true -> (r = CbError \/ r = CbThrow) ->
  rm_trace (cm_rm m1) = EvCtrlCb n cb r :: rm_trace (cm_rm m) ->
  (forall k, k <> n -> find_ctrl m1 k = find_ctrl m k) ->
  (exists c', find_ctrl m1 n = Some c' /\ c_chained c' = c_chained c) ->
  LF P m (node_error e m1 n).
Proof.
  intros [HP1 HP2] F MR R T O (c1 & F1 & CH). unfold node_error. set (ok := e_ctrl_error e (rm_trace (cm_rm m1)) n).
  set (m2 := emit m1 (EvCtrlErr n ok)). assert (F2 : find_ctrl m2 n = Some c1) by exact F1.
  pose proof (find_release n m2 c1 F2) as F3.
  constructor. exists [EvCtrlErr n ok; EvCtrlCb n cb r]. split.
  { change (rm_trace (cm_rm (release_itfs m2 n)) = [EvCtrlErr n ok; EvCtrlCb n cb r] ++ rm_trace (cm_rm m)).
    rewrite (release_one m2 n c1 F2). cbn [upd set_ctrls set_rm cm_rm]. rewrite release_keeps_trace. unfold m2. cbn. rewrite T. reflexivity. }
  split; [constructor; [apply HP2|constructor; [apply HP1|constructor]]|].
  intros k d Hd. destruct (string_dec k n) as [->|Ne].
  - rewrite F in Hd. injection Hd as <-. eexists. split; [rewrite (find_upd_same _ n (upd_lc (if ok then Unconfigured else Finalized)) n _ (fun c => eq_refl) F3), String.eqb_refl; reflexivity|].
    cbn [phase phase1]. rewrite String.eqb_refl, MR. destruct R as [-> | ->]; cbn [phase1 chained_by]; rewrite ?String.eqb_refl; cbn; rewrite ?String.eqb_refl; auto.
  - exists d. assert (FK : find_ctrl (release_itfs m2 n) k = Some d).
    { rewrite (release_one m2 n c1 F2). rewrite (find_upd_same (set_rm m2 (release_all (cm_rm m2) (c_cloans c1))) n (upd_loans [] []) k d (fun c => eq_refl)).
      - destruct (String.eqb_spec k n); [congruence|reflexivity].
      - change (find_ctrl m1 k = Some d). rewrite (O k Ne). exact Hd. }
    split; [rewrite (find_upd_same _ n (upd_lc (if ok then Unconfigured else Finalized)) k d (fun c => eq_refl) FK); destruct (String.eqb_spec k n); [congruence|reflexivity]|].
    cbn [phase phase1]. destruct (String.eqb_spec n k); [congruence|]. cbn [chained_by]. auto.
Qed.
Lemma LF_transition m n cb from s f : cb_ok n cb -> (forall l, from l = true -> may_run cb l = true) -> s = next_state cb ->
  (forall l, from l = true -> f = failed_state cb l) -> LF P m (node_transition e m n cb from s f).
Proof.
  intros HP HF -> Hf. unfold node_transition. destruct (find_ctrl m n) as [c|] eqn:F; [|apply LF_refl].
  destruct (from (c_lc c)) eqn:Fr; [|apply LF_refl]. unfold ctrl_call. set (r := e_ctrl e _ n cb).
  specialize (HF _ Fr). specialize (Hf _ Fr). subst f.
  assert (U : forall l, r = CbSuccess /\ l = next_state cb \/ r = CbFailure /\ l = failed_state cb (c_lc c) -> LF P m (upd (emit m (EvCtrlCb n cb r)) n (upd_lc l))).
  { intros l Hr. eapply (LF_one m n c (EvCtrlCb n cb r)); [apply HP|exact F|intros k Ne; apply other_cb; exact Ne|reflexivity|reflexivity| |].
    - intros k Ne. unfold find_ctrl. cbn [upd set_ctrls cm_ctrls]. rewrite find_upd by reflexivity. cbn [emit set_rm cm_ctrls].
      destruct (find_in (cm_ctrls m) k); [|reflexivity]. destruct (String.eqb_spec k n); [congruence|reflexivity].
    - exists (upd_lc l c). split; [rewrite (find_upd_same (emit m (EvCtrlCb n cb r)) n (upd_lc l) n c (fun c => eq_refl) F), String.eqb_refl; reflexivity|].
      cbn [phase1 chained_by]. rewrite String.eqb_refl, HF. destruct Hr as [[-> ->]|[-> ->]]; split; reflexivity. }
  assert (X : r = CbError \/ r = CbThrow -> LF P m (node_error e (emit m (EvCtrlCb n cb r)) n)).
  { intros Hr. eapply (LF_error m n c cb r); [exact HP|exact F|exact HF|exact Hr|reflexivity|reflexivity|exists c; auto]. }
  destruct r; [apply U; left; auto|apply U; right; auto|apply X; left; auto|apply X; right; auto].
Qed.
Lemma LF_configure m n : cb_ok n Events.CConfigure -> LF P m (node_configure e m n).
Proof. intros H. apply LF_transition; [exact H|..|reflexivity|]; intros l Hl; apply lc_eqb_eq in Hl; subst l; reflexivity. Qed.
Lemma LF_cleanup m n : cb_ok n Events.CCleanup -> LF P m (node_cleanup e m n).
Proof. intros H. apply LF_transition; [exact H|..|reflexivity|]; intros l Hl; apply lc_eqb_eq in Hl; subst l; reflexivity. Qed.
Lemma LF_node_activate m n : cb_ok n Events.CActivate -> LF P m (node_activate e m n).
Proof. intros H. apply LF_transition; [exact H|..|reflexivity|]; intros l Hl; apply lc_eqb_eq in Hl; subst l; reflexivity. Qed.
Lemma LF_node_deactivate m n : cb_ok n Events.CDeactivate -> LF P m (node_deactivate e m n).
Proof. intros H. apply LF_transition; [exact H|..|reflexivity|]; intros l Hl; apply lc_eqb_eq in Hl; subst l; reflexivity. Qed.
Lemma LF_shutdown m n : cb_ok n Events.CShutdown -> LF P m (node_shutdown e m n).
Proof.
  intros HP. unfold node_shutdown. destruct (find_ctrl m n) as [c|] eqn:F; [|apply LF_refl].
  destruct (c_lc c) eqn:L; try apply LF_refl.
  all: unfold ctrl_call; set (r := e_ctrl e _ n _).
  all: assert (MR : may_run Events.CShutdown (c_lc c) = true) by (rewrite L; reflexivity).
  all: assert (F1 : find_ctrl (emit m (EvCtrlCb n Events.CShutdown r)) n = Some c) by exact F.
  all: assert (F3 : find_ctrl (release_itfs (emit m (EvCtrlCb n Events.CShutdown r)) n) n = Some (upd_loans [] [] c)) by (apply find_release; exact F1).
  all: assert (T3 : rm_trace (cm_rm (release_itfs (emit m (EvCtrlCb n Events.CShutdown r)) n)) = EvCtrlCb n Events.CShutdown r :: rm_trace (cm_rm m))
         by (rewrite (release_one _ n c F1); cbn [upd set_ctrls set_rm cm_rm]; rewrite release_keeps_trace; reflexivity).
  all: assert (O3 : forall k, k <> n -> find_ctrl (release_itfs (emit m (EvCtrlCb n Events.CShutdown r)) n) k = find_ctrl m k)
         by (intros k Ne; rewrite (release_one _ n c F1); unfold find_ctrl; cbn [upd set_ctrls cm_ctrls]; rewrite find_upd by reflexivity; cbn [set_rm emit cm_ctrls];
             destruct (find_in (cm_ctrls m) k); [|reflexivity]; destruct (String.eqb_spec k n); [congruence|reflexivity]).
  all: assert (U : r = CbSuccess \/ r = CbFailure -> LF P m (upd (release_itfs (emit m (EvCtrlCb n Events.CShutdown r)) n) n (upd_lc Finalized))).
  1,3,5: intros Hr; eapply (LF_one m n c (EvCtrlCb n Events.CShutdown r)); [apply HP|exact F|intros k Ne; apply other_cb; exact Ne|reflexivity|exact T3| |].
  1,3,5: intros k Ne; rewrite <- (O3 k Ne); unfold find_ctrl; cbn [upd set_ctrls cm_ctrls]; rewrite find_upd by reflexivity;
         destruct (find_in _ k); [|reflexivity]; destruct (String.eqb_spec k n); [congruence|reflexivity].
  1,2,3: eexists; split; [rewrite (find_upd_same _ n (upd_lc Finalized) n _ (fun c => eq_refl) F3), String.eqb_refl; reflexivity|];
         cbn [phase1 chained_by]; rewrite String.eqb_refl, MR; destruct Hr as [-> | ->]; split; reflexivity.
  all: assert (X : r = CbError \/ r = CbThrow -> LF P m (node_error e (release_itfs (emit m (EvCtrlCb n Events.CShutdown r)) n) n))
         by (intros Hr; eapply (LF_error m n c Events.CShutdown r); [exact HP|exact F|exact MR|exact Hr|exact T3|exact O3|eexists; split; [exact F3|reflexivity]]).
  all: cbv zeta; destruct r; [apply U; left; auto|apply U; right; auto|apply X; left; auto|apply X; right; auto].
Qed.
Lemma LF_chained m n on : (forall ok, P (EvChained n on ok)) -> LF P m (set_chained e m n on).
Proof.
  intros HP. unfold set_chained. destruct (find_ctrl m n) as [c|] eqn:F; [|apply LF_refl].
  destruct (c_chainable c && negb (is_lc Active c)) eqn:G; [|apply LF_refl]. apply andb_prop in G. destruct G as [_ G].
  assert (NA : c_lc c <> Active) by (intros C; unfold is_lc in G; rewrite C in G; discriminate).
  cbv zeta. set (ok := e_set_chained e _ n on).
  assert (PH : phase1 n (PState (c_lc c)) (EvChained n on ok) = Some (PState (c_lc c))).
  { cbn. rewrite String.eqb_refl. destruct (c_lc c); try reflexivity. congruence. }
  eapply (LF_one m n c (EvChained n on ok)); [apply HP|exact F| | |destruct ok; reflexivity| |].
  - intros k Ne s. cbn. destruct (String.eqb_spec n k); [congruence|reflexivity].
  - intros k b Ne. cbn. destruct ok; [|reflexivity]. destruct (String.eqb_spec n k); [congruence|reflexivity].
  - intros k Ne. destruct ok; [|reflexivity]. unfold find_ctrl. cbn [upd set_ctrls cm_ctrls]. rewrite find_upd by reflexivity. cbn [emit set_rm cm_ctrls].
    destruct (find_in (cm_ctrls m) k); [|reflexivity]. destruct (String.eqb_spec k n); [congruence|reflexivity].
  - rewrite PH. cbn [chained_by]. destruct ok.
    + exists (upd_chained on c). split; [rewrite (find_upd_same (emit m (EvChained n on true)) n (upd_chained on) n c (fun c => eq_refl) F), String.eqb_refl; reflexivity|].
      rewrite String.eqb_refl. auto.
    + exists c. split; [exact F|auto].
Qed.
End Life.

(** ---------------------------------------------------------------- trace of the resource manager operations *)
Lemma ext_mode (Q : event -> Prop) e op allow start stop hs : (forall h a d r, Q (match op with MPrepare => EvPrepare h a d r | MPerform => EvPerform h a d r end)) ->
  forall r b, ext Q (rm_trace r) (rm_trace (fst (mode_loop e op allow start stop hs r b))).
Proof.
  intros HQ. induction hs as [|h hs IH]; intros r b; cbn [mode_loop]; [apply ext_refl|].
  assert (X : forall s p, ext Q (rm_trace r) (rm_trace (fst (if negb (match common_itfs (h_cmd h) start with [] => true | _ => false end) && lc_eqb (h_lc h) Inactive && negb allow
        then (r, false)
        else
          match h_lc h with
          | Inactive | Active =>
              let '(res, t') := mode_call e op (rm_trace r) (h_name h) s p in
              mode_loop e op allow start stop hs (with_trace r t')
                        (match res with Ret ROk => b | _ => false end)
          | _ => mode_loop e op allow start stop hs r false
          end)))).
  { intros s p. destruct (_ && negb allow); [apply ext_refl|].
    destruct (h_lc h); try apply IH;
    (destruct (mode_call _ _ _ _ _ _) as [res t'] eqn:M; eapply ext_trans; [|apply IH]; cbn [with_trace rm_trace];
     unfold mode_call in M; destruct op; injection M as <- <-; apply ext_cons; apply HQ). }
  destruct (common_itfs (h_cmd h) start) as [|a s] eqn:E1; destruct (common_itfs (h_cmd h) stop) as [|d p] eqn:E2;
    [apply IH|apply X|apply X|apply X].
Qed.
Definition prep_event (ev : event) : Prop := match ev with EvPrepare _ _ _ _ => True | _ => False end.
Lemma ext_prepare e allow r a d : ext prep_event (rm_trace r) (rm_trace (fst (rm_prepare e allow r a d))).
Proof.
  unfold rm_prepare. destruct (both_empty a d); [apply ext_refl|]. destruct (negb _); [apply ext_refl|]. destruct (negb _); [apply ext_refl|].
  pose proof (ext_mode prep_event e MPrepare allow a d (filter is_actuator (rm_hw r)) (fun _ _ _ _ => I) r true) as X.
  destruct (mode_loop _ _ _ _ _ (filter is_actuator _) _ _) as [r1 b1]. cbn [fst] in X.
  pose proof (ext_mode prep_event e MPrepare allow a d (filter is_system (rm_hw r)) (fun _ _ _ _ => I) r1 true) as Y.
  destruct (mode_loop _ _ _ _ _ (filter is_system _) _ _) as [r2 b2]. cbn [fst] in *. eapply ext_trans; eassumption.
Qed.
Lemma ext_perform e allow r a d : ext mode_event (rm_trace r) (rm_trace (fst (rm_perform e allow r a d))).
Proof.
  unfold rm_perform. destruct (both_empty a d); [apply ext_refl|].
  pose proof (ext_mode mode_event e MPerform allow a d (filter is_actuator (rm_hw r)) (fun _ _ _ _ => I) r true) as X.
  destruct (mode_loop _ _ _ _ _ (filter is_actuator _) _ _) as [r1 b1]. cbn [fst] in X.
  pose proof (ext_mode mode_event e MPerform allow a d (filter is_system (rm_hw r)) (fun _ _ _ _ => I) r1 true) as Y.
  destruct (mode_loop _ _ _ _ _ (filter is_system _) _ _) as [r2 b2]. cbn [fst] in *. eapply ext_trans; eassumption.
Qed.
Lemma calm_mode ev : mode_event ev -> calm_ev ev. Proof. destruct ev; cbn; tauto. Qed.
Lemma prep_mode ev : prep_event ev -> mode_event ev. Proof. destruct ev; cbn; tauto. Qed.

Section Ops.
Variable P : event -> Prop.
Variable e : env.
Variable allow : bool.
Lemma LF_prep_perf m a d : (forall ev, mode_event ev -> P ev) -> LF P m (prep_perf e allow m a d).
Proof.
  intros H. unfold prep_perf. pose proof (ext_prepare e allow (cm_rm m) a d) as X. destruct (rm_prepare e allow (cm_rm m) a d) as [r1 ok]. cbn [fst] in X.
  assert (W : forall r r' (Q : event -> Prop), (forall ev, Q ev -> mode_event ev) -> ext Q (rm_trace r) (rm_trace r') -> ext (fun ev => calm_ev ev /\ P ev) (rm_trace r) (rm_trace r')).
  { intros r r' Q HQ K. eapply ext_weak; [|exact K]. intros ev Hv. split; [apply calm_mode, HQ, Hv|apply H, HQ, Hv]. }
  apply LF_rm. destruct ok; [|eapply W; [apply prep_mode|exact X]]. eapply ext_trans; [eapply W; [apply prep_mode|exact X]|].
  eapply W; [|apply ext_perform]. auto.
Qed.
Lemma LF_deactivate_one m n : (forall ev, stops_ctrl ev -> P ev) -> LF P m (deactivate_one e m n).
Proof.
  intros H. unfold deactivate_one. destruct (find_ctrl m n) as [c|]; [|apply LF_refl]. destruct (is_lc Active c); [|apply LF_refl]. cbv zeta.
  assert (S1 : LF P m (release_itfs (node_deactivate e m n) n)).
  { eapply LF_trans; [apply LF_node_deactivate|apply LF_release]. split; intros; apply H; exact I. }
  destruct (c_chainable c); [|exact S1]. eapply LF_trans; [exact S1|]. eapply LF_trans; [apply (LF_chained P e _ n false); intros; apply H; exact I|].
  set (m2 := set_chained e _ n false). destruct (make_exps_unavailable (cm_rm m2) n) as [r3|] eqn:E3; [|apply LF_refl].
  pose proof (av_trace _ _ _ (or_introl E3)) as T3.
  destruct (make_refs_unavailable r3 n) as [r4|] eqn:E4; apply LF_rm_same; [|exact T3].
  rewrite (av_trace _ _ _ (or_intror (or_introl E4))). exact T3.
Qed.
Lemma LF_deactivate ns : (forall ev, stops_ctrl ev -> P ev) -> forall m, LF P m (deactivate_controllers e m ns).
Proof.
  intros H. unfold deactivate_controllers. induction ns as [|x ns IH]; intros m; [apply LF_refl|]. cbn [fold_left].
  eapply LF_trans; [apply LF_deactivate_one; exact H|apply IH].
Qed.
Lemma LF_exports m n m' : exports_available m n = Val m' \/ exports_unavailable m n = Val m' -> LF P m m'.
Proof.
  unfold exports_available, exports_unavailable.
  intros [H|H]; apply bind_val in H; destruct H as (r1 & H1 & H); apply bind_val in H; destruct H as (r2 & H2 & H);
    apply of_option_val in H1, H2; injection H as <-; apply LF_rm_same;
    rewrite (av_trace r1 n r2) by auto; apply (av_trace _ n); auto.
Qed.
Lemma LF_activate_one st n st' : (forall ev, switches_ctrl ev -> P ev) -> activate_one e st n = Val st' -> LF P (fst (fst st)) (fst (fst st')).
Proof.
  intros HP. destruct st as [[m ok] failed]. cbn [fst]. unfold activate_one.
  destruct (find_ctrl m n) as [c|] eqn:F; [|intros [= <-]; apply LF_refl].
  intros H. apply bind_val in H. destruct H as ([r1 loans] & Hc & H). apply claim_all_keeps_trace in Hc.
  destruct loans as [cl|]; [|injection H as <-; apply LF_rm_same; exact Hc].
  destruct (forallb _ _); [|injection H as <-; apply LF_rm_same; cbn; rewrite release_keeps_trace; exact Hc].
  set (m1 := upd (set_rm m _) n _) in H.
  assert (S1 : LF P m m1).
  { unfold m1. eapply LF_trans; [apply LF_rm_same; rewrite release_keeps_trace; exact Hc|]. apply LF_upd; reflexivity. }
  assert (S2 : LF P m (node_activate e m1 n)).
  { eapply LF_trans; [exact S1|apply LF_node_activate]. split; intros; apply HP; exact I. }
  set (m2 := node_activate e m1 n) in *. destruct (find_ctrl m2 n) as [c2|]; [|injection H as <-; exact S2].
  destruct (is_lc Active c2).
  - destruct (c_chainable c); [|injection H as <-; exact S2]. apply bind_val in H. destruct H as (m3 & H3 & H). injection H as <-.
    eapply LF_trans; [exact S2|eapply LF_exports; left; exact H3].
  - assert (S3 : LF P m (release_itfs m2 n)) by (eapply LF_trans; [exact S2|apply LF_release]).
    destruct (c_chainable c); [|injection H as <-; exact S3]. apply bind_val in H. destruct H as (m3 & H3 & H). injection H as <-.
    eapply LF_trans; [exact S3|eapply LF_exports; right; exact H3].
Qed.
Lemma rfold_LF {A B} (f : A -> B -> res A) (p : A -> cm) : (forall a b a', f a b = Val a' -> LF P (p a) (p a')) ->
  forall l a a', rfold f l a = Val a' -> LF P (p a) (p a').
Proof.
  intros Hf. induction l as [|b l IH]; intros a a' H; cbn [rfold] in H; [injection H as <-; apply LF_refl|].
  apply bind_val in H. destruct H as (a1 & H1 & H2). eapply LF_trans; [eapply Hf; exact H1|eapply IH; exact H2].
Qed.
Lemma stops_switches ev : stops_ctrl ev -> switches_ctrl ev.
Proof. destruct ev as [| | | | | | |? []| | |? []]; cbn; tauto. Qed.
Lemma LF_activate m ns strict start m' : (forall ev, switches_ctrl ev \/ mode_event ev -> P ev) ->
  activate_controllers e allow m ns strict start = Val m' -> LF P m m'.
Proof.
  intros HP H. unfold activate_controllers in H. apply bind_val in H. destruct H as (m1 & H1 & H).
  apply (rfold_LF preactivate (fun m => m)) in H1.
  2:{ intros a b a' K. unfold preactivate in K. destruct (find_ctrl a b) as [c|]; [|injection K as <-; apply LF_refl].
      destruct (c_chainable c); [eapply LF_exports; left; exact K|injection K as <-; apply LF_refl]. }
  apply bind_val in H. destruct H as ([[m2 ok] failed] & H2 & H).
  apply (rfold_LF (activate_one e) (fun s => fst (fst s))) in H2; [|intros a b a'; apply LF_activate_one; auto]. cbn [fst] in H2.
  eapply LF_trans; [exact H1|]. eapply LF_trans; [exact H2|].
  destruct (negb ok && strict).
  - injection H as <-. eapply LF_trans; [apply LF_deactivate|apply LF_prep_perf]; auto.
    intros ev Hv. apply HP. left. apply stops_switches. exact Hv.
  - destruct (negb _); injection H as <-; [apply LF_prep_perf; auto|apply LF_refl].
Qed.
Lemma LF_switch_chained ns b : (forall ev, switches_ctrl ev -> P ev) -> forall m, LF P m (switch_chained_mode e m ns b).
Proof.
  intros HP. unfold switch_chained_mode. induction ns as [|n ns IH]; intros m; cbn [fold_left]; [apply LF_refl|].
  eapply LF_trans; [|apply IH]. destruct (find_ctrl m n) as [c|]; [|apply LF_refl].
  destruct (is_lc Active c); [apply LF_refl|apply LF_chained]. intros ok. apply HP. exact I.
Qed.
Lemma LF_manage m p m' : (forall ev, switches_ctrl ev \/ mode_event ev -> P ev) -> manage_switch e allow m p = Val m' -> LF P m m'.
Proof.
  intros HP. unfold manage_switch. pose proof (ext_perform e allow (cm_rm m) (p_start p) (p_stop p)) as K.
  destruct (rm_perform e allow (cm_rm m) (p_start p) (p_stop p)) as [r1 ok]. cbn [fst] in K.
  assert (S1 : LF P m (set_rm m r1)).
  { apply LF_rm. eapply ext_weak; [|exact K]. intros ev Hv. split; [apply calm_mode; exact Hv|apply HP; right; exact Hv]. }
  destruct ok; cbn [negb].
  - intros H. apply LF_activate in H; [|exact HP]. eapply LF_trans; [exact S1|]. eapply LF_trans; [|exact H].
    eapply LF_trans; [apply LF_deactivate; intros ev Hv; apply HP; left; apply stops_switches; exact Hv|].
    eapply LF_trans; apply LF_switch_chained; auto.
  - intros [= <-]. exact S1.
Qed.
End Ops.

(** ---------------------------------------------------------------- validation leaves no trace *)
Lemma follow_tr l : forall fuel w c w' ok, check_following fuel l w c = Val (w', ok) -> rm_trace (w_rm w') = rm_trace (w_rm w).
Proof.
  induction fuel as [|fu IH]; intros w c w' ok H; cbn [check_following] in H; [discriminate|].
  revert H. generalize (cmd_names (w_rm w) c ++ state_names (w_rm w) c).
  generalize (cmd_names (w_rm w) c) (state_names (w_rm w) c).
  intros cmds states ks. revert w w' ok.
  induction ks as [|k ks IHk]; intros w w' ok H; cbn [follow_loop] in H; [injection H as <- <-; reflexivity|].
  apply bind_val in H. destruct H as ([w1 ok1] & H1 & H2).
  assert (S1 : rm_trace (w_rm w1) = rm_trace (w_rm w)).
  { clear H2. unfold follow_itf in H1. apply bind_val in H1. destruct H1 as (fo & _ & H1).
    destruct fo as [f|]; [|injection H1 as <- <-; reflexivity].
    destruct (negb (c_chainable f)); [injection H1 as <- <-; reflexivity|].
    destruct (is_lc Active f && _); [injection H1 as <- <-; reflexivity|].
    destruct (negb (is_lc Active f) && _); [injection H1 as <- <-; reflexivity|].
    apply bind_val in H1. destruct H1 as ([w2 ok2] & H2 & H1). apply IH in H2. rewrite <- H2. clear H2.
    destruct (negb ok2); [injection H1 as <- <-; reflexivity|].
    destruct (negb (c_chained f)); [|injection H1 as <- <-; reflexivity].
    destruct (mem (c_name f) (w_to w2)); [injection H1 as <- <-; reflexivity|].
    apply bind_val in H1. destruct H1 as (r1 & A1 & H1). apply of_option_val in A1.
    assert (T1 : rm_trace r1 = rm_trace (w_rm w2)) by (apply (av_trace _ (c_name f)); auto).
    destruct (mem k cmds).
    - apply bind_val in H1. destruct H1 as (r2 & A2 & H1). apply of_option_val in A2. injection H1 as <- <-. cbn [sw_chain w_rm].
      rewrite <- T1. apply (av_trace _ (c_name f)). auto.
    - injection H1 as <- <-. exact T1. }
  destruct ok1; [|injection H2 as <- <-; exact S1]. rewrite <- S1. eapply IHk. exact H2.
Qed.
Lemma check_activate_tr l w n w' ok : check_activate l w n = Val (w', ok) -> rm_trace (w_rm w') = rm_trace (w_rm w).
Proof.
  unfold check_activate. destruct (find_in l n) as [c|]; [|discriminate].
  intros H. apply bind_val in H. destruct H as ([w1 ok1] & H1 & H).
  assert (S1 : rm_trace (w_rm w1) = rm_trace (w_rm w)).
  { destruct (c_lc c); try (injection H1 as <- <-; reflexivity). eapply follow_tr. exact H1. }
  destruct ok1; [|injection H as <- <-; exact S1].
  apply bind_val in H. destruct H as (b & _ & H). injection H as <- <-. exact S1.
Qed.
Lemma act_loop_tr l strict : forall rest kept w x, act_loop l strict kept rest w = Val x -> rm_trace (w_rm (either x)) = rm_trace (w_rm w).
Proof.
  induction rest as [|n rest IH]; intros kept w x H; cbn [act_loop] in H; [injection H as <-; reflexivity|].
  apply bind_val in H. destruct H as ([w1 ok] & H1 & H). apply check_activate_tr in H1. rewrite <- H1.
  destruct ok; [eapply IH; exact H|]. destruct strict; [injection H as <-; reflexivity|]. apply IH in H. exact H.
Qed.
Lemma cache_tr r n ks : rm_trace (cache_controller r n ks) = rm_trace r.
Proof.
  unfold cache_controller. revert r. induction ks as [|k ks IH]; intros r; cbn [fold_left]; [reflexivity|]. rewrite IH.
  unfold cache_one. repeat match goal with |- context [match ?x with _ => _ end] => destruct x end; reflexivity.
Qed.
Lemma conflict_tr strict cs : forall w, rm_trace (w_rm (either (conflict_loop strict cs w))) = rm_trace (w_rm w).
Proof.
  induction cs as [|c cs IH]; intros w; cbn [conflict_loop]; [reflexivity|].
  assert (S1 : rm_trace (w_rm (either (conflict_one strict w c))) = rm_trace (w_rm w)).
  { unfold conflict_one. cbv zeta.
    repeat match goal with |- context [if ?b then _ else _] => destruct b end; cbn [either]; try reflexivity; cbn [sw_itfs w_rm]; rewrite ?cache_tr; reflexivity. }
  destruct (conflict_one strict w c) as [w1|w1]; cbn [either] in *; [rewrite IH; exact S1|exact S1].
Qed.
Lemma request_tr e allow m a d strict asap m' o : switch_request e allow m a d strict asap = Val (m', o) ->
  cm_ctrls m' = cm_ctrls m /\ ext prep_event (rm_trace (cm_rm m)) (rm_trace (cm_rm m')).
Proof.
  intros H. unfold switch_request in H.
  assert (Q : forall r o', rm_trace r = rm_trace (cm_rm m) -> (set_rm m r, o') = (m', o) ->
     cm_ctrls m' = cm_ctrls m /\ ext prep_event (rm_trace (cm_rm m)) (rm_trace (cm_rm m'))).
  { intros r o' T [= <- <-]. split; [reflexivity|]. cbn [set_rm cm_rm]. rewrite T. apply ext_refl. }
  assert (Z : forall o', (m, o') = (m', o) -> cm_ctrls m' = cm_ctrls m /\ ext prep_event (rm_trace (cm_rm m)) (rm_trace (cm_rm m'))).
  { intros o' [= <- <-]. split; [reflexivity|apply ext_refl]. }
  destruct (list_controllers _ strict d [] true) as [d'|]; [|injection H as <- <-; eapply Z; reflexivity].
  destruct (list_controllers _ strict a [] true) as [a'|]; [|injection H as <- <-; eapply Z; reflexivity].
  clear Z. apply bind_val in H. destruct H as (w1 & H1 & H). apply propagate_rm in H1. cbn [w_rm] in H1.
  apply bind_val in H. destruct H as (x & H2 & H). apply act_loop_tr in H2. rewrite H1 in H2.
  destruct x as [w2|w2]; cbn [either] in H2; [|injection H as <- <-; eapply Q; [exact H2|reflexivity]].
  destruct (deact_loop m strict [] (w_deact w2) w2) as [w3|] eqn:H3; [|injection H as <- <-; eapply Q; [exact H2|reflexivity]].
  apply deact_loop_rm in H3. rewrite <- H3 in H2.
  destruct (sw_empty w3); [injection H as <- <-; eapply Q; [exact H2|reflexivity]|].
  pose proof (conflict_tr strict (cm_ctrls m) w3) as H4. rewrite H2 in H4.
  destruct (conflict_loop strict (cm_ctrls m) w3) as [w4|w4]; cbn [either] in H4; [|injection H as <- <-; eapply Q; [exact H4|reflexivity]].
  destruct (sw_empty w4); [injection H as <- <-; eapply Q; [exact H4|reflexivity]|].
  apply bind_val in H. destruct H as (b & _ & H).
  destruct (negb b); [injection H as <- <-; eapply Q; [exact H4|reflexivity]|].
  pose proof (ext_prepare e allow (w_rm w4) (w_start w4) (w_stop w4)) as K. rewrite H4 in K.
  destruct (rm_prepare e allow (w_rm w4) (w_start w4) (w_stop w4)) as [r5 ok]. cbn [fst] in K.
  destruct (negb ok); injection H as <- <-; (split; [reflexivity|exact K]).
Qed.

(** ---------------------------------------------------------------- load, cleanup, unload, configure *)
Section Conf.
Variable P : event -> Prop.
Variable e : env.
Lemma LF_cleanup_exports m n : LF P m (cleanup_exports m n).
Proof.
  unfold cleanup_exports. destruct (find_ctrl m n) as [c|]; [|apply LF_refl]. destruct (_ && _); [|apply LF_refl].
  apply LF_rm_same. unfold remove_refs, remove_exps. destruct (aget (rm_exps (cm_rm m)) n); cbn [with_exps with_skeys rm_refs];
    destruct (aget _ n); reflexivity.
Qed.
Lemma LF_cleanup_spec m n : cb_ok P n Events.CCleanup -> LF P m (fst (cleanup_spec e m n)).
Proof. intros H. unfold cleanup_spec. cbn [fst]. eapply LF_trans; [apply LF_cleanup_exports|apply LF_cleanup; exact H]. Qed.
Lemma LF_cleanup_controller m n : cb_ok P n Events.CCleanup -> LF P m (fst (cleanup_controller e m n)).
Proof.
  intros H. unfold cleanup_controller. destruct (find_ctrl m n) as [c|]; [|apply LF_refl].
  destruct (c_lc c); try apply LF_refl; apply LF_cleanup_spec; exact H.
Qed.
Lemma LF_reorder m m1 order m' : NI m -> build_topology m = Val m1 -> reorder m1 order = Val m' -> LF P m m'.
Proof.
  intros N B R. pose proof (prim_NI e true any_kind m m' N (p_topo e true any_kind m m1 order m' I B R)) as N'.
  destruct (build_topology_spec m m1 (proj2 N) B) as (s & rc & sc & -> & K & _).
  assert (N1 : NI (set_topo m s rc sc)).
  { split; [exact (proj1 N)|]. intros n Hn. apply K. apply (proj2 N). exact Hn. }
  destruct (reorder_spec _ _ _ N1 R) as (names & L & _ & -> & _ & PM & MB). apply LF_same; [reflexivity|].
  intros n c Hc. assert (Hn : In n (map c_name L)).
  { eapply Permutation_in; [apply Permutation_sym; exact PM|]. cbn [set_topo cm_ctrls]. rewrite <- (find_in_name _ _ _ Hc). apply in_map. eapply find_in_In. exact Hc. }
  destruct (find_in L n) as [c'|] eqn:F; [|exfalso; apply find_in_none in F; exact (F Hn)].
  exists c'. split; [exact F|]. destruct (MB c' (find_in_In _ _ _ F)) as (c0 & I0 & ->). cbn [set_topo cm_ctrls] in I0.
  assert (c0 = c); [|subst; auto]. apply find_in_name in F. cbn in F.
  pose proof (NoDup_find _ c0 (proj1 N) I0) as F0. rewrite F in F0. unfold find_ctrl in Hc. rewrite Hc in F0. injection F0 as ->. reflexivity.
Qed.
Lemma NI_frame n m m' : frame n m m' -> NI m -> NI m'.
Proof. intros F. apply NI_same; [apply (fr_names _ _ _ F)|apply (fr_spec _ _ _ F)]. Qed.
Lemma LF_configure_controller m n order m' b : NI m -> cb_ok P n Events.CCleanup -> cb_ok P n Events.CConfigure -> (forall ok, P (EvChained n false ok)) ->
  configure_controller e m n order = Val (m', b) -> LF P m m'.
Proof.
  intros N H1 H2 H3 H. unfold configure_controller in H. destruct (find_ctrl m n) as [c|] eqn:F; [|injection H as <- _; apply LF_refl].
  assert (G : forall x, (let '(m1, ok1) := x in
      if negb ok1 then Val (m1, false)
      else
        let m2 := node_configure e (cleanup_exports m1 n) n in
        if negb (has_lc m2 n Inactive) then Val (m2, false)
        else if c_chainable c && negb (exports_ok c) then Val (fst (cleanup_spec e m2 n), false)
        else
          do m3 <- (if c_chainable c then
                      let '(r1, ok) := import_refs (cm_rm m2) n (c_refs c) in
                      if negb ok then Crash
                      else
                        exports_unavailable (set_chained e (set_rm m2 (import_exps r1 n (c_exps c))) n false) n
                    else Val m2);
          if negb (uniqueb (cmd_names (cm_rm m3) c)) || negb (uniqueb (state_names (cm_rm m3) c))
          then Val (fst (cleanup_spec e m3 n), false)
          else
            do m4 <- build_topology m3;
            do m5 <- reorder m4 order;
            Val (m5, true)) = Val (m', b) -> LF P m (fst x) -> frame n m (fst x) -> LF P m m').
  { intros [m1 ok1] K LX FX. cbn [fst] in *. destruct ok1; cbn [negb] in K; [|injection K as <- _; exact LX]. cbv zeta in K.
    set (m2 := node_configure e (cleanup_exports m1 n) n) in *.
    assert (L2 : LF P m m2) by (eapply LF_trans; [exact LX|]; eapply LF_trans; [apply LF_cleanup_exports|apply LF_configure; exact H2]).
    assert (F2 : frame n m m2) by (eapply frame_trans; [exact FX|]; eapply frame_trans; [apply frame_cleanup_exports|apply frame_transition]).
    destruct (negb (has_lc m2 n Inactive)); [injection K as <- _; exact L2|].
    destruct (c_chainable c && negb (exports_ok c)); [injection K as <- _; eapply LF_trans; [exact L2|apply LF_cleanup_spec; exact H1]|].
    apply bind_val in K. destruct K as (m3 & K3 & K).
    assert (L3 : LF P m m3 /\ frame n m m3).
    { destruct (c_chainable c); [|injection K3 as <-; auto].
      pose proof (hw_same_import_refs (cm_rm m2) n (c_refs c)) as [_ T1]. destruct (import_refs (cm_rm m2) n (c_refs c)) as [r1 ok]. cbn [fst] in T1.
      destruct (negb ok); [discriminate|]. pose proof (hw_same_import_exps r1 n (c_exps c)) as [_ T2].
      set (m2b := set_rm m2 (import_exps r1 n (c_exps c))) in *.
      split.
      - eapply LF_trans; [exact L2|]. eapply LF_trans; [apply (LF_rm_same P m2 (import_exps r1 n (c_exps c))); congruence|].
        eapply LF_trans; [apply LF_chained; exact H3|]. eapply LF_exports. right. exact K3.
      - eapply frame_trans; [exact F2|]. eapply frame_trans; [apply (frame_set_rm n m2 (import_exps r1 n (c_exps c)))|].
        eapply frame_trans; [apply (frame_chained e n _ false)|].
        unfold exports_unavailable in K3. apply bind_val in K3. destruct K3 as (ra & _ & K3). apply bind_val in K3. destruct K3 as (rb & _ & K3). injection K3 as <-.
        apply frame_set_rm. }
    destruct L3 as [L3 F3].
    destruct (_ || _); [injection K as <- _; eapply LF_trans; [exact L3|apply LF_cleanup_spec; exact H1]|].
    apply bind_val in K. destruct K as (m4 & K4 & K). apply bind_val in K. destruct K as (m5 & K5 & K). injection K as <- _.
    eapply LF_trans; [exact L3|]. eapply LF_reorder; [|exact K4|exact K5]. eapply NI_frame; [exact F3|exact N]. }
  destruct (c_lc c); try (injection H as <- _; apply LF_refl); apply (G _ H).
  all: destruct (is_lc Inactive c); cbn [fst].
  all: first [apply LF_refl | apply frame_refl | idtac].
  all: try (pose proof (LF_cleanup_spec m n H1) as X; destruct (cleanup_spec e m n); exact X).
  all: pose proof (frame_cleanup_spec e m n) as X; destruct (cleanup_spec e m n); exact X.
Qed.
(** unload: like the others, except that the controller is gone in the end *)
Lemma LF_unload m n m' b : cb_ok P n Events.CCleanup -> cb_ok P n Events.CShutdown -> unload_controller e m n = (m', b) ->
  LF P m m' \/
  (exists m4, LF P m m4 /\ not_active m4 n /\ m' = set_ctrls m4 (filter (fun c => negb (String.eqb (c_name c) n)) (cm_ctrls m4))).
Proof.
  intros H1 H2 H. unfold unload_controller in H. destruct (find_ctrl m n) as [c|] eqn:F; [|injection H as <- _; left; apply LF_refl].
  destruct (is_lc Active c) eqn:A; [injection H as <- _; left; apply LF_refl|].
  assert (NA : not_active m n) by (exists c; split; [exact F|]; intros C; unfold is_lc in A; rewrite C in A; discriminate).
  pose proof (LF_cleanup_controller m n H1) as L1. pose proof (na_cleanup e m n NA) as N1.
  destruct (cleanup_controller e m n) as [m1 ok]. cbn [fst] in *. destruct ok; cbn [negb] in H; [|injection H as <- _; left; exact L1].
  right. cbv zeta in H.
  set (m2 := set_topo m1 _ _ _) in *. assert (L2 : LF P m m2) by (eapply LF_trans; [exact L1|apply LF_same; [reflexivity|intros k d Hd; exists d; auto]]).
  assert (N2 : not_active m2 n) by exact N1.
  set (m3 := if _ || _ then node_shutdown e m2 n else m2) in *.
  assert (L3 : LF P m m3 /\ not_active m3 n).
  { unfold m3. destruct (_ || _); [|auto]. split; [eapply LF_trans; [exact L2|apply LF_shutdown; exact H2]|apply na_shutdown; exact N2]. }
  destruct L3 as [L3 N3]. exists (release_itfs m3 n). split; [eapply LF_trans; [exact L3|apply LF_release]|].
  split; [|injection H as <- _; reflexivity]. destruct N3 as (c3 & F3 & A3). exists (upd_loans [] [] c3). split; [apply find_release; exact F3|exact A3].
Qed.
End Conf.

(** ---------------------------------------------------------------- hardware operations *)
Definition hw_ev (n : name) (ev : event) : Prop := match ev with EvHwCb x _ _ | EvHwErr x _ => x = n | _ => False end.
Definition err_ev (n : name) (ev : event) : Prop := match ev with EvHwErr x _ => x = n | _ => False end.
Lemma ext_hw_error e h t : ext (err_ev (h_name h)) t (snd (hw_error e h t)).
Proof. unfold hw_error. destruct (h_lc h); cbn [snd]; try apply ext_refl; apply ext_cons; reflexivity. Qed.
Lemma err_hw n ev : err_ev n ev -> hw_ev n ev. Proof. destruct ev; cbn; tauto. Qed.
Definition hw_step (f : env -> hwc -> trace -> hres) : Prop := forall e h t, ext (hw_ev (h_name h)) t (snd (fst (f e h t))).
Lemma ext_then e h t : ext (hw_ev (h_name h)) t (snd (fst (then_error e h t))).
Proof.
  unfold then_error. pose proof (ext_hw_error e h t) as X. destruct (hw_error e h t) as [h' t']. cbn [fst snd] in *.
  eapply ext_weak; [apply err_hw|exact X].
Qed.
Ltac hw_step_tac := intros e h t; match goal with |- context [?f e h t] => unfold f end; destruct (h_lc h); try apply ext_refl; unfold call;
  match goal with |- context [e_hw e t ?n ?c] => destruct (e_hw e t n c) end;
  try (apply ext_cons; reflexivity); (eapply ext_trans; [|apply ext_then]); apply ext_cons; reflexivity.
Lemma step_configure : hw_step hw_configure. Proof. hw_step_tac. Qed.
Lemma step_cleanup : hw_step hw_cleanup. Proof. hw_step_tac. Qed.
Lemma step_shutdown : hw_step hw_shutdown. Proof. hw_step_tac. Qed.
Lemma step_activate : hw_step hw_activate. Proof. hw_step_tac. Qed.
Lemma step_deactivate : hw_step hw_deactivate. Proof. hw_step_tac. Qed.
Lemma ext_run f e target r h : hw_step f -> ext (hw_ev (h_name h)) (rm_trace r) (rm_trace (fst (run_transition e f target r h))).
Proof. intros H. unfold run_transition. specialize (H e h (rm_trace r)). destruct (f e h (rm_trace r)) as [[h' t'] thr]. exact H. Qed.
Lemma group_tr r g v : rm_trace (set_group r g v) = rm_trace r. Proof. unfold set_group. destruct (String.eqb g ""); reflexivity. Qed.
Lemma ext_conf e r h : ext (hw_ev (h_name h)) (rm_trace r) (rm_trace (fst (configure_hardware e r h))).
Proof.
  unfold configure_hardware. pose proof (ext_run hw_configure e Inactive r h step_configure) as X.
  destruct (run_transition _ _ _ _ _) as [r1 ok]. cbn [fst] in *. rewrite group_tr. destruct ok; exact X.
Qed.
Lemma ext_clean e r h : ext (hw_ev (h_name h)) (rm_trace r) (rm_trace (fst (cleanup_hardware e r h))).
Proof.
  unfold cleanup_hardware. pose proof (ext_run hw_cleanup e Unconfigured r h step_cleanup) as X.
  destruct (run_transition _ _ _ _ _) as [r1 ok]. cbn [fst] in *. rewrite group_tr. destruct ok; exact X.
Qed.
Lemma ext_shut e r h : ext (hw_ev (h_name h)) (rm_trace r) (rm_trace (fst (shutdown_hardware e r h))).
Proof.
  unfold shutdown_hardware. pose proof (ext_run hw_shutdown e Finalized r h step_shutdown) as X.
  destruct (run_transition _ _ _ _ _) as [r1 ok]. cbn [fst] in *. destruct ok; [rewrite group_tr|]; exact X.
Qed.
Lemma find_hw_named r n h : find_hw r n = Some h -> h_name h = n.
Proof. unfold find_hw. intros H. apply find_some in H. destruct H as [_ H]. apply String.eqb_eq in H. exact H. Qed.
Lemma ext_then_hw Q x t n f : ext Q t (rm_trace (fst x)) -> (forall r h, h_name h = n -> ext Q (rm_trace r) (rm_trace (fst (f r h)))) -> ext Q t (rm_trace (fst (then_hw x n f))).
Proof.
  destruct x as [r ok]. cbn [fst]. intros X H. unfold then_hw. destruct ok; [|exact X].
  destruct (find_hw r n) as [h|] eqn:F; [|exact X]. eapply ext_trans; [exact X|]. apply H. eapply find_hw_named. exact F.
Qed.
Lemma ext_set_state e r n t : ext (hw_ev n) (rm_trace r) (rm_trace (fst (set_component_state e r n t))).
Proof.
  unfold set_component_state. destruct (find_hw r n) as [h|] eqn:F; [|apply ext_refl]. apply find_hw_named in F. subst n.
  unfold set_state_of. destruct t, (h_lc h); try apply ext_refl;
    try apply ext_clean; try apply ext_conf; try apply ext_shut; try (apply (ext_run _ e _ r h step_deactivate)); try (apply (ext_run _ e _ r h step_activate)).
  all: apply ext_then_hw; [first [apply ext_conf | apply (ext_run _ e _ r h step_deactivate)]|].
  all: intros r' h' E; rewrite <- E; first [apply ext_clean | apply ext_shut | apply (ext_run _ e _ r' h' step_activate)].
Qed.
Lemma update_group_tr r g v : rm_trace (fst (update_group r g v)) = rm_trace r.
Proof. unfold update_group. repeat match goal with |- context [match ?x with _ => _ end] => destruct x end; reflexivity. Qed.
Definition read_ev (ev : event) : Prop := match ev with EvRead _ _ | EvHwErr _ _ => True | _ => False end.
Definition write_ev (ev : event) : Prop := match ev with EvWrite _ _ | EvHwErr _ _ | EvHwCb _ _ _ => True | _ => False end.
Lemma ext_rm_error (Q : event -> Prop) e r n : (forall h ok, Q (EvHwErr h ok)) -> ext Q (rm_trace r) (rm_trace (rm_error e r n)).
Proof.
  intros HQ. unfold rm_error. destruct (find_hw r n) as [h|]; [|apply ext_refl]. pose proof (ext_hw_error e h (rm_trace r)) as X.
  destruct (hw_error e h (rm_trace r)) as [h' t']. cbn [snd] in X. cbn. eapply ext_weak; [|exact X]. intros ev. destruct ev; cbn; try tauto. intros _. apply HQ.
Qed.
Ltac hw_err_tac := match goal with |- context [hw_error ?e ?h ?t] => let Y := fresh in pose proof (ext_hw_error e h t) as Y; destruct (hw_error e h t);
  cbn [fst snd] in *; eapply ext_trans; [apply ext_cons|eapply ext_weak; [|exact Y]]; [exact I|]; intros ev; destruct ev; cbn; tauto end.
Lemma ext_read_ret e r h : ext read_ev (rm_trace r) (rm_trace (fst (read_ret e r h))).
Proof.
  unfold read_ret. destruct (_ && _); [rewrite update_group_tr; apply ext_refl|].
  assert (X : ext read_ev (rm_trace r) (snd (fst (hw_read e h (rm_trace r))))).
  { unfold hw_read. destruct (h_lc h); try apply ext_refl.
    all: cbv zeta; destruct (e_read e _ _) as [[]|]; try (apply ext_cons; exact I).
    all: hw_err_tac. }
  destruct (hw_read e h (rm_trace r)) as [[h' t'] res]. cbn [fst snd] in X. destruct res; [rewrite update_group_tr|]; exact X.
Qed.
Lemma ext_write_ret e r h : ext write_ev (rm_trace r) (rm_trace (fst (write_ret e r h))).
Proof.
  unfold write_ret. destruct (_ && _); [rewrite update_group_tr; apply ext_refl|].
  assert (X : ext write_ev (rm_trace r) (snd (fst (hw_write e h (rm_trace r))))).
  { unfold hw_write. destruct (h_kind h); try apply ext_refl.
    all: destruct (h_lc h); try apply ext_refl.
    all: cbv zeta; destruct (e_write e _ _) as [[]|]; try (apply ext_cons; exact I).
    all: hw_err_tac. }
  destruct (hw_write e h (rm_trace r)) as [[h' t'] res]. cbn [fst snd] in X. destruct res; [rewrite update_group_tr|]; exact X.
Qed.
Lemma ext_read e r : ext read_ev (rm_trace r) (rm_trace (fst (rm_read e r))).
Proof.
  unfold rm_read. generalize (map h_name (rm_hw r)). generalize rw_ok. intros st l. revert r st. induction l as [|n l IH]; intros r st; cbn [fold_left]; [apply ext_refl|].
  assert (X : ext read_ev (rm_trace r) (rm_trace (fst (read_one e (r, st) n)))).
  { unfold read_one. destruct (find_hw r n) as [h|]; [|apply ext_refl]. destruct (e_locked e _ n); [apply ext_refl|].
    pose proof (ext_read_ret e r h) as Y. destruct (read_ret e r h) as [r1 v]. cbn [fst] in Y.
    destruct v; cbn [fst]; [exact Y|..]; (eapply ext_trans; [exact Y|]); cbn; apply ext_rm_error; intros; exact I. }
  destruct (read_one e (r, st) n) as [r1 st1]. cbn [fst] in X. eapply ext_trans; [exact X|apply IH].
Qed.
Lemma ext_write e r : ext write_ev (rm_trace r) (rm_trace (fst (rm_write e r))).
Proof.
  unfold rm_write. match goal with |- context [fold_left _ ?l (r, ?s)] => generalize l; generalize s end. intros st l. revert r st. induction l as [|n l IH]; intros r st; cbn [fold_left]; [apply ext_refl|].
  assert (X : ext write_ev (rm_trace r) (rm_trace (fst (write_one e (r, st) n)))).
  { unfold write_one. destruct (find_hw r n) as [h|]; [|apply ext_refl]. destruct (e_locked e _ n); [apply ext_refl|].
    pose proof (ext_write_ret e r h) as Y. destruct (write_ret e r h) as [r1 v]. cbn [fst] in Y.
    destruct v; cbn [fst]; [exact Y|..]; (eapply ext_trans; [exact Y|]).
    - cbn. apply ext_rm_error; intros; exact I.
    - eapply ext_weak; [|apply ext_set_state]. intros ev. destruct ev; cbn; tauto. }
  destruct (write_one e (r, st) n) as [r1 st1]. cbn [fst] in X. eapply ext_trans; [exact X|apply IH].
Qed.
