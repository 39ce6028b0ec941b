(** CmIntact.v -- C17: chains stay intact. *)
From Verif Require Import Base Events HwModel RmModel ChainModel CmModel CmPrim ChainSpec CmTopo ChainMain CmInv CmSpec CmSwitch CmOutcome CmLoad CmCache.

(** the states of controllers outside [ns] are the same *)
Definition sf (ns : list name) (m m' : cm) : Prop := forall k, ~ In k ns -> state_in m' k = state_in m k.
Lemma sf_refl ns m : sf ns m m. Proof. intros k _. reflexivity. Qed.
Lemma sf_trans ns a b c : sf ns a b -> sf ns b c -> sf ns a c.
Proof. intros H1 H2 k Hk. rewrite H2, H1 by exact Hk. reflexivity. Qed.
Lemma sf_incl ns ns' m m' : incl ns ns' -> sf ns m m' -> sf ns' m m'.
Proof. intros H1 H2 k Hk. apply H2. intros C. apply Hk. apply H1. exact C. Qed.
Lemma sf_set_rm ns m r : sf ns m (set_rm m r). Proof. intros k _. reflexivity. Qed.
Lemma sf_frame n ns m m' : In n ns -> frame n m m' -> sf ns m m'.
Proof. intros Hn F k Hk. unfold state_in. rewrite (fr_other _ _ _ F) by (intros ->; contradiction). reflexivity. Qed.
Lemma sf_chained e ns m n b : sf ns m (set_chained e m n b).
Proof. intros k _. apply state_chained. Qed.

Lemma sf_deactivate_one e ns m n : In n ns -> sf ns m (deactivate_one e m n).
Proof.
  intros Hn. unfold deactivate_one. destruct (find_ctrl m n) as [c|]; [|apply sf_refl]. destruct (is_lc Active c); [|apply sf_refl].
  assert (S1 : sf ns m (release_itfs (node_deactivate e m n) n)).
  { apply (sf_frame n); [exact Hn|]. eapply frame_trans; [apply frame_transition|apply frame_release]. }
  destruct (c_chainable c); [|exact S1]. eapply sf_trans; [exact S1|]. eapply sf_trans; [apply (sf_chained e ns _ n false)|].
  set (m2 := set_chained e (release_itfs (node_deactivate e m n) n) n false).
  destruct (make_exps_unavailable (cm_rm m2) n) as [r3|]; [|apply sf_refl].
  destruct (make_refs_unavailable r3 n); apply sf_set_rm.
Qed.
Lemma sf_fold {A} (f : cm -> A -> cm) ns l : (forall m a, In a l -> sf ns m (f m a)) -> forall m, sf ns m (fold_left f l m).
Proof.
  induction l as [|a l IH]; intros H m; [apply sf_refl|]. cbn [fold_left].
  eapply sf_trans; [apply H; left; reflexivity|]. apply IH. intros m0 a0 Ha. apply H. right. exact Ha.
Qed.
Lemma sf_deactivate e ns m l : incl l ns -> sf ns m (deactivate_controllers e m l).
Proof. intros H. apply sf_fold. intros m0 a Ha. apply sf_deactivate_one. apply H. exact Ha. Qed.
Lemma sf_switch_chained e ns m l b : sf ns m (switch_chained_mode e m l b).
Proof.
  apply sf_fold. intros m0 a _. destruct (find_ctrl m0 a) as [c|]; [|apply sf_refl].
  destruct (is_lc Active c); [apply sf_refl|apply sf_chained].
Qed.
Lemma exports_av_rm n m m' : exports_available m n = Val m' -> exists r, m' = set_rm m r.
Proof.
  unfold exports_available. intros H. apply bind_val in H. destruct H as (r1 & H1 & H).
  apply bind_val in H. destruct H as (r2 & H2 & H). injection H as <-. eauto.
Qed.
Lemma sf_activate_one e ns st n st' : In n ns -> activate_one e st n = Val st' -> sf ns (fst (fst st)) (fst (fst st')).
Proof.
  intros Hn. destruct st as [[m ok] failed]. cbn [fst]. unfold activate_one.
  destruct (find_ctrl m n) as [c|] eqn:F; [|intros [= <-]; apply sf_refl].
  intros H. apply bind_val in H. destruct H as ([r1 loans] & _ & H). destruct loans as [cl|]; [|injection H as <-; apply sf_set_rm].
  destruct (forallb _ _); [|injection H as <-; apply sf_set_rm].
  set (m1 := upd (set_rm m _) n _) in H.
  assert (S2 : sf ns m (node_activate e m1 n)).
  { apply (sf_frame n); [exact Hn|]. eapply frame_trans; [apply frame_set_rm|]. eapply frame_trans; [apply frame_upd; apply keeps_loans|].
    apply frame_transition. }
  set (m2 := node_activate e m1 n) in *. destruct (find_ctrl m2 n) as [c2|]; [|injection H as <-; exact S2].
  destruct (is_lc Active c2).
  - destruct (c_chainable c); [|injection H as <-; exact S2]. apply bind_val in H. destruct H as (m3 & H3 & H). injection H as <-.
    apply exports_av_rm in H3. destruct H3 as [r ->]. eapply sf_trans; [exact S2|apply sf_set_rm].
  - assert (S3 : sf ns m (release_itfs m2 n)) by (eapply sf_trans; [exact S2|apply (sf_frame n); [exact Hn|apply frame_release]]).
    destruct (c_chainable c); [|injection H as <-; exact S3]. apply bind_val in H. destruct H as (m3 & H3 & H). injection H as <-.
    apply exports_un_rm in H3. destruct H3 as [r ->]. eapply sf_trans; [exact S3|apply sf_set_rm].
Qed.
Lemma rfold_sf {A B} (f : A -> B -> res A) (p : A -> cm) ns l : (forall a b a', In b l -> f a b = Val a' -> sf ns (p a) (p a')) ->
  forall a a', rfold f l a = Val a' -> sf ns (p a) (p a').
Proof.
  induction l as [|b l IH]; intros H a a' E; cbn [rfold] in E; [injection E as <-; apply sf_refl|].
  apply bind_val in E. destruct E as (a1 & E1 & E). eapply sf_trans; [eapply H; [left; reflexivity|exact E1]|].
  eapply IH; [|exact E]. intros x y z Hy. apply H. right. exact Hy.
Qed.
Lemma sf_prep_perf e allow ns m a b : sf ns m (prep_perf e allow m a b).
Proof. unfold prep_perf. destruct (rm_prepare _ _ _ _ _) as [r ok]. apply sf_set_rm. Qed.
Lemma sf_activate e allow ns m l strict start m' : incl l ns -> activate_controllers e allow m l strict start = Val m' -> sf ns m m'.
Proof.
  intros Hi. unfold activate_controllers. intros H. apply bind_val in H. destruct H as (m1 & H1 & H).
  apply bind_val in H. destruct H as ([[m2 ok] failed] & H2 & H).
  assert (S1 : sf ns m m1).
  { eapply (rfold_sf preactivate (fun x => x)); [|exact H1]. intros x n x' _. unfold preactivate.
    destruct (find_ctrl x n) as [c|]; [|intros [= <-]; apply sf_refl]. destruct (c_chainable c); [|intros [= <-]; apply sf_refl].
    intros K. apply exports_av_rm in K. destruct K as [r ->]. apply sf_set_rm. }
  assert (S2 : sf ns m m2).
  { eapply sf_trans; [exact S1|]. eapply (rfold_sf (activate_one e) (fun x => fst (fst x)) ns l) in H2; [exact H2|].
    intros x n x' Hn K. eapply sf_activate_one; [apply Hi; exact Hn|exact K]. }
  destruct (negb ok && strict).
  - injection H as <-. eapply sf_trans; [exact S2|]. eapply sf_trans; [|apply sf_prep_perf]. apply sf_deactivate. exact Hi.
  - destruct (negb _); injection H as <-; [|exact S2]. eapply sf_trans; [exact S2|apply sf_prep_perf].
Qed.
Lemma sf_manage e allow m p m' : manage_switch e allow m p = Val m' -> sf (p_act p ++ p_deact p) m m'.
Proof.
  unfold manage_switch. destruct (rm_perform e allow (cm_rm m) (p_start p) (p_stop p)) as [r1 ok].
  destruct (negb ok); [intros [= <-]; apply sf_set_rm|]. intros H.
  eapply sf_trans; [|eapply sf_activate; [|exact H]; intros x Hx; apply in_app_iff; auto].
  eapply sf_trans; [apply (sf_set_rm _ m r1)|]. eapply sf_trans; [apply sf_deactivate; intros x Hx; apply in_app_iff; right; exact Hx|].
  eapply sf_trans; apply sf_switch_chained.
Qed.

(** constants survive everything but loading and unloading *)
Definition kept (m m' : cm) : Prop := forall c', In c' (cm_ctrls m') -> exists c, In c (cm_ctrls m) /\ same_const c c'.
Lemma kept_refl m : kept m m. Proof. intros c H. exists c. split; [exact H|apply same_refl]. Qed.
Lemma kept_trans a b c : kept a b -> kept b c -> kept a c.
Proof. intros H1 H2 x Hx. destruct (H2 x Hx) as (y & Hy & S). destruct (H1 y Hy) as (z & Hz & S'). exists z. split; [exact Hz|eapply same_trans; eassumption]. Qed.
Lemma kept_upd m n f : keeps f -> kept m (upd m n f).
Proof.
  intros K c' H. cbn [upd set_ctrls cm_ctrls] in H. apply In_upd in H. destruct H as [[H _]|(c & H & _ & ->)].
  - exists c'. split; [exact H|apply same_refl]. - exists c. split; [exact H|apply K].
Qed.
Lemma prim_kept e allow KS m m' : ~ KS KList -> prim e allow KS m m' -> kept m m'.
Proof.
  intros NL P. destruct P; try contradiction; try (exact (kept_refl m)).
  - apply kept_upd. apply keeps_lc.
  - apply (kept_upd (set_rm m _)). apply keeps_stop.
  - apply (kept_upd (set_rm m _)). apply keeps_run.
  - apply (kept_upd (set_rm m _)). apply keeps_loans.
  - apply (kept_upd (set_rm m _)). apply keeps_stop.
  - apply (kept_upd (set_rm m _)). apply keeps_loans.
  - apply kept_upd. apply keeps_chained.
  - intros c' H0. cbn [set_ctrls cm_ctrls] in H0. apply in_map_iff in H0. destruct H0 as (c & <- & Hc). exists c. split; [exact Hc|]. repeat split.
Qed.
Lemma steps_kept e allow KS m m' : ~ KS KList -> steps e allow KS m m' -> kept m m'.
Proof. intros NL S. induction S; [apply kept_refl|]. eapply kept_trans; [exact IHS|eapply prim_kept; eassumption]. Qed.

Lemma state_of_In m c : NoDup (map c_name (cm_ctrls m)) -> In c (cm_ctrls m) -> state_in m (c_name c) = Some (c_lc c).
Proof. intros ND H. unfold state_in, find_ctrl. rewrite (NoDup_find _ _ ND H). reflexivity. Qed.

Lemma main_intact_switch e allow hs ops m a d asap m1 m2 m3 : cleans_up e ->
  crun e allow (cm_start hs) ops = Val m -> chain_intact m ->
  owners_chainable m ->
  (forall n, In n a -> ~ In n d) ->
  cstep e allow m (CRequest a d true asap) = Val (m1, CSw SwPending) ->
  cstep e allow m1 CPerform = Val (m2, CNone) ->
  cstep e allow m2 CEvaluate = Val (m3, CBool true) ->
  chain_intact m3.
Proof.
  intros HE R CI Chn AD HR HP HV.
  destruct (main_answer e allow hs ops m a d asap m1 [CPerform] m2 m3 true R HR) as (Rs0 & _ & _).
  { constructor; [split; discriminate|constructor]. }
  { unfold crun. cbn [rfold bind]. rewrite HP. reflexivity. } { exact HV. } clear Rs0.
  pose proof (reach_NI _ _ _ _ _ R) as HN. pose proof (proj1 HN) as ND. pose proof (reach_CC _ _ _ _ _ HE R) as HCC.
  unfold cstep in HR. set (m0 := emit m EvOp) in HR. unfold serviced in HR. destruct (cm_pend m0) eqn:P0; [discriminate|].
  apply bind_val in HR. destruct HR as ([mm o] & HR & E). injection E as -> ->.
  apply request_strict in HR; [|exact ND]. destruct HR as [[C _]|[(C & _)|(_ & p & Rs & _ & SF)]]; [discriminate..|].
  pose proof (sf_prec _ _ _ _ _ _ SF) as SP. pose proof (sf_stop _ _ _ _ _ _ SF) as SStop. pose proof (sf_start _ _ _ _ _ _ SF) as SStart.
  pose proof (sf_partners _ _ _ _ _ _ SF) as SPart. pose proof (sf_restart _ _ _ _ _ _ SF) as SR.
  destruct (sf_rm _ _ _ _ _ _ SF) as (r & _ & E1).
  unfold cstep in HP. set (m1' := emit m1 EvOp) in HP. assert (P1 : cm_pend m1' = Some p) by (subst m1; reflexivity).
  rewrite P1, (sf_done _ _ _ _ _ _ SF) in HP. apply bind_val in HP. destruct HP as (mp & HP & E2). injection E2 as E2.
  pose proof (sf_manage _ _ _ _ _ HP) as SM. rewrite (sf_act _ _ _ _ _ _ SF), (sf_deact _ _ _ _ _ _ SF) in SM.
  assert (SK : steps e allow not_list m1' mp) by (eapply manage_switch_steps; [discriminate|exact HP]).
  pose proof (steps_names _ _ _ _ SK) as NM. apply steps_kept in SK; [|intros C; apply C; reflexivity].
  assert (S2 : forall n, state_in m2 n = state_in mp n) by (intros n; subst m2; reflexivity).
  assert (P2 : cm_pend m2 = Some (done_of p)) by (subst m2; reflexivity).
  unfold cstep in HV. change (cm_pend (emit m2 EvOp)) with (cm_pend m2) in HV. rewrite P2 in HV. cbn [done_of p_done] in HV.
  unfold to_out in HV. injection HV as E3 E4.
  assert (M3 : cm_ctrls m3 = map (refresh_claimed (cm_rm (emit m2 EvOp))) (cm_ctrls mp)) by (rewrite <- E3; subst m2; reflexivity).
  assert (ND2 : NoDup (map c_name (cm_ctrls mp))).
  { rewrite NM. subst m1. exact ND. }
  assert (S3 : forall c', In c' (cm_ctrls m3) -> exists c, In c (cm_ctrls m) /\ same_const c c' /\ state_in mp (c_name c') = Some (c_lc c')).
  { intros c' H. rewrite M3 in H. apply in_map_iff in H. destruct H as (c2 & <- & H). destruct (SK c2 H) as (c & Hc & S).
    exists c. split; [subst m1; exact Hc|]. split; [exact S|]. change (c_name (refresh_claimed (cm_rm (emit m2 EvOp)) c2)) with (c_name c2).
    rewrite (state_of_In mp c2 ND2 H). reflexivity. }
  (* the answer OK *)
  symmetry in E4. assert (ND2' : NoDup (map c_name (cm_ctrls (emit m2 EvOp)))) by (subst m2; exact ND2).
  assert (OK : forall c2, In c2 (cm_ctrls mp) -> (In (c_name c2) (a ++ Rs) -> c_lc c2 = Active) /\
                 (In (c_name c2) (d ++ Rs) -> ~ In (c_name c2) (a ++ Rs) -> c_lc c2 <> Active)).
  { rewrite <- (sf_act _ _ _ _ _ _ SF), <- (sf_deact _ _ _ _ _ _ SF). assert (X := proj1 (switch_ok_true (emit m2 EvOp) (done_of p) ND2')).
    assert (C2 : cm_ctrls (emit m2 EvOp) = cm_ctrls mp) by (subst m2; reflexivity). rewrite C2 in X. apply X. symmetry. exact E4. }
  assert (BEF : forall x, In x (cm_ctrls m) -> state_in m1' (c_name x) = Some (c_lc x)).
  { intros x Hx. subst m1. exact (state_of_In m x ND Hx). }
  assert (OKs : forall n l, state_in mp n = Some l -> (In n (a ++ Rs) -> l = Active) /\ (In n (d ++ Rs) -> ~ In n (a ++ Rs) -> l <> Active)).
  { intros n l H. destruct (state_find _ _ _ H) as (c2 & F2 & <-). pose proof (find_in_In _ _ _ F2) as I2. pose proof (find_in_name _ _ _ F2) as N2.
    destruct (OK c2 I2) as [O1 O2]. rewrite N2 in O1, O2. auto. }
  clear OK. intros c' f' k Hc' Hf' La Cb Ow.
  destruct (S3 _ Hc') as (c & Hc & SC & STc). destruct (S3 _ Hf') as (f & Hf & SF' & STf).
  destruct SC as (Nc & _ & Cc & _). destruct SF' as (Nf & Hch & _).
  assert (Cb0 : commands_by_name c k) by (unfold commands_by_name in *; rewrite <- Cc; exact Cb).
  rewrite Nf in *. rewrite Nc in STc.
  destruct (OKs _ _ STf) as [F1 F2]. destruct (OKs _ _ STc) as [C1 C2].
  assert (W : wants m0 c k). { left. destruct Cb0 as (ks & EQ & Ik). unfold wants_cmd, cmd_names. rewrite EQ. exact Ik. }
  (* c Active before: it was told to stop if f was *)
  assert (USE : c_lc c = Active -> In (c_name f) d -> In (c_name c) d).
  { intros L Fd. destruct (SP _ Fd) as (f0 & Ff & Lf & K).
    assert (f0 = f) by (pose proof (NoDup_find _ _ ND Hf) as X; unfold find_ctrl in Ff; change (cm_ctrls m0) with (cm_ctrls m) in Ff; congruence). subst f0.
    apply (K (Chn c f k Hc Hf Cb0 Ow) (c_name c) c); [|exact (NoDup_find _ _ ND Hc)|exact L].
    apply in_app_iff. right. apply (HCC c f k Hc Hf (or_intror L) (or_intror Lf) Ow). exact Cb0. }
  destruct (in_dec string_dec (c_name f) (a ++ Rs)) as [Fa|Fa]; [apply F1; exact Fa|].
  assert (BC : c_lc c = Active /\ ~ (In (c_name c) d /\ ~ In (c_name c) (a ++ Rs)) \/ (c_lc c = Inactive /\ In (c_name c) a)).
  { destruct (in_dec string_dec (c_name c) (a ++ Rs)) as [Ia|Ia].
    - apply in_app_iff in Ia. destruct Ia as [Ia|Ia].
      + destruct (SStart c Hc Ia) as [L|[L _]]; [right; auto|]. left. split; [exact L|]. intros [_ C]. apply C. apply in_app_iff. auto.
      + destruct (SR _ Ia) as (_ & c0 & Hc0 & E0 & L0). assert (c0 = c) by (eapply find_same; [exact ND|apply NoDup_find; [exact ND|exact Hc]|exact Hc0|exact E0]).
        subst. left. split; [exact L0|]. intros [_ C]. apply C. apply in_app_iff. auto.
    - left. assert (Id : ~ In (c_name c) d). { intros Id. apply C2; [apply in_app_iff; auto|exact Ia|exact La]. }
      split; [|tauto]. assert (X : state_in mp (c_name c) = state_in m1' (c_name c)).
      { apply SM. rewrite !in_app_iff in *. tauto. }
      rewrite STc, (BEF c Hc) in X. congruence. }
  destruct (in_dec string_dec (c_name f) d) as [Fd|Fd].
  - exfalso. destruct BC as [[L Nd]|[L Ia]].
    + specialize (USE L Fd). apply Nd. split; [exact USE|]. intros C. apply in_app_iff in C. destruct C as [C|C]; [exact (AD _ C USE)|].
      exact (proj1 (SR _ C) USE).
    + destruct (SP _ Fd) as (f0 & Ff & Lf & K).
      assert (f0 = f) by (pose proof (NoDup_find _ _ ND Hf) as X; unfold find_ctrl in Ff; change (cm_ctrls m0) with (cm_ctrls m) in Ff; congruence). subst f0.
      destruct (K (Chn c f k Hc Hf Cb0 Ow) (c_name c) c) as [K1 _]; [|exact (NoDup_find _ _ ND Hc)|exact (K1 L Ia)].
      apply in_app_iff. right. apply (HCC c f k Hc Hf (or_introl L) (or_intror Lf) Ow). exact Cb0.
  - assert (X : state_in mp (c_name f) = Some (c_lc f)).
    { rewrite <- (BEF f Hf). apply SM. intros C. rewrite !in_app_iff in C. rewrite in_app_iff in Fa. tauto. }
    rewrite STf in X. injection X as ->. destruct BC as [[L _]|[L Ia]]; [exact (CI c f k Hc Hf L Cb0 Ow)|].
    destruct (SPart c k f Hc Ia L W Hf Ow) as [_ [[Lf _]|[_ Fa']]]; [exact Lf|]. exfalso. apply Fa. apply in_app_iff. auto.
Qed.

(** ---------------------------------------------------------------- the other operations *)
Lemma prim_na e allow KS m m' : ~ KS KUp -> NI m -> prim e allow KS m m' ->
  forall c', In c' (cm_ctrls m') -> c_lc c' = Active -> exists c, In c (cm_ctrls m) /\ same_const c c' /\ c_lc c = Active.
Proof.
  intros NU HN P. pose proof (proj1 HN) as ND.
  assert (U : forall r n f, keeps f -> (forall c, find_ctrl m n = Some c -> c_lc (f c) = Active -> c_lc c = Active) ->
    forall c', In c' (cm_ctrls (upd (set_rm m r) n f)) -> c_lc c' = Active -> exists c, In c (cm_ctrls m) /\ same_const c c' /\ c_lc c = Active).
  { intros r n f K L c' H A. cbn [upd set_rm set_ctrls cm_ctrls] in H. apply In_upd in H. destruct H as [[H _]|(c & H & N & ->)].
    - exists c'. split; [exact H|]. split; [apply same_refl|exact A].
    - exists c. split; [exact H|]. split; [apply K|]. apply L; [|exact A]. unfold find_ctrl. rewrite <- N. apply NoDup_find; assumption. }
  destruct P; try contradiction;
    try (intros c' Hc A; exists c'; split; [exact Hc|split; [apply same_refl|exact A]]; fail).
  - apply (U (cm_rm m) n (upd_lc l) (keeps_lc l)). intros c0 F A. cbn in A. congruence.
  - apply U; [apply keeps_stop|]. intros c0 F A. cbn in A. assert (c0 = c) by congruence. subst c0. apply (H0 A).
  - apply U; [apply keeps_stop|]. intros c0 F A. cbn in A. congruence.
  - apply U; [apply keeps_loans|]. intros c0 F A. exact A.
  - apply (U (cm_rm m) n (upd_chained b) (keeps_chained b)). intros c0 F A. exact A.
  - intros c' Hc A. cbn [set_topo set_ctrls cm_ctrls] in Hc. apply in_app_iff in Hc. destruct Hc as [Hc|[<-|[]]]; [|discriminate].
    exists c'. split; [exact Hc|split; [apply same_refl|exact A]].
  - intros c' Hc A. cbn [set_topo set_ctrls cm_ctrls] in Hc. apply filter_In in Hc. exists c'. split; [exact (proj1 Hc)|split; [apply same_refl|exact A]].
  - intros c' Hc A. destruct (reorder_members _ _ _ _ HN H0 H1 c' Hc) as (c & g & Hin & ->). exists c. split; [exact Hin|]. split; [repeat split|exact A].
  - intros c' Hc A. cbn [set_ctrls cm_ctrls] in Hc. apply in_map_iff in Hc. destruct Hc as (c & <- & Hin). exists c. split; [exact Hin|]. split; [repeat split|exact A].
Qed.
Lemma steps_na e allow KS m m' : ~ KS KUp -> NI m -> steps e allow KS m m' -> NI m' /\
  forall c', In c' (cm_ctrls m') -> c_lc c' = Active -> exists c, In c (cm_ctrls m) /\ same_const c c' /\ c_lc c = Active.
Proof.
  intros NU HN S. induction S.
  - split; [exact HN|]. intros c' Hc A. exists c'. split; [exact Hc|split; [apply same_refl|exact A]].
  - destruct IHS as [N1 K1]. split; [eapply prim_NI; eassumption|]. intros c' Hc A.
    destruct (prim_na _ _ _ _ _ NU N1 H c' Hc A) as (c1 & H1 & S1 & A1). destruct (K1 c1 H1 A1) as (c0 & H0 & S0 & A0).
    exists c0. split; [exact H0|]. split; [eapply same_trans; eassumption|exact A0].
Qed.
Lemma find_app_l {A} (f : A -> bool) l l' x : find f l = Some x -> find f (l ++ l') = Some x.
Proof. induction l as [|a l IH]; cbn; [discriminate|]. destruct (f a); auto. Qed.
Definition no_up (k : pk) : Prop := k <> KUp.

(** one operation that neither performs a switch nor meets an error *)
Definition calm (e : env) (m : cm) (o : cop) : Prop :=
  match o with
  | CPerform => False
  | CLoad c _ => forall x k, In x (cm_ctrls m) -> commands_by_name x k -> ~ owned_by k (c_name c)
  | CRead => rw_result (snd (rm_read e (cm_rm (emit m EvOp)))) = ROk
  | CWrite => rw_result (snd (rm_write e (cm_rm (emit m EvOp)))) = ROk
  | CUpdate => forall t n, e_update e t n = Ret ROk
  | _ => True
  end.

Lemma calm_update e p cs : (forall t n, e_update e t n = Ret ROk) -> forall m ds, exists r,
  fold_left (update_one e p) cs (m, ds) = (set_rm m r, ds).
Proof.
  intros H. induction cs as [|c cs IH]; intros m ds; cbn [fold_left].
  - exists (cm_rm m). rewrite set_rm_same. reflexivity.
  - unfold update_one at 2. destruct (skipped p (c_name c)); [apply IH|].
    destruct (is_lc Active c && _); [|apply IH]. rewrite H. destruct (IH (emit m (EvUpdate (c_name c) (Ret ROk))) ds) as (r & E).
    exists r. rewrite E. reflexivity.
Qed.

Lemma calm_step e allow m o m' out : NI m -> calm e m o -> cstep e allow m o = Val (m', out) ->
  steps e allow no_up m m' /\
  (forall n, state_in m n = Some Active -> In n (map c_name (cm_ctrls m')) -> state_in m' n = Some Active) /\
  (forall n, In n (map c_name (cm_ctrls m')) -> In n (map c_name (cm_ctrls m)) \/ exists c b, o = CLoad c b /\ c_name c = n).
Proof.
  intros HN HC. pose proof (proj1 HN) as ND. unfold cstep. set (m0 := emit m EvOp).
  assert (N0 : NI m0) by exact HN.
  assert (S0 : steps e allow no_up m m0) by (apply emit_step; reflexivity).
  set (G := steps e allow no_up m m' /\ _).
  assert (SAME : forall r, m' = set_rm m0 r -> steps e allow no_up m0 m' -> G).
  { intros r -> S. split; [eapply steps_trans; [exact S0|exact S]|]. split; [intros n A _; exact A|intros n A; left; exact A]. }
  assert (SV : forall x, (x = Val (m', out) -> G) -> serviced m0 x = Val (m', out) -> G).
  { intros x Hx H. unfold serviced in H. destruct (cm_pend m0); [|apply Hx; exact H].
    injection H as <- <-. apply (SAME (cm_rm m0)); [rewrite set_rm_same; reflexivity|apply s_refl]. }
  assert (FRM : forall n, frame n m0 m' -> (state_in m n = Some Active -> state_in m' n = Some Active) -> steps e allow no_up m0 m' -> G).
  { intros n FR A S. split; [eapply steps_trans; [exact S0|exact S]|]. split.
    - intros k L _. destruct (String.eqb_spec k n) as [->|Ne]; [apply A; exact L|].
      unfold state_in. rewrite (fr_other _ _ _ FR k Ne). exact L.
    - intros k Hk. left. rewrite (fr_names _ _ _ FR) in Hk. exact Hk. }
  assert (STAY : forall k : name, m' = m0 -> G).
  { intros _ ->. apply (SAME (cm_rm m0)); [rewrite set_rm_same; reflexivity|apply s_refl]. }
  destruct o.
  - apply SV. intros H. unfold to_out in H. injection H as E _. pose proof (load_steps e allow no_up ltac:(discriminate) m0 c init_ok) as S. rewrite E in S.
    unfold load_controller in E. destruct (find_ctrl m0 (c_name c)) eqn:F; [apply (STAY ""%string); symmetry; exact E|].
    destruct init_ok; [|apply (STAY ""%string); symmetry; exact E]. cbn [fst] in E.
    assert (CT : cm_ctrls m' = cm_ctrls m ++ [fresh c]) by (rewrite <- E; reflexivity).
    split; [eapply steps_trans; [exact S0|exact S]|]. split.
    + intros n L _. unfold state_in, find_ctrl in *. rewrite CT. unfold find_in in *.
      destruct (find (fun c0 => String.eqb (c_name c0) n) (cm_ctrls m)) as [c0|] eqn:F0; [|discriminate].
      rewrite (find_app_l _ _ _ _ F0). exact L.
    + intros n Hn. rewrite CT, map_app in Hn. apply in_app_iff in Hn. destruct Hn as [Hn|[<-|[]]]; [left; exact Hn|right; eauto].
  - apply SV. intros H. unfold to_out in H. injection H as E Eb.
    pose proof (unload_steps e allow no_up ltac:(discriminate) ltac:(discriminate) m0 n ND) as S. rewrite E in S.
    destruct (unload_frame e m0 n ND) as [U1 U2]. destruct (snd (unload_controller e m0 n)).
    + destruct (U2 eq_refl) as (CT & _ & NA). rewrite E in CT. split; [eapply steps_trans; [exact S0|exact S]|].
      assert (In_m : forall c', In c' (cm_ctrls m') -> In c' (cm_ctrls m)) by (intros c' H; rewrite CT in H; apply filter_In in H; exact (proj1 H)).
      split.
      * intros k L Hk. apply in_map_iff in Hk. destruct Hk as (c' & <- & Hc').
        assert (ND' : NoDup (map c_name (cm_ctrls m'))). { apply (steps_na e allow no_up m0 m'); [intros C; apply C; reflexivity|exact N0|exact S]. }
        rewrite (state_of_In m' c' ND' Hc'). rewrite (state_of_In m c' ND (In_m c' Hc')) in L. exact L.
      * intros k Hk. left. apply in_map_iff in Hk. destruct Hk as (c' & <- & Hc'). apply in_map. apply In_m. exact Hc'.
    + pose proof (U1 eq_refl) as FR. rewrite E in FR. apply (FRM n); [exact FR| |exact S].
      intros A. destruct (state_find _ _ _ A) as (c & F & L). unfold unload_controller in E.
      change (find_ctrl m0 n) with (find_ctrl m n) in E. rewrite F in E. unfold is_lc in E. rewrite L in E. cbn in E. rewrite <- E. exact A.
  - apply SV. intros H. unfold to_out in H. injection H as E Eb.
    pose proof (cleanup_controller_steps e allow no_up ltac:(discriminate) m0 n) as S. pose proof (frame_cleanup e m0 n) as FR. rewrite E in S, FR.
    apply (FRM n); [exact FR| |exact S]. intros A. destruct (state_find _ _ _ A) as (c & F & L). unfold cleanup_controller in E.
    change (find_ctrl m0 n) with (find_ctrl m n) in E. rewrite F, L in E. cbn in E. rewrite <- E. exact A.
  - apply SV. intros H. apply bind_val in H. destruct H as ([mm b] & H & E). unfold to_out in E. injection E as -> _. cbn [fst] in *.
    assert (S : steps e allow no_up m0 m') by (eapply configure_steps; [discriminate..|exact H]).
    destruct b.
    + destruct (configure_done e m0 n order m' N0 H) as (PM & A & B). split; [eapply steps_trans; [exact S0|exact S]|]. split.
      * intros k L _. destruct (String.eqb_spec k n) as [->|Ne]; [|rewrite B by exact Ne; exact L].
        exfalso. destruct (state_find _ _ _ L) as (c & F & Lc). unfold configure_controller in H.
        change (find_ctrl m0 n) with (find_ctrl m n) in H. rewrite F, Lc in H. discriminate.
      * intros k Hk. left. eapply Permutation.Permutation_in; [exact PM|exact Hk].
    + destruct (configure_false_frame _ _ _ _ _ H) as [FR A]. apply (FRM n); [exact FR| |exact S].
      intros L. rewrite A; exact L.
  - apply SV. intros H. apply bind_val in H. destruct H as ([mm b] & H & E). injection E as -> _.
    apply (request_steps e allow no_up) in H. destruct H as (r & S & [[-> _]|(p & -> & _)]); [apply (SAME r); [reflexivity|exact S]|].
    split; [eapply steps_trans; [exact S0|]; eapply s_one; [exact S|apply p_pend; discriminate]|].
    split; [intros n A _; exact A|intros n A; left; exact A].
  - destruct HC.
  - destruct (cm_pend m0) as [p|]; [|intros [= <- <-]; apply (STAY ""%string); reflexivity].
    destruct (p_done p); intros [= <- <-]; [apply (STAY ""%string); reflexivity|].
    split; [eapply s_one; [exact S0|apply p_pend; discriminate]|]. split; [intros n A _; exact A|intros n A; left; exact A].
  - destruct (cm_pend m0) as [p|]; [|intros [= <- <-]; apply (STAY ""%string); reflexivity].
    destruct (p_done p); intros [= <- <-]; [|apply (STAY ""%string); reflexivity].
    split; [eapply steps_trans; [exact S0|exact (evaluate_steps e allow no_up ltac:(discriminate) m0 p)]|].
    split.
    + intros n A _. unfold state_in, find_ctrl in *. cbn [fst evaluate set_pend set_ctrls cm_ctrls]. rewrite find_refresh.
      change (cm_ctrls m0) with (cm_ctrls m). destruct (find_in (cm_ctrls m) n); [exact A|discriminate].
    + intros n A. left. cbn [fst evaluate set_pend set_ctrls cm_ctrls] in A. rewrite map_map in A. exact A.
  - intros H. injection H as H _. cbn [calm] in HC. fold m0 in HC.
    pose proof (read_steps e allow no_up ltac:(discriminate) m0) as S. rewrite H in S.
    unfold cm_read in H. destruct (rm_read e (cm_rm m0)) as [r1 st]. cbn [snd] in HC. rewrite HC in H. cbn in H.
    apply (SAME r1); [symmetry; exact H|exact S].
  - intros H. apply bind_val in H. destruct H as (m1 & H & H1). injection H1 as <- <-. cbn [calm] in HC.
    unfold cm_update in H. destruct (calm_update e (cm_pend m0) (cm_ctrls m0) HC m0 []) as (r & E).
    pose proof (update_loop_steps e allow no_up (cm_pend m0) (cm_ctrls m0) (m0, [])) as S. rewrite E in H, S. injection H as <-.
    apply (SAME r); [reflexivity|exact S].
  - intros H. injection H as H _. cbn [calm] in HC. fold m0 in HC.
    pose proof (write_steps e allow no_up ltac:(discriminate) m0) as S. rewrite H in S.
    unfold cm_write in H. destruct (rm_write e (cm_rm m0)) as [r1 st]. cbn [snd] in HC. rewrite HC in H. cbn in H.
    apply (SAME r1); [symmetry; exact H|exact S].
  - pose proof (p_sethw e allow no_up m0 h target) as K. destruct (set_component_state e (cm_rm m0) h target) as [r1 ok].
    intros [= <- <-]. apply (SAME r1); [reflexivity|]. apply steps_prim. apply K. discriminate.
Qed.

Lemma main_intact_other e allow hs ops m o m' out : 
  crun e allow (cm_start hs) ops = Val m -> chain_intact m -> calm e m o ->
  cstep e allow m o = Val (m', out) -> chain_intact m'.
Proof.
  intros R CI HC H. pose proof (reach_NI _ _ _ _ _ R) as HN. pose proof (proj1 HN) as ND.
  destruct (calm_step _ _ _ _ _ _ HN HC H) as (S & ST & NM).
  destruct (steps_na e allow no_up m m' ltac:(intros C; apply C; reflexivity) HN S) as [N' K].
  intros c' f' k Hc Hf La Cb Ow. destruct (K c' Hc La) as (c & Ic & SC & Lc). destruct SC as (_ & _ & Cc & _).
  assert (Cb0 : commands_by_name c k) by (unfold commands_by_name in *; rewrite <- Cc; exact Cb).
  assert (Nf : In (c_name f') (map c_name (cm_ctrls m'))) by (apply in_map; exact Hf).
  assert (L : state_in m' (c_name f') = Some Active).
  { apply ST; [|exact Nf]. destruct (NM _ Nf) as [I|(x & b & -> & E)].
    - apply in_map_iff in I. destruct I as (f & E & If). rewrite <- E in *. rewrite (state_of_In m f ND If).
      f_equal. apply (CI c f k); assumption.
    - exfalso. cbn [calm] in HC. apply (HC c k Ic Cb0). rewrite E. exact Ow. }
  rewrite (state_of_In m' f' (proj1 N') Hf) in L. congruence.
Qed.

(** histories in which every operation is calm, or is a STRICT switch answered OK *)
Inductive orderly (e : env) (allow : bool) : cm -> list cop -> cm -> Prop :=
| or_nil m : orderly e allow m [] m
| or_calm m o m1 out ops m2 : calm e m o -> cstep e allow m o = Val (m1, out) ->
    orderly e allow m1 ops m2 -> orderly e allow m (o :: ops) m2
| or_switch m a d asap m1 m2 m3 ops m4 : owners_chainable m -> (forall n, In n a -> ~ In n d) ->
    cstep e allow m (CRequest a d true asap) = Val (m1, CSw SwPending) ->
    cstep e allow m1 CPerform = Val (m2, CNone) ->
    cstep e allow m2 CEvaluate = Val (m3, CBool true) ->
    orderly e allow m3 ops m4 ->
    orderly e allow m (CRequest a d true asap :: CPerform :: CEvaluate :: ops) m4.

Lemma crun_snoc e allow m0 ops m o m' out : crun e allow m0 ops = Val m -> cstep e allow m o = Val (m', out) ->
  crun e allow m0 (ops ++ [o]) = Val m'.
Proof.
  unfold crun. revert m0. induction ops as [|x ops IH]; intros m0 H1 H2; cbn [rfold app] in *.
  - injection H1 as ->. rewrite H2. reflexivity.
  - destruct (bind (cstep e allow m0 x) (fun '(m', _) => Val m')) as [y|]; cbn [bind] in *; [|discriminate]. apply IH; assumption.
Qed.
Lemma main_orderly e allow hs ops0 ops m m' : cleans_up e ->
  crun e allow (cm_start hs) ops0 = Val m -> chain_intact m -> orderly e allow m ops m' -> chain_intact m'.
Proof.
  intros HE R CI H. revert ops0 R CI. induction H as [m|m o m1 out ops m2 C S _ IH|m a d asap m1 m2 m3 ops m4 OC AD S1 S2 S3 _ IH]; intros ops0 R CI.
  - exact CI.
  - eapply IH; [exact (crun_snoc _ _ _ _ _ _ _ _ R S)|exact (main_intact_other _ _ _ _ _ _ _ _ R CI C S)].
  - eapply IH; [|exact (main_intact_switch _ _ _ _ _ _ _ _ _ _ _ HE R CI OC AD S1 S2 S3)].
    exact (crun_snoc _ _ _ _ _ _ _ _ (crun_snoc _ _ _ _ _ _ _ _ (crun_snoc _ _ _ _ _ _ _ _ R S1) S2) S3).
Qed.
Lemma main_orderly_start e allow hs ops m : cleans_up e -> orderly e allow (cm_start hs) ops m -> chain_intact m.
Proof.
  intros HE H. apply (main_orderly e allow hs [] ops (cm_start hs) m HE); [reflexivity| |exact H].
  intros c f k Hc. destruct Hc.
Qed.
