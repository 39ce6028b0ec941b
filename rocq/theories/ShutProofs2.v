(** ShutProofs2.v -- C78: controllers are never in the state Unknown; the hardware part; the whole callback. *)
From Verif Require Import Base Events HwModel RmModel RmSpec HwProofs RmProofs RmSys RmInv RmAvail CmModel CmPrim CmTopo CmInv CmExcl CmReach CmSpec CmLoad CmLeak CmAvail LifeSpec CmLife CmCycle UpdateSpec ShutModel ShutSpec ShutProofs Props_Life.
Open Scope string_scope. Open Scope nat_scope. Open Scope list_scope.
Definition no_list (k : pk) : Prop := k <> KList.
Lemma prim_names e allow m m' : prim e allow no_list m m' -> map c_name (cm_ctrls m') = map c_name (cm_ctrls m).
Proof.
  intros P. destruct P; try reflexivity; try (match goal with H : no_list KList |- _ => exfalso; apply H; reflexivity end).
  all: try (apply map_upd_names; reflexivity).
  cbn [set_ctrls cm_ctrls]. rewrite map_map. apply map_ext. intros c. reflexivity.
Qed.
Lemma steps_names e allow m m' : steps e allow no_list m m' -> map c_name (cm_ctrls m') = map c_name (cm_ctrls m).
Proof. intros S. induction S as [|m1 m2 _ IH P]; [reflexivity|]. rewrite (prim_names _ _ _ _ P). exact IH. Qed.
Lemma step_names e allow m o m' out : NI m -> cstep e allow m o = Val (m', out) ->
  forall n, In n (map c_name (cm_ctrls m')) -> In n (map c_name (cm_ctrls m)) \/ exists c, o = CLoad c true /\ c_name c = n /\ out = CBool true.
Proof.
  intros HN. pose proof (proj1 HN) as ND. unfold cstep. set (m0 := emit m EvOp).
  set (G := forall n : name, In n (map c_name (cm_ctrls m')) -> _).
  assert (SM : map c_name (cm_ctrls m') = map c_name (cm_ctrls m) -> G) by (intros E n I; left; rewrite <- E; exact I).
  assert (SS : steps e allow no_list m0 m' -> G) by (intros S; apply SM; rewrite (steps_names _ _ _ _ S); reflexivity).
  assert (SV : forall x, (x = Val (m', out) -> G) -> serviced m0 x = Val (m', out) -> G).
  { intros x Hx H. unfold serviced in H. destruct (cm_pend m0); [|apply Hx; exact H]. injection H as <- <-. apply SM. reflexivity. }
  destruct o.
  - apply SV. intros H. unfold to_out in H. injection H as E Eo. unfold load_controller in E, Eo.
    destruct (find_ctrl m0 (c_name c)); [apply SM; rewrite <- E; reflexivity|]. destruct init_ok; [|apply SM; rewrite <- E; reflexivity].
    cbn [fst snd] in E, Eo. intros n I. rewrite <- E in I. cbn [set_topo set_ctrls cm_ctrls] in I. rewrite map_app in I.
    apply in_app_iff in I. destruct I as [I|[<-|[]]]; [left; exact I|right; exists c; auto].
  - apply SV. intros H. unfold to_out in H. injection H as E Eb.
    destruct (unload_frame e m0 n ND) as [U1 U2]. destruct (snd (unload_controller e m0 n)).
    + destruct (U2 eq_refl) as (CT & _ & NA). rewrite E in CT. intros k I. left. rewrite CT in I. apply in_map_iff in I.
      destruct I as (c' & <- & I). apply in_map. apply filter_In in I. exact (proj1 I).
    + pose proof (U1 eq_refl) as FR. rewrite E in FR. apply SM. apply (fr_names _ _ _ FR).
  - apply SV. intros H. unfold to_out in H. injection H as E Eb. pose proof (frame_cleanup e m0 n) as FR. rewrite E in FR. apply SM. apply (fr_names _ _ _ FR).
  - apply SV. intros H. apply bind_val in H. destruct H as ([mm b] & H & E). unfold to_out in E. injection E as -> _. cbn [fst] in *.
    destruct b.
    + destruct (configure_done e m0 n order m' HN H) as (PM & _). intros k Hk. left. eapply Permutation.Permutation_in; [exact PM|exact Hk].
    + destruct (configure_false_frame _ _ _ _ _ H) as [FR _]. apply SM. apply (fr_names _ _ _ FR).
  - apply SV. intros H. apply bind_val in H. destruct H as ([mm b] & H & E). injection E as -> _.
    apply (request_steps e allow any_kind) in H. destruct H as (r & S & [[-> _]|(p & -> & _)]); apply SM; reflexivity.
  - destruct (cm_pend m0) as [p|]; [|intros [= <- <-]; apply SM; reflexivity].
    destruct (p_done p); [intros [= <- <-]; apply SM; reflexivity|].
    intros H. apply bind_val in H. destruct H as (m1 & H & H1). injection H1 as <- <-.
    apply (manage_switch_steps e allow no_list) in H; [|discriminate..]. apply SM. cbn [set_pend cm_ctrls]. rewrite (steps_names _ _ _ _ H). reflexivity.
  - destruct (cm_pend m0) as [p|]; [|intros [= <- <-]; apply SM; reflexivity].
    destruct (p_done p); intros [= <- <-]; apply SM; reflexivity.
  - destruct (cm_pend m0) as [p|]; [|intros [= <- <-]; apply SM; reflexivity].
    destruct (p_done p); intros [= <- <-]; [|apply SM; reflexivity]. apply SS. apply (evaluate_steps e allow no_list ltac:(discriminate) m0 p).
  - intros [= <- <-]. apply SS. apply read_steps; discriminate.
  - intros H. apply bind_val in H. destruct H as (m1 & H & H1). injection H1 as <- <-. apply SS. eapply update_steps; [discriminate..|exact H].
  - intros [= <- <-]. apply SS. apply write_steps; discriminate.
  - destruct (set_component_state e (cm_rm m0) h target) as [r1 ok]. intros [= <- <-]. apply SM. reflexivity.
Qed.
Lemma phase1_known n s ev s' : phase1 n s ev = Some s' -> s <> PState Unknown -> s' <> PState Unknown.
Proof.
  intros H N. unfold phase1 in H. destruct ev; try (injection H as <-; exact N).
  - destruct (String.eqb _ n); [|injection H as <-; exact N]. destruct s as [l|]; [|discriminate].
    destruct cb, l; cbn in H; try discriminate; destruct r; injection H as <-; discriminate.
  - destruct (String.eqb _ n); [|injection H as <-; exact N]. destruct s as [l|]; [discriminate|]. destruct ok; injection H as <-; discriminate.
  - destruct (String.eqb _ n); [|injection H as <-; exact N]. destruct s as [[]|]; try discriminate; injection H as <-; discriminate.
  - destruct (String.eqb _ n); [|injection H as <-; exact N]. destruct s as [[]|]; try discriminate; injection H as <-; try discriminate. congruence.
Qed.
Lemma phase_known n t : forall s s', phase n s t = Some s' -> s <> PState Unknown -> s' <> PState Unknown.
Proof.
  induction t as [|ev t IH]; intros s s' H N; [injection H as <-; exact N|]. cbn [phase] in H.
  destruct (phase n s t) as [s1|] eqn:E; [|discriminate]. eapply phase1_known; [exact H|]. eapply IH; eassumption.
Qed.
Lemma rfold_app {A B} (f : A -> B -> res A) l1 : forall l2 a, rfold f (l1 ++ l2) a = bind (rfold f l1 a) (rfold f l2).
Proof. induction l1 as [|x l1 IH]; intros l2 a; [reflexivity|]. cbn [app rfold]. destruct (f a x); [apply IH|reflexivity]. Qed.
Lemma reach_known e allow hs ops m c : crun e allow (cm_start hs) ops = Val m -> In c (cm_ctrls m) -> c_lc c <> Unknown.
Proof.
  revert m c. induction ops as [|o ops IH] using rev_ind; intros m c R I.
  - injection R as <-. destruct I.
  - unfold crun in R. rewrite rfold_app in R. apply bind_val in R. destruct R as (m1 & R & H). cbn [rfold] in H. apply bind_val in H.
    destruct H as (m2 & H & E). injection E as <-. apply bind_val in H. destruct H as ([m3 out] & H & E). injection E as <-.
    pose proof (reach_NI e allow hs ops m1 R) as HN. pose proof (reach_NI e allow hs (ops ++ [o]) m3) as HN3.
    assert (R3 : crun e allow (cm_start hs) (ops ++ [o]) = Val m3).
    { unfold crun. rewrite rfold_app. unfold crun in R. rewrite R. cbn [bind rfold]. rewrite H. reflexivity. }
    specialize (HN3 R3).
    pose proof (NoDup_find _ _ (proj1 HN3) I) as F3.
    destruct (find_ctrl m1 (c_name c)) as [c1|] eqn:F1.
    + destruct (c54_life_cycle e allow hs ops m1 o m3 out R H) as (t & _ & K). destruct (K _ _ F1) as [(c' & F' & P & _)|(_ & F' & _)].
      * assert (c' = c) by (unfold find_ctrl in F'; congruence). subst c'. intros U.
        apply phase_known in P; [rewrite U in P; congruence|]. intros X. injection X as X. apply (IH m1 c1 R); [eapply find_in_In; exact F1|exact X].
      * unfold find_ctrl in F'. congruence.
    + destruct (step_names e allow m1 o m3 out HN H (c_name c)) as [X|(c0 & -> & E & ->)]; [apply in_map; exact I| |].
      * apply find_in_none in F1. contradiction.
      * destruct (c54_loaded e allow m1 c0 m3 H) as (c' & _ & L & N & U & _). rewrite L in I. apply in_app_iff in I. destruct I as [I|[<-|[]]].
        -- exact (IH m1 c R I).
        -- rewrite U. discriminate.
Qed.

(** hardware *)
Definition hd (e : env) : rm * bool -> name -> rm * bool :=
  fun '(r, ok) n => let '(r', b) := set_component_state e r n Finalized in (r', ok && b).
Lemma life_known n k a ev a' : RmSpec.life n k a ev = Some a' -> a <> AIn Unknown -> a' <> AIn Unknown.
Proof.
  intros H N. unfold RmSpec.life in H. destruct ev; try (injection H as <-; exact N); destruct (negb (String.eqb _ n)); try (injection H as <-; exact N).
  - destruct cb, a as [[]|], r; try discriminate; try congruence; injection H as <-; discriminate.
  - destruct a as [[]|]; try discriminate; injection H as <-; destruct ok; discriminate.
  - destruct a as [[]|]; try discriminate; destruct r as [[]|]; injection H as <-; discriminate.
  - destruct k; try discriminate; destruct a as [[]|]; try discriminate; destruct r as [[]|]; injection H as <-; discriminate.
  - destruct k; try discriminate; destruct a as [[]|]; try discriminate; injection H as <-; discriminate.
  - destruct k; try discriminate; destruct a as [[]|]; try discriminate; injection H as <-; discriminate.
Qed.
Lemma lives_known n k t : forall a, lives n k Unconfigured t = Some a -> a <> AIn Unknown.
Proof.
  induction t as [|ev t IH]; intros a H; cbn [lives] in H; [injection H as <-; discriminate|].
  destruct (lives n k Unconfigured t) as [b|]; [|discriminate]. eapply life_known; [exact H|]. apply IH. reflexivity.
Qed.

Lemma put_found r h0 h' t n : find_hw r n = Some h0 -> h_name h' = n -> find_hw (with_trace (put_hw r h') t) n = Some h'.
Proof. intros F N. change (find_hw (put_hw r h') n = Some h'). eapply find_put_same; eassumption. Qed.
Lemma shut_ok e r h n : hw_callbacks_succeed e -> find_hw r n = Some h -> h_lc h = Unconfigured \/ h_lc h = Inactive ->
  snd (shutdown_hardware e r h) = true.
Proof.
  intros CB F L. unfold shutdown_hardware, run_transition, hw_shutdown, call.
  destruct L as [-> | ->]; rewrite CB; reflexivity.
Qed.
Lemma set_final_ok e r n h : hw_callbacks_succeed e -> find_hw r n = Some h -> h_lc h <> Unknown ->
  snd (set_component_state e r n Finalized) = true.
Proof.
  intros CB F N. pose proof (find_hw_name _ _ _ F) as NM. unfold set_component_state. rewrite F. unfold set_state_of.
  destruct (h_lc h) eqn:L; try congruence; try reflexivity.
  - apply (shut_ok e r h n CB F). auto.
  - apply (shut_ok e r h n CB F). auto.
  - unfold then_hw, deactivate_hardware, run_transition, hw_deactivate, call. rewrite L, CB. cbn [negb andb set_lc h_lc lc_eqb].
    rewrite NM. erewrite put_found; [|exact F|exact NM]. eapply shut_ok; [exact CB|eapply put_found; [exact F|exact NM]|right; reflexivity].
Qed.

Lemma hd_spec e : forall ns r ok, names_ok r -> NoDup ns ->
  let x := fold_left (hd e) ns (r, ok) in
  evolve r (fst x) /\ (forall k, ~ In k ns -> find_hw (fst x) k = find_hw r k) /\
  (snd x = true -> ok = true /\ forall n, In n ns -> lc_of (fst x) n = Some Finalized) /\
  (hw_callbacks_succeed e -> ok = true -> (forall n, In n ns -> exists h, find_hw r n = Some h /\ h_lc h <> Unknown) -> snd x = true).
Proof.
  induction ns as [|n ns IH]; intros r ok NK ND; cbn zeta.
  - split; [apply evolve_refl|]. split; [reflexivity|]. split; [intros H; split; [exact H|intros n []]|intros _ H _; exact H].
  - inversion ND as [|? ? N1 N2]; subst. cbn [fold_left].
    pose proof (set_component_state_ok e r n Finalized NK) as [[EV OT _] TR].
    pose proof (set_final_ok e r n) as SF.
    unfold hd at 2 4 6 8 10. destruct (set_component_state e r n Finalized) as [r1 b]. cbn [fst snd] in *.
    destruct (IH r1 (ok && b) (names_ok_evolve _ _ EV NK) N2) as (A & B & C & D).
    split; [eapply evolve_trans; eassumption|]. split; [|split].
    + intros k K. rewrite B; [|intro X; apply K; right; exact X]. apply OT. intros ->. apply K. left. reflexivity.
    + intros H. destruct (C H) as [C1 C2]. apply andb_true_iff in C1. destruct C1 as [C1 C3]. split; [exact C1|].
      intros k [<-|K]; [|apply C2; exact K]. unfold lc_of. rewrite B; [|exact N1]. apply TR. exact C3.
    + intros CB O AL. apply D; [exact CB| |].
      * rewrite O. destruct (AL n (or_introl eq_refl)) as (h & F & U). exact (SF h CB F U).
      * intros k K. destruct (AL k (or_intror K)) as (h & F & U). exists h. split; [|exact U]. rewrite OT; [exact F|]. intros ->. contradiction.
Qed.

Theorem whole_story e allow hs ops m m' ok1 ok2 : wf_hw hs -> crun e allow (cm_start hs) ops = Val m ->
  pre_shutdown e m = (m', ok1, ok2) ->
  exists m1, shutdown_controllers e m = (m1, ok1) /\ cm_ctrls m' = cm_ctrls m1 /\
    map h_name (rm_hw (cm_rm m')) = map h_name (rm_hw (cm_rm m)) /\
    (exists evs, rm_trace (cm_rm m') = evs ++ rm_trace (cm_rm m1) /\ Forall hardware_event evs) /\
    (ok2 = true -> forall h, In h (rm_hw (cm_rm m')) -> h_lc h = Finalized) /\
    (hw_callbacks_succeed e -> ok2 = true).
Proof.
  intros W R. unfold pre_shutdown. destruct (shutdown_controllers e m) as [m1 o1] eqn:S.
  destruct (shutdown_components e (cm_rm m1)) as [r o2] eqn:H. intros E. injection E as <- <- <-. exists m1.
  split; [reflexivity|]. split; [reflexivity|].
  pose proof (reach_CI _ _ _ _ _ W R) as CI0.
  assert (CI1 : CI m1).
  { eapply (steps_inv e allow any_kind CI); [intros a b X Y; eapply prim_CI; eassumption|exact CI0|].
    pose proof (sd_steps e allow (map c_name (cm_ctrls m)) (m, true)) as ST. unfold shutdown_controllers in S.
    change (fold_left (sd e) (map c_name (cm_ctrls m)) (m, true) = (m1, o1)) in S. rewrite S in ST. exact ST. }
  assert (HW : map h_name (rm_hw (cm_rm m1)) = map h_name (rm_hw (cm_rm m))).
  { assert (K : statics (cm_rm m1) = statics (cm_rm m)).
    { assert (X : CI m1 /\ statics (cm_rm m1) = statics (cm_rm m)); [|exact (proj2 X)].
      eapply (steps_inv e allow any_kind (fun z => CI z /\ statics (cm_rm z) = statics (cm_rm m))).
      - intros a b [X1 X2] Y. split; [eapply prim_CI; eassumption|]. rewrite (prim_statics e allow any_kind a b (ci_r _ X1) Y). exact X2.
      - split; [exact CI0|reflexivity].
      - pose proof (sd_steps e allow (map c_name (cm_ctrls m)) (m, true)) as ST. unfold shutdown_controllers in S.
        change (fold_left (sd e) (map c_name (cm_ctrls m)) (m, true) = (m1, o1)) in S. rewrite S in ST. exact ST. }
    unfold statics in K. apply (f_equal (map h_name)) in K. rewrite !map_map in K. exact K. }
  unfold shutdown_components in H. change (fold_left (hd e) (map h_name (rm_hw (cm_rm m1))) (cm_rm m1, true) = (r, o2)) in H.
  destruct CI1 as [_ CR _]. pose proof (i_names _ CR) as NK.
  destruct (hd_spec e (map h_name (rm_hw (cm_rm m1))) (cm_rm m1) true NK NK) as (A & B & C & D). rewrite H in A, B, C, D. cbn [fst snd] in A, B, C, D.
  cbn [set_rm cm_rm]. split; [rewrite (evolve_names _ _ A); exact HW|]. split; [|split].
  - destruct (ev_trace _ _ A) as (evs & T & F). exists evs. split; [exact T|]. eapply Forall_impl; [|exact F]. intros ev (n & X). destruct ev; try destruct X; exact I.
  - intros O h Ih. destruct (C O) as [_ K]. specialize (K (h_name h)). unfold lc_of in K.
    pose proof (In_find _ _ (names_ok_evolve _ _ A NK) Ih) as F. unfold find_hw in K. rewrite F in K. cbn in K.
    assert (X : Some (h_lc h) = Some Finalized) by (apply K; rewrite <- (evolve_names _ _ A); apply in_map; exact Ih). congruence.
  - intros CB. apply D; [exact CB|reflexivity|]. intros n I. apply in_map_iff in I. destruct I as (h & <- & I).
    exists h. pose proof (In_find _ _ NK I) as F. split; [exact F|]. pose proof (i_lives _ CR) as L.
    specialize (L (h_name h) h F). intros U. rewrite U in L. apply lives_known in L. congruence.
Qed.
