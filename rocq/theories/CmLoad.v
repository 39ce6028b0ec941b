(** CmLoad.v -- C28, C29: what unload, cleanup and configure requests do to the controllers. *)
From Verif Require Import Base Events HwModel RmModel ChainModel CmModel CmPrim ChainSpec CmTopo ChainMain CmInv CmSpec.

Lemma same_others n : forall l l' : list ctrl, map c_name l' = map c_name l ->
  (forall c c', In c l -> In c' l' -> c_name c = c_name c' -> c_name c <> n -> c' = c) ->
  filter (fun c => negb (String.eqb (c_name c) n)) l' = filter (fun c => negb (String.eqb (c_name c) n)) l.
Proof.
  induction l as [|c l IH]; intros [|c' l'] H K; try discriminate; [reflexivity|].
  cbn [map] in H. injection H as H1 H2. cbn [filter].
  rewrite H1. rewrite (IH l' H2) by (intros x x' Hx Hx'; apply K; right; assumption).
  destruct (String.eqb_spec (c_name c) n) as [E|Ne]; [reflexivity|]. cbn [negb].
  rewrite (K c c'); auto; left; reflexivity.
Qed.
Lemma frame_others n m m' : NoDup (map c_name (cm_ctrls m)) -> frame n m m' -> others n m' = others n m.
Proof.
  intros ND F. apply same_others; [apply (fr_names _ _ _ F)|]. intros c c' Hc Hc' E Ne.
  pose proof (fr_names _ _ _ F) as N.
  assert (ND' : NoDup (map c_name (cm_ctrls m'))) by (rewrite N; exact ND).
  pose proof (NoDup_find _ _ ND Hc) as F1. pose proof (NoDup_find _ _ ND' Hc') as F2.
  pose proof (fr_other _ _ _ F (c_name c) Ne) as F3. unfold find_ctrl in F3. rewrite <- E in F2. congruence.
Qed.

(** ---------------------------------------------------------------- C28 *)
Lemma unload_frame e m n : NoDup (map c_name (cm_ctrls m)) ->
  (snd (unload_controller e m n) = false -> frame n m (fst (unload_controller e m n))) /\
  (snd (unload_controller e m n) = true -> cm_ctrls (fst (unload_controller e m n)) = others n m /\
     In n (map c_name (cm_ctrls m)) /\ not_active m n).
Proof.
  intros ND. unfold unload_controller. destruct (find_ctrl m n) as [c|] eqn:F.
  2:{ split; [intros _; apply frame_refl|discriminate]. }
  destruct (is_lc Active c) eqn:L; [split; [intros _; apply frame_refl|discriminate]|].
  pose proof (frame_cleanup e m n) as FR. destruct (cleanup_controller e m n) as [m1 ok]. cbn [fst] in FR.
  destruct (negb ok); cbn [fst snd]; [split; [intros _; exact FR|discriminate]|].
  split; [discriminate|]. intros _. split; [|split].
  2:{ rewrite <- (find_in_name _ _ _ F). apply in_map. eapply find_in_In. exact F. }
  2:{ exists c. split; [exact F|]. intros C. unfold is_lc in L. rewrite C in L. discriminate. }
  set (m2 := set_topo m1 _ _ _).
  assert (F2 : frame n m2 (if has_lc m2 n Inactive || has_lc m2 n Unconfigured then node_shutdown e m2 n else m2)).
  { destruct (_ || _); [apply frame_shutdown|apply frame_refl]. }
  set (m3 := if has_lc m2 n Inactive || has_lc m2 n Unconfigured then node_shutdown e m2 n else m2) in *.
  pose proof (frame_release n m3) as F4. cbn [set_ctrls cm_ctrls].
  assert (ND1 : NoDup (map c_name (cm_ctrls m1))) by (rewrite (fr_names _ _ _ FR); exact ND).
  change (others n (release_itfs m3 n) = others n m).
  rewrite (frame_others n m2 (release_itfs m3 n)).
  - change (others n m2) with (others n m1). apply frame_others; assumption.
  - exact ND1.
  - eapply frame_trans; eassumption.
Qed.

Lemma main_unload_active e allow m o n m' out c : cm_pend m = None -> o = CUnload n \/ o = CCleanup n ->
  find_ctrl m n = Some c -> c_lc c = Active -> cstep e allow m o = Val (m', out) ->
  m' = emit m EvOp /\ out = CBool false.
Proof.
  intros P O F L. unfold cstep. set (m0 := emit m EvOp).
  assert (F0 : find_ctrl m0 n = Some c) by exact F. assert (P0 : cm_pend m0 = None) by exact P.
  destruct O as [->| ->]; unfold serviced; rewrite P0.
  - unfold unload_controller. rewrite F0. unfold is_lc. rewrite L. cbn. intros [= <- <-]. auto.
  - unfold cleanup_controller. rewrite F0, L. cbn. intros [= <- <-]. auto.
Qed.
Lemma main_unload e allow hs ops m n m' b : crun e allow (cm_start hs) ops = Val m ->
  cstep e allow m (CUnload n) = Val (m', CBool b) ->
  if b then cm_ctrls m' = others n m /\ In n (map c_name (cm_ctrls m)) /\ state_in m n <> Some Active
  else map c_name (cm_ctrls m') = map c_name (cm_ctrls m) /\ others n m' = others n m.
Proof.
  intros R. pose proof (reach_NI _ _ _ _ _ R) as [ND _].
  unfold cstep. set (m0 := emit m EvOp). unfold serviced. destruct (cm_pend m0); [discriminate|].
  unfold to_out. intros [= <- <-].
  destruct (unload_frame e m0 n ND) as [U1 U2]. destruct (snd (unload_controller e m0 n)).
  - destruct (U2 eq_refl) as (E & I & c & F & L). split; [exact E|]. split; [exact I|].
    unfold state_in. change (find_ctrl m n) with (find_ctrl m0 n). rewrite F. cbn. congruence.
  - pose proof (U1 eq_refl) as FR. split; [apply (fr_names _ _ _ FR)|exact (frame_others n m0 _ ND FR)].
Qed.
Lemma main_cleanup e allow hs ops m n m' b : crun e allow (cm_start hs) ops = Val m ->
  cstep e allow m (CCleanup n) = Val (m', CBool b) ->
  map c_name (cm_ctrls m') = map c_name (cm_ctrls m) /\ others n m' = others n m /\
  (b = true -> state_in m' n = Some Unconfigured).
Proof.
  intros R. pose proof (reach_NI _ _ _ _ _ R) as [ND _].
  unfold cstep. set (m0 := emit m EvOp). unfold serviced. destruct (cm_pend m0); [discriminate|].
  unfold to_out. intros [= <- E].
  pose proof (frame_cleanup e m0 n) as FR. split; [apply (fr_names _ _ _ FR)|].
  split; [exact (frame_others n m0 _ ND FR)|]. intros ->. revert E.
  unfold cleanup_controller. destruct (find_ctrl m0 n) as [c|] eqn:F; [|discriminate].
  assert (HS : forall x, has_lc x n Unconfigured = true -> state_in x n = Some Unconfigured).
  { intros x. unfold has_lc, state_in. destruct (find_ctrl x n) as [d|]; [|discriminate].
    unfold is_lc. intros H. apply lc_eqb_eq in H. cbn. congruence. }
  destruct (c_lc c) eqn:L; try discriminate; cbn [fst snd]; try (apply HS).
  intros _. unfold state_in. rewrite F. cbn. congruence.
Qed.

(** ---------------------------------------------------------------- C29 *)
Lemma main_configure_refused e allow m n order m' out : cm_pend m = None ->
  find_ctrl m n = None \/ state_in m n = Some Active \/ state_in m n = Some Finalized ->
  cstep e allow m (CConfigure n order) = Val (m', out) ->
  m' = emit m EvOp /\ out = CBool false.
Proof.
  intros P F. unfold cstep. set (m0 := emit m EvOp). unfold serviced. change (cm_pend m0) with (cm_pend m). rewrite P.
  unfold configure_controller. change (find_ctrl m0 n) with (find_ctrl m n). unfold state_in in F.
  destruct (find_ctrl m n) as [c|].
  2:{ cbn. intros [= <- <-]. auto. }
  destruct F as [F|[F|F]]; [discriminate|cbn in F; injection F as ->..]; cbn; intros [= <- <-]; auto.
Qed.

Lemma state_error e m n c : find_ctrl m n = Some c ->
  state_in (node_error e m n) n = Some Unconfigured \/ state_in (node_error e m n) n = Some Finalized.
Proof.
  intros F. unfold node_error. set (ok := e_ctrl_error e _ n).
  rewrite (stop_release_lc (emit m (EvCtrlErr n ok)) n c) by exact F.
  unfold state_in. rewrite (find_after_stop _ n c) by exact F. destruct ok; auto.
Qed.
Lemma state_transition e m n cb from s f c : find_ctrl m n = Some c ->
  let x := state_in (node_transition e m n cb from s f) n in
  if from (c_lc c) then
    (x = Some s /\ exists t, e_ctrl e t n cb = CbSuccess) \/ (x = Some f /\ exists t, e_ctrl e t n cb = CbFailure) \/
    x = Some Unconfigured \/ x = Some Finalized
  else x = Some (c_lc c).
Proof.
  intros F. cbv zeta. unfold node_transition. rewrite F. destruct (from (c_lc c)).
  2:{ unfold state_in. rewrite F. reflexivity. }
  unfold ctrl_call. set (r := e_ctrl e (rm_trace (cm_rm m)) n cb).
  assert (HU : forall l, state_in (upd (emit m (EvCtrlCb n cb r)) n (upd_lc l)) n = Some l).
  { intros l. unfold state_in. rewrite (find_upd_same _ _ _ _ c); [|reflexivity|exact F]. rewrite String.eqb_refl. reflexivity. }
  destruct r eqn:Er.
  - left. split; [apply HU|]. eexists. exact Er.
  - right. left. split; [apply HU|]. eexists. exact Er.
  - right. right. apply (state_error e _ n c). exact F.
  - right. right. apply (state_error e _ n c). exact F.
Qed.
Lemma state_set_rm m r n : state_in (set_rm m r) n = state_in m n. Proof. reflexivity. Qed.
Lemma state_cleanup_exports m n : state_in (cleanup_exports m n) n = state_in m n.
Proof. unfold cleanup_exports. destruct (find_ctrl m n) as [c|]; [|reflexivity]. destruct (_ && _); reflexivity. Qed.
Lemma state_find m n l : state_in m n = Some l -> exists c, find_ctrl m n = Some c /\ c_lc c = l.
Proof. unfold state_in. destruct (find_ctrl m n) as [c|]; [|discriminate]. intros [= <-]. eauto. Qed.
Lemma has_state m n l : has_lc m n l = true <-> state_in m n = Some l.
Proof.
  unfold has_lc, state_in. destruct (find_ctrl m n) as [d|]; cbn; [|split; discriminate].
  unfold is_lc. rewrite lc_eqb_eq. split; congruence.
Qed.
Lemma state_cleanup_spec e m n : state_in m n = Some Inactive -> at_rest e (fst (cleanup_spec e m n)) n.
Proof.
  intros H. unfold cleanup_spec. cbn [fst]. rewrite <- state_cleanup_exports in H.
  destruct (state_find _ _ _ H) as (c & F & L).
  pose proof (state_transition e _ n Events.CCleanup (lc_eqb Inactive) Unconfigured Inactive c F) as T. rewrite L in T. cbn in T.
  unfold at_rest, node_cleanup. destruct T as [[-> _]|[[-> T]|[->| ->]]]; auto.
Qed.
Lemma state_configure e m n : state_in m n = Some Unconfigured ->
  let x := state_in (node_configure e m n) n in x = Some Inactive \/ x = Some Unconfigured \/ x = Some Finalized.
Proof.
  intros H. destruct (state_find _ _ _ H) as (c & F & L).
  pose proof (state_transition e _ n Events.CConfigure (lc_eqb Unconfigured) Inactive Unconfigured c F) as T. rewrite L in T. cbn in T.
  unfold node_configure. tauto.
Qed.
Lemma state_chained e m n b k : state_in (set_chained e m n b) k = state_in m k.
Proof.
  unfold set_chained. destruct (find_ctrl m n) as [c|] eqn:F; [|auto].
  destruct (_ && _); [|auto]. destruct (e_set_chained e _ n b); [|auto].
  unfold state_in. destruct (find_ctrl m k) as [ck|] eqn:Fk.
  - rewrite (find_upd_same _ _ _ _ ck); [|reflexivity|exact Fk]. destruct (String.eqb k n); reflexivity.
  - unfold find_ctrl, upd. cbn [set_ctrls cm_ctrls emit set_rm]. rewrite find_upd by reflexivity.
    unfold find_ctrl in Fk. rewrite Fk. reflexivity.
Qed.

(** A failed configure touches only the named controller, which ends unconfigured (or finalized by
    its own error handling), unless its on_cleanup refuses. *)
Lemma configure_failed e m n order m' : configure_controller e m n order = Val (m', false) ->
  state_in m n = Some Unconfigured \/ state_in m n = Some Inactive ->
  frame n m m' /\ at_rest e m' n.
Proof.
  intros H S0. revert H. unfold configure_controller. destruct (find_ctrl m n) as [c|] eqn:F; [|unfold state_in in S0; rewrite F in S0; cbn in S0; destruct S0; discriminate].
  assert (S0' : c_lc c = Unconfigured \/ c_lc c = Inactive) by (unfold state_in in S0; rewrite F in S0; cbn in S0; destruct S0 as [S0|S0]; injection S0; auto).
  assert (X : (let '(m1, ok1) := if is_lc Inactive c then cleanup_spec e m n else (m, true) in
      if negb ok1 then Val (m1, false)
      else
        let m2 := node_configure e (cleanup_exports m1 n) n in
        if negb (has_lc m2 n Inactive) then Val (m2, false)
        else if c_chainable c && negb (exports_ok c) then Val (fst (cleanup_spec e m2 n), false)
        else
          do m3 <- (if c_chainable c then
                      let '(r1, ok) := import_refs (cm_rm m2) n (c_refs c) in
                      if negb ok then Crash
                      else
                        exports_unavailable (set_chained e (set_rm m2 (import_exps r1 n (c_exps c))) n false) n
                    else Val m2);
          if negb (uniqueb (cmd_names (cm_rm m3) c)) || negb (uniqueb (state_names (cm_rm m3) c))
          then Val (fst (cleanup_spec e m3 n), false)
          else
            do m4 <- build_topology m3;
            do m5 <- reorder m4 order;
            Val (m5, true)) = Val (m', false) -> frame n m m' /\ at_rest e m' n).
  2:{ destruct S0' as [-> | ->]; exact X. }
  assert (FR1 : frame n m (fst (if is_lc Inactive c then cleanup_spec e m n else (m, true)))).
  { destruct (is_lc Inactive c); [apply frame_cleanup_spec|apply frame_refl]. }
  assert (R1 : at_rest e (fst (if is_lc Inactive c then cleanup_spec e m n else (m, true))) n /\
    (snd (if is_lc Inactive c then cleanup_spec e m n else (m, true)) = true ->
     state_in (fst (if is_lc Inactive c then cleanup_spec e m n else (m, true))) n = Some Unconfigured)).
  { unfold is_lc. destruct S0' as [L|L]; rewrite L; cbn [lc_eqb].
    - cbn [fst snd]. assert (state_in m n = Some Unconfigured) by (unfold state_in; rewrite F; cbn; congruence).
      split; [left; assumption|auto].
    - assert (state_in m n = Some Inactive) by (unfold state_in; rewrite F; cbn; congruence).
      split; [apply state_cleanup_spec; assumption|]. unfold cleanup_spec. cbn [fst snd]. apply has_state. }
  destruct (if is_lc Inactive c then cleanup_spec e m n else (m, true)) as [m1 ok1]. cbn [fst snd] in *.
  destruct R1 as [R1 R2]. destruct ok1; cbn [negb]; [|intros [= <-]; auto]. specialize (R2 eq_refl). cbv zeta.
  assert (FR2 : frame n m (node_configure e (cleanup_exports m1 n) n)).
  { eapply frame_trans; [exact FR1|]. eapply frame_trans; [apply frame_cleanup_exports|apply frame_transition]. }
  pose proof (state_configure e (cleanup_exports m1 n) n) as S2. rewrite state_cleanup_exports in S2. specialize (S2 R2). cbv zeta in S2.
  set (m2 := node_configure e (cleanup_exports m1 n) n) in *.
  destruct (negb (has_lc m2 n Inactive)) eqn:HI.
  { intros [= <-]. split; [exact FR2|]. apply negb_true_iff in HI. unfold at_rest. destruct S2 as [S2|[S2|S2]]; auto.
    apply has_state in S2. congruence. }
  apply negb_false_iff in HI. apply has_state in HI.
  destruct (_ && _).
  { intros [= <-]. split; [eapply frame_trans; [exact FR2|apply frame_cleanup_spec]|apply state_cleanup_spec; exact HI]. }
  intros H. apply bind_val in H. destruct H as (m3 & H3 & H).
  assert (S3 : frame n m m3 /\ state_in m3 n = Some Inactive).
  { destruct (c_chainable c); [|injection H3 as <-; auto].
    destruct (import_refs (cm_rm m2) n (c_refs c)) as [r1 ok]. destruct ok; [|discriminate]. cbn [negb] in H3.
    apply exports_un_rm in H3. destruct H3 as [r ->]. split.
    - eapply frame_trans; [exact FR2|].
      eapply frame_trans; [apply frame_set_rm|]. eapply frame_trans; [apply frame_chained|apply frame_set_rm].
    - rewrite state_set_rm, state_chained, state_set_rm. exact HI. }
  destruct S3 as [FR3 S3]. destruct (_ || _).
  - injection H as <-. split; [eapply frame_trans; [exact FR3|apply frame_cleanup_spec]|apply state_cleanup_spec; exact S3].
  - apply bind_val in H. destruct H as (m4 & H4 & H). apply bind_val in H. destruct H as (m5 & H5 & H). discriminate.
Qed.

Lemma configure_false_frame e m n order m' : configure_controller e m n order = Val (m', false) ->
  frame n m m' /\ (state_in m n = Some Active -> m' = m).
Proof.
  intros H. destruct (state_in m n) as [l|] eqn:S.
  2:{ unfold configure_controller in H. unfold state_in in S. destruct (find_ctrl m n); [discriminate|]. injection H as <-.
      split; [apply frame_refl|discriminate]. }
  assert (D : (l = Unconfigured \/ l = Inactive) \/ l = Active \/ l = Finalized \/ l = Unknown) by (destruct l; auto).
  destruct D as [D|D].
  - destruct (configure_failed e m n order m' H) as [FR AR]; [destruct D as [-> | ->]; auto|].
    split; [exact FR|]. destruct D as [-> | ->]; discriminate.
  - destruct (state_find _ _ _ S) as (c & F & L). unfold configure_controller in H. rewrite F, L in H.
    destruct D as [-> |[-> | ->]]; [injection H as <-; split; [apply frame_refl|reflexivity]..|]. split; [|discriminate].
    unfold is_lc in H. rewrite L in H. cbn [lc_eqb] in H. cbn [negb] in H.
    pose proof (state_cleanup_exports m n) as SE. rewrite S in SE. destruct (state_find _ _ _ SE) as (c1 & F1 & L1).
    assert (E2 : node_configure e (cleanup_exports m n) n = cleanup_exports m n).
    { unfold node_configure, node_transition. rewrite F1, L1. reflexivity. }
    rewrite E2 in H. assert (E3 : has_lc (cleanup_exports m n) n Inactive = false).
    { unfold has_lc. rewrite F1. unfold is_lc. rewrite L1. reflexivity. }
    rewrite E3 in H. injection H as <-. apply frame_cleanup_exports.
Qed.
Lemma main_configure_failed e allow hs ops m n order m' : crun e allow (cm_start hs) ops = Val m ->
  cstep e allow m (CConfigure n order) = Val (m', CBool false) ->
  state_in m n = Some Unconfigured \/ state_in m n = Some Inactive ->
  map c_name (cm_ctrls m') = map c_name (cm_ctrls m) /\ others n m' = others n m /\ at_rest e m' n.
Proof.
  intros R. pose proof (reach_NI _ _ _ _ _ R) as [ND _].
  unfold cstep. set (m0 := emit m EvOp). unfold serviced. destruct (cm_pend m0); [discriminate|].
  intros H S. apply bind_val in H. destruct H as ([mm b] & H & E). unfold to_out in E. injection E as <- ->.
  destruct (configure_failed _ _ _ _ _ H S) as [FR AR]. cbn [fst] in *.
  split; [apply (fr_names _ _ _ FR)|]. split; [exact (frame_others n m0 _ ND FR)|exact AR].
Qed.
Lemma configure_done e m n order m' : NI m -> configure_controller e m n order = Val (m', true) ->
  Permutation.Permutation (map c_name (cm_ctrls m')) (map c_name (cm_ctrls m)) /\
  state_in m' n = Some Inactive /\ (forall k, k <> n -> state_in m' k = state_in m k).
Proof.
  intros N0 H.
  destruct (configure_split e true any_kind _ _ _ _ I I H) as (m3 & m4 & S3 & FR & HL & HB & HR).
  assert (N3 : NI m3) by (eapply NI_same; [apply (fr_names _ _ _ FR)|apply (fr_spec _ _ _ FR)|exact N0]).
  destruct (configure_success e m n order m' N0 H) as (m3' & _ & _ & _ & _ & _ & E3' & _ & _ & _ & _ & _ & _ & PM & _ & _ & _ & _ & _ & _ & _ & K).
  rewrite E3' in PM.
  split; [exact PM|]. split; [apply has_state; exact K|]. intros k Hk.
  assert (E3 : state_in m3 k = state_in m k).
  { unfold state_in. rewrite (fr_other _ _ _ FR k Hk). reflexivity. }
  rewrite <- E3. clear E3.
  pose proof (reorder_members m3 m4 order m' N3 HB HR) as RM.
  unfold state_in. destruct (find_ctrl m' k) as [ck|] eqn:Fk.
  - pose proof (find_in_In _ _ _ Fk) as Ik. apply RM in Ik. destruct Ik as (c0 & g & Hc0 & ->).
    pose proof (find_in_name _ _ _ Fk) as Nk. cbn [upd_group c_name] in Nk.
    pose proof (NoDup_find _ _ (proj1 N3) Hc0) as F0. rewrite Nk in F0. unfold find_ctrl. rewrite F0. reflexivity.
  - destruct (find_ctrl m3 k) as [c3|] eqn:F3; [|reflexivity]. exfalso.
    unfold find_ctrl in *. apply find_in_none in Fk. apply Fk. clear Fk.
    pose proof (find_in_In _ _ _ F3) as I3. pose proof (find_in_name _ _ _ F3) as Nk. subst k.
    eapply Permutation.Permutation_in; [apply Permutation.Permutation_sym; exact PM|].
    rewrite <- (fr_names _ _ _ FR). apply in_map. exact I3.
Qed.
Lemma main_configure_done e allow hs ops m n order m' : crun e allow (cm_start hs) ops = Val m ->
  cstep e allow m (CConfigure n order) = Val (m', CBool true) ->
  state_in m' n = Some Inactive /\ (forall k, k <> n -> state_in m' k = state_in m k).
Proof.
  intros R. pose proof (reach_NI _ _ _ _ _ R) as HNI.
  unfold cstep. set (m0 := emit m EvOp). unfold serviced. destruct (cm_pend m0); [discriminate|].
  intros H. apply bind_val in H. destruct H as ([mm b] & H & E). unfold to_out in E. injection E as <- ->. cbn [fst].
  assert (N0 : NI m0) by exact HNI. apply (configure_done e m0 n order mm N0 H).
Qed.

Lemma life_trace m m' : rm_trace (cm_rm m') = rm_trace (cm_rm m) -> life m' = life m.
Proof. intros E. unfold life. rewrite E. reflexivity. Qed.
Lemma remove_refs_trace r n : rm_trace (remove_refs r n) = rm_trace r.
Proof. unfold remove_refs. destruct (aget _ n); reflexivity. Qed.
Lemma remove_exps_trace r n : rm_trace (remove_exps r n) = rm_trace r.
Proof. unfold remove_exps. destruct (aget _ n); reflexivity. Qed.
Lemma life_cleanup_exports m n : life (cleanup_exports m n) = life m.
Proof.
  apply life_trace. unfold cleanup_exports. destruct (find_ctrl m n) as [c|]; [|reflexivity]. destruct (_ && _); [|reflexivity].
  cbn [set_rm cm_rm]. rewrite remove_refs_trace, remove_exps_trace. reflexivity.
Qed.
Lemma life_chained e m n b : life (set_chained e m n b) = life m.
Proof.
  unfold set_chained. destruct (find_ctrl m n) as [c|]; [|reflexivity]. destruct (_ && _); [|reflexivity].
  destruct (e_set_chained e _ n b); reflexivity.
Qed.
Lemma add_cmd_trace ks : forall r, rm_trace (fst (add_cmd_itfs ks r)) = rm_trace r.
Proof. induction ks as [|k ks IH]; intros r; cbn [add_cmd_itfs]; [reflexivity|]. destruct (mem k (rm_ckeys r)); [reflexivity|]. rewrite IH. reflexivity. Qed.
Lemma add_state_trace ks : forall r, rm_trace (fst (add_state_itfs ks r)) = rm_trace r.
Proof.
  induction ks as [|k ks IH]; intros r; cbn [add_state_itfs]; [reflexivity|]. destruct (mem k (rm_skeys r)); [apply IH|].
  destruct (add_state_itfs ks _) as [r' l] eqn:E. cbn [fst]. pose proof (IH (with_skeys r (rm_skeys r ++ [k]))) as H.
  rewrite E in H. exact H.
Qed.
Lemma import_refs_trace r n ks r1 ok : import_refs r n ks = (r1, ok) -> rm_trace r1 = rm_trace r.
Proof.
  unfold import_refs. pose proof (add_cmd_trace ks r) as H. destruct (add_cmd_itfs ks r) as [r' b]. cbn in H.
  destruct b; intros [= <- <-]; exact H.
Qed.
Lemma import_exps_trace r n ks : rm_trace (import_exps r n ks) = rm_trace r.
Proof. unfold import_exps. pose proof (add_state_trace ks r) as H. destruct (add_state_itfs ks r) as [r' b]. exact H. Qed.
Lemma exports_un_trace m n m' : exports_unavailable m n = Val m' -> life m' = life m.
Proof.
  unfold exports_unavailable. intros H. apply bind_val in H. destruct H as (r1 & H1 & H).
  apply bind_val in H. destruct H as (r2 & H2 & H). injection H as <-. apply life_trace. cbn [set_rm cm_rm].
  apply of_option_val in H1. apply of_option_val in H2. unfold make_exps_unavailable in H1. unfold make_refs_unavailable in H2.
  destruct (aget (rm_exps (cm_rm m)) n); [|discriminate]. injection H1 as <-.
  destruct (aget _ n); [|discriminate]. injection H2 as <-. reflexivity.
Qed.
Lemma topo_trace m m' m'' order : build_topology m = Val m' -> reorder m' order = Val m'' -> life m'' = life m.
Proof.
  unfold build_topology, reorder. intros H H'. apply bind_val in H. destruct H as ([[s rc] sc] & _ & H). injection H as <-.
  apply bind_val in H'. destruct H' as (ns & _ & H'). injection H' as <-. reflexivity.
Qed.

(** what a life-cycle call leaves in the trace *)
Definition call_log (n : name) (cb : ccb) (l : trace) : Prop :=
  exists r, (r = CbSuccess \/ r = CbFailure) /\ l = [EvCtrlCb n cb r] \/
            (r = CbError \/ r = CbThrow) /\ exists ok, l = [EvCtrlErr n ok; EvCtrlCb n cb r].
Lemma life_release m n : life (release_itfs m n) = life m.
Proof.
  apply life_trace. unfold release_itfs. destruct (find_ctrl m n); [|reflexivity]. cbn [upd set_ctrls set_rm cm_rm].
  apply release_keeps_trace.
Qed.
Lemma life_error e m n : life (node_error e m n) = EvCtrlErr n (e_ctrl_error e (rm_trace (cm_rm m)) n) :: life m.
Proof.
  unfold node_error. set (ok := e_ctrl_error e (rm_trace (cm_rm m)) n).
  change (life (upd (release_itfs (emit m (EvCtrlErr n ok)) n) n (upd_lc (if ok then Unconfigured else Finalized))))
    with (life (release_itfs (emit m (EvCtrlErr n ok)) n)).
  rewrite life_release. reflexivity.
Qed.
Lemma life_transition e m n cb from s f c : find_ctrl m n = Some c -> from (c_lc c) = true -> s <> Finalized -> f <> Finalized -> s <> f ->
  exists r, (forall l, state_in (node_transition e m n cb from s f) n = Some l ->
    (l = s /\ (s <> Unconfigured \/ r = CbSuccess) /\ r = CbSuccess) \/ l <> s \/ (s = Unconfigured /\ (r = CbError \/ r = CbThrow))) /\
    ((r = CbSuccess \/ r = CbFailure) /\ life (node_transition e m n cb from s f) = EvCtrlCb n cb r :: life m \/
     (r = CbError \/ r = CbThrow) /\ exists ok, life (node_transition e m n cb from s f) = EvCtrlErr n ok :: EvCtrlCb n cb r :: life m /\
       state_in (node_transition e m n cb from s f) n = Some (if ok then Unconfigured else Finalized)).
Proof.
  intros F Hf Ns Nf Nsf. unfold node_transition. rewrite F, Hf. unfold ctrl_call. set (r := e_ctrl e (rm_trace (cm_rm m)) n cb).
  exists r.
  assert (HU : forall l, state_in (upd (emit m (EvCtrlCb n cb r)) n (upd_lc l)) n = Some l).
  { intros l. unfold state_in. rewrite (find_upd_same _ _ _ _ c); [|reflexivity|exact F]. rewrite String.eqb_refl. reflexivity. }
  assert (HE : forall l ok, state_in (node_error e (emit m (EvCtrlCb n cb r)) n) n = Some l -> ok = e_ctrl_error e (rm_trace (cm_rm (emit m (EvCtrlCb n cb r)))) n -> l = if ok then Unconfigured else Finalized).
  { intros l ok. unfold node_error. intros H ->. revert H.
    rewrite (stop_release_lc (emit (emit m (EvCtrlCb n cb r)) _) n c) by exact F.
    unfold state_in. rewrite (find_after_stop _ n c) by exact F. cbn. intros [= <-]. reflexivity. }
  destruct r eqn:Er.
  - split; [|left; auto]. intros l Hl. rewrite HU in Hl. injection Hl as <-. auto 6.
  - split; [|left; auto]. intros l Hl. rewrite HU in Hl. injection Hl as <-. auto 6.
  - split.
    + intros l Hl. specialize (HE l _ Hl eq_refl). right. destruct s; subst l; destruct (e_ctrl_error e _ n); auto; left; congruence.
    + right. split; [auto|]. eexists. split; [rewrite life_error; reflexivity|].
      destruct (state_error e (emit m (EvCtrlCb n cb CbError)) n c F) as [S|S]; rewrite S; f_equal; apply (HE _ _ S eq_refl).
  - split.
    + intros l Hl. specialize (HE l _ Hl eq_refl). right. destruct s; subst l; destruct (e_ctrl_error e _ n); auto; left; congruence.
    + right. split; [auto|]. eexists. split; [rewrite life_error; reflexivity|].
      destruct (state_error e (emit m (EvCtrlCb n cb CbThrow)) n c F) as [S|S]; rewrite S; f_equal; apply (HE _ _ S eq_refl).
Qed.
Lemma life_emit m : life (emit m EvOp) = life m. Proof. reflexivity. Qed.

(** A successful configure ran on_cleanup first if the controller was configured, then
    on_configure, and no other life-cycle callback of any controller. *)
Lemma configure_calls e m n order m' : configure_controller e m n order = Val (m', true) ->
  exists before, life m' = EvCtrlCb n Events.CConfigure CbSuccess :: before ++ life m /\
    (state_in m n = Some Unconfigured /\ before = [] \/
     state_in m n = Some Inactive /\
       (before = [EvCtrlCb n Events.CCleanup CbSuccess] \/ exists r, before = [EvCtrlErr n true; EvCtrlCb n Events.CCleanup r])).
Proof.
  unfold configure_controller. destruct (find_ctrl m n) as [c|] eqn:F; [|discriminate].
  set (goal := exists before, _).
  assert (X : (let '(m1, ok1) := if is_lc Inactive c then cleanup_spec e m n else (m, true) in
      if negb ok1 then Val (m1, false)
      else
        let m2 := node_configure e (cleanup_exports m1 n) n in
        if negb (has_lc m2 n Inactive) then Val (m2, false)
        else if c_chainable c && negb (exports_ok c) then Val (fst (cleanup_spec e m2 n), false)
        else
          do m3 <- (if c_chainable c then
                      let '(r1, ok) := import_refs (cm_rm m2) n (c_refs c) in
                      if negb ok then Crash
                      else
                        exports_unavailable (set_chained e (set_rm m2 (import_exps r1 n (c_exps c))) n false) n
                    else Val m2);
          if negb (uniqueb (cmd_names (cm_rm m3) c)) || negb (uniqueb (state_names (cm_rm m3) c))
          then Val (fst (cleanup_spec e m3 n), false)
          else
            do m4 <- build_topology m3;
            do m5 <- reorder m4 order;
            Val (m5, true)) = Val (m', true) -> goal).
  2:{ destruct (c_lc c); try exact X; discriminate. }
  assert (R1 : let x := if is_lc Inactive c then cleanup_spec e m n else (m, true) in
    snd x = true -> exists before, life (fst x) = before ++ life m /\
     (c_lc c <> Inactive /\ before = [] /\ state_in (fst x) n = Some (c_lc c) \/ c_lc c = Inactive /\ state_in (fst x) n = Some Unconfigured /\
       (before = [EvCtrlCb n Events.CCleanup CbSuccess] \/ exists r, before = [EvCtrlErr n true; EvCtrlCb n Events.CCleanup r]))).
  { cbv zeta. destruct (is_lc Inactive c) eqn:L.
    - unfold is_lc in L. apply lc_eqb_eq in L. unfold cleanup_spec. cbn [fst snd]. intros HU. apply has_state in HU.
      pose proof (state_cleanup_exports m n) as SE. destruct (state_find (cleanup_exports m n) n Inactive) as (c1 & F1 & L1).
      { rewrite SE. unfold state_in. rewrite F. cbn. congruence. }
      destruct (life_transition e (cleanup_exports m n) n Events.CCleanup (lc_eqb Inactive) Unconfigured Inactive c1 F1) as (r & T1 & T2);
        [rewrite L1; reflexivity|discriminate..|].
      specialize (T1 _ HU). fold (node_cleanup e (cleanup_exports m n) n) in T2. rewrite life_cleanup_exports in T2.
      destruct T2 as [[Hr T2]|[Hr (ok & T2 & T3)]].
      + exists [EvCtrlCb n Events.CCleanup r]. split; [exact T2|]. right. split; [exact L|]. split; [exact HU|]. left.
        destruct T1 as [(_ & _ & ->)|[C|(_ & C)]]; [reflexivity|congruence|].
        exfalso. destruct Hr as [->| ->]; destruct C; discriminate.
      + exists [EvCtrlErr n ok; EvCtrlCb n Events.CCleanup r]. split; [exact T2|]. right. split; [exact L|]. split; [exact HU|]. right.
        fold (node_cleanup e (cleanup_exports m n) n) in T3. rewrite T3 in HU. destruct ok; [|discriminate]. eauto.
    - intros _. exists []. split; [reflexivity|]. left. cbn [fst]. split; [|split; [reflexivity|]].
      + intros C. unfold is_lc in L. rewrite C in L. discriminate.
      + unfold state_in. rewrite F. reflexivity. }
  cbv zeta in R1. destruct (if is_lc Inactive c then cleanup_spec e m n else (m, true)) as [m1 ok1]. cbn [fst snd] in *.
  destruct ok1; cbn [negb]; [|discriminate]. destruct (R1 eq_refl) as (before & E1 & D). clear R1. cbv zeta.
  destruct (negb (has_lc (node_configure e (cleanup_exports m1 n) n) n Inactive)) eqn:HI; [discriminate|].
  apply negb_false_iff in HI. apply has_state in HI.
  assert (S1 : state_in m1 n = Some Unconfigured /\ life (node_configure e (cleanup_exports m1 n) n) = EvCtrlCb n Events.CConfigure CbSuccess :: before ++ life m).
  { assert (exists l, state_in m1 n = Some l /\ l <> Inactive) as (l & Hl & Nl).
    { destruct D as [(A & _ & B)|(_ & B & _)]; eexists; (split; [exact B|]); congruence. }
    destruct (state_find (cleanup_exports m1 n) n l) as (c1 & F1 & L1); [rewrite state_cleanup_exports; exact Hl|].
    assert (L2 : lc_eqb Unconfigured (c_lc c1) = true).
    { unfold node_configure, node_transition in HI. rewrite F1 in HI. destruct (lc_eqb Unconfigured (c_lc c1)); [reflexivity|].
      exfalso. rewrite state_cleanup_exports, Hl in HI. congruence. }
    destruct (life_transition e (cleanup_exports m1 n) n Events.CConfigure (lc_eqb Unconfigured) Inactive Unconfigured c1 F1 L2) as (r & T1 & T2);
      [discriminate..|].
    fold (node_configure e (cleanup_exports m1 n) n) in *. specialize (T1 _ HI). rewrite life_cleanup_exports, E1 in T2.
    apply lc_eqb_eq in L2. split; [congruence|].
    destruct T1 as [(_ & _ & ->)|[C|(C & _)]]; [|congruence|discriminate].
    destruct T2 as [[_ T2]|[[C|C] _]]; [exact T2|discriminate..]. }
  destruct S1 as [S1 E2]. set (m2 := node_configure e (cleanup_exports m1 n) n) in *.
  destruct (_ && _); [discriminate|].
  intros H. apply bind_val in H. destruct H as (m3 & H3 & H).
  assert (E3 : life m3 = life m2).
  { destruct (c_chainable c); [|injection H3 as <-; reflexivity].
    destruct (import_refs (cm_rm m2) n (c_refs c)) as [r1 ok] eqn:IR. destruct ok; [|discriminate]. cbn [negb] in H3.
    apply exports_un_trace in H3. rewrite H3, life_chained. apply life_trace. cbn [set_rm cm_rm].
    rewrite import_exps_trace. apply (import_refs_trace _ _ _ _ _ IR). }
  destruct (_ || _); [discriminate|].
  apply bind_val in H. destruct H as (m4 & H4 & H). apply bind_val in H. destruct H as (m5 & H5 & H). injection H as <-.
  exists before. rewrite (topo_trace _ _ _ _ H4 H5), E3. split; [exact E2|].
  unfold state_in at 1 2. rewrite F. cbn [option_map].
  destruct D as [(A & B & C)|(A & B & C)]; [left|right; rewrite A; auto].
  split; [congruence|exact B].
Qed.
Lemma main_configure_calls e allow m n order m' : 
  cstep e allow m (CConfigure n order) = Val (m', CBool true) ->
  exists before, life m' = EvCtrlCb n Events.CConfigure CbSuccess :: before ++ life m /\
    (state_in m n = Some Unconfigured /\ before = [] \/
     state_in m n = Some Inactive /\
       (before = [EvCtrlCb n Events.CCleanup CbSuccess] \/ exists r, before = [EvCtrlErr n true; EvCtrlCb n Events.CCleanup r])).
Proof.
  unfold cstep. unfold serviced. change (cm_pend (emit m EvOp)) with (cm_pend m). destruct (cm_pend m); [discriminate|].
  intros H. apply bind_val in H. destruct H as ([mm b] & H & E). unfold to_out in E. injection E as <- ->. cbn [fst].
  apply configure_calls in H. exact H.
Qed.
