(** CmFallback2.v -- C25 for fallback controllers that are chainable or use interfaces of other controllers. *)
From Coq Require Import Lia Permutation.
From Verif Require Import Base Events HwModel RmModel RmSys RmSpec RmSpec2 HwProofs RmProofs RmInv RmAvail RmMode RmExact ChainModel CmModel CmPrim ChainSpec CmTopo CmInv CmSpec CmExcl CmReach CmLeak CmSwitch CmOutcome CmLoad CmIntact FollowSpec UpdateSpec CmDeact CmErr CmFallback LifeSpec CmLife CmRefs DoneSpec CmDone CmCycle ExportSpec CmExport CmExport2 CmExport3 CmExport7 CmBystander RefExclSpec CmRefExcl FallbackSpec.
Open Scope list_scope.

(** a claim is held by somebody: kept as long as no exports are (re)built *)
Lemma prim_Held_calm e allow (KS : pk -> Prop) m m' k : ~ KS KImport -> NI m -> LI m -> RI (cm_rm m) -> In k (rm_ckeys (cm_rm m)) -> Excl k m ->
  prim e allow KS m m' -> Held k m -> Held k m'.
Proof.
  intros NK HN HL HR KK HX P HH. pose proof (proj1 HN) as ND.
  assert (U : forall n c r f, find_ctrl m n = Some c ->
     (forall a, cnt k (cm_ctrls m) = a + count_occ string_dec (c_cloans c) k -> aget (rm_claimed r) k = Some true ->
        1 <= a + count_occ string_dec (c_cloans (f c)) k) ->
     Held k (upd (set_rm m r) n f)).
  { intros n c r f F H. destruct (split_upd _ _ _ ND F) as (l1 & l2 & El & Eu).
    unfold Held. cbn [upd set_ctrls set_rm cm_ctrls cm_rm]. rewrite (Eu f).
    assert (C : cnt k (l1 ++ f c :: l2) = cnt k l1 + cnt k l2 + count_occ string_dec (c_cloans (f c)) k).
    { rewrite cnt_app, cnt_cons. lia. }
    rewrite C. apply H. rewrite El, cnt_app, cnt_cons. lia. }
  assert (ID : forall n c, find_ctrl m n = Some c -> c_lc c <> Active -> c_cloans c = []).
  { intros n c F L. apply (HL c); [eapply find_in_In; exact F|exact L]. }
  assert (CS : forall r', rm_claimed r' = rm_claimed (cm_rm m) -> Held k (set_rm m r')).
  { intros r' E. apply (Held_same k m); [reflexivity| |exact HH]. cbn [set_rm cm_rm]. rewrite E. auto. }
  assert (EV : forall r', evolve (cm_rm m) r' -> Held k (set_rm m r')).
  { intros r' E. apply CS. apply (ev_claimed _ _ E). }
  destruct P.
  - apply CS. reflexivity.
  - apply EV. apply rm_read_evolve. apply HR.
  - apply EV. apply rm_write_evolve. apply HR.
  - destruct (set_component_state_ok e (cm_rm m) h t (i_names _ HR)) as [[E _ _] _]. apply EV. exact E.
  - destruct (rm_prepare_evolve e allow (cm_rm m) a d (i_names _ HR)) as [E _]. apply EV. exact E.
  - destruct (rm_perform_evolve e allow (cm_rm m) a d (i_names _ HR)) as [E _]. apply EV. exact E.
  - apply CS. eapply refs_av_maps; eassumption.
  - apply CS. eapply refs_un_maps; eassumption.
  - apply CS. eapply exps_av_maps; eassumption.
  - apply CS. eapply exps_un_maps; eassumption.
  - apply CS. apply claimed_same_cache.
  - contradiction.
  - contradiction.
  - contradiction.
  - (* p_lc *) change (upd m n (upd_lc l)) with (upd (set_rm m (cm_rm m)) n (upd_lc l)).
    apply (U n c); [assumption|]. intros a Ha T. cbn [upd_lc c_cloans]. rewrite <- Ha. apply HH. exact T.
  - (* p_halt *) apply (U n c); [assumption|]. intros a Ha. cbn [set_stop upd_lc upd_loans c_cloans count_occ].
    rewrite release_claimed. destruct (mem k (c_cloans c)) eqn:M; [discriminate|].
    apply count_out in M. intros T. specialize (HH T). lia.
  - (* p_run *)
    match goal with HC : claim_all _ _ _ = _ |- _ => pose proof (claim_all_got _ _ _ _ _ HC) as G; apply claim_all_some in HC; destruct HC as (N & C0 & C1) end.
    rewrite app_nil_l in G. subst cl. apply (U n c); [assumption|]. intros a Ha.
    rewrite (ID n c) in Ha |- * by (try assumption; congruence). cbn [release_all fold_left count_occ] in Ha |- *.
    cbn [set_run upd_lc upd_loans c_cloans]. rewrite count_NoDup by exact N. rewrite C1.
    destruct (mem k (cmd_names (cm_rm m) c)) eqn:M; [lia|]. intros T. specialize (HH T). lia.
  - (* p_rerun *)
    match goal with HC : claim_all _ _ _ = _ |- _ => pose proof (claim_all_got _ _ _ _ _ HC) as G; apply claim_all_some in HC; destruct HC as (N & C0 & C1) end.
    rewrite app_nil_l in G. subst cl. apply (U n c); [assumption|]. intros a Ha.
    cbn [upd_loans c_cloans]. rewrite count_NoDup by exact N. rewrite release_claimed, C1.
    destruct (mem k (cmd_names (cm_rm m) c)) eqn:M; [lia|].
    destruct (mem k (c_cloans c)) eqn:M2; [discriminate|]. apply count_out in M2. intros T. specialize (HH T). lia.
  - (* p_run_fail *)
    match goal with HC : claim_all _ _ _ = _ |- _ => pose proof (claim_all_got _ _ _ _ _ HC) as G; apply claim_all_some in HC; destruct HC as (N & C0 & C1) end.
    rewrite app_nil_l in G. subst cl. apply (U n c); [assumption|]. intros a Ha.
    rewrite (ID n c) in Ha |- * by assumption. cbn [release_all fold_left count_occ] in Ha.
    cbn [set_stop upd_lc upd_loans c_cloans count_occ]. rewrite release_claimed.
    change (release_all r1 []) with r1. rewrite C1.
    destruct (mem k (cmd_names (cm_rm m) c)) eqn:M; [discriminate|]. intros T. specialize (HH T). lia.
  - (* p_run_skip *)
    match goal with HC : claim_all _ _ _ = _ |- _ => pose proof (claim_all_got _ _ _ _ _ HC) as G; apply claim_all_some in HC; destruct HC as (N & C0 & C1) end.
    rewrite app_nil_l in G. subst cl. apply (U n c); [assumption|]. intros a Ha.
    rewrite (ID n c) in Ha |- * by assumption. cbn [release_all fold_left count_occ] in Ha.
    cbn [set_stop upd_lc upd_loans c_cloans count_occ]. rewrite release_claimed.
    change (release_all r1 []) with r1. rewrite C1.
    destruct (mem k (cmd_names (cm_rm m) c)) eqn:M; [discriminate|]. intros T. specialize (HH T). lia.
  - (* p_claim_fail *)
    match goal with HC : claim_all _ _ _ = _ |- _ => pose proof (claim_all_none_back _ _ _ _ k HC KK) as D end.
    apply (Held_same k m); [reflexivity| |exact HH]. cbn [set_rm cm_rm]. intros T. apply D. exact T.
  - (* p_claim_back *)
    match goal with HC : claim_all _ _ _ = _ |- _ => pose proof (claim_all_got _ _ _ _ _ HC) as G; apply claim_all_some in HC; destruct HC as (N & C0 & C1) end.
    rewrite app_nil_l in G. subst cl. apply (Held_same k m); [reflexivity| |exact HH]. cbn [set_rm cm_rm]. rewrite release_claimed, C1.
    destruct (mem k (cmd_names (cm_rm m) c)); [discriminate|auto].
  - (* p_chained *) destruct (find_ctrl m n) as [c|] eqn:F.
    + change (upd m n (CmModel.upd_chained b)) with (upd (set_rm m (cm_rm m)) n (CmModel.upd_chained b)).
      apply (U n c); [assumption|]. intros a Ha T. cbn [CmModel.upd_chained c_cloans]. rewrite <- Ha. apply HH. exact T.
    + assert (E : upd_in (cm_ctrls m) n (CmModel.upd_chained b) = cm_ctrls m).
      { apply find_in_none in F. unfold upd_in. rewrite <- (map_id (cm_ctrls m)) at 2. apply map_ext_in. intros x Hx.
        destruct (String.eqb_spec (c_name x) n) as [Ex|_]; [|reflexivity]. exfalso. apply F. rewrite <- Ex. apply in_map. exact Hx. }
      unfold Held. cbn [upd set_ctrls cm_ctrls cm_rm]. rewrite E. exact HH.
  - (* p_load *) unfold Held. cbn [set_topo set_ctrls cm_ctrls cm_rm]. rewrite cnt_app, cnt_cons. intros T. specialize (HH T). lia.
  - (* p_unload *)
    assert (F : cnt k (filter (fun c => negb (String.eqb (c_name c) n)) (cm_ctrls m)) = cnt k (cm_ctrls m)).
    { match goal with H : find_ctrl m n = Some c |- _ => rename H into Hf end.
      assert (Hall : forall x, In x (cm_ctrls m) -> c_name x = n -> c_cloans x = []).
      { intros x Hx Ex. assert (x = c) by (eapply find_same; eassumption). subst. assumption. }
      clear -Hall. induction (cm_ctrls m) as [|x l IH]; [reflexivity|]. cbn [filter].
      assert (IH' : cnt k (filter (fun c => negb (String.eqb (c_name c) n)) l) = cnt k l) by (apply IH; intros y Hy; apply Hall; right; exact Hy).
      destruct (String.eqb_spec (c_name x) n) as [E|_]; cbn [negb]; rewrite ?cnt_cons, IH'; [|reflexivity].
      rewrite (Hall x (or_introl eq_refl) E). reflexivity. }
    unfold Held. cbn [set_topo set_ctrls cm_ctrls cm_rm]. rewrite F. exact HH.
  - (* p_topo *)
    match goal with HB : build_topology m = Val m' , HO : reorder _ _ = Val m'' |- _ => 
      pose proof (reorder_members _ _ _ _ HN HB HO) as RM;
      destruct (build_topology_spec m m' (proj2 HN) HB) as (s & rc & sc & Em & K & _); subst m';
      assert (H' : NI (set_topo m s rc sc)) by (split; [exact ND|]; intros x Hx; apply K; apply (proj2 HN); exact Hx);
      destruct (reorder_spec _ _ _ H' HO) as (names & L & _ & Em & _ & PM & _); subst m'' end.
    apply (Held_same k m); [| |exact HH]; cbn [set_ctrls set_topo cm_rm cm_ctrls] in *; [|auto].
    apply cnt_group; assumption.
  - exact HH.
  - apply (Held_same k m); [| |exact HH]; cbn [set_ctrls cm_ctrls cm_rm]; [|auto].
    unfold cnt, loans. f_equal. clear. induction (cm_ctrls m) as [|x l IH]; [reflexivity|]. cbn [map flat_map]. rewrite IH. reflexivity.
Qed.

Lemma steps_Held e allow (KS : pk -> Prop) k m m' : ~ KS KImport -> steps e allow KS m m' -> GX k m -> In k (rm_ckeys (cm_rm m)) -> Held k m ->
  GX k m' /\ In k (rm_ckeys (cm_rm m')) /\ Held k m'.
Proof.
  intros NK S HG HK HH. apply (steps_inv e allow KS (fun x => GX k x /\ In k (rm_ckeys (cm_rm x)) /\ Held k x)) with (a := m); [|auto|exact S].
  intros a b (A & B & C) P. split; [eapply prim_GX; eassumption|]. split.
  - rewrite (tabs_ck _ _ (prim_tabs e allow KS _ _ NK (ci_r _ (gx_ci _ _ A)) P)). exact B.
  - eapply (prim_Held_calm e allow KS); try eassumption; try apply A; apply (gx_ci _ _ A).
Qed.
Lemma steps_unused e allow (KS : pk -> Prop) k m m' : ~ KS KUp -> NI m -> steps e allow KS m m' -> in_use m' k -> in_use m k.
Proof.
  intros NK HN S. cut (NI m' /\ (in_use m' k -> in_use m k)); [intros X; apply X|]. induction S as [|m1 m2 S IH P]; [auto|].
  destruct IH as [A B]. split; [eapply prim_NI; eassumption|]. intros U. apply B. destruct (prim_loan e allow KS _ _ _ A P U) as [H|[H _]]; [exact H|contradiction].
Qed.

(** ---------------------------------------------------------------- opening the exports before activation *)
Lemma exports_grow m n m' : exports_available m n = Val m' -> exists r, m' = set_rm m r /\ fixed r = fixed (cm_rm m) /\ rm_claimed r = rm_claimed (cm_rm m) /\
  incl (rm_avc (cm_rm m)) (rm_avc r) /\ incl (rm_avs (cm_rm m)) (rm_avs r) /\
  (forall ks, aget (rm_refs (cm_rm m)) n = Some ks -> incl ks (rm_avc r)) /\ (forall ks, aget (rm_exps (cm_rm m)) n = Some ks -> incl ks (rm_avs r)).
Proof.
  unfold exports_available, make_exps_available. destruct (aget (rm_exps (cm_rm m)) n) as [es|] eqn:E; [|discriminate]. cbn [of_option bind].
  unfold make_refs_available. cbn [with_av rm_refs]. destruct (aget (rm_refs (cm_rm m)) n) as [rs|] eqn:R; [|discriminate]. cbn [of_option bind].
  intros [= <-]. eexists. split; [reflexivity|]. split; [reflexivity|]. split; [reflexivity|]. cbn [with_av rm_avc rm_avs].
  split; [intros k H; apply In_add_items; left; exact H|]. split; [intros k H; apply In_add_items; left; exact H|].
  split; intros ks [= <-] k H; apply In_add_items; right; exact H.
Qed.
Lemma preact_grow : forall gs m m3, rfold preactivate gs m = Val m3 -> exists r, m3 = set_rm m r /\ fixed r = fixed (cm_rm m) /\ rm_claimed r = rm_claimed (cm_rm m) /\
  incl (rm_avc (cm_rm m)) (rm_avc r) /\ incl (rm_avs (cm_rm m)) (rm_avs r) /\
  (forall g c, In g gs -> find_ctrl m g = Some c -> c_chainable c = true ->
     (forall ks, aget (rm_refs (cm_rm m)) g = Some ks -> incl ks (rm_avc r)) /\ (forall ks, aget (rm_exps (cm_rm m)) g = Some ks -> incl ks (rm_avs r))).
Proof.
  induction gs as [|g gs IH]; intros m m3; cbn [rfold].
  { intros [= <-]. exists (cm_rm m). split; [destruct m; reflexivity|]. do 2 (split; [reflexivity|]). do 2 (split; [intros k H; exact H|]). intros g c []. }
  intros H. apply bind_val in H. destruct H as (m1 & H1 & H).
  assert (X : exists r1, m1 = set_rm m r1 /\ fixed r1 = fixed (cm_rm m) /\ rm_claimed r1 = rm_claimed (cm_rm m) /\ incl (rm_avc (cm_rm m)) (rm_avc r1) /\ incl (rm_avs (cm_rm m)) (rm_avs r1) /\
    (forall c, find_ctrl m g = Some c -> c_chainable c = true -> (forall ks, aget (rm_refs (cm_rm m)) g = Some ks -> incl ks (rm_avc r1)) /\ (forall ks, aget (rm_exps (cm_rm m)) g = Some ks -> incl ks (rm_avs r1)))).
  { unfold preactivate in H1. destruct (find_ctrl m g) as [c|] eqn:F.
    - destruct (c_chainable c) eqn:CH.
      + destruct (exports_grow _ _ _ H1) as (r & A & B & C & D & E & G1 & G2). exists r. do 5 (split; [assumption|]). intros c0 F0 _. auto.
      + injection H1 as <-. exists (cm_rm m). split; [destruct m; reflexivity|]. do 2 (split; [reflexivity|]). do 2 (split; [intros k K; exact K|]). intros c0 [= <-] C. congruence.
    - injection H1 as <-. exists (cm_rm m). split; [destruct m; reflexivity|]. do 2 (split; [reflexivity|]). do 2 (split; [intros k K; exact K|]). intros c0 [=]. }
  destruct X as (r1 & -> & F1 & C1 & A1 & S1 & O1). destruct (IH _ _ H) as (r & -> & F2 & C2 & A2 & S2 & O2). cbn [set_rm cm_rm] in *.
  exists r. split; [reflexivity|]. split; [congruence|]. split; [congruence|]. split; [intros k K; apply A2, A1, K|]. split; [intros k K; apply S2, S1, K|].
  intros x c [<-|Hx] F CH.
  - destruct (O1 c F CH) as [P Q]. split; intros ks G k K; [apply A2; eapply P; eassumption|apply S2; eapply Q; eassumption].
  - assert (F' : find_ctrl (set_rm m r1) x = Some c) by exact F. destruct (O2 x c Hx F' CH) as [P Q].
    rewrite (fixed_refs _ _ F1) in P. rewrite (fixed_exps _ _ F1) in Q. split; assumption.
Qed.

(** ---------------------------------------------------------------- activation *)
Definition startable2 (m : cm) (g : name) : Prop :=
  exists c, find_ctrl m g = Some c /\ c_lc c = Inactive /\ c_cloans c = [] /\
    NoDup (cmd_names (cm_rm m) c) /\ (exists ks, c_cmd c = IIndividual ks) /\ (exists ss, c_state c = IIndividual ss) /\
    (forall k, In k (cmd_names (cm_rm m) c) -> In k (rm_avc (cm_rm m)) /\ aget (rm_claimed (cm_rm m)) k = Some false /\ In k (rm_ckeys (cm_rm m))) /\
    (forall k, In k (state_names (cm_rm m) c) -> In k (rm_avs (cm_rm m)) /\ In k (rm_skeys (cm_rm m))).
Lemma activate_one_ok2 e m g st : callbacks_succeed e -> startable2 m g -> activate_one e (m, true, []) g = Val st -> exists m1,
  st = (m1, true, []) /\ state_in m1 g = Some Active /\
  (forall g' , g' <> g -> find_ctrl m1 g' = find_ctrl m g') /\
  incl (rm_avc (cm_rm m)) (rm_avc (cm_rm m1)) /\ incl (rm_avs (cm_rm m)) (rm_avs (cm_rm m1)) /\ rm_ckeys (cm_rm m1) = rm_ckeys (cm_rm m) /\ rm_skeys (cm_rm m1) = rm_skeys (cm_rm m) /\
  (forall c k, find_ctrl m g = Some c -> ~ In k (cmd_names (cm_rm m) c) -> aget (rm_claimed (cm_rm m1)) k = aget (rm_claimed (cm_rm m)) k).
Proof.
  intros CB (c & F & L & CL & ND & (ks & EC) & (ss & ES) & HC & HS).
  destruct (claim_all_ok _ _ [] ND HC) as (r1 & E & E1 & E2 & E3 & E4). rewrite app_nil_l in E.
  unfold activate_one. rewrite F, E. cbn [bind]. cbv beta iota.
  assert (SN : state_names r1 c = state_names (cm_rm m) c) by (unfold state_names; rewrite E2; reflexivity).
  assert (FS : forallb (claim_state r1) (state_names r1 c) = true).
  { rewrite SN. apply forallb_forall. intros k Hk. destruct (HS k Hk) as [A B]. unfold claim_state, state_available. rewrite E2, E4.
    apply mem_In in A. apply mem_In in B. rewrite A, B. reflexivity. }
  rewrite FS, CL. change (release_all r1 []) with r1.
  set (mA := upd (set_rm m r1) g _).
  assert (FA : find_ctrl mA g = Some (upd_loans (cmd_names (cm_rm m) c) (state_names r1 c) c)).
  { unfold mA. rewrite (find_upd_same (set_rm m r1) g _ g c); [rewrite String.eqb_refl; reflexivity|reflexivity|exact F]. }
  unfold node_activate, node_transition. rewrite FA. cbn [upd_loans c_lc]. rewrite L. cbn [lc_eqb]. unfold ctrl_call. rewrite CB.
  set (mB := emit mA _). set (mC := upd mB g (upd_lc Active)).
  assert (FB : find_ctrl mB g = Some (upd_loans (cmd_names (cm_rm m) c) (state_names r1 c) c)) by exact FA.
  assert (FC : find_ctrl mC g = Some (upd_lc Active (upd_loans (cmd_names (cm_rm m) c) (state_names r1 c) c))).
  { unfold mC. rewrite (find_upd_same mB g (upd_lc Active) g _ (fun _ => eq_refl) FB). rewrite String.eqb_refl. reflexivity. }
  rewrite FC. change (is_lc Active (upd_lc Active (upd_loans (cmd_names (cm_rm m) c) (state_names r1 c) c))) with true. cbv iota.
  assert (OC : forall g', g' <> g -> find_ctrl mC g' = find_ctrl m g').
  { intros g' Ne. unfold mC. rewrite (fr_other g mB); [|apply frame_upd; apply keeps_lc|exact Ne].
    change (find_ctrl mB g') with (find_ctrl mA g'). unfold mA. rewrite (fr_other g (set_rm m r1)); [reflexivity|apply frame_upd; apply keeps_loans|exact Ne]. }
  assert (CK : forall c0 k, find_ctrl m g = Some c0 -> ~ In k (cmd_names (cm_rm m) c0) -> aget (rm_claimed (cm_rm mC)) k = aget (rm_claimed (cm_rm m)) k).
  { intros c0 k F0 NK. assert (c0 = c) by congruence. subst c0. change (cm_rm mC) with (with_trace r1 (rm_trace (cm_rm mB))). cbn [with_trace rm_claimed].
    apply claim_all_some in E. destruct E as (_ & _ & E). rewrite E. destruct (mem k (cmd_names (cm_rm m) c)) eqn:M; [apply mem_In in M; contradiction|reflexivity]. }
  change (rm_avc r1) with (rm_avc (cm_rm mC)) in E1. change (rm_avs r1) with (rm_avs (cm_rm mC)) in E2. change (rm_ckeys r1) with (rm_ckeys (cm_rm mC)) in E3. change (rm_skeys r1) with (rm_skeys (cm_rm mC)) in E4.
  clearbody mC. destruct (c_chainable c).
  - intros H. apply bind_val in H. destruct H as (m3 & H3 & H). injection H as <-. destruct (exports_grow _ _ _ H3) as (r & -> & FX & CX & AX & SX & _).
    exists (set_rm mC r). split; [reflexivity|]. split; [unfold state_in; change (find_ctrl (set_rm mC r) g) with (find_ctrl mC g); rewrite FC; reflexivity|].
    split; [exact OC|]. cbn [set_rm cm_rm]. rewrite (fixed_ck _ _ FX), (fixed_sk _ _ FX), CX.
    split; [rewrite <- E1; exact AX|]. split; [rewrite <- E2; exact SX|]. split; [exact E3|]. split; [exact E4|]. intros c0 k F0. apply CK. congruence.
  - intros [= <-]. exists mC. split; [reflexivity|]. split; [unfold state_in; rewrite FC; reflexivity|]. split; [exact OC|].
    rewrite E1, E2. split; [apply incl_refl|]. split; [apply incl_refl|]. split; [exact E3|]. split; [exact E4|]. intros c0 k F0. apply CK. congruence.
Qed.
Lemma activate_loop_ok2 e : callbacks_succeed e -> forall gs m st, NoDup gs -> (forall g, In g gs -> startable2 m g) ->
  (forall g1 g2 c1 c2 k, In g1 gs -> In g2 gs -> g1 <> g2 -> find_ctrl m g1 = Some c1 -> find_ctrl m g2 = Some c2 ->
     In k (cmd_names (cm_rm m) c1) -> ~ In k (cmd_names (cm_rm m) c2)) ->
  rfold (activate_one e) gs (m, true, []) = Val st ->
  exists m1, st = (m1, true, []) /\ (forall g, In g gs -> state_in m1 g = Some Active) /\
    (forall g, ~ In g gs -> find_ctrl m1 g = find_ctrl m g).
Proof.
  intros CB. induction gs as [|g gs IH]; intros m st ND ST DJ; cbn [rfold].
  { intros [= <-]. exists m. split; [reflexivity|]. split; [intros g []|reflexivity]. }
  inversion ND as [|? ? NG ND']; subst. intros H. apply bind_val in H. destruct H as (s1 & H1 & H).
  destruct (activate_one_ok2 e m g _ CB (ST g (or_introl eq_refl)) H1) as (m1 & -> & SA & FO & A1 & A2 & A3 & A4 & CK). clear H1.
  destruct (ST g (or_introl eq_refl)) as (cg & Fg & _).
  assert (OT : forall x, In x gs -> x <> g) by (intros x Hx C; subst; contradiction).
  apply (IH m1 st ND') in H.
  - destruct H as (m2 & -> & S2 & F2). exists m2. split; [reflexivity|]. split.
    + intros x [<-|Hx]; [|apply S2; exact Hx]. unfold state_in. rewrite (F2 g NG). exact SA.
    + intros x Hx. rewrite F2 by (intros C; apply Hx; right; exact C). apply FO. intros C. apply Hx. left. congruence.
  - intros x Hx. destruct (ST x (or_intror Hx)) as (c & F & L & CL & N & EC & ES & HC & HS). exists c.
    rewrite (FO x (OT x Hx)). rewrite (names_by (cm_rm m1) (cm_rm m) c EC), (snames_by (cm_rm m1) (cm_rm m) c ES).
    split; [exact F|]. split; [exact L|]. split; [exact CL|]. split; [exact N|]. split; [exact EC|]. split; [exact ES|].
    rewrite A3, A4. split; [|intros k Hk; destruct (HS k Hk); auto]. intros k Hk. destruct (HC k Hk) as (P1 & P2 & P3). split; [apply A1; exact P1|]. split; [|exact P3].
    rewrite (CK cg k Fg); [exact P2|]. apply (DJ x g c cg k); [right; exact Hx|left; reflexivity|exact (OT x Hx)|exact F|exact Fg|exact Hk].
  - intros g1 g2 c1 c2 k H1 H2 Ne F1 F2. rewrite (FO g1 (OT _ H1)) in F1. rewrite (FO g2 (OT _ H2)) in F2.
    destruct (ST g1 (or_intror H1)) as (d1 & G1 & _ & _ & _ & EC1 & _). destruct (ST g2 (or_intror H2)) as (d2 & G2 & _ & _ & _ & EC2 & _).
    assert (d1 = c1) by congruence. assert (d2 = c2) by congruence. subst d1 d2.
    rewrite (names_by (cm_rm m1) (cm_rm m) c1 EC1), (names_by (cm_rm m1) (cm_rm m) c2 EC2). apply (DJ g1 g2); auto; right; assumption.
Qed.

Lemma acts_other e allow ns start m m' x : ~ In x ns -> activate_controllers e allow m ns true start = Val m' -> find_ctrl m' x = find_ctrl m x.
Proof.
  intros N K. unfold activate_controllers in K. apply bind_val in K. destruct K as (m1 & K1 & K). apply bind_val in K. destruct K as ([[m2 ok] fl] & K2 & K).
  assert (E : find_ctrl m2 x = find_ctrl m x) by (rewrite (by_acts e x _ _ _ _ _ _ _ N K2); exact (by_pre x _ _ _ K1)).
  destruct (negb ok && true).
  - injection K as <-. rewrite by_pp, by_deact by exact N. exact E.
  - destruct (negb _); injection K as <-; [rewrite by_pp|]; exact E.
Qed.
Lemma works_steady e n : callbacks_succeed e -> steady e n /\ cleans e n /\ deactivates e n.
Proof. intros CB. split; [intros t cb; rewrite CB; split; discriminate|]. split; [intros t; apply CB|intros t; rewrite CB; discriminate]. Qed.

Section Fallback.
Variables (e : env) (allow : bool) (hs : list hwc) (ops : list cop) (m m' : cm) (o : cout).
Hypothesis HW : wf_hw hs.
Hypothesis HR : crun e allow (cm_start hs) ops = Val m.
Hypothesis HS : cstep e allow m CUpdate = Val (m', o).
Hypothesis CB : callbacks_succeed e.
Hypothesis PL : forall f, fallback_for m m' f -> ready_fallback m m' (undisturbed e allow hs ops) f.
Hypothesis DJ : forall c1 c2 k, In c1 (cm_ctrls m) -> In c2 (cm_ctrls m) -> fallback_for m m' (c_name c1) -> fallback_for m m' (c_name c2) ->
   c_name c1 <> c_name c2 -> wants_cmd m c1 k -> ~ wants_cmd m c2 k.

Lemma main_fallback_chained f : fallback_for m m' f -> state_in m' f = Some Active.
Proof using HW HR HS CB PL DJ.
  pose proof (reach_FI _ _ _ _ _ HW HR) as HF. pose proof (xi_rx _ (reach_XI _ _ _ _ _ HW HR)) as RX0.
  pose proof (ci_n _ (fi_ci _ HF)) as HN. pose proof (proj1 HN) as ND.
  destruct (taken_list _ _ _ _ _ HN HS) as (m1 & ds & x0 & [E _] & SM & TO & FB & K). intros Hf.
  destruct ds as [|d ds]; [apply FB in Hf; destruct Hf|]. cbv zeta in K.
  set (fbs := fbs_of m (d :: ds)) in *. set (us := fold_left _ fbs []) in *. set (dl := add_items (d :: ds) us) in *.
  set (m2 := deactivate_controllers e (mode_change e allow m1 (add_items [] fbs) dl) dl) in *.
  assert (FL : forall g, In g (add_items [] fbs) <-> fallback_for m m' g).
  { intros g. rewrite In_add_items, FB. cbn [In]. tauto. }
  assert (DS : forall n, deactivates e n) by (intros n t; rewrite CB; discriminate).
  assert (F1 : FI m1) by exact (steps_FI _ _ _ _ _ (SM calm) HF).
  assert (S12 : steps e allow calm m1 m2).
  { unfold m2. eapply steps_trans; [apply prep_perf_steps|apply deactivate_steps]. }
  pose proof (steps_FI _ _ _ _ _ S12 F1) as F2. destruct (steps_hwav _ _ _ _ F1 S12) as (AV & AS & ST).
  assert (S02 : steps e allow calm m m2) by (eapply steps_trans; [apply SM|exact S12]).
  assert (XRx : forall x, XR e x m m2).
  { intros x. eapply XR_trans; [|unfold m2; eapply XR_trans; [apply mode_change_XR|apply deactivate_XR]]. rewrite E. apply XR_same; reflexivity. }
  assert (TB : rm_refs (cm_rm m2) = rm_refs (cm_rm m) /\ rm_exps (cm_rm m2) = rm_exps (cm_rm m)) by (split; [apply (xw_refs _ _ _ _ (xr_w _ _ _ _ (XRx f)))|apply (xw_exps _ _ _ _ (xr_w _ _ _ _ (XRx f)))]).
  destruct TB as [TBr TBe].
  assert (RX2 : RX (cm_rm m2)).
  { clear - S02 HF RX0. assert (X : FI m2 /\ RX (cm_rm m2)); [|apply X]. apply (steps_inv e allow calm (fun z => FI z /\ RX (cm_rm z))) with (a := m); [|auto|exact S02].
    intros a b [A B] P. split; [eapply prim_FI; eassumption|]. eapply prim_RX; [exact (ci_r _ (fi_ci _ A))|exact P|exact B]. }
  destruct (add_items [] fbs) as [|f0 fl] eqn:EF; [apply FL in Hf; destruct Hf|]. fold m2 in K.
  assert (IN : forall g, In g (f0 :: fl) -> fallback_for m m' g) by (intros g Hg; apply FL; exact Hg).
  pose proof K as K0. unfold activate_controllers in K. apply bind_val in K. destruct K as (m3 & K1 & K).
  destruct (preact_grow _ _ _ K1) as (r3 & E3 & X3 & C3 & A3 & V3 & O3).
  (* who exports an interface and runs afterwards offers it in r3 *)
  assert (OFF : forall x, runs_after m m' x -> (forall ks, refs_of m x = Some ks -> incl ks (rm_avc r3)) /\ (forall ks, exps_of m x = Some ks -> incl ks (rm_avs r3))).
  { intros x RA. destruct (works_steady e x CB) as (W1 & W2 & W3).
    destruct (main_registered e allow hs ops m x HW HR W1 W2) as (_ & NR & _ & NL).
    assert (NOR : not_on_record m x -> (forall ks, refs_of m x = Some ks -> incl ks (rm_avc r3)) /\ (forall ks, exps_of m x = Some ks -> incl ks (rm_avs r3))).
    { intros [R1 R2]. split; intros ks H; congruence. }
    assert (FBc : fallback_for m m' x -> (forall ks, refs_of m x = Some ks -> incl ks (rm_avc r3)) /\ (forall ks, exps_of m x = Some ks -> incl ks (rm_avs r3))).
    { intros Hx. destruct (PL x Hx) as (c & Hc & Nc & _). destruct (c_chainable c) eqn:CH; [|apply NOR; apply (NR c Hc Nc); left; exact CH].
      assert (Fc0 : find_ctrl m x = Some c) by (rewrite <- Nc; exact (NoDup_find _ _ ND Hc)).
      pose proof (xw_find _ _ _ _ (xr_w _ _ _ _ (XRx x))) as XF. rewrite Fc0 in XF. destruct XF as (c2 & Fc2 & SC & _).
      assert (CH2 : c_chainable c2 = true) by (destruct SC as (_ & S & _); congruence).
      destruct (O3 x c2 (proj2 (FL x) Hx) Fc2 CH2) as [P Q]. rewrite TBr in P. rewrite TBe in Q. split; [exact P|exact Q]. }
    destruct RA as [RA|RA]; [apply FBc; exact RA|].
    destruct (in_dec string_dec x (f0 :: fl)) as [I|N]; [apply FBc; apply IN; exact I|].
    pose proof (acts_other _ _ _ _ _ _ _ N K0) as E2. unfold state_in in RA. rewrite E2 in RA. destruct (find_ctrl m2 x) as [c2|] eqn:F2x; [|discriminate]. injection RA as L2.
    destruct (XRx x) as [[_ _ _ XF] XA]. destruct (find_ctrl m x) as [c|] eqn:F0; [|congruence]. destruct XF as (c2' & Q1 & SC & _). assert (c2' = c2) by congruence. subst c2'.
    destruct (c_chainable c) eqn:CH.
    - assert (AVx : Avail x m2).
      { apply XA; [exact W3|apply Dis_of; [exact (i_k _ (ci_r _ (fi_ci _ HF)))|exact RX0]|]. intros y Fy Ly Cy.
        assert (Hy : In y (cm_ctrls m)) by (eapply find_in_In; exact Fy). assert (Ny : c_name y = x) by (eapply find_in_name; exact Fy).
        rewrite <- Ny. apply (main_active_offered e allow hs ops m y HW HR); auto. }
      assert (C2 : c_chainable c2 = true) by (destruct SC as (_ & S & _); congruence).
      destruct (AVx c2 F2x L2 C2) as [P Q]. unfold refs_of, exps_of in *. rewrite TBr in P. rewrite TBe in Q.
      split; intros ks G k Hk; [apply A3; exact (P ks k G Hk)|apply V3; exact (Q ks k G Hk)].
    - apply NOR. apply (NR c); [eapply find_in_In; exact F0|eapply find_in_name; exact F0|left; exact CH]. }
  (* a claim that is left belongs to a controller that would have been stopped *)
  assert (HOLD : forall g c k h, fallback_for m m' g -> find_ctrl m1 g = Some c -> In k (cmd_names (cm_rm m1) c) -> In k (rm_avc (cm_rm m1)) ->
     In h (cm_ctrls m2) -> In k (c_cloans h) -> False).
  { intros g c k h Hg Fc Wk A1 Hh Kh.
    assert (Lh : c_lc h = Active).
    { destruct (lc_eqb (c_lc h) Active) eqn:L; [apply lc_eqb_eq; exact L|]. exfalso.
      assert (N : c_lc h <> Active) by (intros C; apply lc_eqb_eq in C; congruence).
      destruct (ci_l _ (fi_ci _ F2) h Hh N) as [Z _]. rewrite Z in Kh. destruct Kh. }
    pose proof (fi_fit _ F2 h Hh k Kh) as FT.
    destruct (steps_na e allow calm m1 m2 (fun C => C) (ci_n _ (fi_ci _ F1)) S12) as [_ NA].
    destruct (NA h Hh Lh) as (h1 & Hh1 & SC & Lh1). destruct SC as (Nh & _ & Ch & _).
    assert (IU : In (c_name h1) us).
    { unfold us. eapply (users_all m1 g c k h1); [exact Fc|exact Wk|exact Hh1|exact Lh1| |apply FB; exact Hg].
      unfold cmd_names. rewrite <- Ch. eapply cfg_any; eassumption. }
    assert (OFFh : state_in m2 (c_name h1) <> Some Active).
    { unfold m2. apply deactivate_off; [apply DS|]. left. unfold dl. apply In_add_items. right. exact IU. }
    apply OFFh. rewrite <- Nh. rewrite (state_of_In m2 h (proj1 (ci_n _ (fi_ci _ F2))) Hh), Lh. reflexivity. }
  (* every fallback can be started in m3 *)
  assert (SB : forall g, fallback_for m m' g -> exists c c2, In c (cm_ctrls m) /\ c_name c = g /\ find_ctrl m3 g = Some c2 /\ c_cmd c2 = c_cmd c /\ by_name c /\ startable2 m3 g).
  { intros g Hg. destruct (PL g Hg) as (c & Hc & Nc & Lc & (ks & ss & EC & ES & NDk) & HC & HSt).
    assert (Fc : find_ctrl m1 g = Some c) by (rewrite E, <- Nc; exact (NoDup_find _ _ ND Hc)).
    assert (Fcm : find_ctrl (mode_change e allow m1 (f0 :: fl) dl) g = Some c) by (unfold mode_change, prep_perf; destruct (rm_prepare _ _ _ _ _); exact Fc).
    assert (X2 : exists c2, find_ctrl m2 g = Some c2 /\ c_cmd c2 = c_cmd c /\ c_state c2 = c_state c /\ c_lc c2 = Inactive /\ c_cloans c2 = []).
    { destruct Lc as [Lc|[Lc (k & Wk)]].
      - exists c. split; [unfold m2; apply deactivate_idle; [exact Fcm|congruence]|]. do 2 (split; [reflexivity|]). split; [exact Lc|].
        apply (ci_l _ (fi_ci _ HF) c Hc); congruence.
      - assert (WKS : forall n, In n dl -> works e n) by (intros n _ t; split; apply CB).
        destruct (st_find _ _ _ (stop_all e dl (mode_change e allow m1 (f0 :: fl) dl) WKS) g c Fcm) as (c2 & Q1 & SC & Q2 & _).
        assert (ID : In g dl).
        { unfold dl. apply In_add_items. right. unfold us. rewrite <- Nc. assert (Wk' : In k (cmd_names (cm_rm m1) c)) by (unfold cmd_names; rewrite EC; unfold wants_cmd, cmd_names in Wk; rewrite EC in Wk; exact Wk).
          apply (users_all m1 g c k c Fc Wk'); [rewrite E; exact Hc|exact Lc|exact Wk'|apply FB; exact Hg]. }
        destruct (Q2 ID Lc) as [L2 Z2]. exists c2. split; [exact Q1|]. destruct SC as (_ & _ & S3 & S4 & _).
        split; [congruence|]. split; [congruence|]. split; assumption. }
    destruct X2 as (c2 & Fc2 & EC2 & ES2 & L2 & ZL2). exists c, c2. split; [exact Hc|]. split; [exact Nc|].
    assert (Fc3 : find_ctrl m3 g = Some c2) by (rewrite E3; exact Fc2).
    split; [exact Fc3|]. split; [exact EC2|]. split; [exists ks, ss; auto|]. exists c2. split; [exact Fc3|]. split; [exact L2|].
    split; [exact ZL2|]. unfold cmd_names, state_names. rewrite EC2, ES2, EC, ES. cbn [cfg_names].
    split; [exact NDk|]. split; [exists ks; reflexivity|]. split; [exists ss; reflexivity|].
    unfold wants_cmd, wants_state, cmd_names, state_names in HC, HSt. rewrite EC in HC. rewrite ES in HSt. cbn [cfg_names] in HC, HSt.
    assert (STm : statics (cm_rm m2) = statics (cm_rm m)) by (rewrite ST, E; reflexivity).
    rewrite E3. cbn [set_rm cm_rm]. rewrite C3, (fixed_ck _ _ X3), (fixed_sk _ _ X3).
    assert (WK : forall k, In k ks -> In k (cmd_names (cm_rm m1) c)) by (intros k Hk; unfold cmd_names; rewrite EC; exact Hk).
    split.
    - intros k Hk. destruct (HC k Hk) as [[H1 H2]|(UD & (x & xs & RX1 & Ix & RA) & FREE)].
      + assert (HW1 : In k (hw_cmds (cm_rm m1))) by (rewrite E; exact H1).
        assert (A1 : In k (rm_avc (cm_rm m1))) by (rewrite E; exact H2).
        assert (HW2 : In k (hw_cmds (cm_rm m2))) by (rewrite hw_cmds_statics, STm, <- hw_cmds_statics; exact H1).
        destruct (fi_hw _ F2 k HW2) as [KK KN].
        split; [apply A3; apply AV; assumption|]. split; [|apply (ki_c _ (i_k _ (ci_r _ (fi_ci _ F2)))); exact HW2].
        destruct (aget (rm_claimed (cm_rm m2)) k) as [[]|] eqn:EA; [exfalso|reflexivity|exfalso; exact (KN EA)].
        destruct (cnt_held _ _ (ki_held _ _ KK EA)) as (h & Hh & Kh). eapply HOLD; eauto.
      + split; [exact (proj1 (OFF x RA) xs RX1 k Ix)|].
        assert (CKm : In k (rm_ckeys (cm_rm m))) by exact (rx_refs _ RX0 x xs RX1 k Ix).
        assert (CK2 : In k (rm_ckeys (cm_rm m2))).
        { assert (RX1' : aget (rm_refs (cm_rm m2)) x = Some xs) by (rewrite TBr; exact RX1). exact (rx_refs _ RX2 x xs RX1' k Ix). }
        split; [|exact CK2].
        pose proof (reach_GX e allow hs k HW ops m UD HR) as GXm.
        assert (HLD : Held k m).
        { intros T. destruct FREE as [FREE|[_ FREE]]; [unfold unclaimed in FREE; congruence|]. apply in_use_cnt in FREE. lia. }
        destruct (steps_Held e allow calm k m m2 (fun C => C) S02 GXm CKm HLD) as (GX2 & _ & HLD2).
        destruct (aget (rm_claimed (cm_rm m2)) k) as [[]|] eqn:EA; [exfalso|reflexivity|exfalso; exact (rx_ck _ RX2 k CK2 EA)].
        destruct (cnt_held _ _ (HLD2 EA)) as (h & Hh & Kh).
        destruct FREE as [FREE|[A0 _]].
        * assert (U2 : in_use m2 k) by (exists h; auto). pose proof (steps_unused e allow calm k m m2 (fun C => C) HN S02 U2) as U0.
          apply in_use_cnt in U0. destruct (gx_ex _ _ GXm) as [Z1 Z2]. unfold unclaimed in FREE. rewrite Z2 in FREE by lia. discriminate.
        * eapply (HOLD g c k h); eauto. rewrite E. exact A0.
    - intros k Hk. destruct (HSt k Hk) as [[H1 H2]|(x & xs & RX1 & Ix & RA)].
      + assert (HW2 : In k (hw_states (cm_rm m2))) by (rewrite hw_states_statics, STm, <- hw_states_statics; exact H1).
        split; [apply V3; apply AS; [rewrite E; exact H1|rewrite E; exact H2]|apply (ki_s _ (i_k _ (ci_r _ (fi_ci _ F2)))); exact HW2].
      + split; [exact (proj2 (OFF x RA) xs RX1 k Ix)|].
        assert (RX1' : aget (rm_exps (cm_rm m2)) x = Some xs) by (rewrite TBe; exact RX1). exact (rx_exps _ RX2 x xs RX1' k Ix). }
  assert (NDF : NoDup (f0 :: fl)) by (rewrite <- EF; apply NoDup_add_items; constructor).
  apply bind_val in K. destruct K as (st & K2 & K).
  apply (activate_loop_ok2 e CB (f0 :: fl) m3 st NDF) in K2.
  - destruct K2 as (m4 & -> & SA & _). cbv beta iota in K. cbn [negb andb] in K. injection K as <-. apply SA. apply FL. exact Hf.
  - intros g Hg. destruct (SB g (IN g Hg)) as (c & c2 & _ & _ & _ & _ & _ & S). exact S.
  - intros g1 g2 c1 c2 k H1 H2 Ne Fg1 Fg2. destruct (SB g1 (IN g1 H1)) as (d1 & y1 & D1 & N1 & G1 & Y1 & B1 & _). destruct (SB g2 (IN g2 H2)) as (d2 & y2 & D2 & N2 & G2 & Y2 & B2 & _).
    assert (y1 = c1) by congruence. assert (y2 = c2) by congruence. subst y1 y2.
    destruct B1 as (ks1 & ? & B1 & _). destruct B2 as (ks2 & ? & B2 & _).
    assert (ZZ1 : cmd_names (cm_rm m3) c1 = cmd_names (cm_rm m) d1) by (unfold cmd_names; rewrite Y1, B1; reflexivity).
    assert (ZZ2 : cmd_names (cm_rm m3) c2 = cmd_names (cm_rm m) d2) by (unfold cmd_names; rewrite Y2, B2; reflexivity).
    rewrite ZZ1, ZZ2. apply (DJ d1 d2 k D1 D2); [rewrite N1; apply IN; exact H1|rewrite N2; apply IN; exact H2|congruence].
Qed.
End Fallback.
