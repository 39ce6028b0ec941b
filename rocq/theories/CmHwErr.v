(** CmHwErr.v -- controllers using a failed hardware component are deactivated (C26). *)
From Coq Require Import Lia.
From Verif Require Import Base Events HwModel RmModel RmSys RmSpec RmProofs RmInv RmAvail ChainModel CmModel CmPrim ChainSpec CmTopo ChainMain CmInv CmSpec CmExcl CmReach CmSwitch CmOutcome CmLoad CmCache CmIntact UpdateSpec CmDeact CmErr.

Definition has (k : name) (h : hwc) : bool := mem k (h_cmd h) || mem k (h_state h).
Definition own (r : rm) (k : name) : option name := option_map h_name (find (has k) (rm_hw r)).
Lemma own_statics r k : own r k = option_map h_name (find (has k) (statics r)).
Proof.
  unfold own, statics. induction (rm_hw r) as [|h l IH]; [reflexivity|]. cbn [map find]. change (has k (set_lc h Unknown)) with (has k h).
  destruct (has k h); [reflexivity|exact IH].
Qed.
(** the interfaces a controller names *)
Definition named (c : ctrl) (k : name) : Prop := names_one (c_cmd c) k \/ names_one (c_state c) k.
Definition covered (r : rm) (c : ctrl) : Prop := forall k h, named c k -> own r k = Some h -> In (c_name c) (cached_controllers r h).

(** the cache only grows, the owners stay *)
Lemma prim_used e allow KS m m' : CI m -> prim e allow KS m m' ->
  (forall h, incl (cached_controllers (cm_rm m) h) (cached_controllers (cm_rm m') h)) /\ (forall k, own (cm_rm m') k = own (cm_rm m) k).
Proof.
  intros C P. split; [|intros k; rewrite !own_statics, (prim_statics _ _ _ _ _ (ci_r _ C) P); reflexivity].
  pose proof (ci_r _ C) as HR. pose proof (ci_n _ C) as HN.
  assert (US : forall r', rm_used r' = rm_used (cm_rm m) -> forall h, incl (cached_controllers (cm_rm m) h) (cached_controllers r' h)).
  { intros r' E h. unfold cached_controllers. rewrite E. apply incl_refl. }
  assert (EV : forall r', evolve (cm_rm m) r' -> forall h, incl (cached_controllers (cm_rm m) h) (cached_controllers r' h)).
  { intros r' E. apply US. apply (ev_used _ _ E). }
  assert (RL : forall ks r, rm_used r = rm_used (cm_rm m) -> rm_used (release_all r ks) = rm_used (cm_rm m)).
  { unfold release_all. induction ks as [|x ks IH]; intros r H; [exact H|]. apply IH. exact H. }
  assert (CA : forall ks r got r1 o, claim_all r ks got = Val (r1, o) -> rm_used r = rm_used (cm_rm m) -> rm_used r1 = rm_used (cm_rm m)).
  { induction ks as [|x ks IH]; intros r got r1 o; cbn [claim_all]; [intros [= <- _]; auto|].
    destruct (cmd_claimed r x) as [[]|]; [intros [= <- _] H; apply RL; exact H| |discriminate].
    unfold claim_cmd. destruct (cmd_available r x); [|intros [= <- _] H; apply RL; exact H].
    destruct (aget (rm_claimed r) x) as [[]|]; try (intros [= <- _] H; apply RL; exact H).
    destruct (mem x (rm_ckeys r)); [intros H K; eapply IH; [exact H|exact K]|intros [= <- _] H; apply RL; exact H]. }
  assert (AC : forall ks r, rm_used (fst (add_cmd_itfs ks r)) = rm_used r).
  { induction ks as [|x ks IH]; intros r; cbn [add_cmd_itfs]; [reflexivity|]. destruct (mem x (rm_ckeys r)); [reflexivity|]. rewrite IH. reflexivity. }
  assert (AS : forall ks r, rm_used (fst (add_state_itfs ks r)) = rm_used r).
  { induction ks as [|x ks IH]; intros r; cbn [add_state_itfs]; [reflexivity|]. destruct (mem x (rm_skeys r)); [apply IH|].
    specialize (IH (with_skeys r (rm_skeys r ++ [x]))). destruct (add_state_itfs ks _) as [r' l]. exact IH. }
  destruct P; try (apply US; reflexivity); cbn [set_rm cm_rm upd set_ctrls set_topo set_pend];
    try (apply US; repeat apply RL; try reflexivity; eapply CA; [eassumption|reflexivity]).
  - apply EV. apply rm_read_evolve. apply HR.
  - apply EV. apply rm_write_evolve. apply HR.
  - destruct (set_component_state_ok e (cm_rm m) h t (i_names _ HR)) as [[E _ _] _]. apply EV. exact E.
  - destruct (rm_prepare_evolve e allow (cm_rm m) a d (i_names _ HR)) as [E _]. apply EV. exact E.
  - destruct (rm_perform_evolve e allow (cm_rm m) a d (i_names _ HR)) as [E _]. apply EV. exact E.
  - apply US. unfold make_refs_available in *. destruct (aget _ n); [|discriminate]. match goal with H : Some _ = Some r |- _ => injection H as <- end. reflexivity.
  - apply US. unfold make_refs_unavailable in *. destruct (aget _ n); [|discriminate]. match goal with H : Some _ = Some r |- _ => injection H as <- end. reflexivity.
  - apply US. unfold make_exps_available in *. destruct (aget _ n); [|discriminate]. match goal with H : Some _ = Some r |- _ => injection H as <- end. reflexivity.
  - apply US. unfold make_exps_unavailable in *. destruct (aget _ n); [|discriminate]. match goal with H : Some _ = Some r |- _ => injection H as <- end. reflexivity.
  - apply grow_cache.
  - apply US. unfold import_refs. pose proof (AC (c_refs c) (cm_rm m)) as X. destruct (add_cmd_itfs _ _) as [r1 []]; exact X.
  - apply US. unfold import_exps. pose proof (AS (c_exps c) (cm_rm m)) as X. destruct (add_state_itfs _ _) as [r1 added]. exact X.
  - apply US. unfold remove_refs, remove_exps. destruct (aget (rm_exps (cm_rm m)) n); (destruct (aget _ n); reflexivity).
  - apply US. apply RL. reflexivity.
  - match goal with HB : build_topology m = Val m' , HO : reorder _ _ = Val m'' |- _ =>
      destruct (build_topology_spec m m' (proj2 HN) HB) as (s & rc & sc & Em & K & _); subst m';
      assert (H' : NI (set_topo m s rc sc)) by (split; [exact (proj1 HN)|]; intros x Hx; apply K; apply (proj2 HN); exact Hx);
      destruct (reorder_spec _ _ _ H' HO) as (names & L & _ & Em & _ & PM & _); subst m'' end. intros h. apply incl_refl.
Qed.
Lemma steps_used e allow KS m m' : CI m -> steps e allow KS m m' -> CI m' /\
  (forall h, incl (cached_controllers (cm_rm m) h) (cached_controllers (cm_rm m') h)) /\ (forall k, own (cm_rm m') k = own (cm_rm m) k).
Proof.
  intros C S. induction S as [|m1 m2 S IH P]; [split; [exact C|]; split; [intros h; apply incl_refl|reflexivity]|].
  destruct IH as (C1 & I1 & O1). destruct (prim_used _ _ _ _ _ C1 P) as [I2 O2]. split; [eapply prim_CI; eassumption|].
  split; [intros h; eapply incl_tran; [apply I1|apply I2]|intros k; rewrite O2; apply O1].
Qed.
Lemma covered_steps e allow KS m m' c c' : CI m -> steps e allow KS m m' -> same_const c c' -> covered (cm_rm m) c -> covered (cm_rm m') c'.
Proof.
  intros C S (N & _ & E1 & E2 & _) H k h Nk Ow. destruct (steps_used _ _ _ _ _ C S) as (_ & I & O). rewrite O in Ow. rewrite N. apply I.
  apply (H k h); [|exact Ow]. unfold named in *. rewrite E1, E2 in Nk. exact Nk.
Qed.

(** without configure, no controller becomes configured *)
Lemma prim_conf e allow KS m m' : ~ KS KConf -> NI m -> prim e allow KS m m' ->
  forall c', In c' (cm_ctrls m') -> conf c' -> exists c, In c (cm_ctrls m) /\ same_const c c' /\ conf c.
Proof.
  intros NU HN P. pose proof (proj1 HN) as ND.
  assert (ID : forall r, forall c', In c' (cm_ctrls (set_rm m r)) -> conf c' -> exists c, In c (cm_ctrls m) /\ same_const c c' /\ conf c).
  { intros r c' H A. exists c'. split; [exact H|]. split; [apply same_refl|exact A]. }
  assert (U : forall r n f, keeps f -> (forall c, find_ctrl m n = Some c -> conf (f c) -> conf c) ->
    forall c', In c' (cm_ctrls (upd (set_rm m r) n f)) -> conf c' -> exists c, In c (cm_ctrls m) /\ same_const c c' /\ conf c).
  { intros r n f K L c' H A. cbn [upd set_rm set_ctrls cm_ctrls] in H. apply In_upd in H. destruct H as [[H _]|(c & H & N & ->)].
    - exists c'. split; [exact H|]. split; [apply same_refl|exact A].
    - exists c. split; [exact H|]. split; [apply K|]. apply L; [|exact A]. rewrite <- N. exact (NoDup_find _ _ ND H). }
  destruct P; try contradiction; try (exact (ID _)); try (exact (ID (cm_rm m))).
  - apply (U (cm_rm m) n (upd_lc l) (keeps_lc l)). intros c0 F A. assert (c0 = c) by congruence. subst c0. unfold conf in A. cbn in A.
    destruct A as [A|A]; [|congruence]. destruct (H2 A) as [B|B]; [left; exact B|contradiction].
  - apply U; [apply keeps_stop|]. intros c0 F A. assert (c0 = c) by congruence. subst c0. unfold conf in A. cbn in A.
    destruct A as [A|A]; [|right; apply (H0 A)]. destruct (H1 A) as [B|B]; [left|right]; exact B.
  - apply U; [apply keeps_run|]. intros c0 F A. assert (c0 = c) by congruence. subst c0. left. assumption.
  - apply U; [apply keeps_loans|]. intros c0 F A. exact A.
  - apply U; [apply keeps_stop|]. intros c0 F A. assert (c0 = c) by congruence. subst c0. unfold conf in A. cbn in A.
    destruct A as [A|A]; [left; auto|congruence].
  - apply U; [apply keeps_loans|]. intros c0 F A. exact A.
  - apply (U (cm_rm m) n (upd_chained b) (keeps_chained b)). intros c0 F A. exact A.
  - intros c' Hc A. cbn [set_topo set_ctrls cm_ctrls] in Hc. apply in_app_iff in Hc. destruct Hc as [Hc|[<-|[]]]; [|destruct A; discriminate].
    exists c'. split; [exact Hc|split; [apply same_refl|exact A]].
  - intros c' Hc A. cbn [set_topo set_ctrls cm_ctrls] in Hc. apply filter_In in Hc. exists c'. split; [exact (proj1 Hc)|split; [apply same_refl|exact A]].
  - intros c' Hc A. destruct (reorder_members _ _ _ _ HN H0 H1 c' Hc) as (c & g & Hin & ->). exists c. split; [exact Hin|]. split; [repeat split|exact A].
  - intros c' Hc A. cbn [set_ctrls cm_ctrls] in Hc. apply in_map_iff in Hc. destruct Hc as (c & <- & Hin). exists c. split; [exact Hin|]. split; [repeat split|exact A].
Qed.
Lemma steps_conf e allow KS m m' : ~ KS KConf -> NI m -> steps e allow KS m m' ->
  forall c', In c' (cm_ctrls m') -> conf c' -> exists c, In c (cm_ctrls m) /\ same_const c c' /\ conf c.
Proof.
  intros NC HN S. assert (X : NI m' /\ forall c', In c' (cm_ctrls m') -> conf c' -> exists c, In c (cm_ctrls m) /\ same_const c c' /\ conf c).
  { induction S as [|m1 m2 S IH P]; [split; [exact HN|]; intros c' Hc A; exists c'; split; [exact Hc|split; [apply same_refl|exact A]]|].
    destruct IH as [N1 K1]. split; [eapply prim_NI; eassumption|]. intros c' Hc A.
    destruct (prim_conf _ _ _ _ _ NC N1 P c' Hc A) as (c1 & H1 & S1 & A1). destruct (K1 c1 H1 A1) as (c0 & H0 & S0 & A0).
    exists c0. split; [exact H0|]. split; [eapply same_trans; eassumption|exact A0]. }
  apply X.
Qed.

(** ---------------------------------------------------------------- the invariant *)
Definition waiting (m : cm) (n : name) : Prop := exists p, cm_pend m = Some p /\ p_done p = false /\ In n (p_act p).
Record J (m : cm) : Prop := {
  j_act : forall c, In c (cm_ctrls m) -> c_lc c = Active -> covered (cm_rm m) c;
  j_wait : forall c, In c (cm_ctrls m) -> conf c -> waiting m (c_name c) -> covered (cm_rm m) c }.

Lemma J_quiet e allow KS m m' : CI m -> ~ KS KUp -> steps e allow KS m m' -> (cm_pend m' = cm_pend m /\ ~ KS KConf \/ (forall n, ~ waiting m' n)) -> J m -> J m'.
Proof.
  intros C NU S PD [A B]. destruct (steps_na _ _ _ _ _ NU (ci_n _ C) S) as [_ K]. constructor.
  - intros c' Hc L. destruct (K c' Hc L) as (c & Ic & SC & Lc). eapply covered_steps; [exact C|exact S|exact SC|apply A; assumption].
  - intros c' Hc CF W. destruct PD as [[E NC]|N]; [|exfalso; exact (N _ W)].
    destruct (steps_conf _ _ _ _ _ NC (ci_n _ C) S c' Hc CF) as (c & Ic & SC & Cc). eapply covered_steps; [exact C|exact S|exact SC|].
    apply B; [exact Ic|exact Cc|]. destruct W as (p & E1 & E2). exists p. rewrite <- E. split; [exact E1|].
    destruct SC as (N & _). rewrite N in E2. exact E2.
Qed.

(** ---------------------------------------------------------------- requests put the controllers into the cache *)
Lemma cache_all c ks : forall r k h, In k ks -> own r k = Some h -> In c (cached_controllers (cache_controller r c ks) h).
Proof.
  unfold cache_controller. induction ks as [|x ks IH]; intros r k h []; intros Ow; cbn [fold_left].
  - subst x. apply (g_used _ _ (grow_cache c ks _) h). unfold cache_one. unfold own in Ow. change (fun h0 => mem k (h_cmd h0) || mem k (h_state h0)) with (has k).
    destruct (find (has k) (rm_hw r)) as [h0|]; [|discriminate]. injection Ow as <-. unfold cached_controllers. cbn [rm_used with_used].
    rewrite aget_aset, String.eqb_refl. apply In_add_item. left. reflexivity.
  - eapply IH; [exact H|]. unfold cache_one. destruct (find _ _); exact Ow.
Qed.
Lemma remove1_other x y l : In x (remove1 y l) -> In x l.
Proof. apply In_remove1_sub. Qed.
Lemma conflict_one_act strict w c w1 : conflict_one strict w c = inl w1 ->
  (forall n, n <> c_name c -> In n (w_act w1) -> In n (w_act w)) /\
  (c_lc c = Inactive -> In (c_name c) (w_act w1) ->
     forall k, In k (cmd_names (w_rm w) c ++ state_names (w_rm w) c) -> forall h, own (w_rm w) k = Some h -> In (c_name c) (cached_controllers (w_rm w1) h)).
Proof.
  unfold conflict_one. cbv zeta. set (n := c_name c).
  destruct ((mem n (w_to w) || mem n (w_from w)) && is_lc Active c && negb (mem n (w_deact w))) eqn:R.
  - (* restart: active *)
    assert (LA : c_lc c = Active). { apply andb_prop in R. destruct R as [R _]. apply andb_prop in R. destruct R as [_ R]. unfold is_lc in R. apply lc_eqb_eq in R. exact R. }
    intros H. split; [|intros L; congruence]. intros x Nx. revert H.
    repeat match goal with |- context [if ?b then _ else _] => destruct b end; intros [= <-]; cbn [sw_lists sw_itfs w_act];
      intros Hx; repeat (apply remove1_other in Hx); apply in_app_iff in Hx; (destruct Hx as [Hx|[Hx|[]]]; [exact Hx|congruence]).
  - intros H. split.
    + intros x Nx. revert H.
      repeat match goal with |- context [if ?b then _ else _] => destruct b end; intros [= <-]; cbn [sw_lists sw_itfs w_act];
      intros Hx; repeat (apply remove1_other in Hx); exact Hx.
    + intros L Hin k Hk h Ow. revert H Hin. assert (LA : is_lc Active c = false) by (unfold is_lc; rewrite L; reflexivity).
      assert (LI : is_lc Inactive c = true) by (unfold is_lc; rewrite L; reflexivity). rewrite LA, LI. cbn [negb andb].
      destruct (mem n (w_act w)) eqn:MA.
      * destruct (mem n (w_deact w)); cbn [andb]; [destruct strict; [discriminate|]|]; cbn [andb]; intros [= <-] _; cbn [sw_lists sw_itfs w_rm];
          eapply cache_all; eassumption.
      * destruct (mem n (w_deact w)); cbn [andb]; [destruct strict; [discriminate|]|]; cbn [andb]; intros [= <-] Hin; cbn [sw_lists sw_itfs w_act] in Hin;
          apply mem_In in Hin; congruence.
Qed.
Lemma conflict_loop_act strict : forall cs w w1, conflict_loop strict cs w = inl w1 -> NoDup (map c_name cs) ->
  forall c, In c cs -> c_lc c = Inactive -> In (c_name c) (w_act w1) ->
  forall k, named c k -> forall h, own (w_rm w) k = Some h -> In (c_name c) (cached_controllers (w_rm w1) h).
Proof.
  induction cs as [|c0 cs IH]; intros w w1 H ND c []; cbn [conflict_loop] in H.
  all: destruct (conflict_one strict w c0) as [w'|w'] eqn:E1; [|discriminate].
  all: inversion ND as [|? ? NI0 ND']; subst.
  all: destruct (conflict_one_act _ _ _ _ E1) as [O1 O2].
  - intros L Hin k Nk h Ow. pose proof (conflict_grow strict cs w') as G. rewrite H in G. cbn [either] in G. apply (g_used _ _ G).
    apply (O2 L) with (k := k); [|apply in_app_iff; destruct Nk as [(ks & E & I)|(ks & E & I)]; [left|right]; unfold cmd_names, state_names; rewrite E; exact I|exact Ow].
    assert (P : forall l u v, conflict_loop strict l u = inl v -> ~ In (c_name c) (map c_name l) -> In (c_name c) (w_act v) -> In (c_name c) (w_act u)).
    { clear. induction l as [|x l IH]; intros u v H N Hi; cbn [conflict_loop] in H; [injection H as <-; exact Hi|].
      destruct (conflict_one strict u x) as [u'|u'] eqn:E; [|discriminate]. destruct (conflict_one_act _ _ _ _ E) as [O _].
      apply O; [intros C; apply N; left; congruence|]. apply (IH u' v H); [intros C; apply N; right; exact C|exact Hi]. }
    eapply P; eassumption.
  - intros L Hin k Nk h Ow. apply (IH w' w1 H ND' c H0 L Hin k Nk h).
    pose proof (conflict_grow strict [c0] w) as G. cbn [conflict_loop] in G. rewrite E1 in G. cbn [either] in G. unfold own in *. rewrite (g_hw _ _ G). exact Ow.
Qed.

Lemma request_covered e allow m a d strict asap m' p : NI m -> switch_request e allow m a d strict asap = Val (m', SwPending) -> cm_pend m' = Some p ->
  forall c, In c (cm_ctrls m) -> c_lc c = Inactive -> In (c_name c) (p_act p) -> covered (cm_rm m') c.
Proof.
  intros HN H. unfold switch_request in H.
  destruct (list_controllers _ strict d [] true) as [d'|]; [|discriminate].
  destruct (list_controllers _ strict a [] true) as [a'|]; [|discriminate].
  apply bind_val in H. destruct H as (w1 & H1 & H). apply propagate_same in H1. destruct H1 as (_ & P3 & _). cbn [w_rm] in P3.
  apply bind_val in H. destruct H as (x & H2 & H). apply act_loop_grow in H2. rewrite P3 in H2.
  destruct x as [w2|w2]; cbn [either] in H2; [|discriminate].
  destruct (deact_loop m strict [] (w_deact w2) w2) as [w3|] eqn:ED; [|discriminate].
  destruct (sw_empty w3); [discriminate|]. destruct (conflict_loop strict (cm_ctrls m) w3) as [w4|w4] eqn:EC; [|discriminate].
  destruct (sw_empty w4); [discriminate|]. apply bind_val in H. destruct H as (b & _ & H). destruct (negb b); [discriminate|].
  pose proof (grow_prepare e allow (w_rm w4) (w_start w4) (w_stop w4)) as G5. destruct (rm_prepare _ _ _ _ _) as [r5 ok]. cbn [fst] in G5.
  destruct (negb ok); [discriminate|]. injection H as <-. cbn [set_pend cm_pend]. intros [= <-] c Hc L Hin k h Nk Ow. cbn [p_act set_pend set_rm cm_rm] in *.
  apply (g_used _ _ G5). pose proof (conflict_grow strict (cm_ctrls m) w3) as G4. rewrite EC in G4. cbn [either] in G4.
  eapply (conflict_loop_act strict _ _ _ EC (proj1 HN) c Hc L Hin k Nk h). unfold own in *. rewrite <- (g_hw _ _ G4), <- (g_hw _ _ G5). exact Ow.
Qed.

Definition other_pk (k : pk) : Prop := k <> KList.
(** ---------------------------------------------------------------- every operation *)
Definition NF (m : cm) : Prop := forall c, In c (cm_ctrls m) -> c_fallback c = [].
Lemma fbs_none m ds : NF m -> fbs_of m ds = [].
Proof.
  intros H. unfold fbs_of. induction ds as [|d ds IH]; [reflexivity|]. cbn [flat_map]. rewrite IH, app_nil_r.
  destruct (find_ctrl m d) as [c|] eqn:F; [|reflexivity]. apply H. eapply find_in_In. exact F.
Qed.
Lemma update_quiet e allow KS m m' o : NI m -> NF m -> cstep e allow m CUpdate = Val (m', o) -> steps e allow KS m m'.
Proof.
  intros HN H S. destruct (taken_list _ _ _ _ _ HN S) as (m1 & ds & x & _ & SM & _ & _ & K).
  destruct ds as [|d ds]; [subst m'; apply SM|]. cbv zeta in K. rewrite (fbs_none m _ H) in K. change (add_items [] []) with (@nil name) in K. cbv iota in K. subst m'.
  eapply steps_trans; [apply SM|]. eapply steps_trans; [apply prep_perf_steps|apply (deactivate_steps e allow KS)].
Qed.
Lemma NF_kept m m' : kept m m' -> NF m -> NF m'.
Proof. intros K H c' Hc. destruct (K c' Hc) as (c & Ic & (_ & _ & _ & _ & E & _)). rewrite E. apply H. exact Ic. Qed.

(** a performed switch activates only what was requested *)
Lemma manage_active e allow m p m' : NI m -> manage_switch e allow m p = Val m' ->
  forall c', In c' (cm_ctrls m') -> c_lc c' = Active ->
  exists c, In c (cm_ctrls m) /\ same_const c c' /\ (c_lc c = Active \/ conf c /\ In (c_name c) (p_act p)).
Proof.
  intros HN H c' Hc L. unfold manage_switch in H. assert (K : forall KS, prim e allow KS m (set_rm m (fst (rm_perform e allow (cm_rm m) (p_start p) (p_stop p))))) by (intros KS; apply p_perform).
  destruct (rm_perform e allow (cm_rm m) (p_start p) (p_stop p)) as [r1 ok]. cbn [fst] in K.
  destruct (negb ok). { injection H as <-. exists c'. split; [exact Hc|]. split; [apply same_refl|left; exact L]. }
  match type of H with activate_controllers _ _ ?x _ _ _ = _ => set (m4 := x) in * end.
  assert (S4 : forall KS, steps e allow KS m m4).
  { intros KS. unfold m4. eapply steps_trans; [apply steps_prim; exact (K KS)|]. eapply steps_trans; [apply deactivate_steps|].
    eapply steps_trans; apply switch_chained_steps. }
  destruct (steps_na e allow no_up m m4 ltac:(intros C; apply C; reflexivity) HN (S4 no_up)) as [N4 A4].
  assert (SA : steps e allow no_conf m4 m') by (eapply (activate_steps e allow no_conf); [discriminate..|exact H]).
  assert (NI' : NI m'). { eapply (steps_inv e allow no_conf NI); [|exact N4|exact SA]. intros x y Hx P. eapply prim_NI; eassumption. }
  destruct (steps_conf e allow no_conf m4 m' ltac:(intros C; apply C; reflexivity) N4 SA c' Hc (or_intror L)) as (c4 & I4 & SC4 & CF4).
  destruct (in_dec string_dec (c_name c') (p_act p)) as [Ia|Na].
  - destruct (steps_conf e allow no_conf m m4 ltac:(intros C; apply C; reflexivity) HN (S4 no_conf) c4 I4 CF4) as (c & Ic & SC & CF).
    exists c. split; [exact Ic|]. split; [eapply same_trans; eassumption|]. right. split; [exact CF|].
    destruct SC as (E1 & _). destruct SC4 as (E2 & _). rewrite <- E1, <- E2. exact Ia.
  - assert (X : state_in m4 (c_name c') = Some Active).
    { rewrite <- (sf_activate _ _ (p_act p) _ _ _ _ _ (incl_refl _) H (c_name c') Na). rewrite (state_of_In m' c' (proj1 NI') Hc), L. reflexivity. }
    assert (E2 : c_name c' = c_name c4) by apply SC4. rewrite E2, (state_of_In m4 c4 (proj1 N4) I4) in X. injection X as X.
    destruct (A4 c4 I4 X) as (c & Ic & SC & Lc). exists c. split; [exact Ic|]. split; [eapply same_trans; eassumption|left; exact Lc].
Qed.

Lemma not_kup : ~ no_up KUp. Proof. intros C. apply C. reflexivity. Qed.
Lemma pend_none_quiet m : cm_pend m = None -> forall n, ~ waiting m n.
Proof. intros E n (p & H & _). congruence. Qed.
Definition no_pend (k : pk) : Prop := k <> KUp /\ k <> KPend.
Lemma step_J e allow m o m' out : CI m -> NF m -> J m -> cstep e allow m o = Val (m', out) -> J m'.
Proof.
  intros C HF HJ HS. pose proof (ci_n _ C) as HN. pose proof (proj1 HN) as ND.
  set (m0 := emit m EvOp).
  assert (S0 : forall KS, steps e allow KS m m0) by (intros KS; apply emit_step; reflexivity).
  assert (J0 : J m0).
  { eapply (J_quiet e allow (fun _ => False)); [exact C|auto|apply S0|left; split; [reflexivity|auto]|exact HJ]. }
  assert (C0 : CI m0) by (eapply steps_CI; [exact C|apply (S0 no_up)]).
  assert (QN : forall KS, ~ KS KUp -> ~ KS KPend -> cm_pend m0 = None -> steps e allow KS m0 m' -> J m').
  { intros KS NU NP E S. eapply (J_quiet e allow KS); [exact C0|exact NU|exact S| |exact J0]. right. apply pend_none_quiet.
    rewrite (steps_pend _ _ _ _ _ NP S). exact E. }
  assert (NP : ~ no_pend KUp /\ ~ no_pend KPend). { split; intros [A B]; [apply A|apply B]; reflexivity. }
  assert (SV : forall x, (cm_pend m0 = None -> x = Val (m', out) -> J m') -> serviced m0 x = Val (m', out) -> J m').
  { intros x Hx H. unfold serviced in H. destruct (cm_pend m0) eqn:E; [injection H as <- _; exact J0|apply Hx; [reflexivity|exact H]]. }
  destruct o; unfold cstep in HS; fold m0 in HS.
  - apply SV in HS; [exact HS|]. intros E H. unfold to_out in H. injection H as <- _. apply (QN no_pend); try apply NP; [exact E|]. apply load_steps. split; discriminate.
  - apply SV in HS; [exact HS|]. intros E H. unfold to_out in H. injection H as <- _. apply (QN no_pend); try apply NP; [exact E|]. apply unload_steps; try (split; discriminate). exact ND.
  - apply SV in HS; [exact HS|]. intros E H. unfold to_out in H. injection H as <- _. apply (QN no_pend); try apply NP; [exact E|]. apply cleanup_controller_steps. split; discriminate.
  - apply SV in HS; [exact HS|]. intros E H. apply bind_val in H. destruct H as ([mm b] & H & E2). unfold to_out in E2. injection E2 as -> _.
    apply (QN no_pend); try apply NP; [exact E|]. eapply configure_steps; [split; discriminate..|exact H].
  - apply SV in HS; [exact HS|]. intros E H. apply bind_val in H. destruct H as ([mm b] & H & E2). injection E2 as -> _.
    pose proof H as HR. apply (request_steps e allow no_up) in H. destruct H as (r & S & [[-> _]|(p & -> & ->)]).
    + eapply (J_quiet e allow no_up); [exact C0|exact not_kup|exact S|right; apply pend_none_quiet; exact E|exact J0].
    + constructor.
      * intros c Hc L. destruct J0 as [A _]. specialize (A c Hc L). change (cm_rm (set_pend (set_rm m0 r) (Some p))) with (cm_rm (set_rm m0 r)).
        eapply covered_steps; [exact C0|exact S|apply same_refl|exact A].
      * intros c Hc CF (q & Eq & D & Ip). cbn [set_pend cm_pend] in Eq. injection Eq as <-. destruct CF as [L|L].
        -- exact (request_covered _ _ _ _ _ _ _ _ _ (ci_n _ C0) HR eq_refl c Hc L Ip).
        -- destruct J0 as [A _]. specialize (A c Hc L). change (cm_rm (set_pend (set_rm m0 r) (Some p))) with (cm_rm (set_rm m0 r)).
           eapply covered_steps; [exact C0|exact S|apply same_refl|exact A].
  - destruct (cm_pend m0) as [p|] eqn:E; [|injection HS as <- _; exact J0].
    destruct (p_done p) eqn:D; [injection HS as <- _; exact J0|].
    apply bind_val in HS. destruct HS as (m1 & H & H1). injection H1 as <- _.
    assert (S1 : steps e allow any_kind m0 m1) by (eapply (manage_switch_steps e allow any_kind); [exact I..|exact H]).
    constructor; [|intros c _ _ (q & Eq & Dq & _); cbn [set_pend cm_pend] in Eq; injection Eq as <-; discriminate].
    intros c' Hc L. cbn [set_pend cm_rm cm_ctrls] in *.
    destruct (manage_active _ _ _ _ _ (ci_n _ C0) H c' Hc L) as (c & Ic & SC & K). eapply covered_steps; [exact C0|exact S1|exact SC|].
    destruct J0 as [A B]. destruct K as [K|[K1 K2]]; [apply A; assumption|]. apply B; [exact Ic|exact K1|]. exists p. auto.
  - destruct (cm_pend m0) as [p|] eqn:E; [|injection HS as <- _; exact J0].
    destruct (p_done p) eqn:D; injection HS as <- _; [exact J0|].
    eapply (J_quiet e allow no_up); [exact C0|exact not_kup|apply steps_prim; apply p_pend; discriminate|right; apply pend_none_quiet; reflexivity|exact J0].
  - destruct (cm_pend m0) as [p|] eqn:E; [|injection HS as <- _; exact J0].
    destruct (p_done p) eqn:D; [|injection HS as <- _; exact J0]. unfold to_out in HS. injection HS as <- _.
    eapply (J_quiet e allow no_up); [exact C0|exact not_kup|exact (evaluate_steps e allow no_up ltac:(discriminate) m0 p)|right; apply pend_none_quiet; reflexivity|exact J0].
  - injection HS as <- _.
    eapply (J_quiet e allow (fun k => k = KHw)); [exact C0|discriminate|apply read_steps; reflexivity| |exact J0]. left. split; [|discriminate].
    apply (steps_pend e allow (fun k => k = KHw)); [discriminate|]. apply read_steps; reflexivity.
  - assert (HS' : cstep e allow m CUpdate = Val (m', out)) by exact HS.
    pose proof (update_quiet e allow (fun _ => False) m m' out HN HF HS') as S.
    eapply (J_quiet e allow (fun _ => False)); [exact C|auto|exact S| |exact HJ]. left. split; [|auto]. apply (steps_pend e allow (fun _ => False)); [auto|exact S].
  - injection HS as <- _.
    eapply (J_quiet e allow (fun k => k = KHw)); [exact C0|discriminate|apply write_steps; reflexivity| |exact J0]. left. split; [|discriminate].
    apply (steps_pend e allow (fun k => k = KHw)); [discriminate|]. apply write_steps; reflexivity.
  - pose proof (p_sethw e allow (fun k => k = KHw) m0 h target) as K. destruct (set_component_state e (cm_rm m0) h target) as [r1 ok]. injection HS as <- _.
    eapply (J_quiet e allow (fun k => k = KHw)); [exact C0|discriminate|apply steps_prim; apply K; reflexivity|left; split; [reflexivity|discriminate]|exact J0].
Qed.

(** fallbacks come with loading only *)
Lemma frame_kept n m m' : NoDup (map c_name (cm_ctrls m)) -> frame n m m' -> kept m m'.
Proof.
  intros ND FR c' Hc. assert (ND' : NoDup (map c_name (cm_ctrls m'))) by (rewrite (fr_names _ _ _ FR); exact ND).
  pose proof (NoDup_find _ _ ND' Hc) as F. destruct (string_dec (c_name c') n) as [E|Ne].
  - rewrite E in F. destruct (fr_const _ _ _ FR c' F) as (c & Fc & S). exists c. split; [eapply find_in_In; exact Fc|exact S].
  - pose proof (fr_other _ _ _ FR _ Ne) as X. unfold find_ctrl in X. rewrite F in X. symmetry in X. exists c'. split; [eapply find_in_In; exact X|apply same_refl].
Qed.
Lemma step_kept e allow m o m' out : NI m -> cstep e allow m o = Val (m', out) ->
  forall c', In c' (cm_ctrls m') -> (exists c, In c (cm_ctrls m) /\ same_const c c') \/ exists c ok, o = CLoad c ok /\ c' = fresh c.
Proof.
  intros HN HS. pose proof (proj1 HN) as ND.
  assert (L : kept m m' -> forall c', In c' (cm_ctrls m') -> (exists c, In c (cm_ctrls m) /\ same_const c c') \/ exists c ok, o = CLoad c ok /\ c' = fresh c).
  { intros K c' Hc. left. exact (K c' Hc). }
  set (m0 := emit m EvOp) in *. assert (S0 : forall KS, steps e allow KS m m0) by (intros KS; apply emit_step; reflexivity).
  assert (SV : forall x, (x = Val (m', out) -> kept m m') -> serviced m0 x = Val (m', out) -> kept m m').
  { intros x Hx H. unfold serviced in H. destruct (cm_pend m0); [injection H as <- _; exact (kept_refl m)|apply Hx; exact H]. }
  destruct o; unfold cstep in HS; fold m0 in HS.
  - intros c' Hc. unfold serviced in HS. destruct (cm_pend m0); [injection HS as <- _; apply L; [exact (kept_refl m)|exact Hc]|].
    unfold to_out in HS. injection HS as <- _. unfold load_controller in Hc. destruct (find_ctrl m0 (c_name c)) eqn:F; [left; exists c'; split; [exact Hc|apply same_refl]|].
    destruct init_ok; [|left; exists c'; split; [exact Hc|apply same_refl]]. cbn [fst set_topo set_ctrls cm_ctrls] in Hc.
    apply in_app_iff in Hc. destruct Hc as [Hc|[<-|[]]]; [left; exists c'; split; [exact Hc|apply same_refl]|right; exists c, true; auto].
  - apply L. apply SV in HS; [exact HS|]. intros H. unfold to_out in H. injection H as <- _.
    destruct (unload_frame e m0 n ND) as [U1 U2]. destruct (snd (unload_controller e m0 n)).
    + destruct (U2 eq_refl) as (CT & _). intros c' Hc. rewrite CT in Hc. apply filter_In in Hc. exists c'. split; [exact (proj1 Hc)|apply same_refl].
    + exact (frame_kept n m0 _ ND (U1 eq_refl)).
  - apply L. apply SV in HS; [exact HS|]. intros H. unfold to_out in H. injection H as <- _. exact (frame_kept n m0 _ ND (frame_cleanup e m0 n)).
  - apply L. apply SV in HS; [exact HS|]. intros H. apply bind_val in H. destruct H as ([mm b] & H & E). unfold to_out in E. injection E as -> _.
    destruct b; [|destruct (configure_false_frame _ _ _ _ _ H) as [FR _]; exact (frame_kept n m0 _ ND FR)].
    destruct (configure_split e true any_kind _ _ _ _ I I H) as (m3 & m4 & S3 & FR & HL & HB & HR).
    assert (N3 : NI m3) by (eapply NI_same; [apply (fr_names _ _ _ FR)|apply (fr_spec _ _ _ FR)|exact HN]).
    eapply kept_trans; [exact (frame_kept n m0 m3 ND FR)|]. intros c' Hc.
    destruct (reorder_members m3 m4 order m' N3 HB HR c' Hc) as (c & g & Ic & ->). exists c. split; [exact Ic|]. repeat split.
  - apply L. apply SV in HS; [exact HS|]. intros H. apply bind_val in H. destruct H as ([mm b] & H & E). injection E as -> _.
    apply (request_steps e allow other_pk) in H. destruct H as (r & S & [[-> _]|(p & -> & _)]); exact (kept_refl m).
  - apply L. destruct (cm_pend m0) as [p|]; [|injection HS as <- _; exact (kept_refl m)].
    destruct (p_done p); [injection HS as <- _; exact (kept_refl m)|]. apply bind_val in HS. destruct HS as (m1 & H & H1). injection H1 as <- _.
    apply (manage_switch_steps e allow other_pk) in H; try discriminate.
    intros c' Hc. cbn [set_pend cm_ctrls] in Hc. exact (steps_kept e allow other_pk m0 m1 ltac:(intros C; apply C; reflexivity) H c' Hc).
  - apply L. destruct (cm_pend m0) as [p|]; [|injection HS as <- _; exact (kept_refl m)]. destruct (p_done p); injection HS as <- _; exact (kept_refl m).
  - apply L. destruct (cm_pend m0) as [p|]; [|injection HS as <- _; exact (kept_refl m)]. destruct (p_done p); [|injection HS as <- _; exact (kept_refl m)].
    unfold to_out in HS. injection HS as <- _. apply (steps_kept e allow other_pk m0); [intros C; apply C; reflexivity|exact (evaluate_steps e allow other_pk ltac:(discriminate) m0 p)].
  - apply L. injection HS as <- _. apply (steps_kept e allow other_pk m0); [intros C; apply C; reflexivity|apply read_steps; discriminate].
  - apply L. apply bind_val in HS. destruct HS as (m1 & H & H1). injection H1 as <- _.
    apply (steps_kept e allow other_pk m0); [intros C; apply C; reflexivity|]. eapply (update_steps e allow other_pk); [discriminate..|exact H].
  - apply L. injection HS as <- _. apply (steps_kept e allow other_pk m0); [intros C; apply C; reflexivity|apply write_steps; discriminate].
  - apply L. destruct (set_component_state e (cm_rm m0) h target) as [r1 ok]. injection HS as <- _. exact (kept_refl m).
Qed.

Lemma run_J e allow : forall ops m m', without_fallbacks ops -> CI m -> NF m -> J m -> crun e allow m ops = Val m' -> J m'.
Proof.
  induction ops as [|o ops IH]; intros m m' W C F HJ H; unfold crun in H; cbn [rfold] in H; [injection H as <-; exact HJ|].
  apply bind_val in H. destruct H as (m1 & H1 & H). apply bind_val in H1. destruct H1 as ([m2 out] & H1 & E). injection E as ->.
  apply (IH m1 m'); [intros c ok Hc; apply (W c ok); right; exact Hc| | | |exact H].
  - eapply steps_CI; [exact C|]. eapply (cstep_steps e allow any_kind); [exact I..|exact (proj1 (ci_n _ C))|exact H1].
  - intros c' Hc. destruct (step_kept _ _ _ _ _ _ (ci_n _ C) H1 c' Hc) as [(c & Ic & (_ & _ & _ & _ & E & _))|(c & ok & -> & ->)].
    + rewrite E. apply F. exact Ic.
    + apply (W c ok). left. reflexivity.
  - eapply step_J; eassumption.
Qed.
Lemma reach_J e allow hs ops m : wf_hw hs -> without_fallbacks ops -> crun e allow (cm_start hs) ops = Val m -> J m.
Proof.
  intros W F H. eapply run_J; [exact F|apply start_CI; exact W|intros c []| |exact H]. constructor; intros c [].
Qed.

(** ---------------------------------------------------------------- the error paths of read and write *)
Lemma covered_uses m c h : sole_owners m -> In h (rm_hw (cm_rm m)) -> covered (cm_rm m) c -> uses c h -> In (c_name c) (cached_controllers (cm_rm m) (h_name h)).
Proof.
  intros SO Hh CV (k & Ow & Nk). apply (CV k (h_name h)); [exact Nk|].
  assert (HK : forall x, has k x = true <-> owns x k). { intros x. unfold has, owns. rewrite orb_true_iff, !mem_In. tauto. }
  unfold own. destruct (find (has k) (rm_hw (cm_rm m))) as [h0|] eqn:F.
  - apply find_some in F. destruct F as [F1 F2]. cbn. f_equal. apply (SO h0 h k); [exact F1|exact Hh|apply HK; exact F2|exact Ow].
  - exfalso. pose proof (find_none _ _ F h Hh) as X. apply HK in Ow. congruence.
Qed.

Section HwErr.
Variables (e : env) (allow : bool) (hs : list hwc) (ops : list cop) (m m' : cm) (out : cout) (c : ctrl) (h : hwc).
Hypothesis (W : wf_hw hs) (R : crun e allow (cm_start hs) ops = Val m) (NFB : without_fallbacks ops) (SO : sole_owners m).
Hypothesis (Hc : In c (cm_ctrls m)) (Hh : In h (rm_hw (cm_rm m))) (U : uses c h) (D : deactivates e (c_name c)).

Lemma cached_now r1 : rm_used r1 = rm_used (cm_rm m) -> c_lc c = Active -> In (c_name c) (cached_controllers r1 (h_name h)).
Proof using W R NFB SO Hc Hh U.
  intros E L. unfold cached_controllers. rewrite E. fold (cached_controllers (cm_rm m) (h_name h)).
  apply (covered_uses m); [exact SO|exact Hh| |exact U]. apply (j_act _ (reach_J _ _ _ _ _ W NFB R)); assumption.
Qed.
Lemma main_read_error : rw_result (read_report e m) <> ROk -> In (h_name h) (rw_failed (read_report e m)) ->
  cstep e allow m CRead = Val (m', out) -> state_in m' (c_name c) <> Some Active.
Proof using W R NFB SO Hc Hh U D.
  unfold read_report, cstep. intros NR FH [= <- _]. pose proof (reach_CI _ _ _ _ _ W R) as CC.
  set (m0 := emit m EvOp) in *. assert (C0 : CI m0). { eapply steps_CI; [exact CC|]. apply (emit_step e allow any_kind m EvOp). reflexivity. }
  unfold cm_read. pose proof (rm_read_evolve e (cm_rm m0) (i_names _ (ci_r _ C0))) as EV.
  destruct (rm_read e (cm_rm m0)) as [r1 st]. cbn [fst snd] in *.
  destruct (rtype_eqb (rw_result st) ROk) eqn:ER; [destruct (rw_result st); try discriminate; contradiction|].
  apply deactivate_off; [exact D|].
  destruct (lc_eqb (c_lc c) Active) eqn:L.
  - left. apply in_flat_map. exists (h_name h). split; [exact FH|]. apply cached_now; [rewrite (ev_used _ _ EV); reflexivity|apply lc_eqb_eq; exact L].
  - right. unfold mode_change, prep_perf. destruct (rm_prepare _ _ _ _ _) as [r2 ok]. unfold state_in, find_ctrl. cbn [set_rm cm_ctrls].
    change (cm_ctrls m0) with (cm_ctrls m). rewrite (NoDup_find _ _ (proj1 (ci_n _ CC)) Hc). cbn. intros [= X]. rewrite X in L. discriminate.
Qed.
Lemma main_write_error : In (h_name h) (rw_failed (write_report e m)) ->
  rw_result (write_report e m) = RError \/ rw_result (write_report e m) = RDeactivate /\ (exists k, commands_by_name c k) ->
  cstep e allow m CWrite = Val (m', out) -> state_in m' (c_name c) <> Some Active.
Proof using W R NFB SO Hc Hh U D.
  unfold write_report, cstep. intros FH NR [= <- _]. pose proof (reach_CI _ _ _ _ _ W R) as CC.
  set (m0 := emit m EvOp) in *. assert (C0 : CI m0). { eapply steps_CI; [exact CC|]. apply (emit_step e allow any_kind m EvOp). reflexivity. }
  unfold cm_write. pose proof (rm_write_evolve e (cm_rm m0) (i_names _ (ci_r _ C0))) as EV.
  destruct (rm_write e (cm_rm m0)) as [r1 st]. cbn [fst snd] in *.
  assert (IN : c_lc c = Active -> In (c_name c) (flat_map (cached_controllers r1) (rw_failed st))).
  { intros L. apply in_flat_map. exists (h_name h). split; [exact FH|]. apply cached_now; [rewrite (ev_used _ _ EV); reflexivity|exact L]. }
  pose proof (NoDup_find _ _ (proj1 (ci_n _ CC)) Hc) as FC.
  assert (OFF : c_lc c <> Active -> forall a b, state_in (mode_change e allow (set_rm m0 r1) a b) (c_name c) <> Some Active).
  { intros L a b. unfold mode_change, prep_perf. destruct (rm_prepare _ _ _ _ _) as [r2 ok]. unfold state_in, find_ctrl. cbn [set_rm cm_ctrls].
    change (cm_ctrls m0) with (cm_ctrls m). rewrite FC. cbn. intros [= X]. contradiction. }
  assert (DEC : c_lc c = Active \/ c_lc c <> Active). { destruct (lc_eqb (c_lc c) Active) eqn:L; [left; apply lc_eqb_eq; exact L|right; intros X; rewrite X in L; discriminate]. }
  destruct NR as [NR|[NR (k & ks & EK & IK)]]; rewrite NR; (apply deactivate_off; [exact D|]); destruct DEC as [L|L]; try (right; apply OFF; exact L); left.
  - apply IN. exact L.
  - apply filter_In. split; [apply IN; exact L|]. unfold find_ctrl. cbn [set_rm cm_ctrls]. change (cm_ctrls m0) with (cm_ctrls m). rewrite FC.
    unfold extract_cmd, is_lc. rewrite L. cbn [lc_eqb orb]. unfold cmd_names. rewrite EK. cbn [cfg_names]. destruct ks; [destruct IK|reflexivity].
Qed.
End HwErr.
