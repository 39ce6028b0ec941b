(** CmExport3.v -- loading, configuring, cleaning up and unloading: what they do to the exports of the
    controller they name and of all the others. *)
From Coq Require Import Lia Permutation.
From Verif Require Import Base Events HwModel RmModel RmSys RmSpec RmSpec2 HwProofs RmProofs RmInv RmAvail RmMode RmExact ChainModel CmModel CmPrim ChainSpec CmTopo CmInv CmSpec CmReach CmSwitch CmOutcome CmLoad CmIntact FollowSpec UpdateSpec CmDeact CmErr CmFallback LifeSpec CmLife CmRefs DoneSpec CmDone CmCycle ExportSpec CmExport CmExport2.
Open Scope list_scope.

(** nothing of the registration and availability tables changes *)
Definition quiet_rm (r r' : rm) : Prop := rm_refs r' = rm_refs r /\ rm_exps r' = rm_exps r /\ rm_avc r' = rm_avc r /\ rm_avs r' = rm_avs r.
Lemma q_refl r : quiet_rm r r. Proof. unfold quiet_rm. auto. Qed.
Lemma q_trans a b c : quiet_rm a b -> quiet_rm b c -> quiet_rm a c.
Proof. unfold quiet_rm. intros (A & B & C & D) (A' & B' & C' & D'). repeat split; congruence. Qed.
Lemma q_release ks : forall r, quiet_rm r (release_all r ks).
Proof. unfold release_all. induction ks as [|k ks IH]; intros r; cbn [fold_left]; [apply q_refl|]. eapply q_trans; [|apply IH]. unfold quiet_rm. unfold release_cmd. cbn. auto. Qed.
Lemma q_release_itfs m n : quiet_rm (cm_rm m) (cm_rm (release_itfs m n)).
Proof. unfold release_itfs. destruct (find_ctrl m n); [|apply q_refl]. apply q_release. Qed.
Lemma q_emit m ev : quiet_rm (cm_rm m) (cm_rm (emit m ev)). Proof. unfold quiet_rm. cbn. auto. Qed.
Lemma q_error e m n : quiet_rm (cm_rm m) (cm_rm (node_error e m n)).
Proof. unfold node_error. cbv zeta. cbn [upd set_ctrls cm_rm]. eapply q_trans; [|apply q_release_itfs]. apply q_emit. Qed.
Lemma q_transition e m n cb from s f : quiet_rm (cm_rm m) (cm_rm (node_transition e m n cb from s f)).
Proof.
  unfold node_transition. destruct (find_ctrl m n) as [c|]; [|apply q_refl]. destruct (from (c_lc c)); [|apply q_refl]. cbn [ctrl_call].
  destruct (e_ctrl e _ n cb); try (cbn [upd set_ctrls cm_rm]; apply q_emit); (eapply q_trans; [|apply q_error]; apply q_emit).
Qed.
Lemma q_shutdown e m n : quiet_rm (cm_rm m) (cm_rm (node_shutdown e m n)).
Proof.
  unfold node_shutdown. destruct (find_ctrl m n) as [c|]; [|apply q_refl]. destruct (c_lc c); try apply q_refl; cbn [ctrl_call];
    destruct (e_ctrl e _ n _); cbn [upd set_ctrls cm_rm]; try (eapply q_trans; [|apply q_release_itfs]; apply q_emit);
    (eapply q_trans; [|apply q_error]; eapply q_trans; [|apply q_release_itfs]; apply q_emit).
Qed.
Lemma q_chained e m n b : quiet_rm (cm_rm m) (cm_rm (set_chained e m n b)).
Proof.
  unfold set_chained. destruct (find_ctrl m n) as [c|]; [|apply q_refl]. destruct (_ && _); [|apply q_refl]. cbv zeta. destruct (e_set_chained _ _ _ _); apply q_emit.
Qed.
Lemma q_topo m m1 order m' : build_topology m = Val m1 -> reorder m1 order = Val m' -> cm_rm m' = cm_rm m.
Proof.
  unfold build_topology, reorder. intros H H'. apply bind_val in H. destruct H as ([[s rc] sc] & _ & H). injection H as <-.
  apply bind_val in H'. destruct H' as (ns & _ & H'). injection H' as <-. reflexivity.
Qed.
Lemma add_cmd_av ks : forall r, rm_avc (fst (add_cmd_itfs ks r)) = rm_avc r /\ rm_avs (fst (add_cmd_itfs ks r)) = rm_avs r.
Proof. induction ks as [|k ks IH]; intros r; cbn [add_cmd_itfs]; [auto|]. destruct (mem k (rm_ckeys r)); [auto|]. destruct (IH (with_cmap r (rm_ckeys r ++ [k]) (match aget (rm_claimed r) k with Some _ => rm_claimed r | None => aset (rm_claimed r) k false end))) as [A B]. split; [exact A|exact B]. Qed.
Lemma add_state_av ks : forall r, rm_avc (fst (add_state_itfs ks r)) = rm_avc r /\ rm_avs (fst (add_state_itfs ks r)) = rm_avs r /\ incl (snd (add_state_itfs ks r)) ks.
Proof.
  induction ks as [|k ks IH]; intros r; cbn [add_state_itfs]; [repeat split; auto; intros x []|]. destruct (mem k (rm_skeys r)).
  - destruct (IH r) as (A & B & C). repeat split; auto. intros x I. right. exact (C x I).
  - specialize (IH (with_skeys r (rm_skeys r ++ [k]))). destruct (add_state_itfs ks _) as [r1 ad]. cbn [fst snd] in *. destruct IH as (A & B & C). repeat split; [exact A|exact B|].
    intros x [<-|I]; [left; reflexivity|right; exact (C x I)].
Qed.

(** the registration of controller [n] and the availability of its interfaces survive *)
Section Other.
Variables (e : env) (allow : bool) (n : name).
Record SK (r r' : rm) : Prop := { sk_r : aget (rm_refs r') n = aget (rm_refs r) n; sk_e : aget (rm_exps r') n = aget (rm_exps r) n; sk_av : kept_av n r r' }.
Lemma SK_quiet r r' : quiet_rm r r' -> SK r r'.
Proof. intros (A & B & C & D). constructor; [rewrite A; reflexivity|rewrite B; reflexivity|apply kept_same; assumption]. Qed.
Lemma SK_trans a b c : SK a b -> SK b c -> SK a c.
Proof.
  intros [A1 A2 [A3 A4]] [B1 B2 [B3 B4]]. constructor; [congruence|congruence|]. split; intros ks k G I V.
  - apply (B3 ks); [congruence|exact I|apply (A3 ks); assumption].
  - apply (B4 ks); [congruence|exact I|apply (A4 ks); assumption].
Qed.
Lemma SK_refl r : SK r r. Proof. apply SK_quiet. apply q_refl. Qed.
Lemma SK_remove r n0 : n0 <> n -> SK r (remove_refs (remove_exps r n0) n0).
Proof.
  intros N. assert (N' : String.eqb n n0 = false) by (apply String.eqb_neq; auto).
  assert (A : SK r (remove_exps r n0)).
  { unfold remove_exps. destruct (aget (rm_exps r) n0); [|apply SK_refl]. constructor; [reflexivity| |split; auto]. cbn [with_exps with_skeys rm_exps]. rewrite aget_adel, N'. reflexivity. }
  eapply SK_trans; [exact A|]. generalize (remove_exps r n0). intros r1. unfold remove_refs. destruct (aget (rm_refs r1) n0); [|apply SK_refl].
  constructor; [|reflexivity|split; auto]. cbn [with_refs with_cmap rm_refs]. rewrite aget_adel, N'. reflexivity.
Qed.
Lemma SK_cleanup_exports m n0 : n0 <> n -> SK (cm_rm m) (cm_rm (cleanup_exports m n0)).
Proof.
  intros N. unfold cleanup_exports. destruct (find_ctrl m n0) as [c|]; [|apply SK_refl]. destruct (_ && _); [|apply SK_refl]. apply SK_remove. exact N.
Qed.
Lemma SK_cleanup_spec m n0 : n0 <> n -> SK (cm_rm m) (cm_rm (fst (cleanup_spec e m n0))).
Proof. intros N. unfold cleanup_spec. cbv zeta. cbn [fst]. eapply SK_trans; [apply (SK_cleanup_exports m n0 N)|]. apply SK_quiet. apply q_transition. Qed.
Lemma SK_cleanup m n0 : n0 <> n -> SK (cm_rm m) (cm_rm (fst (cleanup_controller e m n0))).
Proof.
  intros N. unfold cleanup_controller. destruct (find_ctrl m n0) as [c|]; [|apply SK_refl]. destruct (c_lc c); try apply SK_refl; apply SK_cleanup_spec; exact N.
Qed.
Lemma SK_import r n0 ks es r1 : n0 <> n -> import_refs r n0 ks = (r1, true) -> SK r (import_exps r1 n0 es).
Proof.
  intros N H. assert (N' : n <> n0) by auto. unfold import_refs in H. pose proof (add_cmd_av ks r) as V. destruct (add_cmd_itfs ks r) as [r2 []] eqn:E; [|discriminate].
  injection H as <-. apply add_cmd_spec in E. destruct E as (_ & _ & _ & E1 & E2 & _). cbn [fst] in V. destruct V as [V1 V2].
  set (r3 := with_refs r2 (aset (rm_refs r2) n0 ks)). unfold import_exps. pose proof (add_state_av es r3) as W. destruct (add_state_itfs es r3) as [r4 ad] eqn:E.
  apply add_state_spec in E. destruct E as (_ & _ & _ & F1 & F2 & _). cbn [fst snd] in W. destruct W as (W1 & W2 & _).
  constructor; cbn [with_exps rm_refs rm_exps].
  - rewrite F1. unfold r3. cbn [with_refs rm_refs]. rewrite aget_aset_other by exact N'. rewrite E1. reflexivity.
  - rewrite aget_aset_other by exact N'. rewrite F2. unfold r3. cbn [with_refs rm_exps]. rewrite E2. reflexivity.
  - apply kept_same; cbn [with_exps rm_avc rm_avs]; [rewrite W1|rewrite W2]; assumption.
Qed.
Lemma SK_un m n0 m' : n0 <> n -> RX (cm_rm m) -> exports_unavailable m n0 = Val m' -> SK (cm_rm m) (cm_rm m') /\ cm_ctrls m' = cm_ctrls m.
Proof.
  intros N X. unfold exports_unavailable, make_exps_unavailable. intros H. destruct (aget (rm_exps (cm_rm m)) n0) as [es|] eqn:E1; [|discriminate]. cbn [of_option bind] in H.
  unfold make_refs_unavailable in H. cbn [with_av rm_refs] in H. destruct (aget (rm_refs (cm_rm m)) n0) as [ks|] eqn:E2; [|discriminate]. cbn [of_option bind] in H. injection H as <-.
  split; [|reflexivity]. constructor; [reflexivity|reflexivity|]. split; cbn [set_rm cm_rm with_av rm_avc rm_avs]; intros l k G I V; apply CmFallback.remove_items_keep; try exact V.
  - exact (rx_dis _ X n n0 _ _ k (not_eq_sym N) G E2 I).
  - exact (rx_dise _ X n n0 _ _ k (not_eq_sym N) G E1 I).
Qed.
(** ... and so does its state *)
Record YK (m m' : cm) : Prop := {
  yk_sk : SK (cm_rm m) (cm_rm m');
  yk_find : match find_ctrl m n with None => find_ctrl m' n = None
            | Some c => exists c', find_ctrl m' n = Some c' /\ same_const c c' /\ c_lc c' = c_lc c end }.
Lemma YK_same m m' : SK (cm_rm m) (cm_rm m') -> find_ctrl m' n = find_ctrl m n -> YK m m'.
Proof. intros S F. constructor; [exact S|]. rewrite F. destruct (find_ctrl m n) as [c|]; [|reflexivity]. exists c. split; [reflexivity|split; [apply same_const_refl|reflexivity]]. Qed.
Lemma YK_trans a b c : YK a b -> YK b c -> YK a c.
Proof.
  intros [A1 A2] [B1 B2]. constructor; [eapply SK_trans; eassumption|]. destruct (find_ctrl a n) as [x|].
  - destruct A2 as (y & Fy & Sy & Ly). rewrite Fy in B2. destruct B2 as (z & Fz & Sz & Lz). exists z. split; [exact Fz|split; [eapply same_const_trans; eassumption|congruence]].
  - rewrite A2 in B2. exact B2.
Qed.
Lemma YK_topo m m1 order m' : NI m -> build_topology m = Val m1 -> reorder m1 order = Val m' -> YK m m'.
Proof.
  intros HN B R. constructor; [apply SK_quiet; rewrite (q_topo m m1 order m' B R); apply q_refl|].
  pose proof (reorder_members _ _ _ _ HN B R) as MB.
  assert (PM : forall x, In x (map c_name (cm_ctrls m')) <-> In x (map c_name (cm_ctrls m))).
  { destruct (build_topology_spec m m1 (proj2 HN) B) as (s & rc & sc & -> & K & _).
    assert (N1 : NI (set_topo m s rc sc)) by (split; [exact (proj1 HN)|intros x Hx; apply K; apply (proj2 HN); exact Hx]).
    destruct (reorder_spec _ _ _ N1 R) as (names & L & _ & -> & _ & PM & _). cbn [set_ctrls set_topo cm_ctrls] in *. intros x. split; apply Permutation_in; [exact PM|apply Permutation_sym; exact PM]. }
  unfold find_ctrl. destruct (find_in (cm_ctrls m) n) as [c|] eqn:F.
  - destruct (find_in (cm_ctrls m') n) as [c'|] eqn:F'.
    + destruct (MB c' (find_in_In _ _ _ F')) as (c0 & g & I0 & ->). pose proof (find_in_name _ _ _ F') as Nm. cbn [upd_group c_name] in Nm.
      assert (c0 = c) by (eapply find_same; [exact (proj1 HN)|exact F|exact I0|exact Nm]). subst c0. exists (upd_group g c). split; [reflexivity|split; [unfold same_const; cbn; auto 8|reflexivity]].
    + exfalso. apply find_in_none in F'. apply F'. apply PM. rewrite <- (find_in_name _ _ _ F). apply in_map. eapply find_in_In. exact F.
  - apply find_in_none. intros I. apply find_in_none in F. apply F. apply PM. exact I.
Qed.
Definition G (m : cm) : Prop := RI (cm_rm m) /\ RX (cm_rm m) /\ NI m.
Lemma G_steps m m' : steps e allow any_kind m m' -> G m -> G m'.
Proof.
  intros S H. revert m m' H S. apply steps_inv. intros a b (A & B & C) P. split; [eapply prim_RI; eassumption|]. split; [eapply prim_RX; eassumption|eapply prim_NI; eassumption].
Qed.
Lemma configure_YK m n0 order m' b : n0 <> n -> G m -> configure_controller e m n0 order = Val (m', b) -> YK m m'.
Proof.
  intros N HG H. unfold configure_controller in H. destruct (find_ctrl m n0) as [c|] eqn:F; [|injection H as <- _; apply YK_same; [apply SK_refl|reflexivity]].
  assert (Z : forall x y, SK (cm_rm x) (cm_rm y) -> frame n0 x y -> YK x y) by (intros x y S FR; apply YK_same; [exact S|apply (fr_other _ _ _ FR); auto]).
  assert (ZS : forall x, YK x (fst (cleanup_spec e x n0))) by (intros x; apply Z; [apply SK_cleanup_spec; exact N|apply frame_cleanup_spec]).
  assert (Y1 : YK m (fst (if is_lc Inactive c then cleanup_spec e m n0 else (m, true)))) by (destruct (is_lc Inactive c); [apply ZS|apply YK_same; [apply SK_refl|reflexivity]]).
  assert (S1 : steps e allow any_kind m (fst (if is_lc Inactive c then cleanup_spec e m n0 else (m, true)))) by (destruct (is_lc Inactive c); [apply cleanup_spec_steps; exact I|apply s_refl]).
  assert (FR1 : frame n0 m (fst (if is_lc Inactive c then cleanup_spec e m n0 else (m, true)))) by (destruct (is_lc Inactive c); [apply frame_cleanup_spec|apply frame_refl]).
  destruct (if is_lc Inactive c then cleanup_spec e m n0 else (m, true)) as [m1 ok1]. cbn [fst] in *.
  destruct (lc_eqb (c_lc c) Active || lc_eqb (c_lc c) Finalized) eqn:L.
  { destruct (c_lc c); try discriminate L; injection H as <- _; apply YK_same; try apply SK_refl; reflexivity. }
  assert (H' : (if negb ok1 then Val (m1, false)
      else
        let m2 := node_configure e (cleanup_exports m1 n0) n0 in
        if negb (has_lc m2 n0 Inactive) then Val (m2, false)
        else if c_chainable c && negb (exports_ok c) then Val (fst (cleanup_spec e m2 n0), false)
        else
          do m3 <- (if c_chainable c then
                      let '(r1, ok) := import_refs (cm_rm m2) n0 (c_refs c) in
                      if negb ok then Crash
                      else
                        exports_unavailable (set_chained e (set_rm m2 (import_exps r1 n0 (c_exps c))) n0 false) n0
                    else Val m2);
          if negb (uniqueb (cmd_names (cm_rm m3) c)) || negb (uniqueb (state_names (cm_rm m3) c))
          then Val (fst (cleanup_spec e m3 n0), false)
          else
            do m4 <- build_topology m3;
            do m5 <- reorder m4 order;
            Val (m5, true)) = Val (m', b)) by (destruct (c_lc c); try exact H; discriminate L).
  clear H. destruct (negb ok1); [injection H' as <- _; exact Y1|]. cbv zeta in H'.
  assert (Y2 : YK m (node_configure e (cleanup_exports m1 n0) n0)).
  { eapply YK_trans; [exact Y1|]. apply Z; [|eapply frame_trans; [apply frame_cleanup_exports|apply frame_transition]]. eapply SK_trans; [apply (SK_cleanup_exports m1 n0 N)|apply SK_quiet; apply q_transition]. }
  assert (FR2 : frame n0 m (node_configure e (cleanup_exports m1 n0) n0)).
  { eapply frame_trans; [exact FR1|]. eapply frame_trans; [apply frame_cleanup_exports|apply frame_transition]. }
  assert (S2 : steps e allow any_kind m (node_configure e (cleanup_exports m1 n0) n0)).
  { eapply steps_trans; [exact S1|]. eapply steps_trans; [apply cleanup_exports_steps; exact I|apply node_configure_steps; exact I]. }
  set (m2 := node_configure e (cleanup_exports m1 n0) n0) in *.
  destruct (negb (has_lc m2 n0 Inactive)) eqn:HI; [injection H' as <- _; exact Y2|].
  destruct (c_chainable c && negb (exports_ok c)); [injection H' as <- _; eapply YK_trans; [exact Y2|apply ZS]|].
  apply bind_val in H'. destruct H' as (m3 & H3 & H).
  assert (Y3 : YK m2 m3 /\ steps e allow any_kind m m3).
  { destruct (c_chainable c) eqn:Ch; [|injection H3 as <-; split; [apply YK_same; [apply SK_refl|reflexivity]|exact S2]].
    assert (F2 : exists c2, find_ctrl m2 n0 = Some c2) by (unfold has_lc in HI; destruct (find_ctrl m2 n0) as [c2|]; [eauto|discriminate]).
    destruct F2 as [c2 F2]. destruct (fr_const _ _ _ FR2 c2 F2) as (c0 & F0 & SC).
    assert (c0 = c) by congruence. subst c0. destruct SC as (Q1 & Q2 & Q3 & Q4 & Q5 & Q6 & Q7).
    pose proof (p_import_refs e allow any_kind m2 n0 c2 I F2) as K. rewrite Q6, Q2 in K. specialize (K Ch).
    destruct (import_refs (cm_rm m2) n0 (c_refs c)) as [r1 ok] eqn:IR. cbn [fst snd] in K. destruct ok; [|discriminate]. cbn [negb] in H3. specialize (K eq_refl).
    set (ma := set_rm m2 (import_exps r1 n0 (c_exps c))) in *.
    assert (SA : steps e allow any_kind m ma).
    { eapply steps_trans; [exact S2|]. eapply steps_trans; [apply steps_prim; exact K|].
      change ma with (set_rm (set_rm m2 r1) (import_exps (cm_rm (set_rm m2 r1)) n0 (c_exps c))). rewrite <- Q7. apply steps_prim. apply p_import_exps; [exact I|exact F2|congruence]. }
    assert (SB : steps e allow any_kind m (set_chained e ma n0 false)) by (eapply steps_trans; [exact SA|apply set_chained_steps; exact I]).
    pose proof (G_steps _ _ SB HG) as (_ & XB & _).
    destruct (SK_un _ n0 m3 N XB H3) as [U1 U2].
    split.
    - apply YK_same.
      + eapply SK_trans; [apply (SK_import _ n0 _ (c_exps c) _ N IR)|]. eapply SK_trans; [|exact U1]. apply SK_quiet. apply (q_chained e ma n0 false).
      + unfold find_ctrl at 1. rewrite U2. change (find_in (cm_ctrls (set_chained e ma n0 false)) n) with (find_ctrl (set_chained e ma n0 false) n).
        rewrite (fr_other _ _ _ (frame_chained e n0 ma false)) by auto. reflexivity.
    - eapply steps_trans; [exact SB|]. eapply exports_unavailable_steps; exact H3. }
  destruct Y3 as [Y3 S3]. assert (Y : YK m m3) by (eapply YK_trans; eassumption).
  destruct (negb (uniqueb (cmd_names (cm_rm m3) c)) || negb (uniqueb (state_names (cm_rm m3) c))); [injection H as <- _; eapply YK_trans; [exact Y|apply ZS]|].
  apply bind_val in H. destruct H as (m4 & H4 & H). apply bind_val in H. destruct H as (m5 & H5 & H). injection H as <- _.
  eapply YK_trans; [exact Y|]. eapply YK_topo; [|exact H4|exact H5]. apply (G_steps _ _ S3 HG).
Qed.
Lemma cleanup_YK m n0 : n0 <> n -> YK m (fst (cleanup_controller e m n0)).
Proof. intros N. apply YK_same; [apply SK_cleanup; exact N|]. apply (fr_other _ _ _ (frame_cleanup e m n0)). auto. Qed.
Lemma find_filter l n0 : n0 <> n -> find_in (filter (fun c => negb (String.eqb (c_name c) n0)) l) n = find_in l n.
Proof.
  intros N. unfold find_in. induction l as [|c l IH]; cbn; [reflexivity|]. destruct (String.eqb_spec (c_name c) n0) as [E|E]; cbn [negb].
  - rewrite IH. destruct (String.eqb_spec (c_name c) n); [congruence|reflexivity].
  - cbn [find]. rewrite IH. reflexivity.
Qed.
Lemma unload_YK m n0 : n0 <> n -> YK m (fst (unload_controller e m n0)).
Proof.
  intros N. unfold unload_controller. destruct (find_ctrl m n0) as [c|] eqn:F; [|apply YK_same; [apply SK_refl|reflexivity]].
  destruct (is_lc Active c); [apply YK_same; [apply SK_refl|reflexivity]|]. pose proof (cleanup_YK m n0 N) as Y. destruct (cleanup_controller e m n0) as [m1 ok]. cbn [fst] in Y.
  destruct (negb ok); [exact Y|]. cbv zeta. cbn [fst]. eapply YK_trans; [exact Y|].
  set (m2 := set_topo m1 _ _ _). assert (Y2 : YK m1 m2) by (apply YK_same; [apply SK_refl|reflexivity]). eapply YK_trans; [exact Y2|]. clear Y2.
  set (m3 := if _ || _ then _ else m2).
  assert (Y3 : YK m2 m3).
  { unfold m3. destruct (_ || _); [|apply YK_same; [apply SK_refl|reflexivity]]. apply YK_same; [apply SK_quiet; apply q_shutdown|apply (fr_other _ _ _ (frame_shutdown e n0 m2)); auto]. }
  eapply YK_trans; [exact Y3|]. apply YK_same; [apply SK_quiet; apply q_release_itfs|]. unfold find_ctrl at 1. cbn [set_ctrls cm_ctrls]. rewrite find_filter by exact N.
  change (find_in (cm_ctrls (release_itfs m3 n0)) n) with (find_ctrl (release_itfs m3 n0) n). apply (fr_other _ _ _ (frame_release n0 m3)). auto.
Qed.
Lemma load_YK m c b : c_name c <> n -> YK m (fst (load_controller m c b)).
Proof.
  intros N. unfold load_controller. destruct (find_ctrl m (c_name c)); [apply YK_same; [apply SK_refl|reflexivity]|]. destruct b; [|apply YK_same; [apply SK_refl|reflexivity]].
  cbn [fst]. apply YK_same; [apply SK_refl|]. unfold find_ctrl. cbn [set_topo set_ctrls cm_ctrls]. destruct (find_in (cm_ctrls m) n) as [d|] eqn:F.
  - apply CmCycle.find_app. exact F.
  - apply find_in_none. rewrite map_app, in_app_iff. intros [I|[I|[]]]; [apply find_in_none in F; contradiction|]. cbn in I. congruence.
Qed.
End Other.
