(** CmLeak.v -- no hardware command interface stays claimed without a controller holding it. *)
From Coq Require Import Permutation Lia.
From Verif Require Import Base Events HwModel RmModel RmSys RmSpec RmProofs RmInv ChainModel CmModel CmPrim ChainSpec CmTopo CmInv CmExcl CmReach.

Definition Held (k : name) (m : cm) : Prop := aget (rm_claimed (cm_rm m)) k = Some true -> 1 <= cnt k (cm_ctrls m).
Lemma Held_same k m m' : cnt k (cm_ctrls m') = cnt k (cm_ctrls m) ->
  (aget (rm_claimed (cm_rm m')) k = Some true -> aget (rm_claimed (cm_rm m)) k = Some true) -> Held k m -> Held k m'.
Proof. intros A B C H. rewrite A. apply C. apply B. exact H. Qed.

Lemma claim_all_none_back : forall ks r got r1 k, claim_all r ks got = Val (r1, None) -> In k (rm_ckeys r) ->
  aget (rm_claimed r1) k = Some true -> aget (rm_claimed r) k = Some true /\ ~ In k got.
Proof.
  assert (R : forall r got k, aget (rm_claimed (release_all r got)) k = Some true -> aget (rm_claimed r) k = Some true /\ ~ In k got).
  { intros r got k. rewrite release_claimed. destruct (mem k got) eqn:M; [discriminate|]. intros H. split; [exact H|]. apply mem_false. exact M. }
  induction ks as [|x ks IH]; intros r got r1 k; cbn [claim_all]; [discriminate|].
  destruct (cmd_claimed r x) as [[]|]; [intros [= <-] _; apply R| |discriminate].
  unfold claim_cmd. destruct (cmd_available r x); [|intros [= <-] _; apply R].
  destruct (aget (rm_claimed r) x) as [[]|] eqn:E; try (intros [= <-] _; apply R).
  destruct (mem x (rm_ckeys r)) eqn:MX.
  - intros H Hk T. destruct (IH _ _ _ k H Hk T) as [A B]. cbn [with_claimed rm_claimed] in A.
    rewrite in_app_iff in B. rewrite aget_aset in A. destruct (String.eqb_spec k x) as [->|Ne].
    + exfalso. apply B. right. left. reflexivity.
    + split; [exact A|]. intros C. apply B. left. exact C.
  - intros [= <-] Hk T. apply R in T. destruct T as [T G]. split; [|exact G]. cbn [with_claimed rm_claimed] in T. rewrite aget_aset in T.
    destruct (String.eqb_spec k x) as [->|Ne]; [|exact T]. apply mem_In in Hk. congruence.
Qed.
Lemma add_cmd_back ks : forall r k, aget (rm_claimed (fst (add_cmd_itfs ks r))) k = Some true -> aget (rm_claimed r) k = Some true.
Proof.
  induction ks as [|k0 ks IH]; intros r k H; simpl in H; [exact H|].
  destruct (mem k0 (rm_ckeys r)); [exact H|]. apply IH in H. simpl in H.
  destruct (aget (rm_claimed r) k0) eqn:E; [exact H|].
  rewrite aget_aset in H. destruct (String.eqb_spec k k0); [discriminate|exact H].
Qed.
Lemma import_refs_back r c ks k : aget (rm_claimed (fst (import_refs r c ks))) k = Some true -> aget (rm_claimed r) k = Some true.
Proof.
  unfold import_refs. pose proof (add_cmd_back ks r k) as K. destruct (add_cmd_itfs ks r) as [r1 []]; exact K.
Qed.

Lemma prim_Held e allow KS m m' k : NI m -> LI m -> RI (cm_rm m) -> In k (hw_cmds (cm_rm m)) -> Excl k m ->
  prim e allow KS m m' -> Held k m -> Held k m'.
Proof.
  intros HN HL HR Hk HX P HH. pose proof (proj1 HN) as ND.
  assert (KK : In k (rm_ckeys (cm_rm m))) by (apply (ki_c _ (i_k _ HR)); exact Hk).
  assert (U : forall n c r f, find_ctrl m n = Some c ->
     (forall a, cnt k (cm_ctrls m) = a + count_occ string_dec (c_cloans c) k -> aget (rm_claimed r) k = Some true ->
        1 <= a + count_occ string_dec (c_cloans (f c)) k) ->
     Held k (upd (set_rm m r) n f)).
  { intros n c r f F H. destruct (split_upd _ _ _ ND F) as (l1 & l2 & El & Eu).
    unfold Held. cbn [upd set_ctrls set_rm cm_ctrls cm_rm]. rewrite (Eu f).
    assert (C : cnt k (l1 ++ f c :: l2) = cnt k l1 + cnt k l2 + count_occ string_dec (c_cloans (f c)) k).
    { rewrite cnt_app, cnt_cons. lia. }
    rewrite C. apply H. rewrite El, cnt_app, cnt_cons. lia. }
  assert (ID : forall n c, find_ctrl m n = Some c -> c_lc c <> Active -> c_cloans c = []).
  { intros n c F L. apply (HL c); [eapply find_in_In; exact F|exact L]. }
  assert (CS : forall r', rm_claimed r' = rm_claimed (cm_rm m) -> Held k (set_rm m r')).
  { intros r' E. apply (Held_same k m); [reflexivity| |exact HH]. cbn [set_rm cm_rm]. rewrite E. auto. }
  assert (EV : forall r', evolve (cm_rm m) r' -> Held k (set_rm m r')).
  { intros r' E. apply CS. apply (ev_claimed _ _ E). }
  destruct P.
  - apply CS. reflexivity.
  - apply EV. apply rm_read_evolve. apply HR.
  - apply EV. apply rm_write_evolve. apply HR.
  - destruct (set_component_state_ok e (cm_rm m) h t (i_names _ HR)) as [[E _ _] _]. apply EV. exact E.
  - destruct (rm_prepare_evolve e allow (cm_rm m) a d (i_names _ HR)) as [E _]. apply EV. exact E.
  - destruct (rm_perform_evolve e allow (cm_rm m) a d (i_names _ HR)) as [E _]. apply EV. exact E.
  - apply CS. eapply refs_av_maps; eassumption.
  - apply CS. eapply refs_un_maps; eassumption.
  - apply CS. eapply exps_av_maps; eassumption.
  - apply CS. eapply exps_un_maps; eassumption.
  - apply CS. apply claimed_same_cache.
  - apply (Held_same k m); [reflexivity| |exact HH]. cbn [set_rm cm_rm]. apply import_refs_back.
  - apply CS. apply claimed_same_import_exps.
  - apply (Held_same k m); [reflexivity| |exact HH]. cbn [set_rm cm_rm].
    rewrite remove_refs_claimed; [auto|apply HR|exact Hk].
  - (* p_lc *) change (upd m n (upd_lc l)) with (upd (set_rm m (cm_rm m)) n (upd_lc l)).
    apply (U n c); [assumption|]. intros a Ha T. cbn [upd_lc c_cloans]. rewrite <- Ha. apply HH. exact T.
  - (* p_halt *) apply (U n c); [assumption|]. intros a Ha. cbn [set_stop upd_lc upd_loans c_cloans count_occ].
    rewrite release_claimed. destruct (mem k (c_cloans c)) eqn:M; [discriminate|].
    apply count_out in M. intros T. specialize (HH T). lia.
  - (* p_run *)
    match goal with HC : claim_all _ _ _ = _ |- _ => pose proof (claim_all_got _ _ _ _ _ HC) as G; apply claim_all_some in HC; destruct HC as (N & C0 & C1) end.
    rewrite app_nil_l in G. subst cl. apply (U n c); [assumption|]. intros a Ha.
    rewrite (ID n c) in Ha |- * by (try assumption; congruence). cbn [release_all fold_left count_occ] in Ha |- *.
    cbn [set_run upd_lc upd_loans c_cloans]. rewrite count_NoDup by exact N. rewrite C1.
    destruct (mem k (cmd_names (cm_rm m) c)) eqn:M; [lia|]. intros T. specialize (HH T). lia.
  - (* p_rerun *)
    match goal with HC : claim_all _ _ _ = _ |- _ => pose proof (claim_all_got _ _ _ _ _ HC) as G; apply claim_all_some in HC; destruct HC as (N & C0 & C1) end.
    rewrite app_nil_l in G. subst cl. apply (U n c); [assumption|]. intros a Ha.
    cbn [upd_loans c_cloans]. rewrite count_NoDup by exact N. rewrite release_claimed, C1.
    destruct (mem k (cmd_names (cm_rm m) c)) eqn:M; [lia|].
    destruct (mem k (c_cloans c)) eqn:M2; [discriminate|]. apply count_out in M2. intros T. specialize (HH T). lia.
  - (* p_run_fail *)
    match goal with HC : claim_all _ _ _ = _ |- _ => pose proof (claim_all_got _ _ _ _ _ HC) as G; apply claim_all_some in HC; destruct HC as (N & C0 & C1) end.
    rewrite app_nil_l in G. subst cl. apply (U n c); [assumption|]. intros a Ha.
    rewrite (ID n c) in Ha |- * by assumption. cbn [release_all fold_left count_occ] in Ha.
    cbn [set_stop upd_lc upd_loans c_cloans count_occ]. rewrite release_claimed.
    change (release_all r1 []) with r1. rewrite C1.
    destruct (mem k (cmd_names (cm_rm m) c)) eqn:M; [discriminate|]. intros T. specialize (HH T). lia.
  - (* p_run_skip *)
    match goal with HC : claim_all _ _ _ = _ |- _ => pose proof (claim_all_got _ _ _ _ _ HC) as G; apply claim_all_some in HC; destruct HC as (N & C0 & C1) end.
    rewrite app_nil_l in G. subst cl. apply (U n c); [assumption|]. intros a Ha.
    rewrite (ID n c) in Ha |- * by assumption. cbn [release_all fold_left count_occ] in Ha.
    cbn [set_stop upd_lc upd_loans c_cloans count_occ]. rewrite release_claimed.
    change (release_all r1 []) with r1. rewrite C1.
    destruct (mem k (cmd_names (cm_rm m) c)) eqn:M; [discriminate|]. intros T. specialize (HH T). lia.
  - (* p_claim_fail *)
    match goal with HC : claim_all _ _ _ = _ |- _ => pose proof (claim_all_none_back _ _ _ _ k HC KK) as D end.
    apply (Held_same k m); [reflexivity| |exact HH]. cbn [set_rm cm_rm]. intros T. apply D. exact T.
  - (* p_claim_back *)
    match goal with HC : claim_all _ _ _ = _ |- _ => pose proof (claim_all_got _ _ _ _ _ HC) as G; apply claim_all_some in HC; destruct HC as (N & C0 & C1) end.
    rewrite app_nil_l in G. subst cl. apply (Held_same k m); [reflexivity| |exact HH]. cbn [set_rm cm_rm]. rewrite release_claimed, C1.
    destruct (mem k (cmd_names (cm_rm m) c)); [discriminate|auto].
  - (* p_chained *) destruct (find_ctrl m n) as [c|] eqn:F.
    + change (upd m n (upd_chained b)) with (upd (set_rm m (cm_rm m)) n (upd_chained b)).
      apply (U n c); [assumption|]. intros a Ha T. cbn [upd_chained c_cloans]. rewrite <- Ha. apply HH. exact T.
    + assert (E : upd_in (cm_ctrls m) n (upd_chained b) = cm_ctrls m).
      { apply find_in_none in F. unfold upd_in. rewrite <- (map_id (cm_ctrls m)) at 2. apply map_ext_in. intros x Hx.
        destruct (String.eqb_spec (c_name x) n) as [Ex|_]; [|reflexivity]. exfalso. apply F. rewrite <- Ex. apply in_map. exact Hx. }
      unfold Held. cbn [upd set_ctrls cm_ctrls cm_rm]. rewrite E. exact HH.
  - (* p_load *) unfold Held. cbn [set_topo set_ctrls cm_ctrls cm_rm]. rewrite cnt_app, cnt_cons. intros T. specialize (HH T). lia.
  - (* p_unload *)
    assert (F : cnt k (filter (fun c => negb (String.eqb (c_name c) n)) (cm_ctrls m)) = cnt k (cm_ctrls m)).
    { match goal with H : find_ctrl m n = Some c |- _ => rename H into Hf end.
      assert (Hall : forall x, In x (cm_ctrls m) -> c_name x = n -> c_cloans x = []).
      { intros x Hx Ex. assert (x = c) by (eapply find_same; eassumption). subst. assumption. }
      clear -Hall. induction (cm_ctrls m) as [|x l IH]; [reflexivity|]. cbn [filter].
      assert (IH' : cnt k (filter (fun c => negb (String.eqb (c_name c) n)) l) = cnt k l) by (apply IH; intros y Hy; apply Hall; right; exact Hy).
      destruct (String.eqb_spec (c_name x) n) as [E|_]; cbn [negb]; rewrite ?cnt_cons, IH'; [|reflexivity].
      rewrite (Hall x (or_introl eq_refl) E). reflexivity. }
    unfold Held. cbn [set_topo set_ctrls cm_ctrls cm_rm]. rewrite F. exact HH.
  - (* p_topo *)
    match goal with HB : build_topology m = Val m' , HO : reorder _ _ = Val m'' |- _ => 
      pose proof (reorder_members _ _ _ _ HN HB HO) as RM;
      destruct (build_topology_spec m m' (proj2 HN) HB) as (s & rc & sc & Em & K & _); subst m';
      assert (H' : NI (set_topo m s rc sc)) by (split; [exact ND|]; intros x Hx; apply K; apply (proj2 HN); exact Hx);
      destruct (reorder_spec _ _ _ H' HO) as (names & L & _ & Em & _ & PM & _); subst m'' end.
    apply (Held_same k m); [| |exact HH]; cbn [set_ctrls set_topo cm_rm cm_ctrls] in *; [|auto].
    apply cnt_group; assumption.
  - exact HH.
  - apply (Held_same k m); [| |exact HH]; cbn [set_ctrls cm_ctrls cm_rm]; [|auto].
    unfold cnt, loans. f_equal. clear. induction (cm_ctrls m) as [|x l IH]; [reflexivity|]. cbn [map flat_map]. rewrite IH. reflexivity.
Qed.

Record KI (k : name) (m : cm) : Prop := { ki_ci : CI m; ki_hw : In k (hw_cmds (cm_rm m)); ki_ex : Excl k m; ki_held : Held k m }.
Lemma prim_KI e allow KS k m m' : prim e allow KS m m' -> KI k m -> KI k m'.
Proof.
  intros P [A B C D]. constructor.
  - eapply prim_CI; eassumption.
  - rewrite hw_cmds_statics, (prim_statics _ _ _ _ _ (ci_r _ A) P), <- hw_cmds_statics. exact B.
  - eapply prim_Excl; [apply A|apply A|apply A|intros _; exact B|exact P|exact C].
  - eapply prim_Held; [apply A|apply A|apply A|exact B|exact C|exact P|exact D].
Qed.
Lemma reach_KI e allow hs ops m k : wf_hw hs -> In k (flat_map h_cmd hs) -> crun e allow (cm_start hs) ops = Val m -> KI k m.
Proof.
  intros W Hk H. eapply (crun_inv e allow (KI k)); [| | |exact H].
  - intros x [Hx _ _ _]. exact (proj1 (ci_n _ Hx)).
  - intros a b A P. eapply prim_KI; eassumption.
  - constructor; [apply start_CI; exact W| | |].
    + unfold hw_cmds. simpl. rewrite flat_map_set by reflexivity. exact Hk.
    + split; [vm_compute; auto|]. intros C. discriminate.
    + unfold Held, cm_start. cbn [cm_rm]. intros C. exfalso. revert C. unfold rm_start.
      match goal with |- context [rm_claimed ?r] => set (rr := r) end. cbn [rm_claimed rr].
      clear. generalize (flat_map h_cmd hs). intros l. induction l as [|x l IH]; [discriminate|].
      cbn [map aget]. destruct (String.eqb k x); [discriminate|exact IH].
Qed.
Lemma cnt_held k l : 1 <= cnt k l -> exists c, In c l /\ In k (c_cloans c).
Proof.
  induction l as [|c l IH]; [cbn; lia|]. rewrite cnt_cons. intros H.
  destruct (count_occ string_dec (c_cloans c) k) as [|n] eqn:E.
  - destruct (IH H) as (d & A & B). exists d. split; [right; exact A|exact B].
  - exists c. split; [left; reflexivity|]. apply (count_occ_In string_dec). lia.
Qed.
Lemma main_held e allow hs ops m k : wf_hw hs -> In k (flat_map h_cmd hs) -> crun e allow (cm_start hs) ops = Val m ->
  (aget (rm_claimed (cm_rm m)) k = Some true <-> exists c, In c (cm_ctrls m) /\ c_lc c = Active /\ In k (c_cloans c)).
Proof.
  intros W Hk H. destruct (reach_KI _ _ _ _ _ _ W Hk H) as [A B C D]. split.
  - intros T. destruct (cnt_held _ _ (D T)) as (c & Hc & Kc). exists c. split; [exact Hc|]. split; [|exact Kc].
    destruct (lc_eqb (c_lc c) Active) eqn:L; [apply lc_eqb_eq; exact L|]. exfalso.
    assert (N : c_lc c <> Active) by (intros E; apply lc_eqb_eq in E; congruence).
    destruct (ci_l _ A c Hc N) as [Z _]. rewrite Z in Kc. destruct Kc.
  - intros (c & Hc & _ & Kc). eapply main_claimed; eassumption.
Qed.
