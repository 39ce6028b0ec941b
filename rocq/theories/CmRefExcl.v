(** CmRefExcl.v -- exclusivity of the loans of an interface that may be a reference interface. *)
From Coq Require Import Permutation Lia.
From Verif Require Import Base Events HwModel RmModel RmSys RmSpec RmProofs RmInv ChainModel CmModel CmPrim ChainSpec CmTopo CmInv CmSpec CmExcl CmReach CmSwitch CmRefs ExportSpec CmExport3 RefExclSpec.

Definition tabs (r : rm) := (rm_ckeys r, rm_refs r).
Lemma tabs_ck r r' : tabs r' = tabs r -> rm_ckeys r' = rm_ckeys r. Proof. unfold tabs. congruence. Qed.
Lemma tabs_refs r r' : tabs r' = tabs r -> rm_refs r' = rm_refs r. Proof. unfold tabs. congruence. Qed.
Lemma tabs_maps r r' : same_maps r r' -> tabs r' = tabs r.
Proof. intros (_ & _ & B & _ & D & _). unfold tabs. congruence. Qed.
Lemma tabs_evolve r r' : evolve r r' -> tabs r' = tabs r.
Proof. intros E. unfold tabs. f_equal; apply E. Qed.
Definition settled (x : pk) : Prop := x <> KImport /\ x <> KUp /\ x <> KPend.
Definition moving (x : pk) : Prop := x <> KImport.

Lemma prim_tabs e allow (KS : pk -> Prop) m m' : ~ KS KImport -> RI (cm_rm m) -> prim e allow KS m m' -> tabs (cm_rm m') = tabs (cm_rm m).
Proof.
  intros HK HR P. destruct P; cbn [upd set_ctrls set_rm set_topo set_pend cm_rm emit]; try reflexivity; try contradiction.
  - apply tabs_evolve. apply rm_read_evolve. apply HR.
  - apply tabs_evolve. apply rm_write_evolve. apply HR.
  - destruct (set_component_state_ok e (cm_rm m) h t (i_names _ HR)) as [[E _ _] _]. apply tabs_evolve. exact E.
  - destruct (rm_prepare_evolve e allow (cm_rm m) a d (i_names _ HR)) as [E _]. apply tabs_evolve. exact E.
  - destruct (rm_perform_evolve e allow (cm_rm m) a d (i_names _ HR)) as [E _]. apply tabs_evolve. exact E.
  - match goal with Q : make_refs_available _ _ = _ |- _ => destruct (refs_av_maps _ _ _ Q) as [X _] end. apply tabs_maps. exact X.
  - match goal with Q : make_refs_unavailable _ _ = _ |- _ => destruct (refs_un_maps _ _ _ Q) as [X _] end. apply tabs_maps. exact X.
  - match goal with Q : make_exps_available _ _ = _ |- _ => destruct (exps_av_maps _ _ _ Q) as [X _] end. apply tabs_maps. exact X.
  - match goal with Q : make_exps_unavailable _ _ = _ |- _ => destruct (exps_un_maps _ _ _ Q) as [X _] end. apply tabs_maps. exact X.
  - apply tabs_maps. apply cache_maps.
  - apply tabs_maps. apply release_maps.
  - apply tabs_maps. eapply same_maps_trans; [eapply claim_all_maps; eassumption|apply release_maps].
  - apply tabs_maps. eapply same_maps_trans; [eapply claim_all_maps; eassumption|apply release_maps].
  - apply tabs_maps. eapply same_maps_trans; [eapply claim_all_maps; eassumption|]. eapply same_maps_trans; apply release_maps.
  - apply tabs_maps. eapply same_maps_trans; [eapply claim_all_maps; eassumption|]. eapply same_maps_trans; apply release_maps.
  - apply tabs_maps. eapply claim_all_maps; eassumption.
  - apply tabs_maps. eapply same_maps_trans; [eapply claim_all_maps; eassumption|apply release_maps].
  - match goal with HB : build_topology m = Val m', HO : reorder _ _ = Val m'' |- _ =>
      unfold build_topology in HB; apply bind_val in HB; destruct HB as ([[s rc] sc] & _ & E); injection E as <-;
      unfold reorder in HO; apply bind_val in HO; destruct HO as (names & _ & E); injection E as <- end. reflexivity.
Qed.

(** a successful claim is of registered interfaces *)
Lemma claim_all_keys : forall ks r got r1 cl, claim_all r ks got = Val (r1, Some cl) -> forall k, In k ks -> In k (rm_ckeys r).
Proof.
  induction ks as [|x ks IH]; intros r got r1 cl; cbn [claim_all]; [intros _ k []|].
  destruct (cmd_claimed r x) as [[]|]; [discriminate| |discriminate].
  unfold claim_cmd. destruct (cmd_available r x); [|discriminate].
  destruct (aget (rm_claimed r) x) as [[]|]; try discriminate.
  destruct (mem x (rm_ckeys r)) eqn:M; [|discriminate]. intros H k [<-|Hk]; [apply mem_In; exact M|].
  apply (IH _ _ _ _ H k Hk).
Qed.

(** loans appear only by claiming *)
Lemma cnt_zero_out k l : cnt k l = 0 <-> forall c, In c l -> ~ In k (c_cloans c).
Proof.
  induction l as [|a l IH].
  - split; [intros _ c []|reflexivity].
  - rewrite cnt_cons. split.
    + intros H c [<-|Hc] K; [apply (count_occ_In string_dec) in K; lia|]. apply (proj1 IH) in K; [exact K|lia|exact Hc].
    + intros H. rewrite (proj2 IH) by (intros c Hc; apply H; right; exact Hc).
      destruct (count_occ string_dec (c_cloans a) k) as [|x] eqn:E; [reflexivity|]. exfalso.
      apply (H a (or_introl eq_refl)). apply (count_occ_In string_dec). lia.
Qed.
Lemma in_use_cnt k m : in_use m k <-> cnt k (cm_ctrls m) <> 0.
Proof.
  split.
  - intros (c & Hc & K) Z. exact (proj1 (cnt_zero_out k _) Z c Hc K).
  - intros H. destruct (existsb (fun c => mem k (c_cloans c)) (cm_ctrls m)) eqn:E.
    + apply existsb_exists in E. destruct E as (c & Hc & K). exists c. split; [exact Hc|apply mem_In; exact K].
    + exfalso. apply H. apply cnt_zero_out. intros c Hc K. assert (X : existsb (fun c => mem k (c_cloans c)) (cm_ctrls m) = true); [|congruence].
      apply existsb_exists. exists c. split; [exact Hc|apply mem_In; exact K].
Qed.
Lemma prim_loan e allow (KS : pk -> Prop) m m' k : NI m -> prim e allow KS m m' ->
  in_use m' k -> in_use m k \/ (KS KUp /\ In k (rm_ckeys (cm_rm m))).
Proof.
  intros HN P (c' & Hc' & K).
  assert (SAME : In c' (cm_ctrls m) -> in_use m k \/ (KS KUp /\ In k (rm_ckeys (cm_rm m)))).
  { intros H. left. exists c'. split; assumption. }
  assert (U : forall n f, In c' (upd_in (cm_ctrls m) n f) ->
     (forall c, In c (cm_ctrls m) -> c_name c = n -> In k (c_cloans (f c)) -> In k (c_cloans c) \/ (KS KUp /\ In k (rm_ckeys (cm_rm m)))) ->
     in_use m k \/ (KS KUp /\ In k (rm_ckeys (cm_rm m)))).
  { intros n f H Hf. apply In_upd in H. destruct H as [[H _]|(c & Hc & En & ->)]; [apply SAME; exact H|].
    destruct (Hf c Hc En K) as [A|A]; [left; exists c; split; assumption|right; exact A]. }
  destruct P; cbn [upd set_ctrls set_rm set_topo set_pend cm_ctrls emit] in Hc'; try (apply SAME; exact Hc').
  - eapply U; [exact Hc'|]. intros c0 _ _ A. left. exact A.
  - eapply U; [exact Hc'|]. intros c0 _ _ A. destruct A.
  - eapply U; [exact Hc'|]. intros c0 _ _ A. right. split; [assumption|].
    match goal with HC : claim_all _ _ _ = _ |- _ => pose proof (claim_all_got _ _ _ _ _ HC) as G; eapply claim_all_keys; [exact HC|] end.
    rewrite app_nil_l in G. subst cl. exact A.
  - eapply U; [exact Hc'|]. intros c0 _ _ A. right. split; [assumption|].
    match goal with HC : claim_all _ _ _ = _ |- _ => pose proof (claim_all_got _ _ _ _ _ HC) as G; eapply claim_all_keys; [exact HC|] end.
    rewrite app_nil_l in G. subst cl. exact A.
  - eapply U; [exact Hc'|]. intros c0 _ _ A. destruct A.
  - eapply U; [exact Hc'|]. intros c0 _ _ A. destruct A.
  - eapply U; [exact Hc'|]. intros c0 _ _ A. left. exact A.
  - apply in_app_iff in Hc'. destruct Hc' as [Hc'|[<-|[]]]; [apply SAME; exact Hc'|destruct K].
  - apply filter_In in Hc'. apply SAME. apply Hc'.
  - match goal with HB : build_topology m = Val m' , HO : reorder _ _ = Val m'' |- _ =>
      destruct (reorder_members _ _ _ _ HN HB HO c' Hc') as (c & g & Hc & ->) end.
    left. exists c. split; assumption.
  - apply in_map_iff in Hc'. destruct Hc' as (c & <- & Hc). left. exists c. split; assumption.
Qed.

(** what is kept from step to step *)
Record GX (k : name) (m : cm) : Prop := {
  gx_ci : CI m; gx_rx : RX (cm_rm m); gx_ex : Excl k m;
  gx_key : in_use m k -> In k (rm_ckeys (cm_rm m))
}.
Lemma prim_GX e allow (KS : pk -> Prop) m m' k : ~ KS KImport -> GX k m -> prim e allow KS m m' -> GX k m'.
Proof.
  intros HK [A B C D] P. pose proof (prim_tabs e allow KS _ _ HK (ci_r _ A) P) as T. constructor.
  - eapply prim_CI; eassumption.
  - eapply prim_RX; [apply A|eassumption|exact B].
  - eapply (prim_Excl e allow KS); [apply A|apply A|apply A|intros X; contradiction|exact P|exact C].
  - intros U. rewrite (tabs_ck _ _ T). destruct (prim_loan e allow KS _ _ _ (ci_n _ A) P U) as [V|[_ V]]; [apply D; exact V|exact V].
Qed.
Lemma steps_GX e allow (KS : pk -> Prop) m m' k : ~ KS KImport -> GX k m -> steps e allow KS m m' -> GX k m'.
Proof. intros HK H P. eapply steps_inv; [intros a b Ha; eapply prim_GX; eassumption|exact H|exact P]. Qed.

(** ... while the interfaces of controller [n] may be rebuilt *)
Definition clear_of (n k : name) (m : cm) : Prop := forall ks, refs_of m n = Some ks -> In k ks -> ~ in_use m k.
Record HX (n k : name) (m : cm) : Prop := { hx_g : GX k m; hx_c : clear_of n k m }.
Lemma steps_HX e allow (KS : pk -> Prop) n k m m' : ~ KS KImport -> ~ KS KUp -> HX n k m -> steps e allow KS m m' -> HX n k m'.
Proof.
  intros HK HU H P. eapply steps_inv; [|exact H|exact P]. clear -HK HU. intros a b [A B] P. constructor; [eapply prim_GX; eassumption|].
  intros ks E I U. pose proof (prim_tabs e allow KS _ _ HK (ci_r _ (gx_ci _ _ A)) P) as T. unfold refs_of in *. rewrite (tabs_refs _ _ T) in E.
  destruct (prim_loan e allow KS _ _ _ (ci_n _ (gx_ci _ _ A)) P U) as [V|[V _]]; [|contradiction]. exact (B ks E I V).
Qed.

(** ---- removing and importing *)
Lemma in_use_ctrls m m' k : cm_ctrls m' = cm_ctrls m -> in_use m' k <-> in_use m k.
Proof. intros E. unfold in_use. rewrite E. tauto. Qed.
Lemma refs_remove_exps r n : rm_refs (remove_exps r n) = rm_refs r.
Proof. unfold remove_exps. destruct (aget (rm_exps r) n); reflexivity. Qed.
Lemma ck_remove_exps r n : rm_ckeys (remove_exps r n) = rm_ckeys r.
Proof. unfold remove_exps. destruct (aget (rm_exps r) n); reflexivity. Qed.
Lemma claimed_remove_exps r n : rm_claimed (remove_exps r n) = rm_claimed r.
Proof. unfold remove_exps. destruct (aget (rm_exps r) n); reflexivity. Qed.
Lemma remove_HX (e : env) m n c k : find_ctrl m n = Some c -> c_lc c <> Active -> c_chainable c = true -> HX n k m ->
  HX n k (set_rm m (remove_refs (remove_exps (cm_rm m) n) n)).
Proof.
  intros F L Ch [[A B C D] X].
  assert (P : prim e true any_kind m (set_rm m (remove_refs (remove_exps (cm_rm m) n) n))) by (eapply p_remove; [exact I|exact F|exact L|exact Ch]).
  set (r' := remove_refs (remove_exps (cm_rm m) n) n) in *.
  assert (ND : NoDup (rm_ckeys (cm_rm m))) by apply (ci_r _ A).
  assert (KEEP : in_use m k -> aget (rm_claimed r') k = aget (rm_claimed (cm_rm m)) k /\ (In k (rm_ckeys (cm_rm m)) -> In k (rm_ckeys r'))).
  { intros U. unfold r', remove_refs. rewrite refs_remove_exps. destruct (aget (rm_refs (cm_rm m)) n) as [ks|] eqn:E.
    - assert (NK : ~ In k ks) by (intros Hk; exact (X ks E Hk U)).
      cbn [with_cmap with_refs rm_claimed rm_ckeys]. rewrite claimed_remove_exps, ck_remove_exps. split.
      + apply fold_adel_other. exact NK.
      + intros Hk. apply (remove_items_spec ks _ ND). split; assumption.
    - rewrite claimed_remove_exps, ck_remove_exps. auto. }
  constructor; [constructor|].
  - eapply prim_CI; eassumption.
  - eapply (prim_RX e true any_kind m (set_rm m r')); [apply A|exact P|exact B].
  - destruct C as [C1 C2]. split; [exact C1|]. intros E. cbn [set_rm cm_rm cm_ctrls] in *.
    destruct KEEP as [K _]; [apply in_use_cnt; rewrite E; discriminate|]. rewrite K. apply C2. exact E.
  - intros U. apply (proj1 (in_use_ctrls m (set_rm m r') k eq_refl)) in U. apply (proj2 (KEEP U)). apply D. exact U.
  - intros ks E. unfold refs_of in E. cbn [set_rm cm_rm] in E. exfalso. revert E. unfold r', remove_refs. rewrite refs_remove_exps.
    destruct (aget (rm_refs (cm_rm m)) n) as [k0|] eqn:E; [|rewrite ?refs_remove_exps, ?E; discriminate].
    cbn [with_cmap with_refs rm_refs]. rewrite aget_adel, String.eqb_refl. discriminate.
Qed.
Lemma cleanup_exports_HX (e : env) m n k : HX n k m -> HX n k (cleanup_exports m n).
Proof.
  intros H. unfold cleanup_exports. destruct (find_ctrl m n) as [c|] eqn:F; [|exact H].
  destruct (is_lc Active c) eqn:L; cbn [negb andb]; [exact H|]. destruct (c_chainable c) eqn:Ch; [|exact H].
  apply (remove_HX e) with c; try assumption. intros E. unfold is_lc in L. rewrite E in L. discriminate.
Qed.
Lemma import_HX (e : env) m n c k r1 : find_ctrl m n = Some c -> c_chainable c = true ->
  import_refs (cm_rm m) n (c_refs c) = (r1, true) -> HX n k m -> HX n k (set_rm m r1).
Proof.
  intros F Ch E [[A B C D] X].
  assert (P : prim e true any_kind m (set_rm m r1)).
  { replace r1 with (fst (import_refs (cm_rm m) n (c_refs c))) by (rewrite E; reflexivity). apply p_import_refs; [exact I|exact F|exact Ch|rewrite E; reflexivity]. }
  pose proof E as E'. unfold import_refs in E'. destruct (add_cmd_itfs (c_refs c) (cm_rm m)) as [r2 []] eqn:EA; [|discriminate].
  injection E' as <-. apply add_cmd_spec in EA. destruct EA as (K1 & K2 & _ & K4 & _).
  constructor; [constructor|].
  - eapply prim_CI; eassumption.
  - eapply (prim_RX e true any_kind m); [apply A|exact P|exact B].
  - destruct C as [C1 C2]. split; [exact C1|]. intros Z. cbn [set_rm cm_rm cm_ctrls] in *.
    pose proof (import_refs_claimed (cm_rm m) n (c_refs c) k true (C2 Z)) as Q. rewrite E in Q. exact Q.
  - intros U. apply (proj1 (in_use_ctrls m (set_rm m _) k eq_refl)) in U. cbn [set_rm cm_rm with_refs rm_ckeys]. rewrite K1. apply in_app_iff. left. apply D. exact U.
  - intros ks Er Hk U. apply (proj1 (in_use_ctrls m (set_rm m _) k eq_refl)) in U. unfold refs_of in Er. cbn [set_rm cm_rm with_refs rm_refs] in Er.
    rewrite aget_aset, String.eqb_refl in Er. injection Er as <-. exact (K2 k Hk (D U)).
Qed.
Lemma import_exps_HX (e : env) m n c k : find_ctrl m n = Some c -> c_chainable c = true ->
  HX n k m -> HX n k (set_rm m (import_exps (cm_rm m) n (c_exps c))).
Proof.
  intros F Ch [[A B C D] X].
  assert (P : prim e true any_kind m (set_rm m (import_exps (cm_rm m) n (c_exps c)))) by (apply p_import_exps; [exact I|exact F|exact Ch]).
  assert (T : rm_ckeys (import_exps (cm_rm m) n (c_exps c)) = rm_ckeys (cm_rm m) /\ rm_refs (import_exps (cm_rm m) n (c_exps c)) = rm_refs (cm_rm m) /\
     rm_claimed (import_exps (cm_rm m) n (c_exps c)) = rm_claimed (cm_rm m)).
  { unfold import_exps. destruct (add_state_itfs (c_exps c) (cm_rm m)) as [r1 ad] eqn:EA. apply add_state_spec in EA.
    destruct EA as (_ & _ & T1 & T2 & _ & T4). cbn [with_exps rm_ckeys rm_refs rm_claimed]. auto. }
  destruct T as (T1 & T2 & T3).
  constructor; [constructor|].
  - eapply prim_CI; eassumption.
  - eapply (prim_RX e true any_kind m); [apply A|exact P|exact B].
  - destruct C as [C1 C2]. split; [exact C1|]. intros Z. cbn [set_rm cm_rm cm_ctrls] in *. rewrite T3. apply C2. exact Z.
  - intros U. apply (proj1 (in_use_ctrls m (set_rm m _) k eq_refl)) in U. cbn [set_rm cm_rm]. rewrite T1. apply D. exact U.
  - intros ks Er Hk U. apply (proj1 (in_use_ctrls m (set_rm m _) k eq_refl)) in U. unfold refs_of in Er. cbn [set_rm cm_rm] in Er. rewrite T2 in Er. exact (X ks Er Hk U).
Qed.

(** ---- the service calls *)
Definition quietly (x : pk) : Prop := x = KList \/ x = KConf.
Lemma qi : ~ quietly KImport. Proof. intros [|]; discriminate. Qed.
Lemma qu : ~ quietly KUp. Proof. intros [|]; discriminate. Qed.
Section Service.
Variables (e : env) (n k : name).
Let go := fun m m' => steps_HX e true quietly n k m m' qi qu.

Lemma node_cleanup_HX m : HX n k m -> HX n k (node_cleanup e m n).
Proof. intros H. eapply go; [exact H|apply node_cleanup_steps]. Qed.
Lemma node_configure_HX m : HX n k m -> HX n k (node_configure e m n).
Proof. intros H. eapply go; [exact H|apply node_configure_steps]. right. reflexivity. Qed.
Lemma node_shutdown_HX m : HX n k m -> HX n k (node_shutdown e m n).
Proof. intros H. eapply go; [exact H|apply node_shutdown_steps]. Qed.
Lemma cleanup_spec_HX m : HX n k m -> HX n k (fst (cleanup_spec e m n)).
Proof. intros H. unfold cleanup_spec. cbn [fst]. apply node_cleanup_HX. apply cleanup_exports_HX; assumption. Qed.
Lemma cleanup_HX m : HX n k m -> HX n k (fst (cleanup_controller e m n)).
Proof. intros H. unfold cleanup_controller. destruct (find_ctrl m n) as [c|]; [|exact H]. destruct (c_lc c); try exact H; apply cleanup_spec_HX; exact H. Qed.
End Service.

Lemma unload_GX (e : env) n k m : HX n k m -> GX k (fst (unload_controller e m n)).
Proof.
  intros HX0. pose proof (proj1 (ci_n _ (gx_ci _ _ (hx_g _ _ _ HX0)))) as ND.
  unfold unload_controller. destruct (find_ctrl m n) as [c|] eqn:F; [|exact (hx_g _ _ _ HX0)].
  destruct (is_lc Active c) eqn:L; [exact (hx_g _ _ _ HX0)|].
  assert (NA : not_active m n).
  { exists c. split; [exact F|]. intros C. unfold is_lc in L. rewrite C in L. discriminate. }
  pose proof (cleanup_HX e n k m HX0) as S1. pose proof (na_cleanup e m n NA) as NA1.
  pose proof (fr_names _ _ _ (frame_cleanup e m n)) as N1.
  destruct (cleanup_controller e m n) as [m1 ok]. cbn [fst] in *.
  destruct (negb ok); [exact (hx_g _ _ _ S1)|]. cbv zeta. cbn [fst].
  set (s := spec_cleanup (cm_spec m1) n).
  set (m3' := if has_lc m1 n Inactive || has_lc m1 n Unconfigured then node_shutdown e m1 n else m1).
  assert (E3 : (if has_lc (set_topo m1 s (cm_refc m1) (cm_stc m1)) n Inactive || has_lc (set_topo m1 s (cm_refc m1) (cm_stc m1)) n Unconfigured
     then node_shutdown e (set_topo m1 s (cm_refc m1) (cm_stc m1)) n else set_topo m1 s (cm_refc m1) (cm_stc m1)) =
     set_topo m3' s (cm_refc m1) (cm_stc m1)).
  { change (has_lc (set_topo m1 s (cm_refc m1) (cm_stc m1)) n Inactive) with (has_lc m1 n Inactive).
    change (has_lc (set_topo m1 s (cm_refc m1) (cm_stc m1)) n Unconfigured) with (has_lc m1 n Unconfigured).
    unfold m3'. destruct (_ || _); [apply topo_node_shutdown|reflexivity]. }
  rewrite E3. clear E3.
  assert (S3 : HX n k m3') by (unfold m3'; destruct (_ || _); [apply node_shutdown_HX; exact S1|exact S1]).
  assert (FR : frame n m1 m3') by (unfold m3'; destruct (_ || _); [apply frame_shutdown|apply frame_refl]).
  assert (NA3 : not_active m3' n) by (unfold m3'; destruct (_ || _); [apply na_shutdown; exact NA1|exact NA1]).
  destruct NA3 as (c3 & F3 & L3).
  assert (ND3 : NoDup (map c_name (cm_ctrls m3'))) by (rewrite (fr_names _ _ _ FR), N1; exact ND).
  pose proof (release_steps e true quietly m3' n c3 F3 L3 ND3) as S4.
  apply (steps_GX _ _ _ _ _ k qi (hx_g _ _ _ S3)) in S4.
  assert (E4 : release_itfs (set_topo m3' s (cm_refc m1) (cm_stc m1)) n = set_topo (release_itfs m3' n) s (cm_refc m1) (cm_stc m1)).
  { unfold release_itfs. change (find_ctrl (set_topo m3' s (cm_refc m1) (cm_stc m1)) n) with (find_ctrl m3' n). rewrite F3. reflexivity. }
  rewrite E4.
  pose proof (find_release n m3' c3 F3) as F4.
  pose proof (p_unload e true quietly (release_itfs m3' n) n _ (or_introl eq_refl) F4 L3 eq_refl) as K.
  pose proof (frame_release n m3') as FR4.
  rewrite (fr_spec _ _ _ FR4), (fr_refc _ _ _ FR4), (fr_stc _ _ _ FR4), (fr_spec _ _ _ FR), (fr_refc _ _ _ FR), (fr_stc _ _ _ FR) in K.
  exact (prim_GX _ _ _ _ _ k qi S4 K).
Qed.

Lemma configure_GX (e : env) m n k order m' b : HX n k m -> configure_controller e m n order = Val (m', b) -> GX k m'.
Proof.
  intros H0. unfold configure_controller. destruct (find_ctrl m n) as [c|] eqn:F; [|intros [= <- <-]; exact (hx_g _ _ _ H0)].
  assert (G : (let '(m1, ok1) := if is_lc Inactive c then cleanup_spec e m n else (m, true) in
      if negb ok1 then Val (m1, false)
      else
        let m2 := node_configure e (cleanup_exports m1 n) n in
        if negb (has_lc m2 n Inactive) then Val (m2, false)
        else if c_chainable c && negb (exports_ok c) then Val (fst (cleanup_spec e m2 n), false)
        else
          do m3 <- (if c_chainable c then
                      let '(r1, ok) := import_refs (cm_rm m2) n (c_refs c) in
                      if negb ok then Crash
                      else
                        exports_unavailable (set_chained e (set_rm m2 (import_exps r1 n (c_exps c))) n false) n
                    else Val m2);
          if negb (uniqueb (cmd_names (cm_rm m3) c)) || negb (uniqueb (state_names (cm_rm m3) c))
          then Val (fst (cleanup_spec e m3 n), false)
          else
            do m4 <- build_topology m3;
            do m5 <- reorder m4 order;
            Val (m5, true)) = Val (m', b) -> GX k m').
  2:{ destruct (c_lc c); try exact G; intros [= <- <-]; exact (hx_g _ _ _ H0). }
  assert (S1 : HX n k (fst (if is_lc Inactive c then cleanup_spec e m n else (m, true)))).
  { destruct (is_lc Inactive c); [apply cleanup_spec_HX; exact H0|exact H0]. }
  assert (FR1 : frame n m (fst (if is_lc Inactive c then cleanup_spec e m n else (m, true)))).
  { destruct (is_lc Inactive c); [apply frame_cleanup_spec|apply frame_refl]. }
  destruct (if is_lc Inactive c then cleanup_spec e m n else (m, true)) as [m1 ok1]. cbn [fst] in *.
  destruct (negb ok1); [intros [= <- <-]; exact (hx_g _ _ _ S1)|]. cbv zeta.
  assert (S2 : HX n k (node_configure e (cleanup_exports m1 n) n)).
  { apply node_configure_HX. apply cleanup_exports_HX; assumption. }
  assert (FR2 : frame n m (node_configure e (cleanup_exports m1 n) n)).
  { eapply frame_trans; [exact FR1|]. eapply frame_trans; [apply frame_cleanup_exports|apply frame_transition]. }
  set (m2 := node_configure e (cleanup_exports m1 n) n) in *.
  destruct (negb (has_lc m2 n Inactive)) eqn:HI; [intros [= <- <-]; exact (hx_g _ _ _ S2)|].
  destruct (_ && _).
  { intros [= <- <-]. apply hx_g with n. apply cleanup_spec_HX. exact S2. }
  intros H. apply bind_val in H. destruct H as (m3 & H3 & H).
  assert (S3 : HX n k m3).
  { destruct (c_chainable c) eqn:Ch; [|injection H3 as <-; exact S2].
    assert (F2 : exists c2, find_ctrl m2 n = Some c2).
    { unfold has_lc in HI. destruct (find_ctrl m2 n) as [c2|]; [eauto|discriminate]. }
    destruct F2 as [c2 F2]. destruct (fr_const _ _ _ FR2 c2 F2) as (c0 & F0 & SC).
    assert (c0 = c) by congruence. subst c0. destruct SC as (Q1 & Q2 & Q3 & Q4 & Q5 & Q6 & Q7).
    assert (Ch2 : c_chainable c2 = true) by congruence.
    pose proof (fun r1 => import_HX e m2 n c2 k r1 F2 Ch2) as K. rewrite Q6 in K.
    destruct (import_refs (cm_rm m2) n (c_refs c)) as [r1 ok].
    destruct ok; [|discriminate]. cbn [negb] in H3. specialize (K r1 eq_refl S2).
    pose proof (import_exps_HX e (set_rm m2 r1) n c2 k F2 Ch2 K) as K2. rewrite Q7 in K2.
    apply (exports_unavailable_steps e true quietly) in H3.
    eapply (steps_HX e true quietly); [exact qi|exact qu| |exact H3].
    eapply (steps_HX e true quietly); [exact qi|exact qu|exact K2|apply set_chained_steps]. }
  destruct (_ || _).
  { injection H as <- <-. apply hx_g with n. apply cleanup_spec_HX. exact S3. }
  apply bind_val in H. destruct H as (m4 & H4 & H). apply bind_val in H. destruct H as (m5 & H5 & H).
  injection H as <- <-. eapply (prim_GX e true quietly); [exact qi|exact (hx_g _ _ _ S3)|].
  eapply p_topo; [left; reflexivity|eassumption|eassumption].
Qed.

(** ---- one operation *)
Lemma cstep_GX e allow k m o m' out : GX k m ->
  (forall n c ks, rebuilds o n -> find_ctrl m n = Some c -> c_lc c <> Active -> refs_of m n = Some ks -> In k ks -> ~ in_use m k) ->
  cstep e allow m o = Val (m', out) -> GX k m'.
Proof.
  intros HG HD HS. unfold cstep in HS. set (m0 := emit m EvOp) in *.
  assert (mi : ~ moving KImport) by (intros X; apply X; reflexivity).
  assert (KU : moving KUp) by discriminate. assert (KL : moving KList) by discriminate. assert (KH : moving KHw) by discriminate. assert (KP : moving KPend) by discriminate.
  assert (G0 : GX k m0) by (apply (steps_GX e allow moving m m0 k mi HG); apply emit_step; reflexivity).
  assert (GO : forall x, steps e allow moving m0 x -> GX k x) by (intros x Hx; exact (steps_GX e allow moving m0 x k mi G0 Hx)).
  assert (SV : forall x, (x = Val (m', out) -> GX k m') -> serviced m0 x = Val (m', out) -> GX k m').
  { intros x A H. unfold serviced in H. destruct (cm_pend m0); [injection H as <- <-; exact G0|apply A; exact H]. }
  assert (H0 : forall n, rebuilds o n -> (exists c, find_ctrl m n = Some c /\ c_lc c <> Active) -> HX n k m0).
  { intros n R (c & F & L). constructor; [exact G0|]. intros ks E Hk. exact (HD n c ks R F L E Hk). }
  assert (DO : forall n, (exists c, find_ctrl m n = Some c /\ c_lc c <> Active) \/ find_ctrl m0 n = None \/ exists c, find_ctrl m0 n = Some c /\ c_lc c = Active).
  { intros n. change (find_ctrl m0 n) with (find_ctrl m n). destruct (find_ctrl m n) as [c|]; [|right; left; reflexivity].
    destruct (c_lc c) eqn:L; try (left; exists c; rewrite L; split; [reflexivity|discriminate]). right. right. exists c. auto. }
  destruct o.
  - revert HS. apply SV. intros [= <- <-]. apply GO. apply load_steps. exact KL.
  - revert HS. apply SV. intros [= <- <-]. destruct (DO n) as [A|[A|(c & A & B)]].
    + apply unload_GX. apply H0; [reflexivity|exact A].
    + unfold unload_controller. rewrite A. exact G0.
    + unfold unload_controller, is_lc. rewrite A, B. exact G0.
  - revert HS. apply SV. intros [= <- <-]. destruct (DO n) as [A|[A|(c & A & B)]].
    + apply hx_g with n. apply cleanup_HX. apply H0; [reflexivity|exact A].
    + unfold cleanup_controller. rewrite A. exact G0.
    + unfold cleanup_controller. rewrite A, B. exact G0.
  - revert HS. apply SV. intros H. apply bind_val in H. destruct H as ([m1 b] & H & H1). injection H1 as <- <-. cbn [fst].
    destruct (DO n) as [A|[A|(c & A & B)]].
    + eapply configure_GX; [apply H0; [reflexivity|exact A]|exact H].
    + unfold configure_controller in H. rewrite A in H. injection H as <- <-. exact G0.
    + unfold configure_controller in H. rewrite A, B in H. injection H as <- <-. exact G0.
  - revert HS. apply SV. intros H. apply bind_val in H. destruct H as ([m1 b] & H & H1). injection H1 as <- <-.
    apply (request_steps e allow moving) in H. destruct H as (r & S & [[-> _]|(p & -> & _)]); [apply GO; exact S|].
    apply GO. eapply s_one; [exact S|]. apply p_pend. exact KP.
  - destruct (cm_pend m0) as [p|]; [|injection HS as <- <-; exact G0].
    destruct (p_done p); [injection HS as <- <-; exact G0|].
    apply bind_val in HS. destruct HS as (m1 & H & H1). injection H1 as <- <-.
    apply (manage_switch_steps e allow moving KU) in H. apply GO. eapply s_one; [exact H|apply p_pend; exact KP].
  - destruct (cm_pend m0) as [p|]; [|injection HS as <- <-; exact G0].
    destruct (p_done p); injection HS as <- <-; [exact G0|]. apply GO. eapply s_one; [apply s_refl|apply p_pend; exact KP].
  - destruct (cm_pend m0) as [p|]; [|injection HS as <- <-; exact G0].
    destruct (p_done p); injection HS as <- <-; [|exact G0]. apply GO. apply (evaluate_steps e allow moving KP m0 p).
  - injection HS as <- <-. apply GO. apply read_steps. exact KH.
  - apply bind_val in HS. destruct HS as (m1 & H & H1). injection H1 as <- <-.
    apply GO. eapply (update_steps e allow moving KU); exact H.
  - injection HS as <- <-. apply GO. apply write_steps. exact KH.
  - pose proof (p_sethw e allow moving m0 h target KH) as K. destruct (set_component_state e (cm_rm m0) h target) as [r1 ok].
    injection HS as <- <-. apply GO. apply steps_prim. exact K.
Qed.

Lemma crun_last e allow m ops o m' : crun e allow m (ops ++ [o]) = Val m' ->
  exists m1 out, crun e allow m ops = Val m1 /\ cstep e allow m1 o = Val (m', out).
Proof.
  unfold crun. revert m. induction ops as [|x ops IH]; intros m H; cbn [app rfold] in H.
  - apply bind_val in H. destruct H as (m1 & H & H2). injection H2 as <-. apply bind_val in H. destruct H as ([m2 out] & H & H2).
    injection H2 as <-. exists m, out. split; [reflexivity|exact H].
  - apply bind_val in H. destruct H as (m1 & H & H2). destruct (IH m1 H2) as (m2 & out & A & B). exists m2, out. split; [|exact B].
    cbn [rfold]. rewrite H. exact A.
Qed.
Lemma start_GX (e : env) hs k : wf_hw hs -> GX k (cm_start hs).
Proof.
  intros W. assert (X : XI (cm_start hs)) by (eapply (reach_XI e true hs []); [exact W|reflexivity]).
  constructor; [apply X|apply X|split; [vm_compute; auto|intros C; discriminate]|intros (c & [] & _)].
Qed.
Lemma reach_GX e allow hs k : wf_hw hs -> forall ops m, undisturbed e allow hs ops k -> crun e allow (cm_start hs) ops = Val m -> GX k m.
Proof.
  intros W ops. induction ops as [|o ops IH] using rev_ind; intros m HU HR.
  - injection HR as <-. apply (start_GX e). exact W.
  - destruct (crun_last _ _ _ _ _ _ HR) as (m1 & out & H1 & H2).
    assert (HU1 : undisturbed e allow hs ops k).
    { intros pre x post mm n c ks E. apply (HU pre x (post ++ [o])). rewrite E. rewrite <- app_assoc. reflexivity. }
    eapply cstep_GX; [exact (IH m1 HU1 H1)| |exact H2].
    intros n c ks R F L E I. exact (HU ops o [] m1 n c ks eq_refl H1 R F L E I).
Qed.
Lemma main_one_holder e allow hs ops m k c1 c2 : wf_hw hs -> undisturbed e allow hs ops k ->
  crun e allow (cm_start hs) ops = Val m -> In c1 (cm_ctrls m) -> In c2 (cm_ctrls m) -> c_name c1 <> c_name c2 ->
  In k (c_cloans c1) -> In k (c_cloans c2) -> False.
Proof.
  intros W HU H H1 H2 Ne K1 K2. destruct (gx_ex _ _ (reach_GX _ _ _ _ W _ _ HU H)) as [E _].
  assert (2 <= cnt k (cm_ctrls m)); [|lia]. eapply cnt_two; [exact H1|exact H2|congruence|exact K1|exact K2].
Qed.
Lemma main_held e allow hs ops m k c : wf_hw hs -> undisturbed e allow hs ops k ->
  crun e allow (cm_start hs) ops = Val m -> In c (cm_ctrls m) -> In k (c_cloans c) ->
  aget (rm_claimed (cm_rm m)) k = Some true /\ In k (rm_ckeys (cm_rm m)) /\ count_occ string_dec (c_cloans c) k = 1.
Proof.
  intros W HU H Hc K. pose proof (reach_GX _ _ _ _ W _ _ HU H) as G. destruct (gx_ex _ _ G) as [E1 E2].
  assert (U : In k (rm_ckeys (cm_rm m))) by (apply (gx_key _ _ G); exists c; split; assumption).
  apply (count_occ_In string_dec) in K. apply in_split in Hc. destruct Hc as (a & b & El).
  assert (X : cnt k (cm_ctrls m) = cnt k a + (count_occ string_dec (c_cloans c) k + cnt k b)) by (rewrite El, cnt_app, cnt_cons; lia).
  split; [apply E2; lia|]. split; [exact U|lia].
Qed.

(** a check of the condition on a concrete history *)
Definition op_fine (m : cm) (o : cop) (k : name) : bool :=
  match o with
  | CConfigure n _ | CCleanup n | CUnload n =>
      negb (match refs_of m n with Some ks => mem k ks | None => false end) ||
      negb (match find_ctrl m n with Some c => negb (is_lc Active c) | None => false end) ||
      forallb (fun c => negb (mem k (c_cloans c))) (cm_ctrls m)
  | _ => true
  end.
Fixpoint all_fine (e : env) (allow : bool) (m : cm) (ops : list cop) (k : name) : bool :=
  match ops with
  | [] => true
  | o :: ops' => op_fine m o k && match cstep e allow m o with Val (m', _) => all_fine e allow m' ops' k | Crash => true end
  end.
Lemma op_fine_ok m o k n c ks : op_fine m o k = true -> rebuilds o n -> find_ctrl m n = Some c -> c_lc c <> Active ->
  refs_of m n = Some ks -> In k ks -> ~ in_use m k.
Proof.
  intros H R F L E I (c' & Hc' & K).
  assert (X : negb (match refs_of m n with Some ks => mem k ks | None => false end) ||
      negb (match find_ctrl m n with Some c => negb (is_lc Active c) | None => false end) ||
      forallb (fun c => negb (mem k (c_cloans c))) (cm_ctrls m) = true).
  { destruct o; cbn [rebuilds] in R; try contradiction; subst; exact H. }
  rewrite E, F in X. apply mem_In in I. rewrite I in X. cbn [negb orb] in X. apply orb_true_iff in X. destruct X as [X|X].
  - apply L. unfold is_lc in X. destruct (c_lc c); try discriminate X; reflexivity.
  - rewrite forallb_forall in X. specialize (X c' Hc'). apply mem_In in K. rewrite K in X. discriminate.
Qed.
Lemma all_fine_ok e allow k : forall ops m0, all_fine e allow m0 ops k = true ->
  forall pre o post m n c ks, ops = pre ++ o :: post -> crun e allow m0 pre = Val m ->
    rebuilds o n -> find_ctrl m n = Some c -> c_lc c <> Active -> refs_of m n = Some ks -> In k ks -> ~ in_use m k.
Proof.
  induction ops as [|x ops IH]; intros m0 H pre o post m n c ks E R; [destruct pre; discriminate|].
  cbn [all_fine] in H. apply andb_true_iff in H. destruct H as [H1 H2]. destruct pre as [|y pre].
  - injection E as <- _. injection R as <-. apply op_fine_ok. exact H1.
  - injection E as <- E. unfold crun in R. cbn [rfold] in R. apply bind_val in R. destruct R as (m1 & R1 & R).
    apply bind_val in R1. destruct R1 as ([m2 out] & R1 & R2). injection R2 as <-. rewrite R1 in H2.
    exact (IH m2 H2 pre o post m n c ks E R).
Qed.
Lemma undisturbed_check e allow hs ops k : all_fine e allow (cm_start hs) ops k = true -> undisturbed e allow hs ops k.
Proof. intros H pre o post m n c ks. apply (all_fine_ok e allow k ops _ H). Qed.
