(** CmCache.v -- the chain caches name every user of a configured controller's interfaces (C18). *)
From Verif Require Import Base Events HwModel RmModel ChainModel CmModel CmPrim ChainSpec CmTopo ChainMain CmInv CmSpec CmSwitch CmOutcome CmLoad.

Definition no_conf (k : pk) : Prop := k <> KConf.
Lemma cstep_steps_nc e allow m o m' out : (forall n order, o <> CmModel.CConfigure n order) ->
  NoDup (map c_name (cm_ctrls m)) -> cstep e allow m o = Val (m', out) -> steps e allow no_conf m m'.
Proof.
  intros HO ND. unfold cstep. set (m0 := emit m EvOp).
  assert (S0 : steps e allow no_conf m m0) by (apply emit_step; reflexivity).
  assert (SV : forall x, (x = Val (m', out) -> steps e allow no_conf m0 m') -> serviced m0 x = Val (m', out) -> steps e allow no_conf m m').
  { intros x Hx H. unfold serviced in H. destruct (cm_pend m0); [injection H as <- <-; exact S0|].
    eapply steps_trans; [exact S0|apply Hx; exact H]. }
  destruct o.
  - apply SV. intros [= <- <-]. apply load_steps; discriminate.
  - apply SV. intros [= <- <-]. apply unload_steps; try discriminate. exact ND.
  - apply SV. intros [= <- <-]. apply cleanup_controller_steps; discriminate.
  - exfalso. eapply HO. reflexivity.
  - apply SV. intros H. apply bind_val in H. destruct H as ([m1 b] & H & H1). injection H1 as <- <-.
    apply (request_steps e allow no_conf) in H. destruct H as (r & S & [[-> _]|(p & -> & _)]); [exact S|].
    eapply s_one; [exact S|]. apply p_pend. discriminate.
  - destruct (cm_pend m0) as [p|]; [|intros [= <- <-]; exact S0].
    destruct (p_done p); [intros [= <- <-]; exact S0|].
    intros H. apply bind_val in H. destruct H as (m1 & H & H1). injection H1 as <- <-.
    apply (manage_switch_steps e allow no_conf) in H; try discriminate.
    eapply s_one; [eapply steps_trans; [exact S0|exact H]|]. apply p_pend. discriminate.
  - destruct (cm_pend m0) as [p|]; [|intros [= <- <-]; exact S0].
    destruct (p_done p); intros [= <- <-]; [exact S0|]. eapply s_one; [exact S0|apply p_pend; discriminate].
  - destruct (cm_pend m0) as [p|]; [|intros [= <- <-]; exact S0].
    destruct (p_done p); intros [= <- <-]; [|exact S0].
    eapply steps_trans; [exact S0|]. exact (evaluate_steps e allow no_conf ltac:(discriminate) m0 p).
  - intros [= <- <-]. eapply steps_trans; [exact S0|apply read_steps; discriminate].
  - intros H. apply bind_val in H. destruct H as (m1 & H & H1). injection H1 as <- <-.
    eapply steps_trans; [exact S0|]. eapply (update_steps e allow no_conf); [discriminate..|exact H].
  - intros [= <- <-]. eapply steps_trans; [exact S0|apply write_steps; discriminate].
  - pose proof (p_sethw e allow no_conf m0 h target) as K. destruct (set_component_state e (cm_rm m0) h target) as [r1 ok].
    intros [= <- <-]. eapply s_one; [exact S0|]. apply K. discriminate.
Qed.

Definition conf (c : ctrl) : Prop := c_lc c = Inactive \/ c_lc c = Active.
Definition names_one (cfg : icfg) (k : name) : Prop := exists ks, cfg = IIndividual ks /\ In k ks.
Definition CC (m : cm) : Prop := forall c f k, In c (cm_ctrls m) -> In f (cm_ctrls m) -> conf c -> conf f ->
  prefix_of k = Some (c_name f) ->
  (names_one (c_cmd c) k -> In (c_name c) (cache_get (cm_refc m) (c_name f))) /\
  (names_one (c_state c) k -> In (c_name c) (cache_get (cm_stc m) (c_name f))).

(** controllers only lose [conf], keep names and interfaces *)
Lemma CC_shrink m m' : cm_refc m' = cm_refc m -> cm_stc m' = cm_stc m ->
  (forall c', In c' (cm_ctrls m') -> exists c, In c (cm_ctrls m) /\ c_name c' = c_name c /\ c_cmd c' = c_cmd c /\
     c_state c' = c_state c /\ (conf c' -> conf c)) -> CC m -> CC m'.
Proof.
  intros E1 E2 K H c' f' k Hc Hf Cc Cf P. destruct (K _ Hc) as (c & Ic & N1 & N2 & N3 & N4).
  destruct (K _ Hf) as (f & If & M1 & _ & _ & M4). rewrite E1, E2, N1, N2, N3, M1 in *.
  apply (H c f k); auto.
Qed.
Lemma CC_same m m' : cm_ctrls m' = cm_ctrls m -> cm_refc m' = cm_refc m -> cm_stc m' = cm_stc m -> CC m -> CC m'.
Proof. intros E E1 E2. apply CC_shrink; auto. intros c' Hc. exists c'. rewrite E in Hc. auto 7. Qed.
Lemma CC_upd m n f : keeps f -> (forall c, find_ctrl m n = Some c -> conf (f c) -> conf c) -> NI m -> CC m -> CC (upd m n f).
Proof.
  intros K L HN. apply CC_shrink; try reflexivity. intros c' Hc. cbn [upd set_ctrls cm_ctrls] in Hc. apply In_upd in Hc.
  destruct Hc as [[Hc _]|(c & Hc & Hn & ->)]; [exists c'; auto 7|]. exists c.
  destruct (K c) as (Q1 & _ & Q3 & Q4 & _). split; [exact Hc|]. rewrite Q1, Q3, Q4. do 3 (split; [reflexivity|]).
  apply L. unfold find_ctrl. rewrite <- Hn. apply NoDup_find; [exact (proj1 HN)|exact Hc].
Qed.
Lemma CC_set_upd m r n f : keeps f -> (forall c, find_ctrl m n = Some c -> conf (f c) -> conf c) -> NI m -> CC m -> CC (upd (set_rm m r) n f).
Proof. intros. apply CC_upd; auto. Qed.

Lemma CC_topo m m' order m'' : NI m -> build_topology m = Val m' -> reorder m' order = Val m'' -> CC m''.
Proof.
  intros HN HB HR. pose proof (reorder_members _ _ _ _ HN HB HR) as RM.
  destruct (build_topology_spec m m' (proj2 HN) HB) as (s & rc & sc & E & _ & _ & _ & K4 & K5).
  unfold reorder in HR. apply bind_val in HR. destruct HR as (ns & _ & HR).
  assert (E1 : cm_refc m'' = rc /\ cm_stc m'' = sc) by (injection HR as <-; subst m'; auto).
  destruct E1 as [E1 E2]. intros c' f' k Hc Hf Cc Cf P.
  destruct (RM _ Hc) as (c & g & Ic & ->). destruct (RM _ Hf) as (f & g' & If & ->).
  cbn [upd_group c_name c_cmd c_state] in *. rewrite E1, E2.
  assert (LC : c_lc c <> Unconfigured) by (destruct Cc as [Cc|Cc]; unfold conf in Cc; cbn in Cc; congruence).
  assert (LF : In (c_name f) (map c_name (cm_ctrls m))) by (apply in_map; exact If).
  split; intros (ks & EQ & Hk).
  - apply K4. exists c. split; [exact Ic|]. split; [reflexivity|]. split; [exact LC|]. split; [exact LF|].
    exists k. split; [|exact P]. unfold cmd_names. rewrite EQ. exact Hk.
  - apply K5. exists c. split; [exact Ic|]. split; [reflexivity|]. split; [exact LC|]. split; [exact LF|].
    exists k. split; [|exact P]. unfold state_names. rewrite EQ. exact Hk.
Qed.

Lemma prim_CC e allow m m' : NI m -> CC m -> prim e allow no_conf m m' -> CC m'.
Proof.
  intros HN HC P. pose proof (proj1 HN) as ND.
  destruct P; try (eapply CC_same; [reflexivity..|exact HC]).
  - apply CC_upd; auto; [apply keeps_lc|]. intros c0 F0 [L|L]; cbn in L; [|congruence].
    assert (c0 = c) by congruence. subst. destruct (H2 eq_refl) as [L'|C]; [left; exact L'|exfalso; apply C; reflexivity].
  - apply CC_set_upd; auto; [apply keeps_stop|]. intros c0 F0 [L|L]; cbn in L; assert (c0 = c) by congruence; subst.
    + destruct (H1 eq_refl); [left|right]; assumption.
    + right. apply (H0 eq_refl).
  - apply CC_set_upd; auto; [apply keeps_run|]. intros c0 F0 _. assert (c0 = c) by congruence. subst. left. assumption.
  - apply CC_set_upd; auto. apply keeps_loans.
  - apply CC_set_upd; auto; [apply keeps_stop|]. intros c0 F0 [L|L]; cbn in L; [|congruence]. assert (c0 = c) by congruence. subst.
    left. apply H3. reflexivity.
  - apply CC_set_upd; auto. apply keeps_loans.
  - apply CC_upd; auto. apply keeps_chained.
  - intros c0 f k Hc Hf Cc Cf P. cbn [set_topo set_ctrls cm_ctrls cm_refc cm_stc] in *.
    assert (A : forall x, In x (cm_ctrls m ++ [fresh c]) -> conf x -> In x (cm_ctrls m) /\ c_name x <> c_name c).
    { intros x Hx Cx. apply in_app_iff in Hx. destruct Hx as [Hx|[<-|[]]]; [|destruct Cx; discriminate].
      split; [exact Hx|]. intros E. unfold find_ctrl in H0. apply find_in_none in H0. apply H0. rewrite <- E. apply in_map. exact Hx. }
    destruct (A _ Hc Cc) as [Ic _]. destruct (A _ Hf Cf) as [If Nf].
    unfold cache_get. rewrite !aget_aset. destruct (String.eqb_spec (c_name f) (c_name c)); [contradiction|].
    apply (HC c0 f k); assumption.
  - eapply CC_shrink; [..|exact HC]; try reflexivity. intros c' Hc. cbn [set_topo set_ctrls cm_ctrls] in Hc. apply filter_In in Hc.
    exists c'. split; [exact (proj1 Hc)|auto].
  - eapply CC_topo; eassumption.
  - eapply CC_shrink; [..|exact HC]; try reflexivity. intros c' Hc. cbn [set_ctrls cm_ctrls] in Hc. apply in_map_iff in Hc.
    destruct Hc as (c & <- & Ic). exists c. split; [exact Ic|]. do 3 (split; [reflexivity|]). intros [L|L]; [left|right]; exact L.
Qed.

(** nobody's on_cleanup answers FAILURE *)
Definition cleans_up (e : env) : Prop := forall t n, e_ctrl e t n Events.CCleanup <> CbFailure.

Lemma CC_frame n m m' : NI m -> frame n m m' -> (forall c', find_ctrl m' n = Some c' -> ~ conf c') -> CC m -> CC m'.
Proof.
  intros HN FR NC HC. assert (ND' : NoDup (map c_name (cm_ctrls m'))) by (rewrite (fr_names _ _ _ FR); exact (proj1 HN)).
  assert (A : forall x, In x (cm_ctrls m') -> conf x -> In x (cm_ctrls m)).
  { intros x Hx Cx. pose proof (NoDup_find _ _ ND' Hx) as F. destruct (String.eqb_spec (c_name x) n) as [E|Ne].
    - rewrite E in F. exfalso. apply (NC x); assumption.
    - pose proof (fr_other _ _ _ FR _ Ne) as F'. unfold find_ctrl in F'. rewrite F in F'. eapply find_in_In. symmetry. exact F'. }
  intros c f k Hc Hf Cc Cf P. rewrite (fr_refc _ _ _ FR), (fr_stc _ _ _ FR). apply (HC c f k); auto.
Qed.

Lemma configure_CC e m n order m' b : cleans_up e -> NI m -> CC m -> configure_controller e m n order = Val (m', b) -> CC m'.
Proof.
  intros HE HN HC H. destruct b.
  - destruct (configure_split e true any_kind _ _ _ _ I I H) as (m3 & m4 & _ & FR & _ & HB & HR).
    eapply CC_topo; [|exact HB|exact HR]. eapply NI_same; [apply (fr_names _ _ _ FR)|apply (fr_spec _ _ _ FR)|exact HN].
  - destruct (state_in m n) as [l|] eqn:S.
    2:{ unfold configure_controller in H. unfold state_in in S. destruct (find_ctrl m n); [discriminate|]. injection H as <-. exact HC. }
    assert (D : (l = Unconfigured \/ l = Inactive) \/ l = Active \/ l = Finalized \/ l = Unknown) by (destruct l; auto).
    destruct D as [D|D].
    + destruct (configure_failed e m n order m' H) as [FR AR]; [destruct D as [-> | ->]; auto|].
      apply (CC_frame n m m'); auto. intros c' F C. unfold at_rest in AR.
      assert (SS : state_in m' n = Some (c_lc c')) by (unfold state_in; rewrite F; reflexivity). rewrite SS in AR.
      destruct AR as [AR|[AR|[_ (t & AR)]]]; [injection AR as AR|injection AR as AR|exact (HE _ _ AR)]; destruct C; congruence.
    + destruct (state_find _ _ _ S) as (c & F & L). unfold configure_controller in H. rewrite F, L in H.
      destruct D as [-> |[-> | ->]]; [injection H as <-; exact HC..|].
      unfold is_lc in H. rewrite L in H. cbn [lc_eqb] in H. cbn [negb] in H.
      pose proof (state_cleanup_exports m n) as SE. rewrite S in SE. destruct (state_find _ _ _ SE) as (c1 & F1 & L1).
      assert (E2 : node_configure e (cleanup_exports m n) n = cleanup_exports m n).
      { unfold node_configure, node_transition. rewrite F1, L1. reflexivity. }
      rewrite E2 in H. assert (E3 : has_lc (cleanup_exports m n) n Inactive = false).
      { unfold has_lc. rewrite F1. unfold is_lc. rewrite L1. reflexivity. }
      rewrite E3 in H. injection H as <-. eapply CC_same; [..|exact HC]; unfold cleanup_exports; rewrite F; destruct (_ && _); reflexivity.
Qed.

Lemma cstep_CC e allow m o m' out : cleans_up e -> NI m -> CC m -> cstep e allow m o = Val (m', out) -> NI m' /\ CC m'.
Proof.
  intros HE HN HC H. split.
  - eapply cstep_inv; [|apply prim_NI|exact HN|exact H]. intros x Hx. exact (proj1 Hx).
  - destruct (match o with CmModel.CConfigure _ _ => true | _ => false end) eqn:O.
    + destruct o; try discriminate. unfold cstep in H. set (m0 := emit m EvOp) in H. unfold serviced in H.
      assert (C0 : CC m0) by (eapply CC_same; [reflexivity..|exact HC]).
      destruct (cm_pend m0); [injection H as <- <-; exact C0|].
      apply bind_val in H. destruct H as ([mm b] & H & E). injection E as <- _.
      eapply configure_CC; [exact HE| |exact C0|exact H]. exact HN.
    + apply cstep_steps_nc in H; [|intros n order ->; discriminate|exact (proj1 HN)].
      assert (X : NI m' /\ CC m'); [|exact (proj2 X)].
      eapply (steps_inv e allow no_conf (fun x => NI x /\ CC x)); [|split; [exact HN|exact HC]|exact H].
      intros a b [N1 C1] P. split; [eapply prim_NI; [exact N1|exact P]|eapply prim_CC; eassumption].
Qed.
Lemma reach_CC e allow hs ops m : cleans_up e -> crun e allow (cm_start hs) ops = Val m -> CC m.
Proof.
  intros HE. assert (X : forall ops m0 m, NI m0 -> CC m0 -> crun e allow m0 ops = Val m -> CC m).
  { clear ops m. unfold crun. induction ops as [|o ops IH]; intros m0 m N C H; cbn [rfold] in H; [injection H as <-; exact C|].
    apply bind_val in H. destruct H as (m1 & H1 & H). apply bind_val in H1. destruct H1 as ([m2 out] & H1 & H2). injection H2 as <-.
    destruct (cstep_CC _ _ _ _ _ _ HE N C H1) as [N1 C1]. eapply IH; eassumption. }
  intros H. eapply X; [apply NI_start| |exact H]. intros c f k [].
Qed.

(** C18 *)
Lemma main_preceding e allow hs ops m a d asap m' out c f k : cleans_up e ->
  crun e allow (cm_start hs) ops = Val m ->
  cstep e allow m (CRequest a d true asap) = Val (m', out) ->
  In c (cm_ctrls m) -> In f (cm_ctrls m) -> c_chainable f = true -> c_lc c = Active ->
  (exists ks, (c_cmd c = IIndividual ks \/ c_state c = IIndividual ks) /\ In k ks) -> owned_by k (c_name f) ->
  In (c_name f) d -> ~ In (c_name c) d -> out = CSw SwError \/ out = CBlocked.
Proof.
  intros HE R H Hc Hf Ch Lc (ks & Hk & Ik) Ow Fd Nd. pose proof (reach_NI _ _ _ _ _ R) as [ND _].
  pose proof (reach_CC _ _ _ _ _ HE R) as HCC.
  unfold cstep in H. set (m0 := emit m EvOp) in H. unfold serviced in H. destruct (cm_pend m0) eqn:P; [injection H as <- <-; auto|].
  apply bind_val in H. destruct H as ([m1 o] & H & H1). injection H1 as <- <-.
  apply request_strict in H; [|exact ND]. destruct H as [[-> _]|[(-> & -> & -> & ->)|(-> & p & Rs & _ & SF)]]; [auto|destruct Fd|].
  exfalso. pose proof (sf_prec _ _ _ _ _ _ SF _ Fd) as (f' & Ff & Lf & K).
  assert (f' = f). { unfold find_ctrl in Ff. change (cm_ctrls m0) with (cm_ctrls m) in Ff. pose proof (NoDup_find _ _ ND Hf). congruence. }
  subst f'. apply Nd. apply (K Ch (c_name c) c); [|exact (NoDup_find _ _ ND Hc)|exact Lc].
  apply in_app_iff. change (cm_stc m0) with (cm_stc m). change (cm_refc m0) with (cm_refc m).
  destruct (HCC c f k Hc Hf (or_intror Lc) (or_intror Lf) Ow) as [C1 C2].
  destruct Hk as [Hk|Hk]; [right; apply C1|left; apply C2]; exists ks; auto.
Qed.
