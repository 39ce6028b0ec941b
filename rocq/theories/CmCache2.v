(** CmCache2.v -- the chain caches name nobody else: a configured controller that asks for its interfaces by name
    and is recorded as a user of [f] asks for an interface of [f] (converse of CmCache.v). *)
From Verif Require Import Base Events HwModel RmModel ChainModel CmModel CmPrim ChainSpec CmTopo ChainMain CmInv CmSpec CmSwitch CmOutcome CmLoad CmCache UpdateSpec.

Definition CS (m : cm) : Prop := forall c f, In c (cm_ctrls m) -> conf c -> by_name c ->
  In (c_name c) (cache_get (cm_refc m) f ++ cache_get (cm_stc m) f) ->
  exists k, (names_one (c_cmd c) k \/ names_one (c_state c) k) /\ prefix_of k = Some f.

Lemma CS_shrink m m' : cm_refc m' = cm_refc m -> cm_stc m' = cm_stc m ->
  (forall c', In c' (cm_ctrls m') -> exists c, In c (cm_ctrls m) /\ c_name c' = c_name c /\ c_cmd c' = c_cmd c /\
     c_state c' = c_state c /\ (conf c' -> conf c)) -> CS m -> CS m'.
Proof.
  intros E1 E2 K H c' f Hc Cc B I. destruct (K _ Hc) as (c & Ic & N1 & N2 & N3 & N4).
  unfold by_name in B. rewrite E1, E2, N1, N2, N3 in *. apply (H c f); auto.
Qed.
Lemma CS_same m m' : cm_ctrls m' = cm_ctrls m -> cm_refc m' = cm_refc m -> cm_stc m' = cm_stc m -> CS m -> CS m'.
Proof. intros E E1 E2. apply CS_shrink; auto. intros c' Hc. exists c'. rewrite E in Hc. auto 7. Qed.
Lemma CS_upd m n f : keeps f -> (forall c, find_ctrl m n = Some c -> conf (f c) -> conf c) -> NI m -> CS m -> CS (upd m n f).
Proof.
  intros K L HN. apply CS_shrink; try reflexivity. intros c' Hc. cbn [upd set_ctrls cm_ctrls] in Hc. apply In_upd in Hc.
  destruct Hc as [[Hc _]|(c & Hc & Hn & ->)]; [exists c'; auto 7|]. exists c.
  destruct (K c) as (Q1 & _ & Q3 & Q4 & _). split; [exact Hc|]. rewrite Q1, Q3, Q4. do 3 (split; [reflexivity|]).
  apply L. unfold find_ctrl. rewrite <- Hn. apply NoDup_find; [exact (proj1 HN)|exact Hc].
Qed.
Lemma CS_set_upd m r n f : keeps f -> (forall c, find_ctrl m n = Some c -> conf (f c) -> conf c) -> NI m -> CS m -> CS (upd (set_rm m r) n f).
Proof. intros. apply CS_upd; auto. Qed.

Lemma CS_topo m m' order m'' : NI m -> build_topology m = Val m' -> reorder m' order = Val m'' -> CS m''.
Proof.
  intros HN HB HR. pose proof (reorder_members _ _ _ _ HN HB HR) as RM.
  destruct (build_topology_spec m m' (proj2 HN) HB) as (s & rc & sc & E & _ & _ & _ & K4 & K5).
  unfold reorder in HR. apply bind_val in HR. destruct HR as (ns & _ & HR).
  assert (E1 : cm_refc m'' = rc /\ cm_stc m'' = sc) by (injection HR as <-; subst m'; auto).
  destruct E1 as [E1 E2]. intros c' f Hc Cc B I.
  destruct (RM _ Hc) as (c & g & Ic & ->). unfold by_name in B. cbn [upd_group c_name c_cmd c_state] in *. rewrite E1, E2 in I.
  assert (U : forall c0, In c0 (cm_ctrls m) -> c_name c0 = c_name c -> c0 = c).
  { intros c0 I0 N0. pose proof (NoDup_find _ _ (proj1 HN) I0) as F0. rewrite N0, (NoDup_find _ _ (proj1 HN) Ic) in F0. congruence. }
  destruct B as (ks & ss & Ek & Es & _). apply in_app_iff in I. destruct I as [I|I].
  - apply K4 in I. destruct I as (c0 & I0 & N0 & _ & _ & k & Hk & P). rewrite (U _ I0 N0) in Hk. exists k. split; [left|exact P].
    exists ks. split; [exact Ek|]. unfold cmd_names in Hk. rewrite Ek in Hk. exact Hk.
  - apply K5 in I. destruct I as (c0 & I0 & N0 & _ & _ & k & Hk & P). rewrite (U _ I0 N0) in Hk. exists k. split; [right|exact P].
    exists ss. split; [exact Es|]. unfold state_names in Hk. rewrite Es in Hk. exact Hk.
Qed.

Lemma cache_aset_nil x n f u : In u (cache_get (aset x n []) f) -> In u (cache_get x f).
Proof. unfold cache_get. rewrite aget_aset. destruct (String.eqb f n); [intros []|auto]. Qed.

Lemma prim_CS e allow m m' : NI m -> CS m -> prim e allow no_conf m m' -> CS m'.
Proof.
  intros HN HC P. pose proof (proj1 HN) as ND.
  destruct P; try (eapply CS_same; [reflexivity..|exact HC]).
  - apply CS_upd; auto; [apply keeps_lc|]. intros c0 F0 [L|L]; cbn in L; [|congruence].
    assert (c0 = c) by congruence. subst. destruct (H2 eq_refl) as [L'|C]; [left; exact L'|exfalso; apply C; reflexivity].
  - apply CS_set_upd; auto; [apply keeps_stop|]. intros c0 F0 [L|L]; cbn in L; assert (c0 = c) by congruence; subst.
    + destruct (H1 eq_refl); [left|right]; assumption.
    + right. apply (H0 eq_refl).
  - apply CS_set_upd; auto; [apply keeps_run|]. intros c0 F0 _. assert (c0 = c) by congruence. subst. left. assumption.
  - apply CS_set_upd; auto. apply keeps_loans.
  - apply CS_set_upd; auto; [apply keeps_stop|]. intros c0 F0 [L|L]; cbn in L; [|congruence]. assert (c0 = c) by congruence. subst.
    left. apply H3. reflexivity.
  - apply CS_set_upd; auto. apply keeps_loans.
  - apply CS_upd; auto. apply keeps_chained.
  - intros c0 f Hc Cc B I. cbn [set_topo set_ctrls cm_ctrls cm_refc cm_stc] in *.
    apply in_app_iff in Hc. destruct Hc as [Hc|[<-|[]]]; [|destruct Cc; discriminate].
    apply (HC c0 f Hc Cc B). apply in_app_iff in I. apply in_app_iff. destruct I as [I|I]; apply cache_aset_nil in I; auto.
  - eapply CS_shrink; [..|exact HC]; try reflexivity. intros c' Hc. cbn [set_topo set_ctrls cm_ctrls] in Hc. apply filter_In in Hc.
    exists c'. split; [exact (proj1 Hc)|auto].
  - eapply CS_topo; eassumption.
  - eapply CS_shrink; [..|exact HC]; try reflexivity. intros c' Hc. cbn [set_ctrls cm_ctrls] in Hc. apply in_map_iff in Hc.
    destruct Hc as (c & <- & Ic). exists c. split; [exact Ic|]. do 3 (split; [reflexivity|]). intros [L|L]; [left|right]; exact L.
Qed.

Lemma CS_frame n m m' : NI m -> frame n m m' -> (forall c', find_ctrl m' n = Some c' -> ~ conf c') -> CS m -> CS m'.
Proof.
  intros HN FR NC HC. assert (ND' : NoDup (map c_name (cm_ctrls m'))) by (rewrite (fr_names _ _ _ FR); exact (proj1 HN)).
  assert (A : forall x, In x (cm_ctrls m') -> conf x -> In x (cm_ctrls m)).
  { intros x Hx Cx. pose proof (NoDup_find _ _ ND' Hx) as F. destruct (String.eqb_spec (c_name x) n) as [E|Ne].
    - rewrite E in F. exfalso. apply (NC x); assumption.
    - pose proof (fr_other _ _ _ FR _ Ne) as F'. unfold find_ctrl in F'. rewrite F in F'. eapply find_in_In. symmetry. exact F'. }
  intros c f Hc Cc B. rewrite (fr_refc _ _ _ FR), (fr_stc _ _ _ FR). apply (HC c f); auto.
Qed.

Lemma configure_CS e m n order m' b : cleans_up e -> NI m -> CS m -> configure_controller e m n order = Val (m', b) -> CS m'.
Proof.
  intros HE HN HC H. destruct b.
  - destruct (configure_split e true any_kind _ _ _ _ I I H) as (m3 & m4 & _ & FR & _ & HB & HR).
    eapply CS_topo; [|exact HB|exact HR]. eapply NI_same; [apply (fr_names _ _ _ FR)|apply (fr_spec _ _ _ FR)|exact HN].
  - destruct (state_in m n) as [l|] eqn:S.
    2:{ unfold configure_controller in H. unfold state_in in S. destruct (find_ctrl m n); [discriminate|]. injection H as <-. exact HC. }
    assert (D : (l = Unconfigured \/ l = Inactive) \/ l = Active \/ l = Finalized \/ l = Unknown) by (destruct l; auto).
    destruct D as [D|D].
    + destruct (configure_failed e m n order m' H) as [FR AR]; [destruct D as [-> | ->]; auto|].
      apply (CS_frame n m m'); auto. intros c' F C. unfold at_rest in AR.
      assert (SS : state_in m' n = Some (c_lc c')) by (unfold state_in; rewrite F; reflexivity). rewrite SS in AR.
      destruct AR as [AR|[AR|[_ (t & AR)]]]; [injection AR as AR|injection AR as AR|exact (HE _ _ AR)]; destruct C; congruence.
    + destruct (state_find _ _ _ S) as (c & F & L). unfold configure_controller in H. rewrite F, L in H.
      destruct D as [-> |[-> | ->]]; [injection H as <-; exact HC..|].
      unfold is_lc in H. rewrite L in H. cbn [lc_eqb] in H. cbn [negb] in H.
      pose proof (state_cleanup_exports m n) as SE. rewrite S in SE. destruct (state_find _ _ _ SE) as (c1 & F1 & L1).
      assert (E2 : node_configure e (cleanup_exports m n) n = cleanup_exports m n).
      { unfold node_configure, node_transition. rewrite F1, L1. reflexivity. }
      rewrite E2 in H. assert (E3 : has_lc (cleanup_exports m n) n Inactive = false).
      { unfold has_lc. rewrite F1. unfold is_lc. rewrite L1. reflexivity. }
      rewrite E3 in H. injection H as <-. eapply CS_same; [..|exact HC]; unfold cleanup_exports; rewrite F; destruct (_ && _); reflexivity.
Qed.

Lemma cstep_CS e allow m o m' out : cleans_up e -> NI m -> CS m -> cstep e allow m o = Val (m', out) -> NI m' /\ CS m'.
Proof.
  intros HE HN HC H. split.
  - eapply cstep_inv; [|apply prim_NI|exact HN|exact H]. intros x Hx. exact (proj1 Hx).
  - destruct (match o with CmModel.CConfigure _ _ => true | _ => false end) eqn:O.
    + destruct o; try discriminate. unfold cstep in H. set (m0 := emit m EvOp) in H. unfold serviced in H.
      assert (C0 : CS m0) by (eapply CS_same; [reflexivity..|exact HC]).
      destruct (cm_pend m0); [injection H as <- <-; exact C0|].
      apply bind_val in H. destruct H as ([mm b] & H & E). injection E as <- _.
      eapply configure_CS; [exact HE| |exact C0|exact H]. exact HN.
    + apply cstep_steps_nc in H; [|intros n order ->; discriminate|exact (proj1 HN)].
      assert (X : NI m' /\ CS m'); [|exact (proj2 X)].
      eapply (steps_inv e allow no_conf (fun x => NI x /\ CS x)); [|split; [exact HN|exact HC]|exact H].
      intros a b [N1 C1] P. split; [eapply prim_NI; [exact N1|exact P]|eapply prim_CS; eassumption].
Qed.
Lemma reach_CS e allow hs ops m : cleans_up e -> crun e allow (cm_start hs) ops = Val m -> CS m.
Proof.
  intros HE. assert (X : forall ops m0 m, NI m0 -> CS m0 -> crun e allow m0 ops = Val m -> CS m).
  { clear ops m. unfold crun. induction ops as [|o ops IH]; intros m0 m N C H; cbn [rfold] in H; [injection H as <-; exact C|].
    apply bind_val in H. destruct H as (m1 & H1 & H). apply bind_val in H1. destruct H1 as ([m2 out] & H1 & H2). injection H2 as <-.
    destruct (cstep_CS _ _ _ _ _ _ HE N C H1) as [N1 C1]. eapply IH; eassumption. }
  intros H. eapply X; [apply NI_start| |exact H]. intros c f [].
Qed.
