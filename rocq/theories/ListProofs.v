(** ListProofs.v -- C60. *)
From Coq Require Import Ascii.
From Verif Require Import Base Events HwModel RmModel RmSys RmSpec HwProofs RmProofs RmInv RmAvail CmModel CmPrim CmTopo CmInv CmExcl CmReach CmRefs CmSpec UpdateSpec CmLeak ExportSpec CmExport7 CmAvail ListModel ListSpec.
Open Scope string_scope.
Open Scope list_scope.

Lemma rmap_spec {A B} (f : A -> res B) (R : A -> B -> Prop) : forall l, (forall a, In a l -> exists b, f a = Val b /\ R a b) ->
  exists bs, rmap f l = Val bs /\ Forall2 R l bs.
Proof.
  induction l as [|a l IH]; intros H; [exists []; split; [reflexivity|constructor]|].
  destruct (H a (or_introl eq_refl)) as (b & E & Rb). destruct IH as (bs & Es & Rs); [intros x Hx; apply H; right; exact Hx|].
  exists (b :: bs). cbn [rmap]. rewrite E. cbn [bind]. rewrite Es. split; [reflexivity|constructor; assumption].
Qed.

Lemma drop_app p s : drop_chars (String.length p) (String.append p s) = Some s.
Proof. induction p as [|a p IH]; [destruct s; reflexivity|exact IH]. Qed.
Lemma drop_itf n s : drop_chars (S (String.length n)) (itf n s) = Some s.
Proof. unfold itf. induction n as [|a n IH]; [destruct s; reflexivity|exact IH]. Qed.
Lemma prefix_split k p : prefix_of k = Some p -> exists s, k = itf p s.
Proof.
  revert p. induction k as [|a k IH]; intros p H; [discriminate|]. cbn [prefix_of] in H. destruct (Ascii.eqb a "/"%char) eqn:E.
  - injection H as <-. apply Ascii.eqb_eq in E. subst a. exists k. reflexivity.
  - destruct (prefix_of k) as [q|]; [|discriminate]. injection H as <-. destruct (IH q eq_refl) as (s & ->). exists s. reflexivity.
Qed.
Lemma split_itf_owned k p s : k = itf p s -> prefix_of k = Some p -> split_itf k = (p, s).
Proof. intros E H. unfold split_itf. rewrite H. rewrite E, drop_itf. reflexivity. Qed.
Lemma split_belongs k : belongs k (fst (split_itf k)).
Proof. unfold split_itf, belongs, owned_by. destruct (prefix_of k) as [p|] eqn:E; [left; reflexivity|right; auto]. Qed.
Lemma belongs_split k p : belongs k p -> fst (split_itf k) = p.
Proof. unfold split_itf, belongs, owned_by. intros [H|[H E]]; rewrite H; [reflexivity|exact E]. Qed.

Lemma set_insert_In x l y : In y (set_insert x l) <-> y = x \/ In y l.
Proof.
  induction l as [|z l IH]; cbn [set_insert]; [simpl; intuition|].
  destruct (String.compare x z) eqn:E; [apply String.compare_eq_iff in E; subst; simpl; intuition|simpl; intuition|]. simpl. rewrite IH. tauto.
Qed.
Lemma fold_insert_In (ps : list (name * name)) : forall s y, In y (fold_left (fun s p => set_insert (fst p) s) ps s) <-> In y s \/ In y (map fst ps).
Proof.
  induction ps as [|p ps IH]; intros s y; cbn [fold_left map]; [simpl; tauto|]. rewrite IH, set_insert_In. simpl. intuition.
Qed.
Lemma conn_names m ks p : In p (map k_name (connections (chain_pairs (cm_ctrls m) ks))) <-> loaded m p /\ exists k, In k ks /\ belongs k p.
Proof.
  unfold connections. rewrite map_map. cbn [k_name]. rewrite map_id, fold_insert_In. unfold chain_pairs, loaded. split.
  - intros [[]|H]. apply in_map_iff in H. destruct H as ([a b] & <- & H). apply filter_In in H. destruct H as [H M]. cbn [fst] in *. apply mem_In in M.
    split; [exact M|]. apply in_map_iff in H. destruct H as (k & E & Hk). exists k. split; [exact Hk|]. pose proof (split_belongs k) as B. rewrite E in B. exact B.
  - intros [L (k & Hk & B)]. right. apply in_map_iff. exists (split_itf k). split; [apply belongs_split; exact B|]. apply filter_In. split; [apply in_map; exact Hk|].
    apply mem_In. rewrite (belongs_split _ _ B). exact L.
Qed.
Lemma conn_itfs m ks y k s : In y (connections (chain_pairs (cm_ctrls m) ks)) -> In k ks -> k = itf (k_name y) s -> prefix_of k = Some (k_name y) -> In s (k_itfs y).
Proof.
  intros Hy Hk E P. unfold connections in Hy. pose proof Hy as Hy0. apply in_map_iff in Hy. destruct Hy as (p & <- & _). cbn [k_name k_itfs] in *.
  assert (L : loaded m p). { apply (conn_names m ks p). apply in_map_iff. eexists. split; [|exact Hy0]. reflexivity. }
  apply in_map_iff. exists (p, s). split; [reflexivity|]. unfold chain_pairs. apply filter_In. split; [|apply mem_In; exact L].
  apply in_map_iff. exists k. split; [apply split_itf_owned; assumption|exact Hk].
Qed.

Lemma conn_back m ks y s : In y (connections (chain_pairs (cm_ctrls m) ks)) -> In s (k_itfs y) -> exists k p, In k ks /\ loaded m p /\ (k = itf p s \/ prefix_of k = None).
Proof.
  intros Hy Hs. unfold connections in Hy. apply in_map_iff in Hy. destruct Hy as (p & <- & _). cbn [k_itfs] in Hs. apply in_map_iff in Hs. destruct Hs as ([a b] & <- & H).
  unfold chain_pairs in H. apply filter_In in H. destruct H as [H M]. cbn [fst snd] in *. apply mem_In in M. apply in_map_iff in H. destruct H as (k & E & Hk). exists k, a. split; [exact Hk|]. split; [exact M|].
  destruct (prefix_of k) as [q|] eqn:P; [left|right; reflexivity]. destruct (prefix_split k q P) as (s & ->). rewrite (split_itf_owned _ q s eq_refl P) in E. injection E as <- <-. reflexivity.
Qed.

Lemma strip_all n ks : (forall k, In k ks -> exists s, k = itf n s) -> exists l, rmap (strip n) ks = Val l /\ map (itf n) l = ks.
Proof.
  intros H. destruct (rmap_spec (strip n) (fun k s => itf n s = k) ks) as (l & E & F).
  - intros k Hk. destruct (H k Hk) as (s & ->). exists s. split; [|reflexivity]. unfold strip. rewrite drop_itf. reflexivity.
  - exists l. split; [exact E|]. clear E H. induction F as [|k s ks l A F IH]; [reflexivity|]. cbn [map]. rewrite A, IH. reflexivity.
Qed.

Section R.
Variables (e : env) (allow : bool).
Lemma is_conf c : is_lc Active c || is_lc Inactive c = true <-> configured (c_lc c).
Proof. unfold is_lc, configured. destruct (c_lc c); simpl; split; intros H; try discriminate; try (destruct H; discriminate); auto. Qed.

Lemma main_controllers hs ops m : wf_hw hs -> crun e allow (cm_start hs) ops = Val m ->
  (forall c, In c (cm_ctrls m) -> steady e (c_name c) /\ cleans e (c_name c) /\ exports_named c) ->
  exists l, list_controllers_srv m = Val l /\ Forall2 (describes m) (cm_ctrls m) l.
Proof.
  intros W H S. unfold list_controllers_srv. apply rmap_spec. intros c Hc. destruct (S c Hc) as (S1 & S2 & S3).
  destruct (main_registered e allow hs ops m (c_name c) W H S1 S2) as (R & _).
  unfold list_one. cbv zeta.
  assert (X : exists refs exps, (if (is_lc Active c || is_lc Inactive c) && c_chainable c then do ks <- of_option (aget (rm_refs (cm_rm m)) (c_name c)); rmap (strip (c_name c)) ks else Val []) = Val refs /\
     (if (is_lc Active c || is_lc Inactive c) && c_chainable c then do ks <- of_option (aget (rm_exps (cm_rm m)) (c_name c)); rmap (strip (c_name c)) ks else Val []) = Val exps /\
     (c_chainable c = true -> configured (c_lc c) -> map (itf (c_name c)) refs = c_refs c /\ exps_of m (c_name c) = Some (map (itf (c_name c)) exps) /\ incl (map (itf (c_name c)) exps) (c_exps c)) /\
     (c_chainable c = false \/ ~ configured (c_lc c) -> refs = [] /\ exps = [])).
  { destruct (is_lc Active c || is_lc Inactive c) eqn:E1.
    - apply is_conf in E1. destruct (c_chainable c) eqn:E2; cbn [andb].
      + destruct (R c Hc eq_refl E2 E1) as (R1 & es & R2 & R3). unfold refs_of in R1. pose proof R2 as R2'. unfold exps_of in R2. rewrite R1, R2. cbn [of_option bind].
        destruct (strip_all (c_name c) (c_refs c)) as (refs & A1 & A2); [intros k Hk; apply S3; apply in_or_app; left; exact Hk|].
        destruct (strip_all (c_name c) es) as (exps & B1 & B2); [intros k Hk; apply S3; apply in_or_app; right; apply R3; exact Hk|].
        exists refs, exps. split; [exact A1|]. split; [exact B1|]. split; [|intros [X|X]; [discriminate|contradiction]].
        intros _ _. split; [exact A2|]. rewrite B2. split; [exact R2'|exact R3].
      + exists [], []. split; [reflexivity|]. split; [reflexivity|]. split; [discriminate|auto].
    - exists [], []. split; [reflexivity|]. split; [reflexivity|]. split; [|auto]. intros _ K. apply is_conf in K. congruence. }
  destruct X as (refs & exps & -> & -> & X1 & X2). cbn [bind]. eexists. split; [reflexivity|]. unfold describes. cbn [l_name l_state l_chainable l_chained l_cmds l_states l_conns l_refs l_exps].
  do 4 (split; [reflexivity|]). split; [|split; [|split; assumption]].
  - intros K. apply is_conf in K. rewrite K. split; [intros k; reflexivity|]. split; [intros k; reflexivity|].
    split; [intros p; apply conn_names|]. split; [intros y k s Hy Hk; apply (conn_itfs m (cmd_names (cm_rm m) c) y k s Hy Hk)|]. intros y s Hy Hs. apply (conn_back m (cmd_names (cm_rm m) c) y s Hy Hs).
  - intros K. destruct (is_lc Active c || is_lc Inactive c) eqn:E1; [apply is_conf in E1; contradiction|]. split; [reflexivity|]. split; reflexivity.
Qed.

Lemma hw_static hs ops m h k : wf_hw hs -> crun e allow (cm_start hs) ops = Val m -> In h (rm_hw (cm_rm m)) -> In k (h_cmd h) -> In k (flat_map h_cmd hs).
Proof.
  intros W H I K. assert (S : statics (cm_rm m) = statics (cm_rm (cm_start hs))).
  { enough (J : CI m /\ statics (cm_rm m) = statics (cm_rm (cm_start hs))) by apply J. eapply (crun_inv e allow (fun x => CI x /\ statics (cm_rm x) = statics (cm_rm (cm_start hs)))); [..|exact H].
    - intros x [A _]. apply A.
    - intros a b [A B] P. split; [eapply prim_CI; eassumption|]. rewrite (prim_statics _ _ _ _ _ (ci_r _ A) P). exact B.
    - split; [apply start_CI; exact W|reflexivity]. }
  assert (X : In k (hw_cmds (cm_rm m))) by (apply in_flat_map; exists h; split; assumption).
  rewrite hw_cmds_statics, S, <- hw_cmds_statics in X. unfold hw_cmds in X. cbn [cm_start cm_rm rm_start rm_hw] in X. rewrite flat_map_set in X by reflexivity. exact X.
Qed.

Lemma find_in_hw r h : names_ok r -> In h (rm_hw r) -> find_hw r (h_name h) = Some h.
Proof.
  unfold names_ok, find_hw. induction (rm_hw r) as [|x l IH]; [intros _ []|]. intros N I. inversion N as [|? ? N1 N2]; subst. cbn [find].
  destruct (String.eqb (h_name x) (h_name h)) eqn:E.
  - apply String.eqb_eq in E. destruct I as [->|I]; [reflexivity|]. exfalso. apply N1. rewrite E. apply in_map. exact I.
  - destruct I as [->|I]; [rewrite String.eqb_refl in E; discriminate|]. apply IH; assumption.
Qed.

Lemma cmd_entry_ok hs ops m h k : wf_hw hs -> crun e allow (cm_start hs) ops = Val m -> In h (rm_hw (cm_rm m)) -> In k (h_cmd h) ->
  exists x, cmd_entry (cm_rm m) k = Val x /\ describes_cmd e m h k x.
Proof.
  intros W H I K. destruct (reach_WI e allow hs ops m W H) as [[[_ [Hn _ HK] _] HX] _ HA].
  pose proof (find_in_hw _ _ Hn I) as F. pose proof (hw_static _ _ _ _ _ W H I K) as KS.
  assert (C : In k (rm_ckeys (cm_rm m))) by (apply (ki_c _ HK); apply in_flat_map; exists h; split; assumption).
  unfold cmd_entry, cmd_exists. apply mem_In in C. rewrite C. apply mem_In in C.
  pose proof (main_held e allow hs ops m k W KS H) as MH.
  assert (D : forall b, cmd_claimed (cm_rm m) k = Some b -> (b = true <-> cmd_available (cm_rm m) k = true /\ held m k)).
  { intros b Hb. unfold cmd_claimed in Hb. destruct (cmd_available (cm_rm m) k).
    - unfold held. rewrite <- MH, Hb. split; [intros ->; auto|intros [_ E]; injection E as ->; reflexivity].
    - injection Hb as <-. split; [discriminate|intros [E _]; discriminate]. }
  assert (E : exists b, cmd_claimed (cm_rm m) k = Some b).
  { unfold cmd_claimed. destruct (cmd_available (cm_rm m) k); [|eauto]. destruct (aget (rm_claimed (cm_rm m)) k) eqn:Q; [eauto|]. exfalso. exact (rx_ck _ HX k C Q). }
  destruct E as (b & Eb). rewrite Eb. cbn [of_option bind]. eexists. split; [reflexivity|]. unfold describes_cmd. cbn [i_name i_available i_claimed].
  split; [reflexivity|]. unfold cmd_available in *. split; [|split].
  - intros L. apply mem_In. apply (av_fwd _ _ HA _ _ F L). exact K.
  - intros Q A. apply mem_In in A. destruct (h_lc h) eqn:L; try (right; reflexivity); try (left; reflexivity);
      exfalso; refine (proj1 (av_bwd _ _ HA Q _ _ F _) k K A); rewrite L; intros [?|?]; discriminate.
  - apply D. exact Eb.
Qed.
Lemma state_entry_ok hs ops m h k : wf_hw hs -> crun e allow (cm_start hs) ops = Val m -> In h (rm_hw (cm_rm m)) -> In k (h_state h) ->
  exists x, state_entry (cm_rm m) k = Val x /\ describes_state e h k x.
Proof.
  intros W H I K. destruct (reach_WI e allow hs ops m W H) as [[[_ [Hn _ HK] _] HX] _ HA].
  pose proof (find_in_hw _ _ Hn I) as F.
  assert (C : In k (rm_skeys (cm_rm m))) by (apply (ki_s _ HK); apply in_flat_map; exists h; split; assumption).
  unfold state_entry, state_exists. apply mem_In in C. rewrite C. eexists. split; [reflexivity|]. unfold describes_state. cbn [i_name i_available i_claimed].
  split; [reflexivity|]. unfold state_available. split; [|split; [|reflexivity]].
  - intros L. apply mem_In. apply (av_fwd _ _ HA _ _ F L). exact K.
  - intros Q A. apply mem_In in A. destruct (h_lc h) eqn:L; try (right; reflexivity); try (left; reflexivity);
      exfalso; refine (proj2 (av_bwd _ _ HA Q _ _ F _) k K A); rewrite L; intros [?|?]; discriminate.
Qed.
Lemma main_components hs ops m : wf_hw hs -> crun e allow (cm_start hs) ops = Val m ->
  exists l, list_hw m = Val l /\ Forall2 (describes_hw e m) (rm_hw (cm_rm m)) l.
Proof.
  intros W H. unfold list_hw. apply rmap_spec. intros h Hh. unfold hw_entry.
  destruct (rmap_spec (cmd_entry (cm_rm m)) (describes_cmd e m h) (h_cmd h)) as (cs & -> & FC); [intros k Hk; apply (cmd_entry_ok hs ops); assumption|].
  destruct (rmap_spec (state_entry (cm_rm m)) (describes_state e h) (h_state h)) as (ss & -> & FS); [intros k Hk; apply (state_entry_ok hs ops); assumption|].
  cbn [bind]. eexists. split; [reflexivity|]. unfold describes_hw. cbn. auto.
Qed.

Lemma Forall2_names {A} (R : name -> A -> Prop) (f : A -> name) ks l : (forall k x, R k x -> f x = k) -> Forall2 R ks l -> map f l = ks.
Proof. intros H F. induction F as [|k x ks l A0 F IH]; [reflexivity|]. cbn [map]. rewrite (H _ _ A0), IH. reflexivity. Qed.
Lemma Forall2_find {A B} (R : A -> B -> Prop) l l' a : Forall2 R l l' -> In a l -> exists b, In b l' /\ R a b.
Proof. intros F I. induction F as [|x y l l' A0 F IH]; [destruct I|]. destruct I as [->|I]; [exists y; split; [left; reflexivity|exact A0]|]. destruct (IH I) as (b & Hb & Rb). exists b. split; [right; exact Hb|exact Rb]. Qed.
Lemma main_interfaces hs ops m : wf_hw hs -> crun e allow (cm_start hs) ops = Val m ->
  exists s c, list_hw_itfs m = Val (s, c) /\ NoDup (map i_name s) /\ NoDup (map i_name c) /\
   (forall h k, In h (rm_hw (cm_rm m)) -> In k (h_cmd h) -> exists x, In x c /\ describes_cmd e m h k x) /\
   (forall h k, In h (rm_hw (cm_rm m)) -> In k (h_state h) -> exists x, In x s /\ describes_state e h k x) /\
   (forall n ks k, refs_of m n = Some ks -> In k ks -> exists x, In x c /\ i_name x = k /\ (i_available x = true <-> In k (rm_avc (cm_rm m)))) /\
   (forall n ks k, exps_of m n = Some ks -> In k ks -> exists x, In x s /\ i_name x = k /\ (i_available x = true <-> In k (rm_avs (cm_rm m))) /\ i_claimed x = false).
Proof.
  intros W H. destruct (reach_WI e allow hs ops m W H) as [[[_ [Hn _ HK] _] HX] _ HA]. unfold list_hw_itfs.
  destruct (rmap_spec (state_entry (cm_rm m)) (fun k x => state_entry (cm_rm m) k = Val x /\ i_name x = k /\ (i_available x = true <-> In k (rm_avs (cm_rm m))) /\ i_claimed x = false) (rm_skeys (cm_rm m))) as (ss & -> & FS).
  { intros k Hk. unfold state_entry, state_exists. pose proof Hk as Hk'. apply mem_In in Hk'. rewrite Hk'. eexists. split; [reflexivity|]. cbn. split; [reflexivity|]. split; [reflexivity|]. split; [|reflexivity]. unfold state_available. apply mem_In. }
  destruct (rmap_spec (cmd_entry (cm_rm m)) (fun k x => cmd_entry (cm_rm m) k = Val x /\ i_name x = k /\ (i_available x = true <-> In k (rm_avc (cm_rm m)))) (rm_ckeys (cm_rm m))) as (cs & -> & FC).
  { intros k Hk. unfold cmd_entry, cmd_exists. pose proof Hk as Hk'. apply mem_In in Hk'. rewrite Hk'.
    assert (E : exists b, cmd_claimed (cm_rm m) k = Some b).
    { unfold cmd_claimed. destruct (cmd_available (cm_rm m) k); [|eauto]. destruct (aget (rm_claimed (cm_rm m)) k) eqn:Q; [eauto|]. exfalso. exact (rx_ck _ HX k Hk Q). }
    destruct E as (b & Eb). rewrite Eb. cbn [of_option bind]. eexists. split; [reflexivity|]. cbn. split; [reflexivity|]. split; [reflexivity|]. unfold cmd_available. apply mem_In. }
  cbn [bind]. exists ss, cs. split; [reflexivity|].
  split; [rewrite (Forall2_names _ i_name _ _ (fun k x Hx => proj1 (proj2 Hx)) FS); apply HK|]. split; [rewrite (Forall2_names _ i_name _ _ (fun k x Hx => proj1 (proj2 Hx)) FC); apply HK|].
  split; [|split; [|split]].
  - intros h k I K. destruct (cmd_entry_ok hs ops m h k W H I K) as (x & Ex & Dx).
    assert (C : In k (rm_ckeys (cm_rm m))) by (apply (ki_c _ HK); apply in_flat_map; exists h; split; assumption).
    destruct (Forall2_find _ _ _ _ FC C) as (y & Iy & Ey & _). exists x. split; [|exact Dx]. rewrite Ex in Ey. injection Ey as ->. exact Iy.
  - intros h k I K. destruct (state_entry_ok hs ops m h k W H I K) as (x & Ex & Dx).
    assert (C : In k (rm_skeys (cm_rm m))) by (apply (ki_s _ HK); apply in_flat_map; exists h; split; assumption).
    destruct (Forall2_find _ _ _ _ FS C) as (y & Iy & Ey & _). exists x. split; [|exact Dx]. rewrite Ex in Ey. injection Ey as ->. exact Iy.
  - intros n ks k E K. destruct (Forall2_find _ _ _ k FC (rx_refs _ HX n ks E k K)) as (y & Iy & _ & Ey & Ay). exists y. auto.
  - intros n ks k E K. destruct (Forall2_find _ _ _ k FS (rx_exps _ HX n ks E k K)) as (y & Iy & _ & Ey & Ay & By). exists y. auto.
Qed.
End R.

Section C.
Variables (e : env) (allow : bool).
Lemma rmap_Forall2 {A B} (f : A -> res B) (R : A -> B -> Prop) : forall l bs, rmap f l = Val bs -> (forall a b, In a l -> f a = Val b -> R a b) -> Forall2 R l bs.
Proof.
  induction l as [|a l IH]; intros bs H G; cbn [rmap] in H; [injection H as <-; constructor|].
  apply bind_val in H. destruct H as (b & E & H). apply bind_val in H. destruct H as (bs' & E' & H). injection H as <-.
  constructor; [apply G; [left; reflexivity|exact E]|]. apply IH; [exact E'|]. intros x y Hx Hy. apply G; [right; exact Hx|exact Hy].
Qed.
Lemma list_one_claimed m c x : list_one m c = Val x -> l_name x = c_name c /\ l_claimed x = c_claimed c.
Proof.
  unfold list_one. cbv zeta. intros H. apply bind_val in H. destruct H as (r & _ & H). apply bind_val in H. destruct H as (x' & _ & H). injection H as <-. split; reflexivity.
Qed.
Lemma main_claimed hs ops m m' b l : crun e allow (cm_start hs) ops = Val m -> cstep e allow m CEvaluate = Val (m', CBool b) ->
  list_controllers_srv m' = Val l ->
  Forall2 (fun c x => l_name x = c_name c /\ (c_lc c <> Active -> l_claimed x = []) /\
     (c_lc c = Active -> forall k, In k (l_claimed x) <-> wants_cmd m' c k) /\
     (c_lc c = Active -> deactivates e (c_name c) -> forall ks, c_cmd c = IIndividual ks -> l_claimed x = c_cloans c)) (cm_ctrls m') l.
Proof.
  intros H S L.
  assert (H' : crun e allow (cm_start hs) (ops ++ [CEvaluate]) = Val m').
  { clear L. unfold crun in *. revert H. generalize (cm_start hs). induction ops as [|o ops IH]; intros m0 H; cbn [rfold app] in *.
    - injection H as <-. rewrite S. reflexivity.
    - apply bind_val in H. destruct H as (m1 & E & H). rewrite E. cbn [bind]. apply IH. exact H. }
  unfold list_controllers_srv in L. eapply rmap_Forall2; [exact L|]. intros c x Hc Hx. apply list_one_claimed in Hx. destruct Hx as [Hx1 Hx2].
  assert (R : c_claimed c = if is_lc Active c then cmd_names (cm_rm m') c else []).
  { unfold cstep in S. cbv zeta in S. destruct (cm_pend (emit m EvOp)) as [p|]; [|discriminate]. destruct (p_done p); [|discriminate].
    unfold to_out, evaluate in S. cbn [fst snd] in S. injection S as <- _. cbn [set_pend set_ctrls cm_ctrls] in Hc. apply in_map_iff in Hc. destruct Hc as (c0 & <- & _). reflexivity. }
  rewrite Hx2, R. split; [exact Hx1|]. split; [|split].
  - intros N. unfold is_lc. destruct (lc_eqb (c_lc c) Active) eqn:E; [apply lc_eqb_eq in E; contradiction|reflexivity].
  - intros A. unfold is_lc. rewrite A. cbn [lc_eqb]. intros k. reflexivity.
  - intros A D ks E. unfold is_lc. rewrite A. cbn [lc_eqb]. unfold cmd_names. rewrite E. cbn [cfg_names]. symmetry. apply (main_holds e allow hs _ m' c H' Hc A D). exact E.
Qed.
End C.
