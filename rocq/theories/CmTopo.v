(** CmTopo.v -- names, chain topology and execution order in reachable states. *)
From Verif Require Import Base Events HwModel RmModel ChainModel ChainProofs CmModel CmPrim.

(** ---------------------------------------------------------------- association lists *)
Lemma keys_aset {A} (m : alist A) k v x : In x (map fst (aset m k v)) <-> x = k \/ In x (map fst m).
Proof.
  rewrite !aget_In. split.
  - intros [w H]. rewrite aget_aset in H. destruct (String.eqb_spec x k); [left; assumption|right; eauto].
  - intros [->|[w H]].
    + exists v. apply aget_aset_same.
    + rewrite aget_aset. destruct (String.eqb_spec x k); eauto.
Qed.
Lemma keys_adel {A} (m : alist A) k x : In x (map fst (adel m k)) <-> x <> k /\ In x (map fst m).
Proof.
  rewrite !aget_In. split.
  - intros [w H]. rewrite aget_adel in H. destruct (String.eqb_spec x k); [discriminate|eauto].
  - intros [Hn [w H]]. exists w. rewrite aget_adel. destruct (String.eqb_spec x k); [contradiction|exact H].
Qed.
Lemma keys_clear {A} (v : A) (m : alist A) : map fst (clear_vals v m) = map fst m.
Proof. unfold clear_vals. rewrite map_map. apply map_ext. intros []. reflexivity. Qed.
Lemma aget_clear {A} (v w : A) m k : aget (clear_vals v m) k = Some w -> w = v.
Proof.
  induction m as [|[k' x] m IH]; cbn [clear_vals map aget]; [discriminate|].
  destruct (String.eqb k k'); [congruence|exact IH].
Qed.

(** ---------------------------------------------------------------- adding one link *)
Definition link (s : spec) (a b : name) : spec := add_preceding (add_following s a b) b a.
Lemma in_add_item x l y : In y (add_item l x) <-> y = x \/ In y l.
Proof.
  unfold add_item. destruct (mem x l) eqn:E.
  - apply mem_In in E. split; [auto|]. intros [->|H]; assumption.
  - rewrite in_app_iff. simpl. intuition.
Qed.
Lemma get_aset s k v n : get_links (aset s k v) n = if String.eqb n k then v else get_links s n.
Proof. unfold get_links. rewrite aget_aset. destruct (String.eqb n k); reflexivity. Qed.
Lemma link_following s a b x y : In y (following (get_links (link s a b) x)) <->
  In y (following (get_links s x)) \/ (x = a /\ y = b).
Proof.
  unfold link, add_preceding, add_following. rewrite !get_aset.
  destruct (String.eqb_spec x b) as [->|Hb]; cbn [following preceding].
  - destruct (String.eqb_spec b a) as [->|Ha]; cbn [following preceding].
    + rewrite in_add_item. intuition.
    + split; [auto|]. intros [H|[H _]]; [exact H|contradiction].
  - destruct (String.eqb_spec x a) as [->|Ha]; cbn [following preceding].
    + rewrite in_add_item. intuition.
    + split; [auto|]. intros [H|[H _]]; [exact H|contradiction].
Qed.
Lemma link_preceding s a b x y : In y (preceding (get_links (link s a b) x)) <->
  In y (preceding (get_links s x)) \/ (x = b /\ y = a).
Proof.
  unfold link, add_preceding, add_following. rewrite !get_aset.
  destruct (String.eqb_spec x b) as [->|Hb]; cbn [following preceding].
  - rewrite in_add_item. destruct (String.eqb_spec b a) as [->|Ha]; cbn [following preceding]; intuition.
  - destruct (String.eqb_spec x a) as [->|Ha]; cbn [following preceding].
    + split; [auto|]. intros [H|[H _]]; [exact H|contradiction].
    + split; [auto|]. intros [H|[H _]]; [exact H|contradiction].
Qed.
(** the other order of the two updates has the same links *)
Definition link' (s : spec) (a b : name) : spec := add_following (add_preceding s b a) a b.
Lemma link'_following s a b x y : In y (following (get_links (link' s a b) x)) <->
  In y (following (get_links s x)) \/ (x = a /\ y = b).
Proof.
  unfold link', add_preceding, add_following. rewrite !get_aset.
  destruct (String.eqb_spec x a) as [->|Ha]; cbn [following preceding].
  - rewrite in_add_item. destruct (String.eqb_spec a b) as [->|Hb]; cbn [following preceding]; intuition.
  - destruct (String.eqb_spec x b) as [->|Hb]; cbn [following preceding].
    + split; [auto|]. intros [H|[H _]]; [exact H|contradiction].
    + split; [auto|]. intros [H|[H _]]; [exact H|contradiction].
Qed.
Lemma link'_preceding s a b x y : In y (preceding (get_links (link' s a b) x)) <->
  In y (preceding (get_links s x)) \/ (x = b /\ y = a).
Proof.
  unfold link', add_preceding, add_following. rewrite !get_aset.
  destruct (String.eqb_spec x a) as [->|Ha]; cbn [following preceding].
  - destruct (String.eqb_spec a b) as [->|Hb]; cbn [following preceding].
    + rewrite in_add_item. intuition.
    + split; [auto|]. intros [H|[H _]]; [exact H|contradiction].
  - destruct (String.eqb_spec x b) as [->|Hb]; cbn [following preceding].
    + rewrite in_add_item. intuition.
    + split; [auto|]. intros [H|[H _]]; [exact H|contradiction].
Qed.
Lemma link_keys s a b x : In a (map fst s) -> In b (map fst s) ->
  (In x (map fst (link s a b)) <-> In x (map fst s)).
Proof. intros A B. unfold link, add_preceding, add_following. rewrite !keys_aset. split; [intros [->|[->|H]]; assumption|auto]. Qed.
Lemma link'_keys s a b x : In a (map fst s) -> In b (map fst s) ->
  (In x (map fst (link' s a b)) <-> In x (map fst s)).
Proof. intros A B. unfold link', add_preceding, add_following. rewrite !keys_aset. split; [intros [->|[->|H]]; assumption|auto]. Qed.

(** ---------------------------------------------------------------- the relations users see *)
(** [c] commands an interface of the loaded controller [b], resp. reads one. *)
Definition uses_cmd (l : list ctrl) (r : rm) (c : ctrl) (b : name) : Prop :=
  c_lc c <> Unconfigured /\ In b (map c_name l) /\ exists k, In k (cmd_names r c) /\ prefix_of k = Some b.
Definition uses_state (l : list ctrl) (r : rm) (c : ctrl) (b : name) : Prop :=
  c_lc c <> Unconfigured /\ In b (map c_name l) /\ exists k, In k (state_names r c) /\ prefix_of k = Some b.
(** a must be updated before b: a writes b's references, or b reads a's exported states *)
Definition feeds (l : list ctrl) (r : rm) (a b : name) : Prop :=
  (exists c, In c l /\ c_name c = a /\ uses_cmd l r c b) \/
  (exists c, In c l /\ c_name c = b /\ uses_state l r c a).

Lemma chained_to_some l k f : chained_to l k = Val (Some f) <-> prefix_of k = Some (c_name f) /\ find_in l (c_name f) = Some f.
Proof.
  unfold chained_to. destruct (prefix_of k) as [p|]; [|split; [discriminate|intros [? _]; discriminate]].
  split.
  - intros [= H]. pose proof (find_in_name _ _ _ H) as <-. auto.
  - intros [[= ->] H]. congruence.
Qed.
Lemma chained_to_val l k fo : chained_to l k = Val fo ->
  exists p, prefix_of k = Some p /\
   match fo with Some f => c_name f = p /\ In p (map c_name l) | None => ~ In p (map c_name l) end.
Proof.
  unfold chained_to. destruct (prefix_of k) as [p|]; [|discriminate]. intros [= <-]. exists p. split; [reflexivity|].
  destruct (find_in l p) as [f|] eqn:F.
  - split; [eapply find_in_name; exact F|]. rewrite <- (find_in_name _ _ _ F). apply in_map. eapply find_in_In; exact F.
  - apply find_in_none. exact F.
Qed.

Definition tspec (t : topo) : spec := fst (fst t).
Definition trefc (t : topo) := snd (fst t).
Definition tstc (t : topo) := snd t.
Definition cache_get (x : alist (list name)) (n : name) : list name := match aget x n with Some l => l | None => [] end.
Lemma cache_add x n p a b : In b (cache_get (add_cache x n p) a) <-> In b (cache_get x a) \/ (a = n /\ b = p).
Proof.
  unfold add_cache, cache_get. rewrite aget_aset. destruct (String.eqb_spec a n) as [->|H].
  - rewrite in_add_item. intuition.
  - split; [auto|]. intros [H1|[H1 _]]; [exact H1|contradiction].
Qed.

Section Topo.
Variables (l : list ctrl) (r : rm).

Record tpost (t t' : topo) (P : name -> name -> Prop) (RC SC : name -> name -> Prop) : Prop := {
  tp_f : forall x y, In y (following (get_links (tspec t') x)) <-> In y (following (get_links (tspec t) x)) \/ P x y;
  tp_p : forall x y, In y (preceding (get_links (tspec t') x)) <-> In y (preceding (get_links (tspec t) x)) \/ P y x;
  tp_k : forall x, In x (map fst (tspec t')) <-> In x (map fst (tspec t));
  tp_rc : forall x y, In y (cache_get (trefc t') x) <-> In y (cache_get (trefc t) x) \/ RC x y;
  tp_sc : forall x y, In y (cache_get (tstc t') x) <-> In y (cache_get (tstc t) x) \/ SC x y
}.
Lemma tpost_refl t P RC SC : (forall x y, ~ P x y) -> (forall x y, ~ RC x y) -> (forall x y, ~ SC x y) -> tpost t t P RC SC.
Proof.
  intros H1 H2 H3. constructor; intros; try tauto.
  - specialize (H1 x y). tauto. - specialize (H1 y x). tauto.
  - specialize (H2 x y). tauto. - specialize (H3 x y). tauto.
Qed.
Lemma tpost_trans a b c P1 P2 P R1 R2 R S1 S2 S :
  tpost a b P1 R1 S1 -> tpost b c P2 R2 S2 ->
  (forall x y, P x y <-> P1 x y \/ P2 x y) -> (forall x y, R x y <-> R1 x y \/ R2 x y) -> (forall x y, S x y <-> S1 x y \/ S2 x y) ->
  tpost a c P R S.
Proof.
  intros [A1 A2 A3 A4 A5] [B1 B2 B3 B4 B5] HP HR HS. constructor; intros.
  - rewrite B1, A1, HP. tauto. - rewrite B2, A2, HP. tauto.
  - rewrite B3. apply A3. - rewrite B4, A4, HR. tauto. - rewrite B5, A5, HS. tauto.
Qed.
Definition covered (t : topo) : Prop := forall n, In n (map c_name l) -> In n (map fst (tspec t)).
Lemma covered_post t t' P R S : tpost t t' P R S -> covered t -> covered t'.
Proof. intros [_ _ K _ _] H n Hn. apply K. apply H. exact Hn. Qed.

Definition wr (c : ctrl) (ks : list name) (b : name) : Prop :=
  In b (map c_name l) /\ exists k, In k ks /\ prefix_of k = Some b.

Lemma topo_cmd_post c ks : In (c_name c) (map c_name l) -> forall t t', covered t -> rfold (topo_cmd l c) ks t = Val t' ->
  tpost t t' (fun x y => x = c_name c /\ wr c ks y) (fun x y => y = c_name c /\ wr c ks x) (fun _ _ => False).
Proof.
  intros Hc. induction ks as [|k ks IH]; intros t t' HC H; cbn [rfold] in H.
  - injection H as <-. apply tpost_refl; try tauto; intros x y; unfold wr; simpl;
      try (intros (_ & _ & k0 & [] & _)); tauto.
  - apply bind_val in H. destruct H as (t1 & H1 & H2). destruct t as [[s rc] sc]. unfold topo_cmd in H1.
    apply bind_val in H1. destruct H1 as (fo & Hf & H1). injection H1 as <-.
    apply chained_to_val in Hf. destruct Hf as (p & Hp & Hf). destruct fo as [f|].
    + destruct Hf as [E Hin]. rewrite E in *.
      assert (T1 : tpost (s, rc, sc) (link s (c_name c) p, add_cache rc p (c_name c), sc)
                     (fun x y => x = c_name c /\ y = p) (fun x y => y = c_name c /\ x = p) (fun _ _ => False)).
      { constructor; unfold tspec, trefc, tstc; cbn [fst snd]; intros x *.
        - rewrite link_following. tauto. - rewrite link_preceding. tauto.
        - apply link_keys; [apply (HC (c_name c)); exact Hc|apply (HC p); exact Hin].
        - rewrite cache_add. tauto. - tauto. }
      pose proof (IH _ _ (covered_post _ _ _ _ _ T1 HC) H2) as T2.
      eapply tpost_trans; [exact T1|exact T2| | |]; intros x y; unfold wr; simpl.
      * split; [intros (-> & Hy & k0 & [->|Hk] & E0)|intros [[-> ->]|(-> & Hy & k0 & Hk & E0)]].
        -- left. split; congruence. -- right. eauto 6. -- eauto 6. -- eauto 8.
      * split; [intros (-> & Hy & k0 & [->|Hk] & E0)|intros [[-> ->]|(-> & Hy & k0 & Hk & E0)]].
        -- left. split; congruence. -- right. eauto 6. -- eauto 6. -- eauto 8.
      * tauto.
    + pose proof (IH _ _ HC H2) as [T1 T2 T3 T4 T5].
      assert (W : forall y, wr c (k :: ks) y <-> wr c ks y).
      { intros y. unfold wr. simpl. split; [intros (Hy & k0 & [->|Hk] & E0)|intros (Hy & k0 & Hk & E0); eauto 6].
        - exfalso. apply Hf. replace p with y by congruence. exact Hy. - eauto 6. }
      constructor; auto.
      * intros x y. rewrite T1, W. tauto. * intros x y. rewrite T2, W. tauto. * intros x y. rewrite T4, W. tauto.
Qed.
Lemma topo_state_post c ks : In (c_name c) (map c_name l) -> forall t t', covered t -> rfold (topo_state l c) ks t = Val t' ->
  tpost t t' (fun x y => y = c_name c /\ wr c ks x) (fun _ _ => False) (fun x y => y = c_name c /\ wr c ks x).
Proof.
  intros Hc. induction ks as [|k ks IH]; intros t t' HC H; cbn [rfold] in H.
  - injection H as <-. apply tpost_refl; try tauto; intros x y; unfold wr; simpl;
      try (intros (_ & _ & k0 & [] & _)); tauto.
  - apply bind_val in H. destruct H as (t1 & H1 & H2). destruct t as [[s rc] sc]. unfold topo_state in H1.
    apply bind_val in H1. destruct H1 as (fo & Hf & H1). injection H1 as <-.
    apply chained_to_val in Hf. destruct Hf as (p & Hp & Hf). destruct fo as [f|].
    + destruct Hf as [E Hin]. rewrite E in *.
      assert (T1 : tpost (s, rc, sc) (link' s p (c_name c), rc, add_cache sc p (c_name c))
                     (fun x y => y = c_name c /\ x = p) (fun _ _ => False) (fun x y => y = c_name c /\ x = p)).
      { constructor; unfold tspec, trefc, tstc; cbn [fst snd]; intros x *.
        - rewrite link'_following. tauto. - rewrite link'_preceding. tauto.
        - apply link'_keys; [apply (HC p); exact Hin|apply (HC (c_name c)); exact Hc].
        - tauto. - rewrite cache_add. tauto. }
      pose proof (IH _ _ (covered_post _ _ _ _ _ T1 HC) H2) as T2.
      eapply tpost_trans; [exact T1|exact T2| | |]; intros x y; unfold wr; simpl.
      * split; [intros (-> & Hy & k0 & [->|Hk] & E0)|intros [[-> ->]|(-> & Hy & k0 & Hk & E0)]].
        -- left. split; congruence. -- right. eauto 6. -- eauto 6. -- eauto 8.
      * tauto.
      * split; [intros (-> & Hy & k0 & [->|Hk] & E0)|intros [[-> ->]|(-> & Hy & k0 & Hk & E0)]].
        -- left. split; congruence. -- right. eauto 6. -- eauto 6. -- eauto 8.
    + pose proof (IH _ _ HC H2) as [T1 T2 T3 T4 T5].
      assert (W : forall y, wr c (k :: ks) y <-> wr c ks y).
      { intros y. unfold wr. simpl. split; [intros (Hy & k0 & [->|Hk] & E0)|intros (Hy & k0 & Hk & E0); eauto 6].
        - exfalso. apply Hf. replace p with y by congruence. exact Hy. - eauto 6. }
      constructor; auto.
      * intros x y. rewrite T1, W. tauto. * intros x y. rewrite T2, W. tauto. * intros x y. rewrite T5, W. tauto.
Qed.

Definition feeds_from (cs : list ctrl) (a b : name) : Prop :=
  (exists c, In c cs /\ c_name c = a /\ uses_cmd l r c b) \/ (exists c, In c cs /\ c_name c = b /\ uses_state l r c a).
Definition cmd_users (cs : list ctrl) (b a : name) : Prop := exists c, In c cs /\ c_name c = a /\ uses_cmd l r c b.
Definition state_users (cs : list ctrl) (b a : name) : Prop := exists c, In c cs /\ c_name c = a /\ uses_state l r c b.

Lemma topo_one_post c t t' : In c l -> covered t -> topo_one l r t c = Val t' ->
  tpost t t' (feeds_from [c]) (cmd_users [c]) (state_users [c]).
Proof.
  intros Hc HC. unfold topo_one.
  destruct (is_lc Unconfigured c) eqn:L.
  - intros [= <-]. unfold is_lc in L. apply lc_eqb_eq in L.
    apply tpost_refl; intros x y; unfold feeds_from, cmd_users, state_users, uses_cmd, uses_state; simpl;
      [intros [(c0 & [<-|[]] & _ & A & _)|(c0 & [<-|[]] & _ & A & _)]; contradiction|
       intros (c0 & [<-|[]] & _ & A & _); contradiction..].
  - assert (L' : c_lc c <> Unconfigured) by (intros C; unfold is_lc in L; rewrite C in L; discriminate).
    intros H. apply bind_val in H. destruct H as (t1 & H1 & H2).
    pose proof (in_map c_name _ _ Hc) as Hn.
    pose proof (topo_cmd_post c _ Hn _ _ HC H1) as T1.
    pose proof (topo_state_post c _ Hn _ _ (covered_post _ _ _ _ _ T1 HC) H2) as T2.
    eapply tpost_trans; [exact T1|exact T2| | |]; intros x y;
      unfold feeds_from, cmd_users, state_users, uses_cmd, uses_state, wr; simpl; split.
    + intros [(c0 & [<-|[]] & <- & _ & A)|(c0 & [<-|[]] & <- & _ & A)]; [left|right]; auto.
    + intros [(-> & A)|(-> & A)]; [left|right]; exists c; auto.
    + intros (c0 & [<-|[]] & <- & _ & A). left. auto.
    + intros [(-> & A)|[]]. exists c. auto.
    + intros (c0 & [<-|[]] & <- & _ & A). right. auto.
    + intros [[]|(-> & A)]. exists c. auto.
Qed.
Lemma topo_all_post cs : (forall c, In c cs -> In c l) -> forall t t', covered t -> rfold (topo_one l r) cs t = Val t' ->
  tpost t t' (feeds_from cs) (cmd_users cs) (state_users cs).
Proof.
  induction cs as [|c cs IH]; intros Hin t t' HC H; cbn [rfold] in H.
  - injection H as <-. apply tpost_refl; intros x y; unfold feeds_from, cmd_users, state_users; simpl;
      [intros [(c0 & [] & _)|(c0 & [] & _)]|intros (c0 & [] & _)..].
  - apply bind_val in H. destruct H as (t1 & H1 & H2).
    pose proof (topo_one_post c t t1 (Hin c (or_introl eq_refl)) HC H1) as T1.
    assert (T2 : tpost t1 t' (feeds_from cs) (cmd_users cs) (state_users cs)).
    { apply IH; [intros c0 H0; apply Hin; right; exact H0|eapply covered_post; eassumption|exact H2]. }
    assert (EX : forall Q : ctrl -> Prop, (exists c0, In c0 (c :: cs) /\ Q c0) <->
                 (exists c0, In c0 [c] /\ Q c0) \/ (exists c0, In c0 cs /\ Q c0)).
    { intros Q. split.
      - intros (c0 & [<-|H0] & HQ); [left; exists c; split; [left; reflexivity|exact HQ]|right; eauto].
      - intros [(c0 & [<-|[]] & HQ)|(c0 & H0 & HQ)]; [exists c; split; [left; reflexivity|exact HQ]|exists c0; split; [right; exact H0|exact HQ]]. }
    eapply tpost_trans; [exact T1|exact T2| | |]; intros x y; unfold feeds_from, cmd_users, state_users; rewrite !EX; tauto.
Qed.
End Topo.

(** The topology the manager builds is exactly the relation [feeds]. *)
Lemma get_links_clear s n : get_links (clear_vals no_links s) n = no_links.
Proof.
  unfold get_links. destruct (aget (clear_vals no_links s) n) as [x|] eqn:E; [|reflexivity].
  apply aget_clear in E. exact E.
Qed.
Lemma cache_get_clear s n : cache_get (clear_vals [] s) n = [].
Proof. unfold cache_get. destruct (aget _ n) as [x|] eqn:E; [apply aget_clear in E; exact E|reflexivity]. Qed.

Lemma build_topology_spec m m' : (forall n, In n (map c_name (cm_ctrls m)) -> In n (map fst (cm_spec m))) ->
  build_topology m = Val m' ->
  exists s rc sc, m' = set_topo m s rc sc /\
  (forall x, In x (map fst s) <-> In x (map fst (cm_spec m))) /\
  (forall a b, In b (following (get_links s a)) <-> feeds (cm_ctrls m) (cm_rm m) a b) /\
  (forall a b, In a (preceding (get_links s b)) <-> feeds (cm_ctrls m) (cm_rm m) a b) /\
  (forall a b, In a (cache_get rc b) <-> exists c, In c (cm_ctrls m) /\ c_name c = a /\ uses_cmd (cm_ctrls m) (cm_rm m) c b) /\
  (forall a b, In a (cache_get sc b) <-> exists c, In c (cm_ctrls m) /\ c_name c = a /\ uses_state (cm_ctrls m) (cm_rm m) c b).
Proof.
  intros HC H. unfold build_topology in H. apply bind_val in H. destruct H as ([[s rc] sc] & H & E). injection E as <-.
  apply (topo_all_post (cm_ctrls m) (cm_rm m) (cm_ctrls m)) in H; auto.
  2:{ intros n Hn. unfold tspec. cbn [fst]. rewrite keys_clear. apply HC. exact Hn. }
  exists s, rc, sc. split; [reflexivity|].
  destruct H as [T1 T2 T3 T4 T5]. unfold tspec, trefc, tstc in *. cbn [fst snd] in *.
  repeat split.
  - intros Hx. apply T3 in Hx. rewrite keys_clear in Hx. exact Hx.
  - intros Hx. apply T3. rewrite keys_clear. exact Hx.
  - intros Hx. apply T1 in Hx. rewrite get_links_clear in Hx. destruct Hx as [[]|Hx]. exact Hx.
  - intros Hx. apply T1. right. exact Hx.
  - intros Hx. apply T2 in Hx. rewrite get_links_clear in Hx. destruct Hx as [[]|Hx]. exact Hx.
  - intros Hx. apply T2. right. exact Hx.
  - intros Hx. apply T4 in Hx. rewrite cache_get_clear in Hx. destruct Hx as [[]|Hx]. exact Hx.
  - intros Hx. apply T4. right. exact Hx.
  - intros Hx. apply T5 in Hx. rewrite cache_get_clear in Hx. destruct Hx as [[]|Hx]. exact Hx.
  - intros Hx. apply T5. right. exact Hx.
Qed.

(** ---------------------------------------------------------------- reordering *)
From Coq Require Import Permutation.
From Verif Require Import ChainSpec.

Definition NI (m : cm) : Prop :=
  NoDup (map c_name (cm_ctrls m)) /\ (forall n, In n (map c_name (cm_ctrls m)) -> In n (map fst (cm_spec m))).

Lemma iteration_keys order s x : In x (iteration order s) <-> In x (map fst s).
Proof.
  unfold iteration, same_set. destruct (_ && _) eqn:E; [|tauto].
  apply andb_true_iff in E. destruct E as [E1 E2]. rewrite forallb_forall in E1, E2.
  split; intros H; [apply E1 in H|apply E2 in H]; apply mem_In in H; exact H.
Qed.

Lemma sorted_names l : forall names,
  map c_name (flat_map (fun n => match find_in l n with Some c => [c] | None => [] end) names) =
  filter (fun n => mem n (map c_name l)) names.
Proof.
  induction names as [|n names IH]; [reflexivity|]. cbn [flat_map filter]. rewrite map_app, IH.
  destruct (find_in l n) as [c|] eqn:F.
  - assert (M : mem n (map c_name l) = true).
    { apply mem_In. rewrite <- (find_in_name _ _ _ F). apply in_map. eapply find_in_In; exact F. }
    rewrite M. cbn [map app]. rewrite (find_in_name _ _ _ F). reflexivity.
  - apply find_in_none in F. apply mem_false in F. rewrite F. reflexivity.
Qed.

Lemma reorder_spec m order m' : NI m -> reorder m order = Val m' ->
  exists names L, order_all (cm_spec m) (iteration order (cm_spec m)) [] = Some names /\
    m' = set_ctrls m L /\
    map c_name L = filter (fun n => mem n (map c_name (cm_ctrls m))) names /\
    Permutation (map c_name L) (map c_name (cm_ctrls m)) /\
    (forall c', In c' L -> exists c, In c (cm_ctrls m) /\ c' = upd_group (chain_group (cm_spec m) (c_name c)) c).
Proof.
  intros [ND HK] H. unfold reorder in H. apply bind_val in H. destruct H as (names & H & E).
  apply of_option_val in H. injection E as <-.
  set (sorted := flat_map _ names). set (L := map _ sorted).
  destruct (order_all_gen (cm_spec m) (iteration order (cm_spec m)) []) as (l' & E & _ & N1 & N2 & N3).
  { intros x Hx. apply iteration_keys in Hx. exact Hx. }
  rewrite H in E. injection E as <-.
  assert (EL : map c_name L = map c_name sorted).
  { unfold L. rewrite map_map. apply map_ext. intros c. destruct (aget (cm_spec m) (c_name c)); reflexivity. }
  assert (ES : map c_name sorted = filter (fun n => mem n (map c_name (cm_ctrls m))) names) by apply sorted_names.
  exists names, L. split; [exact H|]. split; [reflexivity|]. split; [congruence|]. split.
  - rewrite EL, ES. apply NoDup_Permutation.
    + apply NoDup_filter. apply N1. constructor.
    + exact ND.
    + intros x. rewrite filter_In, mem_In. split; [tauto|]. intros Hx. split; [|exact Hx].
      apply N2. apply iteration_keys. apply HK. exact Hx.
  - intros c' Hc. unfold L in Hc. apply in_map_iff in Hc. destruct Hc as (c & <- & Hc).
    unfold sorted in Hc. apply in_flat_map in Hc. destruct Hc as (n & Hn & Hc).
    unfold find_ctrl in Hc. destruct (find_in (cm_ctrls m) n) as [c0|] eqn:F; [|destruct Hc].
    destruct Hc as [<-|[]]. exists c0. pose proof (find_in_In _ _ _ F) as Hin. split; [exact Hin|].
    assert (K : In (c_name c0) (map fst (cm_spec m))) by (apply HK; apply in_map; exact Hin).
    apply aget_In in K. destruct K as [v ->]. reflexivity.
Qed.

(** ---------------------------------------------------------------- unique names, known keys *)
Lemma fold_keys (f : spec -> name -> spec) : (forall s n x, In x (map fst s) -> In x (map fst (f s n))) ->
  forall l s x, In x (map fst s) -> In x (map fst (fold_left f l s)).
Proof. intros H. induction l as [|n l IH]; intros s x Hx; cbn [fold_left]; [exact Hx|]. apply IH. apply H. exact Hx. Qed.
Lemma spec_cleanup_keys s n x : In x (map fst s) -> x <> n -> In x (map fst (spec_cleanup s n)).
Proof.
  intros Hx Hn. unfold spec_cleanup. apply keys_adel. split; [exact Hn|].
  apply fold_keys; [intros; apply keys_aset; right; assumption|].
  apply fold_keys; [intros; apply keys_aset; right; assumption|]. exact Hx.
Qed.

Lemma NI_same m m' : map c_name (cm_ctrls m') = map c_name (cm_ctrls m) -> cm_spec m' = cm_spec m -> NI m -> NI m'.
Proof. intros A B [C D]. split; rewrite A; [exact C|rewrite B; exact D]. Qed.

Lemma prim_NI e allow KS m m' : NI m -> prim e allow KS m m' -> NI m'.
Proof.
  intros H P. destruct P; try (eapply NI_same; [..|exact H]; reflexivity);
  try (eapply NI_same; [..|exact H]; [apply (map_upd_names (cm_ctrls m) n); reflexivity|reflexivity]).
  - destruct H as [A B]. apply find_in_none in H1. split; cbn [set_topo set_ctrls cm_ctrls cm_spec].
    + rewrite map_app. cbn [map]. apply (Permutation_NoDup (l := c_name c :: map c_name (cm_ctrls m))).
      * apply Permutation_cons_append.
      * constructor; assumption.
    + intros n. rewrite map_app, in_app_iff. intros [Hn|[<-|[]]]; apply keys_aset; [right; apply B; exact Hn|left; reflexivity].
  - destruct H as [A B]. split; cbn [set_ctrls set_topo cm_ctrls cm_spec].
    + clear -A. induction (cm_ctrls m) as [|x l IH]; simpl in *; [constructor|].
      inversion A as [|? ? Hx Hl]; subst. destruct (negb _); [|auto]. simpl. constructor; [|auto].
      intros C. apply Hx. apply in_map_iff in C. destruct C as (y & <- & Hy). apply filter_In in Hy.
      apply in_map. exact (proj1 Hy).
    + intros x Hx. apply in_map_iff in Hx. destruct Hx as (y & <- & Hy). apply filter_In in Hy. destruct Hy as [Hy1 Hy2].
      apply spec_cleanup_keys; [apply B; apply in_map; exact Hy1|].
      intros C. rewrite C, String.eqb_refl in Hy2. discriminate.
  - destruct (build_topology_spec m m' (proj2 H) H1) as (s & rc & sc & -> & K & _).
    assert (H' : NI (set_topo m s rc sc)).
    { split; [exact (proj1 H)|]. intros n Hn. apply K. apply (proj2 H). exact Hn. }
    destruct (reorder_spec _ _ _ H' H2) as (names & L & _ & -> & _ & PM & _).
    split; cbn [set_ctrls cm_ctrls cm_spec].
    + apply (Permutation_NoDup (l := map c_name (cm_ctrls m))); [symmetry; exact PM|exact (proj1 H)].
    + intros n Hn. apply (proj2 H'). apply (Permutation_in _ PM). exact Hn.
  - eapply NI_same; [..|exact H]; [|reflexivity]. cbn [set_ctrls cm_ctrls]. rewrite map_map. apply map_ext. reflexivity.
Qed.

Lemma NI_start hs : NI (cm_start hs).
Proof. split; [constructor|intros n []]. Qed.
Lemma reach_NI e allow hs ops m : crun e allow (cm_start hs) ops = Val m -> NI m.
Proof.
  intros H. eapply (crun_inv e allow NI); [intros m0 H0; exact (proj1 H0)|intros a b; apply prim_NI|apply NI_start|exact H].
Qed.

(** ---------------------------------------------------------------- configure: order and groups *)
Lemma prec_filter a b (p : name -> bool) l : p a = true -> p b = true -> comes_before a b l -> comes_before a b (filter p l).
Proof.
  intros Ha Hb (l1 & l2 & l3 & ->). exists (filter p l1), (filter p l2), (filter p l3).
  rewrite filter_app. cbn [filter]. rewrite Ha. rewrite filter_app. cbn [filter]. rewrite Hb. reflexivity.
Qed.

Lemma feeds_flow m a b : feeds (cm_ctrls m) (cm_rm m) a b <-> data_flow m a b.
Proof. reflexivity. Qed.

(** the manager state after ordering has the same data flow *)
Lemma data_flow_reorder m L : (forall x, In x (map c_name L) <-> In x (map c_name (cm_ctrls m))) ->
  (forall c', In c' L -> exists c g, In c (cm_ctrls m) /\ c' = upd_group g c) ->
  (forall c, In c (cm_ctrls m) -> exists g, In (upd_group g c) L) ->
  forall a b, data_flow (set_ctrls m L) a b <-> data_flow m a b.
Proof.
  intros HN H1 H2 a b.
  assert (U : forall c g x, (commands (set_ctrls m L) (upd_group g c) x <-> commands m c x) /\
                            (observes (set_ctrls m L) (upd_group g c) x <-> observes m c x)).
  { intros c g x. unfold commands, observes. cbn [set_ctrls cm_ctrls cm_rm upd_group c_lc].
    rewrite HN. split; reflexivity. }
  unfold data_flow. split.
  - intros [(c' & Hc & E & HU)|(c' & Hc & E & HU)]; destruct (H1 c' Hc) as (c & g & Hin & ->); [left|right];
      exists c; (split; [exact Hin|]); (split; [exact E|]); apply U in HU; exact HU.
  - intros [(c & Hc & E & HU)|(c & Hc & E & HU)]; destruct (H2 c Hc) as (g & Hin); [left|right];
      exists (upd_group g c); (split; [exact Hin|]); (split; [exact E|]); apply U; exact HU.
Qed.

Lemma path_walk s R P a b : (forall x y, touching R x y <-> adj s x y) -> (path_in R P a b <-> walk s P a b).
Proof.
  intros H. split; intros W; induction W; try (constructor; assumption).
  - eapply walk_step; [eassumption|apply H; assumption|assumption].
  - eapply path_step; [eassumption|apply H; assumption|assumption].
Qed.


Lemma exports_un_rm n m m' : exports_unavailable m n = Val m' -> exists r, m' = set_rm m r.
Proof.
  unfold exports_unavailable. intros H. apply bind_val in H. destruct H as (r1 & H1 & H).
  apply bind_val in H. destruct H as (r2 & H2 & H). injection H as <-. eauto.
Qed.

Lemma has_lc_chained e m n k b l : has_lc m k l = true -> has_lc (set_chained e m n b) k l = true.
Proof.
  unfold set_chained. destruct (find_ctrl m n) as [c|] eqn:F; [|auto].
  destruct (_ && _); [|auto]. destruct (e_set_chained e _ n b); [|auto].
  unfold has_lc. intros H. destruct (find_ctrl m k) as [ck|] eqn:Fk; [|discriminate].
  rewrite (find_upd_same _ _ _ _ ck); [|reflexivity|exact Fk]. destruct (String.eqb k n); exact H.
Qed.

(** the phases of a successful configure *)
Lemma configure_split e allow (KS : pk -> Prop) m n order m' : KS KImport -> KS KConf -> configure_controller e m n order = Val (m', true) ->
  exists m3 m4, steps e allow KS m m3 /\ frame n m m3 /\ has_lc m3 n Inactive = true /\
    build_topology m3 = Val m4 /\ reorder m4 order = Val m'.
Proof.
  intros ki kc. unfold configure_controller. destruct (find_ctrl m n) as [c|] eqn:F; [|discriminate].
  assert (G : (let '(m1, ok1) := if is_lc Inactive c then cleanup_spec e m n else (m, true) in
      if negb ok1 then Val (m1, false)
      else
        let m2 := node_configure e (cleanup_exports m1 n) n in
        if negb (has_lc m2 n Inactive) then Val (m2, false)
        else if c_chainable c && negb (exports_ok c) then Val (fst (cleanup_spec e m2 n), false)
        else
          do m3 <- (if c_chainable c then
                      let '(r1, ok) := import_refs (cm_rm m2) n (c_refs c) in
                      if negb ok then Crash
                      else
                        exports_unavailable (set_chained e (set_rm m2 (import_exps r1 n (c_exps c))) n false) n
                    else Val m2);
          if negb (uniqueb (cmd_names (cm_rm m3) c)) || negb (uniqueb (state_names (cm_rm m3) c))
          then Val (fst (cleanup_spec e m3 n), false)
          else
            do m4 <- build_topology m3;
            do m5 <- reorder m4 order;
            Val (m5, true)) = Val (m', true) -> exists m3 m4, steps e allow KS m m3 /\ frame n m m3 /\ has_lc m3 n Inactive = true /\
    build_topology m3 = Val m4 /\ reorder m4 order = Val m').
  2:{ destruct (c_lc c); try exact G; discriminate. }
  assert (S1 : steps e allow KS m (fst (if is_lc Inactive c then cleanup_spec e m n else (m, true)))).
  { destruct (is_lc Inactive c); [apply cleanup_spec_steps; exact ki|apply s_refl]. }
  assert (FR1 : frame n m (fst (if is_lc Inactive c then cleanup_spec e m n else (m, true)))).
  { destruct (is_lc Inactive c); [apply frame_cleanup_spec|apply frame_refl]. }
  destruct (if is_lc Inactive c then cleanup_spec e m n else (m, true)) as [m1 ok1]. cbn [fst] in *.
  destruct (negb ok1); [discriminate|]. cbv zeta.
  assert (S2 : steps e allow KS m (node_configure e (cleanup_exports m1 n) n)).
  { eapply steps_trans; [exact S1|]. eapply steps_trans; [apply cleanup_exports_steps; exact ki|apply node_configure_steps; exact kc]. }
  assert (FR2 : frame n m (node_configure e (cleanup_exports m1 n) n)).
  { eapply frame_trans; [exact FR1|]. eapply frame_trans; [apply frame_cleanup_exports|apply frame_transition]. }
  set (m2 := node_configure e (cleanup_exports m1 n) n) in *.
  destruct (negb (has_lc m2 n Inactive)) eqn:HI; [discriminate|]. apply negb_false_iff in HI.
  destruct (_ && _); [discriminate|].
  intros H. apply bind_val in H. destruct H as (m3 & H3 & H).
  assert (S3 : steps e allow KS m m3 /\ frame n m m3 /\ has_lc m3 n Inactive = true).
  { destruct (c_chainable c) eqn:Ch; [|injection H3 as <-; auto].
    assert (F2 : exists c2, find_ctrl m2 n = Some c2).
    { unfold has_lc in HI. destruct (find_ctrl m2 n) as [c2|]; [eauto|discriminate]. }
    destruct F2 as [c2 F2]. destruct (fr_const _ _ _ FR2 c2 F2) as (c0 & F0 & SC).
    assert (c0 = c) by congruence. subst c0. destruct SC as (Q1 & Q2 & Q3 & Q4 & Q5 & Q6 & Q7).
    pose proof (p_import_refs e allow KS m2 n c2 ki F2) as K. rewrite Q6, Q2 in K. specialize (K Ch).
    destruct (import_refs (cm_rm m2) n (c_refs c)) as [r1 ok]. cbn [fst snd] in K.
    destruct ok; [|discriminate]. cbn [negb] in H3.
    split; [|split].
    - eapply steps_trans; [exact S2|].
      eapply steps_trans; [apply steps_prim; apply K; reflexivity|].
      apply (exports_unavailable_steps e allow KS) in H3. eapply steps_trans; [|exact H3].
      eapply steps_trans; [|apply set_chained_steps].
      change (set_rm m2 (import_exps r1 n (c_exps c))) with (set_rm (set_rm m2 r1) (import_exps (cm_rm (set_rm m2 r1)) n (c_exps c))).
      rewrite <- Q7. apply steps_prim. apply p_import_exps; [exact ki|exact F2|congruence].
    - apply exports_un_rm in H3. destruct H3 as [r ->]. eapply frame_trans; [exact FR2|].
      eapply frame_trans; [apply frame_set_rm|]. eapply frame_trans; [apply frame_chained|apply frame_set_rm].
    - apply exports_un_rm in H3. destruct H3 as [r ->].
      change (has_lc (set_chained e (set_rm m2 (import_exps r1 n (c_exps c))) n false) n Inactive = true).
      apply has_lc_chained. exact HI. }
  destruct (_ || _); [discriminate|].
  apply bind_val in H. destruct H as (m4 & H4 & H). apply bind_val in H. destruct H as (m5 & H5 & H).
  injection H as <-. exists m3, m4. tauto.
Qed.

Lemma configure_success e m n order m' : NI m -> configure_controller e m n order = Val (m', true) ->
  exists m3 s rc sc names, NI m3 /\ map c_name (cm_ctrls m3) = map c_name (cm_ctrls m) /\
    order_all s (iteration order s) [] = Some names /\
    cm_rm m' = cm_rm m3 /\ cm_spec m' = s /\ cm_refc m' = rc /\ cm_stc m' = sc /\
    map c_name (cm_ctrls m') = filter (fun x => mem x (map c_name (cm_ctrls m3))) names /\
    Permutation (map c_name (cm_ctrls m')) (map c_name (cm_ctrls m3)) /\
    (forall c', In c' (cm_ctrls m') -> exists c, In c (cm_ctrls m3) /\ c' = upd_group (chain_group s (c_name c)) c) /\
    (forall a b, data_flow m' a b <-> data_flow m3 a b) /\
    (forall x, In x (map c_name (cm_ctrls m3)) -> In x (map fst s)) /\
    (forall a b, In b (following (get_links s a)) <-> data_flow m3 a b) /\
    (forall a b, In a (preceding (get_links s b)) <-> data_flow m3 a b) /\
    (forall a b, In a (cache_get rc b) <-> exists c, In c (cm_ctrls m3) /\ c_name c = a /\ commands m3 c b) /\
    (forall a b, In a (cache_get sc b) <-> exists c, In c (cm_ctrls m3) /\ c_name c = a /\ observes m3 c b) /\
    has_lc m' n Inactive = true.
Proof.
  intros HNI H. destruct (configure_split e true any_kind _ _ _ _ I I H) as (m3 & m4 & S3 & FR & HL & HB & HR).
  assert (N3 : NI m3) by (eapply NI_same; [apply (fr_names _ _ _ FR)|apply (fr_spec _ _ _ FR)|exact HNI]).
  destruct (build_topology_spec _ _ (proj2 N3) HB) as (s & rc & sc & E4 & K1 & K2 & K3 & K4 & K5).
  assert (N4 : NI m4).
  { subst m4. split; [exact (proj1 N3)|]. intros x Hx. cbn [set_topo cm_spec]. apply K1. apply N3. exact Hx. }
  destruct (reorder_spec _ _ _ N4 HR) as (names & L & R1 & R2 & R3 & R4 & R5). subst m4 m'.
  cbn [set_topo cm_spec cm_ctrls cm_rm] in *.
  assert (HN : forall x, In x (map c_name L) <-> In x (map c_name (cm_ctrls m3))).
  { intros x. split; intros Hx; [eapply Permutation_in; [exact R4|exact Hx]|].
    eapply Permutation_in; [apply Permutation_sym; exact R4|exact Hx]. }
  exists m3, s, rc, sc, names. split; [exact N3|]. split; [apply (fr_names _ _ _ FR)|].
  split; [exact R1|]. do 4 (split; [reflexivity|]). split; [exact R3|]. split; [exact R4|]. split; [exact R5|].
  assert (H2 : forall c, In c (cm_ctrls m3) -> In (upd_group (chain_group s (c_name c)) c) L).
  { intros c Hc. assert (Hn : In (c_name c) (map c_name L)) by (apply HN; apply in_map; exact Hc).
    apply in_map_iff in Hn. destruct Hn as (c' & En & Hc'). destruct (R5 c' Hc') as (c0 & Hc0 & ->).
    cbn [upd_group c_name] in En.
    assert (c0 = c); [|subst; exact Hc'].
    pose proof (NoDup_find (cm_ctrls m3) c0 (proj1 N3) Hc0) as F0. pose proof (NoDup_find (cm_ctrls m3) c (proj1 N3) Hc) as F1.
    congruence. }
  split.
  { intros a b. change (data_flow (set_ctrls m3 L) a b <-> data_flow m3 a b). apply data_flow_reorder; [exact HN| |].
    - intros c' Hc'. destruct (R5 c' Hc') as (c & Hc & ->). eauto.
    - intros c Hc. eauto. }
  split; [intros x Hx; apply K1; apply N3; exact Hx|].
  split; [exact K2|]. split; [exact K3|]. split; [exact K4|]. split; [exact K5|].
  unfold has_lc in *. destruct (find_ctrl m3 n) as [c|] eqn:Fc; [|discriminate].
  assert (Hc : In c (cm_ctrls m3)) by (apply find_in_In in Fc; exact Fc).
  pose proof (find_in_name _ _ _ Fc) as En.
  assert (FL : find_ctrl (set_ctrls (set_topo m3 s rc sc) L) n = Some (upd_group (chain_group s (c_name c)) c)).
  { subst n. apply (NoDup_find L (upd_group (chain_group s (c_name c)) c)); [|apply H2; exact Hc].
    eapply Permutation_NoDup; [apply Permutation_sym; exact R4|exact (proj1 N3)]. }
  rewrite FL. exact HL.
Qed.
