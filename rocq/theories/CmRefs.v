(** CmRefs.v -- the interfaces exported by controllers and registered with the resource manager:
    every registered name is an interface of the resource manager, has an entry in the table of
    claims, and belongs to one controller only. *)
From Coq Require Import Lia.
From Verif Require Import Base Events HwModel RmModel RmSys RmSpec RmProofs RmInv ChainModel CmModel CmPrim ChainSpec CmTopo CmInv CmSpec CmExcl CmReach.

Record RX (r : rm) : Prop := {
  rx_ck : forall k, In k (rm_ckeys r) -> aget (rm_claimed r) k <> None;
  rx_refs : forall c ks, aget (rm_refs r) c = Some ks -> incl ks (rm_ckeys r);
  rx_exps : forall c ks, aget (rm_exps r) c = Some ks -> incl ks (rm_skeys r);
  rx_dis : forall c1 c2 k1 k2 k, c1 <> c2 -> aget (rm_refs r) c1 = Some k1 -> aget (rm_refs r) c2 = Some k2 -> In k k1 -> ~ In k k2;
  rx_dise : forall c1 c2 k1 k2 k, c1 <> c2 -> aget (rm_exps r) c1 = Some k1 -> aget (rm_exps r) c2 = Some k2 -> In k k1 -> ~ In k k2
}.
Lemma RX_ext r r' : rm_ckeys r' = rm_ckeys r -> rm_skeys r' = rm_skeys r -> rm_refs r' = rm_refs r -> rm_exps r' = rm_exps r ->
  (forall k, aget (rm_claimed r) k <> None -> aget (rm_claimed r') k <> None) -> RX r -> RX r'.
Proof.
  intros A B C D E [H1 H2 H3 H4 H5]. constructor; rewrite ?A, ?B, ?C, ?D; auto.
Qed.
Lemma RX_evolve r r' : evolve r r' -> RX r -> RX r'.
Proof. intros E. apply RX_ext; try apply E. rewrite (ev_claimed _ _ E). auto. Qed.
Lemma RX_maps r r' : same_maps r r' -> (forall k, aget (rm_claimed r) k <> None -> aget (rm_claimed r') k <> None) -> RX r -> RX r'.
Proof. intros (_ & _ & A & B & C & D) K. apply RX_ext; assumption. Qed.
Lemma release_known ks r k : aget (rm_claimed r) k <> None -> aget (rm_claimed (release_all r ks)) k <> None.
Proof. rewrite release_claimed. destruct (mem k ks); [discriminate|auto]. Qed.
Lemma claim_known k : forall ks r got r1 o, claim_all r ks got = Val (r1, o) ->
  aget (rm_claimed r) k <> None -> aget (rm_claimed r1) k <> None.
Proof.
  induction ks as [|x ks IH]; intros r got r1 o; cbn [claim_all]; [intros [= <- _]; auto|].
  destruct (cmd_claimed r x) as [[]|]; [intros [= <- _]; apply release_known| |discriminate].
  unfold claim_cmd. destruct (cmd_available r x); [|intros [= <- _]; apply release_known].
  assert (S : forall b, aget (rm_claimed r) k <> None -> aget (rm_claimed (with_claimed r (aset (rm_claimed r) x b))) k <> None).
  { intros b H. cbn [with_claimed rm_claimed]. rewrite aget_aset. destruct (String.eqb k x); [discriminate|exact H]. }
  destruct (aget (rm_claimed r) x) as [[]|] eqn:E; try (intros [= <- _]; apply release_known).
  destruct (mem x (rm_ckeys r)).
  - intros H K. eapply IH; [exact H|]. apply S. exact K.
  - intros [= <- _] K. apply release_known. apply S. exact K.
Qed.
(** importing *)
Lemma add_cmd_spec ks : forall r r1, add_cmd_itfs ks r = (r1, true) ->
  rm_ckeys r1 = rm_ckeys r ++ ks /\ (forall k, In k ks -> ~ In k (rm_ckeys r)) /\ rm_skeys r1 = rm_skeys r /\ rm_refs r1 = rm_refs r /\ rm_exps r1 = rm_exps r /\
  (forall k, aget (rm_claimed r) k <> None -> aget (rm_claimed r1) k <> None) /\ (forall k, In k ks -> aget (rm_claimed r1) k <> None).
Proof.
  induction ks as [|x ks IH]; intros r r1; cbn [add_cmd_itfs].
  { intros [= <-]. rewrite app_nil_r. repeat split; auto; intros ? []. }
  destruct (mem x (rm_ckeys r)) eqn:M; [discriminate|]. intros H. apply IH in H. cbn [with_cmap rm_ckeys rm_skeys rm_refs rm_exps rm_claimed] in H.
  destruct H as (A & B & C & D & E & F & G). rewrite <- app_assoc in A. cbn [app] in A. apply mem_false in M.
  assert (X : aget (match aget (rm_claimed r) x with Some _ => rm_claimed r | None => aset (rm_claimed r) x false end) x <> None).
  { destruct (aget (rm_claimed r) x) eqn:Ex; [congruence|]. rewrite aget_aset_same. discriminate. }
  split; [exact A|]. split.
  { intros k [<-|Hk]; [exact M|]. intros K. apply (B k Hk). apply in_app_iff. left. exact K. }
  split; [exact C|]. split; [exact D|]. split; [exact E|]. split.
  - intros k Hk. apply F. destruct (aget (rm_claimed r) x) eqn:Ex; [exact Hk|]. rewrite aget_aset. destruct (String.eqb k x); [discriminate|exact Hk].
  - intros k [<-|Hk]; [apply F; exact X|apply G; exact Hk].
Qed.
Lemma RX_import_refs r c ks : RX r -> snd (import_refs r c ks) = true -> RX (fst (import_refs r c ks)).
Proof.
  intros [H1 H2 H3 H4 H5]. unfold import_refs. destruct (add_cmd_itfs ks r) as [r1 ok] eqn:E. destruct ok; [|discriminate]. intros _. cbn [fst].
  apply add_cmd_spec in E. destruct E as (A & B & C & D & E & F & G).
  constructor; cbn [with_refs rm_ckeys rm_skeys rm_refs rm_exps rm_claimed].
  - intros k. rewrite A, in_app_iff. intros [K|K]; [apply F; apply H1; exact K|apply G; exact K].
  - intros c0 l. rewrite aget_aset, A, D. destruct (String.eqb c0 c).
    + intros [= <-]. intros k Hk. apply in_app_iff. right. exact Hk.
    + intros Hl k Hk. apply in_app_iff. left. eapply H2; eassumption.
  - rewrite E, C. exact H3.
  - intros c1 c2 k1 k2 k Ne. rewrite !aget_aset, D. destruct (String.eqb_spec c1 c) as [->|N1]; destruct (String.eqb_spec c2 c) as [->|N2].
    + contradiction.
    + intros [= <-] Q Hk K. apply (B k Hk). eapply H2; eassumption.
    + intros Q [= <-] K Hk. apply (B k Hk). eapply H2; eassumption.
    + apply H4. exact Ne.
  - rewrite E. exact H5.
Qed.
Lemma add_state_spec ks : forall r r1 ad, add_state_itfs ks r = (r1, ad) ->
  (forall k, In k (rm_skeys r1) <-> In k (rm_skeys r) \/ In k ad) /\ (forall k, In k ad -> ~ In k (rm_skeys r)) /\
  rm_ckeys r1 = rm_ckeys r /\ rm_refs r1 = rm_refs r /\ rm_exps r1 = rm_exps r /\ rm_claimed r1 = rm_claimed r.
Proof.
  induction ks as [|x ks IH]; intros r r1 ad; cbn [add_state_itfs].
  { intros [= <- <-]. split; [intros k; cbn [In]; tauto|]. split; [intros ? []|]. auto. }
  destruct (mem x (rm_skeys r)) eqn:M; [apply IH|]. apply mem_false in M.
  destruct (add_state_itfs ks (with_skeys r (rm_skeys r ++ [x]))) as [r' added] eqn:E. intros [= <- <-]. apply IH in E.
  cbn [with_skeys rm_ckeys rm_skeys rm_refs rm_exps rm_claimed] in E. destruct E as (A & B & C & D & F & G).
  split. { intros k. rewrite A, in_app_iff. cbn [In]. tauto. }
  split. { intros k [<-|Hk]; [exact M|]. intros K. apply (B k Hk). apply in_app_iff. left. exact K. }
  repeat split; assumption.
Qed.
Lemma RX_import_exps r c ks : RX r -> RX (import_exps r c ks).
Proof.
  intros [H1 H2 H3 H4 H5]. unfold import_exps. destruct (add_state_itfs ks r) as [r1 ad] eqn:E.
  apply add_state_spec in E. destruct E as (A & B & C & D & F & G).
  constructor; cbn [with_exps rm_ckeys rm_skeys rm_refs rm_exps rm_claimed].
  - rewrite C, G. exact H1.
  - rewrite D, C. exact H2.
  - intros c0 l. rewrite aget_aset, F. destruct (String.eqb c0 c).
    + intros [= <-]. intros k Hk. apply A. right. exact Hk.
    + intros Hl k Hk. apply A. left. eapply H3; eassumption.
  - rewrite D. exact H4.
  - intros c1 c2 k1 k2 k Ne. rewrite !aget_aset, F. destruct (String.eqb_spec c1 c) as [->|N1]; destruct (String.eqb_spec c2 c) as [->|N2].
    + contradiction.
    + intros [= <-] Q Hk K. apply (B k Hk). eapply H3; eassumption.
    + intros Q [= <-] K Hk. apply (B k Hk). eapply H3; eassumption.
    + apply H5. exact Ne.
Qed.
Lemma RX_remove_refs r c : NoDup (rm_ckeys r) -> RX r -> RX (remove_refs r c).
Proof.
  intros ND [H1 H2 H3 H4 H5]. unfold remove_refs. destruct (aget (rm_refs r) c) as [ks|] eqn:E; [|constructor; assumption].
  constructor; cbn [with_refs with_cmap rm_ckeys rm_skeys rm_refs rm_exps rm_claimed].
  - intros k Hk. apply (remove_items_spec ks _ ND) in Hk. destruct Hk as [Hk Nk]. rewrite fold_adel_other by exact Nk. apply H1. exact Hk.
  - intros c0 l. rewrite aget_adel. destruct (String.eqb_spec c0 c) as [->|Ne]; [discriminate|]. intros Hl k Hk.
    apply (remove_items_spec ks _ ND). split; [eapply H2; eassumption|]. eapply H4; eassumption.
  - exact H3.
  - intros c1 c2 k1 k2 k Ne. rewrite !aget_adel. destruct (String.eqb c1 c); [discriminate|]. destruct (String.eqb c2 c); [discriminate|]. apply H4. exact Ne.
  - exact H5.
Qed.
Lemma RX_remove_exps r c : NoDup (rm_skeys r) -> RX r -> RX (remove_exps r c).
Proof.
  intros ND [H1 H2 H3 H4 H5]. unfold remove_exps. destruct (aget (rm_exps r) c) as [ks|] eqn:E; [|constructor; assumption].
  constructor; cbn [with_exps with_skeys rm_ckeys rm_skeys rm_refs rm_exps rm_claimed]; try assumption.
  - intros c0 l. rewrite aget_adel. destruct (String.eqb_spec c0 c) as [->|Ne]; [discriminate|]. intros Hl k Hk.
    apply (remove_items_spec ks _ ND). split; [eapply H3; eassumption|]. eapply H5; eassumption.
  - intros c1 c2 k1 k2 k Ne. rewrite !aget_adel. destruct (String.eqb c1 c); [discriminate|]. destruct (String.eqb c2 c); [discriminate|]. apply H5. exact Ne.
Qed.
Lemma prim_RX e allow KS m m' : RI (cm_rm m) -> prim e allow KS m m' -> RX (cm_rm m) -> RX (cm_rm m').
Proof.
  intros HR P H. destruct P; cbn [upd set_ctrls set_rm set_topo set_pend cm_rm emit]; try exact H.
  - eapply RX_ext; [..|exact H]; auto.
  - eapply RX_evolve; [apply rm_read_evolve; apply HR|exact H].
  - eapply RX_evolve; [apply rm_write_evolve; apply HR|exact H].
  - destruct (set_component_state_ok e (cm_rm m) h t (i_names _ HR)) as [[E _ _] _]. eapply RX_evolve; [exact E|exact H].
  - destruct (rm_prepare_evolve e allow (cm_rm m) a d (i_names _ HR)) as [E _]. eapply RX_evolve; [exact E|exact H].
  - destruct (rm_perform_evolve e allow (cm_rm m) a d (i_names _ HR)) as [E _]. eapply RX_evolve; [exact E|exact H].
  - match goal with Q : make_refs_available _ _ = _ |- _ => destruct (refs_av_maps _ _ _ Q) as [X Y] end. eapply RX_maps; [exact X|rewrite Y; auto|exact H].
  - match goal with Q : make_refs_unavailable _ _ = _ |- _ => destruct (refs_un_maps _ _ _ Q) as [X Y] end. eapply RX_maps; [exact X|rewrite Y; auto|exact H].
  - match goal with Q : make_exps_available _ _ = _ |- _ => destruct (exps_av_maps _ _ _ Q) as [X Y] end. eapply RX_maps; [exact X|rewrite Y; auto|exact H].
  - match goal with Q : make_exps_unavailable _ _ = _ |- _ => destruct (exps_un_maps _ _ _ Q) as [X Y] end. eapply RX_maps; [exact X|rewrite Y; auto|exact H].
  - eapply RX_maps; [apply cache_maps|rewrite claimed_same_cache; auto|exact H].
  - apply RX_import_refs; assumption.
  - apply RX_import_exps. exact H.
  - apply RX_remove_refs; [|apply RX_remove_exps; [apply HR|exact H]].
    destruct (RI_remove_exps (cm_rm m) n HR) as [_ _ K]. apply K.
  - eapply RX_maps; [apply release_maps|intros k; apply release_known|exact H].
  - eapply RX_maps; [|intros k Hk; apply release_known; eapply claim_known; eassumption|exact H]. eapply same_maps_trans; [eapply claim_all_maps; eassumption|apply release_maps].
  - eapply RX_maps; [|intros k Hk; apply release_known; eapply claim_known; eassumption|exact H]. eapply same_maps_trans; [eapply claim_all_maps; eassumption|apply release_maps].
  - eapply RX_maps; [|intros k Hk; apply release_known; apply release_known; eapply claim_known; eassumption|exact H]. eapply same_maps_trans; [eapply claim_all_maps; eassumption|].
    eapply same_maps_trans; apply release_maps.
  - eapply RX_maps; [|intros k Hk; apply release_known; apply release_known; eapply claim_known; eassumption|exact H]. eapply same_maps_trans; [eapply claim_all_maps; eassumption|].
    eapply same_maps_trans; apply release_maps.
  - eapply RX_maps; [eapply claim_all_maps; eassumption|intros k Hk; eapply claim_known; eassumption|exact H].
  - eapply RX_maps; [|intros k Hk; apply release_known; eapply claim_known; eassumption|exact H]. eapply same_maps_trans; [eapply claim_all_maps; eassumption|apply release_maps].
  - match goal with HB : build_topology m = Val m', HO : reorder _ _ = Val m'' |- _ =>
      unfold build_topology in HB; apply bind_val in HB; destruct HB as ([[s rc] sc] & _ & E); injection E as <-;
      unfold reorder in HO; apply bind_val in HO; destruct HO as (names & _ & E); injection E as <- end. exact H.
Qed.
Record XI (m : cm) : Prop := { xi_ci : CI m; xi_rx : RX (cm_rm m) }.
Lemma reach_XI e allow hs ops m : wf_hw hs -> crun e allow (cm_start hs) ops = Val m -> XI m.
Proof.
  intros W H. eapply (crun_inv e allow XI); [|..|exact H].
  - intros x [[A _ _] _]. apply A.
  - intros a b [A B] P. constructor; [eapply prim_CI; eassumption|eapply prim_RX; [apply A|eassumption|exact B]].
  - constructor; [apply start_CI; exact W|]. cbn [cm_start cm_rm rm_start]. constructor; cbn [rm_start rm_ckeys rm_skeys rm_claimed rm_refs rm_exps aget]; try discriminate.
    intros k. induction (flat_map h_cmd hs) as [|x l IH]; [intros []|]. cbn [map aget]. intros [<-|Hk].
    + rewrite String.eqb_refl. discriminate.
    + destruct (String.eqb k x); [discriminate|apply IH; exact Hk].
Qed.
