(** CmReach.v -- the invariants hold in every reachable state; C12, C13, C30. *)
From Coq Require Import Permutation Lia.
From Verif Require Import Base Events HwModel RmModel RmSys RmSpec RmProofs RmInv ChainModel CmModel CmPrim ChainSpec CmTopo CmInv CmExcl.

Record CI (m : cm) : Prop := { ci_n : NI m; ci_r : RI (cm_rm m); ci_l : LI m }.
Lemma prim_CI e allow KS m m' : CI m -> prim e allow KS m m' -> CI m'.
Proof.
  intros [A B C] P. constructor; [eapply prim_NI|eapply prim_RI|eapply prim_LI]; eassumption.
Qed.
Lemma start_CI hs : wf_hw hs -> CI (cm_start hs).
Proof.
  intros W. constructor; [apply NI_start| |intros c []].
  destruct (start_RInv hs W) as [A B]. constructor; [exact A|exact B|apply start_KInv; exact W].
Qed.
Lemma reach_CI e allow hs ops m : wf_hw hs -> crun e allow (cm_start hs) ops = Val m -> CI m.
Proof.
  intros W H. eapply (crun_inv e allow CI); [intros x Hx; exact (proj1 (ci_n _ Hx))|intros a b; apply prim_CI|apply start_CI; exact W|exact H].
Qed.
Lemma steps_CI e allow KS m m' : CI m -> steps e allow KS m m' -> CI m'.
Proof. intros H S. induction S; [exact H|]. eapply prim_CI; eassumption. Qed.

(** C12 *)
Lemma main_idle e allow hs ops m c : wf_hw hs -> crun e allow (cm_start hs) ops = Val m ->
  In c (cm_ctrls m) -> c_lc c <> Active -> c_cloans c = [] /\ c_sloans c = [].
Proof. intros W H Hc HL. apply (ci_l _ (reach_CI _ _ _ _ _ W H) c Hc HL). Qed.

Lemma main_holds e allow hs ops m c : crun e allow (cm_start hs) ops = Val m ->
  In c (cm_ctrls m) -> c_lc c = Active ->
  (forall t, e_ctrl e t (c_name c) CDeactivate <> CbFailure) ->
  (forall ks, c_cmd c = IIndividual ks -> c_cloans c = ks) /\
  (forall ks, c_state c = IIndividual ks -> c_sloans c = ks).
Proof.
  intros H Hc HL HE. set (n := c_name c) in *.
  assert (G : NI m /\ forall c, In c (cm_ctrls m) -> c_name c = n -> holds c).
  { eapply (crun_inv e allow (fun m => NI m /\ forall c, In c (cm_ctrls m) -> c_name c = n -> holds c)); [| | |exact H].
    - intros x [Hx _]. exact (proj1 Hx).
    - intros a b [A B] P. split; [eapply prim_NI; eassumption|]. eapply prim_holds; eassumption.
    - split; [apply NI_start|intros x []]. }
  destruct G as [_ G]. exact (G c Hc eq_refl HL).
Qed.

(** C13 *)
Lemma reach_Excl e allow hs ops m k : wf_hw hs -> In k (flat_map h_cmd hs) ->
  crun e allow (cm_start hs) ops = Val m -> Excl k m.
Proof.
  intros W Hk H.
  assert (G : CI m /\ In k (hw_cmds (cm_rm m)) /\ Excl k m).
  { eapply (crun_inv e allow (fun m => CI m /\ In k (hw_cmds (cm_rm m)) /\ Excl k m)); [| | |exact H].
    - intros x [Hx _]. exact (proj1 (ci_n _ Hx)).
    - intros a b (A & B & C) P. split; [eapply prim_CI; eassumption|]. split.
      + rewrite hw_cmds_statics, (prim_statics _ _ _ _ _ (ci_r _ A) P), <- hw_cmds_statics. exact B.
      + eapply prim_Excl; [apply A|apply A|apply A|intros _; exact B|exact P|exact C].
    - split; [apply start_CI; exact W|]. split.
      + unfold hw_cmds. simpl. rewrite flat_map_set by reflexivity. exact Hk.
      + split; [vm_compute; auto|]. intros C. discriminate. }
  exact (proj2 (proj2 G)).
Qed.

Lemma cnt_two k l c1 c2 : In c1 l -> In c2 l -> c1 <> c2 -> In k (c_cloans c1) -> In k (c_cloans c2) -> 2 <= cnt k l.
Proof.
  intros H1 H2 Ne K1 K2. apply in_split in H1. destruct H1 as (a & b & ->). apply in_app_iff in H2.
  apply (count_occ_In string_dec) in K1, K2. rewrite cnt_app, cnt_cons.
  assert (S : forall l, In c2 l -> 1 <= cnt k l).
  { intros l Hl. apply in_split in Hl. destruct Hl as (x & y & ->). rewrite cnt_app, cnt_cons. lia. }
  destruct H2 as [H2|[H2|H2]]; [|congruence|]; apply S in H2; lia.
Qed.

Lemma main_exclusive e allow hs ops m k c1 c2 : wf_hw hs -> In k (flat_map h_cmd hs) ->
  crun e allow (cm_start hs) ops = Val m ->
  In c1 (cm_ctrls m) -> In c2 (cm_ctrls m) -> c_name c1 <> c_name c2 ->
  In k (c_cloans c1) -> In k (c_cloans c2) -> False.
Proof.
  intros W Hk H H1 H2 Ne K1 K2. destruct (reach_Excl _ _ _ _ _ _ W Hk H) as [E _].
  assert (2 <= cnt k (cm_ctrls m)); [|lia]. eapply cnt_two; [exact H1|exact H2|congruence|exact K1|exact K2].
Qed.
Lemma main_claimed e allow hs ops m k c : wf_hw hs -> In k (flat_map h_cmd hs) ->
  crun e allow (cm_start hs) ops = Val m -> In c (cm_ctrls m) -> In k (c_cloans c) ->
  aget (rm_claimed (cm_rm m)) k = Some true /\ count_occ string_dec (c_cloans c) k = 1.
Proof.
  intros W Hk H Hc K. destruct (reach_Excl _ _ _ _ _ _ W Hk H) as [E1 E2].
  apply (count_occ_In string_dec) in K. apply in_split in Hc. destruct Hc as (a & b & El).
  assert (X : cnt k (cm_ctrls m) = cnt k a + (count_occ string_dec (c_cloans c) k + cnt k b)) by (rewrite El, cnt_app, cnt_cons; lia).
  split; [apply E2; lia|lia].
Qed.

(** C30 *)
Lemma main_unique e allow hs ops m : crun e allow (cm_start hs) ops = Val m -> NoDup (map c_name (cm_ctrls m)).
Proof. intros H. apply (reach_NI _ _ _ _ _ H). Qed.
