(** CmDone.v -- an accepted switch whose callbacks succeed does what it was asked to do (C52). *)
From Coq Require Import Lia.
From Verif Require Import Base Events HwModel RmModel RmSys RmSpec RmProofs RmInv RmAvail ChainModel CmModel CmPrim ChainSpec CmTopo CmInv CmSpec CmExcl CmReach CmLeak CmSwitch CmOutcome CmLoad CmIntact UpdateSpec CmDeact CmErr CmFallback FollowSpec CmRefs DoneSpec BestSpec CmPend.

Definition fixed (r : rm) := (rm_hw r, rm_ckeys r, rm_skeys r, rm_refs r, rm_exps r).
Lemma fixed_hw r r' : fixed r' = fixed r -> rm_hw r' = rm_hw r. Proof. unfold fixed. congruence. Qed.
Lemma fixed_ck r r' : fixed r' = fixed r -> rm_ckeys r' = rm_ckeys r. Proof. unfold fixed. congruence. Qed.
Lemma fixed_sk r r' : fixed r' = fixed r -> rm_skeys r' = rm_skeys r. Proof. unfold fixed. congruence. Qed.
Lemma fixed_refs r r' : fixed r' = fixed r -> rm_refs r' = rm_refs r. Proof. unfold fixed. congruence. Qed.
Lemma fixed_exps r r' : fixed r' = fixed r -> rm_exps r' = rm_exps r. Proof. unfold fixed. congruence. Qed.
Lemma fixed_maps r r' : same_maps r r' -> fixed r' = fixed r.
Proof. intros (A & _ & B & C & D & E). unfold fixed. congruence. Qed.


(** ---------------------------------------------------------------- set_chained: nothing that matters *)
Definition like (m m' : cm) : Prop :=
  (forall k, match find_ctrl m k with
             | None => find_ctrl m' k = None
             | Some c => exists c', find_ctrl m' k = Some c' /\ same_const c c' /\ c_lc c' = c_lc c /\ c_cloans c' = c_cloans c
             end) /\
  fixed (cm_rm m') = fixed (cm_rm m) /\ rm_claimed (cm_rm m') = rm_claimed (cm_rm m) /\
  rm_avc (cm_rm m') = rm_avc (cm_rm m) /\ rm_avs (cm_rm m') = rm_avs (cm_rm m) /\ cm_pend m' = cm_pend m.
Lemma like_refl m : like m m.
Proof.
  split; [|repeat split]. intros k. destruct (find_ctrl m k) as [c|]; [|reflexivity]. exists c. split; [reflexivity|]. split; [apply same_refl|split; reflexivity].
Qed.
Lemma like_trans a b c : like a b -> like b c -> like a c.
Proof.
  intros (A1 & A2 & A3 & A4 & A5 & A6) (B1 & B2 & B3 & B4 & B5 & B6). split; [|repeat split; congruence].
  intros k. specialize (A1 k). specialize (B1 k). destruct (find_ctrl a k) as [x|].
  - destruct A1 as (y & Fy & S1 & L1 & C1). rewrite Fy in B1. destruct B1 as (z & Fz & S2 & L2 & C2).
    exists z. split; [exact Fz|]. split; [eapply same_trans; eassumption|]. split; congruence.
  - rewrite A1 in B1. exact B1.
Qed.
Lemma like_chained e m n b : like m (set_chained e m n b).
Proof.
  unfold set_chained. destruct (find_ctrl m n) as [c|] eqn:F; [|apply like_refl].
  destruct (c_chainable c && negb (is_lc Active c)); [|apply like_refl].
  destruct (e_set_chained e (rm_trace (cm_rm m)) n b).
  - split; [|repeat split]. intros k. unfold find_ctrl in *. cbn [upd set_ctrls emit set_rm cm_ctrls]. rewrite find_upd by reflexivity.
    destruct (find_in (cm_ctrls m) k) as [c0|]; [|reflexivity]. eexists. split; [reflexivity|].
    destruct (String.eqb k n); repeat split.
  - split; [|repeat split]. intros k. change (find_ctrl (emit m (EvChained n b false)) k) with (find_ctrl m k).
    destruct (find_ctrl m k) as [c0|]; [|reflexivity]. exists c0. split; [reflexivity|]. repeat split.
Qed.
Lemma like_switch_chained e ns b : forall m, like m (switch_chained_mode e m ns b).
Proof.
  induction ns as [|n ns IH]; intros m; [apply like_refl|]. unfold switch_chained_mode in *. cbn [fold_left].
  eapply like_trans; [|apply IH]. destruct (find_ctrl m n) as [c|]; [|apply like_refl].
  destruct (is_lc Active c); [apply like_refl|apply like_chained].
Qed.

(** ---------------------------------------------------------------- stopping *)
Lemma release_avc ks : forall r, rm_avc (release_all r ks) = rm_avc r.
Proof. induction ks as [|k ks IH]; intros r; [reflexivity|]. unfold release_all in *. cbn [fold_left]. rewrite IH. reflexivity. Qed.
Lemma release_avs ks : forall r, rm_avs (release_all r ks) = rm_avs r.
Proof. induction ks as [|k ks IH]; intros r; [reflexivity|]. unfold release_all in *. cbn [fold_left]. rewrite IH. reflexivity. Qed.
Record stopped (ns : list name) (m m' : cm) : Prop := {
  st_find : forall n c, find_ctrl m n = Some c -> exists c', find_ctrl m' n = Some c' /\ same_const c c' /\
     (In n ns -> c_lc c = Active -> c_lc c' = Inactive /\ c_cloans c' = []) /\
     (~ In n ns \/ c_lc c <> Active -> c' = c);
  st_none : forall n, find_ctrl m n = None -> find_ctrl m' n = None;
  st_fixed : fixed (cm_rm m') = fixed (cm_rm m);
  st_pend : cm_pend m' = cm_pend m;
  st_claim : forall k, aget (rm_claimed (cm_rm m')) k = aget (rm_claimed (cm_rm m)) k \/ aget (rm_claimed (cm_rm m')) k = Some false;
  st_free : forall n c k, In n ns -> find_ctrl m n = Some c -> c_lc c = Active -> In k (c_cloans c) -> aget (rm_claimed (cm_rm m')) k = Some false;
  st_avc : forall k, In k (rm_avc (cm_rm m)) ->
     (forall n c ks, In n ns -> find_ctrl m n = Some c -> c_lc c = Active -> aget (rm_refs (cm_rm m)) n = Some ks -> ~ In k ks) ->
     In k (rm_avc (cm_rm m'));
  st_avs : forall k, In k (rm_avs (cm_rm m)) ->
     (forall n c ks, In n ns -> find_ctrl m n = Some c -> c_lc c = Active -> aget (rm_exps (cm_rm m)) n = Some ks -> ~ In k ks) ->
     In k (rm_avs (cm_rm m'))
}.
Lemma stopped_refl ns m : (forall n c, In n ns -> find_ctrl m n = Some c -> c_lc c <> Active) -> stopped ns m m.
Proof.
  intros H. constructor; auto.
  - intros n c F. exists c. split; [exact F|]. split; [apply same_refl|]. split; [|auto]. intros I L. exfalso. exact (H n c I F L).
  - intros n c k I F L. exfalso. exact (H n c I F L).
Qed.
Lemma stopped_cons n ns m m1 m2 : stopped [n] m m1 -> stopped ns m1 m2 -> stopped (n :: ns) m m2.
Proof.
  intros [A1 A2 A3 A4 A5 A6 A7 A8] [B1 B2 B3 B4 B5 B6 B7 B8]. constructor.
  - intros x c F. destruct (A1 x c F) as (c1 & F1 & S1 & D1 & U1). destruct (B1 x c1 F1) as (c2 & F2 & S2 & D2 & U2).
    exists c2. split; [exact F2|]. split; [eapply same_trans; eassumption|]. split.
    + intros I L. destruct (string_dec x n) as [->|Ne].
      * destruct (D1 (or_introl eq_refl) L) as [L1 C1]. assert (c2 = c1) by (apply U2; right; congruence). subst c2. auto.
      * assert (c1 = c) by (apply U1; left; intros [E|[]]; congruence). subst c1. apply D2; [|exact L].
        destruct I as [E|I]; [congruence|exact I].
    + intros NA. assert (c1 = c). { apply U1. destruct NA as [NA|NA]; [left|right; exact NA]. intros [E|[]]. apply NA. left. exact E. }
      subst c1. apply U2. destruct NA as [NA|NA]; [left|right; exact NA]. intros I. apply NA. right. exact I.
  - auto.
  - congruence.
  - congruence.
  - intros k. destruct (B5 k) as [E|E]; [rewrite E; apply A5|right; exact E].
  - intros x c k I F L K. destruct (string_dec x n) as [->|Ne].
    + pose proof (A6 n c k (or_introl eq_refl) F L K) as E. destruct (B5 k) as [E2|E2]; [rewrite E2; exact E|exact E2].
    + destruct (A1 x c F) as (c1 & F1 & _ & _ & U1). assert (c1 = c) by (apply U1; left; intros [E|[]]; congruence). subst c1.
      eapply B6; [|exact F1|exact L|exact K]. destruct I as [E|I]; [congruence|exact I].
  - intros k I H. apply B7.
    + apply A7; [exact I|]. intros x c ks [<-|[]]. apply H. left. reflexivity.
    + intros x c1 ks Ix F1 L1 R. rewrite (fixed_refs _ _ A3) in R. destruct (find_ctrl m x) as [c|] eqn:F.
      * destruct (A1 x c F) as (c1' & F1' & _ & D1 & U1). assert (c1' = c1) by congruence. subst c1'.
        destruct (lc_eqb (c_lc c) Active) eqn:L.
        -- assert (La : c_lc c = Active) by (destruct (c_lc c); try discriminate; reflexivity). eapply H; [right; exact Ix|exact F|exact La|exact R].
        -- assert (La : c_lc c <> Active) by (intros X; rewrite X in L; discriminate). rewrite (U1 (or_intror La)) in L1. contradiction.
      * rewrite (A2 x F) in F1. discriminate.
  - intros k I H. apply B8.
    + apply A8; [exact I|]. intros x c ks [<-|[]]. apply H. left. reflexivity.
    + intros x c1 ks Ix F1 L1 R. rewrite (fixed_exps _ _ A3) in R. destruct (find_ctrl m x) as [c|] eqn:F.
      * destruct (A1 x c F) as (c1' & F1' & _ & D1 & U1). assert (c1' = c1) by congruence. subst c1'.
        destruct (lc_eqb (c_lc c) Active) eqn:L.
        -- assert (La : c_lc c = Active) by (destruct (c_lc c); try discriminate; reflexivity). eapply H; [right; exact Ix|exact F|exact La|exact R].
        -- assert (La : c_lc c <> Active) by (intros X; rewrite X in L; discriminate). rewrite (U1 (or_intror La)) in L1. contradiction.
      * rewrite (A2 x F) in F1. discriminate.
Qed.
Lemma av_keep (k : name) l ks : In k l -> ~ In k ks -> In k (remove_items l ks).
Proof. intros A B. apply CmFallback.remove_items_keep; assumption. Qed.
Lemma stop_one e m n : works e n -> stopped [n] m (deactivate_one e m n).
Proof.
  intros W. unfold deactivate_one. destruct (find_ctrl m n) as [c|] eqn:F.
  2:{ apply stopped_refl. intros x c [<-|[]] F'. congruence. }
  destruct (is_lc Active c) eqn:La.
  2:{ apply stopped_refl. intros x c' [<-|[]] F'. assert (c' = c) by congruence. subst. unfold is_lc in La. intros X. rewrite X in La. discriminate. }
  apply active_dec in La. unfold node_deactivate, node_transition. rewrite F, La. cbn [lc_eqb]. unfold ctrl_call. rewrite (proj2 (W _)).
  set (m0 := emit m (EvCtrlCb n CDeactivate CbSuccess)).
  assert (F0 : find_ctrl m0 n = Some c) by exact F.
  rewrite (stop_lc_release m0 n c Inactive F0).
  set (m1 := upd (set_rm m0 (release_all (cm_rm m0) (c_cloans c))) n (set_stop Inactive)).
  assert (S1 : stopped [n] m m1).
  { constructor.
    - intros x c0 Fx. unfold m1, find_ctrl in *. cbn [upd set_ctrls set_rm m0 emit cm_ctrls]. rewrite find_upd by reflexivity. rewrite Fx.
      eexists. split; [reflexivity|]. destruct (String.eqb_spec x n) as [->|Ne].
      + split; [apply keeps_stop|]. split; [auto|]. intros [N|N]; [exfalso; apply N; left; reflexivity|]. exfalso. apply N. congruence.
      + split; [apply same_refl|]. split; [|auto]. intros [E|[]]. congruence.
    - intros x Fx. unfold m1, find_ctrl in *. cbn [upd set_ctrls set_rm m0 emit cm_ctrls]. rewrite find_upd by reflexivity. rewrite Fx. reflexivity.
    - unfold m1. cbn [upd set_ctrls set_rm cm_rm]. rewrite (fixed_maps _ _ (release_maps (c_cloans c) (cm_rm m0))). reflexivity.
    - reflexivity.
    - intros k. unfold m1. cbn [upd set_ctrls set_rm cm_rm]. rewrite release_claimed. destruct (mem k (c_cloans c)); [right; reflexivity|left; reflexivity].
    - intros x c0 k [<-|[]] Fx _ Hk. assert (c0 = c) by congruence. subst c0. unfold m1. cbn [upd set_ctrls set_rm cm_rm]. rewrite release_claimed.
      apply mem_In in Hk. rewrite Hk. reflexivity.
    - intros k Hk _. unfold m1. cbn [upd set_ctrls set_rm cm_rm]. rewrite release_avc. exact Hk.
    - intros k Hk _. unfold m1. cbn [upd set_ctrls set_rm cm_rm]. rewrite release_avs. exact Hk. }
  destruct (c_chainable c) eqn:Ch; [|exact S1].
  set (m2 := set_chained e m1 n false).
  assert (S2 : stopped [n] m m2).
  { pose proof (like_chained e m1 n false) as (K1 & K2 & K3 & K4 & K5 & K6). fold m2 in K1, K2, K3, K4, K5, K6.
    destruct S1 as [A1 A2 A3 A4 A5 A6 A7 A8]. constructor.
    - intros x c0 Fx. destruct (A1 x c0 Fx) as (c1 & F1 & Sc & D & U). specialize (K1 x). rewrite F1 in K1. destruct K1 as (c2 & F2 & Sc2 & L2 & C2).
      exists c2. split; [exact F2|]. split; [eapply same_trans; eassumption|]. split.
      + intros I L. rewrite L2, C2. apply D; assumption.
      + intros N. destruct (string_dec x n) as [->|Ne].
        * exfalso. destruct N as [N|N]; [apply N; left; reflexivity|]. apply N. congruence.
        * pose proof (fr_other n m1 m2 (frame_chained e n m1 false) x Ne) as E. rewrite F1, F2 in E. injection E as ->. apply U. exact N.
    - intros x Fx. specialize (K1 x). rewrite (A2 x Fx) in K1. exact K1.
    - congruence.
    - congruence.
    - rewrite K3. exact A5.
    - rewrite K3. exact A6.
    - rewrite K4. exact A7.
    - rewrite K5. exact A8. }
  assert (RM : forall r, fixed r = fixed (cm_rm m2) -> rm_claimed r = rm_claimed (cm_rm m2) ->
     (forall k, In k (rm_avc (cm_rm m2)) -> (forall ks, aget (rm_refs (cm_rm m)) n = Some ks -> ~ In k ks) -> In k (rm_avc r)) ->
     (forall k, In k (rm_avs (cm_rm m2)) -> (forall ks, aget (rm_exps (cm_rm m)) n = Some ks -> ~ In k ks) -> In k (rm_avs r)) ->
     stopped [n] m (set_rm m2 r)).
  { intros r R1 R2 R3 R4. destruct S2 as [A1 A2 A3 A4 A5 A6 A7 A8]. constructor; cbn [set_rm cm_rm cm_pend].
    - exact A1.
    - exact A2.
    - congruence.
    - exact A4.
    - rewrite R2. exact A5.
    - rewrite R2. exact A6.
    - intros k Hk H. apply R3; [apply A7; assumption|]. intros ks. apply (H n c ks); [left; reflexivity|exact F|exact La].
    - intros k Hk H. apply R4; [apply A8; assumption|]. intros ks. apply (H n c ks); [left; reflexivity|exact F|exact La]. }
  unfold make_exps_unavailable. destruct (aget (rm_exps (cm_rm m2)) n) as [es|] eqn:Ee; [|exact S2].
  rewrite (fixed_exps _ _ (st_fixed _ _ _ S2)) in Ee.
  set (r3 := with_av (cm_rm m2) _ _).
  unfold make_refs_unavailable. destruct (aget (rm_refs r3) n) as [rs|] eqn:Er.
  - change (rm_refs r3) with (rm_refs (cm_rm m2)) in Er. rewrite (fixed_refs _ _ (st_fixed _ _ _ S2)) in Er. apply RM; [reflexivity|reflexivity| |].
    + intros k Hk H. cbn [with_av rm_avc r3]. apply av_keep; [exact Hk|apply H; exact Er].
    + intros k Hk H. cbn [with_av rm_avs r3]. apply av_keep; [exact Hk|apply H; exact Ee].
  - apply RM; [reflexivity|reflexivity| |].
    + intros k Hk H. exact Hk.
    + intros k Hk H. cbn [with_av rm_avs r3]. apply av_keep; [exact Hk|apply H; exact Ee].
Qed.
Lemma stop_all e : forall ns m, (forall n, In n ns -> works e n) -> stopped ns m (deactivate_controllers e m ns).
Proof.
  induction ns as [|n ns IH]; intros m H.
  - apply stopped_refl. intros ? ? [].
  - unfold deactivate_controllers in *. cbn [fold_left]. eapply stopped_cons; [apply stop_one; apply H; left; reflexivity|].
    apply IH. intros x Hx. apply H. right. exact Hx.
Qed.

(** ---------------------------------------------------------------- starting *)
Lemma exports_ok_av m n rs es : aget (rm_refs (cm_rm m)) n = Some rs -> aget (rm_exps (cm_rm m)) n = Some es ->
  exists r, exports_available m n = Val (set_rm m r) /\ fixed r = fixed (cm_rm m) /\ rm_claimed r = rm_claimed (cm_rm m) /\
    (forall k, In k (rm_avc r) <-> In k (rm_avc (cm_rm m)) \/ In k rs) /\ (forall k, In k (rm_avs r) <-> In k (rm_avs (cm_rm m)) \/ In k es).
Proof.
  intros R E. unfold exports_available, make_exps_available, make_refs_available. rewrite E. cbn [of_option bind with_av rm_refs]. rewrite R. cbn [of_option bind].
  eexists. split; [reflexivity|]. split; [reflexivity|]. split; [reflexivity|]. cbn [with_av rm_avc rm_avs].
  split; intros k; apply In_add_items.
Qed.
(** all chainable controllers of the list get their exports made available *)
Record opened (ns : list name) (m m' : cm) : Prop := {
  op_rm : exists r, m' = set_rm m r;
  op_fixed : fixed (cm_rm m') = fixed (cm_rm m);
  op_claim : rm_claimed (cm_rm m') = rm_claimed (cm_rm m);
  op_avc : incl (rm_avc (cm_rm m)) (rm_avc (cm_rm m'));
  op_avs : incl (rm_avs (cm_rm m)) (rm_avs (cm_rm m'));
  op_refs : forall n c ks, In n ns -> find_ctrl m n = Some c -> c_chainable c = true -> aget (rm_refs (cm_rm m)) n = Some ks -> incl ks (rm_avc (cm_rm m'));
  op_exps : forall n c ks, In n ns -> find_ctrl m n = Some c -> c_chainable c = true -> aget (rm_exps (cm_rm m)) n = Some ks -> incl ks (rm_avs (cm_rm m'))
}.
Lemma open_all : forall ns m, 
  (forall n c, In n ns -> find_ctrl m n = Some c -> c_chainable c = true -> registered m c) ->
  exists m', rfold preactivate ns m = Val m' /\ opened ns m m'.
Proof.
  induction ns as [|n ns IH]; intros m H.
  { exists m. split; [reflexivity|]. constructor; auto using incl_refl; try (intros ? ? ? []). exists (cm_rm m). symmetry. apply set_rm_same. }
  cbn [rfold].
  assert (O : exists m1, preactivate m n = Val m1 /\ opened [n] m m1).
  { unfold preactivate. destruct (find_ctrl m n) as [c|] eqn:F.
    2:{ exists m. split; [reflexivity|]. constructor; auto using incl_refl; try (intros ? ? ? [<-|[]]; congruence). exists (cm_rm m). symmetry. apply set_rm_same. }
    destruct (c_chainable c) eqn:Ch.
    2:{ exists m. split; [reflexivity|]. constructor; auto using incl_refl; try (intros ? ? ? [<-|[]]; congruence). exists (cm_rm m). symmetry. apply set_rm_same. }
    destruct (H n c (or_introl eq_refl) F Ch) as [R E]. rewrite (find_in_name _ _ _ F) in R, E.
    destruct (aget (rm_refs (cm_rm m)) n) as [rs|] eqn:Er; [|congruence]. destruct (aget (rm_exps (cm_rm m)) n) as [es|] eqn:Ee; [|congruence].
    destruct (exports_ok_av m n rs es Er Ee) as (r & Q & A & B & C & D). exists (set_rm m r). split; [exact Q|].
    constructor; cbn [set_rm cm_rm]; auto.
    - exists r. reflexivity.
    - intros k Hk. apply C. left. exact Hk.
    - intros k Hk. apply D. left. exact Hk.
    - intros x c0 ks [<-|[]] _ _ Hks k Hk. assert (ks = rs) by congruence. subst. apply C. right. exact Hk.
    - intros x c0 ks [<-|[]] _ _ Hks k Hk. assert (ks = es) by congruence. subst. apply D. right. exact Hk. }
  destruct O as (m1 & Q1 & [[r1 E1] A2 A3 A4 A5 A6 A7]).
  destruct (IH m1) as (m2 & Q2 & [[r2 E2] B2 B3 B4 B5 B6 B7]).
  { intros x c Hx F Ch. subst m1. destruct (H x c (or_intror Hx) F Ch) as [R E].
    split; [rewrite (fixed_refs _ _ A2)|rewrite (fixed_exps _ _ A2)]; assumption. }
  exists m2. split; [rewrite Q1; exact Q2|]. subst m1. constructor.
  - exists r2. subst m2. reflexivity.
  - congruence.
  - congruence.
  - intros k Hk. apply B4. apply A4. exact Hk.
  - intros k Hk. apply B5. apply A5. exact Hk.
  - intros x c ks [<-|Hx] F Ch Hks k Hk.
    + apply B4. eapply A6; [left; reflexivity|exact F|exact Ch|exact Hks|exact Hk].
    + eapply B6; [exact Hx|exact F|exact Ch| |exact Hk]. rewrite (fixed_refs _ _ A2). exact Hks.
  - intros x c ks [<-|Hx] F Ch Hks k Hk.
    + apply B5. eapply A7; [left; reflexivity|exact F|exact Ch|exact Hks|exact Hk].
    + eapply B7; [exact Hx|exact F|exact Ch| |exact Hk]. rewrite (fixed_exps _ _ A2). exact Hks.
Qed.

(** ready to be activated *)
Definition ready (m : cm) (g : name) : Prop :=
  exists c, find_ctrl m g = Some c /\ c_lc c = Inactive /\ c_cloans c = [] /\ by_name c /\
    (c_chainable c = true -> registered m c) /\
    (forall k, In k (cmd_names (cm_rm m) c) -> In k (rm_avc (cm_rm m)) /\ aget (rm_claimed (cm_rm m)) k = Some false /\ In k (rm_ckeys (cm_rm m))) /\
    (forall k, In k (state_names (cm_rm m) c) -> In k (rm_avs (cm_rm m)) /\ In k (rm_skeys (cm_rm m))).
Definition runs (m : cm) (g : name) : Prop :=
  exists c, find_ctrl m g = Some c /\ c_lc c = Active /\ c_cloans c = cmd_names (cm_rm m) c /\ c_sloans c = state_names (cm_rm m) c.
Lemma by_name_cmd c r r' : by_name c -> cmd_names r c = cmd_names r' c.
Proof. intros (ks & ss & E & _). apply names_by. exists ks. exact E. Qed.
Lemma by_name_state c r r' : by_name c -> state_names r c = state_names r' c.
Proof. intros (ks & ss & _ & E & _). apply snames_by. exists ss. exact E. Qed.
Lemma start_one e m g : works e g -> ready m g -> exists m1,
  activate_one e (m, true, []) g = Val (m1, true, []) /\ runs m1 g /\ cm_pend m1 = cm_pend m /\
  (forall c, find_ctrl m g = Some c -> exists c', find_ctrl m1 g = Some c' /\ same_const c c') /\
  (forall g' , g' <> g -> find_ctrl m1 g' = find_ctrl m g') /\
  incl (rm_avc (cm_rm m)) (rm_avc (cm_rm m1)) /\ incl (rm_avs (cm_rm m)) (rm_avs (cm_rm m1)) /\ fixed (cm_rm m1) = fixed (cm_rm m) /\
  (forall c k, find_ctrl m g = Some c -> ~ In k (cmd_names (cm_rm m) c) -> aget (rm_claimed (cm_rm m1)) k = aget (rm_claimed (cm_rm m)) k).
Proof.
  intros W (c & F & L & CL & BN & REG & HC & HS).
  assert (ND : NoDup (cmd_names (cm_rm m) c)) by (destruct BN as (ks & ss & E & _ & N); unfold cmd_names; rewrite E; exact N).
  destruct (claim_all_ok _ _ [] ND HC) as (r1 & E & E1 & E2 & E3 & E4). rewrite app_nil_l in E.
  pose proof (fixed_maps _ _ (claim_all_maps _ _ _ _ _ E)) as FX.
  unfold activate_one. rewrite F, E. cbn [bind]. cbv beta iota.
  assert (SN : state_names r1 c = state_names (cm_rm m) c) by (apply by_name_state; exact BN).
  assert (FS : forallb (claim_state r1) (state_names r1 c) = true).
  { rewrite SN. apply forallb_forall. intros k Hk. destruct (HS k Hk) as [A B]. unfold claim_state, state_available. rewrite E2, E4.
    apply mem_In in A. apply mem_In in B. rewrite A, B. reflexivity. }
  rewrite FS, CL. change (release_all r1 []) with r1.
  set (mA := upd (set_rm m r1) g _). set (cl := cmd_names (cm_rm m) c) in *.
  assert (FA : find_ctrl mA g = Some (upd_loans cl (state_names r1 c) c)).
  { unfold mA. rewrite (find_upd_same (set_rm m r1) g _ g c); [rewrite String.eqb_refl; reflexivity|reflexivity|exact F]. }
  unfold node_activate, node_transition. rewrite FA. cbn [upd_loans c_lc]. rewrite L. cbn [lc_eqb]. unfold ctrl_call. rewrite (proj1 (W _)).
  set (mB := emit mA _). set (mC := upd mB g (upd_lc Active)).
  assert (FB : find_ctrl mB g = Some (upd_loans cl (state_names r1 c) c)) by exact FA.
  set (c2 := upd_lc Active (upd_loans cl (state_names r1 c) c)).
  assert (FC : find_ctrl mC g = Some c2).
  { unfold mC. rewrite (find_upd_same mB g (upd_lc Active) g _ (fun _ => eq_refl) FB). rewrite String.eqb_refl. reflexivity. }
  rewrite FC. change (is_lc Active c2) with true. cbv iota.
  assert (OT : forall g' , g' <> g -> find_ctrl mC g' = find_ctrl m g').
  { intros g' Ne. unfold mC. rewrite (fr_other g mB); [|apply frame_upd; apply keeps_lc|exact Ne].
    change (find_ctrl mB g') with (find_ctrl mA g'). unfold mA. rewrite (fr_other g (set_rm m r1)); [reflexivity|apply frame_upd; apply keeps_loans|exact Ne]. }
  assert (FXC : fixed (cm_rm mC) = fixed (cm_rm m)) by exact FX.
  assert (CLM : forall k, ~ In k cl -> aget (rm_claimed (cm_rm mC)) k = aget (rm_claimed (cm_rm m)) k).
  { intros k NK. change (rm_claimed (cm_rm mC)) with (rm_claimed r1). apply claim_all_some in E. destruct E as (_ & _ & E). rewrite E.
    destruct (mem k cl) eqn:M; [apply mem_In in M; contradiction|reflexivity]. }
  assert (BN2 : by_name c2) by exact BN.
  assert (RUN : forall r, runs (set_rm mC r) g).
  { intros r. exists c2. split; [exact FC|]. split; [reflexivity|]. split.
    - change (c_cloans c2) with cl. unfold cl. change (cmd_names (cm_rm (set_rm mC r)) c2) with (cmd_names r c). apply by_name_cmd. exact BN.
    - change (c_sloans c2) with (state_names r1 c). change (state_names (cm_rm (set_rm mC r)) c2) with (state_names r c). apply by_name_state. exact BN. }
  assert (AVC : rm_avc (cm_rm mC) = rm_avc (cm_rm m)) by exact E1.
  assert (AVS : rm_avs (cm_rm mC) = rm_avs (cm_rm m)) by exact E2.
  destruct (c_chainable c) eqn:CH.
  - destruct (REG eq_refl) as [R1 R2]. rewrite (find_in_name _ _ _ F) in R1, R2.
    destruct (aget (rm_refs (cm_rm m)) g) as [rs|] eqn:Er; [|congruence]. destruct (aget (rm_exps (cm_rm m)) g) as [es|] eqn:Ee; [|congruence].
    rewrite <- (fixed_refs _ _ FXC) in Er. rewrite <- (fixed_exps _ _ FXC) in Ee.
    destruct (exports_ok_av mC g rs es Er Ee) as (r & Q & QA & QB & QC & QD). rewrite Q. cbn [bind].
    exists (set_rm mC r). split; [reflexivity|]. split; [apply RUN|]. split; [reflexivity|].
    split. { intros c0 F0. exists c2. split; [exact FC|]. assert (c0 = c) by congruence. subst. repeat split. }
    split; [exact OT|]. cbn [set_rm cm_rm].
    split; [intros k Hk; apply QC; left; rewrite AVC; exact Hk|]. split; [intros k Hk; apply QD; left; rewrite AVS; exact Hk|].
    split; [rewrite QA; exact FXC|]. intros c0 k F0 NK. assert (c0 = c) by congruence. subst c0. rewrite QB. apply CLM. exact NK.
  - exists mC. split; [reflexivity|]. split; [rewrite <- (set_rm_same mC); apply RUN|]. split; [reflexivity|].
    split. { intros c0 F0. exists c2. split; [exact FC|]. assert (c0 = c) by congruence. subst. repeat split. }
    split; [exact OT|]. rewrite AVC, AVS. split; [apply incl_refl|]. split; [apply incl_refl|]. split; [exact FXC|].
    intros c0 k F0 NK. assert (c0 = c) by congruence. subst c0. apply CLM. exact NK.
Qed.
Lemma start_all e : forall gs m, NoDup gs -> (forall g, In g gs -> works e g /\ ready m g) ->
  (forall g1 g2 c1 c2 k, In g1 gs -> In g2 gs -> g1 <> g2 -> find_ctrl m g1 = Some c1 -> find_ctrl m g2 = Some c2 ->
     In k (cmd_names (cm_rm m) c1) -> ~ In k (cmd_names (cm_rm m) c2)) ->
  exists m1, rfold (activate_one e) gs (m, true, []) = Val (m1, true, []) /\ (forall g, In g gs -> runs m1 g) /\
    (forall g, ~ In g gs -> find_ctrl m1 g = find_ctrl m g) /\
    (forall g c, find_ctrl m g = Some c -> exists c', find_ctrl m1 g = Some c' /\ same_const c c') /\
    fixed (cm_rm m1) = fixed (cm_rm m) /\ cm_pend m1 = cm_pend m.
Proof.
  induction gs as [|g gs IH]; intros m ND H DIS.
  { exists m. split; [reflexivity|]. split; [intros ? []|]. split; [reflexivity|]. split; [|split; reflexivity]. intros g c F. exists c. split; [exact F|apply same_refl]. }
  cbn [rfold]. apply NoDup_cons_iff in ND. destruct ND as [Ng ND].
  destruct (H g (or_introl eq_refl)) as [W R]. pose proof R as (cg & Fg & _ & _ & BNg & _).
  destruct (start_one e m g W R) as (m1 & Q & RUN & PE & SG & OT & AVC & AVS & FX & CLM). rewrite Q. cbn [bind].
  destruct (IH m1 ND) as (m2 & Q2 & R2 & O2 & K2 & FX2 & PE2).
  { intros x Hx. destruct (H x (or_intror Hx)) as [Wx (c & F & L & CL & BN & REG & HC & HS)]. split; [exact Wx|].
    assert (Ne : x <> g) by (intros ->; contradiction).
    exists c. split; [rewrite OT by exact Ne; exact F|]. split; [exact L|]. split; [exact CL|]. split; [exact BN|].
    split. { intros Ch. destruct (REG Ch) as [A B]. unfold registered. rewrite (fixed_refs _ _ FX), (fixed_exps _ _ FX). split; assumption. }
    split.
    - intros k. rewrite (by_name_cmd c (cm_rm m1) (cm_rm m) BN). intros Hk. destruct (HC k Hk) as (A & B & C).
      split; [apply AVC; exact A|]. split; [|rewrite (fixed_ck _ _ FX); exact C]. rewrite (CLM cg k Fg); [exact B|].
      eapply (DIS x g c cg); [right; exact Hx|left; reflexivity|exact Ne|exact F|exact Fg|exact Hk].
    - intros k. rewrite (by_name_state c (cm_rm m1) (cm_rm m) BN). intros Hk. destruct (HS k Hk) as (A & B). split; [apply AVS; exact A|]. rewrite (fixed_sk _ _ FX). exact B. }
  { intros g1 g2 c1 c2 k I1 I2 Ne F1 F2. assert (N1 : g1 <> g) by (intros ->; contradiction). assert (N2 : g2 <> g) by (intros ->; contradiction).
    rewrite OT in F1, F2 by assumption.
    assert (B1 : by_name c1) by (destruct (H g1 (or_intror I1)) as [_ (c & F & _ & _ & B & _)]; congruence).
    assert (B2 : by_name c2) by (destruct (H g2 (or_intror I2)) as [_ (c & F & _ & _ & B & _)]; congruence).
    rewrite (by_name_cmd c1 _ (cm_rm m) B1), (by_name_cmd c2 _ (cm_rm m) B2). eapply DIS; [right; exact I1|right; exact I2|exact Ne|exact F1|exact F2]. }
  exists m2. split; [exact Q2|]. split.
  { intros x [<-|Hx]; [|apply R2; exact Hx]. destruct RUN as (c & F & L & C1 & C2).
    destruct (SG cg Fg) as (c' & F' & SC). assert (c' = c) by congruence. subst c'.
    assert (BN : by_name c).
    { destruct BNg as (ks & ss & A1 & A2 & A3). destruct SC as (_ & _ & S1 & S2 & _). exists ks, ss. rewrite S1, S2. auto. }
    exists c. rewrite (O2 g Ng). split; [exact F|]. split; [exact L|]. split.
    - rewrite C1. apply by_name_cmd. exact BN.
    - rewrite C2. apply by_name_state. exact BN. }
  split. { intros x Nx. rewrite O2 by (intros I; apply Nx; right; exact I). apply OT. intros ->. apply Nx. left. reflexivity. }
  split; [|split; [congruence|congruence]]. intros x c F. destruct (string_dec x g) as [->|Ne].
  - destruct (SG c F) as (c' & F' & S'). destruct (K2 g c' F') as (c'' & F'' & S''). exists c''. split; [exact F''|]. eapply same_trans; eassumption.
  - apply K2. rewrite OT by exact Ne. exact F.
Qed.

(** ---------------------------------------------------------------- the accepted request *)
Lemma mode_again e allow start stop : hardware_performs e -> forall hs r b r' r2,
  mode_loop e MPrepare allow start stop hs r b = (r', true) -> b = true /\ snd (mode_loop e MPerform allow start stop hs r2 true) = true.
Proof.
  intros HP. induction hs as [|h hs IH]; intros r b r' r2; cbn [mode_loop].
  { intros [= _ ->]. auto. }
  cbv zeta. destruct (common_itfs (h_cmd h) start) as [|s0 s]; destruct (common_itfs (h_cmd h) stop) as [|p0 p]; try apply IH.
  all: match goal with |- context [if ?x then (_, false) else _] => destruct x end; [discriminate|].
  all: destruct (h_lc h); try (intros H; apply (IH _ _ _ r2) in H; destruct H; discriminate).
  all: unfold mode_call; rewrite HP; cbv iota beta; intros H; 
       match type of H with mode_loop _ _ _ _ _ _ ?r0 _ = _ => idtac end;
       match goal with |- _ /\ snd (mode_loop _ _ _ _ _ _ ?r0 _) = true => apply (IH _ _ _ r0) in H end;
       destruct H as [H1 H2]; (split; [|exact H2]);
       destruct (e_prepare e _ _ _ _) as [[]|]; try discriminate; exact H1.
Qed.
Lemma perform_again e allow r start stop r2 : hardware_performs e -> snd (rm_prepare e allow r start stop) = true -> rm_hw r2 = rm_hw r ->
  snd (rm_perform e allow r2 start stop) = true.
Proof.
  intros HP H E. unfold rm_perform, rm_prepare in *. destruct (both_empty start stop); [reflexivity|].
  destruct (negb _); [discriminate|]. destruct (negb _); [discriminate|]. rewrite E.
  destruct (mode_loop e MPrepare allow start stop (filter is_actuator (rm_hw r)) r true) as [ra a] eqn:Ea.
  destruct (mode_loop e MPrepare allow start stop (filter is_system (rm_hw r)) ra true) as [rb b] eqn:Eb.
  cbn [snd] in H. apply andb_true_iff in H. destruct H as [-> ->].
  apply (mode_again e allow start stop HP _ _ _ _ r2) in Ea. destruct Ea as [_ Ea].
  destruct (mode_loop e MPerform allow start stop (filter is_actuator (rm_hw r)) r2 true) as [rc c] eqn:Ec. cbn [snd] in Ea. subst c.
  apply (mode_again e allow start stop HP _ _ _ _ rc) in Eb. destruct Eb as [_ Eb].
  destruct (mode_loop e MPerform allow start stop (filter is_system (rm_hw r)) rc true) as [rd d] eqn:Ed. cbn [snd] in Eb |- *. subst d. reflexivity.
Qed.
Lemma restarts_nodup cs : forall w w' R, conflict_loop true cs w = inl w' -> w_deact w' = w_deact w ++ R -> NoDup R.
Proof.
  induction cs as [|c cs IH]; intros w w' R H E; cbn [conflict_loop] in H.
  { injection H as <-. rewrite <- (app_nil_r (w_deact w)) in E at 1. apply app_inv_head in E. subst R. constructor. }
  destruct (conflict_one true w c) as [w1|w1] eqn:E1; [|discriminate].
  assert (X : conflict_loop true [c] w = inl w1) by (cbn [conflict_loop]; rewrite E1; reflexivity).
  apply conflict_strict in X. destruct X as (R1 & _ & D1 & _).
  pose proof H as H'. apply conflict_strict in H'. destruct H' as (R2 & _ & D2 & _ & _ & _ & D3 & _).
  assert (ER : R = R1 ++ R2). { rewrite D2, D1, <- app_assoc in E. apply app_inv_head in E. congruence. }
  subst R. assert (N2 : NoDup R2) by (eapply IH; [exact H|exact D2]).
  assert (S1 : R1 = [] \/ R1 = [c_name c]).
  { unfold conflict_one in E1. cbv zeta in E1. rewrite !andb_true_r in E1.
    destruct (_ && _ && negb (mem (c_name c) (w_deact w))) in E1.
    - right. destruct (negb (is_lc Active c) && _) in E1; [discriminate|]. cbn [negb] in E1. rewrite !andb_true_r in E1.
      destruct (is_lc Active c && _ && _) in E1; [discriminate|]. cbn [negb] in E1. rewrite ?andb_true_r in E1.
      destruct (negb (is_lc Inactive c) && _ && _) in E1; [discriminate|]. injection E1 as <-.
      apply (app_inv_head (w_deact w)). rewrite <- D1.
      match goal with |- context [if ?b then sw_itfs _ (cache_controller _ _ _) _ _ else _] => destruct b end; reflexivity.
    - left. destruct (negb (is_lc Active c) && _) in E1; [discriminate|]. cbn [negb] in E1. rewrite !andb_true_r in E1.
      destruct (is_lc Active c && _ && _) in E1; [discriminate|]. cbn [negb] in E1. rewrite ?andb_true_r in E1.
      destruct (negb (is_lc Inactive c) && _ && _) in E1; [discriminate|]. injection E1 as <-.
      apply (app_inv_head (w_deact w)). rewrite <- D1, app_nil_r.
      match goal with |- context [if ?b then sw_itfs _ (cache_controller _ _ _) _ _ else _] => destruct b end; reflexivity. }
  destruct S1 as [->| ->]; [exact N2|]. cbn [app]. constructor; [|exact N2].
  intros I. destruct (D3 _ I) as [NI _]. apply NI. rewrite D1. apply in_app_iff. right. left. reflexivity.
Qed.
Lemma request_more e allow m a d asap m1 : switch_request e allow m a d true asap = Val (m1, SwPending) ->
  exists p, cm_pend m1 = Some p /\
    (forall R, p_deact p = d ++ R -> NoDup R) /\
    (hardware_performs e -> forall r, rm_hw r = rm_hw (cm_rm m) -> snd (rm_perform e allow r (p_start p) (p_stop p)) = true).
Proof.
  intros H. unfold switch_request in H.
  destruct (list_controllers _ true d [] true) as [d'|] eqn:Ld; [|discriminate].
  destruct (list_controllers _ true a [] true) as [a'|] eqn:La; [|discriminate].
  apply list_strict in Ld, La. destruct Ld as [-> Kd], La as [-> Ka]. cbn [app] in H.
  apply bind_val in H. destruct H as (w1 & H1 & H). apply propagate_same in H1. destruct H1 as ([P1 P2 _ _] & P3 & P4).
  cbn [w_act w_deact w_rm w_to] in P1, P2, P3, P4.
  apply bind_val in H. destruct H as (x & H2 & H). apply act_loop_strict in H2. destruct H2 as (S2 & G2 & _). rewrite P3 in G2.
  destruct x as [w2|w2]; cbn [either] in *; [|discriminate].
  destruct (deact_loop m true [] (w_deact w2) w2) as [w3|] eqn:H3; [|discriminate].
  apply deact_loop_strict in H3. destruct H3 as [-> _]. destruct S2 as [Sa Sd _ _]. rewrite P2 in Sd.
  destruct (sw_empty w2); [discriminate|].
  destruct (conflict_loop true (cm_ctrls m) w2) as [w4|w4] eqn:H4; [|discriminate].
  destruct (sw_empty w4); [discriminate|]. apply bind_val in H. destruct H as (b & _ & H). destruct b; cbn [negb] in H; [|discriminate].
  destruct (rm_prepare e allow (w_rm w4) (w_start w4) (w_stop w4)) as [r5 ok] eqn:PR. destruct ok; cbn [negb] in H; [|discriminate].
  injection H as <-. eexists. split; [reflexivity|]. cbn [p_deact p_start p_stop]. split.
  - intros R E. eapply restarts_nodup; [exact H4|]. rewrite Sd. exact E.
  - intros HP r E. eapply perform_again; [exact HP|rewrite PR; reflexivity|].
    apply conflict_strict in H4. destruct H4 as (_ & _ & _ & CG & _). rewrite (g_hw _ _ CG), (g_hw _ _ G2). exact E.
Qed.

(** ---------------------------------------------------------------- together *)
Lemma grow_perform e allow r a d : grow r (fst (rm_perform e allow r a d)).
Proof.
  unfold rm_perform. destruct (both_empty a d); [apply grow_refl|].
  pose proof (grow_mode e MPerform allow a d (filter is_actuator (rm_hw r)) r true) as G1.
  destruct (mode_loop e MPerform allow a d (filter is_actuator (rm_hw r)) r true) as [r1 x]. cbn [fst] in G1.
  pose proof (grow_mode e MPerform allow a d (filter is_system (rm_hw r)) r1 true) as G2.
  destruct (mode_loop e MPerform allow a d (filter is_system (rm_hw r)) r1 true) as [r2 y]. cbn [fst] in G2 |- *.
  eapply grow_trans; eassumption.
Qed.
Lemma grow_fixed r r' : grow r r' -> fixed r' = fixed r.
Proof. intros [A B C D E F _ _ _ _]. unfold fixed. congruence. Qed.
Lemma same_by_name c c' : same_const c c' -> by_name c -> by_name c'.
Proof. intros (_ & _ & S1 & S2 & _) (ks & ss & A & B & C). exists ks, ss. rewrite S1, S2. auto. Qed.
Lemma same_cmd c c' r : same_const c c' -> cmd_names r c' = cmd_names r c.
Proof. intros (_ & _ & S1 & _). unfold cmd_names. rewrite S1. reflexivity. Qed.
Lemma same_state c c' r : same_const c c' -> state_names r c' = state_names r c.
Proof. intros (_ & _ & _ & S1 & _). unfold state_names. rewrite S1. reflexivity. Qed.

Section Main.
Variables (e : env) (allow : bool) (me : cm) (a d R : list name).
Hypothesis (HX : XI me) (HF : FI me) (HND : NoDup a) (HNR : NoDup R).
Hypothesis (HRE : realizable me a d).
Hypothesis (HW : forall n, In n a \/ state_in me n = Some Active -> works e n).
Hypothesis (HR : forall n, In n R -> ~ In n d /\ exists c, In c (cm_ctrls me) /\ c_name c = n /\ c_lc c = Active).
Hypothesis (HK : all_loaded me (a ++ d)) (HS : stops_active me d) (HA : starts_inactive me a d).

Lemma me_nodup : NoDup (map c_name (cm_ctrls me)).
Proof. apply (proj1 (ci_n _ (xi_ci _ HX))). Qed.
Lemma me_find c : In c (cm_ctrls me) -> find_ctrl me (c_name c) = Some c.
Proof. apply NoDup_find. apply me_nodup. Qed.
Lemma loaded n : In n (a ++ R) -> exists c, find_ctrl me n = Some c /\ In c (cm_ctrls me) /\ c_name c = n /\ runs_after me a d c /\
  (c_lc c = Inactive /\ ~ In n R \/ c_lc c = Active /\ In n (d ++ R)).
Proof.
  intros H. apply in_app_iff in H. destruct H as [H|H].
  - destruct (HK n) as (c & Ic & Nc); [apply in_app_iff; left; exact H|]. exists c. rewrite <- Nc. split; [apply me_find; exact Ic|].
    split; [exact Ic|]. split; [reflexivity|]. split; [split; [exact Ic|left; rewrite Nc; exact H]|].
    destruct (HA c Ic) as [L|[L D]]; [rewrite Nc; exact H| |].
    + left. split; [exact L|]. intros C. destruct (HR _ C) as [_ (c' & I' & N' & L')]. assert (c' = c); [|congruence].
      pose proof (me_find _ I') as F'. rewrite N', (me_find _ Ic) in F'. congruence.
    + right. split; [exact L|]. apply in_app_iff. left. exact D.
  - destruct (HR n H) as [Nd (c & Ic & Nc & L)]. exists c. rewrite <- Nc. split; [apply me_find; exact Ic|]. split; [exact Ic|]. split; [reflexivity|].
    split; [split; [exact Ic|right; split; [exact L|rewrite Nc; exact Nd]]|]. right. split; [exact L|]. apply in_app_iff. right. rewrite Nc. exact H.
Qed.
Lemma works_all n : In n (a ++ R) -> works e n.
Proof.
  intros H. apply HW. apply in_app_iff in H. destruct H as [H|H]; [left; exact H|]. right. destruct (HR n H) as [_ (c & Ic & Nc & L)].
  rewrite <- Nc. unfold state_in. rewrite (me_find _ Ic). cbn [option_map]. congruence.
Qed.
Lemma works_stop n : In n (d ++ R) -> works e n.
Proof.
  intros H. apply HW. right. apply in_app_iff in H. destruct H as [H|H].
  - destruct (HK n) as (c & Ic & Nc); [apply in_app_iff; right; exact H|]. rewrite <- Nc. unfold state_in. rewrite (me_find _ Ic). cbn [option_map].
    rewrite (HS c Ic); [reflexivity|rewrite Nc; exact H].
  - destruct (HR n H) as [_ (c & Ic & Nc & L)]. rewrite <- Nc. unfold state_in. rewrite (me_find _ Ic). cbn [option_map]. congruence.
Qed.
Lemma disjoint_all n : In n a -> In n R -> False.
Proof.
  intros A B. destruct (loaded n) as (c & _ & Ic & Nc & _ & [[L N]|[L D]]); [apply in_app_iff; auto|contradiction|].
  destruct (HA c Ic) as [L'|[_ D']]; [rewrite Nc; exact A|congruence|]. destruct (HR n B) as [N _]. apply N. rewrite <- Nc. exact D'.
Qed.
Lemma nodup_all : NoDup (a ++ R).
Proof.
  pose proof disjoint_all as D. clear -HND HNR D. induction a as [|x l IH]; [exact HNR|]. cbn [app]. apply NoDup_cons_iff in HND. destruct HND as [N1 N2].
  constructor; [|apply IH; [exact N2|]].
  - intros I. apply in_app_iff in I. destruct I as [I|I]; [contradiction|]. apply (D x); [left; reflexivity|exact I].
  - intros n I. apply D. right. exact I.
Qed.
(** the holder of a claimed interface wanted by a controller to be started is stopped *)
Lemma holder_stops c k : In (c_name c) (a ++ R) -> In c (cm_ctrls me) -> runs_after me a d c -> wants_cmd me c k -> 
  aget (rm_claimed (cm_rm me)) k = Some true -> exists x, In x (cm_ctrls me) /\ c_lc x = Active /\ In k (c_cloans x) /\ In (c_name x) (d ++ R).
Proof.
  intros IA Ic RA Wk T.
  assert (H : exists x, In x (cm_ctrls me) /\ c_lc x = Active /\ In k (c_cloans x)).
  { destruct HRE as [H1 _]. destruct (H1 c RA) as (_ & SC & _). destruct (SC k Wk) as [[Hw _]|(g & _ & _ & _ & _ & Hh)]; [|apply Hh; exact T].
    destruct (fi_hw _ HF k Hw) as [KK _]. pose proof (ki_held _ _ KK T) as Cn. destruct (cnt_held _ _ Cn) as (x & Ix & Kx).
    exists x. split; [exact Ix|]. split; [|exact Kx]. destruct (c_lc x) eqn:L; try reflexivity; exfalso;
      (destruct (ci_l _ (xi_ci _ HX) x Ix) as [E _]; [congruence|rewrite E in Kx; destruct Kx]). }
  destruct H as (x & Ix & Lx & Kx). exists x. split; [exact Ix|]. split; [exact Lx|]. split; [exact Kx|]. apply in_app_iff.
  destruct (in_dec string_dec (c_name x) d) as [D|ND]; [left; exact D|].
  assert (RX : runs_after me a d x) by (split; [exact Ix|right; split; assumption]).
  destruct HRE as [H1 H2]. destruct (H1 x RX) as (BN & _).
  assert (WX : wants_cmd me x k).
  { pose proof (fi_fit _ HF x Ix k Kx) as Q. unfold wants_cmd, cmd_names. destruct BN as (ks & ss & E & _). rewrite E in Q |- *. exact Q. }
  destruct (string_dec (c_name x) (c_name c)) as [E|Ne].
  - assert (x = c) by (pose proof (me_find _ Ix) as F1; rewrite E, (me_find _ Ic) in F1; congruence). subst x.
    destruct (loaded _ IA) as (c' & F' & _ & _ & _ & [[L' _]|[_ D']]); rewrite (me_find _ Ic) in F'; injection F' as <-; [congruence|].
    apply in_app_iff in D'. destruct D' as [D'|D']; [contradiction|right; exact D'].
  - exfalso. eapply H2; [exact RX|exact RA|exact Ne|exact WX|exact Wk].
Qed.

Variables (ma : cm) (Gr : grow (cm_rm me) (cm_rm ma)) (Hcs : cm_ctrls ma = cm_ctrls me).
Lemma ma_find n : find_ctrl ma n = find_ctrl me n.
Proof. unfold find_ctrl. rewrite Hcs. reflexivity. Qed.
Let m2 := deactivate_controllers e ma (d ++ R).
Variables (m4 : cm) (H24 : like m2 m4).
Lemma S2 : stopped (d ++ R) ma m2.
Proof. apply stop_all. apply works_stop. Qed.
Lemma F4 : fixed (cm_rm m4) = fixed (cm_rm me).
Proof. destruct H24 as (_ & E & _). rewrite E, (st_fixed _ _ _ S2). apply grow_fixed. exact Gr. Qed.
Lemma find4 n c : find_ctrl me n = Some c -> exists c', find_ctrl m4 n = Some c' /\ same_const c c' /\
  (In n (d ++ R) -> c_lc c = Active -> c_lc c' = Inactive /\ c_cloans c' = []) /\
  (~ In n (d ++ R) \/ c_lc c <> Active -> c_lc c' = c_lc c /\ c_cloans c' = c_cloans c).
Proof.
  intros F. rewrite <- ma_find in F. destruct (st_find _ _ _ S2 n c F) as (c2 & F2 & Sc & D & U).
  destruct H24 as (K & _). specialize (K n). rewrite F2 in K. destruct K as (c4 & F4' & Sc4 & L4 & C4).
  exists c4. split; [exact F4'|]. split; [eapply same_trans; eassumption|]. rewrite L4, C4. split; [exact D|]. intros N. rewrite (U N). auto.
Qed.
Lemma none4 n : find_ctrl me n = None -> find_ctrl m4 n = None.
Proof. intros F. rewrite <- ma_find in F. apply (st_none _ _ _ S2) in F. destruct H24 as (K & _). specialize (K n). rewrite F in K. exact K. Qed.
Lemma start_everything : exists m5 m6, rfold preactivate (a ++ R) m4 = Val m5 /\
  rfold (activate_one e) (a ++ R) (m5, true, []) = Val (m6, true, []) /\
  (forall g, In g (a ++ R) -> runs m6 g) /\ (forall g, ~ In g (a ++ R) -> find_ctrl m6 g = find_ctrl m4 g) /\
  (forall g c, find_ctrl m4 g = Some c -> exists c', find_ctrl m6 g = Some c' /\ same_const c c') /\ cm_pend m6 = cm_pend m4.
Proof.
  pose proof HX as [[_ HRI HLI] HRX]. pose proof HRE as [RE1 RE2].
  destruct (open_all (a ++ R) m4) as (m5 & Q5 & O5).
  { intros n c4 Hn Fc Ch. destruct (loaded n Hn) as (c & F & Ic & Nc & RA & _). destruct (find4 n c F) as (c' & F' & Sc & _). assert (c' = c4) by congruence. subst c'.
    destruct Sc as (N1 & N2 & _). destruct (RE1 c RA) as (_ & _ & _ & RG). rewrite N2 in Ch. destruct (RG Ch) as [A B].
    unfold registered. rewrite (fixed_refs _ _ F4), (fixed_exps _ _ F4), N1. split; assumption. }
  pose proof O5 as [[r5 E5] P2 P3 P4 P5 P6 P7]. rewrite F4 in P2.
  assert (F5 : forall n, find_ctrl m5 n = find_ctrl m4 n) by (intros n; subst m5; reflexivity).
  destruct (start_all e (a ++ R) m5 nodup_all) as (m6 & Q6 & RUN & OT & KP & _ & PE).
  - intros n Hn. split; [apply works_all; exact Hn|]. destruct (loaded n Hn) as (c & F & Ic & Nc & RA & LD).
    destruct (find4 n c F) as (c4 & Fc4 & Sc & D4 & U4). destruct (RE1 c RA) as (BN & SC & SS & RG).
    exists c4. rewrite F5. split; [exact Fc4|].
    assert (LL : c_lc c4 = Inactive /\ c_cloans c4 = []).
    { destruct LD as [[L _]|[L Dn]]; [|apply D4; assumption]. destruct U4 as [U1 U2]; [right; congruence|]. rewrite U1, U2. split; [exact L|].
      apply (HLI c Ic). congruence. }
    split; [apply LL|]. split; [apply LL|]. split; [eapply same_by_name; eassumption|]. split.
    { intros Ch. destruct Sc as (N1 & N2 & _). rewrite N2 in Ch. destruct (RG Ch) as [A B]. unfold registered. rewrite (fixed_refs _ _ P2), (fixed_exps _ _ P2), N1. split; assumption. }
    split.
    + intros k. rewrite (same_cmd c c4 _ Sc), (by_name_cmd c _ (cm_rm me) BN). intros Wk.
      assert (CK : In k (rm_ckeys (cm_rm me))).
      { destruct (SC k Wk) as [[Hw _]|(g & _ & _ & (ks & Eg & Kg) & _)]; [apply (ki_c _ (i_k _ HRI)); exact Hw|eapply (rx_refs _ HRX); eassumption]. }
      split; [|split; [|rewrite (fixed_ck _ _ P2); exact CK]].
      * destruct (SC k Wk) as [[Hw Av]|(g & RAg & Chg & (ks & Eg & Kg) & Avg & _)].
        -- apply P4. destruct H24 as (_ & _ & _ & E4 & _). rewrite E4. apply (st_avc _ _ _ S2); [apply (g_avc _ _ Gr); exact Av|].
           intros n' c' ks' _ _ _ Er Kk. rewrite (g_refs _ _ Gr) in Er. exact (ki_refs _ (i_k _ HRI) _ _ _ Er Kk Hw).
        -- destruct (in_dec string_dec (c_name g) (a ++ R)) as [IG|NG].
           ++ destruct (loaded _ IG) as (g' & Fg & Ig & _). rewrite (me_find g (proj1 RAg)) in Fg. injection Fg as <-.
              destruct (find4 _ _ (me_find g (proj1 RAg))) as (g4 & Fg4 & Sg & _).
              eapply P6; [exact IG|exact Fg4| | |exact Kg]. { destruct Sg as (_ & X & _). rewrite X. exact Chg. } rewrite (fixed_refs _ _ F4). exact Eg.
           ++ assert (NGa : ~ In (c_name g) a) by (intros X; apply NG; apply in_app_iff; auto).
              assert (NGR : ~ In (c_name g) R) by (intros X; apply NG; apply in_app_iff; auto).
              destruct Avg as [X|Av]; [contradiction|]. destruct RAg as [Ig [X|[Lg NGd]]]; [contradiction|].
              apply P4. destruct H24 as (_ & _ & _ & E4 & _). rewrite E4. apply (st_avc _ _ _ S2); [apply (g_avc _ _ Gr); exact Av|].
              intros n' c' ks' Hn' _ _ Er Kk. rewrite (g_refs _ _ Gr) in Er.
              assert (Ne : c_name g <> n') by (intros <-; apply in_app_iff in Hn'; destruct Hn'; contradiction).
              exact (rx_dis _ HRX _ _ _ _ k Ne Eg Er Kg Kk).
      * rewrite P3. destruct H24 as (_ & _ & E4 & _). rewrite E4.
        destruct (aget (rm_claimed (cm_rm me)) k) as [[]|] eqn:T.
        -- destruct (holder_stops c k) as (x & Ix & Lx & Kx & Dx); [rewrite Nc; exact Hn|exact Ic|exact RA|exact Wk|exact T|].
           eapply (st_free _ _ _ S2); [exact Dx|rewrite ma_find; apply me_find; exact Ix|exact Lx|exact Kx].
        -- destruct (st_claim _ _ _ S2 k) as [X|X]; [|exact X]. rewrite X, (g_cl _ _ Gr). exact T.
        -- exfalso. exact (rx_ck _ HRX k CK T).
    + intros k. rewrite (same_state c c4 _ Sc), (by_name_state c _ (cm_rm me) BN). intros Wk.
      assert (CK : In k (rm_skeys (cm_rm me))).
      { destruct (SS k Wk) as [[Hw _]|(g & _ & _ & (ks & Eg & Kg) & _)]; [apply (ki_s _ (i_k _ HRI)); exact Hw|eapply (rx_exps _ HRX); eassumption]. }
      split; [|rewrite (fixed_sk _ _ P2); exact CK].
      destruct (SS k Wk) as [[Hw Av]|(g & RAg & Chg & (ks & Eg & Kg) & Avg)].
      * apply P5. destruct H24 as (_ & _ & _ & _ & E4 & _). rewrite E4. apply (st_avs _ _ _ S2); [apply (g_avs _ _ Gr); exact Av|].
        intros n' c' ks' _ _ _ Er Kk. rewrite (g_exps _ _ Gr) in Er. exact (ki_exps _ (i_k _ HRI) _ _ _ Er Kk Hw).
      * destruct (in_dec string_dec (c_name g) (a ++ R)) as [IG|NG].
        -- destruct (loaded _ IG) as (g' & Fg & Ig & _). rewrite (me_find g (proj1 RAg)) in Fg. injection Fg as <-.
           destruct (find4 _ _ (me_find g (proj1 RAg))) as (g4 & Fg4 & Sg & _).
           eapply P7; [exact IG|exact Fg4| | |exact Kg]. { destruct Sg as (_ & X & _). rewrite X. exact Chg. } rewrite (fixed_exps _ _ F4). exact Eg.
        -- assert (NGa : ~ In (c_name g) a) by (intros X; apply NG; apply in_app_iff; auto).
           assert (NGR : ~ In (c_name g) R) by (intros X; apply NG; apply in_app_iff; auto).
           destruct Avg as [X|Av]; [contradiction|]. destruct RAg as [Ig [X|[Lg NGd]]]; [contradiction|].
           apply P5. destruct H24 as (_ & _ & _ & _ & E4 & _). rewrite E4. apply (st_avs _ _ _ S2); [apply (g_avs _ _ Gr); exact Av|].
           intros n' c' ks' Hn' _ _ Er Kk. rewrite (g_exps _ _ Gr) in Er.
           assert (Ne : c_name g <> n') by (intros <-; apply in_app_iff in Hn'; destruct Hn'; contradiction).
           exact (rx_dise _ HRX _ _ _ _ k Ne Eg Er Kg Kk).
  - intros g1 g2 c1 c2 k I1 I2 Ne F1 F2. rewrite F5 in F1, F2.
    destruct (loaded _ I1) as (x1 & X1 & _ & N1 & RA1 & _). destruct (loaded _ I2) as (x2 & X2 & _ & N2 & RA2 & _).
    destruct (find4 _ _ X1) as (y1 & Y1 & S1 & _). destruct (find4 _ _ X2) as (y2 & Y2 & S2' & _).
    assert (y1 = c1) by congruence. assert (y2 = c2) by congruence. subst y1 y2.
    rewrite (same_cmd _ _ _ S1), (same_cmd _ _ _ S2').
    rewrite (by_name_cmd x1 _ (cm_rm me)) by (apply RE1; exact RA1). rewrite (by_name_cmd x2 _ (cm_rm me)) by (apply RE1; exact RA2).
    apply (RE2 x1 x2 k RA1 RA2). congruence.
  - exists m5, m6. split; [exact Q5|]. split; [exact Q6|]. split; [exact RUN|]. split; [intros g Hg; rewrite <- F5; apply OT; exact Hg|].
    split; [intros g c F; apply KP; rewrite F5; exact F|]. rewrite PE. subst m5. reflexivity.
Qed.
End Main.

Lemma main_done_both e allow hs ops m a d asap m1 : wf_hw hs -> crun e allow (cm_start hs) ops = Val m ->
  NoDup a -> realizable m a d -> (forall n, In n a \/ state_in m n = Some Active -> works e n) -> hardware_performs e ->
  cstep e allow m (CRequest a d true asap) = Val (m1, CSw SwPending) ->
  exists m2 m3, cstep e allow m1 CPerform = Val (m2, CNone) /\ cstep e allow m2 CEvaluate = Val (m3, CBool true) /\
    cstep e allow (as_best_effort m1) CPerform = Val (as_best_effort m2, CNone) /\ cstep e allow (as_best_effort m2) CEvaluate = Val (m3, CBool true) /\
    (forall n, state_in m3 n = asked_state m a d n) /\
    (forall c, In c (cm_ctrls m3) -> In (c_name c) a -> c_cloans c = cmd_names (cm_rm m3) c /\ c_sloans c = state_names (cm_rm m3) c).
Proof.
  intros W HC ND RE WK HP HQ.
  pose proof (reach_XI _ _ _ _ _ W HC) as X0. pose proof (reach_FI _ _ _ _ _ W HC) as F0.
  pose proof (crun_snoc _ _ _ _ _ _ _ _ HC HQ) as HC1.
  unfold cstep in HQ. set (me := emit m EvOp) in *.
  assert (XE : XI me).
  { assert (C : crun e allow (cm_start hs) (ops ++ [CTimeout]) = Val me \/ cm_pend m <> None).
    { unfold serviced in HQ. destruct (cm_pend me) eqn:P; [discriminate|]. left. unfold me in *. eapply crun_snoc; [exact HC|]. unfold cstep. rewrite P. reflexivity. }
    destruct C as [C|C]; [eapply reach_XI; eassumption|]. unfold serviced in HQ. change (cm_pend me) with (cm_pend m) in HQ. destruct (cm_pend m); [discriminate|congruence]. }
  unfold serviced in HQ. destruct (cm_pend me) eqn:PE; [discriminate|].
  assert (FE : FI me). { eapply (reach_FI e allow hs (ops ++ [CTimeout])); [exact W|]. unfold me in *. eapply crun_snoc; [exact HC|]. unfold cstep. rewrite PE. reflexivity. }
  apply bind_val in HQ. destruct HQ as ([m1' o] & HQ & E). injection E as -> ->.
  destruct (request_more _ _ _ _ _ _ _ HQ) as (p & Pp & NR & PERF).
  destruct (request_strict e allow me a d asap m1 SwPending) as [[C _]|[[C _]|(_ & p' & R & _ & SF)]]; try discriminate; [apply (proj1 (ci_n _ (xi_ci _ XE)))|exact HQ|].
  destruct SF as [(r & Gr & Em1) SA SD SS SDone SR SK SST SIN _ _ _ _ _ _]. 
  assert (p' = p) by (rewrite Em1 in Pp; injection Pp as ->; reflexivity). subst p'. specialize (NR R SD).
  set (mp := emit m1 EvOp).
  assert (GP : grow (cm_rm me) (cm_rm mp)). { subst m1. eapply grow_trans; [exact Gr|]. apply (grow_trace r (EvOp :: rm_trace r)). }
  assert (CP : cm_ctrls mp = cm_ctrls me) by (subst m1; reflexivity).
  pose proof (PERF HP (cm_rm mp) (g_hw _ _ GP)) as POK.
  pose proof (grow_perform e allow (cm_rm mp) (p_start p) (p_stop p)) as GQ.
  destruct (rm_perform e allow (cm_rm mp) (p_start p) (p_stop p)) as [r1 ok] eqn:EP. cbn [fst snd] in POK, GQ. subst ok.
  set (ma := set_rm mp r1).
  set (m2a := deactivate_controllers e ma (d ++ R)).
  set (m4 := switch_chained_mode e (switch_chained_mode e m2a (p_to p) true) (p_from p) false).
  assert (L4 : like m2a m4) by (eapply like_trans; apply like_switch_chained).
  assert (GA : grow (cm_rm me) (cm_rm ma)) by (eapply grow_trans; eassumption).
  destruct (start_everything e me a d R XE FE ND NR RE WK SR SK SST SIN ma GA CP m4 L4) as (m5 & m6 & Q5 & Q6 & RUN & OT & KP & PD).
  assert (MS : manage_switch e allow mp p = Val m6).
  { unfold manage_switch. rewrite EP. cbn [negb]. rewrite SD, SA, SS. unfold activate_controllers. fold ma m2a m4. rewrite Q5. cbn [bind]. rewrite Q6. cbn [bind negb andb]. reflexivity. }
  assert (MS' : manage_switch e allow mp (best_of p) = Val m6).
  { unfold manage_switch. cbn [best_of p_start p_stop p_deact p_to p_from p_act p_strict]. rewrite EP. cbn [negb]. rewrite SD, SA. unfold activate_controllers. fold ma m2a m4. rewrite Q5. cbn [bind]. rewrite Q6. cbn [bind negb andb]. reflexivity. }
  set (p2 := done_of p). set (m7 := set_pend m6 (Some p2)).
  assert (S7 : cstep e allow m1 CPerform = Val (m7, CNone)).
  { unfold cstep. fold mp. replace (cm_pend mp) with (Some p) by (subst m1; reflexivity). rewrite SDone, MS. reflexivity. }
  pose proof (crun_snoc _ _ _ _ _ _ _ _ HC1 S7) as HC7.
  pose proof (reach_XI _ _ _ _ _ W HC7) as X7. pose proof (proj1 (ci_n _ (xi_ci _ X7))) as ND7.
  assert (FS : forall n, state_in m7 n = asked_state m a d n).
  { intros n. unfold asked_state. unfold state_in at 1. change (find_ctrl m7 n) with (find_ctrl m6 n).
    destruct (in_dec string_dec n a) as [Ia|Na].
    { destruct (RUN n) as (c & F & L & _); [apply in_app_iff; auto|]. rewrite F. cbn [option_map]. congruence. }
    destruct (in_dec string_dec n R) as [IR|NIR].
    { destruct (SR n IR) as [Nd (c & Ic & Nc & L)]. destruct (in_dec string_dec n d) as [Id|_]; [contradiction|].
      destruct (RUN n) as (c' & F & L' & _); [apply in_app_iff; auto|]. rewrite F. cbn [option_map]. rewrite L'. unfold state_in.
      change (find_ctrl m n) with (find_ctrl me n). rewrite <- Nc, (me_find me XE c Ic). cbn [option_map]. congruence. }
    assert (NA : ~ In n (a ++ R)) by (intros I; apply in_app_iff in I; destruct I; contradiction).
    rewrite (OT n NA). destruct (find_ctrl me n) as [c|] eqn:F.
    - destruct (find4 e me a d R XE WK SR SK SST ma CP m4 L4 n c F) as (c4 & Fc4 & Sc & D4 & U4).
      rewrite Fc4. cbn [option_map]. destruct (in_dec string_dec n d) as [Id|Nd].
      + destruct D4 as [L' _]; [apply in_app_iff; auto| |congruence]. apply (SST c); [eapply find_in_In; exact F|]. rewrite (find_in_name _ _ _ F). exact Id.
      + destruct U4 as [L' _]; [left; intros I; apply in_app_iff in I; destruct I; contradiction|]. unfold state_in. change (find_ctrl m n) with (find_ctrl me n). rewrite F. cbn [option_map]. congruence.
    - rewrite (none4 e me a d R XE WK SR SK SST ma CP m4 L4 n F). cbn [option_map].
      destruct (in_dec string_dec n d) as [Id|Nd].
      + destruct (SK n) as (c & Ic & Nc); [apply in_app_iff; auto|]. rewrite <- Nc, (me_find me XE c Ic) in F. discriminate.
      + unfold state_in. change (find_ctrl m n) with (find_ctrl me n). rewrite F. reflexivity. }
  assert (OK : switch_ok (emit m7 EvOp) p2 = true).
  { apply switch_ok_true; [exact ND7|]. change (cm_ctrls (emit m7 EvOp)) with (cm_ctrls m7). cbn [p2 done_of p_act p_deact]. rewrite SA, SD. intros c Ic.
    pose proof (FS (c_name c)) as Fc. unfold state_in at 1 in Fc. unfold find_ctrl in Fc. rewrite (NoDup_find _ _ ND7 Ic) in Fc. cbn [option_map] in Fc. split.
    - intros I. destruct (RUN _ I) as (c' & F & L & _). change (find_ctrl m6 (c_name c)) with (find_ctrl m7 (c_name c)) in F. unfold find_ctrl in F. rewrite (NoDup_find _ _ ND7 Ic) in F. congruence.
    - intros I NI. assert (Na : ~ In (c_name c) a) by (intros X; apply NI; apply in_app_iff; auto). assert (NR' : ~ In (c_name c) R) by (intros X; apply NI; apply in_app_iff; auto).
      apply in_app_iff in I. destruct I as [I|I]; [|contradiction]. unfold asked_state in Fc. destruct (in_dec string_dec (c_name c) a); [contradiction|].
      destruct (in_dec string_dec (c_name c) d); [congruence|contradiction]. }
  exists m7. eexists. split; [exact S7|]. split.
  { unfold cstep. change (cm_pend (emit m7 EvOp)) with (Some p2). cbn [p2 done_of p_done]. unfold evaluate, to_out. fold p2. rewrite OK. reflexivity. }
  split.
  { unfold cstep, as_best_effort. rewrite Pp. cbn [option_map]. change (emit (set_pend m1 (Some (best_of p))) EvOp) with (set_pend mp (Some (best_of p))).
    cbn [cm_pend set_pend]. cbn [best_of p_done]. rewrite SDone. fold (best_of p).
    rewrite manage_set_pend, MS'. reflexivity. }
  split.
  { unfold cstep. change (cm_pend (emit (as_best_effort m7) EvOp)) with (Some (best_of p2)). cbn [best_of p2 done_of p_done]. unfold evaluate, to_out. fold p2.
    change (switch_ok (emit (as_best_effort m7) EvOp) _) with (switch_ok (emit m7 EvOp) p2). rewrite OK. reflexivity. }
  split.
  - intros n. rewrite <- FS. unfold state_in, find_ctrl. cbn [fst evaluate set_pend set_ctrls cm_ctrls]. rewrite find_refresh.
    change (cm_ctrls (emit m7 EvOp)) with (cm_ctrls m7). destruct (find_in (cm_ctrls m7) n); reflexivity.
  - cbn [fst evaluate set_pend set_ctrls cm_ctrls cm_rm]. change (cm_ctrls (emit m7 EvOp)) with (cm_ctrls m7). intros c Ic Ia.
    apply in_map_iff in Ic. destruct Ic as (c0 & <- & I0). change (c_name (refresh_claimed (cm_rm (emit m7 EvOp)) c0)) with (c_name c0) in Ia.
    destruct (RUN (c_name c0)) as (c' & F & _ & C1 & C2); [apply in_app_iff; auto|].
    change (find_ctrl m6 (c_name c0)) with (find_ctrl m7 (c_name c0)) in F. unfold find_ctrl in F. rewrite (NoDup_find _ _ ND7 I0) in F. injection F as <-.
    split; [exact C1|exact C2].
Qed.
Lemma main_done e allow hs ops m a d asap m1 : wf_hw hs -> crun e allow (cm_start hs) ops = Val m ->
  NoDup a -> realizable m a d -> (forall n, In n a \/ state_in m n = Some Active -> works e n) -> hardware_performs e ->
  cstep e allow m (CRequest a d true asap) = Val (m1, CSw SwPending) ->
  exists m2 m3, cstep e allow m1 CPerform = Val (m2, CNone) /\ cstep e allow m2 CEvaluate = Val (m3, CBool true) /\
    (forall n, state_in m3 n = asked_state m a d n) /\
    (forall c, In c (cm_ctrls m3) -> In (c_name c) a -> c_cloans c = cmd_names (cm_rm m3) c /\ c_sloans c = state_names (cm_rm m3) c).
Proof.
  intros W HC ND RE WK HP HQ. destruct (main_done_both e allow hs ops m a d asap m1 W HC ND RE WK HP HQ) as (m2 & m3 & H1 & H2 & _ & _ & H3). exists m2, m3. auto.
Qed.
