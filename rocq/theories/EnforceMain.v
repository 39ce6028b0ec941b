(** EnforceMain.v *)
From Coq Require Import ZArith Bool List String SpecFloat Lia.
From Verif Require Import Base LimitsModel LimitsSpec FloatOrder FloatReal LimitsProofs LimitsMain LimitsHist EnforceModel EnforceSpec EnforceProofs.
Import ListNotations.
Open Scope string_scope.
Open Scope list_scope.

(** -------------------------------------------------- the limiters made from the description *)
Definition fresh (infos : list hwinfo) (hw j : name) (m : limiter) : Prop :=
  m_prev m = no_data /\ exists hi, In hi infos /\ hi_name hi = hw /\ In (j, m_hard m) (hi_limits hi) /\
    (forall b, In (j, b) (hi_joints hi) -> b = true) /\ m_soft m = aget (hi_soft hi) j.
Lemma enabled_spec joints j : limits_enabled joints j = true <-> forall b, In (j, b) joints -> b = true.
Proof.
  unfold limits_enabled. rewrite negb_true_iff. split.
  - intros H b I. destruct b; [reflexivity|]. exfalso. assert (X : existsb (fun p : name * bool => (String.eqb (fst p) j && negb (snd p))%bool) joints = true).
    { apply existsb_exists. exists (j, false). split; [exact I|]. cbn. rewrite String.eqb_refl. reflexivity. } exact (eq_true_false_abs _ X H).
  - intros H. match goal with |- ?x = false => destruct x eqn:E end; [|reflexivity]. apply existsb_exists in E. destruct E as ([j' b] & I & X). cbn in X.
    apply andb_true_iff in X. destruct X as [X Y]. apply String.eqb_eq in X. subst j'. rewrite (H b I) in Y. discriminate.
Qed.
Lemma import_joint_get hi w p hw j : lim_get (import_joint hi w p) hw j =
  match lim_get w hw j with Some m => Some m | None =>
    if (limits_enabled (hi_joints hi) (fst p) && String.eqb hw (hi_name hi) && String.eqb j (fst p))%bool
    then Some {| m_hard := snd p; m_soft := aget (hi_soft hi) (fst p); m_prev := no_data |} else None end.
Proof.
  unfold import_joint. destruct (limits_enabled (hi_joints hi) (fst p)); cbn [andb]; [|destruct (lim_get w hw j); reflexivity].
  change (lim_get (set_data w (insert (w_data w) (fst p) no_jdata))) with (lim_get w).
  destruct (lim_get w (hi_name hi) (fst p)) as [m0|] eqn:E.
  - change (lim_get (set_data w (insert (w_data w) (fst p) no_jdata)) hw j) with (lim_get w hw j).
    destruct (lim_get w hw j) eqn:G; [reflexivity|]. destruct (String.eqb_spec hw (hi_name hi)) as [->|]; [|reflexivity].
    destruct (String.eqb_spec j (fst p)) as [->|]; [congruence|reflexivity].
  - rewrite lim_get_set. change (lim_get (set_data w (insert (w_data w) (fst p) no_jdata)) hw j) with (lim_get w hw j).
    destruct (String.eqb_spec hw (hi_name hi)) as [->|]; cbn [andb]; [|destruct (lim_get w hw j); reflexivity].
    destruct (String.eqb_spec j (fst p)) as [->|]; [rewrite E; reflexivity|destruct (lim_get w (hi_name hi) j); reflexivity].
Qed.
Lemma import_joints_keep hi ls : forall w hw j m, lim_get w hw j = Some m -> lim_get (fold_left (import_joint hi) ls w) hw j = Some m.
Proof. induction ls as [|p ls IH]; intros w hw j m H; cbn; [exact H|]. apply IH. rewrite import_joint_get, H. reflexivity. Qed.
Lemma import_joints_from hi ls : forall w hw j m, lim_get (fold_left (import_joint hi) ls w) hw j = Some m ->
  lim_get w hw j = Some m \/ (m_prev m = no_data /\ hi_name hi = hw /\ In (j, m_hard m) ls /\
    (forall b, In (j, b) (hi_joints hi) -> b = true) /\ m_soft m = aget (hi_soft hi) j).
Proof.
  induction ls as [|p ls IH]; intros w hw j m H; cbn in H; [left; exact H|]. apply IH in H. destruct H as [H|(A & B & C & D & E)].
  - rewrite import_joint_get in H. destruct (lim_get w hw j) as [m0|]; [left; exact H|]. right.
    destruct (limits_enabled (hi_joints hi) (fst p)) eqn:EN; cbn in H; [|discriminate].
    destruct (String.eqb_spec hw (hi_name hi)) as [->|]; cbn in H; [|discriminate]. destruct (String.eqb_spec j (fst p)) as [->|]; [|discriminate].
    injection H as <-. cbn. repeat split; auto. left. destruct p; reflexivity. apply enabled_spec. exact EN.
  - right. repeat split; auto. right. exact C.
Qed.
Lemma import_joints_there hi ls j l : forall w, In (j, l) ls -> limits_enabled (hi_joints hi) j = true ->
  lim_get (fold_left (import_joint hi) ls w) (hi_name hi) j <> None.
Proof.
  induction ls as [|p ls IH]; intros w I E; [destruct I|]. cbn. destruct I as [->|I]; [|apply IH; assumption].
  assert (X : exists m, lim_get (import_joint hi w (j, l)) (hi_name hi) j = Some m).
  { rewrite import_joint_get. destruct (lim_get w (hi_name hi) j); [eauto|]. cbn. rewrite E, !String.eqb_refl. cbn. eauto. }
  destruct X as [m X]. erewrite import_joints_keep by exact X. discriminate.
Qed.
Lemma import_from infos : forall w hw j m, lim_get (import_limiters infos w) hw j = Some m -> lim_get w hw j = Some m \/ fresh infos hw j m.
Proof.
  induction infos as [|hi infos IH]; intros w hw j m H; cbn in H; [left; exact H|]. apply IH in H. destruct H as [H|(P & h & A & B)].
  - apply import_joints_from in H. destruct H as [H|(A & B & C & D & E)]; [left; exact H|]. right. split; [exact A|]. exists hi. cbn. auto.
  - right. split; [exact P|]. exists h. cbn. auto.
Qed.
Lemma import_keep infos : forall w hw j m, lim_get w hw j = Some m -> lim_get (import_limiters infos w) hw j = Some m.
Proof. induction infos as [|hi infos IH]; intros w hw j m H; cbn; [exact H|]. apply IH. apply import_joints_keep. exact H. Qed.
Lemma import_there infos : forall w hw j l, gives_limits infos hw j l -> lim_get (import_limiters infos w) hw j <> None.
Proof.
  induction infos as [|hi infos IH]; intros w hw j l (h & I & N & L & E); [destruct I|]. cbn. destruct I as [->|I].
  - destruct (lim_get (import_hw w h) hw j) as [m|] eqn:G.
    + erewrite import_keep by exact G. discriminate.
    + exfalso. revert G. rewrite <- N. eapply import_joints_there; [exact L|]. apply enabled_spec. exact E.
  - eapply IH. exists h. eauto.
Qed.
Definition start (infos : list hwinfo) (period : F) : world := import_limiters infos (empty_world period).
Lemma start_fresh infos period hw j m : lim_get (start infos period) hw j = Some m -> fresh infos hw j m.
Proof. intros H. apply import_from in H. destruct H as [H|H]; [discriminate H|exact H]. Qed.
Lemma start_limited infos period hw j : lim_get (start infos period) hw j <> None -> limited_joint infos j.
Proof.
  intros H. destruct (lim_get (start infos period) hw j) as [m|] eqn:E; [|contradiction]. apply start_fresh in E. destruct E as (_ & hi & A & B & C & D & _).
  exists hw, (m_hard m), hi. auto.
Qed.
Lemma import_joint_cmds hi w p : w_cmds (import_joint hi w p) = w_cmds w /\ w_states (import_joint hi w p) = w_states w /\ w_period (import_joint hi w p) = w_period w.
Proof. unfold import_joint. destruct (limits_enabled _ _); [|auto]. cbn zeta. destruct (lim_get _ _ _); auto. Qed.
Lemma import_hw_cmds hi w : w_cmds (import_hw w hi) = w_cmds w /\ w_states (import_hw w hi) = w_states w /\ w_period (import_hw w hi) = w_period w.
Proof.
  unfold import_hw. generalize (hi_limits hi). intros ls. revert w. induction ls as [|p ls IH]; intros w; cbn; [auto|].
  destruct (IH (import_joint hi w p)) as (A & B & C). destruct (import_joint_cmds hi w p) as (A' & B' & C'). rewrite A, B, C. auto.
Qed.
Lemma import_cmds infos : forall w, w_cmds (import_limiters infos w) = w_cmds w /\ w_states (import_limiters infos w) = w_states w /\ w_period (import_limiters infos w) = w_period w.
Proof.
  induction infos as [|hi infos IH]; intros w; [cbn; auto|]. change (import_limiters (hi :: infos) w) with (import_limiters infos (import_hw w hi)). destruct (IH (import_hw w hi)) as (A & B & C). destruct (import_hw_cmds hi w) as (A' & B' & C').
  repeat split; congruence.
Qed.
Lemma start_cmds infos period : w_cmds (start infos period) = [] /\ w_states (start infos period) = [] /\ w_period (start infos period) = period.
Proof. apply (import_cmds infos (empty_world period)). Qed.
(** nothing is known of a joint at the start *)
Lemma start_data infos period j : data_of (start infos period) j = no_jdata.
Proof.
  assert (G : forall w, data_of w j = no_jdata -> data_of (import_limiters infos w) j = no_jdata).
  { induction infos as [|hi infos IH]; intros w H; cbn; [exact H|]. apply IH. unfold import_hw. revert w H. generalize (hi_limits hi) as ls.
    induction ls as [|p ls IHl]; intros w H; cbn; [exact H|]. apply IHl. unfold import_joint. destruct (limits_enabled _ _); [|exact H]. cbn zeta.
    assert (X : data_of (set_data w (insert (w_data w) (fst p) no_jdata)) j = no_jdata).
    { unfold data_of in *. cbn. rewrite aget_insert. destruct (aget (w_data w) j); [exact H|]. destruct (String.eqb j (fst p)); reflexivity. }
    destruct (lim_get _ _ _); exact X. }
  apply G. reflexivity.
Qed.

(** -------------------------------------------------- binding *)
Lemma bound_fold w prefix kind hws : forall acc,
  let r := fold_left (fun acc hw => match lim_get w hw prefix with Some _ => if mem kind kinds then Some hw else acc | None => acc end) hws acc in
  (forall hw, r = Some hw -> acc = Some hw \/ (lim_get w hw prefix <> None /\ In kind kinds)) /\
  (In kind kinds -> (acc <> None \/ exists hw, In hw hws /\ lim_get w hw prefix <> None) -> r <> None).
Proof.
  induction hws as [|h hws IH]; intros acc r; cbn in r.
  - split; [intros hw E; left; exact E|]. intros _ [H|(hw & [] & _)]. exact H.
  - specialize (IH (match lim_get w h prefix with Some _ => if mem kind kinds then Some h else acc | None => acc end)). cbn zeta in IH. fold r in IH. destruct IH as [IH1 IH2]. split.
    + intros hw E. apply IH1 in E. destruct E as [E|E]; [|right; exact E]. destruct (lim_get w h prefix) as [m|] eqn:L; [|left; exact E].
      destruct (mem kind kinds) eqn:M; [|left; exact E]. injection E as <-. right. split; [congruence|]. apply mem_In. exact M.
    + intros K H. apply IH2; [exact K|]. apply mem_In in K. rewrite K. destruct H as [H|(hw & [->|I] & L)].
      * left. destruct (lim_get w h prefix); [discriminate|exact H].
      * left. destruct (lim_get w hw prefix); [discriminate|contradiction].
      * right. eauto.
Qed.
Lemma bound_some w prefix kind hw : bound_to w prefix kind = Some hw -> lim_get w hw prefix <> None /\ In kind kinds.
Proof. intros H. destruct (bound_fold w prefix kind (map fst (w_lims w)) None) as [A _]. destruct (A hw H) as [E|E]; [discriminate|exact E]. Qed.
Lemma bound_there w prefix kind hw : In kind kinds -> lim_get w hw prefix <> None -> bound_to w prefix kind <> None.
Proof.
  intros K L. destruct (bound_fold w prefix kind (map fst (w_lims w)) None) as [_ B]. apply B; [exact K|]. right. exists hw. split; [|exact L].
  destruct (lim_get w hw prefix) eqn:E; [|contradiction]. eapply lim_In_fst. exact E.
Qed.
(** limiters come and go only in their memory *)
Definition same_lims (w w' : world) : Prop :=
  map fst (w_lims w') = map fst (w_lims w) /\
  forall hw j, match lim_get w hw j with Some m => exists p, lim_get w' hw j = Some (with_prev m p) | None => lim_get w' hw j = None end.
Lemma same_lims_refl w : same_lims w w.
Proof. split; [reflexivity|]. intros hw j. destruct (lim_get w hw j) as [m|]; [|reflexivity]. exists (m_prev m). rewrite with_prev_self. reflexivity. Qed.
Lemma same_lims_eq w w' : w_lims w' = w_lims w -> same_lims w w'.
Proof.
  intros E. assert (X : forall hw j, lim_get w' hw j = lim_get w hw j) by (intros; unfold lim_get; rewrite E; reflexivity).
  split; [congruence|]. intros hw j. rewrite X. apply (proj2 (same_lims_refl w)).
Qed.
Lemma same_lims_trans a b c : same_lims a b -> same_lims b c -> same_lims a c.
Proof.
  intros [A1 A2] [B1 B2]. split; [congruence|]. intros hw j. specialize (A2 hw j). specialize (B2 hw j). destruct (lim_get a hw j) as [m|].
  - destruct A2 as [p A2]. rewrite A2 in B2. destruct B2 as [p' B2]. exists p'. exact B2.
  - rewrite A2 in B2. exact B2.
Qed.
Lemma touch_same_lims P j w w' : touch P j w w' -> same_lims w w'.
Proof.
  intros T. split; [exact (to_hw _ _ _ _ T)|]. intros hw j'. destruct (String.eqb_spec j' j) as [->|N]; [apply (to_lj _ _ _ _ T)|].
  rewrite (to_li _ _ _ _ T) by exact N. apply (proj2 (same_lims_refl w)).
Qed.
Lemma same_lims_none w w' hw j : same_lims w w' -> (lim_get w' hw j = None <-> lim_get w hw j = None).
Proof. intros [_ S]. specialize (S hw j). destruct (lim_get w hw j); [destruct S as [p ->]; split; discriminate|tauto]. Qed.
Definition binding_ok (w : world) : Prop := forall n c, aget (w_cmds w) n = Some c ->
  n = itf (c_prefix c) (c_kind c) /\
  (forall hw, c_bound c = Some hw -> lim_get w hw (c_prefix c) <> None /\ In (c_kind c) kinds) /\
  (c_bound c = None -> In (c_kind c) kinds -> forall hw, lim_get w hw (c_prefix c) = None).
(** the commands change in value only *)
Definition same_cmds (Q : name -> Prop) (w w' : world) : Prop := forall n,
  match aget (w_cmds w) n with
  | Some c => exists c', aget (w_cmds w') n = Some c' /\ stat c c' /\ (c_val c' = c_val c \/ Q n)
  | None => aget (w_cmds w') n = None end.
Lemma binding_keep Q w w' : same_lims w w' -> same_cmds Q w w' -> binding_ok w -> binding_ok w'.
Proof.
  intros S C B n c' E. specialize (C n). destruct (aget (w_cmds w) n) as [c|] eqn:G; [|congruence].
  destruct C as (c2 & E2 & (S1 & S2 & S3) & _). assert (c2 = c') by congruence. subst c2. destruct (B n c G) as (B1 & B2 & B3).
  rewrite S1, S2, S3. split; [exact B1|]. split.
  - intros hw X. destruct (B2 hw X) as [X1 X2]. split; [|exact X2]. rewrite (same_lims_none w w') by exact S. exact X1.
  - intros X K hw. rewrite (same_lims_none w w') by exact S. apply B3; assumption.
Qed.
Lemma same_cmds_refl Q w : same_cmds Q w w.
Proof. intros n. destruct (aget (w_cmds w) n) as [c|]; [|reflexivity]. exists c. auto using stat_refl. Qed.
Lemma same_cmds_trans Q a b c : same_cmds Q a b -> same_cmds Q b c -> same_cmds Q a c.
Proof.
  intros A B n. specialize (A n). specialize (B n). destruct (aget (w_cmds a) n) as [x|].
  - destruct A as (y & A & (S1 & S2 & S3) & V1). rewrite A in B. destruct B as (z & B & (T1 & T2 & T3) & V2).
    exists z. split; [exact B|]. split; [split; [|split]; congruence|]. destruct V2 as [V2|V2]; [|right; exact V2]. destruct V1 as [V1|V1]; [left; congruence|right; exact V1].
  - rewrite A in B. exact B.
Qed.
Lemma touch_cmds P j w w' : touch P j w w' -> same_cmds P w w'.
Proof. intros T n. apply (to_cm _ _ _ _ T). Qed.
Lemma same_cmds_mono (P Q : name -> Prop) w w' : (forall n, P n -> Q n) -> same_cmds P w w' -> same_cmds Q w w'.
Proof.
  intros PQ C n. specialize (C n). destruct (aget (w_cmds w) n); [|exact C]. destruct C as (c' & A & B & V). exists c'. split; [exact A|]. split; [exact B|].
  destruct V; [left; assumption|right; auto].
Qed.
Lemma same_cmds_value Q w w' n : same_cmds Q w w' -> ~ Q n -> value w' n = value w n.
Proof.
  intros C NQ. specialize (C n). unfold value. destruct (aget (w_cmds w) n) as [c|]; [|rewrite C; reflexivity].
  destruct C as (c' & -> & _ & [V|V]); [cbn; congruence|contradiction].
Qed.

(** -------------------------------------------------- setting a command *)
Lemma touch_mark P j w n b : touch P j w (mark w n b).
Proof.
  unfold mark. destruct (aget (w_cmds w) n) as [c|] eqn:E; [|apply touch_refl]. split; try reflexivity.
  - intros hw. change (lim_get (set_cmds w _) hw j) with (lim_get w hw j). destruct (lim_get w hw j) as [m|]; [|reflexivity]. exists (m_prev m). rewrite with_prev_self. reflexivity.
  - intros n'. cbn. rewrite aget_aset. destruct (String.eqb_spec n' n) as [->|].
    + rewrite E. eexists. split; [reflexivity|]. split; [split; [|split]; reflexivity|left; reflexivity].
    + destruct (aget (w_cmds w) n') as [c'|]; [|reflexivity]. exists c'. auto using stat_refl.
Qed.
Lemma on_set_touch w n v w1 x c : aget (w_cmds w) n = Some c -> on_set w n v = (w1, x) -> touch (fun _ => False) (c_prefix c) w w1.
Proof.
  intros G H. unfold on_set in H. rewrite G in H. destruct (c_bound c) as [hw|]; [|injection H as <- <-; apply touch_mark].
  destruct (lim_get w hw (c_prefix c)) as [m|] eqn:L; [|injection H as <- <-; apply touch_mark].
  destruct (run_limiter _ _ _ _) as [p cmd b|p|]; injection H as <- <-; try apply touch_mark;
    (eapply touch_trans; [apply touch_lim; exact L|apply touch_mark]).
Qed.
Lemma set_none tries : forall busy w n v w' r, aget (w_cmds w) n = None -> loaned_set tries busy w n v = (w', r) -> w' = w.
Proof.
  induction tries as [|t IH]; intros busy w n v w' r G H; cbn in H; [congruence|]. unfold on_set in H. rewrite G in H.
  destruct busy; [|eapply IH; eauto]. unfold put in H. rewrite G in H. congruence.
Qed.
Lemma set_touch tries : forall busy w n v w' r c, aget (w_cmds w) n = Some c -> loaned_set tries busy w n v = (w', r) -> touch (eq n) (c_prefix c) w w'.
Proof.
  induction tries as [|t IH]; intros busy w n v w' r c G H; cbn in H; [injection H as <- <-; apply touch_refl|].
  destruct (on_set w n v) as [w1 x] eqn:O. pose proof (on_set_touch w n v w1 x c G O) as T. apply (touch_mono _ (eq n)) in T; [|intros ? []].
  destruct x as [x| |]; try (injection H as <- <-; exact T). destruct busy as [|b].
  - injection H as <- <-. eapply touch_trans; [exact T|]. apply touch_put. intros _. reflexivity.
  - pose proof (to_cm _ _ _ _ T n) as X. rewrite G in X. destruct X as (c' & G' & (S1 & _) & _).
    eapply touch_trans; [exact T|]. rewrite <- S1. eapply IH; eauto.
Qed.
Lemma main_set_one w n v busy w' r : step w (OSet n v busy) = (w', r) -> forall n', n' <> n -> value w' n' = value w n'.
Proof.
  cbn [step]. intros H n' N. destruct (aget (w_cmds w) n) as [c|] eqn:G.
  - eapply same_cmds_value; [eapply touch_cmds; eapply set_touch; eauto|]. congruence.
  - apply set_none in H; [subst; reflexivity|exact G].
Qed.

(** -------------------------------------------------- the whole pass *)
Definition writable_any (w : world) (n : name) : Prop := held w n /\ exists j k hw, n = itf j k /\ In k kinds /\ lim_get w hw j <> None.
Record passed (w w' : world) : Prop := {
  pa_st : w_states w' = w_states w; pa_cl : w_claims w' = w_claims w; pa_pe : w_period w' = w_period w;
  pa_li : same_lims w w'; pa_cm : same_cmds (writable_any w) w w' }.
Lemma passed_trans a b c : passed a b -> passed b c -> passed a c.
Proof.
  intros [A1 A2 A3 A4 A5] [B1 B2 B3 B4 B5]. split; try congruence; [eapply same_lims_trans; eauto|].
  eapply same_cmds_trans; [exact A5|]. eapply same_cmds_mono; [|exact B5]. intros n (H & j & k & hw & E & K & L).
  split; [unfold held in *; congruence|]. exists j, k, hw. split; [exact E|]. split; [exact K|]. rewrite <- (same_lims_none a b hw j A4). exact L.
Qed.
Lemma lim_dec w j : (exists hw, lim_get w hw j <> None) \/ (forall hw, lim_get w hw j = None).
Proof.
  destruct (existsb (fun hw => match lim_get w hw j with Some _ => true | None => false end) (map fst (w_lims w))) eqn:E.
  - apply existsb_exists in E. destruct E as (hw & _ & X). left. exists hw. destruct (lim_get w hw j); congruence.
  - right. intros hw. destruct (lim_get w hw j) eqn:G; [|reflexivity]. exfalso. assert (X : existsb (fun hw => match lim_get w hw j with Some _ => true | None => false end) (map fst (w_lims w)) = true).
    { apply existsb_exists. exists hw. split; [eapply lim_In_fst; exact G|]. rewrite G. reflexivity. } congruence.
Qed.
Lemma touch_passed j w w' hw : lim_get w hw j <> None -> touch (writable w j) j w w' -> passed w w'.
Proof.
  intros L T. split; try apply T.
  - eapply touch_same_lims. exact T.
  - eapply same_cmds_mono; [|eapply touch_cmds; exact T]. intros n (H & k & -> & K). split; [exact H|]. exists j, k, hw. auto.
Qed.
Lemma passed_refl w : passed w w.
Proof. split; auto using same_lims_refl, same_cmds_refl. Qed.
Lemma joint_passed hws w j dt acc w' r : enforce_joint hws w j dt acc = (w', r) -> passed w w'.
Proof.
  intros H. destruct (lim_dec w j) as [[hw L]|N].
  - eapply touch_passed; [exact L|]. eapply joint_touch. exact H.
  - rewrite joint_none in H by exact N. injection H as <- <-. apply passed_refl.
Qed.
Lemma all_passed order : forall w dt acc w' r, enforce_all order w dt acc = (w', r) -> passed w w'.
Proof.
  induction order as [|j order IH]; intros w dt acc w' r H; cbn in H; [injection H as <- <-; apply passed_refl|].
  destruct (enforce_joint _ w j dt false) as [w1 r1] eqn:E. apply joint_passed in E. destruct r1 as [b| |].
  - eapply passed_trans; [exact E|]. eapply IH. exact H.
  - injection H as <- <-. exact E.
  - injection H as <- <-. exact E.
Qed.

(** -------------------------------------------------- every history *)
Lemma step_keeps w o w' r : step w o = (w', r) -> same_lims w w' /\ (binding_ok w -> binding_ok w').
Proof.
  destruct o as [n v|prefix kind v|n|n v|n b|n v busy|[|] order dt]; cbn [step]; intros H.
  - injection H as <- <-. split; [apply same_lims_eq; reflexivity|]. intros B n' c E. apply (B n' c E).
  - destruct (aget (w_cmds w) (itf prefix kind)) eqn:G; [injection H as <- <-; split; [apply same_lims_refl|auto]|].
    injection H as <- <-. split; [apply same_lims_eq; reflexivity|]. intros B n c E. cbn in E. rewrite aget_aset in E.
    destruct (String.eqb_spec n (itf prefix kind)) as [->|N]; [|apply (B n c E)]. injection E as <-. cbn. split; [reflexivity|]. split.
    + intros hw X. apply bound_some in X. exact X.
    + intros X K hw. destruct (lim_get _ hw prefix) eqn:L; [|reflexivity]. exfalso. revert X. eapply bound_there; [exact K|].
      unfold lim_get in *. cbn in L. rewrite L. discriminate.
  - injection H as <- <-. split; [apply same_lims_eq; reflexivity|]. intros B n' c E. cbn in E. rewrite aget_adel in E.
    destruct (String.eqb n' n); [discriminate|]. apply (B n' c E).
  - injection H as <- <-. pose proof (touch_put (eq n) "" w n v (fun _ => eq_refl)) as T. split; [eapply touch_same_lims; exact T|].
    eapply binding_keep; [eapply touch_same_lims; exact T|eapply touch_cmds; exact T].
  - injection H as <- <-. split; [apply same_lims_eq; reflexivity|]. intros B n' c E. apply (B n' c E).
  - destruct (aget (w_cmds w) n) as [c|] eqn:G.
    + pose proof (set_touch _ _ _ _ _ _ _ _ G H) as T. split; [eapply touch_same_lims; exact T|].
      eapply binding_keep; [eapply touch_same_lims; exact T|eapply touch_cmds; exact T].
    + apply set_none in H; [subst; split; [apply same_lims_refl|auto]|exact G].
  - apply all_passed in H. split; [apply H|]. eapply binding_keep; apply H.
  - injection H as <- <-. split; [apply same_lims_refl|auto].
Qed.
Lemma run_keeps os : forall w, same_lims w (run_ops w os) /\ (binding_ok w -> binding_ok (run_ops w os)).
Proof.
  induction os as [|o os IH]; intros w; cbn; [split; [apply same_lims_refl|auto]|].
  destruct (step w o) as [w1 r] eqn:E. cbn. apply step_keeps in E. destruct E as [E1 E2]. destruct (IH w1) as [I1 I2].
  split; [eapply same_lims_trans; eauto|auto].
Qed.
Lemma start_binding infos period : binding_ok (start infos period).
Proof. intros n c E. rewrite (proj1 (start_cmds infos period)) in E. discriminate. Qed.
Lemma after_binding infos period ops : binding_ok (after infos period ops).
Proof. apply (proj2 (run_keeps ops (start infos period))). apply start_binding. Qed.
Lemma after_limited infos period ops hw j : lim_get (after infos period ops) hw j <> None -> limited_joint infos j.
Proof.
  intros H. apply (start_limited infos period hw j). rewrite <- (same_lims_none (start infos period) (after infos period ops)); [exact H|].
  apply (run_keeps ops (start infos period)).
Qed.
Lemma main_only_held infos period ops free order dt w' r : step (after infos period ops) (OEnforce free order dt) = (w', r) ->
  (forall n, value w' n <> value (after infos period ops) n -> held (after infos period ops) n /\ limited_interface infos n) /\
  (forall n, measured w' n = measured (after infos period ops) n) /\ (forall n, held w' n <-> held (after infos period ops) n).
Proof.
  set (w := after infos period ops). destruct free; cbn [step]; intros H; [|injection H as <- <-; split; [intros n X; contradiction|split; [reflexivity|tauto]]].
  apply all_passed in H. split; [|split].
  - intros n N. assert (Q : writable_any w n).
    { pose proof (pa_cm _ _ H n) as C. unfold value in N. destruct (aget (w_cmds w) n) as [c|]; [|rewrite C in N; contradiction].
      destruct C as (c' & E & _ & [V|V]); [|exact V]. rewrite E in N. cbn in N. congruence. }
    destruct Q as (A & j & k & hw & B & C & D). split; [exact A|]. exists j, k. split; [exact B|]. split; [exact C|]. eapply after_limited. exact D.
  - intros n. unfold measured. rewrite (pa_st _ _ H). reflexivity.
  - intros n. unfold held. rewrite (pa_cl _ _ H). tauto.
Qed.

(** an interface of a joint without limits: what is set is stored *)
Lemma unlimited_set infos period n (tries : nat) : ~ limited_interface infos n -> forall (busy : nat) w v w' r, (busy < tries)%nat ->
  same_lims (start infos period) w -> binding_ok w -> loaned_set tries busy w n v = (w', r) ->
  r = ROk true /\ forall x, value w n = Some x -> value w' n = Some v.
Proof.
  intros NL. induction tries as [|t IH]; intros busy w v w' r LT S B H; [lia|]. cbn in H.
  assert (O : exists w1, on_set w n v = (w1, LValue v) /\ same_lims w w1 /\ (binding_ok w1) /\ (forall x, value w n = Some x -> exists y, value w1 n = Some y)).
  { unfold on_set. destruct (aget (w_cmds w) n) as [c|] eqn:G; [|exists w; split; [reflexivity|split; [apply same_lims_refl|split; [exact B|eauto]]]].
    destruct (B n c G) as (B1 & B2 & _). destruct (c_bound c) as [hw|] eqn:C.
    - exfalso. apply NL. destruct (B2 hw eq_refl) as [X Y]. exists (c_prefix c), (c_kind c). split; [exact B1|]. split; [exact Y|].
      apply (start_limited infos period hw). rewrite <- (same_lims_none _ w); [exact X|exact S].
    - exists (mark w n false). pose proof (touch_mark (fun _ => False) "" w n false) as T.
      split; [reflexivity|]. split; [eapply touch_same_lims; exact T|]. split; [eapply binding_keep; [eapply touch_same_lims; exact T|eapply touch_cmds; exact T|exact B]|].
      intros x Hx. exists x. rewrite (same_cmds_value (fun _ => False) w); [exact Hx|eapply touch_cmds; exact T|tauto]. }
  destruct O as (w1 & O & S1 & B1 & V1). rewrite O in H. destruct busy as [|b].
  - injection H as <- <-. split; [reflexivity|]. intros x Hx. destruct (V1 x Hx) as [y Hy]. unfold value in *. rewrite aget_put, String.eqb_refl.
    destruct (aget (w_cmds w1) n); [reflexivity|discriminate].
  - destruct (IH b w1 v w' r) as [A1 A2]; [lia|eapply same_lims_trans; eauto|exact B1|exact H|]. split; [exact A1|].
    intros x Hx. destruct (V1 x Hx) as [y Hy]. eapply A2. exact Hy.
Qed.
Lemma main_unlimited infos period ops n v busy w' r : ~ limited_interface infos n -> (busy < 10)%nat ->
  step (after infos period ops) (OSet n v busy) = (w', r) ->
  r = ROk true /\ forall x, value (after infos period ops) n = Some x -> value w' n = Some v.
Proof.
  intros NL LT H. cbn [step] in H. eapply (unlimited_set infos period n 10 NL busy); [exact LT| |apply after_binding|exact H].
  apply (run_keeps ops (start infos period)).
Qed.
