(** LimitsHist.v -- the saturation limiter over any number of cycles, and the soft limiter. *)
From Coq Require Import ZArith Bool List SpecFloat Reals Lra.
From Verif Require Import LimitsModel FloatOrder FloatReal LimitsSpec LimitsProofs LimitsMain.
Import ListNotations.

Definition inv (l : jl) (m : jd) : Prop :=
  doubles_jd double m /\ each finite (d_pos m) /\ each (fun w => within (fopp (l_maxv l)) w (l_maxv l)) (d_vel m).
Lemma each_none P : each P None. Proof. intros x E. discriminate. Qed.
Lemma each_fill1 P prev act des : each P prev -> each P act -> (forall v, des = Some v -> act = None -> isnan v = false -> P v) -> each P (fill1 prev act des).
Proof.
  intros H1 H2 H3. unfold fill1. destruct des as [v|]; [|exact H1]. destruct act as [q|]; [exact H2|].
  destruct (isnan v) eqn:N; [exact H1|]. intros x [= <-]. apply H3; auto.
Qed.
Lemma each_remember P des prev : each P prev -> (forall v, des = Some v -> isnan v = false -> P v) -> each P (remember1 des prev).
Proof. intros H1 H2. unfold remember1. destruct des as [v|]; [|exact H1]. destruct (isnan v) eqn:N; [exact H1|]. intros x [= <-]. auto. Qed.
Lemma inside_finite l o : pos_limits_ok l -> inside l o -> each finite o.
Proof. intros (A & B & C) H x E. eapply within_finite; [exact A|exact B|exact (H x E)]. Qed.
Lemma fclamp_double v lo hi v' : double v -> double lo -> double hi -> fclamp v lo hi = Some v' -> double v'.
Proof. unfold fclamp. destruct (flt hi lo); [discriminate|]. destruct (flt v lo); [intros ? ? ? [= <-]; assumption|]. destruct (flt hi v); intros ? ? ? [= <-]; assumption. Qed.
Lemma swap_double b lo hi : double (fst b) -> double (snd b) -> swap b = (lo, hi) -> double lo /\ double hi.
Proof. destruct b as [x y]. cbn. destruct (flt y x); intros ? ? [= <- <-]; auto. Qed.
Lemma delta_double l va dt : doubles_jl double l -> each double va -> double dt -> double (pos_delta l va dt).
Proof.
  intros (D1 & D2 & D3 & D4) Dva Dd. unfold pos_delta. apply d_mul; [|exact Dd]. apply d_min; [exact D3|].
  destruct (l_ha l); [|exact D3]. apply d_add; [|apply d_mul; assumption]. destruct va as [v|]; [apply d_abs; apply Dva; reflexivity|reflexivity].
Qed.
Lemma position_double l va pa prev dt lo hi : doubles_jl double l -> each double va -> each double pa -> each double prev -> double dt ->
  position_limits l va pa prev dt = (lo, hi) -> double lo /\ double hi.
Proof.
  intros DL Dva Dpa Dpr Dd H. unfold position_limits in H. pose proof (delta_double l va dt DL Dva Dd) as DD. destruct DL as (D1 & D2 & D3 & D4).
  apply swap_double in H; [exact H|..]; (destruct (l_hv l); [|assumption]); (destruct (pos_ref prev pa) as [r|] eqn:R; [|assumption]);
    (assert (Dr : double r) by (unfold pos_ref in R; destruct prev; [apply Dpr; congruence|apply Dpa; congruence])); cbn [fst snd];
    repeat first [apply d_max|apply d_min|apply d_sub|apply d_add|assumption].
Qed.
Lemma vel_base_double l v pa dt : doubles_jl double l -> each double pa -> double dt -> double (fst (vel_base l v pa dt)) /\ double (snd (vel_base l v pa dt)).
Proof.
  intros (D1 & D2 & D3 & D4) Dpa Dd. unfold vel_base. destruct pa as [p|]; [|cbn; auto using d_opp]. destruct (l_hp l); [|cbn; auto using d_opp].
  pose proof (Dpa p eq_refl). unfold vel_by_pos. repeat match goal with |- context [if ?x then _ else _] => destruct x end; cbn [fst snd];
    split; repeat first [reflexivity|assumption|apply d_max|apply d_min|apply d_div|apply d_sub|apply d_opp].
Qed.
Lemma velocity_double l v pa prev dt lo hi : l_hv l = true -> doubles_jl double l -> each double pa -> each double prev -> double dt ->
  velocity_limits l v pa prev dt = (lo, hi) -> double lo /\ double hi.
Proof.
  intros Hv DL Dpa Dpr Dd H. unfold velocity_limits in H. rewrite Hv in H. fold (vel_base l v pa dt) in H.
  pose proof (vel_base_double l v pa dt DL Dpa Dd) as [B1 B2]. destruct DL as (D1 & D2 & D3 & D4).
  apply swap_double in H; [exact H|..]; (destruct prev as [w|]; [|assumption]); pose proof (Dpr w eq_refl); (destruct (l_ha l); [|assumption]); cbn [fst snd];
    repeat first [assumption|apply d_max|apply d_min|apply d_sub|apply d_add|apply d_mul].
Qed.

Section History.
Variable l : jl.
Hypothesis Hv : l_hv l = true.
Hypothesis DL : doubles_jl double l.
Hypothesis OKp : pos_limits_ok l.
Hypothesis OKv : vel_limits_ok l.
Hypothesis OKa : l_ha l = true -> acc_limits_ok l.

Lemma fill_inv m c : inv l m -> sane double l c -> inv l (fill m (y_act c) (y_des c)) \/
  (l_ha l = false /\ doubles_jd double (fill m (y_act c) (y_des c)) /\ each finite (d_pos (fill m (y_act c) (y_des c)))).
Proof.
  intros ((M1 & M2) & M3 & M4) S. destruct S as [Sdt [A1 A2] [E1 E2] Sp Sv Sm Sc].
  assert (P1 : doubles_jd double (fill m (y_act c) (y_des c))).
  { unfold fill. destruct (has_data m); [split; assumption|]. split; cbn [d_pos d_vel]; apply each_fill1; auto. }
  assert (P2 : each finite (d_pos (fill m (y_act c) (y_des c)))).
  { unfold fill. destruct (has_data m); [assumption|]. cbn [d_pos]. apply each_fill1; [assumption|apply (inside_finite l); assumption|].
    intros v E1' E2' N. destruct (Sc v E1') as [F|[F|F]]; [exact F|congruence|congruence]. }
  destruct (l_ha l) eqn:Ha; [|right; auto]. left. split; [exact P1|]. split; [exact P2|].
  unfold fill. destruct (has_data m); [assumption|]. cbn [d_vel]. apply each_fill1; [assumption|assumption|].
  intros v E1' E2' N. exfalso. apply (Sm eq_refl). exact E2'.
Qed.
Lemma fill_facts m c : inv l m -> sane double l c ->
  doubles_jd double (fill m (y_act c) (y_des c)) /\ each finite (d_pos (fill m (y_act c) (y_des c))) /\
  (l_ha l = true -> each (fun w => within (fopp (l_maxv l)) w (l_maxv l)) (d_vel (fill m (y_act c) (y_des c)))).
Proof.
  intros M S. destruct (fill_inv m c M S) as [(A & B & C)|(A & B & C)]; [auto|]. split; [exact B|]. split; [exact C|]. intros X. congruence.
Qed.
(** the result of one cycle, in terms of the filled memory *)
Lemma cycle_result m c prev' cmd b : inv l m -> sane double l c ->
  enforce l m (y_act c) (y_des c) (y_dt c) = Done prev' cmd b ->
  (forall p, d_pos (y_des c) = Some p -> isnan p = false -> exists p', d_pos cmd = Some p' /\ double p' /\ within (l_minp l) p' (l_maxp l)) /\
  (forall v, d_vel (y_des c) = Some v -> isnan v = false -> exists v', d_vel cmd = Some v' /\ double v' /\ within (fopp (l_maxv l)) v' (l_maxv l)).
Proof.
  intros M S H. destruct (fill_facts m c M S) as ([F1 F2] & F3 & F4).
  destruct S as [[Sdt Dd] [A1 A2] [E1 E2] Sp Sv Sm Sc].
  apply enforce_done in H; [|apply Sdt]. destruct H as (bp & bv & be & ba & bj & HP & HV & _). split.
  - intros p D N. rewrite D in HP. apply limit1_some in HP; [|exact N]. destruct HP as (lo & hi & p' & B & C & -> & _).
    exists p'. split; [reflexivity|]. pose proof (position_double _ _ _ _ _ _ _ DL A2 A1 F1 Dd B) as [Dlo Dhi].
    split; [eapply fclamp_double; [exact (E1 p D)|exact Dlo|exact Dhi|exact C]|].
    apply position_bounds in B; auto; [|intros _; apply OKv|apply Sdt|apply Sdt|].
    + destruct B as (X1 & X2 & X3). eapply within_clamp; eassumption.
    + intros r R. unfold pos_ref in R. destruct (d_pos (fill m (y_act c) (y_des c))) eqn:Q; [apply F3; exact R|apply (inside_finite l (d_pos (y_act c)) OKp Sp); exact R].
  - intros v D N. rewrite D in HV. apply limit1_some in HV; [|exact N]. destruct HV as (lo & hi & v' & B & C & -> & _).
    exists v'. split; [reflexivity|]. pose proof (velocity_double _ _ _ _ _ _ _ Hv DL A1 F2 Dd B) as [Dlo Dhi].
    split; [eapply fclamp_double; [exact (E2 v D)|exact Dlo|exact Dhi|exact C]|].
    apply velocity_bounds in B; auto.
    destruct B as (X1 & X2 & X3). eapply within_clamp; eassumption.
Qed.
Lemma remember_inv m c cmd : inv l m -> sane double l c ->
  (forall p, d_pos (y_des c) = Some p -> isnan p = false -> exists p', d_pos cmd = Some p' /\ double p' /\ within (l_minp l) p' (l_maxp l)) ->
  (forall v, d_vel (y_des c) = Some v -> isnan v = false -> exists v', d_vel cmd = Some v' /\ double v' /\ within (fopp (l_maxv l)) v' (l_maxv l)) ->
  (quiet (d_pos (y_des c)) -> d_pos cmd = d_pos (y_des c)) -> (quiet (d_vel (y_des c)) -> d_vel cmd = d_vel (y_des c)) ->
  inv l (remember cmd (fill m (y_act c) (y_des c))).
Proof.
  intros M S HP HV QP QV. destruct (fill_facts m c M S) as ([F1 F2] & F3 & F4).
  assert (NP : forall p', d_pos cmd = Some p' -> isnan p' = false -> double p' /\ finite p').
  { intros p' E N. destruct (d_pos (y_des c)) as [p|] eqn:D.
    - destruct (isnan p) eqn:Np.
      + rewrite QP in E; [|intros v [= <-]; exact Np]. congruence.
      + destruct (HP p eq_refl Np) as (p'' & E' & Dp & W). assert (p'' = p') by congruence. subst. split; [exact Dp|].
        destruct OKp as (A & B & _). exact (within_finite _ _ _ A B W).
    - rewrite QP in E; [discriminate|intros v X; discriminate]. }
  assert (NV : forall p', d_vel cmd = Some p' -> isnan p' = false -> double p' /\ within (fopp (l_maxv l)) p' (l_maxv l)).
  { intros p' E N. destruct (d_vel (y_des c)) as [p|] eqn:D.
    - destruct (isnan p) eqn:Np.
      + rewrite QV in E; [|intros v [= <-]; exact Np]. congruence.
      + destruct (HV p eq_refl Np) as (p'' & E' & Dp & W). assert (p'' = p') by congruence. subst. split; [exact Dp|exact W].
    - rewrite QV in E; [discriminate|intros v X; discriminate]. }
  split; [split; cbn [remember d_pos d_vel]; apply each_remember; auto; intros v E N; [apply NP|apply NV]; assumption|].
  split; cbn [remember d_pos d_vel].
  - apply each_remember; [exact F3|]. intros v E N. apply NP; assumption.
  - destruct S as [_ _ _ _ Sv Sm _].
    unfold remember1. destruct (d_vel cmd) as [v'|] eqn:EC.
    + destruct (isnan v') eqn:N'.
      * (* a NaN command: nothing was filled from the command *)
        destruct (d_vel (y_des c)) as [v|] eqn:D.
        -- assert (Nv : isnan v = true).
           { destruct (isnan v) eqn:Nv; [reflexivity|]. destruct (HV v eq_refl Nv) as (v'' & E' & _ & W). assert (v'' = v') by congruence. subst. destruct W as [W _]. apply fle_nn in W. destruct W. congruence. }
           unfold fill. destruct (has_data m); [apply M|]. cbn [d_vel]. unfold fill1. rewrite D. destruct (d_vel (y_act c)) eqn:QA; [exact Sv|]. rewrite Nv. apply M.
        -- unfold fill. destruct (has_data m); [apply M|]. cbn [d_vel]. unfold fill1. rewrite D. apply M.
      * intros x [= <-]. apply (NV v' eq_refl N').
    + destruct (d_vel (y_des c)) as [v|] eqn:D.
      * destruct (isnan v) eqn:Nv; [assert (X : None = Some v) by (apply QV; intros x [= <-]; exact Nv); discriminate X|].
        destruct (HV v eq_refl Nv) as (v'' & E' & _). discriminate.
      * unfold fill. destruct (has_data m); [apply M|]. cbn [d_vel]. unfold fill1. rewrite D. apply M.
Qed.
(** no throw in normal operation *)
Lemma no_throw m c p : sane double l c -> enforce l m (y_act c) (y_des c) (y_dt c) <> Threw p.
Proof.
  intros S H. destruct S as [[Sdt Dd] [A1 A2] [E1 E2] Sp Sv Sm Sc].
  assert (X : exists p, enforce l m (y_act c) (y_des c) (y_dt c) = Threw p) by eauto.
  apply main_throws in X; [|apply Sdt]. destruct X as (p0 & q & _ & _ & Q & _ & O). destruct (Sp q Q) as [W1 W2].
  destruct OKp as (Fm & FM & L). destruct DL as (D1 & D2 & D3 & D4).
  assert (T0 : double throw_tol) by (vm_compute; reflexivity). assert (T1 : fle fzero throw_tol = true) by (vm_compute; reflexivity).
  destruct O as [O|O].
  - pose proof (self_le_add (l_maxp l) throw_tol D2 T0 FM T1) as K. pose proof (fle_lt_trans _ _ _ K O) as K2. apply fle_not_lt in W2. congruence.
  - pose proof (sub_le_self (l_minp l) throw_tol D1 T0 Fm T1) as K. pose proof (flt_le_trans _ _ _ O K) as K2. apply fle_not_lt in W1. congruence.
Qed.
Lemma step_inv m c : inv l m -> sane double l c -> inv l (memory m (enforce l m (y_act c) (y_des c) (y_dt c))).
Proof.
  intros M S. destruct (enforce l m (y_act c) (y_des c) (y_dt c)) as [prev' cmd b|p|] eqn:E; cbn [memory].
  - destruct (cycle_result _ _ _ _ _ M S E) as [HP HV].
    pose proof E as E0. apply enforce_done in E; [|apply S]. destruct E as (bp & bv & be & ba & bj & K1 & K2 & _ & _ & _ & -> & _).
    apply remember_inv; auto; intros Q; eapply nan_limit1; eassumption.
  - exfalso. eapply no_throw; eassumption.
  - exact M.
Qed.
Lemma run_inv cs : forall m, inv l m -> Forall (sane double l) cs -> inv l (run l m cs).
Proof.
  induction cs as [|c cs IH]; intros m M H; [exact M|]. cbn [run]. inversion H; subst. apply IH; [apply step_inv; assumption|assumption].
Qed.
Lemma main_history cs c prev' cmd b : Forall (sane double l) cs -> sane double l c ->
  enforce l (run l no_data cs) (y_act c) (y_des c) (y_dt c) = Done prev' cmd b ->
  (forall p, d_pos (y_des c) = Some p -> isnan p = false -> exists p', d_pos cmd = Some p' /\ within (l_minp l) p' (l_maxp l)) /\
  (forall v, d_vel (y_des c) = Some v -> isnan v = false -> exists v', d_vel cmd = Some v' /\ within (fopp (l_maxv l)) v' (l_maxv l)).
Proof.
  intros HS S H. assert (M0 : inv l no_data) by (split; [split; apply each_none|]; split; apply each_none).
  destruct (cycle_result _ _ _ _ _ (run_inv cs no_data M0 HS) S H) as [HP HV]. split.
  - intros p D N. destruct (HP p D N) as (p' & A & _ & B). eauto.
  - intros p D N. destruct (HV p D N) as (p' & A & _ & B). eauto.
Qed.
End History.

(** ------------------------------------------------------------ the soft limiter *)
Lemma soft_done l s prev act des dt prev' cmd b : enforce_soft l s prev act des dt = Done prev' cmd b -> flt fzero dt = true ->
  exists sv bp bv be ba bj, soft_vel l s (fill prev act des) act = Some sv /\
    limit1o (d_pos des) (fun _ => soft_pos_bounds l s (fill prev act des) act sv dt) = Some (d_pos cmd, bp) /\
    limit1 (d_vel des) (fun v => soft_vel_bounds l v (fill prev act des) act sv dt) = Some (d_vel cmd, bv) /\
    limit1o (d_eff des) (fun _ => soft_eff_bounds l s act (sv_after l des (fill prev act des) act sv dt)) = Some (d_eff cmd, be) /\
    limit1 (d_acc des) (fun a => acceleration_limits l a (d_vel act)) = Some (d_acc cmd, ba) /\
    limit1 (d_jerk des) (fun _ => (fopp (l_maxj l), l_maxj l)) = Some (d_jerk cmd, bj).
Proof.
  intros H P. unfold enforce_soft in H. destruct (fle dt fzero) eqn:D; [apply fle_not_lt in D; congruence|].
  destruct (soft_vel l s (fill prev act des) act) as [sv|]; [|discriminate].
  destruct (commands_position des && out_of_bounds l (d_pos act)); [discriminate|]. apply finish_done in H.
  destruct H as (bp & bv & be & ba & bj & H1 & H2 & H3 & H4 & H5 & _). exists sv, bp, bv, be, ba, bj. auto 10.
Qed.
Lemma fin_opp x : isfinite x = true -> isfinite (fopp x) = true.
Proof. destruct x; auto. Qed.
Lemma reach_finite : isfinite reach_vel = true. Proof. vm_compute. reflexivity. Qed.
Lemma copysign_finite a b : isfinite a = true -> isfinite (fcopysign a b) = true.
Proof. unfold fcopysign. destruct (sign_of b); destruct a; auto. Qed.
Lemma soft_vel_finite l s prev act sv : finite (l_maxv l) -> fle fzero (l_maxv l) = true -> l_hv l = true ->
  soft_vel l s prev act = Some sv -> isfinite (fst sv) = true /\ isfinite (snd sv) = true.
Proof.
  intros Fv Pv Hv. unfold soft_vel. rewrite Hv.
  set (pp := finite_or (d_pos prev) (some_or (d_pos act) inf)).
  destruct (l_hp l && has_soft s && isfinite pp) eqn:C.
  - apply andb_prop in C. destruct C as [C Fpp]. apply andb_prop in C. destruct C as [_ C].
    unfold has_soft, has_soft_pos in C. apply andb_prop in C. destruct C as [C K2]. apply andb_prop in C. destruct C as [C K1].
    apply andb_prop in C. destruct C as [C _]. apply andb_prop in C. destruct C as [Fm FM].
    assert (KN : isnan (fopp (s_kp s)) = false /\ isfinite (fopp (s_kp s)) = true /\ nonzero (fopp (s_kp s)) = true).
    { split; [apply fin_nn; apply fin_opp; exact K1|]. split; [apply fin_opp; exact K1|]. destruct (s_kp s) as [[]|[]| |[] m e]; try reflexivity; vm_compute in K2; discriminate. }
    destruct KN as (KN1 & KN2 & KN3).
    assert (N1 : isnan (fmul (fopp (s_kp s)) (fsub pp (s_minp s))) = false).
    { assert (X : isnan (fsub pp (s_minp s)) = false) by (apply fsub_nn; [exact Fpp|apply fin_nn; exact Fm]).
      destruct (isfinite (fsub pp (s_minp s))) eqn:FX; [apply fmul_nn; assumption|].
      destruct (fsub pp (s_minp s)) as [[]|[]| |[] m e]; try discriminate; destruct (fopp (s_kp s)) as [[]|[]| |[] m e]; try discriminate; reflexivity. }
    assert (N2 : isnan (fmul (fopp (s_kp s)) (fsub pp (s_maxp s))) = false).
    { assert (X : isnan (fsub pp (s_maxp s)) = false) by (apply fsub_nn; [exact Fpp|apply fin_nn; exact FM]).
      destruct (isfinite (fsub pp (s_maxp s))) eqn:FX; [apply fmul_nn; assumption|].
      destruct (fsub pp (s_maxp s)) as [[]|[]| |[] m e]; try discriminate; destruct (fopp (s_kp s)) as [[]|[]| |[] m e]; try discriminate; reflexivity. }
    destruct (fle_opp0 _ Pv) as [Q1 Q2]. destruct (fle_nn _ _ Q2) as [Q3 Q4].
    destruct (fclamp (fmul (fopp (s_kp s)) (fsub pp (s_minp s))) (fopp (l_maxv l)) (l_maxv l)) as [mn|] eqn:E1; [|discriminate].
    destruct (fclamp (fmul (fopp (s_kp s)) (fsub pp (s_maxp s))) (fopp (l_maxv l)) (l_maxv l)) as [mx|] eqn:E2; [|discriminate].
    pose proof (fclamp_within _ _ _ _ N1 Q3 Q4 E1) as W1. pose proof (fclamp_within _ _ _ _ N2 Q3 Q4 E2) as W2.
    assert (Fmn : finite mn) by exact (within_finite _ _ _ (fin_opp _ Fv) Fv W1). assert (Fmx : finite mx) by exact (within_finite _ _ _ (fin_opp _ Fv) Fv W2).
    intros E. injection E as <-. match goal with |- context [if ?x then _ else _] => destruct x end; [auto|].
    match goal with |- context [if ?x then _ else _] => destruct x end; cbn [fst snd]; split; auto using copysign_finite, reach_finite.
  - intros [= <-]. cbn. split; [apply fin_opp|]; exact Fv.
Qed.
Lemma soft_pos_order s : double (s_minp s) -> double (s_maxp s) -> has_soft_pos s = true -> fle (s_minp s) (s_maxp s) = true.
Proof.
  intros D1 D2 H. unfold has_soft_pos in H. apply andb_prop in H. destruct H as [H L]. apply andb_prop in H. destruct H as [F1 F2].
  destruct (fle (s_minp s) (s_maxp s)) eqn:E; [reflexivity|].
  assert (X : fle (s_maxp s) (s_minp s) = true).
  { apply flt_not_le; [apply fin_nn; exact F1|apply fin_nn; exact F2|]. destruct (flt (s_minp s) (s_maxp s)) eqn:Q; [|reflexivity]. apply flt_le in Q. congruence. }
  pose proof (sub_nonpos _ _ D2 D1 F2 F1 X) as K. pose proof (flt_le_trans _ _ _ L K) as K2.
  assert (Z : flt almost_zero fzero = false) by (vm_compute; reflexivity). congruence.
Qed.
(** position: within the hard limits when soft position limits are configured inside them *)
Lemma main_soft_position l s prev act des dt prev' cmd b p :
  l_hp l = true -> pos_limits_ok l -> (l_hv l = true -> vel_limits_ok l) -> dt_ok dt ->
  double (s_minp s) -> double (s_maxp s) -> has_soft_pos s = true ->
  each finite (d_pos prev) -> each finite (d_pos act) -> (finite p \/ d_pos act <> None \/ has_data prev = true) ->
  enforce_soft l s prev act des dt = Done prev' cmd b -> d_pos des = Some p -> isnan p = false ->
  exists p', d_pos cmd = Some p' /\ within (s_minp s) p' (s_maxp s) /\
    (fle (l_minp l) (s_minp s) = true -> fle (s_maxp s) (l_maxp l) = true -> within (l_minp l) p' (l_maxp l)).
Proof.
  intros Hp OKp OKv [Fd P] D1 D2 HS F1 F2 F3 H D N. apply soft_done in H; [|exact P].
  destruct H as (sv & bp & bv & be & ba & bj & SV & H & _). rewrite D in H.
  apply limit1o_some in H; [|exact N]. destruct H as (lo & hi & p' & B & C & -> & _). exists p'. split; [reflexivity|].
  cut (within (s_minp s) p' (s_maxp s)); [intros [W1 W2]; split; [split; assumption|intros L1 L2; split; [exact (fle_trans _ _ _ L1 W1)|exact (fle_trans _ _ _ W2 L2)]]|].
  pose proof (soft_pos_order s D1 D2 HS) as SO.
  unfold soft_pos_bounds in B. rewrite HS in B. cbn [fst snd] in B.
  set (pp := finite_or (d_pos (fill prev act des)) (some_or (d_pos act) inf)) in B.
  destruct (position_limits l (d_vel act) (d_pos act) (d_pos (fill prev act des)) dt) as [hlo hhi] eqn:HB.
  apply position_bounds in HB; auto; [|intros X; apply OKv; exact X|apply (fill_pos _ _ _ p); assumption].
  destruct HB as (H1 & H2 & H3). cbn [fst snd] in B.
  match type of B with match ?b1 with _ => _ end = _ => destruct b1 as [[lo1 hi1]|] eqn:B1; [|discriminate] end.
  assert (K : fle (s_minp s) lo1 = true /\ fle lo1 hi1 = true /\ fle hi1 (s_maxp s) = true).
  { destruct (l_hv l && isfinite pp) eqn:CC.
    - apply andb_prop in CC. destruct CC as [Hv Fpp]. destruct (OKv Hv) as [Fv Pv].
      pose proof (soft_vel_finite _ _ _ _ _ Fv Pv Hv SV) as [S1 S2].
      pose proof (fmul_nn _ _ S1 Fd) as M1. pose proof (fmul_nn _ _ S2 Fd) as M2.
      pose proof (fadd_nn _ _ Fpp M1) as A1. pose proof (fadd_nn _ _ Fpp M2) as A2.
      destruct (fclamp (fadd pp (fmul (fst sv) dt)) (s_minp s) (s_maxp s)) as [x|] eqn:E1; [|discriminate].
      destruct (fclamp (fadd pp (fmul (snd sv) dt)) x (s_maxp s)) as [y|] eqn:E2; [|discriminate]. injection B1 as <- <-.
      destruct (fle_nn _ _ SO) as [Q1 Q2]. destruct (fclamp_within _ _ _ _ A1 Q1 Q2 E1) as [W1 W2].
      destruct (fclamp_within _ _ _ _ A2 (proj2 (fle_nn _ _ W1)) Q2 E2) as [W3 W4]. auto.
    - injection B1 as <- <-. destruct (fle_nn _ _ SO). auto using fle_refl. }
  destruct K as (K1 & K2 & K3). injection B as B.
  destruct (flt (fmin hi1 hhi) (fmax lo1 hlo)) eqn:CC; injection B as <- <-.
  - eapply within_clamp; [exact N|exact K1|exact K3|exact C].
  - destruct (fle_nn _ _ K2), (fle_nn _ _ H2).
    eapply within_clamp; [exact N| | |exact C].
    + eapply fle_trans; [exact K1|]. apply fmax_l; assumption.
    + eapply fle_trans; [apply fmin_l; assumption|]. exact K3.
Qed.
(** velocity: within the hard limits whenever the limiter's bounds are in order (otherwise the C++ is undefined) *)
Lemma main_soft_velocity l s prev act des dt prev' cmd b v :
  doubles_jl double l -> doubles_jd double prev -> doubles_jd double act -> double v -> double dt ->
  l_hv l = true -> vel_limits_ok l -> dt_ok dt ->
  (l_hp l = true -> pos_limits_ok l /\ inside l (d_pos act)) ->
  (l_ha l = true -> acc_limits_ok l /\ vel_start_ok l prev act v /\ each finite (d_vel act)) ->
  enforce_soft l s prev act des dt = Done prev' cmd b -> d_vel des = Some v -> isnan v = false ->
  exists v', d_vel cmd = Some v' /\ within (fopp (l_maxv l)) v' (l_maxv l).
Proof.
  intros DL [DPp DPv] [DAp DAv] Dv Dd Hv OKv OKd HP HA H D N. apply soft_done in H; [|apply OKd].
  destruct H as (sv & bp & bv & be & ba & bj & SV & _ & H & _). rewrite D in H.
  apply limit1_some in H; [|exact N]. destruct H as (lo & hi & v' & B & C & -> & _). exists v'. split; [reflexivity|].
  unfold soft_vel_bounds in B.
  destruct (velocity_limits l v (d_pos act) (d_vel (fill prev act des)) dt) as [hlo hhi] eqn:HB.
  apply velocity_bounds in HB; auto.
  2:{ apply (fill_vel _ _ _ v); auto. }
  2:{ intros Ha. destruct (HA Ha) as (OKa & (S1 & S2 & S3) & _). split; [exact OKa|]. apply (fill_vel _ _ _ v); auto. }
  destruct HB as (H1 & H2 & H3). cbn [fst snd] in B.
  pose proof (soft_vel_finite _ _ _ _ _ (proj1 OKv) (proj2 OKv) Hv SV) as [S1 S2].
  match type of B with (fmax (fst ?b) _, _) = _ => set (sv1 := b) in B; assert (K : isnan (fst sv1) = false /\ isnan (snd sv1) = false) end.
  { subst sv1. destruct (d_vel act) as [w|] eqn:W; [|split; apply fin_nn; assumption]. rewrite Hv. destruct (l_ha l); cbn [andb]; [|split; apply fin_nn; assumption].
    destruct (HA eq_refl) as ([Fa Pa] & _ & FW). cbn [fst snd]. pose proof (fmul_nn _ _ Fa (proj1 OKd)) as M.
    pose proof (FW w eq_refl) as Fw. split; [apply fmax_nn; [apply fsub_nn; assumption|apply fin_nn; exact S1]|apply fmin_nn; [apply fadd_nn; assumption|apply fin_nn; exact S2]]. }
  destruct K as [K1 K2]. destruct (fle_nn _ _ H2). injection B as <- <-.
  eapply within_clamp; [exact N| | |exact C].
  - eapply fle_trans; [exact H1|]. apply fmax_r; assumption.
  - eapply fle_trans; [|exact H3]. apply fmin_r; assumption.
Qed.
Lemma fmul_nn_l a b : isfinite a = true -> nonzero a = true -> isnan b = false -> isnan (fmul a b) = false.
Proof.
  intros Fa Na Nb. destruct (isfinite b) eqn:Fb; [apply fmul_nn; assumption|].
  destruct b as [[]|[]| |[] m e]; try discriminate; destruct a as [[]|[]| |[] m' e']; try discriminate; reflexivity.
Qed.
(** effort: within the hard limits when no velocity is commanded at the same time and, if the soft
    velocity gain is used, it is not zero and the measured velocity is finite *)
Lemma main_soft_effort l s prev act des dt prev' cmd b e :
  l_he l = true -> fle fzero (l_maxe l) = true -> flt fzero dt = true -> (l_hv l = true -> vel_limits_ok l) ->
  quiet (d_vel des) ->
  (forall v, d_vel act = Some v -> isfinite (s_kv s) = true -> finite v /\ nonzero (s_kv s) = true) ->
  enforce_soft l s prev act des dt = Done prev' cmd b -> d_eff des = Some e -> isnan e = false ->
  exists e', d_eff cmd = Some e' /\ within (fopp (l_maxe l)) e' (l_maxe l).
Proof.
  intros He Pe P OKv QV HK H D N. apply soft_done in H; [|exact P].
  destruct H as (sv & bp & bv & be & ba & bj & SV & _ & _ & H & _). rewrite D in H.
  apply limit1o_some in H; [|exact N]. destruct H as (lo & hi & e' & B & C & -> & _). exists e'. split; [reflexivity|].
  assert (SA : sv_after l des (fill prev act des) act sv dt = sv).
  { unfold sv_after. destruct (d_vel des) as [v|]; [|reflexivity]. rewrite (QV v eq_refl). reflexivity. }
  rewrite SA in B.
  assert (NS : isnan (fst sv) = false /\ isnan (snd sv) = false).
  { destruct (l_hv l) eqn:Hv.
    - destruct (OKv eq_refl) as [Fv Pv]. destruct (soft_vel_finite _ _ _ _ _ Fv Pv Hv SV). split; apply fin_nn; assumption.
    - unfold soft_vel in SV. rewrite Hv in SV. injection SV as <-. split; reflexivity. }
  destruct NS as [NS1 NS2].
  unfold soft_eff_bounds in B. destruct (effort_limits l (d_pos act) (d_vel act)) as [hlo hhi] eqn:HB.
  pose proof (effort_bounds _ _ _ _ _ He Pe HB) as (A1 & A2 & A3 & A4). cbn [fst snd] in B.
  destruct (d_vel act) as [w|] eqn:W.
  2:{ injection B as <- <-. exact (within_clamp _ _ _ _ _ _ N A1 A4 C). }
  rewrite He in B. destruct (isfinite (s_kv s)) eqn:Fk; cbn [andb] in B.
  2:{ injection B as <- <-. exact (within_clamp _ _ _ _ _ _ N A1 A4 C). }
  destruct (HK w eq_refl eq_refl) as [Fw Nk].
  destruct (fle_opp0 _ Pe) as [Q1 Q2]. destruct (fle_nn _ _ Q2) as [Q3 Q4].
  assert (Nk' : nonzero (fopp (s_kv s)) = true) by (destruct (s_kv s); auto).
  destruct (fclamp (fmul (fopp (s_kv s)) (fsub w (fst sv))) (fopp (l_maxe l)) (l_maxe l)) as [mn|] eqn:E1; [|discriminate].
  destruct (fclamp (fmul (fopp (s_kv s)) (fsub w (snd sv))) (fopp (l_maxe l)) (l_maxe l)) as [mx|] eqn:E2; [|discriminate].
  pose proof (fclamp_within _ _ _ _ (fmul_nn_l _ _ (fin_opp _ Fk) Nk' (fsub_nn _ _ Fw NS1)) Q3 Q4 E1) as [W1 W2].
  pose proof (fclamp_within _ _ _ _ (fmul_nn_l _ _ (fin_opp _ Fk) Nk' (fsub_nn _ _ Fw NS2)) Q3 Q4 E2) as [W3 W4].
  injection B as <- <-. destruct (fle_nn _ _ A2), (fle_nn _ _ A3), (fle_nn _ _ W1), (fle_nn _ _ W3).
  eapply within_clamp; [exact N| | |exact C].
  - eapply fle_trans; [exact A1|]. apply fmax_r; assumption.
  - eapply fle_trans; [|exact A4]. apply fmin_r; assumption.
Qed.
