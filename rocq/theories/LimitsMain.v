(** LimitsMain.v -- facts about the limiters that need sign and monotonicity of double arithmetic. *)
From Coq Require Import ZArith Bool List SpecFloat Reals Lra.
From Verif Require Import LimitsModel FloatOrder FloatReal LimitsSpec LimitsProofs.
Import ListNotations.

Lemma dbl_opp_le a b : fle a b = true -> fle (fopp b) (fopp a) = true.
Proof. apply fle_opp. Qed.

(** velocity bounds given by the position limits, when the measured position is inside *)
Lemma vel_by_pos_inside l des q dt : double (l_minp l) -> double (l_maxp l) -> double q -> double dt -> pos_limits_ok l -> dt_ok dt ->
  within (l_minp l) q (l_maxp l) -> finite q ->
  vel_by_pos l des q dt = (fmax (fdiv (fsub (l_minp l) q) dt) (fopp (l_maxv l)), fmin (fdiv (fsub (l_maxp l) q) dt) (l_maxv l)).
Proof.
  intros _ _ _ _ _ _ [A B] _. unfold vel_by_pos. rewrite (fle_not_lt _ _ A), (fle_not_lt _ _ B). reflexivity.
Qed.
Lemma div_sign_lo x y dt : double x -> double y -> double dt -> isfinite x = true -> isfinite y = true -> dt_ok dt ->
  fle x y = true -> fle (fdiv (fsub x y) dt) fzero = true.
Proof.
  intros Dx Dy Dd Fx Fy [Fd P] L. pose proof (sub_nonpos x y Dx Dy Fx Fy L) as S.
  destruct (isfinite (fsub x y)) eqn:E; [apply div_nonpos; auto using d_sub|].
  assert (N : isnan (fsub x y) = false) by (apply fsub_nn; [exact Fx|apply fin_nn; exact Fy]).
  destruct (fsub x y) as [[]|[]| |[] m e]; try discriminate.
  destruct dt as [[]|[]| |[] m e]; try discriminate; reflexivity.
Qed.
Lemma div_sign_hi x y dt : double x -> double y -> double dt -> isfinite x = true -> isfinite y = true -> dt_ok dt ->
  fle y x = true -> fle fzero (fdiv (fsub x y) dt) = true.
Proof.
  intros Dx Dy Dd Fx Fy [Fd P] L. pose proof (sub_nonneg x y Dx Dy Fx Fy L) as S.
  destruct (isfinite (fsub x y)) eqn:E; [apply div_nonneg; auto using d_sub|].
  assert (N : isnan (fsub x y) = false) by (apply fsub_nn; [exact Fx|apply fin_nn; exact Fy]).
  destruct (fsub x y) as [[]|[]| |[] m e]; try discriminate.
  destruct dt as [[]|[]| |[] m e]; try discriminate; reflexivity.
Qed.
Lemma within_finite a x b : finite a -> finite b -> within a x b -> finite x.
Proof.
  unfold finite, within. intros Fa Fb [A B]. destruct x as [[]|[]| |[] m e]; try reflexivity.
  - destruct a as [[]|[]| |[] ma ea]; discriminate.
  - destruct b as [[]|[]| |[] ma ea]; discriminate.
  - apply fle_nn in A. destruct A. discriminate.
Qed.

(** the velocity bounds before the acceleration limit: -max <= lo <= 0 <= hi <= max *)
Definition vel_base (l : jl) (des : F) (pa : option F) (dt : F) : F * F :=
  match pa with
  | Some p => if l_hp l then vel_by_pos l des p dt else (fopp (l_maxv l), l_maxv l)
  | None => (fopp (l_maxv l), l_maxv l) end.
Lemma vel_base_bounds l des pa dt : doubles_jl double l -> each double pa -> double dt -> dt_ok dt -> vel_limits_ok l ->
  (l_hp l = true -> pos_limits_ok l /\ inside l pa) ->
  let b := vel_base l des pa dt in
  fle (fopp (l_maxv l)) (fst b) = true /\ fle (fst b) fzero = true /\ fle fzero (snd b) = true /\ fle (snd b) (l_maxv l) = true.
Proof.
  intros (D1 & D2 & D3 & D4) Dp Dd OKd [Fv Pv] HP. destruct (fle_opp0 _ Pv) as [N1 N2].
  assert (R1 : fle (fopp (l_maxv l)) (fopp (l_maxv l)) = true) by (apply fle_refl; apply (fle_nn _ _ N1)).
  assert (R2 : fle (l_maxv l) (l_maxv l) = true) by (apply fle_refl; apply (fle_nn _ _ Pv)).
  unfold vel_base. destruct pa as [q|]; [|cbn; auto]. destruct (l_hp l); [|cbn; auto].
  destruct (HP eq_refl) as ((Fm & FM & L) & IN). pose proof (IN q eq_refl) as W. pose proof (within_finite _ _ _ Fm FM W) as Fq.
  rewrite vel_by_pos_inside; auto; [|split; auto]. cbn [fst snd]. destruct W as [W1 W2]. destruct OKd as [Fd P].
  pose proof (div_sign_lo _ _ dt D1 (Dp q eq_refl) Dd Fm Fq (conj Fd P) W1) as S1.
  pose proof (div_sign_hi _ _ dt D2 (Dp q eq_refl) Dd FM Fq (conj Fd P) W2) as S2.
  destruct (fle_nn _ _ S1), (fle_nn _ _ S2), (fle_nn _ _ N2), (fle_nn _ _ Pv).
  repeat split.
  - apply fmax_r; assumption.
  - apply fmax_lub; assumption.
  - apply fmin_glb; assumption.
  - apply fmin_r; assumption.
Qed.
Lemma velocity_bounds l des pa prev dt lo hi : doubles_jl double l -> each double pa -> each double prev -> double dt -> dt_ok dt ->
  l_hv l = true -> vel_limits_ok l -> (l_hp l = true -> pos_limits_ok l /\ inside l pa) ->
  (l_ha l = true -> acc_limits_ok l /\ each (fun w => within (fopp (l_maxv l)) w (l_maxv l)) prev) ->
  velocity_limits l des pa prev dt = (lo, hi) ->
  fle (fopp (l_maxv l)) lo = true /\ fle lo hi = true /\ fle hi (l_maxv l) = true.
Proof.
  intros DL Dp Dv Dd OKd Hv OKv HP HA. pose proof (vel_base_bounds l des pa dt DL Dp Dd OKd OKv HP) as K. cbv zeta in K.
  unfold velocity_limits. rewrite Hv. fold (vel_base l des pa dt). set (b := vel_base l des pa dt) in *. destruct K as (A1 & A2 & A3 & A4).
  assert (NB : forall b', fle (fopp (l_maxv l)) (fst b') = true -> fle (fst b') (l_maxv l) = true -> fle (fopp (l_maxv l)) (snd b') = true ->
    fle (snd b') (l_maxv l) = true -> swap b' = (lo, hi) -> fle (fopp (l_maxv l)) lo = true /\ fle lo hi = true /\ fle hi (l_maxv l) = true).
  { intros b' B1 B2 B3 B4 E. destruct (swap_bounds _ _ _ _ _ B1 B2 B3 B4 E) as (C1 & C2 & C3 & C4). split; [exact C1|]. split; [|exact C4].
    apply flt_not_le; [apply (fle_nn _ _ C4)|apply (fle_nn _ _ C2)|eapply swap_not; exact E]. }
  assert (T1 : fle (fst b) (l_maxv l) = true) by (eapply fle_trans; [exact A2|apply OKv]).
  assert (T2 : fle (fopp (l_maxv l)) (snd b) = true) by exact (fle_trans _ _ _ A1 (fle_trans _ _ _ A2 A3)).
  destruct prev as [w|]; [|apply NB; assumption]. destruct (l_ha l); [|apply NB; assumption].
  destruct (HA eq_refl) as ([Fa Pa] & HW). specialize (HW w eq_refl). destruct HW as [W1 W2].
  destruct DL as (D1 & D2 & D3 & D4). destruct OKd as [Fd P].
  assert (Fw : isfinite w = true).
  { eapply within_finite; [| |split; [exact W1|exact W2]]; [|apply OKv]. destruct OKv as [Fv _]. unfold finite in *. destruct (l_maxv l); cbn in *; auto; discriminate. }
  pose proof (mul_nonneg _ _ D4 Dd Fa Fd Pa (flt_le _ _ P)) as MD. set (dv := fmul (l_maxa l) dt) in *.
  assert (Ddv : double dv) by (apply d_mul; assumption).
  pose proof (sub_le_self w dv (Dv w eq_refl) Ddv Fw MD) as S1. pose proof (self_le_add w dv (Dv w eq_refl) Ddv Fw MD) as S2.
  destruct (fle_nn _ _ S1) as [X1 X2]. destruct (fle_nn _ _ S2) as [X3 X4].
  apply NB; cbn [fst snd].
  - eapply fle_trans; [exact A1|]. apply fmax_r; [exact X1|apply (fle_nn _ _ A2)].
  - apply fmax_lub; [eapply fle_trans; eassumption|exact T1].
  - apply fmin_glb; [eapply fle_trans; eassumption|exact T2].
  - eapply fle_trans; [apply fmin_r; [exact X4|apply (fle_nn _ _ A4)]|exact A4].
Qed.
Lemma fill_vel prev act des v P : d_vel des = Some v -> isnan v = false ->
  each P (d_vel prev) -> (has_data prev = false -> each P (d_vel act)) -> (has_data prev = false -> d_vel act = None -> P v) ->
  each P (d_vel (fill prev act des)).
Proof.
  intros D N H1 H2 H3. unfold fill. destruct (has_data prev) eqn:HD; [exact H1|]. cbn [d_vel]. unfold fill1. rewrite D.
  destruct (d_vel act) as [q|] eqn:Q; [apply H2; reflexivity|]. rewrite N. intros r [= <-]. apply H3; auto.
Qed.
Lemma main_velocity l prev act des dt prev' cmd b v :
  doubles_jl double l -> doubles_jd double prev -> doubles_jd double act -> double v -> double dt ->
  l_hv l = true -> vel_limits_ok l -> dt_ok dt ->
  (l_hp l = true -> pos_limits_ok l /\ inside l (d_pos act)) ->
  (l_ha l = true -> acc_limits_ok l /\ vel_start_ok l prev act v) ->
  enforce l prev act des dt = Done prev' cmd b -> d_vel des = Some v -> isnan v = false ->
  exists v', d_vel cmd = Some v' /\ within (fopp (l_maxv l)) v' (l_maxv l).
Proof.
  intros DL [_ DPv] [DAp DAv] Dv Dd Hv OKv OKd HP HA H D N. apply enforce_done in H; [|apply OKd].
  destruct H as (bp & bv & be & ba & bj & _ & H & _). rewrite D in H.
  apply limit1_some in H; [|exact N]. destruct H as (lo & hi & v' & B & C & -> & _). exists v'. split; [reflexivity|].
  apply velocity_bounds in B; auto.
  - destruct B as (A1 & A2 & A3). eapply within_clamp; eassumption.
  - apply (fill_vel _ _ _ v); auto.
  - intros Ha. destruct (HA Ha) as (OKa & S1 & S2 & S3). split; [exact OKa|]. apply (fill_vel _ _ _ v); auto.
Qed.

(** ------------------------------------------------------------ motion limits *)
Lemma mul_mono a b c : double a -> double b -> double c -> isfinite a = true -> isfinite b = true -> isfinite c = true ->
  fle a b = true -> fle fzero c = true -> fle (fmul a c) (fmul b c) = true.
Proof.
  intros Da Db Dc Fa Fb Fc L P. apply (approx_le _ _ _ _ (mul_approx a c Da Dc Fa Fc) (mul_approx b c Db Dc Fb Fc)).
  apply fle_val in L; auto. apply fle_val in P; auto; [|reflexivity]. cbn in P. nra.
Qed.
Lemma add_mono a b c : double a -> double b -> double c -> isfinite a = true -> isfinite b = true -> isfinite c = true ->
  fle b c = true -> fle (fadd a b) (fadd a c) = true.
Proof.
  intros Da Db Dc Fa Fb Fc L. apply (approx_le _ _ _ _ (add_approx a b Da Db Fa Fb) (add_approx a c Da Dc Fa Fc)).
  apply fle_val in L; auto. lra.
Qed.
Lemma sub_anti a b c : double a -> double b -> double c -> isfinite a = true -> isfinite b = true -> isfinite c = true ->
  fle b c = true -> fle (fsub a c) (fsub a b) = true.
Proof.
  intros Da Db Dc Fa Fb Fc L. apply (approx_le _ _ _ _ (sub_approx a c Da Dc Fa Fc) (sub_approx a b Da Db Fa Fb)).
  apply fle_val in L; auto. lra.
Qed.
(** with d possibly infinite *)
Lemma sub_anti' a b c : double a -> double b -> double c -> isfinite a = true -> fle fzero b = true -> fle b c = true -> fle (fsub a c) (fsub a b) = true.
Proof.
  intros Da Db Dc Fa Pb L. destruct (isfinite c) eqn:Fc.
  - apply sub_anti; auto. apply (within_finite fzero b c); [reflexivity|exact Fc|split; assumption].
  - destruct (inf_nonneg_sub a c Fa Fc (proj2 (fle_nn _ _ L)) (fle_trans _ _ _ Pb L)) as [-> _]. apply ninf_le. apply fsub_nn; [exact Fa|apply (fle_nn _ _ Pb)].
Qed.
Lemma add_mono' a b c : double a -> double b -> double c -> isfinite a = true -> fle fzero b = true -> fle b c = true -> fle (fadd a b) (fadd a c) = true.
Proof.
  intros Da Db Dc Fa Pb L. destruct (isfinite c) eqn:Fc.
  - apply add_mono; auto. apply (within_finite fzero b c); [reflexivity|exact Fc|split; assumption].
  - destruct (inf_nonneg_sub a c Fa Fc (proj2 (fle_nn _ _ L)) (fle_trans _ _ _ Pb L)) as [_ ->]. apply fle_inf. apply fadd_nn; [exact Fa|apply (fle_nn _ _ Pb)].
Qed.
Lemma abs_nonneg v : isnan v = false -> fle fzero (fabs v) = true.
Proof. destruct v as [[]|[]| |[] m e]; cbn; try discriminate; reflexivity. Qed.
(** the step allowed in one cycle is non-negative and at most max_velocity * dt *)
Lemma delta_bounds l va dt : doubles_jl double l -> each double va -> double dt -> dt_ok dt -> vel_limits_ok l -> (l_ha l = true -> acc_limits_ok l) ->
  fle fzero (pos_delta l va dt) = true /\ fle (pos_delta l va dt) (fmul (l_maxv l) dt) = true /\ double (pos_delta l va dt).
Proof.
  intros (D1 & D2 & D3 & D4) Dva Dd [Fd P] [Fv Pv] HA. unfold pos_delta.
  match goal with |- context [fmin ?a ?b] => set (dv := b) end.
  assert (Q : double dv /\ (isnan dv = true \/ fle fzero dv = true)).
  { subst dv. destruct (l_ha l); [|split; [exact D3|right; exact Pv]]. destruct (HA eq_refl) as [Fa Pa].
    set (ab := match va with Some v => fabs v | None => fzero end).
    assert (Dab : double ab) by (subst ab; destruct va as [v|]; [apply d_abs; apply Dva; reflexivity|reflexivity]).
    pose proof (mul_nonneg _ _ D4 Dd Fa Fd Pa (flt_le _ _ P)) as MD. set (ad := fmul (l_maxa l) dt) in *.
    assert (Dad : double ad) by (apply d_mul; assumption). split; [apply d_add; assumption|].
    destruct (isnan ab) eqn:Nab; [left; destruct ab; try discriminate; reflexivity|]. right.
    assert (Pab : fle fzero ab = true).
    { subst ab. destruct va as [v|]; [|reflexivity]. apply abs_nonneg. rewrite fabs_nn in Nab. exact Nab. }
    destruct (isfinite ab) eqn:Fab.
    - eapply fle_trans; [exact Pab|apply self_le_add; assumption].
    - destruct ab as [[]|[]| |[] m e]; try discriminate. destruct ad as [[]|[]| |[] m e]; try discriminate; reflexivity. }
  destruct Q as [Ddv Q].
  assert (K : fle fzero (fmin (l_maxv l) dv) = true /\ fle (fmin (l_maxv l) dv) (l_maxv l) = true).
  { destruct (fmin_cases (l_maxv l) dv) as [[-> E]|[-> E]].
    - split; [exact Pv|apply fle_refl; apply (fle_nn _ _ Pv)].
    - split; [|apply flt_le; exact E]. destruct Q as [Q|Q]; [|exact Q]. apply flt_nn in E. destruct E. congruence. }
  destruct K as [K1 K2]. assert (FF : isfinite (fmin (l_maxv l) dv) = true) by (apply (within_finite fzero _ (l_maxv l)); [reflexivity|exact Fv|split; assumption]).
  assert (DD : double (fmin (l_maxv l) dv)) by (apply d_min; assumption).
  repeat split; [apply mul_nonneg|apply mul_mono|apply d_mul]; auto using flt_le.
Qed.
(** C33, position: the new command differs from the previous one (or, at the first command, from the
    measured position) by at most max_velocity*dt, or is the position limit that forced more *)
Lemma main_step_gen l prev act des dt prev' cmd b p r step :
  double step -> fle (pos_delta l (d_vel act) dt) step = true ->
  doubles_jl double l -> double r -> doubles_jd double act -> double dt ->
  l_hv l = true -> vel_limits_ok l -> (l_ha l = true -> acc_limits_ok l) -> dt_ok dt ->
  (l_hp l = true -> pos_limits_ok l) -> (l_hp l = false -> isnan (l_minp l) = true /\ isnan (l_maxp l) = true) ->
  (d_pos prev = Some r \/ (has_data prev = false /\ d_pos act = Some r)) -> finite r ->
  enforce l prev act des dt = Done prev' cmd b -> d_pos des = Some p -> isnan p = false ->
  exists p', d_pos cmd = Some p' /\
   (within (fsub r step) p' (fadd r step) \/
    (l_hp l = true /\ within (l_maxp l) p' (l_maxp l) /\ flt (l_maxp l) (fsub r step) = true) \/
    (l_hp l = true /\ within (l_minp l) p' (l_minp l) /\ flt (fadd r step) (l_minp l) = true)).
Proof.
  intros Dst G2 DL Dr [DAp DAv] Dd Hv OKv HA OKd HP HN HR Fr H D N. apply enforce_done in H; [|apply OKd].
  destruct H as (bp & bv & be & ba & bj & H & _). rewrite D in H.
  apply limit1_some in H; [|exact N]. destruct H as (lo & hi & p' & B & C & -> & _). exists p'. split; [reflexivity|].
  assert (RF : pos_ref (d_pos (fill prev act des)) (d_pos act) = Some r).
  { unfold fill. destruct HR as [E|[HD E]].
    - replace (has_data prev) with true by (unfold has_data; rewrite E; reflexivity). rewrite E. reflexivity.
    - rewrite HD. cbn [d_pos]. unfold fill1. rewrite D, E. reflexivity. }
  unfold position_limits in B. rewrite Hv, RF in B.
  pose proof (delta_bounds l (d_vel act) dt DL DAv Dd OKd OKv HA) as (G1 & _ & G3). set (dp := pos_delta l (d_vel act) dt) in *.
  pose proof (sub_anti' r dp step Dr G3 Dst Fr G1 G2) as S1. pose proof (add_mono' r dp step Dr G3 Dst Fr G1 G2) as S2.
  pose proof (sub_le_self r dp Dr G3 Fr G1) as S3. pose proof (self_le_add r dp Dr G3 Fr G1) as S4.
  pose proof (fle_trans _ _ _ S3 S4) as S5.
  set (x := fsub r dp) in *. set (y := fadd r dp) in *. set (X := fsub r step) in *. set (Y := fadd r step) in *.
  destruct (fle_nn _ _ S5) as [Nx Ny].
  destruct (l_hp l) eqn:Hp.
  - destruct (HP eq_refl) as (Fm & FM & L). destruct (fle_nn _ _ L) as [Nm NM].
    set (lo' := fmax (fmin x (l_maxp l)) (l_minp l)) in *.
    assert (K1 : fle (l_minp l) lo' = true) by (apply fmax_r; [apply fmin_nn|]; assumption).
    assert (K2 : fle lo' (l_maxp l) = true) by (apply fmax_lub; [apply fmin_r; assumption|exact L]).
    assert (Nlo : isnan lo' = false) by (apply (fle_nn _ _ K2)).
    set (hi' := fmin (fmax y lo') (l_maxp l)) in *.
    assert (K3 : fle lo' hi' = true) by (apply fmin_glb; [apply fmax_r; assumption|exact K2]).
    rewrite (swap_le (lo', hi')) in B by exact K3. injection B as E1 E2. rewrite <- E1, <- E2 in C.
    destruct (fle_nn _ _ K3) as [_ Nhi].
    pose proof (fclamp_within _ _ _ _ N Nlo Nhi C) as [W1 W2].
    (* three cases *)
    destruct (flt (l_maxp l) X) eqn:CX.
    { right; left. split; [reflexivity|]. split; [|reflexivity].
      assert (Elo : lo' = l_maxp l). { unfold lo', fmin, fmax. assert (T : flt (l_maxp l) x = true) by (eapply flt_le_trans; eassumption). rewrite T.
        rewrite (fle_not_lt _ _ L). reflexivity. }
      assert (Ehi : hi' = l_maxp l). { unfold hi'. rewrite Elo. unfold fmax. destruct (flt y (l_maxp l)) eqn:Q.
        - unfold fmin. rewrite flt_irrefl. reflexivity.
        - unfold fmin. assert (T : flt (l_maxp l) y = true) by (eapply flt_le_trans; [eapply flt_le_trans; [exact CX|exact S1]|exact S5]). rewrite T. reflexivity. }
      rewrite Elo in W1. rewrite Ehi in W2. split; assumption. }
    destruct (flt Y (l_minp l)) eqn:CY.
    { right; right. assert (T1 : flt y (l_minp l) = true) by (eapply fle_lt_trans; eassumption).
      assert (T2 : flt x (l_minp l) = true) by (eapply fle_lt_trans; eassumption).
      assert (Elo : lo' = l_minp l). { unfold lo', fmin. rewrite (fle_not_lt _ _ (flt_le _ _ (flt_le_trans _ _ _ T2 L))). unfold fmax. rewrite T2. reflexivity. }
      assert (Ehi : hi' = l_minp l). { unfold hi'. rewrite Elo. unfold fmax. rewrite T1. unfold fmin. rewrite (fle_not_lt _ _ L). reflexivity. }
      rewrite Elo in W1. rewrite Ehi in W2. repeat split; auto. }
    left. destruct (fle_nn _ _ S1) as [NX _]. destruct (fle_nn _ _ S2) as [_ NY].
    apply (flt_not_le _ _ NM NX) in CX. apply (flt_not_le _ _ NY Nm) in CY.
    assert (Nmin : isnan (fmin x (l_maxp l)) = false) by (apply fmin_nn; assumption).
    split.
    + eapply fle_trans; [|exact W1]. eapply fle_trans; [|apply fmax_l; assumption]. apply fmin_glb; assumption.
    + eapply fle_trans; [exact W2|]. eapply fle_trans; [apply fmin_l; [apply fmax_nn; assumption|exact NM]|].
      apply fmax_lub; [exact S2|]. apply fmax_lub; [|exact CY]. eapply fle_trans; [apply fmin_l; assumption|]. eapply fle_trans; eassumption.
  - left. destruct (HN eq_refl) as [Nm NM].
    assert (Q1 : fmin x (l_maxp l) = x) by (unfold fmin; replace (flt (l_maxp l) x) with false; [reflexivity|symmetry; apply flt_false; auto]).
    assert (Q2 : fmax x (l_minp l) = x) by (unfold fmax; replace (flt x (l_minp l)) with false; [reflexivity|symmetry; apply flt_false; auto]).
    rewrite Q1, Q2 in B.
    assert (Q3 : fmax y x = y) by (unfold fmax; rewrite (fle_not_lt _ _ S5); reflexivity).
    assert (Q4 : fmin y (l_maxp l) = y) by (unfold fmin; replace (flt (l_maxp l) y) with false; [reflexivity|symmetry; apply flt_false; auto]).
    rewrite Q3, Q4, (swap_le (x, y) S5) in B. injection B as E1 E2. rewrite <- E1, <- E2 in C.
    eapply within_clamp; [exact N|exact S1|exact S2|exact C].
Qed.

(** with the distance that the velocity and (if limited) the acceleration allow in one cycle *)
Lemma max_step_delta l act dt : doubles_jl double l -> doubles_jd double act -> double dt -> dt_ok dt -> vel_limits_ok l -> (l_ha l = true -> acc_limits_ok l) ->
  each (fun v => isnan v = false) (d_vel act) -> double (max_step l (d_vel act) dt) /\ fle (pos_delta l (d_vel act) dt) (max_step l (d_vel act) dt) = true.
Proof.
  intros DL [_ DV] Dd OKd OKv HA NV. destruct (delta_bounds l (d_vel act) dt DL DV Dd OKd OKv HA) as (G1 & _ & G3).
  assert (E : pos_delta l (d_vel act) dt = max_step l (d_vel act) dt).
  { unfold pos_delta, max_step. destruct (l_ha l); [reflexivity|]. unfold fmin. rewrite flt_irrefl. reflexivity. }
  rewrite <- E. split; [exact G3|apply fle_refl; apply (fle_nn _ _ G1)].
Qed.
Lemma main_step l prev act des dt prev' cmd b p r :
  doubles_jl double l -> double r -> doubles_jd double act -> double dt ->
  l_hv l = true -> vel_limits_ok l -> (l_ha l = true -> acc_limits_ok l) -> dt_ok dt ->
  (l_hp l = true -> pos_limits_ok l) -> (l_hp l = false -> isnan (l_minp l) = true /\ isnan (l_maxp l) = true) ->
  (d_pos prev = Some r \/ (has_data prev = false /\ d_pos act = Some r)) -> finite r -> each (fun v => isnan v = false) (d_vel act) ->
  enforce l prev act des dt = Done prev' cmd b -> d_pos des = Some p -> isnan p = false ->
  exists p', d_pos cmd = Some p' /\
   let step := max_step l (d_vel act) dt in
   (within (fsub r step) p' (fadd r step) \/
    (l_hp l = true /\ within (l_maxp l) p' (l_maxp l) /\ flt (l_maxp l) (fsub r step) = true) \/
    (l_hp l = true /\ within (l_minp l) p' (l_minp l) /\ flt (fadd r step) (l_minp l) = true)).
Proof.
  intros DL Dr DA Dd Hv OKv HA OKd HP HN HR Fr NV H D N. destruct (max_step_delta l act dt DL DA Dd OKd OKv HA NV) as [D1 D2].
  exact (main_step_gen l prev act des dt prev' cmd b p r _ D1 D2 DL Dr DA Dd Hv OKv HA OKd HP HN HR Fr H D N).
Qed.

(** C33, velocity: the new command differs from the previous one by at most max_acceleration*dt when
    the position limits do not force more *)
Lemma main_dv l prev act des dt prev' cmd b v w :
  doubles_jl double l -> double w -> doubles_jd double act -> double dt ->
  l_hv l = true -> vel_limits_ok l -> l_ha l = true -> acc_limits_ok l -> dt_ok dt ->
  (l_hp l = true -> pos_limits_ok l /\ inside l (d_pos act)) ->
  (d_vel prev = Some w \/ (has_data prev = false /\ d_vel act = Some w)) -> within (fopp (l_maxv l)) w (l_maxv l) ->
  enforce l prev act des dt = Done prev' cmd b -> d_vel des = Some v -> isnan v = false ->
  exists v', d_vel cmd = Some v' /\
   let dv := fmul (l_maxa l) dt in
   ((forall q, l_hp l = true -> d_pos act = Some q ->
       fle (fsub w dv) (fdiv (fsub (l_maxp l) q) dt) = true /\ fle (fdiv (fsub (l_minp l) q) dt) (fadd w dv) = true) ->
     within (fsub w dv) v' (fadd w dv)).
Proof.
  intros DL Dw [DAp DAv] Dd Hv OKv Ha OKa OKd HP HR [W1 W2] H D N. apply enforce_done in H; [|apply OKd].
  destruct H as (bp & bv & be & ba & bj & _ & H & _). rewrite D in H.
  apply limit1_some in H; [|exact N]. destruct H as (lo & hi & v' & B & C & -> & _). exists v'. split; [reflexivity|]. cbv zeta.
  set (dv := fmul (l_maxa l) dt). intros HF.
  assert (RF : d_vel (fill prev act des) = Some w).
  { unfold fill. destruct HR as [E|[HD E]].
    - replace (has_data prev) with true by (unfold has_data; rewrite E, ?orb_true_r; destruct (is_some (d_pos prev)); reflexivity). exact E.
    - rewrite HD. cbn [d_vel]. unfold fill1. rewrite D, E. reflexivity. }
  rewrite RF in B. unfold velocity_limits in B. rewrite Hv in B. fold (vel_base l v (d_pos act) dt) in B. rewrite Ha in B. cbv zeta in B. fold dv in B.
  pose proof (vel_base_bounds l v (d_pos act) dt DL DAp Dd OKd OKv HP) as K. cbv zeta in K.
  destruct DL as (D1 & D2 & D3 & D4). destruct OKd as [Fd P]. destruct OKa as [Fa Pa]. destruct OKv as [Fv Pv].
  destruct (fle_opp0 _ Pv) as [No1 No2].
  assert (Fo : finite (fopp (l_maxv l))) by (unfold finite in *; destruct (l_maxv l); auto).
  assert (Fw : isfinite w = true) by (eapply within_finite; [exact Fo|exact Fv|split; assumption]).
  pose proof (mul_nonneg _ _ D4 Dd Fa Fd Pa (flt_le _ _ P)) as MD. fold dv in MD.
  assert (Ddv : double dv) by (apply d_mul; assumption).
  pose proof (sub_le_self w dv Dw Ddv Fw MD) as S1. pose proof (self_le_add w dv Dw Ddv Fw MD) as S2.
  set (x := fsub w dv) in *. set (y := fadd w dv) in *. set (bb := vel_base l v (d_pos act) dt) in *. destruct K as (A1 & A2 & A3 & A4).
  assert (Nb1 : isnan (fst bb) = false) by apply (fle_nn _ _ A2). assert (Nb2 : isnan (snd bb) = false) by apply (fle_nn _ _ A3).
  assert (E1 : fle x (snd bb) = true /\ fle (fst bb) y = true).
  { unfold bb, vel_base. assert (Q1 : fle x (l_maxv l) = true) by exact (fle_trans _ _ _ S1 W2).
    assert (Q2 : fle (fopp (l_maxv l)) y = true) by exact (fle_trans _ _ _ W1 S2).
    destruct (d_pos act) as [q|] eqn:EQ; [|split; assumption]. destruct (l_hp l) eqn:Hp; [|split; assumption].
    destruct (HP eq_refl) as [(Fm & FM & L) IN]. destruct (HF q eq_refl eq_refl) as [HF1 HF2].
    pose proof (IN q eq_refl) as W. pose proof (within_finite _ _ _ Fm FM W) as Fq.
    rewrite vel_by_pos_inside; auto; [|split; auto|split; assumption]. cbn [fst snd]. split.
    - apply fmin_glb; assumption.
    - apply fmax_lub; assumption. }
  destruct E1 as [E1 E2]. destruct (fle_nn _ _ S1) as [Nx _]. destruct (fle_nn _ _ S2) as [_ Ny].
  assert (LE : fle (fmax x (fst bb)) (fmin y (snd bb)) = true).
  { apply fmax_lub; apply fmin_glb; auto; [exact (fle_trans _ _ _ S1 S2)|exact (fle_trans _ _ _ A2 A3)]. }
  rewrite (swap_le (_, _) LE) in B. injection B as B1 B2. rewrite <- B1, <- B2 in C.
  eapply within_clamp; [exact N| | |exact C]; [apply fmax_l; assumption|apply fmin_l; assumption].
Qed.
