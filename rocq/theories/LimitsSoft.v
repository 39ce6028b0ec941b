(** LimitsSoft.v -- the soft limits bound velocity and effort commands (PassSpec.v). *)
From Coq Require Import ZArith Bool List Lia SpecFloat.
From Verif Require Import LimitsModel FloatOrder FloatReal LimitsSpec LimitsProofs LimitsMain LimitsHist PassSpec.
Open Scope Z_scope.

Lemma clamp_cut v m x : fclamp v (fopp m) m = Some x -> x = cut v m.
Proof. unfold fclamp, cut. destruct (flt m (fopp m)); [discriminate|]. intros [= <-]. reflexivity. Qed.
Lemma fill_last prev act des here : d_pos act = Some here -> isfinite here = true ->
  finite_or (d_pos (fill prev act des)) (some_or (d_pos act) inf) = last_position prev here.
Proof.
  intros A Fh. unfold fill, last_position. rewrite A. cbn [some_or]. destruct (has_data prev) eqn:HD; [destruct (d_pos prev) as [x|]; [cbn; destruct (isfinite x)|]; reflexivity|].
  assert (E : d_pos prev = None). { unfold has_data in HD. destruct (d_pos prev); [discriminate|reflexivity]. }
  cbn [d_pos]. rewrite E. unfold fill1. destruct (d_pos des); cbn; [rewrite Fh|]; reflexivity.
Qed.
Lemma soft_vel_range l s prev act des here sv : l_hv l = true -> l_hp l = true -> has_soft s = true -> d_pos act = Some here -> isfinite here = true ->
  soft_vel l s (fill prev act des) act = Some sv -> soft_range l s (last_position prev here) here (fst sv) (snd sv).
Proof.
  intros Hv Hp HS A Fh. unfold soft_vel. rewrite Hv, Hp, HS. rewrite (fill_last _ _ _ _ A Fh).
  replace (some_or (d_pos act) (finite_or (d_pos (fill prev act des)) inf)) with here by (rewrite A; reflexivity).
  assert (FL : isfinite (last_position prev here) = true).
  { unfold last_position. destruct (d_pos prev) as [x|]; [destruct (isfinite x) eqn:X|]; auto. }
  rewrite FL. cbn [andb].
  destruct (fclamp _ _ _) as [mn|] eqn:E1; [|discriminate]. destruct (fclamp _ _ _) as [mx|] eqn:E2 in |- *; [|discriminate].
  apply clamp_cut in E1, E2. intros [= <-]. unfold soft_range, outside_hard, outside_soft, towards_lower, towards_upper. rewrite <- E1, <- E2, Fh. cbn [andb].
  destruct (flt here (fsub (l_minp l) bounds_tol)) eqn:O1; [left; auto|]. destruct (flt (fadd (l_maxp l) bounds_tol) here) eqn:O2; [left; auto|].
  right. destruct (flt here (s_minp s)) eqn:O3; [left; cbn; intuition discriminate|]. destruct (flt (s_maxp s) here) eqn:O4; [left; cbn; intuition discriminate|].
  right. cbn. intuition discriminate.
Qed.
Lemma dt_nonzero dt : dt_ok dt -> nonzero dt = true.
Proof. intros [F P]. destruct dt as [[]|[]| |[] m e]; try discriminate; reflexivity. Qed.
Lemma velocity_nn l v act prev dt lo hi : l_hv l = true -> vel_limits_ok l -> (l_hp l = true -> pos_limits_ok l /\ each finite act) -> dt_ok dt ->
  (l_ha l = true -> acc_limits_ok l /\ each finite prev) -> velocity_limits l v act prev dt = (lo, hi) -> isnan lo = false /\ isnan hi = false.
Proof.
  intros Hv [Fv Pv] HP OKd HA B. unfold velocity_limits in B. rewrite Hv in B. fold (vel_base l v act dt) in B. cbv zeta in B.
  assert (K : isnan (fst (vel_base l v act dt)) = false /\ isnan (snd (vel_base l v act dt)) = false).
  { assert (Q : isnan (fopp (l_maxv l)) = false /\ isnan (l_maxv l) = false) by (split; apply fin_nn; [apply fin_opp|]; exact Fv).
    unfold vel_base. destruct act as [p|]; [|exact Q]. destruct (l_hp l); [|exact Q]. destruct (HP eq_refl) as [(Fm & FM & _) FP]. pose proof (FP p eq_refl) as Fp.
    unfold vel_by_pos. 
    assert (Z : isnan (fmax (fdiv (fsub (l_minp l) p) dt) (fopp (l_maxv l))) = false /\ isnan (fmin (fdiv (fsub (l_maxp l) p) dt) (l_maxv l)) = false).
    { split; [apply fmax_nn|apply fmin_nn]; try apply Q; (apply fdiv_nn; [apply fsub_nn; [assumption|apply fin_nn; assumption]|apply OKd|exact (dt_nonzero _ OKd)]). }
    destruct (_ || _); [|exact Z]. destruct (_ || _); [split; reflexivity|]. destruct (_ || _); [split; reflexivity|exact Z]. }
  destruct K as [K1 K2]. destruct (vel_base l v act dt) as [b1 b2]. cbn [fst snd] in *.
  assert (S : forall b, isnan (fst b) = false -> isnan (snd b) = false -> swap b = (lo, hi) -> isnan lo = false /\ isnan hi = false).
  { intros [x y]. cbn. destruct (flt y x); intros ? ? [= <- <-]; auto. }
  destruct prev as [w|]; [|exact (S (b1, b2) K1 K2 B)]. destruct (l_ha l); [|exact (S (b1, b2) K1 K2 B)]. destruct (HA eq_refl) as [[Fa Pa] FW].
  pose proof (FW w eq_refl) as Fw. pose proof (fmul_nn _ _ Fa (proj1 OKd)) as M.
  apply (S _) in B; [exact B| |]; cbn [fst snd]; [apply fmax_nn|apply fmin_nn]; auto; [apply fsub_nn|apply fadd_nn]; assumption.
Qed.
Lemma fill_vel_fin prev act des v : d_vel des = Some v -> finite v -> each finite (d_vel prev) -> each finite (d_vel act) -> each finite (d_vel (fill prev act des)).
Proof. intros D Fv F1 F2. apply (fill_vel _ _ _ v); auto. apply fin_nn. exact Fv. Qed.

Lemma soft_velocity l s prev act des dt prev' cmd b v here :
  l_hv l = true -> l_hp l = true -> vel_limits_ok l -> pos_limits_ok l -> has_soft s = true -> dt_ok dt ->
  (l_ha l = true -> acc_limits_ok l /\ each finite (d_vel prev)) -> each finite (d_vel act) ->
  d_pos act = Some here -> finite here ->
  enforce_soft l s prev act des dt = Done prev' cmd b -> d_vel des = Some v -> finite v ->
  exists v' lo hi, d_vel cmd = Some v' /\ soft_range l s (last_position prev here) here lo hi /\ within lo v' hi.
Proof.
  intros Hv Hp OKv OKp HS OKd HA FA A Fh H D Fv. pose proof (fin_nn _ Fv) as N. apply soft_done in H; [|apply OKd].
  destruct H as (sv & bp & bv & be & ba & bj & SV & _ & H & _). rewrite D in H.
  apply limit1_some in H; [|exact N]. destruct H as (lo & hi & v' & B & C & -> & _). exists v', (fst sv), (snd sv). split; [reflexivity|].
  split; [exact (soft_vel_range _ _ _ _ _ _ _ Hv Hp HS A Fh SV)|].
  unfold soft_vel_bounds in B. destruct (velocity_limits l v (d_pos act) (d_vel (fill prev act des)) dt) as [hlo hhi] eqn:HB.
  apply velocity_nn in HB; auto.
  2:{ intros _. split; [exact OKp|]. rewrite A. intros x [= <-]. exact Fh. }
  2:{ intros Ha. destruct (HA Ha). split; [assumption|]. apply (fill_vel_fin _ _ _ v); assumption. }
  destruct HB as [N1 N2]. cbn [fst snd] in B. pose proof (soft_vel_finite _ _ _ _ _ (proj1 OKv) (proj2 OKv) Hv SV) as [S1 S2].
  pose proof (fin_nn _ S1) as S3. pose proof (fin_nn _ S2) as S4.
  match type of B with (fmax (fst ?b) _, _) = _ => set (sv1 := b) in B; assert (K : fle (fst sv) (fst sv1) = true /\ fle (snd sv1) (snd sv) = true) end.
  { subst sv1. destruct (d_vel act) as [w|] eqn:W; [|split; apply fle_refl; assumption]. rewrite Hv. destruct (l_ha l); cbn [andb]; [|split; apply fle_refl; assumption].
    destruct (HA eq_refl) as ([Fa Pa] & _). cbn [fst snd]. pose proof (fmul_nn _ _ Fa (proj1 OKd)) as M.
    pose proof (FA w eq_refl) as Fw. split; [apply fmax_r|apply fmin_r]; auto; [apply fsub_nn|apply fadd_nn]; assumption. }
  destruct K as [K1 K2]. injection B as <- <-. destruct (fle_nn _ _ K1), (fle_nn _ _ K2).
  eapply within_clamp; [exact N| | |exact C].
  - eapply fle_trans; [exact K1|]. apply fmax_l; assumption.
  - eapply fle_trans; [|exact K2]. apply fmin_l; assumption.
Qed.
Lemma soft_effort l s prev act des dt prev' cmd b e w here :
  l_hv l = true -> l_hp l = true -> l_he l = true -> vel_limits_ok l -> fle fzero (l_maxe l) = true -> has_soft s = true -> flt fzero dt = true ->
  isfinite (s_kv s) = true -> nonzero (s_kv s) = true -> quiet (d_vel des) ->
  d_pos act = Some here -> finite here -> d_vel act = Some w -> finite w ->
  enforce_soft l s prev act des dt = Done prev' cmd b -> d_eff des = Some e -> isnan e = false ->
  exists e' lo hi, d_eff cmd = Some e' /\ soft_range l s (last_position prev here) here lo hi /\ within (effort_towards l s w lo) e' (effort_towards l s w hi).
Proof.
  intros Hv Hp He OKv Pe HS P Fk Nk QV A Fh W Fw H D N. apply soft_done in H; [|exact P].
  destruct H as (sv & bp & bv & be & ba & bj & SV & _ & _ & H & _). rewrite D in H.
  apply limit1o_some in H; [|exact N]. destruct H as (lo & hi & e' & B & C & -> & _). exists e', (fst sv), (snd sv). split; [reflexivity|].
  split; [exact (soft_vel_range _ _ _ _ _ _ _ Hv Hp HS A Fh SV)|].
  assert (SA : sv_after l des (fill prev act des) act sv dt = sv).
  { unfold sv_after. destruct (d_vel des) as [v|]; [|reflexivity]. rewrite (QV v eq_refl). reflexivity. }
  rewrite SA in B. pose proof (soft_vel_finite _ _ _ _ _ (proj1 OKv) (proj2 OKv) Hv SV) as [S1 S2].
  unfold soft_eff_bounds in B. destruct (effort_limits l (d_pos act) (d_vel act)) as [hlo hhi] eqn:HB.
  pose proof (effort_bounds _ _ _ _ _ He Pe HB) as (A1 & A2 & A3 & A4). cbn [fst snd] in B.
  rewrite W, He, Fk in B. cbn [andb] in B.
  destruct (fle_opp0 _ Pe) as [Q1 Q2]. destruct (fle_nn _ _ Q2) as [Q3 Q4].
  assert (Nk' : nonzero (fopp (s_kv s)) = true) by (destruct (s_kv s); auto).
  destruct (fclamp (fmul (fopp (s_kv s)) (fsub w (fst sv))) (fopp (l_maxe l)) (l_maxe l)) as [mn|] eqn:E1; [|discriminate].
  destruct (fclamp (fmul (fopp (s_kv s)) (fsub w (snd sv))) (fopp (l_maxe l)) (l_maxe l)) as [mx|] eqn:E2; [|discriminate].
  pose proof (fclamp_within _ _ _ _ (fmul_nn_l _ _ (fin_opp _ Fk) Nk' (fsub_nn _ _ Fw (fin_nn _ S1))) Q3 Q4 E1) as [W1 W2].
  pose proof (fclamp_within _ _ _ _ (fmul_nn_l _ _ (fin_opp _ Fk) Nk' (fsub_nn _ _ Fw (fin_nn _ S2))) Q3 Q4 E2) as [W3 W4].
  apply clamp_cut in E1, E2. unfold effort_towards. rewrite <- E1, <- E2.
  injection B as <- <-. destruct (fle_nn _ _ A2), (fle_nn _ _ A3), (fle_nn _ _ W1), (fle_nn _ _ W3).
  eapply within_clamp; [exact N| | |exact C]; [apply fmax_l|apply fmin_l]; assumption.
Qed.
