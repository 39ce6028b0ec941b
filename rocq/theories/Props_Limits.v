(** Props_Limits.v -- C31-C36: the joint limiters, in double arithmetic (LimitsModel.v).
    [enforce] is the saturation limiter, [enforce_soft] the soft limiter; [prev] is the limiter's
    memory of the previous command, [act] the measured values, [des] the command. *)
From Coq Require Import ZArith Bool List SpecFloat.
From Verif Require Import LimitsModel FloatOrder FloatReal LimitsSpec LimitsProofs LimitsMain LimitsHist.
Import ListNotations.

Definition q (a b : Z) : F := fdiv (of_Z a) (of_Z b).
Definition cmd1 (p v e a j : option F) : jd := {| d_pos := p; d_vel := v; d_eff := e; d_acc := a; d_jerk := j |}.
Definition posd (p : F) := cmd1 (Some p) None None None None.
Definition veld (v : F) := cmd1 None (Some v) None None None.
Definition posvel (p v : F) := cmd1 (Some p) (Some v) None None None.
(** -1..1 rad, 2 rad/s, 10 rad/s^2, 5 Nm *)
Definition lim : jl := {| l_hp := true; l_hv := true; l_ha := true; l_hd := false; l_he := true;
  l_minp := of_Z (-1); l_maxp := of_Z 1; l_maxv := of_Z 2; l_maxa := of_Z 10; l_maxd := nan; l_maxj := nan; l_maxe := of_Z 5 |}.
Definition ms10 : F := q 1 100.
Definition cmd_of (o : outcome) : option jd := match o with Done _ c _ => Some c | _ => None end.

(** C31: what the limiter lets through lies within the joint's limits. *)
(** position, when what is measured and remembered is finite *)
Theorem c31_position_partial : forall l prev act des dt prev' cmd b p,
  l_hp l = true -> pos_limits_ok l -> (l_hv l = true -> finite (l_maxv l)) -> dt_ok dt ->
  each finite (d_pos prev) -> each finite (d_pos act) -> (finite p \/ d_pos act <> None \/ has_data prev = true) ->
  enforce l prev act des dt = Done prev' cmd b -> d_pos des = Some p -> isnan p = false ->
  exists p', d_pos cmd = Some p' /\ within (l_minp l) p' (l_maxp l).
Proof. exact main_position. Qed.
Print Assumptions c31_position_partial.
(** velocity, when the measured position is inside its limits and the velocity started from is *)
Theorem c31_velocity_partial : forall l prev act des dt prev' cmd b v,
  doubles_jl double l -> doubles_jd double prev -> doubles_jd double act -> double v -> double dt ->
  l_hv l = true -> vel_limits_ok l -> dt_ok dt ->
  (l_hp l = true -> pos_limits_ok l /\ inside l (d_pos act)) ->
  (l_ha l = true -> acc_limits_ok l /\ vel_start_ok l prev act v) ->
  enforce l prev act des dt = Done prev' cmd b -> d_vel des = Some v -> isnan v = false ->
  exists v', d_vel cmd = Some v' /\ within (fopp (l_maxv l)) v' (l_maxv l).
Proof. exact main_velocity. Qed.
Print Assumptions c31_velocity_partial.
(** effort and jerk: always *)
Theorem c31_effort : forall l prev act des dt prev' cmd b e,
  l_he l = true -> fle fzero (l_maxe l) = true -> flt fzero dt = true ->
  enforce l prev act des dt = Done prev' cmd b -> d_eff des = Some e -> isnan e = false ->
  exists e', d_eff cmd = Some e' /\ within (fopp (l_maxe l)) e' (l_maxe l).
Proof. exact main_effort. Qed.
Print Assumptions c31_effort.
Theorem c31_jerk : forall l prev act des dt prev' cmd b j, flt fzero dt = true -> fle fzero (l_maxj l) = true ->
  enforce l prev act des dt = Done prev' cmd b -> d_jerk des = Some j -> isnan j = false ->
  exists j', d_jerk cmd = Some j' /\ within (fopp (l_maxj l)) j' (l_maxj l).
Proof. exact main_jerk. Qed.
Print Assumptions c31_jerk.
(** acceleration: the deceleration limit when slowing down (and there is one), else the acceleration limit *)
Theorem c31_acceleration : forall l prev act des dt prev' cmd b a, flt fzero dt = true ->
  enforce l prev act des dt = Done prev' cmd b -> d_acc des = Some a -> isnan a = false ->
  exists a', d_acc cmd = Some a' /\
    ((exists v, d_vel act = Some v /\ ((flt a fzero = true /\ flt fzero v = true) \/ (flt fzero a = true /\ flt v fzero = true))) ->
      l_hd l = true -> fle fzero (l_maxd l) = true -> within (fopp (l_maxd l)) a' (l_maxd l)) /\
    (~ (l_hd l = true /\ exists v, d_vel act = Some v /\ ((flt a fzero = true /\ flt fzero v = true) \/ (flt fzero a = true /\ flt v fzero = true))) ->
      l_ha l = true -> fle fzero (l_maxa l) = true -> within (fopp (l_maxa l)) a' (l_maxa l)).
Proof. exact main_acceleration. Qed.
Print Assumptions c31_acceleration.
(** position and velocity over any number of cycles of a joint in normal operation, from a fresh limiter *)
Theorem c31_history_partial : forall l, l_hv l = true -> doubles_jl double l ->
  pos_limits_ok l -> vel_limits_ok l -> (l_ha l = true -> acc_limits_ok l) ->
  forall cs c prev' cmd b, Forall (sane double l) cs -> sane double l c ->
  enforce l (run l no_data cs) (y_act c) (y_des c) (y_dt c) = Done prev' cmd b ->
  (forall p, d_pos (y_des c) = Some p -> isnan p = false -> exists p', d_pos cmd = Some p' /\ within (l_minp l) p' (l_maxp l)) /\
  (forall v, d_vel (y_des c) = Some v -> isnan v = false -> exists v', d_vel cmd = Some v' /\ within (fopp (l_maxv l)) v' (l_maxv l)).
Proof. exact main_history. Qed.
Print Assumptions c31_history_partial.
(** the limiter itself never computes anything undefined, and throws exactly when a position is
    commanded while the measured one is further than 0.0087 outside the limits *)
Theorem c31_defined : forall l prev act des dt,
  flt (l_maxj l) (fopp (l_maxj l)) = false -> enforce l prev act des dt <> Undefined.
Proof. exact main_defined. Qed.
Print Assumptions c31_defined.
Theorem c31_throws : forall l prev act des dt, flt fzero dt = true ->
  ((exists p, enforce l prev act des dt = Threw p) <->
   exists p x, d_pos des = Some p /\ isnan p = false /\ d_pos act = Some x /\ l_hp l = true /\
     (flt (fadd (l_maxp l) throw_tol) x = true \/ flt x (fsub (l_minp l) throw_tol) = true)).
Proof. exact main_throws. Qed.
Print Assumptions c31_throws.
(** a throwing call leaves the limiter's memory of the last command alone (also with soft limits) *)
Theorem c31_throw_keeps_memory : forall l s prev act des dt p, has_data prev = true ->
  enforce l prev act des dt = Threw p \/ enforce_soft l s prev act des dt = Threw p -> p = prev.
Proof. exact main_throw_keeps. Qed.
Print Assumptions c31_throw_keeps_memory.
(** a first command of 100 rad at rest in 0 is limited to 0 + 10*0.01*0.01 rad, a later one may move on *)
Definition rest : cycle := {| y_act := posvel (of_Z 0) (of_Z 0); y_des := posd (of_Z 100); y_dt := ms10 |}.
Example c31_example :
  sane double lim rest /\ pos_limits_ok lim /\ vel_limits_ok lim /\ acc_limits_ok lim /\ doubles_jl double lim /\
  cmd_of (enforce lim no_data (y_act rest) (y_des rest) ms10) = Some (posd (fmul (fmul (of_Z 10) ms10) ms10)) /\
  cmd_of (enforce lim (run lim no_data [rest]) (posvel (of_Z 0) (of_Z 2)) (veld (of_Z (-100))) ms10) =
    Some (veld (fopp (of_Z 2))) /\
  cmd_of (enforce lim (run lim no_data [rest]) (posvel (of_Z 0) (of_Z 0)) (cmd1 None None (Some (of_Z 7)) None None) ms10) =
    Some (cmd1 None None (Some (of_Z 5)) None None).
Proof.
  split.
  { constructor; cbn [rest y_act y_des y_dt].
    - split; [split|]; vm_compute; reflexivity.
    - split; intros x [= <-]; vm_compute; reflexivity.
    - split; intros x; [intros [= <-]; vm_compute; reflexivity|discriminate].
    - intros x [= <-]. split; vm_compute; reflexivity.
    - intros x [= <-]. split; vm_compute; reflexivity.
    - discriminate.
    - intros p [= <-]. left. vm_compute. reflexivity. }
  vm_compute. repeat split.
Qed.

(** C31 fails outside those conditions.  (1) A joint with acceleration limits whose velocity is not
    measured: the first velocity command starts from itself, and passes almost unchanged. *)
Theorem c31_velocity_refuted_first_command : exists l des dt prev' cmd b v v',
  l_hv l = true /\ vel_limits_ok l /\ acc_limits_ok l /\ dt_ok dt /\
  d_vel des = Some v /\ enforce l no_data no_data des dt = Done prev' cmd b /\
  d_vel cmd = Some v' /\ flt (of_Z 99) v' = true /\ l_maxv l = of_Z 2.
Proof.
  exists lim, (veld (of_Z 100)), ms10. do 5 eexists. repeat (split; [vm_compute; (reflexivity || (repeat split))|]). reflexivity.
Qed.
Print Assumptions c31_velocity_refuted_first_command.
(** (2) The measured position is 1 mrad beyond the limit, and the command moves back: the limiter
    lets 10 times ... the velocity limit through. *)
Definition slow : jl := {| l_hp := true; l_hv := true; l_ha := false; l_hd := false; l_he := false;
  l_minp := of_Z (-1); l_maxp := of_Z 1; l_maxv := q 1 100; l_maxa := nan; l_maxd := nan; l_maxj := nan; l_maxe := nan |}.
Theorem c31_velocity_refuted_out_of_bounds : exists l act des dt prev' cmd b v v',
  l_hv l = true /\ vel_limits_ok l /\ pos_limits_ok l /\ dt_ok dt /\ d_pos act = Some (q 1001 1000) /\
  d_vel des = Some v /\ enforce l no_data act des dt = Done prev' cmd b /\
  d_vel cmd = Some v' /\ flt v' (q (-9) 100) = true /\ l_maxv l = q 1 100.
Proof.
  exists slow, (posd (q 1001 1000)), (veld (of_Z (-5))), ms10. do 5 eexists. repeat (split; [vm_compute; (reflexivity || (repeat split))|]). reflexivity.
Qed.
Print Assumptions c31_velocity_refuted_out_of_bounds.
(** (3) The measured position is NaN (as state interfaces are before the first read): the first
    position command is not limited at all, nor is any velocity command. *)
Theorem c31_refuted_nan_state : exists l act dt,
  pos_limits_ok l /\ vel_limits_ok l /\ dt_ok dt /\ l_hp l = true /\ l_hv l = true /\ d_pos act = Some nan /\
  cmd_of (enforce l no_data act (posd (of_Z 50)) dt) = Some (posd (of_Z 50)) /\
  cmd_of (enforce l no_data act (veld (of_Z 50)) dt) = Some (veld (of_Z 50)) /\
  l_maxp l = of_Z 1 /\ l_maxv l = q 1 100.
Proof. exists slow, (posd nan), ms10. vm_compute. repeat split. Qed.
Print Assumptions c31_refuted_nan_state.

(** C32: the answer is true if and only if the command was changed (for both limiters). *)
Theorem c32_reports_changes : forall l prev act des dt prev' cmd b,
  enforce l prev act des dt = Done prev' cmd b -> (b = true <-> cmd <> des).
Proof. exact main_flag. Qed.
Print Assumptions c32_reports_changes.
Theorem c32_soft_reports_changes : forall l s prev act des dt prev' cmd b,
  enforce_soft l s prev act des dt = Done prev' cmd b -> (b = true <-> cmd <> des).
Proof. exact main_flag_soft. Qed.
Print Assumptions c32_soft_reports_changes.
Definition flag_of (o : outcome) : option bool := match o with Done _ _ b => Some b | _ => None end.
Definition no_soft : sl := {| s_minp := nan; s_maxp := nan; s_kp := nan; s_kv := nan |}.
Example c32_example :
  flag_of (enforce lim no_data (y_act rest) (y_des rest) ms10) = Some true /\
  flag_of (enforce lim no_data (y_act rest) (posd (of_Z 0)) ms10) = Some false /\
  flag_of (enforce_soft lim no_soft no_data (y_act rest) (posd (of_Z 0)) ms10) = Some false /\
  flag_of (enforce_soft lim no_soft no_data (y_act rest) (y_des rest) ms10) = Some true.
Proof. vm_compute. repeat split. Qed.

(** C33: a limited position command differs from the previous one ([r]; at the first command the
    measured position) by at most max_velocity*dt, or is the position limit that forces more. *)
Theorem c33_position_step : forall l prev act des dt prev' cmd b p r,
  doubles_jl double l -> double r -> doubles_jd double act -> double dt ->
  l_hv l = true -> vel_limits_ok l -> (l_ha l = true -> acc_limits_ok l) -> dt_ok dt ->
  (l_hp l = true -> pos_limits_ok l) -> (l_hp l = false -> isnan (l_minp l) = true /\ isnan (l_maxp l) = true) ->
  (d_pos prev = Some r \/ (has_data prev = false /\ d_pos act = Some r)) -> finite r -> each (fun v => isnan v = false) (d_vel act) ->
  enforce l prev act des dt = Done prev' cmd b -> d_pos des = Some p -> isnan p = false ->
  exists p', d_pos cmd = Some p' /\
   let step := max_step l (d_vel act) dt in
   (within (fsub r step) p' (fadd r step) \/
    (l_hp l = true /\ within (l_maxp l) p' (l_maxp l) /\ flt (l_maxp l) (fsub r step) = true) \/
    (l_hp l = true /\ within (l_minp l) p' (l_minp l) /\ flt (fadd r step) (l_minp l) = true)).
Proof. exact main_step. Qed.
Print Assumptions c33_position_step.
(** ... and a limited velocity command differs from the previous one [w] by at most
    max_acceleration*dt, unless the position limits force more. *)
Theorem c33_velocity_step : forall l prev act des dt prev' cmd b v w,
  doubles_jl double l -> double w -> doubles_jd double act -> double dt ->
  l_hv l = true -> vel_limits_ok l -> l_ha l = true -> acc_limits_ok l -> dt_ok dt ->
  (l_hp l = true -> pos_limits_ok l /\ inside l (d_pos act)) ->
  (d_vel prev = Some w \/ (has_data prev = false /\ d_vel act = Some w)) -> within (fopp (l_maxv l)) w (l_maxv l) ->
  enforce l prev act des dt = Done prev' cmd b -> d_vel des = Some v -> isnan v = false ->
  exists v', d_vel cmd = Some v' /\
   let dv := fmul (l_maxa l) dt in
   ((forall x, l_hp l = true -> d_pos act = Some x ->
       fle (fsub w dv) (fdiv (fsub (l_maxp l) x) dt) = true /\ fle (fdiv (fsub (l_minp l) x) dt) (fadd w dv) = true) ->
     within (fsub w dv) v' (fadd w dv)).
Proof. exact main_dv. Qed.
Print Assumptions c33_velocity_step.
(** from 1 rad/s, +10 rad/s^2 for 10 ms *)
Example c33_example :
  cmd_of (enforce lim (veld (of_Z 1)) (posvel (of_Z 0) (of_Z 1)) (veld (of_Z 9)) ms10) = Some (veld (fadd (of_Z 1) (fmul (of_Z 10) ms10))) /\
  double (of_Z 1) /\ within (fopp (of_Z 2)) (of_Z 1) (of_Z 2) /\
  fle (fsub (of_Z 1) (fmul (of_Z 10) ms10)) (fdiv (fsub (of_Z 1) (of_Z 0)) ms10) = true /\
  cmd_of (enforce lim (posd (q 1 2)) (posvel (q 1 2) (of_Z 2)) (posd (of_Z 9)) ms10) = Some (posd (fadd (q 1 2) (fmul (of_Z 2) ms10))).
Proof. vm_compute. repeat split. Qed.

(** C34: at or beyond a position limit and moving outwards, or beyond a velocity limit, the effort
    that is let through does not push further outwards. *)
Theorem c34_never_pushes_outwards : forall l prev act des dt prev' cmd b e v,
  l_he l = true -> fle fzero (l_maxe l) = true -> flt fzero dt = true ->
  enforce l prev act des dt = Done prev' cmd b -> d_eff des = Some e -> isnan e = false -> d_vel act = Some v ->
  exists e', d_eff cmd = Some e' /\
    (forall x, l_hp l = true -> d_pos act = Some x -> fle x (l_minp l) = true -> flt v fzero = true -> fle fzero e' = true) /\
    (forall x, l_hp l = true -> d_pos act = Some x -> fle (l_maxp l) x = true -> flt fzero v = true -> fle e' fzero = true) /\
    (l_hv l = true -> fle fzero (l_maxv l) = true -> flt v (fopp (l_maxv l)) = true -> fle fzero e' = true) /\
    (l_hv l = true -> fle fzero (l_maxv l) = true -> flt (l_maxv l) v = true -> fle e' fzero = true).
Proof. exact main_outward. Qed.
Print Assumptions c34_never_pushes_outwards.
Definition effd (e : F) := cmd1 None None (Some e) None None.
Example c34_example :
  cmd_of (enforce lim no_data (posvel (of_Z 1) (of_Z 1)) (effd (of_Z 3)) ms10) = Some (effd fzero) /\
  cmd_of (enforce lim no_data (posvel (of_Z 1) (of_Z 1)) (effd (of_Z (-3))) ms10) = Some (effd (of_Z (-3))) /\
  cmd_of (enforce lim no_data (posvel (of_Z 0) (of_Z (-3))) (effd (of_Z (-3))) ms10) = Some (effd fzero).
Proof. vm_compute. repeat split. Qed.

(** C35: the soft limiter's output lies within the hard limits: positions, when soft position
    limits inside the hard ones are configured; velocities and efforts, when what is measured is
    finite, under the conditions of C31. *)
Theorem c35_position_partial : forall l s prev act des dt prev' cmd b p,
  l_hp l = true -> pos_limits_ok l -> (l_hv l = true -> vel_limits_ok l) -> dt_ok dt ->
  double (s_minp s) -> double (s_maxp s) -> has_soft_pos s = true ->
  each finite (d_pos prev) -> each finite (d_pos act) -> (finite p \/ d_pos act <> None \/ has_data prev = true) ->
  enforce_soft l s prev act des dt = Done prev' cmd b -> d_pos des = Some p -> isnan p = false ->
  exists p', d_pos cmd = Some p' /\ within (s_minp s) p' (s_maxp s) /\
    (fle (l_minp l) (s_minp s) = true -> fle (s_maxp s) (l_maxp l) = true -> within (l_minp l) p' (l_maxp l)).
Proof. exact main_soft_position. Qed.
Print Assumptions c35_position_partial.
Theorem c35_velocity_partial : forall l s prev act des dt prev' cmd b v,
  doubles_jl double l -> doubles_jd double prev -> doubles_jd double act -> double v -> double dt ->
  l_hv l = true -> vel_limits_ok l -> dt_ok dt ->
  (l_hp l = true -> pos_limits_ok l /\ inside l (d_pos act)) ->
  (l_ha l = true -> acc_limits_ok l /\ vel_start_ok l prev act v /\ each finite (d_vel act)) ->
  enforce_soft l s prev act des dt = Done prev' cmd b -> d_vel des = Some v -> isnan v = false ->
  exists v', d_vel cmd = Some v' /\ within (fopp (l_maxv l)) v' (l_maxv l).
Proof. exact main_soft_velocity. Qed.
Print Assumptions c35_velocity_partial.
Theorem c35_effort_partial : forall l s prev act des dt prev' cmd b e,
  l_he l = true -> fle fzero (l_maxe l) = true -> flt fzero dt = true -> (l_hv l = true -> vel_limits_ok l) ->
  quiet (d_vel des) ->
  (forall v, d_vel act = Some v -> isfinite (s_kv s) = true -> finite v /\ nonzero (s_kv s) = true) ->
  enforce_soft l s prev act des dt = Done prev' cmd b -> d_eff des = Some e -> isnan e = false ->
  exists e', d_eff cmd = Some e' /\ within (fopp (l_maxe l)) e' (l_maxe l).
Proof. exact main_soft_effort. Qed.
Print Assumptions c35_effort_partial.
(** soft limits -0.9..0.9, gains 20 and 3 *)
Definition soft : sl := {| s_minp := q (-9) 10; s_maxp := q 9 10; s_kp := of_Z 20; s_kv := of_Z 3 |}.
Example c35_example :
  has_soft_pos soft = true /\ has_soft soft = true /\
  cmd_of (enforce_soft lim soft no_data (posvel (q 89 100) (of_Z 0)) (posd (of_Z 9)) ms10) = Some (posd (fadd (q 89 100) (fmul (fmul (of_Z 10) ms10) ms10))) /\
  cmd_of (enforce_soft lim soft (posvel (q 89 100) (of_Z 2)) (posvel (q 89 100) (of_Z 2)) (posd (of_Z 9)) ms10) =
    Some (posd (fadd (q 89 100) (fmul (fmul (of_Z (-20)) (fsub (q 89 100) (q 9 10))) ms10))) /\
  cmd_of (enforce_soft lim soft no_data (posvel (of_Z 0) (of_Z 1)) (effd (of_Z (-7))) ms10) = Some (effd (of_Z (-5))).
Proof. vm_compute. repeat split. Qed.
(** it fails otherwise: (1) a joint moving faster than its limit: the bounds cross and std::clamp is
    called with lo > hi (undefined; with plain comparisons the answer would be 9.9, limit 2) *)
Theorem c35_undefined_refuted : exists l s act des dt,
  vel_limits_ok l /\ acc_limits_ok l /\ pos_limits_ok l /\ inside l (d_pos act) /\ d_vel act = Some (of_Z 10) /\
  enforce_soft l s no_data act des dt = Undefined.
Proof. exists lim, soft, (posvel (of_Z 0) (of_Z 10)), (veld (of_Z 0)), ms10.
  split; [split; vm_compute; reflexivity|]. split; [split; vm_compute; reflexivity|]. split; [repeat split; vm_compute; reflexivity|].
  split; [intros x E; injection E as <-; split; vm_compute; reflexivity|]. split; [reflexivity|]. vm_compute. reflexivity.
Qed.
Print Assumptions c35_undefined_refuted.
(** (2) without soft position limits, starting 5 mrad beyond the hard limit: the position command
    that is let through is beyond the hard limit as well *)
Theorem c35_position_refuted : exists l act des dt prev' cmd b p',
  pos_limits_ok l /\ vel_limits_ok l /\ dt_ok dt /\ l_hp l = true /\ d_pos act = Some (q 1005 1000) /\
  enforce_soft l no_soft no_data act des dt = Done prev' cmd b /\ d_pos cmd = Some p' /\ flt (l_maxp l) p' = true.
Proof. exists slow, (posd (q 1005 1000)), (posd (of_Z 0)), ms10. do 4 eexists. repeat (split; [vm_compute; (reflexivity || (repeat split))|]). vm_compute. reflexivity. Qed.
Print Assumptions c35_position_refuted.
(** (3) no velocity limits and velocity gain 0: the effort limit is not enforced *)
Definition eff_only : jl := {| l_hp := false; l_hv := false; l_ha := false; l_hd := false; l_he := true;
  l_minp := nan; l_maxp := nan; l_maxv := nan; l_maxa := nan; l_maxd := nan; l_maxj := nan; l_maxe := of_Z 5 |}.
Theorem c35_effort_refuted : exists l s act dt, dt_ok dt /\ l_he l = true /\ l_maxe l = of_Z 5 /\ d_vel act = Some (of_Z 0) /\
  cmd_of (enforce_soft l s no_data act (effd (of_Z 500)) dt) = Some (effd (of_Z 500)).
Proof. exists eff_only, {| s_minp := nan; s_maxp := nan; s_kp := nan; s_kv := fzero |}, (veld (of_Z 0)), ms10. vm_compute. repeat split. Qed.
Print Assumptions c35_effort_refuted.

(** C36: NaN (and absent) commands pass unchanged and the memory of the previous command stays. *)
Theorem c36_nan_passes : forall l prev act des dt prev' cmd b, has_data prev = true ->
  enforce l prev act des dt = Done prev' cmd b ->
  (quiet (d_pos des) -> d_pos cmd = d_pos des /\ d_pos prev' = d_pos prev) /\
  (quiet (d_vel des) -> d_vel cmd = d_vel des /\ d_vel prev' = d_vel prev) /\
  (quiet (d_eff des) -> d_eff cmd = d_eff des /\ d_eff prev' = d_eff prev) /\
  (quiet (d_acc des) -> d_acc cmd = d_acc des /\ d_acc prev' = d_acc prev) /\
  (quiet (d_jerk des) -> d_jerk cmd = d_jerk des /\ d_jerk prev' = d_jerk prev).
Proof. exact main_nan. Qed.
Print Assumptions c36_nan_passes.
Theorem c36_soft_nan_passes : forall l s prev act des dt prev' cmd b, has_data prev = true ->
  enforce_soft l s prev act des dt = Done prev' cmd b ->
  (quiet (d_pos des) -> d_pos cmd = d_pos des /\ d_pos prev' = d_pos prev) /\
  (quiet (d_vel des) -> d_vel cmd = d_vel des /\ d_vel prev' = d_vel prev) /\
  (quiet (d_eff des) -> d_eff cmd = d_eff des /\ d_eff prev' = d_eff prev) /\
  (quiet (d_acc des) -> d_acc cmd = d_acc des /\ d_acc prev' = d_acc prev) /\
  (quiet (d_jerk des) -> d_jerk cmd = d_jerk des /\ d_jerk prev' = d_jerk prev).
Proof. exact main_nan_soft. Qed.
Print Assumptions c36_soft_nan_passes.
Example c36_example :
  enforce lim (posd (q 1 2)) (posvel (q 1 2) (of_Z 0)) (posd nan) ms10 = Done (posd (q 1 2)) (posd nan) false /\
  has_data (posd (q 1 2)) = true /\ quiet (d_pos (posd nan)).
Proof. split; [vm_compute; reflexivity|]. split; [reflexivity|]. intros v [= <-]. reflexivity. Qed.
