(** Props_Pass.v -- C56, C57: the limiters limit no more than needed, remember what they let through, and the soft
    limits slow a joint down (PassSpec.v). *)
From Coq Require Import ZArith Bool List SpecFloat.
From Verif Require Import LimitsModel FloatOrder FloatReal LimitsSpec LimitsProofs LimitsMain LimitsHist PassSpec LimitsPass LimitsSoft Props_Limits.
Import ListNotations.

(** C56: a command that respects the limits passes unchanged and is reported as not limited. *)
Theorem c56_passes : forall l prev act des dt,
  double (l_minp l) -> double (l_maxp l) -> (l_hp l = true -> pos_limits_ok l) -> dt_ok dt -> respects l prev act des dt ->
  exists prev', enforce l prev act des dt = Done prev' des false.
Proof. exact main_pass. Qed.
Print Assumptions c56_passes.
(** and every command that is let through is the one the next command is compared with *)
Theorem c56_remembers : forall l prev act des dt prev' cmd b, flt fzero dt = true -> enforce l prev act des dt = Done prev' cmd b ->
  (forall x, commands (d_pos cmd) x -> d_pos prev' = Some x) /\ (forall x, commands (d_vel cmd) x -> d_vel prev' = Some x) /\
  (forall x, commands (d_eff cmd) x -> d_eff prev' = Some x) /\ (forall x, commands (d_acc cmd) x -> d_acc prev' = Some x) /\
  (forall x, commands (d_jerk cmd) x -> d_jerk prev' = Some x).
Proof. exact main_remembers. Qed.
Print Assumptions c56_remembers.
Theorem c56_soft_remembers : forall l s prev act des dt prev' cmd b, flt fzero dt = true -> enforce_soft l s prev act des dt = Done prev' cmd b ->
  (forall x, commands (d_pos cmd) x -> d_pos prev' = Some x) /\ (forall x, commands (d_vel cmd) x -> d_vel prev' = Some x) /\
  (forall x, commands (d_eff cmd) x -> d_eff prev' = Some x) /\ (forall x, commands (d_acc cmd) x -> d_acc prev' = Some x) /\
  (forall x, commands (d_jerk cmd) x -> d_jerk prev' = Some x).
Proof. exact main_remembers_soft. Qed.
Print Assumptions c56_soft_remembers.
(** a joint at 0.5 rad moving at 1 rad/s, told to move on to 0.51 rad at 1.05 rad/s with 3 Nm *)
Definition all5 : jl := {| l_hp := true; l_hv := true; l_ha := true; l_hd := false; l_he := true;
  l_minp := of_Z (-1); l_maxp := of_Z 1; l_maxv := of_Z 2; l_maxa := of_Z 10; l_maxd := nan; l_maxj := of_Z 100; l_maxe := of_Z 5 |}.
Definition moving : jd := posvel (q 1 2) (of_Z 1).
Definition onward : jd := cmd1 (Some (q 51 100)) (Some (q 105 100)) (Some (of_Z 3)) (Some (of_Z 5)) (Some (of_Z 7)).
Example c56_example : respects all5 moving moving onward ms10 /\ dt_ok ms10 /\ pos_limits_ok all5 /\
  enforce all5 moving moving onward ms10 = Done onward onward false /\
  (exists p' c', enforce all5 moving moving (cmd1 (Some (q 53 100)) (Some (q 105 100)) (Some (of_Z 3)) (Some (of_Z 5)) (Some (of_Z 7))) ms10 = Done p' c' true).
Proof.
  split; [|split; [split; vm_compute; reflexivity|split; [repeat split; vm_compute; reflexivity|split; [vm_compute; reflexivity|vm_compute; eauto]]]].
  constructor.
  - intros p [[= <-] _]. split; [left; split; vm_compute; reflexivity|]. split; [intros _ x [= <-]; split; vm_compute; reflexivity|].
    intros _ r [= <-]. split; vm_compute; reflexivity.
  - intros v [[= <-] _] _. split; [split; vm_compute; reflexivity|]. split; [intros _ x [= <-]; repeat split; vm_compute; reflexivity|].
    intros _ w [= <-]. split; vm_compute; reflexivity.
  - intros e [[= <-] _] _. split; [split; vm_compute; reflexivity|]. split; [intros _ x [= <-]; split; vm_compute; reflexivity|].
    intros _ w [= <-]. split; vm_compute; reflexivity.
  - intros a [[= <-] _]. split; [discriminate|]. intros _ _. split; vm_compute; reflexivity.
  - intros j [[= <-] _]. split; vm_compute; reflexivity.
Qed.

(** C57: with soft limits the velocity that is let through lies in the range they allow, and so does the effort: the
    range gets narrower the closer the last commanded position is to the soft limit.  [here] is the measured position. *)
Theorem c57_velocity : forall l s prev act des dt prev' cmd b v here,
  l_hv l = true -> l_hp l = true -> vel_limits_ok l -> pos_limits_ok l -> has_soft s = true -> dt_ok dt ->
  (l_ha l = true -> acc_limits_ok l /\ each finite (d_vel prev)) -> each finite (d_vel act) ->
  d_pos act = Some here -> finite here ->
  enforce_soft l s prev act des dt = Done prev' cmd b -> d_vel des = Some v -> finite v ->
  exists v' lo hi, d_vel cmd = Some v' /\ soft_range l s (last_position prev here) here lo hi /\ within lo v' hi.
Proof. exact soft_velocity. Qed.
Print Assumptions c57_velocity.
(** effort, when no velocity is commanded at the same time *)
Theorem c57_effort : forall l s prev act des dt prev' cmd b e w here,
  l_hv l = true -> l_hp l = true -> l_he l = true -> vel_limits_ok l -> fle fzero (l_maxe l) = true -> has_soft s = true -> flt fzero dt = true ->
  isfinite (s_kv s) = true -> nonzero (s_kv s) = true -> quiet (d_vel des) ->
  d_pos act = Some here -> finite here -> d_vel act = Some w -> finite w ->
  enforce_soft l s prev act des dt = Done prev' cmd b -> d_eff des = Some e -> isnan e = false ->
  exists e' lo hi, d_eff cmd = Some e' /\ soft_range l s (last_position prev here) here lo hi /\ within (effort_towards l s w lo) e' (effort_towards l s w hi).
Proof. exact soft_effort. Qed.
Print Assumptions c57_effort.
(** 0.01 rad before the soft limit with gain 20: at most 0.2 rad/s; beyond the soft limit only slowly *)
Example c57_example :
  has_soft soft = true /\ quiet (d_vel (effd (of_Z 4))) /\ nonzero (s_kv soft) = true /\
  cmd_of (enforce_soft lim soft (posvel (q 89 100) (q 15 100)) (posvel (q 89 100) (q 15 100)) (veld (of_Z 2)) ms10) =
    Some (veld (fmul (of_Z (-20)) (fsub (q 89 100) (q 9 10)))) /\
  soft_range lim soft (q 89 100) (q 89 100) (of_Z (-2)) (fmul (of_Z (-20)) (fsub (q 89 100) (q 9 10))) /\
  cmd_of (enforce_soft lim soft (posvel (q 89 100) (of_Z 1)) (posvel (q 89 100) (of_Z 1)) (effd (of_Z 4)) ms10) =
    Some (effd (fmul (of_Z (-3)) (fsub (of_Z 1) (fmul (of_Z (-20)) (fsub (q 89 100) (q 9 10)))))).
Proof.
  split; [vm_compute; reflexivity|]. split; [intros v; discriminate|]. split; [vm_compute; reflexivity|]. split; [vm_compute; reflexivity|]. split; [|vm_compute; reflexivity].
  right; right. split; [intros [_ [H|H]]; vm_compute in H; discriminate|]. split; [intros [H|H]; vm_compute in H; discriminate|]. split; vm_compute; reflexivity.
Qed.
