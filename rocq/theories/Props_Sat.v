(** Props_Sat.v -- C67: the limiter for trajectory points. *)
From Coq Require Import QArith Qabs Qminmax List Bool Lqa Lia.
From Verif Require Import SatModel SatSpec SatProofs SatMain SatMain2 SatMain3.
Import ListNotations.
Open Scope Q_scope.

(** C67.  A request that lacks a positive period, the measured positions, or both commands changes nothing. *)
Theorem c67_refused : forall lims cur d dt,
  dt <= 0 \/ ~ full lims (t_p cur) \/ (~ full lims (t_p d) /\ ~ full lims (t_v d)) -> on_enforce lims cur d dt = (d, false).
Proof. exact refused. Qed.
Print Assumptions c67_refused.

(** A joint that moves no faster than its limit is never commanded to move faster (no acceleration in the command; for a
    pure velocity command the joint is within its position limits). *)
Theorem c67_velocity : forall lims cur d dt out ans i,
  on_enforce lims cur d dt = (out, ans) -> 0 < dt -> (i < njoints lims)%nat -> sound (lim lims i) ->
  full lims (t_p cur) -> full lims (t_v d) -> ~ full lims (t_a d) ->
  q_hv (lim lims i) = true -> Qabs (now lims cur i) <= q_maxv (lim lims i) ->
  (full lims (t_p d) \/ within (lim lims i) (pos cur i)) ->
  Qabs (vel out i) <= q_maxv (lim lims i).
Proof. exact vel_limit. Qed.
Print Assumptions c67_velocity.

(** The commanded velocity changes no faster than the acceleration and deceleration limits permit. *)
Theorem c67_acceleration : forall lims cur d dt out ans i,
  on_enforce lims cur d dt = (out, ans) -> 0 < dt -> (i < njoints lims)%nat -> sound (lim lims i) ->
  full lims (t_p cur) -> full lims (t_v d) -> ~ full lims (t_a d) ->
  (full lims (t_p d) \/ q_hp (lim lims i) = false) ->
  rate_ok (lim lims i) dt (now lims cur i) (vel out i).
Proof. exact rate_limit. Qed.
Print Assumptions c67_acceleration.

(** A position command for a joint without acceleration limits ends up within the position limits. *)
Theorem c67_position : forall lims cur d dt out ans i,
  on_enforce lims cur d dt = (out, ans) -> 0 < dt -> (i < njoints lims)%nat -> sound (lim lims i) ->
  full lims (t_p cur) -> full lims (t_p d) -> ~ full lims (t_v d) ->
  q_ha (lim lims i) = false -> q_hd (lim lims i) = false ->
  within (lim lims i) (pos cur i) -> within (lim lims i) (pos cur i + now lims cur i * dt / 2) ->
  within (lim lims i) (pos out i).
Proof. exact pos_limit. Qed.
Print Assumptions c67_position.

(** After a pure velocity command every joint is within its position limits one cycle later, or every joint brakes as
    hard as its limits permit. *)
Theorem c67_velocity_command : forall lims cur d dt out ans,
  on_enforce lims cur d dt = (out, ans) -> 0 < dt -> (forall i, (i < njoints lims)%nat -> sound (lim lims i)) ->
  full lims (t_p cur) -> full lims (t_v d) -> ~ full lims (t_p d) ->
  (forall i, (i < njoints lims)%nat -> within (lim lims i) (pos cur i + vel out i * dt)) \/
  (ans = true /\ forall i, (i < njoints lims)%nat -> braked (lim lims i) dt (now lims cur i) (vel out i)).
Proof. exact vel_next. Qed.
Print Assumptions c67_velocity_command.

(** If one joint cannot stop before its limit, all joints brake. *)
Theorem c67_near_limit : forall lims cur d dt out ans k r,
  on_enforce lims cur d dt = (out, ans) -> 0 < dt -> (forall i, (i < njoints lims)%nat -> sound (lim lims i)) ->
  full lims (t_p cur) -> full lims (t_p d) -> full lims (t_v d) -> ~ full lims (t_a d) ->
  (k < njoints lims)%nat -> q_hp (lim lims k) = true -> within (lim lims k) (pos cur k) -> within (lim lims k) (pos d k) ->
  noticeable (vel d k) -> speed_ok (lim lims k) (vel d k) -> rate_ok (lim lims k) dt (now lims cur k) (vel d k) ->
  stopping (lim lims k) = Some r ->
  (0 < vel d k /\ r * (q_maxp (lim lims k) - pos cur k) < vel d k * vel d k) \/
  (vel d k < 0 /\ 2 * r * (pos cur k - q_minp (lim lims k)) < vel d k * vel d k) ->
  ans = true /\ forall i, (i < njoints lims)%nat -> braked (lim lims i) dt (now lims cur i) (vel out i).
Proof. exact near_limit_brakes. Qed.
Print Assumptions c67_near_limit.

(** The answer "nothing was limited" means: positions are the ones asked for, and so is every velocity (and
    acceleration) that is not practically zero. *)
Theorem c67_not_limited : forall lims cur d dt out,
  on_enforce lims cur d dt = (out, false) -> 0 < dt -> full lims (t_p cur) -> full lims (t_p d) \/ full lims (t_v d) ->
  t_p out = t_p d /\
  (forall i, (i < njoints lims)%nat -> full lims (t_v d) -> noticeable (vel d i) -> vel out i = vel d i) /\
  (forall i, (i < njoints lims)%nat -> full lims (t_a d) -> noticeable (acc d i) \/ (q_ha (lim lims i) = false /\ q_hd (lim lims i) = false) -> acc out i = acc d i).
Proof. exact quiet_unchanged. Qed.
Print Assumptions c67_not_limited.

(** A command that respects all limits is handed on unchanged. *)
Theorem c67_harmless_passes : forall lims cur d dt,
  0 < dt -> full lims (t_p cur) -> full lims (t_v d) -> ~ full lims (t_a d) ->
  (forall i, (i < njoints lims)%nat -> sound (lim lims i) /\ harmless lims cur d dt i) ->
  exists out, on_enforce lims cur d dt = (out, false) /\ t_p out = t_p d /\ forall i, (i < njoints lims)%nat -> vel out i == vel d i.
Proof. exact harmless_passes. Qed.
Print Assumptions c67_harmless_passes.

(** The shape of the command is kept. *)
Theorem c67_shape : forall lims cur d dt out ans, on_enforce lims cur d dt = (out, ans) ->
  List.length (t_p out) = List.length (t_p d) /\ List.length (t_v out) = List.length (t_v d) /\ List.length (t_a out) = List.length (t_a d).
Proof.
  intros lims cur d dt out ans E.
  destruct (Qlt_le_dec 0 dt) as [D|D].
  - destruct (full_dec lims (t_p cur)) as [F|F].
    + destruct (full_dec lims (t_p d)) as [P|P]; [exact (out_len _ _ _ _ _ _ E D F (or_introl P))|].
      destruct (full_dec lims (t_v d)) as [V|V]; [exact (out_len _ _ _ _ _ _ E D F (or_intror V))|].
      rewrite refused in E by auto. injection E as <- _. auto.
    + rewrite refused in E by auto. injection E as <- _. auto.
  - rewrite refused in E by auto. injection E as <- _. auto.
Qed.
Print Assumptions c67_shape.

(** What fails.  "A velocity command of zero keeps a joint standing still": with a velocity limit the joint is sent towards
    position zero instead, because the unset position command counts as 0. *)
Definition L hp lo hi hv mv ha ma hd md : qlim := {| q_hp := hp; q_minp := lo; q_maxp := hi; q_hv := hv; q_maxv := mv; q_ha := ha; q_maxa := ma; q_hd := hd; q_maxd := md |}.
Definition P ps vs as_ : point := {| t_p := ps; t_v := vs; t_a := as_ |}.
Theorem c67_stop_refuted : exists lims cur d dt out ans, on_enforce lims cur d dt = (out, ans) /\ 0 < dt /\ sound (lim lims 0) /\
  njoints lims = 1%nat /\ t_v d = [0] /\ t_p d = [] /\ t_a d = [] /\ now lims cur 0 == 0 /\ pos cur 0 == 5 /\ vel out 0 == -1.
Proof.
  exists [L false 0 0 true 1 false 0 false 0], (P [5] [0] []), (P [] [0] []), (1#10). eexists; eexists. split; [reflexivity|].
  repeat split; cbn; intros; try discriminate; reflexivity.
Qed.
Print Assumptions c67_stop_refuted.
(** "The velocity limit always holds": a joint outside its position limits is sent back within one cycle, at any speed. *)
Theorem c67_outside_refuted : exists lims cur d dt out ans, on_enforce lims cur d dt = (out, ans) /\ 0 < dt /\ sound (lim lims 0) /\
  njoints lims = 1%nat /\ q_hv (lim lims 0) = true /\ q_maxv (lim lims 0) == 1 /\ now lims cur 0 == 0 /\ full lims (t_v d) /\ vel out 0 == -100.
Proof.
  exists [L true (-1) 1 true 1 false 0 false 0], (P [2] [0] []), (P [] [1#2] []), (1#100). eexists; eexists. split; [reflexivity|].
  repeat split; cbn; intros; try discriminate; reflexivity.
Qed.
Print Assumptions c67_outside_refuted.
(** "... whatever else the command contains": an acceleration in the command overrides the velocity limit, ... *)
Theorem c67_given_acceleration_refuted : exists lims cur d dt out ans, on_enforce lims cur d dt = (out, ans) /\ 0 < dt /\ sound (lim lims 0) /\
  njoints lims = 1%nat /\ q_hv (lim lims 0) = true /\ q_maxv (lim lims 0) == 1 /\ now lims cur 0 == 1 /\ full lims (t_v d) /\ vel d 0 == 1 /\ vel out 0 == 11.
Proof.
  exists [L false 0 0 true 1 true 10 false 0], (P [0] [1] []), (P [] [1] [100]), 1. eexists; eexists. split; [reflexivity|].
  repeat split; cbn; intros; try discriminate; try reflexivity.
Qed.
Print Assumptions c67_given_acceleration_refuted.
(** ... and hides a jump of the velocity from the acceleration limit. *)
Theorem c67_jump_refuted : exists lims cur d dt out ans, on_enforce lims cur d dt = (out, ans) /\ 0 < dt /\ sound (lim lims 0) /\
  njoints lims = 1%nat /\ q_ha (lim lims 0) = true /\ q_maxa (lim lims 0) == 10 /\ now lims cur 0 == 0 /\ full lims (t_v d) /\ full lims (t_p d) /\
  ans = false /\ vel out 0 == 100.
Proof.
  exists [L false 0 0 false 0 true 10 false 0], (P [0] [0] []), (P [0] [100] [1]), (1#100). eexists; eexists. split; [reflexivity|].
  repeat split; cbn; intros; try discriminate; reflexivity.
Qed.
Print Assumptions c67_jump_refuted.
(** "Commanded positions are within the position limits": not for a command with position and velocity. *)
Theorem c67_position_refuted : exists lims cur d dt out ans, on_enforce lims cur d dt = (out, ans) /\ 0 < dt /\ sound (lim lims 0) /\
  njoints lims = 1%nat /\ q_hp (lim lims 0) = true /\ q_maxp (lim lims 0) == 1 /\ pos cur 0 == 9#10 /\ now lims cur 0 == 0 /\ pos d 0 == 1 /\
  full lims (t_v d) /\ full lims (t_p d) /\ pos out 0 == 19#10.
Proof.
  exists [L true (-1) 1 true 10 false 0 true 1000], (P [9#10] [0] []), (P [1] [100] []), (1#10). eexists; eexists. split; [reflexivity|].
  repeat split; cbn; intros; try discriminate; reflexivity.
Qed.
Print Assumptions c67_position_refuted.
(** "Both directions are treated alike": the mirror image of a command that is braked passes. *)
Definition mirror (x : point) : point := P (map Qopp (t_p x)) (map Qopp (t_v x)) (map Qopp (t_a x)).
Theorem c67_mirror_refuted : exists lims cur d dt, 0 < dt /\ sound (lim lims 0) /\ q_minp (lim lims 0) == - q_maxp (lim lims 0) /\
  snd (on_enforce lims cur d dt) = true /\ snd (on_enforce lims (mirror cur) (mirror d) dt) = false.
Proof.
  exists [L true (-1) 1 false 0 false 0 true 1], (P [1#10] [1] []), (P [2#10] [1] []), (1#10).
  repeat split; cbn; intros; try discriminate; reflexivity.
Qed.
Print Assumptions c67_mirror_refuted.

(** Non-vacuity: two joints, measured position and velocity. *)
Definition two : list qlim := [L true (-1) 1 true 2 true 4 true 8; L true (-3) 3 true 1 true 1 false 0].
Definition at1 : point := P [1#2; 0] [1; 0] [].
Definition ok1 : point := P [6#10; 1#10] [1; 1#10] [].
Definition fast : point := P [9#10; 1] [9#10; 5] [].
Definition near : point := P [9#10; 0] [2; 0] [].
Example hyps1 : full two (t_p at1) /\ full two (t_p ok1) /\ full two (t_v ok1) /\ ~ full two (t_a ok1) /\
  forall i, (i < njoints two)%nat -> sound (lim two i) /\ harmless two at1 ok1 (1#10) i.
Proof.
  repeat split; try reflexivity; try (cbn; discriminate).
  all: destruct i as [|[|i]]; [| |exfalso; cbn in H; lia]; cbn; try (intro; discriminate);
   try (intros; split; discriminate); try (left; reflexivity); intros; try discriminate; try lra; try reflexivity; try (exfalso; revert H1; cbn; discriminate).
  all: try (intro; exfalso; apply H0; reflexivity).
  all: try (split; cbn; discriminate). all: try (exfalso; apply H0; reflexivity).
Qed.
Example ok1_passes : snd (on_enforce two at1 ok1 (1#10)) = false. Proof. reflexivity. Qed.
Example fast_limited : snd (on_enforce two at1 fast (1#10)) = true /\ vel (fst (on_enforce two at1 fast (1#10))) 1 == 1#10. Proof. split; reflexivity. Qed.
Example near_brakes : snd (on_enforce two (P [9#10; 0] [2; 1] []) near (1#10)) = true /\
  vel (fst (on_enforce two (P [9#10; 0] [2; 1] []) near (1#10))) 0 == 12#10 /\ vel (fst (on_enforce two (P [9#10; 0] [2; 1] []) near (1#10))) 1 == 9#10.
Proof. repeat split; reflexivity. Qed.
Example velocity_only : vel (fst (on_enforce [L true (-1) 1 false 0 false 0 false 0] (P [9#10] [] []) (P [] [5] []) (1#10))) 0 == 1.
Proof. reflexivity. Qed.
Example position_only : pos (fst (on_enforce [L true (-1) 1 true 2 false 0 false 0] (P [9#10] [] []) (P [5] [] []) (1#10))) 0 == 1.
Proof. reflexivity. Qed.
