(** LimitsSpec.v -- the words used in the statements about the joint limiters. *)
From Coq Require Import ZArith Bool List SpecFloat.
From Verif Require Import LimitsModel.

(** lo <= v <= hi as doubles (in particular none of them is NaN) *)
Definition within (lo v hi : F) : Prop := fle lo v = true /\ fle v hi = true.
Definition finite (v : F) : Prop := isfinite v = true.
(** all that is there is finite *)
Definition each (P : F -> Prop) (o : option F) : Prop := forall x, o = Some x -> P x.

(** well-formed limits: finite, ordered, non-negative *)
Definition pos_limits_ok (l : jl) : Prop := finite (l_minp l) /\ finite (l_maxp l) /\ fle (l_minp l) (l_maxp l) = true.
Definition vel_limits_ok (l : jl) : Prop := finite (l_maxv l) /\ fle fzero (l_maxv l) = true.
Definition acc_limits_ok (l : jl) : Prop := finite (l_maxa l) /\ fle fzero (l_maxa l) = true.
(** dt is a positive number of seconds *)
Definition dt_ok (dt : F) : Prop := finite dt /\ flt fzero dt = true.

(** the velocity the limiter compares the command with: the remembered command; for the very first
    command the measured velocity or else the command itself *)
Definition vel_start_ok (l : jl) (prev act : jd) (v : F) : Prop :=
  each (fun w => within (fopp (l_maxv l)) w (l_maxv l)) (d_vel prev) /\
  (has_data prev = false -> each (fun w => within (fopp (l_maxv l)) w (l_maxv l)) (d_vel act)) /\
  (has_data prev = false -> d_vel act = None -> within (fopp (l_maxv l)) v (l_maxv l)).

(** the distance a joint may move in one cycle: at the maximum velocity, or at the velocity it can reach in this
    cycle from the measured one when its acceleration is limited *)
Definition max_step (l : jl) (act_vel : option F) (dt : F) : F :=
  fmul (if l_ha l then fmin (l_maxv l) (fadd (match act_vel with Some v => fabs v | None => fzero end) (fmul (l_maxa l) dt))
        else l_maxv l) dt.

(** every number of the limits / of the data is a double *)
Definition doubles_jl (D : F -> Prop) (l : jl) : Prop :=
  D (l_minp l) /\ D (l_maxp l) /\ D (l_maxv l) /\ D (l_maxa l).
Definition doubles_jd (D : F -> Prop) (d : jd) : Prop := each D (d_pos d) /\ each D (d_vel d).
(** the measured position is known only within the joint's limits *)
Definition inside (l : jl) (o : option F) : Prop := each (fun q => within (l_minp l) q (l_maxp l)) o.

(** a cycle of a joint in normal operation: the measured position is finite and inside the limits, the
    measured velocity within its limit (and measured at all, when accelerations are limited); the
    commands are arbitrary doubles, except that an infinite position command needs a measured position *)
Record sane (D : F -> Prop) (l : jl) (c : cycle) : Prop := {
  sn_dt : dt_ok (y_dt c) /\ D (y_dt c);
  sn_act : doubles_jd D (y_act c);
  sn_des : doubles_jd D (y_des c);
  sn_pos : inside l (d_pos (y_act c));
  sn_vel : each (fun w => within (fopp (l_maxv l)) w (l_maxv l)) (d_vel (y_act c));
  sn_meas : l_ha l = true -> d_vel (y_act c) <> None;
  sn_cmd : forall p, d_pos (y_des c) = Some p -> finite p \/ isnan p = true \/ d_pos (y_act c) <> None }.
