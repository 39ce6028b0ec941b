(** SatModel.v -- the limiter for trajectory points, JointSaturationLimiter<JointTrajectoryPoint>::on_enforce.
    Models /repo/joint_limits/src/joint_saturation_limiter.cpp 27-436 (JT).  Numbers are exact rationals (every finite double
    is one); rounding, NaN and infinities are not modelled, nor is logging.  A vector is a list; a vector whose size is not
    the number of joints counts as absent, as in the code. *)
From Coq Require Import QArith Qabs Qminmax List Bool.
Import ListNotations.
Open Scope Q_scope.

Definition qlt (a b : Q) : bool := negb (Qle_bool b a).
Definition qcopysign (a b : Q) : Q := if qlt b 0 then - Qabs a else Qabs a.
(** std::clamp, lo <= hi *)
Definition qclamp (v lo hi : Q) : Q := if qlt v lo then lo else if qlt hi v then hi else v.
(** VALUE_CONSIDERED_ZERO, JT 24 *)
Definition tiny : Q := 1 # 10000000000.
Definition is_tiny (q : Q) : bool := Qle_bool (Qabs q) tiny.

(** JointLimits, joint_limits.hpp 27-69 (the fields used here) *)
Record qlim := { q_hp : bool; q_minp : Q; q_maxp : Q; q_hv : bool; q_maxv : Q; q_ha : bool; q_maxa : Q; q_hd : bool; q_maxd : Q }.
Definition no_lim : qlim := {| q_hp := false; q_minp := 0; q_maxp := 0; q_hv := false; q_maxv := 0; q_ha := false; q_maxa := 0; q_hd := false; q_maxd := 0 |}.
(** what is present: desired position, velocity, acceleration *)
Record given := { g_pos : bool; g_vel : bool; g_acc : bool }.
(** one joint: desired position, velocity, acceleration; limits_enforced; braking_near_position_limit_triggered *)
Record js := { j_p : Q; j_v : Q; j_a : Q; j_enf : bool; j_brake : bool }.
Definition set_p s x := {| j_p := x; j_v := j_v s; j_a := j_a s; j_enf := j_enf s; j_brake := j_brake s |}.
Definition set_v s x := {| j_p := j_p s; j_v := x; j_a := j_a s; j_enf := j_enf s; j_brake := j_brake s |}.
Definition set_a s x := {| j_p := j_p s; j_v := j_v s; j_a := x; j_enf := j_enf s; j_brake := j_brake s |}.
Definition enforced s := {| j_p := j_p s; j_v := j_v s; j_a := j_a s; j_enf := true; j_brake := j_brake s |}.
Definition braking s := {| j_p := j_p s; j_v := j_v s; j_a := j_a s; j_enf := true; j_brake := true |}.

Section Joint.
Variables (g : given) (l : qlim) (p v dt : Q).   (* current position and velocity of the joint *)

(** JT 93-119: limit position, take the velocity from the position command if none is given *)
Definition step_position (s : js) : js :=
  if g_pos g then
    let s := if q_hp l then
               let c := qclamp (j_p s) (q_minp l) (q_maxp l) in
               if negb (Qeq_bool c (j_p s)) then enforced (set_p s c) else s
             else s in
    let d := j_p s - p in
    if negb (is_tiny d) && is_tiny (j_v s) then set_v s (d / dt) else s
  else s.
(** JT 121-146: limit velocity *)
Definition step_velocity (s : js) : js :=
  if q_hv l then
    let s := if is_tiny (j_v s) then set_v s ((j_p s - p) / dt) else s in
    if qlt (q_maxv l) (Qabs (j_v s)) then
      let s := enforced (set_v s (qcopysign (q_maxv l) (j_v s))) in
      let s := if g_pos g then set_p s (p + j_v s * dt) else s in
      set_a s ((j_v s - v) / dt)
    else s
  else s.
(** apply_acc_or_dec_limit, JT 156-172 *)
Definition apply_limit (m : Q) (s : js) : js * bool :=
  if qlt m (Qabs (j_a s)) then (enforced (set_a s (qcopysign m (j_a s))), true) else (s, false).
(** JT 148-221: limit acceleration *)
Definition step_acceleration (s : js) : js :=
  if q_ha l || q_hd l then
    let s := if is_tiny (j_a s) then set_a s ((j_v s - v) / dt) else s in
    let slowing := (qlt (j_a s) 0 && qlt 0 v) || (qlt 0 (j_a s) && qlt v 0) in
    let dec := slowing && q_hd l in
    let '(s, ap) := if dec then apply_limit (q_maxd l) s else (s, false) in
    let '(s, ap) := if q_ha l && negb dec then apply_limit (q_maxa l) s else (s, ap) in
    if ap then
      let s := set_v s (v + j_a s * dt) in
      if g_pos g then set_p s (p + v * dt + (1 # 2) * j_a s * dt * dt) else s
    else s
  else s.
(** JT 223-302: plan ahead for position limits *)
Definition stop_rate (s : js) : Q :=
  if q_hd l then q_maxd l else if q_ha l then q_maxa l else Qabs (j_v s / dt).
Definition toward (vel room_lo room_hi d : Q) : bool := (qlt vel 0 && qlt room_lo d) || (qlt 0 vel && qlt room_hi d).
Definition step_ahead (s : js) : js :=
  if q_hp l then
    let s := if g_vel g && negb (g_pos g) then
               let e := p + j_v s * dt in
               let c := qclamp e (q_minp l) (q_maxp l) in
               if negb (Qeq_bool c e) then enforced (set_v s ((c - p) / dt)) else s
             else s in
    let rate := stop_rate s in
    let dist := Qabs ((- j_v s * j_v s) / (2 * rate)) in
    let dur := Qabs (j_v s / rate) in
    if toward (j_v s) (p - q_minp l) (q_maxp l - p) dist then braking s
    else if toward (j_v s) (p - q_minp l) (q_maxp l - p) (j_v s * dur) then braking s
    else s
  else s.
Definition joint_step (s : js) : js := step_ahead (step_acceleration (step_velocity (step_position s))).

(** JT 305-338: brake *)
Definition brake_acc : Q :=
  let a := - v / dt in
  if q_hd l then qcopysign (Qmin (Qabs a) (q_maxd l)) a
  else if q_ha l then qcopysign (Qmin (Qabs a) (q_maxa l)) a
  else a.
Definition brake (s : js) : js :=
  let s := set_a s brake_acc in
  let s := if g_vel g then set_v s (v + j_a s * dt) else s in
  if g_pos g then set_p s (p + v * dt + (1 # 2) * j_a s * dt * dt) else s.
End Joint.

(** trajectory_msgs::msg::JointTrajectoryPoint *)
Record point := { t_p : list Q; t_v : list Q; t_a : list Q }.

Definition has (n : nat) (xs : list Q) : bool := Nat.eqb (List.length xs) n.
(** JT 52-59 *)
Definition given_in (n : nat) (d : point) : given := {| g_pos := has n (t_p d); g_vel := has n (t_v d); g_acc := has n (t_a d) |}.
Definition entry (b : bool) (xs : list Q) (i : nat) : Q := if b then nth i xs 0 else 0.
(** JT 76-91: the local vectors start as zeros *)
Definition start_joint (g : given) (d : point) (i : nat) : js :=
  {| j_p := entry (g_pos g) (t_p d) i; j_v := entry (g_vel g) (t_v d) i; j_a := entry (g_acc g) (t_a d) i; j_enf := false; j_brake := false |}.

(** on_enforce; the point it leaves in desired_joint_states and the answer *)
Definition on_enforce (lims : list qlim) (cur d : point) (dt : Q) : point * bool :=
  let n := List.length lims in
  if Qle_bool dt 0 then (d, false)
  else
    let g := given_in n d in
    if negb (has n (t_p cur) && (g_pos g || g_vel g)) then (d, false)
    else
      let cv i := entry (has n (t_v cur)) (t_v cur) i in
      let cp i := nth i (t_p cur) 0 in
      let one i := joint_step g (nth i lims no_lim) (cp i) (cv i) dt (start_joint g d i) in
      let js1 := map one (seq 0 n) in
      let js2 := if existsb j_brake js1
                 then map (fun i => brake g (nth i lims no_lim) (cp i) (cv i) dt (one i)) (seq 0 n)
                 else js1 in
      ({| t_p := if g_pos g then map j_p js2 else t_p d; t_v := if g_vel g then map j_v js2 else t_v d;
          t_a := if g_acc g then map j_a js2 else t_a d |}, existsb j_enf js1).
