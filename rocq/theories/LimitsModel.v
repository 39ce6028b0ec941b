(** LimitsModel.v -- the joint limiters that work on one joint's command, in IEEE double arithmetic.
    Doubles are [spec_float]s and arithmetic is that of the standard library's SpecFloat at
    precision 53, emax 1024 (round to nearest even); a comparison with NaN is false.
    Source: joint_limits/src/joint_limits_helpers.cpp (JH), joint_range_limiter.cpp (JR),
    joint_soft_limiter.cpp (JS), joint_limits/include/joint_limits/joint_limits.hpp (JL).
    Not modelled: logging, the mutex, the joint name, the real-time box the limits come from
    (joint_limiter_interface.hpp), the limiter for trajectories (joint_saturation_limiter.cpp). *)
From Coq Require Import ZArith Bool List SpecFloat.
Import ListNotations.
Open Scope Z_scope.

Notation F := spec_float.
Definition fadd : F -> F -> F := SFadd 53 1024.
Definition fsub : F -> F -> F := SFsub 53 1024.
Definition fmul : F -> F -> F := SFmul 53 1024.
Definition fdiv : F -> F -> F := SFdiv 53 1024.
Definition fopp : F -> F := SFopp.
Definition fabs : F -> F := SFabs.
Definition flt (a b : F) : bool := SFltb a b.
Definition fle (a b : F) : bool := SFleb a b.
Definition inf : F := S754_infinity false.
Definition ninf : F := S754_infinity true.
Definition nan : F := S754_nan.
Definition fzero : F := S754_zero false.
Definition isnan (a : F) : bool := match a with S754_nan => true | _ => false end.
Definition isfinite (a : F) : bool := match a with S754_zero _ | S754_finite _ _ _ => true | _ => false end.
(** std::min, std::max *)
Definition fmin (a b : F) : F := if flt b a then b else a.
Definition fmax (a b : F) : F := if flt a b then b else a.
(** std::copysign, first argument finite *)
Definition sign_of (a : F) : bool := match a with S754_zero s | S754_infinity s => s | S754_finite s _ _ => s | S754_nan => false end.
Definition fcopysign (a b : F) : F := if sign_of b then fopp (fabs a) else fabs a.
(** the double nearest to the integer z *)
Definition of_Z (z : Z) : F := binary_normalize 53 1024 z 0 false.
(** JH 30-32 of the header: POSITION_BOUNDS_TOLERANCE = 0.002, OUT_OF_BOUNDS_EXCEPTION_TOLERANCE = 0.0087 *)
Definition bounds_tol : F := fdiv (of_Z 2) (of_Z 1000).
Definition throw_tol : F := fdiv (of_Z 87) (of_Z 10000).
(** VALUE_CONSIDERED_ZERO = 1e-10, joint_soft_limiter.hpp 26 *)
Definition almost_zero : F := fdiv (of_Z 1) (of_Z 10000000000).
(** 1.0 * (M_PI / 180.0), JS 157; M_PI = 7074237752028440 * 2^-51 *)
Definition reach_vel : F := fdiv (binary_normalize 53 1024 7074237752028440 (-51) false) (of_Z 180).

(** JointLimits, JL 27-69 *)
Record jl := { l_hp : bool; l_hv : bool; l_ha : bool; l_hd : bool; l_he : bool;
               l_minp : F; l_maxp : F; l_maxv : F; l_maxa : F; l_maxd : F; l_maxj : F; l_maxe : F }.
(** SoftJointLimits, JL 125-142 *)
Record sl := { s_minp : F; s_maxp : F; s_kp : F; s_kv : F }.
(** JointControlInterfacesData, data_structures.hpp 46-75 *)
Record jd := { d_pos : option F; d_vel : option F; d_eff : option F; d_acc : option F; d_jerk : option F }.
Definition no_data : jd := {| d_pos := None; d_vel := None; d_eff := None; d_acc := None; d_jerk := None |}.
Definition is_some {A} (o : option A) : bool := match o with Some _ => true | None => false end.
Definition has_data (d : jd) : bool :=
  is_some (d_pos d) || is_some (d_vel d) || is_some (d_eff d) || is_some (d_acc d) || is_some (d_jerk d).

(** std::clamp: undefined when hi < lo.  None = undefined behaviour *)
Definition fclamp (v lo hi : F) : option F :=
  if flt hi lo then None else Some (if flt v lo then lo else if flt hi v then hi else v).
(** is_limited, JH 100 *)
Definition is_limited (v lo hi : F) : bool := flt v lo || flt hi v.
(** check_and_swap_limits, JH 33-39 *)
Definition swap (b : F * F) : F * F := let '(lo, hi) := b in if flt hi lo then (hi, lo) else (lo, hi).

(** verify_actual_position_within_limits, JH 49-72: true = throws *)
Definition out_of_bounds (l : jl) (act : option F) : bool :=
  match act with
  | Some p => l_hp l && (flt (fadd (l_maxp l) throw_tol) p || flt p (fsub (l_minp l) throw_tol))
  | None => false
  end.

(** compute_position_limits, JH 102-137 (after the check) *)
Definition pos_delta (l : jl) (act_vel : option F) (dt : F) : F :=
  let act_abs := match act_vel with Some v => fabs v | None => fzero end in
  let delta_vel := if l_ha l then fadd act_abs (fmul (l_maxa l) dt) else l_maxv l in
  fmul (fmin (l_maxv l) delta_vel) dt.
Definition pos_ref (prev act : option F) : option F := match prev with Some _ => prev | None => act end.
Definition position_limits (l : jl) (act_vel act_pos prev : option F) (dt : F) : F * F :=
  let lo := l_minp l in let hi := l_maxp l in
  swap (if l_hv l then
          let dp := pos_delta l act_vel dt in
          match pos_ref prev act_pos with
          | Some r => let lo' := fmax (fmin (fsub r dp) hi) lo in
                      let hi' := fmin (fmax (fadd r dp) lo') hi in (lo', hi')
          | None => (lo, hi)
          end
        else (lo, hi)).

(** compute_velocity_limits, JH 139-195 *)
Definition vel_by_pos (l : jl) (des p dt : F) : F * F :=
  let lo := fmax (fdiv (fsub (l_minp l) p) dt) (fopp (l_maxv l)) in
  let hi := fmin (fdiv (fsub (l_maxp l) p) dt) (l_maxv l) in
  if flt (l_maxp l) p || flt p (l_minp l) then
    if (flt p (fadd (l_maxp l) bounds_tol) && flt (l_minp l) p && fle fzero des) ||
       (flt (fsub (l_minp l) bounds_tol) p && flt p (l_maxp l) && fle des fzero) then (fzero, fzero)
    else if flt (fadd (l_maxp l) bounds_tol) p || flt p (fsub (l_minp l) bounds_tol) then (fzero, fzero)
    else (lo, hi)
  else (lo, hi).
Definition velocity_limits (l : jl) (des : F) (act_pos prev : option F) (dt : F) : F * F :=
  if l_hv l then
    let b := match act_pos with
             | Some p => if l_hp l then vel_by_pos l des p dt else (fopp (l_maxv l), l_maxv l)
             | None => (fopp (l_maxv l), l_maxv l) end in
    let b' := match prev with
              | Some v => if l_ha l then let dv := fmul (l_maxa l) dt in
                                         (fmax (fsub v dv) (fst b), fmin (fadd v dv) (snd b)) else b
              | None => b end in
    swap b'
  else (ninf, inf).

(** compute_effort_limits, JH 197-233 *)
Definition effort_limits (l : jl) (act_pos act_vel : option F) : F * F :=
  if l_he l then
    let b := (fopp (l_maxe l), l_maxe l) in
    let b1 := match act_pos, act_vel with
              | Some p, Some v =>
                  if l_hp l then
                    if fle p (l_minp l) && fle v fzero then (fzero, snd b)
                    else if fle (l_maxp l) p && fle fzero v then (fst b, fzero) else b
                  else b
              | _, _ => b end in
    let b2 := match act_vel with
              | Some v => if l_hv l then
                            if flt v (fopp (l_maxv l)) then (fzero, snd b1)
                            else if flt (l_maxv l) v then (fst b1, fzero) else b1
                          else b1
              | None => b1 end in
    swap b2
  else (ninf, inf).

(** compute_acceleration_limits, JH 235-257 *)
Definition acceleration_limits (l : jl) (des : F) (act_vel : option F) : F * F :=
  let slowing := match act_vel with
                 | Some v => (flt des fzero && flt fzero v) || (flt fzero des && flt v fzero)
                 | None => false end in
  swap (if l_hd l && slowing then (fopp (l_maxd l), l_maxd l)
        else if l_ha l then (fopp (l_maxa l), l_maxa l) else (ninf, inf)).

(** the filling of prev_command_ at the top of on_enforce, JR 60-122, JS 45-107 *)
Definition fill1 (prev act des : option F) : option F :=
  match des with
  | Some v => match act with Some _ => act | None => if isnan v then prev else des end
  | None => prev end.
Definition fill (prev act des : jd) : jd :=
  if has_data prev then prev else
  {| d_pos := fill1 (d_pos prev) (d_pos act) (d_pos des); d_vel := fill1 (d_vel prev) (d_vel act) (d_vel des);
     d_eff := fill1 (d_eff prev) (d_eff act) (d_eff des); d_acc := fill1 (d_acc prev) (d_acc act) (d_acc des);
     d_jerk := fill1 (d_jerk prev) (d_jerk act) (d_jerk des) |}.
(** update_prev_command, JH 75-98 *)
Definition remember1 (des prev : option F) : option F :=
  match des with Some v => if isnan v then prev else des | None => prev end.
Definition remember (des prev : jd) : jd :=
  {| d_pos := remember1 (d_pos des) (d_pos prev); d_vel := remember1 (d_vel des) (d_vel prev);
     d_eff := remember1 (d_eff des) (d_eff prev); d_acc := remember1 (d_acc des) (d_acc prev);
     d_jerk := remember1 (d_jerk des) (d_jerk prev) |}.

(** one component of on_enforce: absent and NaN commands pass, others are clamped to the bounds
    (a function of the command).  Answer: new command, limited? *)
Definition limit1 (des : option F) (bounds : F -> F * F) : option (option F * bool) :=
  match des with
  | None => Some (None, false)
  | Some v => if isnan v then Some (des, false)
              else let '(lo, hi) := bounds v in
                   match fclamp v lo hi with Some v' => Some (Some v', is_limited v lo hi) | None => None end
  end.

Inductive outcome :=
| Done (prev : jd) (cmd : jd) (limited : bool)
| Threw (prev : jd)     (* runtime_error, nothing of the command was changed *)
| Undefined.            (* std::clamp with hi < lo *)

Definition finish (prev : jd) (p v e a j : option (option F * bool)) : outcome :=
  match p, v, e, a, j with
  | Some (p', bp), Some (v', bv), Some (e', be), Some (a', ba), Some (j', bj) =>
      let cmd := {| d_pos := p'; d_vel := v'; d_eff := e'; d_acc := a'; d_jerk := j' |} in
      Done (remember cmd prev) cmd (bp || bv || be || ba || bj)
  | _, _, _, _, _ => Undefined
  end.
Definition commands_position (d : jd) : bool := match d_pos d with Some p => negb (isnan p) | None => false end.

(** JointSaturationLimiter<JointControlInterfacesData>::on_enforce, JR 44-177.
    [prev] is prev_command_, [act] the measured values, [des] the command *)
Definition enforce (l : jl) (prev act des : jd) (dt : F) : outcome :=
  if fle dt fzero then Done prev des false else
  let prev := fill prev act des in
  if commands_position des && out_of_bounds l (d_pos act) then Threw prev else
  finish prev
    (limit1 (d_pos des) (fun _ => position_limits l (d_vel act) (d_pos act) (d_pos prev) dt))
    (limit1 (d_vel des) (fun v => velocity_limits l v (d_pos act) (d_vel prev) dt))
    (limit1 (d_eff des) (fun _ => effort_limits l (d_pos act) (d_vel act)))
    (limit1 (d_acc des) (fun a => acceleration_limits l a (d_vel act)))
    (limit1 (d_jerk des) (fun _ => (fopp (l_maxj l), l_maxj l))).

(** ------------------------------------------------------------ the soft limiter *)

(** joint_soft_limiter.hpp 54-68 *)
Definition has_soft_pos (s : sl) : bool :=
  isfinite (s_minp s) && isfinite (s_maxp s) && flt almost_zero (fsub (s_maxp s) (s_minp s)).
Definition has_soft (s : sl) : bool :=
  has_soft_pos s && isfinite (s_kp s) && flt almost_zero (fabs (s_kp s)).

Definition finite_or (o : option F) (d : F) : F := match o with Some x => if isfinite x then x else d | None => d end.
Definition some_or (o : option F) (d : F) : F := match o with Some x => x | None => d end.
(** JS 109-161: soft velocity bounds; None = undefined clamp *)
Definition soft_vel (l : jl) (s : sl) (prev act : jd) : option (F * F) :=
  let act_p := some_or (d_pos act) (finite_or (d_pos prev) inf) in
  let prev_p := finite_or (d_pos prev) (some_or (d_pos act) inf) in
  if l_hv l then
    if l_hp l && has_soft s && isfinite prev_p then
      match fclamp (fmul (fopp (s_kp s)) (fsub prev_p (s_minp s))) (fopp (l_maxv l)) (l_maxv l),
            fclamp (fmul (fopp (s_kp s)) (fsub prev_p (s_maxp s))) (fopp (l_maxv l)) (l_maxv l) with
      | Some mn, Some mx =>
          Some (if isfinite act_p && (flt act_p (fsub (l_minp l) bounds_tol) || flt (fadd (l_maxp l) bounds_tol) act_p)
                then (fzero, fzero)
                else if flt act_p (s_minp s) || flt (s_maxp s) act_p
                     then (fcopysign reach_vel mn, fcopysign reach_vel mx) else (mn, mx))
      | _, _ => None end
    else Some (fopp (l_maxv l), l_maxv l)
  else Some (ninf, inf).
(** JS 163-202: bounds of a position command *)
Definition soft_pos_bounds (l : jl) (s : sl) (prev act : jd) (sv : F * F) (dt : F) : option (F * F) :=
  let prev_p := finite_or (d_pos prev) (some_or (d_pos act) inf) in
  let hard := position_limits l (d_vel act) (d_pos act) (d_pos prev) dt in
  let b0 := if has_soft_pos s then (s_minp s, s_maxp s) else (ninf, inf) in
  let b1 := if l_hv l && isfinite prev_p then
              match fclamp (fadd prev_p (fmul (fst sv) dt)) (fst b0) (snd b0) with
              | Some lo => match fclamp (fadd prev_p (fmul (snd sv) dt)) lo (snd b0) with
                           | Some hi => Some (lo, hi) | None => None end
              | None => None end
            else Some b0 in
  match b1 with
  | Some (lo, hi) =>
      let lo' := fmax lo (fst hard) in let hi' := fmin hi (snd hard) in
      Some (if flt hi' lo' then (lo, hi) else (lo', hi'))
  | None => None end.
(** JS 204-228: bounds of a velocity command *)
Definition soft_vel_bounds (l : jl) (des : F) (prev act : jd) (sv : F * F) (dt : F) : F * F :=
  let hard := velocity_limits l des (d_pos act) (d_vel prev) dt in
  let sv1 := match d_vel act with
             | Some v => if l_hv l && l_ha l then
                           (fmax (fsub v (fmul (l_maxa l) dt)) (fst sv), fmin (fadd v (fmul (l_maxa l) dt)) (snd sv))
                         else sv
             | None => sv end in
  (fmax (fst sv1) (fst hard), fmin (snd sv1) (snd hard)).
(** JS 230-258: bounds of an effort command *)
Definition soft_eff_bounds (l : jl) (s : sl) (act : jd) (sv : F * F) : option (F * F) :=
  let hard := effort_limits l (d_pos act) (d_vel act) in
  match d_vel act with
  | Some v =>
      if l_he l && isfinite (s_kv s) then
        match fclamp (fmul (fopp (s_kv s)) (fsub v (fst sv))) (fopp (l_maxe l)) (l_maxe l),
              fclamp (fmul (fopp (s_kv s)) (fsub v (snd sv))) (fopp (l_maxe l)) (l_maxe l) with
        | Some mn, Some mx => Some (fmax mn (fst hard), fmin mx (snd hard))
        | _, _ => None end
      else Some hard
  | None => Some hard end.
Definition limit1o (des : option F) (bounds : F -> option (F * F)) : option (option F * bool) :=
  match des with
  | None => Some (None, false)
  | Some v => if isnan v then Some (des, false)
              else match bounds v with
                   | Some (lo, hi) => match fclamp v lo hi with Some v' => Some (Some v', is_limited v lo hi) | None => None end
                   | None => None end
  end.
(** the soft velocity bounds as updated by the handling of the velocity command (JS 210-222): the
    effort part uses the updated ones *)
Definition sv_after (l : jl) (des : jd) (prev act : jd) (sv : F * F) (dt : F) : F * F :=
  match d_vel des with
  | Some v => if isnan v then sv else soft_vel_bounds l v prev act sv dt
  | None => sv end.

(** JointSoftLimiter::on_enforce, JS 25-282 *)
Definition enforce_soft (l : jl) (s : sl) (prev act des : jd) (dt : F) : outcome :=
  if fle dt fzero then Done prev des false else
  let prev := fill prev act des in
  match soft_vel l s prev act with
  | None => Undefined
  | Some sv =>
      if commands_position des && out_of_bounds l (d_pos act) then Threw prev else
      finish prev
        (limit1o (d_pos des) (fun _ => soft_pos_bounds l s prev act sv dt))
        (limit1 (d_vel des) (fun v => soft_vel_bounds l v prev act sv dt))
        (limit1o (d_eff des) (fun _ => soft_eff_bounds l s act (sv_after l des prev act sv dt)))
        (limit1 (d_acc des) (fun a => acceleration_limits l a (d_vel act)))
        (limit1 (d_jerk des) (fun _ => (fopp (l_maxj l), l_maxj l)))
  end.

(** several cycles: the limiter's memory carried from call to call *)
Record cycle := { y_act : jd; y_des : jd; y_dt : F }.
Definition memory (prev : jd) (o : outcome) : jd := match o with Done p _ _ => p | Threw p => p | Undefined => prev end.
Fixpoint run (l : jl) (prev : jd) (cs : list cycle) : jd :=
  match cs with [] => prev | c :: cs' => run l (memory prev (enforce l prev (y_act c) (y_des c) (y_dt c))) cs' end.
