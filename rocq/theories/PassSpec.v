(** PassSpec.v -- words for the statements that the limiters do not limit more than they have to, and that the soft
    limits are respected. *)
From Coq Require Import ZArith Bool SpecFloat.
From Verif Require Import LimitsModel LimitsSpec.

(** the value a command is compared with: the remembered command; when nothing was commanded yet, the measured value or
    else the command itself *)
Definition compared_with (known : bool) (prev act des : option F) : option F :=
  if known then prev else match act with Some _ => act | None => des end.
(** a command that is there and is a number *)
Definition commands (o : option F) (x : F) : Prop := o = Some x /\ isnan x = false.
Definition slowing_down (a : F) (act_vel : option F) : Prop :=
  exists v, act_vel = Some v /\ ((flt a fzero = true /\ flt fzero v = true) \/ (flt fzero a = true /\ flt v fzero = true)).

(** inside the position limits, or there are none *)
Definition in_range (l : jl) (p : F) : Prop :=
  within (l_minp l) p (l_maxp l) \/ (l_hp l = false /\ isnan (l_minp l) = true /\ isnan (l_maxp l) = true).

(** the command respects the limits, the joint being where it is *)
Record respects (l : jl) (prev act des : jd) (dt : F) : Prop := {
  (* position: inside the range, not further from the previous position than the joint can move in one cycle *)
  re_pos : forall p, commands (d_pos des) p ->
    in_range l p /\ (l_hp l = true -> inside l (d_pos act)) /\
    (l_hv l = true -> each (fun r => within (fsub r (max_step l (d_vel act) dt)) p (fadd r (max_step l (d_vel act) dt)))
       (match compared_with (has_data prev) (d_pos prev) (d_pos act) (d_pos des) with None => d_pos act | r => r end));
  (* velocity: below the maximum, not leading out of the range within one cycle, no faster change than the acceleration allows *)
  re_vel : forall v, commands (d_vel des) v -> l_hv l = true ->
    within (fopp (l_maxv l)) v (l_maxv l) /\
    (l_hp l = true -> each (fun x => within (l_minp l) x (l_maxp l) /\ 
       within (fdiv (fsub (l_minp l) x) dt) v (fdiv (fsub (l_maxp l) x) dt)) (d_pos act)) /\
    (l_ha l = true -> each (fun w => within (fsub w (fmul (l_maxa l) dt)) v (fadd w (fmul (l_maxa l) dt)))
       (compared_with (has_data prev) (d_vel prev) (d_vel act) (d_vel des)));
  (* effort: below the maximum, the joint inside its range and not faster than allowed *)
  re_eff : forall e, commands (d_eff des) e -> l_he l = true ->
    within (fopp (l_maxe l)) e (l_maxe l) /\
    (l_hp l = true -> each (fun x => flt (l_minp l) x = true /\ flt x (l_maxp l) = true) (d_pos act)) /\
    (l_hv l = true -> each (fun v => within (fopp (l_maxv l)) v (l_maxv l)) (d_vel act));
  (* acceleration: below the limit for slowing down or for speeding up *)
  re_acc : forall a, commands (d_acc des) a ->
    (l_hd l = true -> slowing_down a (d_vel act) -> within (fopp (l_maxd l)) a (l_maxd l)) /\
    (l_ha l = true -> ~ (l_hd l = true /\ slowing_down a (d_vel act)) -> within (fopp (l_maxa l)) a (l_maxa l));
  re_jerk : forall j, commands (d_jerk des) j -> within (fopp (l_maxj l)) j (l_maxj l) }.

(** the range of velocities the soft limits allow: with [pos] the last commanded position (else the measured one) and
    [here] the measured position (else the last commanded one), gain times the distance to the soft limits, cut to the
    maximum velocity; a small velocity only when the joint is outside the soft limits; none when it is outside the
    hard limits *)
Definition cut (v m : F) : F := if flt v (fopp m) then fopp m else if flt m v then m else v.
Definition towards_lower (l : jl) (s : sl) (pos : F) : F := cut (fmul (fopp (s_kp s)) (fsub pos (s_minp s))) (l_maxv l).
Definition towards_upper (l : jl) (s : sl) (pos : F) : F := cut (fmul (fopp (s_kp s)) (fsub pos (s_maxp s))) (l_maxv l).
Definition outside_hard (l : jl) (here : F) : Prop :=
  isfinite here = true /\ (flt here (fsub (l_minp l) bounds_tol) = true \/ flt (fadd (l_maxp l) bounds_tol) here = true).
Definition outside_soft (s : sl) (here : F) : Prop := flt here (s_minp s) = true \/ flt (s_maxp s) here = true.
Definition soft_range (l : jl) (s : sl) (pos here lo hi : F) : Prop :=
  (outside_hard l here /\ lo = fzero /\ hi = fzero) \/
  (~ outside_hard l here /\ outside_soft s here /\
     lo = fcopysign reach_vel (towards_lower l s pos) /\ hi = fcopysign reach_vel (towards_upper l s pos)) \/
  (~ outside_hard l here /\ ~ outside_soft s here /\ lo = towards_lower l s pos /\ hi = towards_upper l s pos).
(** the position the soft limits start from: the last commanded one, the measured one if there is none *)
Definition last_position (prev : jd) (here : F) : F := match d_pos prev with Some x => if isfinite x then x else here | None => here end.
(** the effort that lets the joint, now at velocity [w], approach velocity [v] *)
Definition effort_towards (l : jl) (s : sl) (w v : F) : F := cut (fmul (fopp (s_kv s)) (fsub w v)) (l_maxe l).
