(** SatSpec.v -- vocabulary for C67, in terms of the joint_limits API: limits, the point given, the point handed back. *)
From Coq Require Import QArith Qabs Qminmax List Bool.
From Verif Require Import SatModel.
Import ListNotations.
Open Scope Q_scope.

Definition njoints (lims : list qlim) : nat := List.length lims.
Definition full (lims : list qlim) (xs : list Q) : Prop := List.length xs = List.length lims.
Definition lim (lims : list qlim) (i : nat) : qlim := nth i lims no_lim.
Definition pos (x : point) (i : nat) : Q := nth i (t_p x) 0.
Definition vel (x : point) (i : nat) : Q := nth i (t_v x) 0.
Definition acc (x : point) (i : nat) : Q := nth i (t_a x) 0.
(** the measured velocity; zero if the measured state has no velocities *)
Definition now (lims : list qlim) (cur : point) (i : nat) : Q :=
  if Nat.eqb (List.length (t_v cur)) (List.length lims) then nth i (t_v cur) 0 else 0.

(** limits that make sense *)
Definition sound (l : qlim) : Prop :=
  (q_hp l = true -> q_minp l <= q_maxp l) /\ (q_hv l = true -> 0 <= q_maxv l) /\
  (q_ha l = true -> 0 < q_maxa l) /\ (q_hd l = true -> 0 < q_maxd l).
Definition within (l : qlim) (x : Q) : Prop := q_hp l = true -> q_minp l <= x /\ x <= q_maxp l.

(** the fastest permitted change of velocity when stopping, if there is one *)
Definition stopping (l : qlim) : option Q :=
  if q_hd l then Some (q_maxd l) else if q_ha l then Some (q_maxa l) else None.
(** w is the velocity one cycle after braking from v as hard as permitted, but not past zero *)
Definition braked (l : qlim) (dt v w : Q) : Prop :=
  match stopping l with
  | None => w == 0
  | Some r => (0 <= v -> w == v - Qmin v (r * dt)) /\ (v <= 0 -> w == v + Qmin (- v) (r * dt))
  end.
(** x is neither 0 nor closer to it than 1e-10 *)
Definition noticeable (x : Q) : Prop := 1 # 10000000000 < Qabs x.

(** going from velocity v to w within one cycle respects the limits: speeding up (or turning round from standstill) is
    bounded by the acceleration limit, slowing down by the deceleration limit, or by the acceleration limit if there is none *)
Definition rate_ok (l : qlim) (dt v w : Q) : Prop :=
  (q_ha l = true -> 0 <= (w - v) * v -> Qabs (w - v) <= q_maxa l * dt) /\
  (q_hd l = true -> (w - v) * v < 0 -> Qabs (w - v) <= q_maxd l * dt) /\
  (q_ha l = true -> q_hd l = false -> Qabs (w - v) <= q_maxa l * dt).
Definition speed_ok (l : qlim) (w : Q) : Prop := q_hv l = true -> Qabs w <= q_maxv l.
(** from position p at velocity w there is room to stop: twice the stopping distance, or the way of one cycle *)
Definition room_ok (l : qlim) (dt p w : Q) : Prop := q_hp l = true ->
  match stopping l with
  | Some r => w * w <= r * (q_maxp l - p) /\ w * w <= r * (p - q_minp l)
  | None => Qabs w * dt <= q_maxp l - p /\ Qabs w * dt <= p - q_minp l
  end.
(** the command for joint i respects all limits; a velocity command close to zero counts only for a joint told to stay where it is *)
Definition harmless (lims : list qlim) (cur d : point) (dt : Q) (i : nat) : Prop :=
  let l := lim lims i in
  (full lims (t_p d) -> within l (pos d i)) /\
  (noticeable (vel d i) \/ (vel d i == 0 /\ full lims (t_p d) /\ pos d i == pos cur i)) /\
  speed_ok l (vel d i) /\ rate_ok l dt (now lims cur i) (vel d i) /\ room_ok l dt (pos cur i) (vel d i) /\
  (~ full lims (t_p d) -> within l (pos cur i + vel d i * dt)).
