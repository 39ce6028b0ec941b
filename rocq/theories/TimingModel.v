(** TimingModel.v -- pacing of the control loop and of the controllers.
    Models /repo/controller_manager/src/sleeping_policies.cpp (SP): sleep_for_periodic_cycle (56-82),
    sleep_for_blocking_read_write (36-54); the loop of /repo/controller_manager/src/ros2_control_node.cpp 138-178;
    the update decision of ControllerManager::update, /repo/controller_manager/src/controller_manager.cpp (CM) 3440-3463
    and 3509, the reset at activation CM 2682; the rate taken over by ControllerInterfaceBase::configure,
    /repo/controller_interface/src/controller_interface_base.cpp (CI) 199-243.
    Time is an integer number of nanoseconds.  Simplification: the double computations on times and rates are exact
    rational arithmetic (multiplied out to integers); rounding can only matter next to ties. *)
From Coq Require Import ZArith Bool List Lia.
Import ListNotations.
Open Scope Z_scope.

Definition sec : Z := 1000000000.

(** --- the control loop *)
(** state.period, ros2_control_node.cpp 140: integer division *)
Definition loop_period (rate : Z) : Z := sec / rate.
(** std::ceil of diff_ms / (1000 / rate), SP 65-72; static_cast<int> of a value beyond INT_MAX is undefined (None) *)
Definition overrun_count (rate diff : Z) : option Z :=
  let c := - ((- (diff * rate)) / sec) in if c <=? 2147483647 then Some c else None.
(** sleep_for_periodic_cycle, SP 56-82: the time it sleeps until, given the previous one and the time after the cycle *)
Definition next_wake (manage : bool) (rate : Z) (next now : Z) : option Z :=
  let n1 := next + loop_period rate in
  if manage && (n1 <? now) then
    match overrun_count rate (now - n1) with
    | Some c => Some (n1 + c * loop_period rate)
    | None => None
    end
  else Some n1.
(** the wake-up times of consecutive cycles; [nows] are the times at which the cycles end *)
Fixpoint wakes (manage : bool) (rate : Z) (next : Z) (nows : list Z) : option (list Z) :=
  match nows with
  | [] => Some []
  | now :: nows =>
    match next_wake manage rate next now with
    | None => None
    | Some w => option_map (cons w) (wakes manage rate w nows)
    end
  end.
(** sleep_for_blocking_read_write, SP 36-54: how long it sleeps after a cycle of [elapsed] ns; the minimum cycle time
    is [mn] ns and is truncated to microseconds *)
Definition blocking_sleep (mn elapsed : Z) : Z := if elapsed <? mn then (mn / 1000) * 1000 else 0.

(** --- the rate of a controller *)
(** configure, CI 199-243: [cur] is the rate currently stored (the manager's before the first configuration), [u] the
    manager's, [q] the parameter.  None: negative rate, the configuration is refused. *)
Definition round_div (a b : Z) : Z := (2 * a + b) / (2 * b).      (* std::round of a/b, both positive *)
Definition configured_rate (cur u q : Z) : option Z :=
  if q <? 0 then None
  else if negb (cur =? 0) && (cur <? q) then Some cur
  else if (0 <? q) && (0 <? u) then
    Some (if u mod q =? 0 then q else u / round_div u q)
  else Some cur.

(** --- when a controller is updated: CM 3440-3463.  [last] is last_update_cycle_time (None is Time(0)) *)
Definition controller_go (u r : Z) (time_is_zero : bool) (last : option Z) (now : Z) : bool :=
  (u <=? r) || time_is_zero ||
  match last with
  | None => true
  | Some l =>
    let p := now - l in
    (* error_now <= error_if_skipped, both multiplied by u * sec *)
    Z.abs (p * r * u - u * sec) <=? Z.abs ((p * u + sec) * r - u * sec)
  end.
(** the period given to the controller: the nominal one in the first cycle, afterwards the time since its last update *)
Inductive given := Nominal | Elapsed (p : Z).
Record cycle := { c_time_zero : bool; c_now : Z }.
(** one manager cycle for one active controller: CM 3440-3509 *)
Definition tick (u r : Z) (last : option Z) (c : cycle) : option Z * option given :=
  if controller_go u r (c_time_zero c) last (c_now c)
  then (Some (c_now c), Some (match last with None => Nominal | Some l => Elapsed (c_now c - l) end))
  else (last, None).
(** from activation (CM 2682 sets the time to zero): what happens in each cycle *)
Fixpoint ticks (u r : Z) (last : option Z) (cs : list cycle) : list (option given) :=
  match cs with
  | [] => []
  | c :: cs => let '(last', o) := tick u r last c in o :: ticks u r last' cs
  end.
