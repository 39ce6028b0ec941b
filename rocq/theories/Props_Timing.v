(** Props_Timing.v -- C27 (controllers at their own rate) and C48 (the periodic loop does not drift). *)
From Coq Require Import ZArith Bool List Lia.
From Verif Require Import TimingModel TimingSpec TimingProofs.
Import ListNotations.
Open Scope Z_scope.

(** * C27.  u is the manager's rate, r the controller's, [ticks u r None cs] what happens to the controller in the
    manager cycles cs after its activation. *)
(** a controller at (or above) the manager's rate is updated in every cycle *)
Theorem c27_full_rate : forall u r cs, u <= r -> forall last, Forall (fun o => o <> None) (ticks u r last cs).
Proof. exact main_full_rate. Qed.
Print Assumptions c27_full_rate.
(** For rates dividing the manager's (otherwise: see c27_count and the refutation) the number of updates in n exact
    cycles is n*r/u, rounded up. *)
Theorem c27_divisor_partial : forall u r T t0 n, 0 < r < u -> u * T = sec -> u mod r = 0 ->
  is_ceiling (updates (ticks u r None (regular t0 T n))) (Z.of_nat n * r) u.
Proof. exact main_divisor. Qed.
Print Assumptions c27_divisor_partial.
(** for every rate: one update in j cycles, j being the number of cycles nearest to u/r *)
Theorem c27_count : forall u r T t0 n j, 0 < r < u -> u * T = sec ->
  1 <= j /\ 2 * u <= (2 * j + 1) * r /\ (j = 1 \/ (2 * j - 1) * r < 2 * u) ->
  is_ceiling (updates (ticks u r None (regular t0 T n))) (Z.of_nat n) j.
Proof. exact main_count. Qed.
Print Assumptions c27_count.
Theorem c27_nearest_exists : forall u r, 0 < r <= u ->
  exists j, 1 <= j /\ 2 * u <= (2 * j + 1) * r /\ (j = 1 \/ (2 * j - 1) * r < 2 * u).
Proof. exact nearest_exists. Qed.
Print Assumptions c27_nearest_exists.
(** for every schedule of manager cycles, however irregular: two updates are at least 1/r - 1/(2u) apart ... *)
Theorem c27_spacing_min : forall u r cs, 0 < r < u -> Forall proper cs ->
  consecutive (fun a b => (2 * u - r) * sec <= 2 * u * r * (b - a)) (update_times cs (ticks u r None cs)).
Proof. exact main_spacing_min. Qed.
Print Assumptions c27_spacing_min.
(** ... and less than that plus one cycle (of at most d ns) *)
Theorem c27_spacing_max : forall u r d cs, 0 < r < u -> 0 <= d -> Forall proper cs ->
  consecutive (fun a b => b - a <= d) (map c_now cs) ->
  consecutive (fun a b => b - a <= d \/ 2 * u * r * (b - a - d) < (2 * u - r) * sec) (update_times cs (ticks u r None cs)).
Proof. exact main_spacing_max. Qed.
Print Assumptions c27_spacing_max.
(** the period given to the controller is the time since its previous update *)
Theorem c27_periods : forall u r cs last, periods_ok last cs (ticks u r last cs).
Proof. exact main_periods. Qed.
Print Assumptions c27_periods.
(** the rate taken over at the first configuration lies between 1 and the manager's *)
Theorem c27_configured : forall u q, 0 < u ->
  configured_rate u u q = if q <? 0 then None else if (u <? q) || (q =? 0) then Some u
    else Some (if u mod q =? 0 then q else u / round_div u q).
Proof. exact main_configured. Qed.
Print Assumptions c27_configured.
Theorem c27_configured_range : forall u q r, 0 < u -> configured_rate u u q = Some r -> 0 < r <= u.
Proof. exact main_configured_range. Qed.
Print Assumptions c27_configured_range.

Example c27_example : 0 < 25 < 100 /\ 100 * 10000000 = sec /\ 100 mod 25 = 0 /\
  updates (ticks 100 25 None (regular 5 10000000 9)) = 3 /\
  ticks 100 25 None (regular 5 10000000 5) = [Some Nominal; None; None; None; Some (Elapsed 40000000)] /\
  configured_rate 100 100 40 = Some 33 /\ updates (ticks 100 33 None (regular 5 10000000 9)) = 3.
Proof. repeat split; vm_compute; auto. Qed.
(** 40 Hz under 50 Hz: 100 updates in 100 cycles instead of 80 *)
Theorem c27_refuted : exists u r T n, 0 < r < u /\ u * T = sec /\
  u * updates (ticks u r None (regular 1 T n)) - Z.of_nat n * r > u.
Proof. exists 50, 40, 20000000, 100%nat. repeat split; vm_compute; reflexivity. Qed.
Print Assumptions c27_refuted.
(** The rate announced as the closest achievable is not: asked for 7 Hz, a 1000 Hz manager stores 6 Hz and updates every
    167 cycles, although 143 cycles (6.99 Hz) would be possible. *)
Theorem c27_closest_refuted : exists u q r j, configured_rate u u q = Some r /\ nearest u r j /\ nearest u q 143 /\ j = 167 /\
  u * Z.abs (143 * q - u) < u * Z.abs (j * q - u).
Proof.
  exists 1000, 7, 6, 167. unfold nearest. repeat split; try (right; vm_compute; reflexivity); try (vm_compute; congruence); vm_compute; reflexivity.
Qed.
Print Assumptions c27_closest_refuted.
(** A controller configured at 10 Hz, cleaned up and configured again at 50 Hz stays at 10 Hz. *)
Theorem c27_reconfigure_refuted : exists u r1 r2, configured_rate u u 10 = Some r1 /\ configured_rate r1 u 50 = Some r2 /\
  configured_rate u u 50 = Some 50 /\ r2 = 10.
Proof. exists 100, 10, 10. repeat split; vm_compute; reflexivity. Qed.
Print Assumptions c27_reconfigure_refuted.

(** * C48.  [next_wake manage rate next now]: the wake-up time after the one at [next], when the cycle ends at [now];
    [wakes] the sequence of wake-up times. *)
(** wake-up times stay on the grid of the period, whatever the cycles take *)
Theorem c48_grid : forall manage rate nows, 0 < rate <= sec -> forall next ws, wakes manage rate next nows = Some ws ->
  consecutive (fun a b => exists k, 1 <= k /\ b = a + k * loop_period rate) (next :: ws) /\
  List.length ws = List.length nows.
Proof. exact main_grid. Qed.
Print Assumptions c48_grid.
(** With overrun management, for rates dividing 10^9 (what is missing: the others, refuted below): the next wake-up
    is not in the past, and no grid point after the current time is skipped. *)
Theorem c48_not_past_partial : forall rate next now w, 0 < rate <= sec -> sec mod rate = 0 ->
  next_wake true rate next now = Some w ->
  now <= w /\ (w = next + loop_period rate \/ w < now + loop_period rate).
Proof. exact main_not_past. Qed.
Print Assumptions c48_not_past_partial.
(** for every rate it lies at most one nanosecond per missed period in the past *)
Theorem c48_lag : forall rate next now w, 0 < rate <= sec -> next_wake true rate next now = Some w ->
  (now - w) * sec < Z.max 0 ((now - (next + loop_period rate)) * rate) + sec.
Proof. exact main_lag. Qed.
Print Assumptions c48_lag.
(** without an overrun, or without management, exactly one period is added *)
Theorem c48_on_time : forall manage rate next now, now <= next + loop_period rate \/ manage = false ->
  next_wake manage rate next now = Some (next + loop_period rate).
Proof. exact main_on_time. Qed.
Print Assumptions c48_on_time.
(** the conversion to int is defined unless 2^31 periods were missed *)
Theorem c48_defined : forall manage rate next now, 0 < rate -> (now - next - loop_period rate) * rate <= 2147483647 * sec ->
  exists w, next_wake manage rate next now = Some w.
Proof. exact main_defined. Qed.
Print Assumptions c48_defined.
(** blocking read/write: with the sleep a cycle takes the minimum cycle time (in whole microseconds) *)
Theorem c48_blocking : forall mn elapsed, 0 <= mn -> 0 <= elapsed ->
  mn - 1000 < elapsed + blocking_sleep mn elapsed /\ (mn <= elapsed -> blocking_sleep mn elapsed = 0).
Proof. exact main_blocking. Qed.
Print Assumptions c48_blocking.
Example c48_example : 0 < 100 <= sec /\ sec mod 100 = 0 /\
  wakes true 100 0 [9000000; 42500000; 50000001] = Some [10000000; 50000000; 60000000] /\
  next_wake true 100 10000000 42500000 = Some 50000000.
Proof. repeat split; vm_compute; try reflexivity; discriminate. Qed.
(** 3 Hz: after a cycle that ends exactly 3 s later the next wake-up lies in the past *)
Theorem c48_refuted : exists rate next now w, 0 < rate <= sec /\ next_wake true rate next now = Some w /\ w < now.
Proof. exists 3, 0, 2333333333, 2333333331. repeat split; vm_compute; try reflexivity; discriminate. Qed.
Print Assumptions c48_refuted.
