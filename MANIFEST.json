{
 "claims": [
  {
   "property": "C01",
   "status": "proved",
   "theorems": [
    "c01_component_follows_life_cycle",
    "c01_manager_follows_life_cycle"
   ],
   "note": "Automaton over observable callbacks, component level and manager level."
  },
  {
   "property": "C02",
   "status": "proved",
   "theorems": [
    "c02_read_write_only_when_allowed",
    "c02_other_states_untouched",
    "c02_cycle_reads",
    "c02_cycle_writes"
   ],
   "note": ""
  },
  {
   "property": "C03",
   "status": "partial",
   "theorems": [
    "c03_finalized_stays_partial",
    "c03_finalized_stays_refuted"
   ],
   "note": "Holds without groups and for all operations except read/write of grouped components; refuted in general: a group error calls on_error of finalized members."
  },
  {
   "property": "C04",
   "status": "proved",
   "theorems": [
    "c04_set_state_ok_means_reached",
    "c04_request_runs_the_path",
    "c04_shutdown_all",
    "c04_ok_despite_failure_refuted"
   ],
   "note": ""
  },
  {
   "property": "C05",
   "status": "partial",
   "theorems": [
    "c05_configured_interfaces_available",
    "c05_unconfigured_interfaces_unavailable_partial",
    "c05_unconfigured_interfaces_unavailable_refuted"
   ],
   "note": "configured => available is proved for every history; the converse only without transition errors; refuted in general (activate ERROR leaves interfaces listed)."
  },
  {
   "property": "C06",
   "status": "proved",
   "theorems": [
    "c06_hardware_loans_exclusive",
    "c06_all_loans_exclusive",
    "c06_claim_refused",
    "c06_release_makes_claimable",
    "c06_claim_granted_exactly"
   ],
   "note": "Hardware interfaces: every history. Reference interfaces: histories that never remove a reference interface on loan (C07 shows why)."
  },
  {
   "property": "C07",
   "status": "partial",
   "theorems": [
    "c07_reexport_keeps_exclusive_refuted"
   ],
   "note": "The property is false of the code: refutation witness proved."
  },
  {
   "property": "C08",
   "status": "proved",
   "theorems": [
    "c08_bad_group_fails_every_member",
    "c08_bad_group_fails_every_member_write",
    "c08_error_reaches_later_members",
    "c08_group_stays_bad",
    "c08_failures_stay_in_group"
   ],
   "note": "For a write cycle: unless a member is configured/cleaned/shut down within the cycle."
  },
  {
   "property": "C09",
   "status": "proved",
   "theorems": [
    "c09_read_failed_list_exact",
    "c09_write_failed_list_exact"
   ],
   "note": "For grouped components the list additionally contains members of a bad group (C08)."
  },
  {
   "property": "C10",
   "status": "proved",
   "theorems": [
    "c10_read_failure_unconfigures",
    "c10_write_failure_effects"
   ],
   "note": ""
  },
  {
   "property": "C11",
   "status": "proved",
   "theorems": [
    "c11_prepare_switch",
    "c11_perform_switch",
    "c11_prepare_exact",
    "c11_perform_exact"
   ],
   "note": ""
  },
  {
   "property": "C12",
   "status": "partial",
   "theorems": [
    "c12_not_active_holds_nothing",
    "c12_active_holds_all_partial",
    "c12_active_holds_all_refuted"
   ],
   "note": "Not active => no loan: every history. Active => holds all: proved for controllers whose on_deactivate never answers FAILURE; refuted otherwise."
  },
  {
   "property": "C13",
   "status": "partial",
   "theorems": [
    "c13_one_holder_while_undisturbed_partial",
    "c13_held_while_undisturbed_partial",
    "c13_hardware_interface_one_holder_partial",
    "c13_held_is_claimed_partial",
    "c13_one_holder_refuted"
   ],
   "note": "Proved for all hardware command interfaces in every history, and for every interface (also the reference interfaces of chainable controllers) in every history that does not configure, clean up or unload a controller while one of its registered reference interfaces is held; without that condition it is false (refuted: after a hardware error deactivates F but not P, F can be configured again and Q gets the interface P still holds)."
  },
  {
   "property": "C14",
   "status": "proved",
   "theorems": [
    "c14_rejected_changes_nothing",
    "c14_nothing_left_to_perform",
    "c14_invalid_is_rejected"
   ],
   "note": "STRICT and BEST_EFFORT: an answer ERROR implies no controller, claim or hardware changed and nothing pending; every STRICT request not answered ERROR satisfies valid_switch (CmSpec.v)."
  },
  {
   "property": "C15",
   "status": "partial",
   "theorems": [
    "c15_unchanged_partial",
    "c15_only_exports",
    "c15_refuted",
    "c15_refuted_crash"
   ],
   "note": "Unchanged when no requested controller asks for another controller's interfaces; in every case only exports of chainable controllers that run or are requested are added (c15_only_exports). Refuted for chains: a rejected STRICT request leaves the reference interfaces of an inactive controller available, and a later request can then crash."
  },
  {
   "property": "C16",
   "status": "proved",
   "theorems": [
    "c16_answer_reflects_outcome",
    "c16_restart_refuted"
   ],
   "note": "iff-characterisation of the answer of an accepted STRICT request for every interleaving of other operations before the evaluation. c16_restart_refuted: OK does not mean that the requested switch took place, since a restart (same controller stopped and started) whose hardware mode switch fails is answered OK."
  },
  {
   "property": "C17",
   "status": "partial",
   "theorems": [
    "c17_chain_intact_partial",
    "c17_switch_keeps_chains_partial",
    "c17_calm_keeps_chains_partial",
    "c17_chain_intact_refuted",
    "c17_failed_activation_refuted"
   ],
   "note": "Proved for every history whose run-time operations do not fail (calm operations and STRICT switches over disjoint lists answered OK), environments whose on_cleanup never answers FAILURE. In general false: refuted by a hardware read error and by a BEST_EFFORT switch with a failing on_activate."
  },
  {
   "property": "C18",
   "status": "partial",
   "theorems": [
    "c18_preceding_must_stop_too_partial",
    "c18_refuted"
   ],
   "note": "Proved for environments whose on_cleanup never answers FAILURE and for preceding controllers that ask for the interface by name (INDIVIDUAL, command or state); refuted without the proviso on on_cleanup."
  },
  {
   "property": "C19",
   "status": "partial",
   "theorems": [
    "c19_order_follows_chain_partial",
    "c19_order_follows_chain_refuted"
   ],
   "note": "Proved for tree-like topologies, every history and iteration order; refuted for general acyclic topologies (P->C->F->X, P->X)."
  },
  {
   "property": "C20",
   "status": "proved",
   "theorems": [
    "c20_controllers_kept_exactly_once",
    "c20_ordering_total"
   ],
   "note": ""
  },
  {
   "property": "C21",
   "status": "proved",
   "theorems": [
    "c21_group_is_connected_component",
    "c21_group_total"
   ],
   "note": ""
  },
  {
   "property": "C22",
   "status": "partial",
   "theorems": [
    "c22_returns_partial",
    "c22_refuted_cycle",
    "c22_refuted_unconfigured"
   ],
   "note": "Proved for acyclic graphs, well-formed names, registered exports and configured requested controllers; refuted for cyclic references (unbounded recursion) and for a request naming a loaded but unconfigured chainable controller (uncaught exception)."
  },
  {
   "property": "C23",
   "status": "partial",
   "theorems": [
    "c23_lists_partial",
    "c23_no_race_partial",
    "c23_refuted_startup"
   ],
   "note": "Small-step machine of both threads, every interleaving, under ok_schedule (first access of the RT thread not interrupted; no timeout withdraws a request in the few instructions between the RT thread's read of the flag and its reaction). Both conditions are necessary: c23_refuted_startup, c24_refuted_overtaken. Sequentially consistent memory."
  },
  {
   "property": "C24",
   "status": "partial",
   "theorems": [
    "c24_switch_partial",
    "c24_no_race_partial",
    "c24_no_deadlock_partial",
    "c24_refuted_overtaken"
   ],
   "note": "Every interleaving and timeout point under ok_schedule; history automaton switched_once: executed at most once, completely, by the named thread, on the requested lists, success only after execution, timeout only if nothing was executed, no controller of the request updated meanwhile. Also freedom from request races and from deadlock. c24_refuted_overtaken shows the condition is necessary."
  },
  {
   "property": "C25",
   "status": "partial",
   "theorems": [
    "c25_taken_out",
    "c25_fallback_partial",
    "c25_fallback_refuted",
    "c25_chain_refuted",
    "c25_fallback_chained_partial",
    "c25_chained_mode_refuted"
   ],
   "note": "c25_taken_out is the full first half (failed controller and its chain group are taken out). c25_fallback_chained_partial is the second half for every fallback that asks by name for interfaces that can be had: of the hardware, of other fallbacks of the step or of controllers that keep running, chainable or not, active already or not (c25_fallback_partial is the special case of stand-alone ones); missing: fallbacks that ask for all interfaces or are active and command nothing, and reference interfaces rebuilt while held. c25_fallback_refuted (two fallbacks sharing an interface: none is active), c25_chain_refuted (chains of the users taken out are not followed) and c25_chained_mode_refuted (a controller commanded by a started fallback is not put into chained mode) show where the English claim is false of the code."
  },
  {
   "property": "C26",
   "status": "partial",
   "theorems": [
    "c26_read_partial",
    "c26_write_partial",
    "c26_refuted_fallback",
    "c26_refuted_write"
   ],
   "note": "c26_read_partial/c26_write_partial: controllers activated by a service call and using an interface of the failed hardware are not active afterwards. c26_refuted_fallback: controllers activated as a fallback are never recorded against their hardware and stay active. c26_refuted_write: a later component's DEACTIVATE overwrites an earlier ERROR."
  },
  {
   "property": "C27",
   "status": "partial",
   "theorems": [
    "c27_full_rate",
    "c27_divisor_partial",
    "c27_count",
    "c27_nearest_exists",
    "c27_spacing_min",
    "c27_spacing_max",
    "c27_periods",
    "c27_configured",
    "c27_configured_range",
    "c27_refuted",
    "c27_closest_refuted",
    "c27_reconfigure_refuted"
   ],
   "note": "True for rates dividing the manager rate (c27_divisor_partial); in general the controller is updated every nearest-integer-of-u/r cycles (c27_count). Refuted: non-divisor rates run at a different rate, the 'closest achievable' rate is not the closest, re-configuration at a higher rate keeps the old lower one."
  },
  {
   "property": "C28",
   "status": "proved",
   "theorems": [
    "c28_refused_when_active",
    "c28_unload_removes_exactly_one",
    "c28_cleanup_touches_one"
   ],
   "note": ""
  },
  {
   "property": "C29",
   "status": "proved",
   "theorems": [
    "c29_refused",
    "c29_failed_leaves_unconfigured",
    "c29_done",
    "c29_cleaned_up_first"
   ],
   "note": "'not left half-configured' = at_rest: unconfigured or finalized, unless the controller's own on_cleanup answers FAILURE"
  },
  {
   "property": "C30",
   "status": "proved",
   "theorems": [
    "c30_names_unique"
   ],
   "note": ""
  },
  {
   "property": "C31",
   "status": "partial",
   "theorems": [
    "c31_position_partial",
    "c31_velocity_partial",
    "c31_effort",
    "c31_jerk",
    "c31_acceleration",
    "c31_history_partial",
    "c31_defined",
    "c31_throws",
    "c31_throw_keeps_memory",
    "c31_velocity_refuted_first_command",
    "c31_velocity_refuted_out_of_bounds",
    "c31_refuted_nan_state"
   ],
   "note": "Effort, jerk and acceleration limits hold for every command, memory and measured state (c31_effort, c31_jerk, c31_acceleration, in IEEE double arithmetic). Position and velocity limits are proved for every command under hypotheses on the measured state (c31_position_partial, c31_velocity_partial) and, by induction over any number of cycles, for a joint in normal operation (c31_history_partial). The unrestricted statement is false of the code, see the c31_*refuted* witnesses (NaN measured position; measured position slightly out of bounds; first command without measured velocity)."
  },
  {
   "property": "C32",
   "status": "proved",
   "theorems": [
    "c32_reports_changes",
    "c32_soft_reports_changes"
   ],
   "note": "Both limiters."
  },
  {
   "property": "C33",
   "status": "proved",
   "theorems": [
    "c33_position_step",
    "c33_velocity_step"
   ],
   "note": "Bounds are the ones computed in double arithmetic; the step uses the acceleration limit as well."
  },
  {
   "property": "C34",
   "status": "proved",
   "theorems": [
    "c34_never_pushes_outwards"
   ],
   "note": "Stated for every command, memory and measured state."
  },
  {
   "property": "C35",
   "status": "partial",
   "theorems": [
    "c35_position_partial",
    "c35_velocity_partial",
    "c35_effort_partial",
    "c35_undefined_refuted",
    "c35_position_refuted",
    "c35_effort_refuted"
   ],
   "note": "Position commands end inside the soft limits (and the hard ones when the soft ones are inside them), velocity and effort inside the hard ones, under the hypotheses shown; the unrestricted statement is false: c35_undefined_refuted (std::clamp with lo > hi), c35_position_refuted, c35_effort_refuted."
  },
  {
   "property": "C36",
   "status": "proved",
   "theorems": [
    "c36_nan_passes",
    "c36_soft_nan_passes"
   ],
   "note": "For a limiter that has a memory; both limiters."
  },
  {
   "property": "C37",
   "status": "proved",
   "theorems": [
    "c37_actuators",
    "c37_joints",
    "c37_frame",
    "c37_doubles_refuted"
   ],
   "note": "Exact arithmetic (reals), all three transmissions, for handles with storage of their own; memory with possible aliasing is modelled, separation is a hypothesis. c37_doubles_refuted shows that exactness is lost in double arithmetic, as expected."
  },
  {
   "property": "C38",
   "status": "proved",
   "theorems": [
    "c38_two_joints",
    "c38_simple"
   ],
   "note": "Both directions, exact arithmetic."
  },
  {
   "property": "C39",
   "status": "partial",
   "theorems": [
    "c39_alphabetical_partial",
    "c39_simple",
    "c39_swapped",
    "c39_refuted"
   ],
   "note": "True when joints and actuators are declared in alphabetical order (c39_alphabetical_partial) and for the simple transmission; otherwise the parameters are exchanged (c39_swapped, c39_refuted): std::set in get_names sorts the names."
  },
  {
   "property": "C40",
   "status": "partial",
   "theorems": [
    "c40_signed",
    "c40_unsigned_accepts",
    "c40_unsigned_partial",
    "c40_unsigned_wraps",
    "c40_refuted"
   ],
   "note": "Signed types: full equivalence. Unsigned types: complete, and sound for strings without minus sign; refuted in general (strtoul wraps negative numbers modulo 2^64)."
  },
  {
   "property": "C41",
   "status": "proved",
   "theorems": [
    "c41_bool"
   ],
   "note": ""
  },
  {
   "property": "C42",
   "status": "proved",
   "theorems": [
    "c42_read_back",
    "c42_until_next_store",
    "c42_store_accepted",
    "c42_type_fixed",
    "c42_store_refused",
    "c42_read_refused",
    "c42_read_bool",
    "c42_locked"
   ],
   "note": "Reachable histories are those in which no DOUBLE handle that owns its value is moved (see C43 for what such a move does)."
  },
  {
   "property": "C43",
   "status": "partial",
   "theorems": [
    "c43_copy",
    "c43_own_storage_partial",
    "c43_defined_partial",
    "c43_move_partial",
    "c43_refuted"
   ],
   "note": "Copies are independent and moves of handles not owning a double are faithful; refuted in general: moving a handle that owns a double leaves its pointer inside the moved-from object (c43_refuted)."
  },
  {
   "property": "C44",
   "status": "proved",
   "theorems": [
    "c44_statistics",
    "c44_published",
    "c44_unpublished",
    "c44_current",
    "c44_never_reset"
   ],
   "note": "Exact arithmetic (rationals); c44_never_reset shows what happens before the first reset."
  },
  {
   "property": "C45",
   "status": "partial",
   "theorems": [
    "c45_in_order_partial",
    "c45_complete_partial",
    "c45_range_error",
    "c45_refuted_duplicate",
    "c45_refuted_stale"
   ],
   "note": "True when no interface name occurs twice and the output vector is empty before; both refuted otherwise."
  },
  {
   "property": "C46",
   "status": "proved",
   "theorems": [
    "c46_position",
    "c46_velocity",
    "c46_effort",
    "c46_soft",
    "c46_disabled_joint",
    "c46_disabled_interface",
    "c46_acceleration",
    "c46_jerk"
   ],
   "note": "Interval parameters are taken as the numbers parsed from the URDF/ros2_control text; number parsing is C40."
  },
  {
   "property": "C47",
   "status": "partial",
   "theorems": [
    "c47_groups_partial",
    "c47_ungrouped",
    "c47_listed",
    "c47_refuted_listed_member",
    "c47_refuted_shutdown"
   ],
   "note": "Groups roll back except when a member listed as inactive fails to configure or the shutdown exception fires (both refuted)."
  },
  {
   "property": "C48",
   "status": "partial",
   "theorems": [
    "c48_grid",
    "c48_not_past_partial",
    "c48_lag",
    "c48_on_time",
    "c48_defined",
    "c48_blocking",
    "c48_refuted"
   ],
   "note": "The wake-up grid, the bound on the lag; never in the past only for rates dividing 10^9 ns (refuted otherwise)."
  },
  {
   "property": "C49",
   "status": "partial",
   "theorems": [
    "c49_position_partial",
    "c49_other_partial",
    "c49_dynamics_partial",
    "c49_dynamics_moves",
    "c49_custom",
    "c49_mimic",
    "c49_configure_refuted"
   ],
   "note": "Every command, read, switch history since the last configure: position = last finite command + offset; other joint, mocked sensor and gpio interfaces = last finite command; dynamics mode: the interface of the active mode; custom interface and mimic joints in full. Missing: across a configure (refuted: each configure adds the offset again), interfaces whose gpio shares a joint's name, bool interfaces."
  },
  {
   "property": "C50",
   "status": "partial",
   "theorems": [
    "c50_only_named",
    "c50_switched_partial",
    "c50_conflict_partial",
    "c50_refuted"
   ],
   "note": "Full: a switch never changes the mode of a joint that was not named. Accepted requests set exactly the mode and conflicting ones are rejected if no joint's name occurs in another's mode interface; refuted otherwise (joint1/joint10)."
  },
  {
   "property": "C51",
   "status": "proved",
   "theorems": [
    "c51_claimed_iff_held"
   ],
   "note": "All histories; hardware command interfaces (reference interfaces of chainable controllers: see C13/C07 findings)."
  },
  {
   "property": "C52",
   "status": "proved",
   "theorems": [
    "c52_accepted_switch_is_done",
    "c52_acceptance_suffices_refuted"
   ],
   "note": "Proved for STRICT requests of controllers that name their interfaces; c52_acceptance_suffices_refuted shows that acceptance alone is not enough: the conflict check ignores controllers that are restarted to change their chained mode."
  },
  {
   "property": "C53",
   "status": "proved",
   "theorems": [
    "c53_update_cycle",
    "c53_only_in_the_update_cycle"
   ],
   "note": "Whether an active controller is due in a cycle (its own update rate) is an oracle here; the rate arithmetic is C27."
  },
  {
   "property": "C54",
   "status": "proved",
   "theorems": [
    "c54_life_cycle",
    "c54_loaded",
    "c54_history"
   ],
   "note": "All callback outcomes, all operations, all histories; the executor's own life-cycle services of the controller node (ros2 lifecycle set) are not modelled."
  },
  {
   "property": "C55",
   "status": "proved",
   "theorems": [
    "c55_only_their_own_callbacks"
   ],
   "note": "The table of what each operation may call is LifeSpec.may_call."
  },
  {
   "property": "C56",
   "status": "proved",
   "theorems": [
    "c56_passes",
    "c56_remembers",
    "c56_soft_remembers"
   ],
   "note": "The saturation limiter; what 'respects the limits' means is PassSpec.respects."
  },
  {
   "property": "C57",
   "status": "proved",
   "theorems": [
    "c57_velocity",
    "c57_effort"
   ],
   "note": "Joint with a measured finite position; effort without a velocity command in the same cycle (the C++ reuses the narrowed velocity bounds then)."
  },
  {
   "property": "C58",
   "status": "partial",
   "theorems": [
    "c58_switch",
    "c58_read",
    "c58_write",
    "c58_update_partial",
    "c58_healthy_not_told_refuted",
    "c58_fallback_not_undone_refuted"
   ],
   "note": "Requests and read/write error handling proved (c58_switch, c58_read, c58_write); update error handling proved except for what is said when a fallback's activation fails while another switch request waits (c58_update_partial). Refuted: after a hardware error, healthy components that share a controller with the failed one are not told (c58_healthy_not_told_refuted); a fallback whose activation fails is not taken back (c58_fallback_not_undone_refuted)."
  },
  {
   "property": "C59",
   "status": "proved",
   "theorems": [
    "c59_registered",
    "c59_active_offered",
    "c59_configured_withdrawn",
    "c59_stopped_withdrawn",
    "c59_registered_refuted_error",
    "c59_registered_refuted_cleanup",
    "c59_active_offered_refuted",
    "c59_inactive_withdrawn_refuted"
   ],
   "note": "Each proviso (no callback error, on_cleanup / on_deactivate do not refuse) is shown to be needed by a _refuted theorem; 'inactive implies withdrawn' is refuted by a rejected STRICT request (c59_inactive_withdrawn_refuted)."
  },
  {
   "property": "C60",
   "status": "proved",
   "theorems": [
    "c60_controllers",
    "c60_claimed_after_switch",
    "c60_components",
    "c60_interfaces",
    "c60_claimed_refuted",
    "c60_connections_refuted",
    "c60_answers_refuted"
   ],
   "note": "list_controllers' answer needs the provisos of C59 (c60_answers_refuted: it throws otherwise); claimed_interfaces is stale between switches (c60_claimed_refuted); a chain connection lists the interfaces of all partners (c60_connections_refuted)."
  },
  {
   "property": "C61",
   "status": "proved",
   "theorems": [
    "c61_valid_is_accepted",
    "c61_valid_is_done",
    "c61_stop_refuted",
    "c61_stale_claims_refuted"
   ],
   "note": "The conditions a request must meet are the record 'acceptable' (AcceptSpec.v). Two of them cannot be dropped: c61_stop_refuted (the hardware of a controller to be stopped was taken to unconfigured) and c61_stale_claims_refuted (the stopped controller does not name its interfaces individually)."
  },
  {
   "property": "C62",
   "status": "proved",
   "theorems": [
    "c62_what_strict_accepts",
    "c62_valid_is_done",
    "c62_unknown_ignored",
    "c62_starts_only_requested",
    "c62_bystanders_untouched",
    "c62_all_unknown_refuted",
    "c62_chain_refuted"
   ],
   "note": "Limits shown: a list consisting of unknown names only rejects the whole request (c62_all_unknown_refuted); BEST_EFFORT may start a controller without the chain partner it commands (c62_chain_refuted)."
  },
  {
   "property": "C63",
   "status": "proved",
   "theorems": [
    "c63_refused",
    "c63_ok_means_empty",
    "c63_forced_succeeds",
    "c63_finalized_refuted"
   ],
   "note": "c63_finalized_refuted: a FINALIZED controller cannot be unloaded, so the service can never succeed again."
  },
  {
   "property": "C64",
   "status": "partial",
   "theorems": [
    "c64_started_partial",
    "c64_only_if_commanded",
    "c64_released",
    "c64_two_users_refuted",
    "c64_restart_refuted",
    "c64_observer_refuted",
    "c64_left_chained_refuted"
   ],
   "note": "Missing in c64_started_partial: the case where the same request also stops a user of the controller; the claim is false there (c64_two_users_refuted, c64_restart_refuted, c64_observer_refuted). on_deactivate must not answer FAILURE and chained mode must not be refused; c64_left_chained_refuted: a failed activation leaves the controller in chained mode."
  },
  {
   "property": "C65",
   "status": "proved",
   "theorems": [
    "c65_only_selected",
    "c65_started_gets",
    "c65_overlap_never_starts",
    "c65_overlap_refuted"
   ],
   "note": "Hardware interfaces only in c65_started_gets (interfaces exported by controllers come and go within the switch). on_deactivate of the controller must not answer FAILURE (then it stays active without its loans, C12). c65_overlap_refuted: overlapping patterns are detected when the controller is configured only if the hardware is up by then."
  },
  {
   "property": "C66",
   "status": "proved",
   "theorems": [
    "c66_force_torque",
    "c66_imu",
    "c66_pose",
    "c66_magnetic",
    "c66_parts",
    "c66_missing_axes",
    "c66_range",
    "c66_gps",
    "c66_values",
    "c66_values_capacity",
    "c66_set_values",
    "c66_led",
    "c66_values_reused_refuted",
    "c66_pose_identity_refuted",
    "c66_led_nan_refuted"
   ],
   "note": "Loaned interfaces have distinct names (as all loans of one controller). False claims: c66_values_reused_refuted (get_values appends to a reused vector), c66_pose_identity_refuted (initial orientation of PoseSensor is (1,0,0,0), not the identity), c66_led_nan_refuted (NaN colours are written)."
  },
  {
   "property": "C67",
   "status": "proved",
   "theorems": [
    "c67_refused",
    "c67_velocity",
    "c67_acceleration",
    "c67_position",
    "c67_velocity_command",
    "c67_near_limit",
    "c67_not_limited",
    "c67_harmless_passes",
    "c67_shape",
    "c67_stop_refuted",
    "c67_outside_refuted",
    "c67_given_acceleration_refuted",
    "c67_jump_refuted",
    "c67_position_refuted",
    "c67_mirror_refuted"
   ],
   "note": "Numbers are exact rationals: rounding, NaN and infinities are not modelled. The velocity and acceleration theorems need a command without accelerations. Refuted: a zero velocity command sends a joint towards position 0 when there is a velocity limit; a joint outside its position limits returns at any speed; a given acceleration overrides the velocity limit or hides a velocity jump; commanded positions can leave the limits when position and velocity are both given; the look-ahead is not symmetric."
  },
  {
   "property": "C68",
   "status": "proved",
   "theorems": [
    "c68_init",
    "c68_number",
    "c68_flag",
    "c68_flag_refused",
    "c68_on_with_number",
    "c68_batch",
    "c68_unrelated",
    "c68_no_nan",
    "c68_last_wins",
    "c68_lost_update_refuted",
    "c68_batch_refuted",
    "c68_position_off_refuted",
    "c68_inverted_refuted",
    "c68_init_nan_refuted"
   ],
   "note": "The realtime buffer is modelled as a cell (its try_lock may delay a hand-over). Soft limits are not modelled. Refuted: an update is lost if another follows before enforce; a repeated value cancels the other numbers of a request; position limits cannot be switched off; min >= max is accepted when set by number; init accepts a flag without number."
  },
  {
   "property": "C69",
   "status": "proved",
   "theorems": [
    "c69_only_held",
    "c69_unlimited_stored",
    "c69_set_one",
    "c69_set_within",
    "c69_cycle_within",
    "c69_reports",
    "c69_two_sets_refuted",
    "c69_retries_refuted",
    "c69_exception_refuted",
    "c69_reports_refuted"
   ],
   "note": "(a)-(c),(e) hold for all histories ((e): no joint in two components); (d) for normal operation and saturation limiters (no soft limits). Refuted: the step bound per cycle (two sets in one update, retries on a busy handle), completion of the pass after an exception, the report for a joint in two components."
  },
  {
   "property": "C70",
   "status": "proved",
   "theorems": [
    "c70_components",
    "c70_interfaces",
    "c70_failed",
    "c70_succeeds",
    "c70_refused",
    "c70_is_start",
    "c70_misspelt_type_refuted",
    "c70_shared_interface_refuted",
    "c70_second_load_wipes"
   ],
   "note": "Exact conditions for success need that no command interface is exported twice; what happens otherwise is the refuted claim. handle_exceptions=true; parsing is C46."
  },
  {
   "property": "C71",
   "status": "proved",
   "theorems": [
    "c71_update",
    "c71_set_mode",
    "c71_mode",
    "c71_references",
    "c71_states",
    "c71_kept",
    "c71_reexport",
    "c71_namespace_refuted",
    "c71_clash_refuted",
    "c71_default_exports_nothing"
   ],
   "note": "Refutations: prefix check admits a foreign namespace; default exports are always empty."
  },
  {
   "property": "C72",
   "status": "proved",
   "theorems": [
    "c72_sequential",
    "c72_undisturbed",
    "c72_heals",
    "c72_real_state",
    "c72_hardware",
    "c72_stale_refuted"
   ],
   "note": "Proved with the proviso in the statement; the unconditional claim is refuted (c72_stale_refuted). Sequential consistency assumed."
  },
  {
   "property": "C73",
   "status": "proved",
   "theorems": [
    "c73_strings",
    "c73_booleans",
    "c73_numbers",
    "c73_refused",
    "c73_never_out_of_range",
    "c73_unambiguous"
   ],
   "note": "stod and the cast of a number are parameters; \\s is the C locale's white space"
  },
  {
   "property": "C74",
   "status": "proved",
   "theorems": [
    "c74_element",
    "c74_order",
    "c74_answer",
    "c74_accepts",
    "c74_mimic",
    "c74_interface_names",
    "c74_first_description",
    "c74_null_pointer",
    "c74_rate_refuted",
    "c74_reduction_refuted",
    "c74_gpio_limits_refuted",
    "c74_misspelt_refuted",
    "c74_group_refuted",
    "c74_no_crash_refuted"
   ],
   "note": "iff between the parser and a declarative reading of the XML tree; refuted: garbage after rw_rate, unreadable reduction/offset become defaults, gpio-level limits ignored, misspelt attributes ignored, missing <hardware> accepted, group inherited from an earlier <hardware>, null pointer for <sdf> without <model> or document without root"
  },
  {
   "property": "C75",
   "status": "proved",
   "theorems": [
    "c75_no_overlap",
    "c75_states",
    "c75_state_kept",
    "c75_one_cycle",
    "c75_read_reported",
    "c75_write_reported",
    "c75_never_invented",
    "c75_handled_next",
    "c75_lifecycle",
    "c75_error_next",
    "c75_lost_read_refuted",
    "c75_lost_write_refuted",
    "c75_stale_refuted",
    "c75_mode_switch_refuted"
   ],
   "note": "AsyncFunctionHandler (realtime_tools, not in the repository) is assumed; synchronized policy only. Four expected guarantees are refuted by concrete schedules. c75_lifecycle and c75_error_next give the state and the reaction to every callback."
  },
  {
   "property": "C76",
   "status": "proved",
   "theorems": [
    "c76_only_active",
    "c76_update_ends",
    "c76_revived",
    "c76_no_overlap",
    "c76_overlap_on_error_refuted",
    "c76_overlap_race_refuted",
    "c76_rejected_starves"
   ],
   "note": "Conditional no-overlap plus two refutations; c76_rejected_starves shows a rejected switch leaves an async controller active and never updated; c76_revived shows a new activation repairs it."
  },
  {
   "property": "C77",
   "status": "proved",
   "theorems": [
    "c77_once",
    "c77_later_ignored",
    "c77_first_loadable",
    "c77_good_is_taken",
    "c77_constructed",
    "c77_description_refuted",
    "c77_settings_refuted",
    "c77_limits_refuted",
    "c77_half_loaded_refuted"
   ],
   "note": "Refutations: c77_description_refuted, c77_settings_refuted, c77_limits_refuted, c77_half_loaded_refuted."
  },
  {
   "property": "C78",
   "status": "proved",
   "theorems": [
    "c78_controllers",
    "c78_orderly",
    "c78_hardware_after_controllers",
    "c78_always_finalized_refuted"
   ],
   "note": "c78_always_finalized_refuted shows why the unconditional claim is false. The control loop does not run during the shutdown in the model."
  },
  {
   "property": "C79",
   "status": "proved",
   "theorems": [
    "c79_initial",
    "c79_exported",
    "c79_loads",
    "c79_bad_state",
    "c79_bad_command",
    "c79_ignored",
    "c79_states",
    "c79_commands",
    "c79_unknown",
    "c79_gpio_refuted",
    "c79_order_refuted",
    "c79_second_owner_refuted"
   ],
   "note": "full; c79_gpio_refuted, c79_order_refuted and c79_second_owner_refuted show what is false"
  },
  {
   "property": "C80",
   "status": "proved",
   "theorems": [
    "c80_controllers_level",
    "c80_controllers_message",
    "c80_controllers_values",
    "c80_looser_thresholds",
    "c80_unmeasured",
    "c80_hw_nothing",
    "c80_hw_level",
    "c80_hw_message",
    "c80_hw_values",
    "c80_manager_level",
    "c80_inactive_said_refuted",
    "c80_hw_listed_once_refuted"
   ],
   "note": "Levels, messages and values of the three callbacks characterised exactly; numbers as rationals, infinities and NaN without rounding, text of numbers not modelled; diagnostic_updater's add, summary and mergeSummary modelled as documented. Two expectations refuted."
  },
  {
   "property": "C81",
   "status": "proved",
   "theorems": [
    "c81_loaded_exactly_when",
    "c81_as_described",
    "c81_refused_unchanged",
    "c81_settings_of_the_load",
    "c81_node_arguments",
    "c81_hidden_file_refuted",
    "c81_user_words_refuted",
    "c81_bad_file_refuted",
    "c81_throws_refuted"
   ],
   "note": "rclcpp parameters, pluginlib and rcl's argument grammar modelled as documented; how rcl resolves contradicting parameter files is outside. Four expectations refuted."
  },
  {
   "property": "C82",
   "status": "proved",
   "theorems": [
    "c82_everything_is_up",
    "c82_stops_at_the_first_failure",
    "c82_exit0_means_unloaded",
    "c82_unloads_only_if_all_ran",
    "c82_asks_nothing_else",
    "c82_gives_up_for_a_reason",
    "c82_unload_on_kill_refuted",
    "c82_early_signal_refuted",
    "c82_exit0_refuted",
    "c82_exit1_refuted",
    "c82_again_refuted"
   ],
   "note": "What left_alone excludes is shown to matter by the environment's freedom only; the file lock, parameters given to set_parameters (one answer), parsing of the command line and the group variant of stops-at-first-failure are not covered."
  },
  {
   "property": "C83",
   "status": "proved",
   "theorems": [
    "c83_exit0_means_unloaded",
    "c83_stops_at_the_first_failure",
    "c83_exit1_means_refused",
    "c83_unspawner_asks_nothing_else",
    "c83_ctrl_c_refuted",
    "c83_hardware_spawner_reports",
    "c83_hardware_spawner_asks_nothing_else",
    "c83_hardware_exit0_refuted"
   ],
   "note": "Exit 0 of the uninterrupted unspawner means unloaded; the first failure stops it; the hardware spawner's reports are truthful. Two natural readings of exit code 0 are refuted."
  },
  {
   "property": "C84",
   "status": "proved",
   "theorems": [
    "c84_files_listed",
    "c84_value_of_the_first_file",
    "c84_no_value",
    "c84_own_section_decides",
    "c84_proper_files_never_raise",
    "c84_specific_section_refuted",
    "c84_later_file_refuted",
    "c84_scoped_section_refuted"
   ],
   "note": "Refuted alongside: in a name space the wildcard wins over the controller's own section; a later file does not override an earlier one; a file with a section for the scoped name is not handed over if it also has one for the bare name."
  }
 ]
}