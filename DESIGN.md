# Formal model of ros2_control in Rocq (Coq 8.16.1)

## 1. Approach

The code is modelled function by function as total, executable Gallina definitions (`*Model.v`). Everything outside the
repository is universally quantified: hardware plugins and controllers are oracles that may answer anything, depending
on the whole history (Events.v, `env`); hash-map iteration orders, `try_lock` outcomes, clock values, thread
interleavings are arguments. Uncaught exceptions, `std::map::at` on a missing key and unbounded recursion are the outcome
`Crash`. Properties are about *every* finite history of operations from any initial set of hardware components and any
controllers loaded later, or about every input of a function; they are proved by induction over histories, inductive
invariants, simulation, or (limiters, transmissions) algebra. No theorem is a search: `vm_compute` is used only in
`Example`s (hypotheses are satisfiable) and in refutations (a concrete history is a proof of an existential).

Layers: `Base`, `Events` -> component (`HwModel`) -> resource manager (`RmModel`, `RmSys`) -> chain topology
(`ChainModel`) -> controller manager (`CmModel`) -> services on top (`ListModel`, `ReloadModel`, `InitHwModel`);
separately the two-thread machine (`RtModel`), and the leaf libraries (limits, transmissions, lexical casts, handles,
statistics, ordered interfaces, URDF limits, timing, mock hardware).

Every property theorem lives in a `Props_*.v` file, is closed by `exact` of a lemma proved elsewhere, followed by
`Print Assumptions`, and accompanied by an `Example` (`cNN_example...`) showing a non-trivial concrete case that meets
its hypotheses. Where the English claim is false of the code, the counterexample is proved (`..._refuted`) and the claim is
proved under the weakest condition found (`_partial` if the full claim stays in view).

## 2. Plan and proof method per property

For each property: what is modelled, how it is proved, where, and the theorems. Status as in MANIFEST.json; `_partial` theorems prove part of the English statement, `_refuted` theorems prove that the unrestricted English statement is false of the modelled code (a concrete history the kernel evaluates).

- **C01 Hardware callbacks run only from their documented state** (proved). HwModel.v: one component; every method is a function of state and callback results that also emits the callbacks it makes. Refinement of a transition table (RmSpec.v), by cases, lifted to all histories of RmSys.v by induction. File: Props_Rm.v. Theorems: `c01_component_follows_life_cycle`, `c01_manager_follows_life_cycle`. Automaton over observable callbacks, component level and manager level.
- **C02 read/write reach the hardware only in the allowed states** (proved). Same model; read and write emit events, the theorem is about every event of every history. File: Props_Rm.v. Theorems: `c02_read_write_only_when_allowed`, `c02_other_states_untouched`, `c02_cycle_reads`, `c02_cycle_writes`.
- **C03 A finalized hardware component stays finalized** (partial). Expected false: error() is not guarded in FINALIZED and RM::read calls it a second time. File: Props_Rm.v. Theorems: `c03_finalized_stays_partial`, `c03_finalized_stays_refuted`. Holds without groups and for all operations except read/write of grouped components; refuted in general: a group error calls on_error of finalized members.
- **C04 set_component_state reports success only when the target state is reached** (proved). RmModel.v set_component_state; all states, targets and outcomes by cases; history lifting through the invariant. File: Props_Rm.v. Theorems: `c04_set_state_ok_means_reached`, `c04_request_runs_the_path`, `c04_shutdown_all`, `c04_ok_despite_failure_refuted`.
- **C05 Interfaces of a component are available exactly while it is configured** (partial). Availability lists and component state in one invariant over RmSys.v histories; the error paths refute the converse. File: Props_Rm.v. Theorems: `c05_configured_interfaces_available`, `c05_unconfigured_interfaces_unavailable_partial`, `c05_unconfigured_interfaces_unavailable_refuted`. configured => available is proved for every history; the converse only without transition errors; refuted in general (activate ERROR leaves interfaces listed).
- **C06 Command interfaces are lent exclusively** (proved). Claims plus the multiset of live loans; invariant by induction over operations. File: Props_Rm.v. Theorems: `c06_hardware_loans_exclusive`, `c06_all_loans_exclusive`, `c06_claim_refused`, `c06_release_makes_claimable`, `c06_claim_granted_exactly`. Hardware interfaces: every history. Reference interfaces: histories that never remove a reference interface on loan (C07 shows why).
- **C07 Re-exporting reference interfaces does not break exclusivity** (partial). Expected false: re-import of a reference interface resets its claim. File: Props_Rm.v. Theorems: `c07_reexport_keeps_exclusive_refuted`. The property is false of the code: refutation witness proved.
- **C08 Errors of one component reach its whole hardware group** (proved). RM::read as a fold over components with group states; invariant of the fold. File: Props_Rm.v. Theorems: `c08_bad_group_fails_every_member`, `c08_bad_group_fails_every_member_write`, `c08_error_reaches_later_members`, `c08_group_stays_bad`, `c08_failures_stay_in_group`. For a write cycle: unless a member is configured/cleaned/shut down within the cycle.
- **C09 The failed-hardware list names exactly the components that failed** (proved). Same fold; the list of failed names is compared with a specification on the trace. File: Props_Rm.v. Theorems: `c09_read_failed_list_exact`, `c09_write_failed_list_exact`. For grouped components the list additionally contains members of a bad group (C08).
- **C10 read error and write failures drive the component's life cycle** (proved). Same. File: Props_Rm.v. Theorems: `c10_read_failure_unconfigures`, `c10_write_failure_effects`.
- **C11 Command-mode switch touches only the concerned hardware** (proved). prepare/perform command mode switch with oracle results; the events addressed to each component are specified independently. File: Props_Rm.v. Theorems: `c11_prepare_switch`, `c11_perform_switch`, `c11_prepare_exact`, `c11_perform_exact`.
- **C12 Every active controller holds all its interfaces** (partial). CmModel.v: invariant (loans, claims, life cycle) by induction over all operations. File: Props_Cm.v. Theorems: `c12_not_active_holds_nothing`, `c12_active_holds_all_partial`, `c12_active_holds_all_refuted`. Not active => no loan: every history. Active => holds all: proved for controllers whose on_deactivate never answers FAILURE; refuted otherwise.
- **C13 No two active controllers command the same interface** (partial). Counting invariant over the primitive steps for hardware interfaces (CmExcl.v); for any interface, the same invariant plus 'what is held is registered', with the configure/cleanup/unload functions walked by hand under the condition `undisturbed` of RefExclSpec.v (CmRefExcl.v); the condition is shown necessary by a refutation. File: Props_Cm.v, Props_RefExcl.v. Theorems: `c13_one_holder_while_undisturbed_partial`, `c13_held_while_undisturbed_partial`, `c13_hardware_interface_one_holder_partial`, `c13_held_is_claimed_partial`, `c13_one_holder_refuted`. Proved for all hardware command interfaces in every history, and for every interface (also the reference interfaces of chainable controllers) in every history that does not configure, clean up or unload a controller while one of its registered reference interfaces is held; without that condition it is false (refuted: after a hardware error deactivates F but not P, F can be configured again and Q gets the interface P still holds).
- **C14 A strict switch is rejected as a whole** (proved). Validation part of switch_controller_cb: state equality of everything observable when the answer is an error. File: Props_Cm.v. Theorems: `c14_rejected_changes_nothing`, `c14_nothing_left_to_perform`, `c14_invalid_is_rejected`. STRICT and BEST_EFFORT: an answer ERROR implies no controller, claim or hardware changed and nothing pending; every STRICT request not answered ERROR satisfies valid_switch (CmSpec.v).
- **C15 A rejected switch leaves no trace** (partial). Expected false (reference interfaces are made available during validation); proved for requests without chain partners. File: Props_Follow.v. Theorems: `c15_unchanged_partial`, `c15_only_exports`, `c15_refuted`, `c15_refuted_crash`. Unchanged when no requested controller asks for another controller's interfaces; in every case only exports of chainable controllers that run or are requested are added (c15_only_exports). Refuted for chains: a rejected STRICT request leaves the reference interfaces of an inactive controller available, and a later request can then crash.
- **C16 Switch result reflects the outcome** (proved). evaluate_switch_result against the life-cycle states. File: Props_Cm.v, Props_Restart.v. Theorems: `c16_answer_reflects_outcome`, `c16_restart_refuted`. iff-characterisation of the answer of an accepted STRICT request for every interleaving of other operations before the evaluation. c16_restart_refuted: OK does not mean that the requested switch took place, since a restart (same controller stopped and started) whose hardware mode switch fails is answered OK.
- **C17 A chained controller is never active without its chain** (partial). Expected false in general; invariant over failure-free histories. File: Props_Cm.v. Theorems: `c17_chain_intact_partial`, `c17_switch_keeps_chains_partial`, `c17_calm_keeps_chains_partial`, `c17_chain_intact_refuted`, `c17_failed_activation_refuted`. Proved for every history whose run-time operations do not fail (calm operations and STRICT switches over disjoint lists answered OK), environments whose on_cleanup never answers FAILURE. In general false: refuted by a hardware read error and by a BEST_EFFORT switch with a failing on_activate.
- **C18 Deactivation never leaves a preceding controller running** (partial). check_preceding_controllers_for_deactivate against who holds what. File: Props_Cm.v. Theorems: `c18_preceding_must_stop_too_partial`, `c18_refuted`. Proved for environments whose on_cleanup never answers FAILURE and for preceding controllers that ask for the interface by name (INDIVIDUAL, command or state); refuted without the proviso on on_cleanup.
- **C19 Execution order follows the chain** (partial). Insertion algorithm; by induction on the list for tree-like topologies; a DAG refutes the general claim. File: Props_Chain.v. Theorems: `c19_order_follows_chain_partial`, `c19_order_follows_chain_refuted`. Proved for tree-like topologies, every history and iteration order; refuted for general acyclic topologies (P->C->F->X, P->X).
- **C20 Ordering keeps every controller exactly once** (proved). Same algorithm: permutation. File: Props_Chain.v. Theorems: `c20_controllers_kept_exactly_once`, `c20_ordering_total`.
- **C21 Full chain closure** (proved). Depth-first search with fuel: closure and termination. File: Props_Chain.v. Theorems: `c21_group_is_connected_component`, `c21_group_total`.
- **C22 Chain validation terminates** (partial). Recursion with fuel: a rank function bounds the depth on acyclic graphs; cyclic graphs exhaust every fuel. File: Props_Follow.v. Theorems: `c22_returns_partial`, `c22_refuted_cycle`, `c22_refuted_unconfigured`. Proved for acyclic graphs, well-formed names, registered exports and configured requested controllers; refuted for cyclic references (unbounded recursion) and for a request naming a loaded but unconfigured chainable controller (uncaught exception).
- **C23 The real-time loop never sees a list being modified** (partial). RtModel.v: small-step machine of both threads, inductive invariant over every interleaving. File: Props_Rt.v. Theorems: `c23_lists_partial`, `c23_no_race_partial`, `c23_refuted_startup`. Small-step machine of both threads, every interleaving, under ok_schedule (first access of the RT thread not interrupted; no timeout withdraws a request in the few instructions between the RT thread's read of the flag and its reaction). Both conditions are necessary: c23_refuted_startup, c24_refuted_overtaken. Sequentially consistent memory.
- **C24 A switch is performed at most once and never torn** (partial). Same machine with ghost history; automaton of a switch. File: Props_Rt.v. Theorems: `c24_switch_partial`, `c24_no_race_partial`, `c24_no_deadlock_partial`, `c24_refuted_overtaken`. Every interleaving and timeout point under ok_schedule; history automaton switched_once: executed at most once, completely, by the named thread, on the requested lists, success only after execution, timeout only if nothing was executed, no controller of the request updated meanwhile. Also freedom from request races and from deadlock. c24_refuted_overtaken shows the condition is necessary.
- **C25 A failing controller is taken out of the loop and replaced** (partial). ControllerManager::update: fold over controllers, then deactivation and fallback. For chainable fallbacks and fallbacks that use exports of others: the claim and availability invariants of reference interfaces (C13, C59) are carried through the deactivations of the step. File: Props_Fallback.v, Props_Update.v. Theorems: `c25_taken_out`, `c25_fallback_partial`, `c25_fallback_refuted`, `c25_chain_refuted`, `c25_fallback_chained_partial`, `c25_chained_mode_refuted`. c25_taken_out is the full first half (failed controller and its chain group are taken out). c25_fallback_chained_partial is the second half for every fallback that asks by name for interfaces that can be had: of the hardware, of other fallbacks of the step or of controllers that keep running, chainable or not, active already or not (c25_fallback_partial is the special case of stand-alone ones); missing: fallbacks that ask for all interfaces or are active and command nothing, and reference interfaces rebuilt while held. c25_fallback_refuted (two fallbacks sharing an interface: none is active), c25_chain_refuted (chains of the users taken out are not followed) and c25_chained_mode_refuted (a controller commanded by a started fallback is not put into chained mode) show where the English claim is false of the code.
- **C26 Hardware errors deactivate the controllers using that hardware** (partial). ControllerManager::read/write and the cache of controllers per component (an invariant of its own). File: Props_Update.v. Theorems: `c26_read_partial`, `c26_write_partial`, `c26_refuted_fallback`, `c26_refuted_write`. c26_read_partial/c26_write_partial: controllers activated by a service call and using an interface of the failed hardware are not active afterwards. c26_refuted_fallback: controllers activated as a fallback are never recorded against their hardware and stay active. c26_refuted_write: a later component's DEACTIVATE overwrites an earlier ERROR.
- **C27 Controllers are updated at their own rate** (partial). TimingModel.v: the update decision over integers; counting by induction over cycles. File: Props_Timing.v. Theorems: `c27_full_rate`, `c27_divisor_partial`, `c27_count`, `c27_nearest_exists`, `c27_spacing_min`, `c27_spacing_max`, `c27_periods`, `c27_configured`, `c27_configured_range`, `c27_refuted`, `c27_closest_refuted`, `c27_reconfigure_refuted`. True for rates dividing the manager rate (c27_divisor_partial); in general the controller is updated every nearest-integer-of-u/r cycles (c27_count). Refuted: non-divisor rates run at a different rate, the 'closest achievable' rate is not the closest, re-configuration at a higher rate keeps the old lower one.
- **C28 Unloading and cleanup are refused for active controllers** (proved). unload/cleanup of CmModel.v. File: Props_Cm.v. Theorems: `c28_refused_when_active`, `c28_unload_removes_exactly_one`, `c28_cleanup_touches_one`.
- **C29 configure_controller is refused for active controllers** (proved). configure of CmModel.v. File: Props_Cm.v. Theorems: `c29_refused`, `c29_failed_leaves_unconfigured`, `c29_done`, `c29_cleaned_up_first`. 'not left half-configured' = at_rest: unconfigured or finalized, unless the controller's own on_cleanup answers FAILURE
- **C30 Controller names are unique** (proved). Invariant of CmModel.v. File: Props_Cm.v. Theorems: `c30_names_unique`.
- **C31 Limited commands respect the hard limits** (partial). LimitsModel.v over the standard library's SpecFloat binary64; order reasoning in FloatOrder.v and, through Flocq, over the reals in FloatReal.v. File: Props_Limits.v. Theorems: `c31_position_partial`, `c31_velocity_partial`, `c31_effort`, `c31_jerk`, `c31_acceleration`, `c31_history_partial`, `c31_defined`, `c31_throws`, `c31_throw_keeps_memory`, `c31_velocity_refuted_first_command`, `c31_velocity_refuted_out_of_bounds`, `c31_refuted_nan_state`. Effort, jerk and acceleration limits hold for every command, memory and measured state (c31_effort, c31_jerk, c31_acceleration, in IEEE double arithmetic). Position and velocity limits are proved for every command under hypotheses on the measured state (c31_position_partial, c31_velocity_partial) and, by induction over any number of cycles, for a joint in normal operation (c31_history_partial). The unrestricted statement is false of the code, see the c31_*refuted* witnesses (NaN measured position; measured position slightly out of bounds; first command without measured velocity).
- **C32 Limiter reports exactly when it changed a command** (proved). Same. File: Props_Limits.v. Theorems: `c32_reports_changes`, `c32_soft_reports_changes`. Both limiters.
- **C33 Velocity/acceleration-limited motion** (proved). Same. File: Props_Limits.v. Theorems: `c33_position_step`, `c33_velocity_step`. Bounds are the ones computed in double arithmetic; the step uses the acceleration limit as well.
- **C34 Effort is never applied into a violated limit** (proved). Same. File: Props_Limits.v. Theorems: `c34_never_pushes_outwards`. Stated for every command, memory and measured state.
- **C35 The soft limiter stays within the hard limits** (partial). Same. File: Props_Limits.v. Theorems: `c35_position_partial`, `c35_velocity_partial`, `c35_effort_partial`, `c35_undefined_refuted`, `c35_position_refuted`, `c35_effort_refuted`. Position commands end inside the soft limits (and the hard ones when the soft ones are inside them), velocity and effort inside the hard ones, under the hypotheses shown; the unrestricted statement is false: c35_undefined_refuted (std::clamp with lo > hi), c35_position_refuted, c35_effort_refuted.
- **C36 NaN commands pass and are not remembered** (proved). Same. File: Props_Limits.v. Theorems: `c36_nan_passes`, `c36_soft_nan_passes`. For a limiter that has a memory; both limiters.
- **C37 Transmissions are invertible** (proved). TransModel.v with the reals as arithmetic; field. File: Props_Trans.v. Theorems: `c37_actuators`, `c37_joints`, `c37_frame`, `c37_doubles_refuted`. Exact arithmetic (reals), all three transmissions, for handles with storage of their own; memory with possible aliasing is modelled, separation is a hypothesis. c37_doubles_refuted shows that exactness is lost in double arithmetic, as expected.
- **C38 Transmissions conserve power** (proved). Same. File: Props_Trans.v. Theorems: `c38_two_joints`, `c38_simple`. Both directions, exact arithmetic.
- **C39 Transmission parameters apply to the joint they were declared for** (partial). The name handling of the loaders; std::set sorting refutes it. File: Props_Trans.v. Theorems: `c39_alphabetical_partial`, `c39_simple`, `c39_swapped`, `c39_refuted`. True when joints and actuators are declared in alphabetical order (c39_alphabetical_partial) and for the simple transmission; otherwise the parameters are exchanged (c39_swapped, c39_refuted): std::set in get_names sorts the names.
- **C40 Integer parameter parsing is exact or rejected** (partial). LexModel.v: strtol/strtoul and the range checks against a specification of decimal notation. File: Props_Lex.v. Theorems: `c40_signed`, `c40_unsigned_accepts`, `c40_unsigned_partial`, `c40_unsigned_wraps`, `c40_refuted`. Signed types: full equivalence. Unsigned types: complete, and sound for strings without minus sign; refuted in general (strtoul wraps negative numbers modulo 2^64).
- **C41 parse_bool is total on its vocabulary** (proved). LexModel.v. File: Props_Lex.v. Theorems: `c41_bool`.
- **C42 Handles deliver what was stored** (proved). HandleModel.v: handles as objects at addresses with a pointer member. File: Props_Handle.v. Theorems: `c42_read_back`, `c42_until_next_store`, `c42_store_accepted`, `c42_type_fixed`, `c42_store_refused`, `c42_read_refused`, `c42_read_bool`, `c42_locked`. Reachable histories are those in which no DOUBLE handle that owns its value is moved (see C43 for what such a move does).
- **C43 Copies and moves of handles stay usable** (partial). Same; moves by swap refute it. File: Props_Handle.v. Theorems: `c43_copy`, `c43_own_storage_partial`, `c43_defined_partial`, `c43_move_partial`, `c43_refuted`. Copies are independent and moves of handles not owning a double are faithful; refuted in general: moving a handle that owns a double leaves its pointer inside the moved-from object (c43_refuted).
- **C44 Runtime statistics are the true statistics** (proved). StatsModel.v over exact reals. File: Props_Stats.v. Theorems: `c44_statistics`, `c44_published`, `c44_unpublished`, `c44_current`, `c44_never_reset`. Exact arithmetic (rationals); c44_never_reset shows what happens before the first reset.
- **C45 Interface assignment is complete and ordered** (partial). OrderedModel.v. File: Props_Ordered.v. Theorems: `c45_in_order_partial`, `c45_complete_partial`, `c45_range_error`, `c45_refuted_duplicate`, `c45_refuted_stale`. True when no interface name occurs twice and the output vector is empty before; both refuted otherwise.
- **C46 Joint limits from the description only become tighter** (proved). ParserModel.v over doubles. File: Props_Parser.v. Theorems: `c46_position`, `c46_velocity`, `c46_effort`, `c46_soft`, `c46_disabled_joint`, `c46_disabled_interface`, `c46_acceleration`, `c46_jerk`. Interval parameters are taken as the numbers parsed from the URDF/ros2_control text; number parsing is C40.
- **C47 Initial hardware states respect groups** (partial). InitHwModel.v on top of RmModel.v; arbitrary iteration orders. File: Props_InitHw.v. Theorems: `c47_groups_partial`, `c47_ungrouped`, `c47_listed`, `c47_refuted_listed_member`, `c47_refuted_shutdown`. Groups roll back except when a member listed as inactive fails to configure or the shutdown exception fires (both refuted).
- **C48 The periodic loop never drifts** (partial). TimingModel.v over integer nanoseconds. File: Props_Timing.v. Theorems: `c48_grid`, `c48_not_past_partial`, `c48_lag`, `c48_on_time`, `c48_defined`, `c48_blocking`, `c48_refuted`. The wake-up grid, the bound on the lag; never in the past only for rates dividing 10^9 ns (refuted otherwise).
- **C49 Mock hardware loops commands back** (partial). MockModel.v; induction over histories of read/write/switch. File: Props_Mock.v. Theorems: `c49_position_partial`, `c49_other_partial`, `c49_dynamics_partial`, `c49_dynamics_moves`, `c49_custom`, `c49_mimic`, `c49_configure_refuted`. Every command, read, switch history since the last configure: position = last finite command + offset; other joint, mocked sensor and gpio interfaces = last finite command; dynamics mode: the interface of the active mode; custom interface and mimic joints in full. Missing: across a configure (refuted: each configure adds the offset again), interfaces whose gpio shares a joint's name, bool interfaces.
- **C50 Mock hardware selects the mode of exactly the named joint** (partial). Same; substring matching refutes it. File: Props_Mock.v. Theorems: `c50_only_named`, `c50_switched_partial`, `c50_conflict_partial`, `c50_refuted`. Full: a switch never changes the mode of a joint that was not named. Accepted requests set exactly the mode and conflicting ones are rejected if no joint's name occurs in another's mode interface; refuted otherwise (joint1/joint10).
- **C51 A hardware command interface is claimed exactly while an active controller holds it** (proved). Invariant of CmModel.v: claims in the resource manager equal loans of active controllers. File: Props_Update.v. Theorems: `c51_claimed_iff_held`. All histories; hardware command interfaces (reference interfaces of chainable controllers: see C13/C07 findings).
- **C52 An accepted switch does what it was asked** (proved). A whole switch: validation, carrying out, evaluation, under hypotheses on user code only. File: Props_Done.v. Theorems: `c52_accepted_switch_is_done`, `c52_acceptance_suffices_refuted`. Proved for STRICT requests of controllers that name their interfaces; c52_acceptance_suffices_refuted shows that acceptance alone is not enough: the conflict check ignores controllers that are restarted to change their chained mode.
- **C53 Every active controller is updated exactly once per cycle, in order** (proved). The trace of an update cycle against the controller list. File: Props_Life.v. Theorems: `c53_update_cycle`, `c53_only_in_the_update_cycle`. Whether an active controller is due in a cycle (its own update rate) is an oracle here; the rate arithmetic is C27.
- **C54 Controller callbacks follow the managed life cycle** (proved). An automaton per controller run over the trace; simulation invariant. File: Props_Life.v. Theorems: `c54_life_cycle`, `c54_loaded`, `c54_history`. All callback outcomes, all operations, all histories; the executor's own life-cycle services of the controller node (ros2 lifecycle set) are not modelled.
- **C55 Operations call only their own user code** (proved). Classification of every event emitted by every operation. File: Props_Life.v. Theorems: `c55_only_their_own_callbacks`. The table of what each operation may call is LifeSpec.may_call.
- **C56 Commands that respect the limits pass unchanged** (proved). LimitsModel.v. File: Props_Pass.v. Theorems: `c56_passes`, `c56_remembers`, `c56_soft_remembers`. The saturation limiter; what 'respects the limits' means is PassSpec.respects.
- **C57 Soft limits slow a joint down** (proved). LimitsModel.v, soft limiter. File: Props_Pass.v. Theorems: `c57_velocity`, `c57_effort`. Joint with a measured finite position; effort without a velocity command in the same cycle (the C++ reuses the narrowed velocity bounds then).
- **C58 Hardware is told exactly which command interfaces start and stop** (partial). The prepare/perform events of the trace against the interfaces of the controllers in the request. File: Props_Tell.v. Theorems: `c58_switch`, `c58_read`, `c58_write`, `c58_update_partial`, `c58_healthy_not_told_refuted`, `c58_fallback_not_undone_refuted`. Requests and read/write error handling proved (c58_switch, c58_read, c58_write); update error handling proved except for what is said when a fallback's activation fails while another switch request waits (c58_update_partial). Refuted: after a hardware error, healthy components that share a controller with the failed one are not told (c58_healthy_not_told_refuted); a fallback whose activation fails is not taken back (c58_fallback_not_undone_refuted).
- **C59 Exports of a chainable controller follow its life cycle** (proved). Invariant relating exports, registration, availability and life cycle. File: Props_Export.v. Theorems: `c59_registered`, `c59_active_offered`, `c59_configured_withdrawn`, `c59_stopped_withdrawn`, `c59_registered_refuted_error`, `c59_registered_refuted_cleanup`, `c59_active_offered_refuted`, `c59_inactive_withdrawn_refuted`. Each proviso (no callback error, on_cleanup / on_deactivate do not refuse) is shown to be needed by a _refuted theorem; 'inactive implies withdrawn' is refuted by a rejected STRICT request (c59_inactive_withdrawn_refuted).
- **C60 The list services tell the truth** (proved). ListModel.v: the answers as functions of the state, compared with state and invariants. File: Props_List.v. Theorems: `c60_controllers`, `c60_claimed_after_switch`, `c60_components`, `c60_interfaces`, `c60_claimed_refuted`, `c60_connections_refuted`, `c60_answers_refuted`. list_controllers' answer needs the provisos of C59 (c60_answers_refuted: it throws otherwise); claimed_interfaces is stale between switches (c60_claimed_refuted); a chain connection lists the interfaces of all partners (c60_connections_refuted).
- **C61 A valid STRICT request is accepted and carried out** (proved). Completeness of the validation: every check passes for a valid request; then C52. File: Props_Accept.v. Theorems: `c61_valid_is_accepted`, `c61_valid_is_done`, `c61_stop_refuted`, `c61_stale_claims_refuted`. The conditions a request must meet are the record 'acceptable' (AcceptSpec.v). Two of them cannot be dropped: c61_stop_refuted (the hardware of a controller to be stopped was taken to unconfigured) and c61_stale_claims_refuted (the stopped controller does not name its interfaces individually).
- **C62 BEST_EFFORT does what STRICT would, and nothing that was not asked** (proved). The BEST_EFFORT edits of the request against the STRICT run; frame property for bystanders. File: Props_Best.v. Theorems: `c62_what_strict_accepts`, `c62_valid_is_done`, `c62_unknown_ignored`, `c62_starts_only_requested`, `c62_bystanders_untouched`, `c62_all_unknown_refuted`, `c62_chain_refuted`. Limits shown: a list consisting of unknown names only rejects the whole request (c62_all_unknown_refuted); BEST_EFFORT may start a controller without the chain partner it commands (c62_chain_refuted).
- **C63 reload_controller_libraries unloads everything or says no** (proved). ReloadModel.v: the service as a sequence of operations with arbitrary real-time cycles in between. File: Props_Reload.v. Theorems: `c63_refused`, `c63_ok_means_empty`, `c63_forced_succeeds`, `c63_finalized_refuted`. c63_finalized_refuted: a FINALIZED controller cannot be unloaded, so the service can never succeed again.
- **C64 Chained mode follows the chain** (partial). ChainedSpec.v: users of a controller's interfaces, from the interface configurations. CmChained..5.v: the to/from-chained lists built by a request, invariants of the request loops, then the switch itself; four counterexamples. File: Props_Chained.v. Theorems: `c64_started_partial`, `c64_only_if_commanded`, `c64_released`, `c64_two_users_refuted`, `c64_restart_refuted`, `c64_observer_refuted`, `c64_left_chained_refuted`. Missing in c64_started_partial: the case where the same request also stops a user of the controller; the claim is false there (c64_two_users_refuted, c64_restart_refuted, c64_observer_refuted). on_deactivate must not answer FAILURE and chained mode must not be refused; c64_left_chained_refuted: a failed activation leaves the controller in chained mode.
- **C65 The kinds of interface configuration are honoured** (proved). KindsSpec.v: what each kind selects, from the documentation of InterfaceConfiguration. CmKinds.v: invariant (loans are selected) over all primitive steps; availability of hardware interfaces is constant while a switch or an update runs. File: Props_Kinds.v. Theorems: `c65_only_selected`, `c65_started_gets`, `c65_overlap_never_starts`, `c65_overlap_refuted`. Hardware interfaces only in c65_started_gets (interfaces exported by controllers come and go within the switch). on_deactivate of the controller must not answer FAILURE (then it stays active without its loans, C12). c65_overlap_refuted: overlapping patterns are detected when the controller is configured only if the hardware is up by then.
- **C66 Semantic components report what their interfaces hold** (proved). SemModel.v: the components over an arbitrary value type, loans as positions (as in OrderedModel.v). SemSpec.v: the latest value of an interface. SemProofs.v, SemMain.v: induction over axes and calls. File: Props_Sem.v. Theorems: `c66_force_torque`, `c66_imu`, `c66_pose`, `c66_magnetic`, `c66_parts`, `c66_missing_axes`, `c66_range`, `c66_gps`, `c66_values`, `c66_values_capacity`, `c66_set_values`, `c66_led`, `c66_values_reused_refuted`, `c66_pose_identity_refuted`, `c66_led_nan_refuted`. Loaned interfaces have distinct names (as all loans of one controller). False claims: c66_values_reused_refuted (get_values appends to a reused vector), c66_pose_identity_refuted (initial orientation of PoseSensor is (1,0,0,0), not the identity), c66_led_nan_refuted (NaN colours are written).
- **C67 The trajectory-point limiter** (proved). SatModel.v: on_enforce step by step over exact rationals. SatSpec.v: limits, braking, stopping room. SatProofs.v, SatMain*.v: each step characterised, then composed. File: Props_Sat.v. Theorems: `c67_refused`, `c67_velocity`, `c67_acceleration`, `c67_position`, `c67_velocity_command`, `c67_near_limit`, `c67_not_limited`, `c67_harmless_passes`, `c67_shape`, `c67_stop_refuted`, `c67_outside_refuted`, `c67_given_acceleration_refuted`, `c67_jump_refuted`, `c67_position_refuted`, `c67_mirror_refuted`. Numbers are exact rationals: rounding, NaN and infinities are not modelled. The velocity and acceleration theorems need a command without accelerations. Refuted: a zero velocity command sends a joint towards position 0 when there is a velocity limit; a joint outside its position limits returns at any speed; a given acceleration overrides the velocity limit or hides a velocity jump; commanded positions can leave the limits when position and velocity are both given; the look-ahead is not symmetric.
- **C68 Joint limits follow their parameters** (proved). ParamModel.v: parameters, limits by field, the limiter with its realtime buffer. ParamProofs.v: names are injective, one parameter, histories. ParamMain.v: batches, NaN, init. File: Props_Param.v. Theorems: `c68_init`, `c68_number`, `c68_flag`, `c68_flag_refused`, `c68_on_with_number`, `c68_batch`, `c68_unrelated`, `c68_no_nan`, `c68_last_wins`, `c68_lost_update_refuted`, `c68_batch_refuted`, `c68_position_off_refuted`, `c68_inverted_refuted`, `c68_init_nan_refuted`. The realtime buffer is modelled as a cell (its try_lock may delay a hand-over). Soft limits are not modelled. Refuted: an update is lost if another follows before enforce; a repeated value cancels the other numbers of a request; position limits cannot be switched off; min >= max is accepted when set by number; init accepts a flag without number.
- **C69 Command limits bound what reaches the hardware** (proved). EnforceModel.v models the resource manager's limiter tables on top of LimitsModel.v (double arithmetic); a frame relation shows that one joint's pass touches that joint only; an invariant (limiter memory, stale data, commands and measurements of the joint are sane) is carried through every history of normal operation. The step-per-cycle claim is refuted (two sets, retries), as is completing the pass after an exception and reporting for a joint in two components. File: Props_Enforce.v. Theorems: `c69_only_held`, `c69_unlimited_stored`, `c69_set_one`, `c69_set_within`, `c69_cycle_within`, `c69_reports`, `c69_two_sets_refuted`, `c69_retries_refuted`, `c69_exception_refuted`, `c69_reports_refuted`. (a)-(c),(e) hold for all histories ((e): no joint in two components); (d) for normal operation and saturation limiters (no soft limits). Refuted: the step bound per cycle (two sets in one update, retries on a busy handle), completion of the pass after an exception, the report for a joint in two components.
- **C70 Loading a robot description is all or nothing** (proved). LoadModel: the loop over the parsed description with oracles for plugin creation and exports, reusing HwModel.hw_init and RmModel.add_state_itfs/add_cmd_itfs; an invariant over the components handled so far (LoadProofs), then success, failure, exact conditions, and the link to rm_start (LoadMain). File: Props_Load.v. Theorems: `c70_components`, `c70_interfaces`, `c70_failed`, `c70_succeeds`, `c70_refused`, `c70_is_start`, `c70_misspelt_type_refuted`, `c70_shared_interface_refuted`, `c70_second_load_wipes`. Exact conditions for success need that no command interface is exported twice; what happens otherwise is the refuted claim. handle_exceptions=true; parsing is C46.
- **C71 Chainable controllers: modes and exported interfaces** (proved). ChainableModel: the class with the user's overrides as oracles; the export loop characterised by induction over the list; the mode by induction over the history. File: Props_Chainable.v. Theorems: `c71_update`, `c71_set_mode`, `c71_mode`, `c71_references`, `c71_states`, `c71_kept`, `c71_reexport`, `c71_namespace_refuted`, `c71_clash_refuted`, `c71_default_exports_nothing`. Refutations: prefix check admits a foreign namespace; default exports are always empty.
- **C72 get_lifecycle_id agrees with the life-cycle state** (proved). LcidModel: a small-step machine, one shared-memory access per step; invariant (cache is a transition id or the node's state, and so is everything about to be stored) preserved by every step except a callback with a pending store; a refuting schedule with a theorem that it stays wrong for any number of later calls. File: Props_Lcid.v. Theorems: `c72_sequential`, `c72_undisturbed`, `c72_heals`, `c72_real_state`, `c72_hardware`, `c72_stale_refuted`. Proved with the proviso in the statement; the unconditional claim is refuted (c72_stale_refuted). Sequential consistency assumed.
- **C73 Array parameters are read exactly when they are flat arrays** (proved). ArrayModel: the three regular expressions as syntax, decided by derivatives, and the run iterator; ArraySpec: grammar of flat arrays. Proved: derivative matcher = language, languages of the regexes, iff with the grammar. Number conversion itself (stod + static_cast) is a parameter. File: Props_Array.v. Theorems: `c73_strings`, `c73_booleans`, `c73_numbers`, `c73_refused`, `c73_never_out_of_range`, `c73_unambiguous`. stod and the cast of a number are parameters; \s is the C locale's white space
- **C74 A <ros2_control> element is read as it says** (proved). XmlTypes/XmlModel: the parser function by function over an XML tree (tinyxml2 and urdf::Model are inputs, stod and the int cast parameters); XmlSpec: declarative relation between an element and what it says. Proved: accepted-with-result iff the relation holds (both directions), order independence, agreement with the URDF, null-pointer cases; refutations for what is silently accepted. File: Props_Xml.v. Theorems: `c74_element`, `c74_order`, `c74_answer`, `c74_accepts`, `c74_mimic`, `c74_interface_names`, `c74_first_description`, `c74_null_pointer`, `c74_rate_refuted`, `c74_reduction_refuted`, `c74_gpio_limits_refuted`, `c74_misspelt_refuted`, `c74_group_refuted`, `c74_no_crash_refuted`. iff between the parser and a declarative reading of the XML tree; refuted: garbage after rw_rate, unreadable reduction/offset become defaults, gpio-level limits ignored, misspelt attributes ignored, missing <hardware> accepted, group inherited from an earlier <hardware>, null pointer for <sdf> without <model> or document without root
- **C75 Asynchronous hardware components** (proved). AsyncModel.v: one step per access to the shared atomics or begin/end of user code; AsyncSpec.v reads the order of calls from a log; invariants over all schedules (AsyncProofs.v). realtime_tools' AsyncFunctionHandler is assumed (see AsyncModel.v). File: Props_Async.v. Theorems: `c75_no_overlap`, `c75_states`, `c75_state_kept`, `c75_one_cycle`, `c75_read_reported`, `c75_write_reported`, `c75_never_invented`, `c75_handled_next`, `c75_lifecycle`, `c75_error_next`, `c75_lost_read_refuted`, `c75_lost_write_refuted`, `c75_stale_refuted`, `c75_mode_switch_refuted`. AsyncFunctionHandler (realtime_tools, not in the repository) is assumed; synchronized policy only. Four expected guarantees are refuted by concrete schedules. c75_lifecycle and c75_error_next give the state and the reaction to every callback.
- **C76 Asynchronous controllers** (proved). AsyncModel.v second part: three threads over skip_async_triggers_; invariants over all schedules; concrete schedules for the refutations. File: Props_Async.v. Theorems: `c76_only_active`, `c76_update_ends`, `c76_revived`, `c76_no_overlap`, `c76_overlap_on_error_refuted`, `c76_overlap_race_refuted`, `c76_rejected_starves`. Conditional no-overlap plus two refutations; c76_rejected_starves shows a rejected switch leaves an async controller active and never updated; c76_revived shows a new activation repairs it.
- **C77 The first loadable robot description is the one used** (proved). BringupModel.v (construction, robot_description_callback, init_resource_manager, loading with both values of handle_exceptions) on top of LoadModel, InitHwModel and EnforceModel; induction over the received descriptions. File: Props_Bringup.v. Theorems: `c77_once`, `c77_later_ignored`, `c77_first_loadable`, `c77_good_is_taken`, `c77_constructed`, `c77_description_refuted`, `c77_settings_refuted`, `c77_limits_refuted`, `c77_half_loaded_refuted`. Refutations: c77_description_refuted, c77_settings_refuted, c77_limits_refuted, c77_half_loaded_refuted.
- **C78 Orderly shutdown** (proved). ShutModel.v (shutdown_controllers and the pre-shutdown callback on the states of CmModel); the story of the callbacks by induction over the controller list, using the reachability invariants of the manager. File: Props_Shut.v. Theorems: `c78_controllers`, `c78_orderly`, `c78_hardware_after_controllers`, `c78_always_finalized_refuted`. c78_always_finalized_refuted shows why the unconditional claim is false. The control loop does not run during the shutdown in the model.
- **C79 Components that rely on the default export** (proved). DefaultModel.v (on_init, on_export_*, the access functions, the manager's maps) on top of HandleModel, LexModel, XmlModel and LoadModel; invariants relating names, addresses and handles, induction over components and over accesses. File: Props_Default.v. Theorems: `c79_initial`, `c79_exported`, `c79_loads`, `c79_bad_state`, `c79_bad_command`, `c79_ignored`, `c79_states`, `c79_commands`, `c79_unknown`, `c79_gpio_refuted`, `c79_order_refuted`, `c79_second_owner_refuted`. full; c79_gpio_refuted, c79_order_refuted and c79_second_owner_refuted show what is false
- **C80 Diagnostics say what was measured** (proved). Model: DiagModel.v (the three callbacks as folds over the controllers and components, statistics as rationals, infinities and NaN, the wrapper of diagnostic_updater as its documented merge rules). Specification: DiagSpec.v (thresholds crossed, values listed, texts joined). Proof: every loop is a list of judgements; the loop's variables are the worst judgement, the flagged names and the listed values, by induction; the merged text and level follow by cases on empty lists. File: Props_Diag.v. Theorems: `c80_controllers_level`, `c80_controllers_message`, `c80_controllers_values`, `c80_looser_thresholds`, `c80_unmeasured`, `c80_hw_nothing`, `c80_hw_level`, `c80_hw_message`, `c80_hw_values`, `c80_manager_level`, `c80_inactive_said_refuted`, `c80_hw_listed_once_refuted`. Levels, messages and values of the three callbacks characterised exactly; numbers as rationals, infinities and NaN without rounding, text of numbers not modelled; diagnostic_updater's add, summary and mergeSummary modelled as documented. Two expectations refuted.
- **C81 A controller is loaded as its parameters say** (proved). Model: ByNameModel.v (parameters as a map of typed values, the two plugin loaders and init() as oracles over the log of user code, the argument list). Specification: ByNameSpec.v (what parameters say, a reading of ROS arguments in the manner of rcl). Proof: one relation that describes every outcome of a load; induction over histories; the reading is a fold with an append law. File: Props_ByName.v. Theorems: `c81_loaded_exactly_when`, `c81_as_described`, `c81_refused_unchanged`, `c81_settings_of_the_load`, `c81_node_arguments`, `c81_hidden_file_refuted`, `c81_user_words_refuted`, `c81_bad_file_refuted`, `c81_throws_refuted`. rclcpp parameters, pluginlib and rcl's argument grammar modelled as documented; how rcl resolves contradicting parameter files is outside. Four expectations refuted.
- **C82 What the spawner promises** (proved). SpawnModel: main as a program of service calls (load, configure, STRICT switch, unload) with exceptions (failure, signal, no answer), executed on CmModel with a script of what others do around each request, three attempts per call, and a log; SpawnSpec: as asked, left alone. Proved with an invariant over programs (reachable manager, finished controllers as asked while left alone), using C16 (answers), C54 (only their own callbacks), C20 (list of controllers), C29 (configure). Refutations by running concrete command lines. File: Props_Spawn.v. Theorems: `c82_everything_is_up`, `c82_stops_at_the_first_failure`, `c82_exit0_means_unloaded`, `c82_unloads_only_if_all_ran`, `c82_asks_nothing_else`, `c82_gives_up_for_a_reason`, `c82_unload_on_kill_refuted`, `c82_early_signal_refuted`, `c82_exit0_refuted`, `c82_exit1_refuted`, `c82_again_refuted`. What left_alone excludes is shown to matter by the environment's freedom only; the file lock, parameters given to set_parameters (one answer), parsing of the command line and the group variant of stops-at-first-failure are not covered.
- **C83 What the unspawner and the hardware spawner promise** (proved). ToolsModel: both tools as programs of the requests of SpawnModel (C82), with the same scripts and log; ToolsSpec: unloaded by it, reached by it. Proved by induction over the list of names with the invariant of C82, the exact answers of unload (C20, main_unload), of set_component_state (C04) and the constancy of the component list. Refutations and examples by running concrete scripts. File: Props_Tools.v. Theorems: `c83_exit0_means_unloaded`, `c83_stops_at_the_first_failure`, `c83_exit1_means_refused`, `c83_unspawner_asks_nothing_else`, `c83_ctrl_c_refuted`, `c83_hardware_spawner_reports`, `c83_hardware_spawner_asks_nothing_else`, `c83_hardware_exit0_refuted`. Exit 0 of the uninterrupted unspawner means unloaded; the first failure stops it; the hardware spawner's reports are truthful. Two natural readings of exit code 0 are refuted.
- **C84 Parameter files mean what they say** (proved). FilesModel: the two loops over files and keys on document trees, raising where Python does; FilesSpec: section for a key, concerns, gives, without loops. Proved by induction over keys and files (exactness both ways), totality on proper files, refutations by running concrete files. File: Props_Files.v. Theorems: `c84_files_listed`, `c84_value_of_the_first_file`, `c84_no_value`, `c84_own_section_decides`, `c84_proper_files_never_raise`, `c84_specific_section_refuted`, `c84_later_file_refuted`, `c84_scoped_section_refuted`. Refuted alongside: in a name space the wildcard wins over the controller's own section; a later file does not override an earlier one; a file with a section for the scoped name is not handed over if it also has one for the bare name.

## 3. Trusted base

1. Coq 8.16.1's kernel (with `vm_compute`), and coqc/coq_makefile to run it.
2. The axioms listed per theorem in section 6, all from the standard library: the axioms of the classical reals
   (`ClassicalDedekindReals.sig_forall_dec`, `sig_not_dec`), `FunctionalExtensionality.functional_extensionality_dep`,
   `Classical_Prop.classic`. They occur only in theorems about real numbers (transmissions, statistics) and in those about
   doubles that go through Flocq's theory of rounding. All other theorems are closed under the global context. A checker
   that lists the axioms of every *loaded library* additionally shows the opaque module fields of
   `Coq.Reals.Rdefinitions` (RbaseSymbolsImpl, RinvImpl) and of `Coq.ssr.ssrunder` (loaded by Flocq's use of
   ssreflect's rewrite); these are implemented in the standard library by sealed modules, and `Print Assumptions` does
   not list them for any theorem.
3. Libraries: the standard library, and Flocq (Core, IEEE754.BinarySingleNaN) in FloatReal.v only, for the relation
   between SpecFloat operations and rounding of reals. Flocq has no axioms of its own.
4. No axioms, parameters, section-less variables, functors, module types, admitted proofs or plugins of our own.
5. That the model is the code: checked by reading only (the code could not be run here). Every definition cites the
   lines it models. The C++ semantics used: std containers, sequential evaluation, IEEE-754 binary64 with round to
   nearest even (LimitsModel, MockModel, ParserModel), "C" locale and 64-bit long (LexModel), sequentially consistent
   memory (RtModel).
6. That the specifications (`*Spec.v`) say what the English says: they are short and use only the model's observable
   state (controller and component states, availability, claims, loans, answers) and the trace of callbacks.

## 4. What is modelled and what is not

### What is modelled: the model files

Each definition in these files carries a comment with the file and lines it models and, where it simplifies, what it leaves out. Their headers:

- **Base.v**: names, association lists and small list helpers shared by the models. Nothing here models a particular function except where a comment cites the code.
- **Events.v**: life-cycle states, results of user code, the observable trace and the oracles. User code (hardware plugins, controllers) is outside the repository: its behaviour is an oracle. [env] contains one function per kind of user callback; every oracle may depend on the complete trace of everything that happened before, so quantifying over all [env] quantifies over all deterministic-given-history (hence over all) behaviours of user code.
- **HwModel.v**: one hardware component. Models /repo/hardware_interface/src/hardware_component.cpp:57-424. Not modelled: statistics, introspection flags, async handlers (synchronous components only), the component mutex (every method runs atomically: the mutex is held for its duration; the try_lock of the real-time loop is the [e_locked] oracle of the resource manager model).
- **RmModel.v**: the resource manager: component life cycles, interface availability, claims, hardware groups, read/write cycles, command-mode switches. Models /repo/hardware_interface/src/resource_manager.cpp (cited RM below). Simplifications (all definitions): handle_exceptions_ is true (the default), so exceptions of life-cycle callbacks are caught and reported as failure; locks are not modelled except the try_lock outcomes (oracle [e_locked]); statistics, logging, joint limiters are elsewhere or not modelled; the maps hardware_info_map_[h].state_interfaces / command_interfaces are stored in the component record.
- **RmSys.v**: the resource manager as a transition system: every public operation the controller manager uses, in any order, from a start with any set of loaded components. [sy_loans] is the multiset of live LoanedCommandInterface objects (loaned_command_interface.hpp:34-70: the loan's destructor calls the release function exactly once).
- **ChainModel.v**: chain topology: full chain groups and the execution order. Models /repo/controller_manager/src/controller_manager.cpp (cited CM): get_full_chain_spec 444-472, build_controller_full_chain_map_cache 474-487, update_list_with_controller_chain 4817-4889 and the ordering loop of configure_controller 1766-1777, controller_chain_spec_cleanup 150-178. The recursive C++ functions are modelled with a fuel argument; [None] = fuel exhausted. The theorems show that the fuel used by the callers always suffices.
- **CmModel.v**: the controller manager: loading, configuring, switching, updating controllers. Models /repo/controller_manager/src/controller_manager.cpp (cited CM) together with the node life cycle of controllers (/repo/controller_interface/src/controller_interface_base.cpp, cited CI; the state machine itself is rclcpp_lifecycle, outside the repository). General simplifications. - Every operation is atomic except the switch, which is split into request (validation), perform (manage_switch, in the real-time thread or, if not asap, in the service thread), evaluation and timeout; real-time cycles and hardware state changes may happen in between. The double buffering of the controller list and the switch hand-shake are modelled at the interleaving level in RtModel.v; here there is one list. - Controllers are synchronous (is_async false); a controller's interface configurations, exported names and fallback list are constants of the loaded controller. - handle_exceptions is true (default). Exceptions the code does not catch, stack overflow and std::map::at failures are the outcome [Crash]. - messages, statistics, introspection and publishers are not modelled.
- **LimitsModel.v**: the joint limiters that work on one joint's command, in IEEE double arithmetic. Doubles are [spec_float]s and arithmetic is that of the standard library's SpecFloat at precision 53, emax 1024 (round to nearest even); a comparison with NaN is false. Source: joint_limits/src/joint_limits_helpers.cpp (JH), joint_range_limiter.cpp (JR), joint_soft_limiter.cpp (JS), joint_limits/include/joint_limits/joint_limits.hpp (JL). Not modelled: logging, the mutex, the joint name, the real-time box the limits come from (joint_limiter_interface.hpp), the limiter for trajectories (joint_saturation_limiter.cpp).
- **TransModel.v**: mechanical transmissions (transmission_interface). The arithmetic is a parameter: the real numbers for the exact statements, IEEE doubles for the others. Handles point into one memory (addresses are numbers); a transmission reads and writes that memory exactly in the order of the C++ statements, so aliasing handles are represented.
- **LexModel.v**: lexical casts of parameters (hardware_interface/lexical_casts). Strings are byte strings; the C library functions are those of the "C" locale, long has 64 bits.
- **HandleModel.v**: hardware_interface::Handle (handle.hpp:63-640), the storage behind state and command interfaces. Handle objects live at identifiers (their addresses); the pointer member value_ptr_ points to an external double, or into the variant member of some handle object.
- **StatsModel.v**: run-time statistics. Models /repo/hardware_interface/include/hardware_interface/types/statistics_types.hpp: MovingAverageStatistics (48-209) and MovingAverageStatisticsData (215-293), operation by operation. Simplifications: arithmetic is exact (real numbers with NaN and the infinities, overflow and rounding not modelled); the 64-bit sample counter is a natural number; every method holds the object's mutex for its whole body, so histories are sequences of methods (concurrent callers are serialised by that mutex).
- **OrderedModel.v**: assigning loaned interfaces to requested names. Models /repo/controller_interface/include/controller_interface/helpers.hpp: get_ordered_interfaces (49-87), interface_list_contains_interface_type (89-95). An interface is its prefix and interface name; get_name() is "<prefix>/<interface>" (/repo/hardware_interface/include/hardware_interface/handle.hpp, constructors of Handle). References into [unordered_interfaces] are positions in that list; the capacity of the output vector is a number (push_back may exceed it: that only reallocates).
- **ParserModel.v**: joint limits from the robot description. Models /repo/hardware_interface/src/component_parser.cpp (CP): retrieve_min_max_interface_values (810-837), set_custom_interface_values (844-902), update_interface_limits (911-972), the end of parse_control_resources_from_urdf (1082-1106), the enable_limits inheritance of parse_component_from_xml (469-495); /repo/joint_limits/include/joint_limits/joint_limits_urdf.hpp (JU): getJointLimits (35-64), getSoftJointLimits (73-86); /repo/joint_limits/include/joint_limits/joint_limits.hpp (JL): JointLimits (35-90). Doubles as in LimitsModel. Simplifications: XML and text are parsed already: a min/max attribute is absent, text that stod rejects, or a number; logging is omitted.
- **InitHwModel.v**: the controller manager brings the hardware components to their initial states. Models ControllerManager::set_initial_hardware_components_state, /repo/controller_manager/src/controller_manager.cpp 882-1110 (logging, the parameter refresh and the notification timer omitted), on top of RmModel. The status map and the map of groups are unordered_maps: their iteration orders are the arguments [order] (over the components) and [gorder] (over the groups), about which nothing is assumed but that they enumerate.
- **TimingModel.v**: pacing of the control loop and of the controllers. Models /repo/controller_manager/src/sleeping_policies.cpp (SP): sleep_for_periodic_cycle (56-82), sleep_for_blocking_read_write (36-54); the loop of /repo/controller_manager/src/ros2_control_node.cpp 138-178; the update decision of ControllerManager::update, /repo/controller_manager/src/controller_manager.cpp (CM) 3440-3463 and 3509, the reset at activation CM 2682; the rate taken over by ControllerInterfaceBase::configure, /repo/controller_interface/src/controller_interface_base.cpp (CI) 199-243. Time is an integer number of nanoseconds. Simplification: the double computations on times and rates are exact rational arithmetic (multiplied out to integers); rounding can only matter next to ties.
- **RtModel.v**: the two threads of the controller manager as a small-step machine. The real-time thread runs read/update/write cycles; the service side runs one call at a time (all service callbacks hold services_lock_, controller_manager.cpp:2846-3240, and every modification of the list happens under controllers_lock_, lines 1420, 1774, 2037, 2452). A step is one shared-memory access of one thread; a run is any list of steps, so every interleaving is covered. Simplifications: sequentially consistent memory (the two indices are plain ints in the code, lines 660-662 of controller_manager.hpp); [rclcpp::ok()] is always true; a request vector is read or written in one step; the controllers in a request are names, what (de)activation does to them is CmModel.v; deactivation by the real-time thread after hardware or update errors is not part of this machine.
- **MockModel.v**: mock_components::GenericSystem, hardware_interface/src/mock_components/generic_system.cpp (GS). Doubles as in LimitsModel.v. Simplifications: all interfaces are of type double (BOOL interfaces are copied without a check, GS 359-363); parameters are already parsed (on_init, GS 28-178); the handles of hardware and system are the same objects, so a command is a value in a table.
- **ListModel.v**: the services that report the state of the system: list_controllers, list_hardware_components and list_hardware_interfaces (/repo/controller_manager/src/controller_manager.cpp, cited CM; RM is /repo/hardware_interface/src/resource_manager.cpp). They only read. Not modelled: the fields type, is_async, update_rate, rw_rate, plugin_name and data_type (constants of the loaded plugin).
- **ReloadModel.v**: model of the reload_controller_libraries service, CM 3005-3085. The service holds services_lock_ throughout, so no other service runs; the real-time loop (read, update with manage_switch, write) does. [rt] lists what the real-time loop does at each point where the service lets it run: first while the switch is waited for, then after each unload. Simplifications: the two scans of the controller list (CM 3014-3028) are one step (the real-time loop neither loads nor unloads); the plugin loaders that are recreated at the end (CM 3072-3080) are not modelled; a call made while another service is running waits for it and is not modelled.
- **SemModel.v**: semantic components (sensors and command devices built on loaned interfaces). Models /repo/controller_interface/include/semantic_components/: semantic_component_interface.hpp (names, assign, get_values), force_torque_sensor.hpp, imu_sensor.hpp, pose_sensor.hpp, magnetic_field_sensor.hpp, range_sensor.hpp, gps_sensor.hpp, semantic_component_command_interface.hpp, led_rgb_device.hpp. Values have an arbitrary type [V]; a loaned interface is a position in the list given to assign_loaned_..._interfaces, as in OrderedModel.v; [rd p] is what get_optional() answers for it during one call ([None]: the value could not be read without blocking). A message is the list of its fields with their values; conversions to float, int8_t and uint16_t (static_cast) are parameters. [None] as a result = out-of-range access (undefined behaviour) or an uncaught exception.
- **SatModel.v**: the limiter for trajectory points, JointSaturationLimiter<JointTrajectoryPoint>::on_enforce. Models /repo/joint_limits/src/joint_saturation_limiter.cpp 27-436 (JT). Numbers are exact rationals (every finite double is one); rounding, NaN and infinities are not modelled, nor is logging. A vector is a list; a vector whose size is not the number of joints counts as absent, as in the code.
- **ParamModel.v**: limits of a joint limiter from parameters, and their update at run time. Models /repo/joint_limits/include/joint_limits/joint_limits_rosparam.hpp (JR) 88-135 (declare), 231-375 (get_joint_limits), 439-640 (check_for_limits_update) and joint_limiter_interface.hpp (JI) 55-120 (init, the parameter callback) and 200-206 (enforce). Simplifications: the realtime buffer hands over the value last written (its try_lock can miss a write that is just happening); soft limits and logging are left out; a parameter value is a double, a bool or of some other type.
- **EnforceModel.v**: the joint limiters inside the resource manager: which command interfaces they are bound to, what a controller's set_value through a loaned interface stores, and what the pass over all joints at the end of the update cycle does. RM = hardware_interface/src/resource_manager.cpp, HI = .../include/hardware_interface/. The limiters themselves are LimitsModel.v. Simplifications: all interfaces hold doubles (a handle of another type makes get_optional() throw); values, claims and limiters of one resource manager only; a mutex is either free or, where the code tries it, busy as the operation says.
- **LoadModel.v**: loading the hardware of a robot description. Models /repo/hardware_interface/src/resource_manager.cpp (RM): load_hardware 178-248, initialize_hardware 250-301, import_state_interfaces 684-716, insert_command_interface and import_command_interfaces 718-781, add_state_interfaces 977-1000, add_command_interfaces 1023-1058, load_and_initialize_actuator/sensor/system 1187-1262, ResourceStorage::clear 1331-1345, load_and_initialize_components 1529-1622, validate_storage 2673-2751. Simplifications: handle_exceptions is true (the default). The parsed description (the list of [hwdesc]) is the input; parsing it is ParserModel. What plugins do is given by oracles. Locks, statistics, logging, buffers' reserve() and introspection registration are left out.
- **ChainableModel.v**: the base class of chainable controllers. Models /repo/controller_interface/src/chainable_controller_interface.cpp (CCI below): update 31-50, export_state_interfaces 52-158, export_reference_interfaces 160-291, set_chained_mode 293-318, the default on_* methods 322-374. Simplifications: a handle is its (prefix, interface name); the user's overrides are oracles given with each call; log output left out; an exception is the result [None].
- **LcidModel.v**: the cached life-cycle id of controllers and hardware components, with concurrent callers. Models /repo/controller_interface/src/controller_interface_base.cpp (CIB): the cache lifecycle_id_ (34), its stores in init (79), in the registered callbacks (110-165) and in configure (184, 282), get_lifecycle_id (310-326); and /repo/hardware_interface/src/hardware_component_interface.cpp: set_lifecycle_state 493-497, get_lifecycle_id 499-502. A step is one access to shared memory of one thread. The life-cycle node is rclcpp_lifecycle's documented state machine; its transitions are triggered by one thread at a time (the controller manager's locks), get_lifecycle_id by any number of threads. Simplification: sequentially consistent memory; a callback's "store(get_lifecycle_state().id())" is one step, because only the thread that runs the transition changes the node's state.
- **ArrayModel.v**: parse_array<T>, hardware_interface/include/hardware_interface/lexical_casts.hpp:114-173, and parse_string_array, lexical_casts.cpp:153-156. std::regex_match is language membership: regular expressions are a small syntax and matching is decided by derivatives; std::sregex_iterator over the expression "one or more characters of a class" is the list of maximal runs of such characters. Simplification: characters are bytes and \s is the "C" locale's isspace.
- **XmlModel.v**: the component parser, CP = hardware_interface/src/component_parser.cpp. None = a C++ exception leaves the function. hardware_interface::stod and the cast to int are parameters; tinyxml2 and urdf::Model are inputs.
- **AsyncModel.v**: asynchronous hardware components (is_async) and asynchronous controllers: the worker thread and the framework's threads interleaved. HCI = hardware_interface/src/hardware_component_interface.cpp: the worker's cycle 90-119, trigger_read 415-450, trigger_write 452-475, pause_async_operations 553-559, prepare_for_activation 570-576; HC = hardware_interface/src/hardware_component.cpp: configure ... error 82-245, command mode switch 309-321, read 351-384, write 386-423; RM = resource_manager.cpp: read 2399-2497, write 2500-2605 (what is done with the result); CIB = controller_interface/src/controller_interface_base.cpp: registered callbacks 110-168, trigger_update 328-377, wait_for_trigger_update_to_finish ... 418-438; CM = controller_manager/src/controller_manager.cpp: switch_controller 2348-2375, deactivate_controllers 2535-2593, update 3420-3445. A step is one access to shared memory, or the begin or end of one call of user code. realtime_tools::AsyncFunctionHandler is not part of the repository; assumed, for its "synchronized" policy: a trigger is accepted only when no cycle runs and then makes the worker run the callback once; pause_execution and wait_for_trigger_cycle_to_finish return when no cycle runs; stop_thread likewise. Simplifications: sequentially consistent memory; user code run by the worker returns (an exception there is stored by the handler and not modelled); the "detached" policy, execution times and the status publisher are left out. The framework's calls on one component are serialized by the component's mutex (HC 82 ff., RM 2415, 2516), so they are one thread here.
- **BringupModel.v**: how a controller manager gets its hardware: construction with or without a robot description, and the descriptions that arrive on the topic afterwards. Models /repo/controller_manager/src/controller_manager.cpp (CM): the constructor taking a urdf 538-561, robot_description_callback 774-806, init_resource_manager 808-880; the description handed to controllers 2479; /repo/hardware_interface/src/resource_manager.cpp (RM): the constructors 1442-1510 and load_and_initialize_components 1529-1622 with both values of handle_exceptions (LoadModel.v is the case true), import_joint_limiters 1624-1629. Simplifications: a message is its text together with what the parser makes of that text ([None]: it throws); parsing is ParserModel/XmlModel. The constructor that is given a resource manager (562-610), activity publishers, diagnostics and timers are left out.
- **ShutModel.v**: what happens when the process is asked to end. Models /repo/controller_manager/src/controller_manager.cpp (CM): shutdown_controllers 622-651, the pre-shutdown callback 689-707; /repo/hardware_interface/src/resource_manager.cpp shutdown_components 1512-1526 is RmModel.shutdown_components. Simplifications: handle_exceptions is true (default); removing nodes from the executor, cancelling it and logging are left out; the control loop does not run meanwhile (in the code nothing stops it: the callback takes no lock it respects).
- **DefaultModel.v**: hardware components that rely on what the base class offers: interfaces made from the description, exported, and accessed by name. HCI = /repo/hardware_interface/src/hardware_component_interface.cpp: on_init 248-273, on_export_state_interfaces 298-342, on_export_command_interfaces 360-396, has_state ... get_command_interface_handle 504-540; HCH = hardware_component_interface.hpp: set_state, get_state, set_command, get_command 340-520; HC = hardware_component.cpp: export_state_interfaces, export_command_interfaces 248-307 (export_*_interfaces of the plugin return nothing: the default, HCI 283-289, 345-351); HH = handle.hpp: Handle(InterfaceDescription) 75-250; HI = hardware_info.hpp: HandleDataType 174-216; RM = resource_manager.cpp: import_state_interfaces 684-716, import_command_interfaces 752-781, add_*_interfaces 951-1062. Simplifications: handle_exceptions is true; no limiters are bound to the commands (EnforceModel.v has them); every access gets its lock (the ones by name wait for it, HCH 365); a loaned interface is the manager's map entry.
- **DiagModel.v**: what the controller manager publishes as diagnostics: the status and the values of its controllers, of its hardware components and of itself (controller_manager.cpp 4426-4815; registered with diagnostic_updater at 632-646). Numbers: a measurement is a rational, an infinity or NaN; the comparisons and the subtraction are those of IEEE arithmetic without rounding. The text of the numbers (ostringstream, std::to_string, fmt) is not modelled: a value of the report carries the numbers themselves.
- **ByNameModel.v**: loading a controller by its name: what the manager's parameters say about it, and the arguments its node is given. CM = /repo/controller_manager/src/controller_manager.cpp: load_controller(name) 1387-1413, load_controller(name, type) 1243-1385, add_controller_impl 2447-2530, determine_controller_node_options 4966-5016, load_controller_service_cb 2974-2987. Simplifications: handle_exceptions is true; statistics, logging and introspection are left out; the life cycle of the loaded controller and the two real-time lists are in CmModel.v and RtModel.v (a load that adds the controller here is [CLoad] there, which also says what happens to the chain data). Of rclcpp: has_parameter, declare_parameter, get_parameter (which throws if the parameter is set with another type) on a map of the parameters; declaring a parameter that is not there does not fail. Setting a parameter may be refused by rclcpp (a declared type): such a request is no step here.
- **SpawnModel.v**: executable model of the spawner (controller_manager/controller_manager/spawner.py, the program a launch file starts to bring controllers up), running against the controller manager of CmModel while everything else goes on: the real-time loop, other clients, other spawners. What happens around the calls of the spawner is a script: what others do before a request is served, whether the service is there, how many requests were lost or answered too late, when SIGINT/SIGTERM arrives. Simplified: the parameters given to set_parameters are one answer (did it work); the file lock, the node, name spaces, the log and parsing the command line are left out.
- **ToolsModel.v**: executable model of two more command line tools, with the requests, scripts and endings of SpawnModel: the unspawner (controller_manager/controller_manager/unspawner.py) and the hardware spawner (hardware_spawner.py). Simplified: what SpawnModel simplifies; both wait without limit for the services they change something with (service_timeout=0.0 in controller_manager_services.py 266-284, 303-325); a signal is SIGINT (KeyboardInterrupt).
- **FilesModel.v**: executable model of how the spawner reads parameter files: get_params_files_with_controller_parameters and get_parameter_from_param_files, controller_manager/controller_manager/controller_manager_services.py 340-444. Simplified: a file is the tree yaml.safe_load makes of it, null, a (non-empty, non-mapping) scalar or a mapping with text keys (a list is a scalar here); looking a key up in something else than a mapping raises (in Python [in] on a text is a substring test); the messages are left out. [None]: an exception (unreadable file, null document, invalid section).

### Specifications

These small files state, without the model's helpers, what the theorems say; the theorems use only them and the model's state/operations.

- **RmSpec.v**: independent specifications used by the statements of C01-C11.
- **RmSpec2.v**: more independent vocabulary for C02, C04, C06, C11: what exactly happens.
- **ChainSpec.v**: specification vocabulary for controller chains, independent of the manager's data structures: who feeds whom, what a tree-like topology is, what "before" means.
- **CmSpec.v**: specification vocabulary for switch requests: what a valid request is, in terms of the loaded controllers, their states, the interfaces they ask for and who holds them.
- **LimitsSpec.v**: the words used in the statements about the joint limiters.
- **TransSpec.v**: words used in the statements about transmissions.
- **LexSpec.v**: what a decimal integer is.
- **HandleSpec.v**: words used in the statements about handles.
- **StatsSpec.v**: what the statistics of a list of samples are (textbook definitions), and which samples belong to the current window. Independent of the model's incremental computation.
- **OrderedSpec.v**: which interface a name asks for (documentation of get_ordered_interfaces, helpers.hpp:29-48).
- **ParserSpec.v**: which values the description permits for a joint.
- **InitHwSpec.v**: start-up of hardware groups (C47).
- **TimingSpec.v**: C27 and C48.
- **FollowSpec.v**: vocabulary for C15 and C22: which interfaces a request can make available, and when the validation of a request must return.
- **UpdateSpec.v**: vocabulary for C25 and C26: which controllers failed in a cycle, what replaces them, which controllers use a hardware component.
- **RtSpec.v**: what C23 and C24 demand of an observed history, independent of the machine.
- **MockSpec.v**: vocabulary for C49 and C50.
- **DoneSpec.v**: specification: what a switch request asks for can be done, in terms of the controllers that are to run afterwards and the interfaces they name.
- **LifeSpec.v**: specification of the life cycle of a controller as seen by its callbacks, and of what each operation may call.
- **PassSpec.v**: words for the statements that the limiters do not limit more than they have to, and that the soft limits are respected.
- **TellSpec.v**: words for what hardware components are told about command interfaces that start and stop being used (C58). Nothing here refers to the algorithm of the model.
- **ExportSpec.v**: words for C59: the interfaces a chainable controller exports follow its life cycle.
- **ListSpec.v**: words for C60: the list services tell the truth.
- **AcceptSpec.v**: specification: what a STRICT switch request must satisfy to be accepted, in terms of the loaded controllers, the interfaces they name, and the hardware.
- **BestSpec.v**: specification for BEST_EFFORT switch requests.
- **ReloadSpec.v**: specification: when reload_controller_libraries must succeed.
- **ChainedSpec.v**: vocabulary for C64: who commands the reference interfaces of a chainable controller.
- **KindsSpec.v**: vocabulary for C65: what an interface configuration selects.
- **SemSpec.v**: vocabulary for C66: what a semantic component should report.
- **SatSpec.v**: vocabulary for C67, in terms of the joint_limits API: limits, the point given, the point handed back.
- **ParamSpec.v**: vocabulary for C68.
- **EnforceSpec.v**: words for the statements about command limits in the resource manager.
- **LoadSpec.v**: what "loading a robot description" should mean, in terms of the description, of what the plugins do and of what the resource manager lists afterwards.
- **ChainableSpec.v**: what a chainable controller's base class should do.
- **LcidSpec.v**: what get_lifecycle_id should answer.
- **ArraySpec.v**: what a flat array is: an opening bracket, values separated by commas with white space around each as you like, a closing bracket.
- **XmlSpec.v**: what a <ros2_control> element says. Only attributes, texts and, for each tag, the list of children with that tag are used: the position of children with different tags never matters.
- **AsyncSpec.v**: what the order of calls of an asynchronous component or controller should look like. Logs are newest first.
- **BringupSpec.v**: the words of property C77.
- **ShutSpec.v**: the words of property C78.
- **DefaultSpec.v**: the words of property C79.
- **RefExclSpec.v**: when the reference interfaces of a controller stay in place while they are in use: no service call rebuilds or removes them under the controller that holds one. A chainable controller registers its reference interfaces when it is configured; they are removed when it is cleaned up, unloaded or configured again (controller_manager.cpp 1415-1835).
- **DiagSpec.v**: what the diagnostics must say, in terms of the measurements.
- **ByNameSpec.v**: what loading a controller by name should do, and how ROS reads the arguments of a node.
- **FallbackSpec.v**: words for C25 when the fallback controllers are chainable or use what other controllers export.
- **SpawnSpec.v**: what a user expects of the spawner.
- **ToolsSpec.v**: what a user expects of the unspawner and the hardware spawner.
- **FilesSpec.v**: which files and which values concern a controller, said without loops.

### Not modelled

- ROS 2 middleware: nodes, topics, parameters' transport, executors, pluginlib, Python code other than the main part of the spawner,
  ros2controlcli, rqt; the rclcpp_lifecycle state machine is taken as documented.
- tinyxml2 and urdf::Model themselves (component_parser.cpp is modelled over the XML tree they deliver, XmlModel.v; `hardware_interface::stod` and the cast to int are parameters; `original_xml` and error texts are left out), plugin loading, class names.
- realtime_tools::AsyncFunctionHandler (assumed as described in AsyncModel.v; its "detached" policy and exceptions in the worker are left out); the controller manager and resource manager models treat all controllers and components as synchronous.
- Logging, introspection, publishers of statistics and of controller_manager/activity. The diagnostics callbacks are modelled (C80) except for the text of numbers; the merge rules of the diagnostic_updater package are assumed as documented.
- the PID/filters of other repositories.
- Memory management, allocation failure, data races outside RtModel.v (which assumes sequential consistency).
- handle_exceptions = false (except for loading, C77).

## 5. Defects found while modelling

Each is a theorem `..._refuted` unless marked "(not stated)".

- Resource manager: error() of a FINALIZED component runs on_error again and may revive it (C03); activate/deactivate ERROR
  leaves the interfaces of the component available (C05); re-export of reference interfaces makes a second loan possible
  (C07); a group's ERROR persists (C08); misspelt component types are skipped, a command interface exported twice strips the second component of its
  command interfaces, a refused second load destroys the loaded robot (C70); write DEACTIVATE overwrites an earlier ERROR (C26); set_component_state answers OK
  although a transition failed (C04).
- Switching: a rejected STRICT request leaves reference interfaces of inactive controllers available, and a later request
  can crash (C15, C59); failed perform_command_mode_switch with restarts only is reported OK (not stated); a failed
  activation in BEST_EFFORT, or a hardware error, leaves preceding controllers active without their chain (C17); cyclic
  references make the validation recurse forever, unconfigured chainable controllers make it throw (C22); BEST_EFFORT with
  only unknown names is rejected, and BEST_EFFORT starts a controller whose chain partner it dropped (C62);
  stopping one of two preceding controllers takes the following one out of chained mode (C64); duplicates in
  request lists (not stated); claims of a stale reference interface leak (C61).
- Controllers: interfaces are released although on_deactivate answered FAILURE (C12); on_cleanup FAILURE forgets the
  chain (C18, C59, C60); FINALIZED controllers cannot be unloaded (C63); chain order wrong for some acyclic graphs (C19).
- Update: fallbacks activated by the control loop are never recorded against their hardware (C26), are not followed
  into chains and do not put the controllers they command into chained mode (C25), are not taken back when their activation fails (C58); update rates that do not divide the manager's
  rate (C27).
- Real-time: first access without synchronisation (C23); a timeout can overtake the hand-over (C24).
- Limits: NaN measured position disables position limits (C31); std::clamp with lo > hi (C35); first command (C31, C33);
  trajectory limiter: zero velocity commands, joints outside their limits, given accelerations, asymmetric look-ahead (C67);
  parameter updates lost or ignored (C68); every set_value (and every retry on a busy handle) counts as a cycle for the limiter,
  one joint's exception leaves the others unlimited (C69).
- Asynchronous operation: errors of asynchronous read()/write() can be lost, old ones are answered after a reconfigure, command mode
  switches overlap with read()/write() (C75); update() can overlap with on_deactivate(), a rejected switch leaves an asynchronous
  controller active but never updated again (C76).
- Bring-up and shutdown: a later, ignored robot description is still what new controllers are given; the configured settings of the
  resource manager are lost after an unloadable description; limits of an unloadable description given at construction stay; with
  handle_exceptions=false an exception while loading counts as "loaded" (C77); a controller whose on_deactivate fails is left active,
  without interfaces, over finalized hardware (C78).
- Loading by name: parameter files are not read by a node whose type closes its ROS arguments; user words before --ros-args are read
  differently once a parameter file is given; a params_file of a wrong type is ignored, other parameters of a wrong type throw out of
  the service (C81); a refused load leaves the introspection registry pointing to freed statistics (not stated).
- Spawner: --unload-on-kill unloads nothing if one controller is load-only or the signal comes before all run; exit code 0 after an
  early signal without it; a late answer to load makes it fail although the controller is loaded; it cannot be run twice (C82).
- Default export: gpios and sensors of an actuator, and gpios and joint commands of a sensor, are ignored, so such a robot is never
  loaded; the order of the description is lost in unordered maps; when two components describe the same state interface the stores
  of the second are accepted and never seen (C79).
- Leaf libraries: transmissions swap parameters if joints are not declared alphabetically (C39); negative numbers
  accepted as unsigned (C40); moved handles dangle (C43); statistics never leave NaN without reset (C44);
  get_ordered_interfaces with duplicates (C45); initial hardware states (C47); periodic loop (C48); mock hardware offset at each
  configure (C49) and substring matching of joints (C50); controllers may export into a foreign namespace (C71); a badly timed get_lifecycle_id leaves a wrong cached state (C72); the component parser silently accepts a garbled rw_rate or reduction, ignores gpio-level limits and misspelt attributes, and dereferences null for an <sdf> without <model> (C74); get_values appends to a reused vector, initial orientation of
  PoseSensor, NaN colours (C66).

`seeded/LOG.jsonl` records the mutation tests: one edit of the model per line, the claim it breaks, and the property
theorems whose proof chain no longer builds ("theorems_failed": the theorem or a lemma it depends on fails; this may
over-report, never under-report). Mutants that no theorem caught led to the tightenings named in "theorems_tightened".


## 6. Print Assumptions per theorem

- "Closed under the global context" (no axiom): c01_component_follows_life_cycle, c01_manager_follows_life_cycle, c02_read_write_only_when_allowed, c02_other_states_untouched, c02_cycle_reads, c02_cycle_writes, c03_finalized_stays_partial, c03_finalized_stays_refuted, c04_set_state_ok_means_reached, c04_request_runs_the_path, c04_shutdown_all, c04_ok_despite_failure_refuted, c05_configured_interfaces_available, c05_unconfigured_interfaces_unavailable_partial, c05_unconfigured_interfaces_unavailable_refuted, c06_hardware_loans_exclusive, c06_all_loans_exclusive, c06_claim_refused, c06_release_makes_claimable, c06_claim_granted_exactly, c07_reexport_keeps_exclusive_refuted, c08_bad_group_fails_every_member, c08_bad_group_fails_every_member_write, c08_error_reaches_later_members, c08_group_stays_bad, c08_failures_stay_in_group, c09_read_failed_list_exact, c09_write_failed_list_exact, c10_read_failure_unconfigures, c10_write_failure_effects, c11_prepare_switch, c11_perform_switch, c11_prepare_exact, c11_perform_exact, c19_order_follows_chain_partial, c19_order_follows_chain_refuted, c20_controllers_kept_exactly_once, c20_ordering_total, c21_group_is_connected_component, c21_group_total, c12_not_active_holds_nothing, c12_active_holds_all_partial, c12_active_holds_all_refuted, c13_hardware_interface_one_holder_partial, c13_held_is_claimed_partial, c13_one_holder_refuted, c30_names_unique, c14_rejected_changes_nothing, c14_nothing_left_to_perform, c14_invalid_is_rejected, c16_answer_reflects_outcome, c28_refused_when_active, c28_unload_removes_exactly_one, c28_cleanup_touches_one, c29_refused, c29_failed_leaves_unconfigured, c29_done, c29_cleaned_up_first, c17_chain_intact_partial, c17_switch_keeps_chains_partial, c17_calm_keeps_chains_partial, c17_chain_intact_refuted, c17_failed_activation_refuted, c18_preceding_must_stop_too_partial, c18_refuted, c31_position_partial, c31_effort, c31_jerk, c31_acceleration, c31_defined, c31_throws, c31_throw_keeps_memory, c31_velocity_refuted_first_command, c31_velocity_refuted_out_of_bounds, c31_refuted_nan_state, c32_reports_changes, c32_soft_reports_changes, c34_never_pushes_outwards, c35_effort_partial, c35_undefined_refuted, c35_position_refuted, c35_effort_refuted, c36_nan_passes, c36_soft_nan_passes, c37_doubles_refuted, c40_signed, c40_unsigned_accepts, c40_unsigned_partial, c40_unsigned_wraps, c40_refuted, c41_bool, c42_read_back, c42_until_next_store, c42_store_accepted, c42_type_fixed, c42_store_refused, c42_read_refused, c42_read_bool, c42_locked, c43_copy, c43_own_storage_partial, c43_defined_partial, c43_move_partial, c43_refuted, c45_in_order_partial, c45_complete_partial, c45_range_error, c45_refuted_duplicate, c45_refuted_stale, c46_position, c46_velocity, c46_effort, c46_soft, c46_disabled_joint, c46_disabled_interface, c46_acceleration, c46_jerk, c47_groups_partial, c47_ungrouped, c47_listed, c47_refuted_listed_member, c47_refuted_shutdown, c27_full_rate, c27_divisor_partial, c27_count, c27_nearest_exists, c27_spacing_min, c27_spacing_max, c27_periods, c27_configured, c27_configured_range, c27_refuted, c27_closest_refuted, c27_reconfigure_refuted, c48_grid, c48_not_past_partial, c48_lag, c48_on_time, c48_defined, c48_blocking, c48_refuted, c15_unchanged_partial, c15_only_exports, c15_refuted, c15_refuted_crash, c22_returns_partial, c22_refuted_cycle, c22_refuted_unconfigured, c51_claimed_iff_held, c25_taken_out, c25_fallback_partial, c25_fallback_refuted, c25_chain_refuted, c26_read_partial, c26_write_partial, c26_refuted_fallback, c26_refuted_write, c23_lists_partial, c23_no_race_partial, c23_refuted_startup, c24_switch_partial, c24_no_race_partial, c24_no_deadlock_partial, c24_refuted_overtaken, c49_position_partial, c49_other_partial, c49_dynamics_partial, c49_dynamics_moves, c49_custom, c49_mimic, c49_configure_refuted, c50_only_named, c50_switched_partial, c50_conflict_partial, c50_refuted, c52_accepted_switch_is_done, c52_acceptance_suffices_refuted, c53_update_cycle, c53_only_in_the_update_cycle, c54_life_cycle, c54_loaded, c54_history, c55_only_their_own_callbacks, c56_remembers, c56_soft_remembers, c57_velocity, c57_effort, c58_switch, c58_read, c58_write, c58_update_partial, c58_healthy_not_told_refuted, c58_fallback_not_undone_refuted, c59_registered, c59_active_offered, c59_configured_withdrawn, c59_stopped_withdrawn, c59_registered_refuted_error, c59_registered_refuted_cleanup, c59_active_offered_refuted, c59_inactive_withdrawn_refuted, c60_controllers, c60_claimed_after_switch, c60_components, c60_interfaces, c60_claimed_refuted, c60_connections_refuted, c60_answers_refuted, c61_valid_is_accepted, c61_valid_is_done, c61_stop_refuted, c61_stale_claims_refuted, c62_what_strict_accepts, c62_valid_is_done, c62_unknown_ignored, c62_starts_only_requested, c62_bystanders_untouched, c62_all_unknown_refuted, c62_chain_refuted, c63_refused, c63_ok_means_empty, c63_forced_succeeds, c63_finalized_refuted, c64_started_partial, c64_only_if_commanded, c64_released, c64_two_users_refuted, c64_restart_refuted, c64_observer_refuted, c64_left_chained_refuted, c65_only_selected, c65_started_gets, c65_overlap_never_starts, c65_overlap_refuted, c66_force_torque, c66_imu, c66_pose, c66_magnetic, c66_parts, c66_missing_axes, c66_range, c66_gps, c66_values, c66_values_capacity, c66_set_values, c66_led, c66_values_reused_refuted, c66_pose_identity_refuted, c66_led_nan_refuted, c67_refused, c67_velocity, c67_acceleration, c67_position, c67_velocity_command, c67_near_limit, c67_not_limited, c67_harmless_passes, c67_shape, c67_stop_refuted, c67_outside_refuted, c67_given_acceleration_refuted, c67_jump_refuted, c67_position_refuted, c67_mirror_refuted, c68_init, c68_number, c68_flag, c68_flag_refused, c68_on_with_number, c68_batch, c68_unrelated, c68_no_nan, c68_last_wins, c68_lost_update_refuted, c68_batch_refuted, c68_position_off_refuted, c68_inverted_refuted, c68_init_nan_refuted, c69_only_held, c69_unlimited_stored, c69_set_one, c69_reports, c69_two_sets_refuted, c69_retries_refuted, c69_exception_refuted, c69_reports_refuted, c70_components, c70_interfaces, c70_failed, c70_succeeds, c70_refused, c70_is_start, c70_misspelt_type_refuted, c70_shared_interface_refuted, c70_second_load_wipes, c71_update, c71_set_mode, c71_mode, c71_references, c71_states, c71_kept, c71_reexport, c71_namespace_refuted, c71_clash_refuted, c71_default_exports_nothing, c72_sequential, c72_undisturbed, c72_heals, c72_real_state, c72_hardware, c72_stale_refuted, c73_strings, c73_booleans, c73_numbers, c73_refused, c73_never_out_of_range, c73_unambiguous, c74_element, c74_order, c74_answer, c74_accepts, c74_mimic, c74_interface_names, c74_first_description, c74_null_pointer, c74_rate_refuted, c74_reduction_refuted, c74_gpio_limits_refuted, c74_misspelt_refuted, c74_group_refuted, c74_no_crash_refuted, c75_no_overlap, c75_states, c75_state_kept, c75_one_cycle, c75_read_reported, c75_write_reported, c75_never_invented, c75_handled_next, c75_lifecycle, c75_error_next, c75_lost_read_refuted, c75_lost_write_refuted, c75_stale_refuted, c75_mode_switch_refuted, c76_only_active, c76_update_ends, c76_revived, c76_no_overlap, c76_overlap_on_error_refuted, c76_overlap_race_refuted, c76_rejected_starves, c77_once, c77_later_ignored, c77_first_loadable, c77_good_is_taken, c77_constructed, c77_description_refuted, c77_settings_refuted, c77_limits_refuted, c77_half_loaded_refuted, c78_controllers, c78_orderly, c78_hardware_after_controllers, c78_always_finalized_refuted, c79_initial, c79_exported, c79_loads, c79_bad_state, c79_bad_command, c79_ignored, c79_states, c79_commands, c79_unknown, c79_gpio_refuted, c79_order_refuted, c79_second_owner_refuted, c13_one_holder_while_undisturbed_partial, c13_held_while_undisturbed_partial, c80_controllers_level, c80_controllers_message, c80_controllers_values, c80_looser_thresholds, c80_unmeasured, c80_hw_nothing, c80_hw_level, c80_hw_message, c80_hw_values, c80_manager_level, c80_inactive_said_refuted, c80_hw_listed_once_refuted, c81_loaded_exactly_when, c81_as_described, c81_refused_unchanged, c81_settings_of_the_load, c81_node_arguments, c81_hidden_file_refuted, c81_user_words_refuted, c81_bad_file_refuted, c81_throws_refuted, c25_fallback_chained_partial, c25_chained_mode_refuted, c82_everything_is_up, c82_stops_at_the_first_failure, c82_exit0_means_unloaded, c82_unloads_only_if_all_ran, c82_asks_nothing_else, c82_gives_up_for_a_reason, c82_unload_on_kill_refuted, c82_early_signal_refuted, c82_exit0_refuted, c82_exit1_refuted, c82_again_refuted, c83_exit0_means_unloaded, c83_stops_at_the_first_failure, c83_exit1_means_refused, c83_unspawner_asks_nothing_else, c83_ctrl_c_refuted, c83_hardware_spawner_reports, c83_hardware_spawner_asks_nothing_else, c83_hardware_exit0_refuted, c84_files_listed, c84_value_of_the_first_file, c84_no_value, c84_own_section_decides, c84_proper_files_never_raise, c84_specific_section_refuted, c84_later_file_refuted, c84_scoped_section_refuted, c16_restart_refuted.
- `ClassicalDedekindReals.sig_forall_dec`, `FunctionalExtensionality.functional_extensionality_dep`: c37_actuators, c37_joints, c37_frame, c38_two_joints, c38_simple, c39_alphabetical_partial, c39_simple, c39_swapped, c39_refuted.
- `ClassicalDedekindReals.sig_forall_dec`, `ClassicalDedekindReals.sig_not_dec`, `FunctionalExtensionality.functional_extensionality_dep`: c44_statistics, c44_published, c44_unpublished, c44_current, c44_never_reset.
- `ClassicalDedekindReals.sig_forall_dec`, `ClassicalDedekindReals.sig_not_dec`, `Classical_Prop.classic`, `FunctionalExtensionality.functional_extensionality_dep`: c31_velocity_partial, c31_history_partial, c33_position_step, c33_velocity_step, c35_position_partial, c35_velocity_partial, c56_passes, c69_set_within, c69_cycle_within.
