{"id": "C01", "title": "Hardware callbacks run only from their documented state", "statement": "Whatever life-cycle operations are requested on a hardware component and whatever its user callbacks return, on_configure is only invoked while the component is unconfigured, on_activate and on_cleanup only while inactive, on_deactivate only while active, on_shutdown never from unknown/finalized, and each operation ends in the state the callback's result prescribes (success: target; failure of activate: inactive; failure of deactivate: active; error: on_error decides unconfigured or finalized).", "quantifier": "every sequence of life-cycle operations and every sequence of callback results", "why_tests_cant": "tests drive a few hand-written sequences; the claim covers every history and every callback outcome", "anchors": ["hardware_interface/src/hardware_component.cpp: configure, cleanup, shutdown, activate, deactivate, error"]}
{"id": "C02", "title": "read/write reach the hardware only in the allowed states", "statement": "A component's read callback is invoked only while it is inactive or active, its write callback only while it is active and it is not a sensor; in every other state both calls report OK without touching the device.", "quantifier": "every component state and type, every history", "why_tests_cant": "needs every reachable state of the component, not the handful exercised in tests", "anchors": ["hardware_interface/src/hardware_component.cpp: read, write", "hardware_interface/include/hardware_interface/lifecycle_helpers.hpp"]}
{"id": "C03", "title": "A finalized hardware component stays finalized", "statement": "Once a hardware component reports the finalized state no later operation of the manager (life-cycle request, read or write cycle) brings it back.", "quantifier": "every history of life-cycle requests and read/write cycles after finalization", "why_tests_cant": "an absence-of-escape claim over unbounded histories", "anchors": ["hardware_interface/src/hardware_component.cpp: error", "hardware_interface/src/resource_manager.cpp: read, write, set_component_state"]}
{"id": "C04", "title": "set_component_state reports success only when the target state is reached", "statement": "When set_component_state answers OK for a component and a primary target state, the component is in that state afterwards; every other component keeps its state.", "quantifier": "every component state, target state and callback outcome", "why_tests_cant": "a product of states, targets and callback failures that tests only sample", "anchors": ["hardware_interface/src/resource_manager.cpp: ResourceManager::set_component_state, ResourceStorage::set_component_state"]}
{"id": "C05", "title": "Interfaces of a component are available exactly while it is configured", "statement": "A hardware component's state and command interfaces are listed as available if and only if the component is inactive or active.", "quantifier": "every history of life-cycle requests with arbitrary callback results", "why_tests_cant": "the invariant must survive every failure path of every transition", "anchors": ["hardware_interface/src/resource_manager.cpp: configure_hardware, cleanup_hardware, shutdown_hardware, activate_hardware, deactivate_hardware, remove_all_hardware_interfaces_from_available_list"]}
{"id": "C06", "title": "Command interfaces are lent exclusively", "statement": "At no time do two live loans exist for the same command interface: claiming a claimed or unavailable interface is refused, and releasing a loan makes exactly that interface claimable again.", "quantifier": "every interleaving of claim and release over any set of interfaces", "why_tests_cant": "exclusivity is a safety property over all histories", "anchors": ["hardware_interface/src/resource_manager.cpp: claim_command_interface, release_command_interface, command_interface_is_claimed", "hardware_interface/include/hardware_interface/loaned_command_interface.hpp"]}
{"id": "C07", "title": "Re-exporting reference interfaces does not break exclusivity", "statement": "Removing and re-importing a chainable controller's reference interfaces never allows a second live loan on a reference interface that is still on loan.", "quantifier": "every history of claim, release, removal and import of reference interfaces", "why_tests_cant": "the failing history mixes four operations in a particular order", "anchors": ["hardware_interface/src/resource_manager.cpp: import_controller_reference_interfaces, remove_controller_reference_interfaces"]}
{"id": "C08", "title": "Errors of one component reach its whole hardware group", "statement": "When a component's read reports an error, no other component of the same non-empty group that comes later in that cycle and none in the following cycles reports OK until a group member is configured or cleaned up again; components of other groups are unaffected.", "quantifier": "every set of components, grouping and sequence of read results", "why_tests_cant": "ranges over all groupings and read outcome sequences", "anchors": ["hardware_interface/src/resource_manager.cpp: update_hardware_component_group_state, ResourceManager::read"]}
{"id": "C09", "title": "The failed-hardware list names exactly the components that failed", "statement": "After a read or write cycle the returned status is OK if and only if no component failed and the list of failed components contains exactly the components whose cycle returned a failure.", "quantifier": "every set of components and every vector of results", "why_tests_cant": "all outcome combinations of an arbitrary number of components", "anchors": ["hardware_interface/src/resource_manager.cpp: ResourceManager::read, ResourceManager::write"]}
{"id": "C10", "title": "read error and write failures drive the component's life cycle", "statement": "A component whose read returns ERROR leaves the active/inactive states (on_error decides unconfigured/finalized); a component whose write returns DEACTIVATE is deactivated; a component that reported OK keeps its state.", "quantifier": "every vector of component states and results", "why_tests_cant": "all combinations", "anchors": ["hardware_interface/src/resource_manager.cpp: ResourceManager::read, ResourceManager::write", "hardware_interface/src/hardware_component.cpp: read, write"]}
{"id": "C11", "title": "Command-mode switch touches only the concerned hardware", "statement": "prepare_command_mode_switch and perform_command_mode_switch are forwarded only to configured/active actuators and systems that own at least one of the named interfaces, with only their own interfaces, and the manager reports success only if every forwarded call succeeded; unknown or unavailable interfaces make it fail.", "quantifier": "every set of hardware, every start/stop interface list", "why_tests_cant": "ranges over all lists and hardware layouts", "anchors": ["hardware_interface/src/resource_manager.cpp: prepare_command_mode_switch, perform_command_mode_switch, find_common_hardware_interfaces"]}
{"id": "C12", "title": "Every active controller holds all its interfaces", "statement": "In every reachable state a controller that is active holds loans for all command and state interfaces its configuration demands, and a controller that is not active holds no loan.", "quantifier": "every history of load, configure, switch, update, read, write, unload requests with arbitrary controller/hardware callback results", "why_tests_cant": "an inductive invariant over unbounded histories with failures injected anywhere", "anchors": ["controller_manager/src/controller_manager.cpp: activate_controllers, deactivate_controllers", "controller_interface/src/controller_interface_base.cpp"]}
{"id": "C13", "title": "No two active controllers command the same interface", "statement": "In every reachable state no command interface is held by two different active controllers.", "quantifier": "every history with arbitrary callback results", "why_tests_cant": "safety over all histories", "anchors": ["controller_manager/src/controller_manager.cpp: activate_controllers, switch_controller_cb", "hardware_interface/src/resource_manager.cpp: claim_command_interface"]}
{"id": "C14", "title": "A strict switch is rejected as a whole", "statement": "If a STRICT switch request fails validation (unknown controller, wrong state, missing chain partner, conflicting interfaces), the request returns an error and no controller changes its life-cycle state.", "quantifier": "every controller configuration and every request", "why_tests_cant": "the validation logic has dozens of interacting branches", "anchors": ["controller_manager/src/controller_manager.cpp: switch_controller_cb, check_following_controllers_for_activate, check_preceding_controllers_for_deactivate, check_for_interfaces_availability_to_activate"]}
{"id": "C15", "title": "A rejected switch leaves no trace", "statement": "If switch_controller returns an error from validation, interface availability is the same as before the call.", "quantifier": "every configuration and request", "why_tests_cant": "side effects on rejection paths are not observed by tests", "anchors": ["controller_manager/src/controller_manager.cpp: check_following_controllers_for_activate"]}
{"id": "C16", "title": "Switch result reflects the outcome", "statement": "switch_controller answers OK for a STRICT request only if afterwards every controller requested to be activated is active and every controller requested to be deactivated (and not re-activated) is not active.", "quantifier": "every configuration, request, callback result and hardware mode-switch result", "why_tests_cant": "outcome reporting must be right for all failure combinations", "anchors": ["controller_manager/src/controller_manager.cpp: evaluate_switch_result, manage_switch"]}
{"id": "C17", "title": "A chained controller is never active without its chain", "statement": "In every reachable state, if an active controller commands a reference interface exported by another controller, that other controller is active.", "quantifier": "every history", "why_tests_cant": "safety over histories with failures", "anchors": ["controller_manager/src/controller_manager.cpp: activate_controllers, check_following_controllers_for_activate, read, write, update"]}
{"id": "C18", "title": "Deactivation never leaves a preceding controller running", "statement": "A STRICT switch request that would deactivate a controller whose reference interfaces are commanded by an active controller that stays active is rejected.", "quantifier": "every chain topology and request", "why_tests_cant": "topologies are unbounded", "anchors": ["controller_manager/src/controller_manager.cpp: check_preceding_controllers_for_deactivate"]}
{"id": "C19", "title": "Execution order follows the chain", "statement": "Controllers are updated in an order in which every controller that writes another's reference interfaces is updated before it, and every controller that reads another's exported state interfaces after it.", "quantifier": "every acyclic set of chained controllers and every load/configure order", "why_tests_cant": "topology space is unbounded", "anchors": ["controller_manager/src/controller_manager.cpp: update_list_with_controller_chain, build_controllers_topology_info, perform/ update"]}
{"id": "C20", "title": "Ordering keeps every controller exactly once", "statement": "Building the execution order neither loses nor duplicates a controller.", "quantifier": "every controller graph and configuration order", "why_tests_cant": "topology space is unbounded", "anchors": ["controller_manager/src/controller_manager.cpp: update_list_with_controller_chain"]}
{"id": "C21", "title": "Full chain closure", "statement": "The group of controllers deactivated together with a failing controller contains every controller connected to it through chained interfaces, and the computation terminates on every topology including cyclic ones.", "quantifier": "every chain graph", "why_tests_cant": "unbounded graphs, termination", "anchors": ["controller_manager/src/controller_manager.cpp: get_full_chain_spec, build_controller_full_chain_map_cache"]}
{"id": "C22", "title": "Chain validation terminates", "statement": "Validating an activation request terminates for every set of configured controllers, including cyclic references.", "quantifier": "every controller graph", "why_tests_cant": "termination over unbounded/cyclic graphs", "anchors": ["controller_manager/src/controller_manager.cpp: check_following_controllers_for_activate"]}
{"id": "C23", "title": "The real-time loop never sees a list being modified", "statement": "In every interleaving of the real-time thread and service threads, the controller list that the real-time thread is iterating is not modified until that iteration has ended, and the real-time thread always iterates a list that was published completely.", "quantifier": "every interleaving of real-time cycles and service calls", "why_tests_cant": "races: the schedule space cannot be enumerated by tests", "anchors": ["controller_manager/src/controller_manager.cpp: RTControllerListWrapper", "controller_manager/include/controller_manager/controller_manager.hpp"]}
{"id": "C24", "title": "A switch is performed at most once and never torn", "statement": "For every interleaving of a switch service call with real-time cycles and for every timeout, the deactivate/activate steps of an accepted request are executed at most once, completely in one cycle, on exactly the requested lists, and a service call that returns success has seen them executed.", "quantifier": "every interleaving, every timeout point", "why_tests_cant": "schedule space", "anchors": ["controller_manager/src/controller_manager.cpp: switch_controller_cb, manage_switch, update", "controller_manager/include/controller_manager/controller_manager.hpp: SwitchParams"]}
{"id": "C25", "title": "A failing controller is taken out of the loop and replaced", "statement": "When a controller's update reports an error, then in the same cycle it and every active controller of its chain group are deactivated and its fallback controllers become active (if their callbacks succeed).", "quantifier": "every configuration, every set of failing controllers", "why_tests_cant": "failure combinations", "anchors": ["controller_manager/src/controller_manager.cpp: update"]}
{"id": "C26", "title": "Hardware errors deactivate the controllers using that hardware", "statement": "When hardware read or write reports an error, every active controller using an interface of a failed component is deactivated in that cycle.", "quantifier": "every assignment of controllers to hardware and every failure vector", "why_tests_cant": "failure combinations", "anchors": ["controller_manager/src/controller_manager.cpp: read, write", "hardware_interface/src/resource_manager.cpp: cache_controller_to_hardware, get_cached_controllers_to_hardware"]}
{"id": "C27", "title": "Controllers are updated at their own rate", "statement": "A synchronous controller with update rate r under a manager rate u (r <= u) is updated, over any number of cycles n of exact period, floor/ceil of n*r/u times up to one cycle, and a controller with rate equal to the manager's (or 0) is updated in every cycle.", "quantifier": "every pair of rates, every number of cycles", "why_tests_cant": "long-run drift is not visible in short tests", "anchors": ["controller_manager/src/controller_manager.cpp: update"]}
{"id": "C28", "title": "Unloading and cleanup are refused for active controllers", "statement": "unload_controller and cleanup_controller never touch an active controller: they return an error and leave the controller list and its state unchanged; a successful unload removes exactly the named controller.", "quantifier": "every configuration and callback outcome", "why_tests_cant": "all states x outcomes", "anchors": ["controller_manager/src/controller_manager.cpp: unload_controller, cleanup_controller"]}
{"id": "C29", "title": "configure_controller is refused for active controllers", "statement": "configure_controller returns an error for an active or finalized or unknown controller and changes nothing; for an inactive one it is cleaned up first and never left half-configured.", "quantifier": "every configuration and callback outcome", "why_tests_cant": "all states x outcomes", "anchors": ["controller_manager/src/controller_manager.cpp: configure_controller"]}
{"id": "C30", "title": "Controller names are unique", "statement": "No sequence of load/unload requests leads to two loaded controllers with the same name.", "quantifier": "every request sequence", "why_tests_cant": "invariant over histories", "anchors": ["controller_manager/src/controller_manager.cpp: load_controller, add_controller_impl"]}
{"id": "C31", "title": "Limited commands respect the hard limits", "statement": "For joints with valid (ordered, non-NaN) limits, after enforcement each commanded position, velocity, effort, acceleration lies within the joint's limits, for every command, every previous command and every measured state, in IEEE double arithmetic.", "quantifier": "all doubles including infinities and NaN", "why_tests_cant": "the double space is not samplable to corner cases", "anchors": ["joint_limits/src/joint_range_limiter.cpp", "joint_limits/src/joint_limits_helpers.cpp"]}
{"id": "C32", "title": "Limiter reports exactly when it changed a command", "statement": "The saturation limiter returns true if and only if at least one commanded value was changed, and values already within the computed limits are passed through unchanged.", "quantifier": "all doubles", "why_tests_cant": "corner cases", "anchors": ["joint_limits/src/joint_range_limiter.cpp", "joint_limits/src/joint_limits_helpers.cpp: is_limited"]}
{"id": "C33", "title": "Velocity/acceleration-limited motion", "statement": "With velocity (acceleration) limits, a limited position (velocity) command differs from the previous command by no more than max_velocity*dt (max_acceleration*dt) as computed in double arithmetic, unless the hard limit forces it.", "quantifier": "all doubles", "why_tests_cant": "corner cases", "anchors": ["joint_limits/src/joint_limits_helpers.cpp: compute_position_limits, compute_velocity_limits"]}
{"id": "C34", "title": "Effort is never applied into a violated limit", "statement": "At or beyond a position limit while moving outwards (or beyond a velocity limit) the limiter never passes an effort that pushes further outwards.", "quantifier": "all doubles", "why_tests_cant": "corner cases", "anchors": ["joint_limits/src/joint_limits_helpers.cpp: compute_effort_limits"]}
{"id": "C35", "title": "The soft limiter stays within the hard limits", "statement": "The soft limiter's output also lies within the hard limits.", "quantifier": "all doubles", "why_tests_cant": "corner cases", "anchors": ["joint_limits/src/joint_soft_limiter.cpp"]}
{"id": "C36", "title": "NaN commands pass and are not remembered", "statement": "A NaN command is passed through unchanged and does not alter the limiter's memory of the previous command.", "quantifier": "all doubles", "why_tests_cant": "corner cases", "anchors": ["joint_limits/src/joint_range_limiter.cpp", "joint_limits/src/joint_limits_helpers.cpp: update_prev_command"]}
{"id": "C37", "title": "Transmissions are invertible", "statement": "For simple, differential and four-bar-linkage transmissions with non-zero reductions, mapping actuator values to joint space and back (and vice versa) is the identity for position, velocity and effort (exact arithmetic).", "quantifier": "all reductions, offsets and values", "why_tests_cant": "continuous space", "anchors": ["transmission_interface/include/transmission_interface/simple_transmission.hpp", "transmission_interface/include/transmission_interface/differential_transmission.hpp", "transmission_interface/include/transmission_interface/four_bar_linkage_transmission.hpp"]}
{"id": "C38", "title": "Transmissions conserve power", "statement": "Joint power (effort times velocity) equals actuator power for every transmission.", "quantifier": "all reductions and values", "why_tests_cant": "continuous space", "anchors": ["transmission_interface/include/transmission_interface/*.hpp"]}
{"id": "C39", "title": "Transmission parameters apply to the joint they were declared for", "statement": "In differential and four-bar transmissions, the i-th declared reduction and offset is applied to the i-th declared joint.", "quantifier": "all joint names", "why_tests_cant": "depends on names", "anchors": ["transmission_interface/include/transmission_interface/accessor.hpp: get_names, get_ordered_handles"]}
{"id": "C40", "title": "Integer parameter parsing is exact or rejected", "statement": "stoi/stol-style parsing accepts exactly decimal integers within the target type's range and returns their value, rejecting everything else.", "quantifier": "all strings", "why_tests_cant": "string space", "anchors": ["hardware_interface/src/lexical_casts.cpp", "hardware_interface/include/hardware_interface/lexical_casts.hpp"]}
{"id": "C41", "title": "parse_bool is total on its vocabulary", "statement": "parse_bool returns true exactly for case variants of 'true', false exactly for case variants of 'false', and rejects everything else.", "quantifier": "all strings", "why_tests_cant": "string space", "anchors": ["hardware_interface/src/lexical_casts.cpp"]}
{"id": "C42", "title": "Handles deliver what was stored", "statement": "A value stored in an interface handle is the value read back until the next store; the data type never changes; accesses with another type are refused and leave the value unchanged.", "quantifier": "all operation histories", "why_tests_cant": "histories", "anchors": ["hardware_interface/include/hardware_interface/handle.hpp"]}
{"id": "C43", "title": "Copies and moves of handles stay usable", "statement": "A copied or moved handle reads and writes its own (or the shared external) storage, never that of the object it was made from.", "quantifier": "all handles", "why_tests_cant": "dangling pointers do not show reliably in tests", "anchors": ["hardware_interface/include/hardware_interface/handle.hpp"]}
{"id": "C44", "title": "Runtime statistics are the true statistics", "statement": "After any sequence of measurements since the last reset, the reported count, mean, minimum, maximum and standard deviation are those of the finite samples of the sequence (exact arithmetic).", "quantifier": "all sequences", "why_tests_cant": "unbounded sequences", "anchors": ["hardware_interface/include/hardware_interface/types/statistics_types.hpp"]}
{"id": "C45", "title": "Interface assignment is complete and ordered", "statement": "get_ordered_interfaces returns true only if every requested name was found, and then the i-th entry is the interface requested at position i.", "quantifier": "all lists", "why_tests_cant": "list space", "anchors": ["controller_interface/include/controller_interface/helpers.hpp"]}
{"id": "C46", "title": "Joint limits from the description only become tighter", "statement": "Limits given in ros2_control tags can only tighten the URDF limits of the joint, unless limits are explicitly disabled.", "quantifier": "all limit values", "why_tests_cant": "double space", "anchors": ["hardware_interface/src/component_parser.cpp: update_interface_limits"]}
{"id": "C47", "title": "Initial hardware states respect groups", "statement": "At start-up a hardware group is either brought completely to the requested state or, if a member fails, activated members are rolled back to inactive.", "quantifier": "all groupings and callback outcomes", "why_tests_cant": "failure combinations", "anchors": ["controller_manager/src/controller_manager.cpp: set_initial_hardware_components_state"]}
{"id": "C48", "title": "The periodic loop never drifts", "statement": "With overrun management the next wake-up time stays on the period grid and lies not before the current time.", "quantifier": "all clock readings", "why_tests_cant": "timing space", "anchors": ["controller_manager/src/sleeping_policies.cpp"]}
{"id": "C49", "title": "Mock hardware loops commands back", "statement": "With mirrored commands the mock system's state equals the last finite command (plus configured offset) for every joint.", "quantifier": "all commands, all joint sets", "why_tests_cant": "state space", "anchors": ["hardware_interface/src/mock_components/generic_system.cpp"]}
{"id": "C50", "title": "Mock hardware selects the mode of exactly the named joint", "statement": "In dynamics mode a command-mode switch for 'joint/interface' affects the joint of that name only, and conflicting requests are rejected.", "quantifier": "all joint names", "why_tests_cant": "name space", "anchors": ["hardware_interface/src/mock_components/generic_system.cpp: prepare_command_mode_switch, perform_command_mode_switch"]}
{"id": "C51", "title": "A hardware command interface is claimed exactly while an active controller holds it", "statement": "After every sequence of service calls and control cycles, a hardware command interface is reported as claimed if and only if some active controller holds a loan on it: deactivation, failed activation, hardware errors and controller errors never leak a claim.", "quantifier": "all operation histories and callback outcomes", "why_tests_cant": "leaks need particular failure histories", "anchors": ["controller_manager/src/controller_manager.cpp: activate_controllers, deactivate_controllers", "hardware_interface/src/resource_manager.cpp: claim_command_interface, release_command_interface"]}
{"id": "C52", "title": "An accepted switch does what it was asked", "statement": "If a STRICT switch_controller request is accepted and what it asks for can be done (the controllers that are to run want available interfaces and no common command interface, their callbacks succeed, the hardware carries out the mode switch), then performing it raises no exception and is answered ok; exactly the requested controllers are started and stopped, all others (including those restarted to change their chained mode) are in the state they were in, and every started controller holds exactly the interfaces it asks for.", "quantifier": "all histories, chains of controllers and request lists", "why_tests_cant": "controllers are restarted behind the user's back when chained modes change; tests cover a few chains", "anchors": ["controller_manager/src/controller_manager.cpp: switch_controller_cb, deactivate_controllers, activate_controllers, switch_chained_mode, evaluate_switch_result"]}
{"id": "C53", "title": "Every active controller is updated exactly once per cycle, in order", "statement": "In every update cycle each active controller whose update is due is updated exactly once, in the order of the controller list, before anything else happens in the cycle; inactive controllers, and controllers concerned by a switch that the service call performs itself, are not updated; no other operation updates a controller.", "quantifier": "all histories of service calls and cycles, all callback results", "why_tests_cant": "history space", "anchors": ["controller_manager/src/controller_manager.cpp: update"]}
{"id": "C54", "title": "Controller callbacks follow the managed life cycle", "statement": "Over every history, a controller's life-cycle callbacks are invoked only in the states the managed life cycle allows, a failing callback is followed by on_error, update is invoked only while active, on_set_chained_mode only while not active, and the state and chained mode reported afterwards are the ones those callbacks lead to.", "quantifier": "all histories, all callback results", "why_tests_cant": "history space", "anchors": ["controller_manager/src/controller_manager.cpp: deactivate_controllers, activate_controllers, switch_chained_mode, configure_controller, cleanup_controller, unload_controller", "controller_interface/src/controller_interface_base.cpp", "controller_interface/src/chainable_controller_interface.cpp: set_chained_mode"]}
{"id": "C55", "title": "Operations call only their own user code", "statement": "Each operation of the controller manager invokes only the user callbacks that belong to it: loading and answering invoke none, configure/cleanup/unload only callbacks of the named controller, a switch request only the hardware's prepare callback, performing a switch no update and no hardware life-cycle callback, set_hardware_component_state only callbacks of the named component, read/write/update only the callbacks of their cycle and those of stopping (or falling back from) failed parts.", "quantifier": "all histories, all operations", "why_tests_cant": "history space", "anchors": ["controller_manager/src/controller_manager.cpp", "hardware_interface/src/resource_manager.cpp"]}
{"id": "C56", "title": "Commands that respect the limits pass unchanged", "statement": "A command inside the position range and reachable within one cycle, below the maximum velocity, effort, acceleration and jerk, is let through unchanged and reported as not limited; and every command that is let through (changed or not) is the one the next command is compared with.", "quantifier": "all limits, states, previous commands, commands and periods", "why_tests_cant": "the float input space", "anchors": ["joint_limits/src/joint_range_limiter.cpp: on_enforce", "joint_limits/src/joint_limits_helpers.cpp: compute_position_limits, compute_velocity_limits, compute_effort_limits, compute_acceleration_limits, update_prev_command"]}
{"id": "C57", "title": "Soft limits slow a joint down", "statement": "With soft limits the velocity (effort) let through lies in the range the soft limits allow: gain times the distance of the last commanded position to the soft limits, cut to the maximum; only a small velocity when the joint is outside the soft limits; none when it is outside the hard limits.", "quantifier": "all limits, gains, states, commands and periods", "why_tests_cant": "the float input space", "anchors": ["joint_limits/src/joint_soft_limiter.cpp: on_enforce"]}
{"id": "C58", "title": "Hardware is told exactly which command interfaces start and stop", "statement": "When a switch request is accepted, every actuator or system that owns a command interface used by a controller to be started, stopped or restarted has been asked to prepare for exactly its own interfaces that start and stop, once, and has agreed; when the switch is carried out it is told the same before any controller is called, nothing changes if it refuses, and if an activation fails it is told that the interfaces just started stop again. In the error handling of the control loop components are told, before controllers are stopped, exactly the interfaces of the controllers being stopped (and of the fallback controllers being started).", "quantifier": "all histories, requests, interface configurations, callback results", "why_tests_cant": "history and configuration space", "anchors": ["controller_manager/src/controller_manager.cpp: switch_controller_cb, manage_switch, perform_hardware_command_mode_change, activate_controllers, read, update, write", "hardware_interface/src/resource_manager.cpp: prepare_command_mode_switch, perform_command_mode_switch"]}
{"id": "C59", "title": "Exports of a chainable controller follow its life cycle", "statement": "While a chainable controller is configured, the interfaces it exports are known to the resource manager, and once it is unconfigured or unloaded nothing of it remains; while it is active everything it exports is available; a successful configuration leaves the exports withdrawn, and when an active controller stops, for whatever reason, they are withdrawn by the same operation. (Provisos: its callbacks do not end in an error, and on_cleanup and on_deactivate do not refuse; counterexamples show each is needed.)", "quantifier": "all hardware sets, controllers, callback behaviours and histories of operations", "why_tests_cant": "the exports are touched by configuring, cleaning up, switching, rolling back and by error handling of any controller, in any order", "anchors": ["controller_manager/src/controller_manager.cpp: configure_controller, cleanup_controller, activate_controllers, deactivate_controllers, cleanup_controller_exported_interfaces", "hardware_interface/src/resource_manager.cpp: import_controller_reference_interfaces, make_controller_reference_interfaces_available, remove_controller_reference_interfaces"]}
{"id": "C60", "title": "The list services tell the truth", "statement": "list_hardware_components and list_hardware_interfaces always answer; an interface of a component is reported available exactly when the component is configured (provided the component's own transitions do not end in an error) and claimed exactly when it is available and held by an active controller. list_controllers answers with one correct entry per loaded controller in execution order: state, chained mode, required interfaces, exported interfaces, connected controllers; right after a switch the claimed interfaces are those of the active controllers.", "quantifier": "all hardware sets, controllers, callback behaviours and histories of operations", "why_tests_cant": "the report is assembled from five bookkeeping structures that other operations update separately", "anchors": ["controller_manager/src/controller_manager.cpp: list_controllers_srv_cb, list_hardware_components_srv_cb, list_hardware_interfaces_srv_cb, split_command_interface, evaluate_switch_result", "hardware_interface/src/resource_manager.cpp: get_components_status, command_interface_is_claimed"]}
{"id": "C61", "title": "A valid STRICT request is accepted and carried out", "statement": "switch_controller does not reject what is possible: a STRICT request that names loaded controllers only once, stops active and starts inactive controllers, leaves every controller that runs afterwards with available interfaces no other running controller commands, keeps the chains together, has usable fallbacks and addresses hardware that is active and agrees, is accepted; and if the callbacks succeed and the hardware carries out the mode switch, exactly the requested states result.", "quantifier": "every reachable state of the controller manager (any history of operations and outcomes of user code) and every request", "why_tests_cant": "rejections depend on combinations of interface availability, claims, chains, fallbacks and hardware answers; tests only try a few valid requests", "anchors": ["controller_manager/src/controller_manager.cpp: switch_controller_cb, check_following_controllers_for_activate,check_preceding_controllers_for_deactivate,check_fallback_controllers_state_pre_activation", "hardware_interface/src/resource_manager.cpp: prepare_command_mode_switch"]}
{"id": "C62", "title": "BEST_EFFORT does what STRICT would, and nothing that was not asked", "statement": "A BEST_EFFORT switch_controller request has the same effect as the STRICT one whenever STRICT is accepted; names of controllers that are not loaded are ignored; and no switch, STRICT or BEST_EFFORT, starts a controller that was neither requested nor running, or touches a controller that was not named and from which no loaded controller wants an interface.", "quantifier": "every state of the controller manager, every request (any lists of names, known or not), every outcome of the user callbacks", "why_tests_cant": "BEST_EFFORT edits the request while iterating over it; whether the result agrees with STRICT and leaves bystanders alone depends on all combinations of names, chains and states", "anchors": ["controller_manager/src/controller_manager.cpp: switch_controller_cb, manage_switch, activate_controllers, deactivate_controllers, switch_chained_mode"]}
{"id": "C63", "title": "reload_controller_libraries unloads everything or says no", "statement": "Without force_kill the service refuses, changing nothing, while any controller is active. If it answers ok then no controller is loaded and no hardware command interface is claimed, whatever the real-time loop did meanwhile; whatever it answers, controllers are only dropped from the front of the list and no switch is left pending. With force_kill it succeeds whenever the running controllers can be stopped and the real-time loop gets to perform the switch. (A finalized controller makes it fail forever: counterexample.)", "quantifier": "every reachable state of the controller manager, every interleaving of the real-time loop with the service, every outcome of the user callbacks", "why_tests_cant": "the interleavings of the real-time loop and the states in which the service is called cannot be enumerated", "anchors": ["controller_manager/src/controller_manager.cpp: reload_controller_libraries_service_cb, unload_controller, switch_controller"]}
{"id": "C64", "title": "Chained mode follows the chain", "statement": "When a switch starts a controller that commands an interface exported by another controller, that controller is in chained mode afterwards; no switch puts a controller into chained mode unless a running or started controller commands one of its interfaces; and when a switch stops the last user of a controller, that controller is out of chained mode afterwards.", "quantifier": "every reachable state of the controller manager, every request, every outcome of the other user callbacks (chained mode itself never refused)", "why_tests_cant": "a request changes several users of one controller at once, in either list and in any order; tests start and stop one chain", "anchors": ["controller_manager/src/controller_manager.cpp: switch_controller_cb, check_following_controllers_for_activate, check_preceding_controllers_for_deactivate, propagate_deactivation_of_chained_mode, switch_chained_mode", "controller_interface/src/chainable_controller_interface.cpp: set_chained_mode"]}
{"id": "C65", "title": "The kinds of interface configuration are honoured", "statement": "A controller never holds an interface that its interface configuration (NONE, ALL, INDIVIDUAL, INDIVIDUAL_BEST_EFFORT, REGEX) does not select, and when an operation starts a controller it holds every available hardware interface the configuration selects and no unavailable one; a controller whose patterns match an available command interface twice is never started.", "quantifier": "all hardware sets, controllers, configurations (any patterns), callback outcomes and histories of operations", "why_tests_cant": "what is selected depends on what is available when the controller starts; pattern and name spaces are unbounded", "anchors": ["controller_manager/src/controller_manager.cpp: get_command_interfaces_names, get_state_interfaces_names, activate_controllers", "controller_interface/include/controller_interface/controller_interface_base.hpp: InterfaceConfiguration"]}
{"id": "C66", "title": "Semantic components report what their interfaces hold", "statement": "After a successful assignment, every field of the message (and every accessor) of the force/torque, IMU, pose, magnetic field, range and GPS components is the latest value read from the loaned interface of that name, whatever the order in which the interfaces were loaned and however often reading failed; missing axes stay NaN; the LED device and set_values write each value to the interface it is meant for and nothing else.", "quantifier": "all component names, interface lists and orders, all histories of calls and of reads that would block", "why_tests_cant": "loan orders, subsets of axes and blocked reads are unbounded", "anchors": ["controller_interface/include/semantic_components/*.hpp", "controller_interface/include/controller_interface/helpers.hpp: get_ordered_interfaces"]}
{"id": "C67", "title": "The trajectory-point limiter", "statement": "JointSaturationLimiter.enforce on a trajectory point: an unusable request changes nothing; velocities stay within the velocity limit, and change no faster than the acceleration and deceleration limits; position-only commands stay within the position limits; after a velocity-only command every joint is inside its limits one cycle later or all joints brake as hard as permitted; if one joint cannot stop before its limit all joints brake; the answer false means the command was not changed; a command that respects all limits passes unchanged. (Refuted variants: see the notes.)", "quantifier": "all numbers of joints, limits, measured states, commands and periods (rational numbers)", "why_tests_cant": "values, limits and combinations of commands are unbounded", "anchors": ["joint_limits/src/joint_saturation_limiter.cpp: on_enforce", "joint_limits/include/joint_limits/joint_limits.hpp: JointLimits"]}
{"id": "C68", "title": "Joint limits follow their parameters", "statement": "A limiter initialised from parameters uses exactly the limits they state. Setting a number or a flag of one joint takes effect at the next enforce, for that joint and that field only, whatever the joints are called; a limit can be switched on together with its number in either order; a flag whose number is missing is refused; no limit is ever on with a NaN bound unless NaN was set. (Refuted: several updates before one enforce, repeated values in one request, switching off position limits, inverted position limits, missing numbers at init.)", "quantifier": "all joint names, parameter sets and histories of updates and enforcements", "why_tests_cant": "names, batches and interleavings of updates with the control loop are unbounded", "anchors": ["joint_limits/include/joint_limits/joint_limits_rosparam.hpp: declare_parameters, get_joint_limits, check_for_limits_update", "joint_limits/include/joint_limits/joint_limiter_interface.hpp: init, enforce"]}
{"id": "C69", "title": "Command limits bound what reaches the hardware", "statement": "With command limits enforced, (a) the pass at the end of each update cycle changes only commands of joints for which the robot description gives limits that are not disabled, and of those only the position, velocity, effort and acceleration commands a controller currently holds; measured values and claims are untouched; (b) a command set on any other interface is stored as given; (c) setting a command changes no other command; (d) in normal operation (measured values inside the limits, positive periods) whatever a controller sets on a position, velocity or effort interface of a limited joint, and whatever anybody put there before the pass, what is stored afterwards lies inside the joint's limits; (e) when the pass answers that nothing was limited, no command has changed.", "quantifier": "every robot description, order of the joints, number of busy handle locks, and history of reads, claims, sets, interface additions and removals, and passes", "why_tests_cant": "the limiter object of a joint is shared by the set path and by the pass and remembers its last command; the guarantees must survive every interleaving of sets, passes and changing interfaces", "anchors": ["hardware_interface/src/resource_manager.cpp: ResourceStorage::import_joint_limiters, update_joint_limiters_data, update_joint_limiters_commands, enforce_command_limits, bind_command_limiter_to_interface", "hardware_interface/src/resource_manager.cpp: ResourceManager::enforce_command_limits", "hardware_interface/include/hardware_interface/handle.hpp: CommandInterface::set_limited_value", "hardware_interface/include/hardware_interface/loaned_command_interface.hpp: LoanedCommandInterface::set_value"]}
{"id": "C70", "title": "Loading a robot description is all or nothing", "statement": "load_and_initialize_components returns true only if every described component of type actuator, sensor or system was created and initialized exactly once, in order, and answered SUCCESS; they are then the only components, actuators, sensors and systems each in the order of the description, all Unconfigured, with distinct names and a read/write rate that is the described one when it lies between 1 and the manager's rate and the manager's rate otherwise; every state and command interface the description names exists, every interface that exists was exported by a described component, none is available and none is claimed. If it returns false, whatever the manager held before, no component, interface, claim or available interface is left. It returns false when a name is repeated, a plugin cannot be created, an initialization does not succeed or a described interface is exported by nobody, and true when none of this happens and no command interface is exported twice; the manager is then in the start state of all other properties. (False: a component of a misspelt type is skipped silently; a command interface exported twice strips the second component of all its command interfaces although the load succeeds; a refused second load destroys the loaded robot without a life-cycle callback.)", "quantifier": "all robot descriptions, plugin behaviours (creation, initialization, exports, exceptions), update rates and states of the manager before the load", "why_tests_cant": "The tests load a handful of fixed URDFs; the claim is about every list of components, every combination of failures at every position in it, and every set of exported interfaces.", "anchors": ["hardware_interface/src/resource_manager.cpp: ResourceManager::load_and_initialize_components, validate_storage, ResourceStorage::load_hardware, initialize_hardware, import_state_interfaces, import_command_interfaces, load_and_initialize_actuator, load_and_initialize_sensor, load_and_initialize_system, clear"]}
{"id": "C71", "title": "Chainable controllers: modes and exported interfaces", "statement": "A chainable controller's update() never consults the controller's own subscribers while it is in chained mode; out of it, it consults them first and computes and writes commands only if that succeeded. set_chained_mode is refused without asking an active controller, otherwise the mode changes exactly when the controller agrees; after any history the mode is the last one agreed to. export_reference_interfaces and export_state_interfaces return exactly what the controller offers, old API first, in its order, if every prefix begins with the controller's name, all names differ and reference_interfaces_ has one element per interface of the old API; otherwise they throw. The handles the controller keeps are the exported ones in the same order, and no earlier configuration influences a later export. (False: a controller stays inside its own namespace - pid may export pid2/x; the default on_export methods export the remembered names - they never export any.)", "quantifier": "all controllers, exported interface lists, return values of the user's methods and histories of calls", "why_tests_cant": "Tests use one test controller with two interfaces; the claim is about every list of exported handles (duplicates, prefixes, sizes) and every history of configurations and mode requests.", "anchors": ["controller_interface/src/chainable_controller_interface.cpp: ChainableControllerInterface::update, export_state_interfaces, export_reference_interfaces, set_chained_mode, on_export_reference_interfaces"]}
{"id": "C72", "title": "get_lifecycle_id agrees with the life-cycle state", "statement": "The id the managers use to decide whether a controller may be updated (get_lifecycle_id, a cached value) is the controller's life-cycle state: after every history of transitions, whatever the callbacks answered, a call that overlaps with nothing answers the state; with any number of calling threads, every call during which the node rested in one state answers that state, provided no transition callback is entered between another caller's reading of the state and its storing it; the answer is always a state the controller has been in; and any transition entered while no such call is pending repairs the cache. For hardware components the answer is the state whenever no set_lifecycle_state is under way. (False without the proviso: one badly timed call leaves the cache saying ACTIVE for a controller that is INACTIVE, for ever, so the control loop would keep updating it.)", "quantifier": "all histories of transitions and callback results, all numbers of threads, all interleavings of the individual loads and stores", "why_tests_cant": "The wrong answer needs a particular interleaving of three memory accesses in two threads; tests run the calls sequentially.", "anchors": ["controller_interface/src/controller_interface_base.cpp: ControllerInterfaceBase::get_lifecycle_id, init, configure", "hardware_interface/src/hardware_component_interface.cpp: HardwareComponentInterface::set_lifecycle_state, get_lifecycle_id", "controller_manager/src/controller_manager.cpp: is_controller_active"]}
{"id": "C73", "title": "Array parameters are read exactly when they are flat arrays", "statement": "parse_array (of strings, booleans or numbers) accepts a text exactly when it is '[', comma-separated non-empty values with optional white space around each, ']', with no nested brackets, and returns those values in order, each converted; everything else raises std::invalid_argument (never out_of_range for numbers); a text is the array of at most one list.", "quantifier": "every character string, every element type's conversion", "why_tests_cant": "the input space is all strings; the result depends on the interplay of three regular expressions and a token iterator", "anchors": ["hardware_interface/include/hardware_interface/lexical_casts.hpp: parse_array", "hardware_interface/src/lexical_casts.cpp: parse_string_array"]}
{"id": "C74", "title": "A <ros2_control> element is read as it says", "statement": "parse_control_resources_from_urdf returns one entry per <ros2_control> element, in order, whose name, type, rate, async settings, plugin, group, parameters, joints, sensors, gpios, interfaces (limits, type, size, initial value), transmissions and mimic joints are exactly what the element and the URDF say, independent of white space around values and of the order of differently tagged children; a description is accepted exactly when every element is readable and every joint agrees with the URDF; mimic indices are valid and active mimic joints have no command interface; of interface descriptions with equal names the first is kept.", "quantifier": "every XML document tree, every URDF joint table, every string-to-number conversion", "why_tests_cant": "the input space is all documents; acceptance and result depend on combinations of optional attributes, repeated elements and defaults", "anchors": ["hardware_interface/src/component_parser.cpp: parse_control_resources_from_urdf, parse_resource_from_xml, parse_component_from_xml, parse_complex_component_from_xml, parse_interfaces_from_xml, parse_transmission_from_xml, auto_fill_transmission_interfaces, parse_state_interface_descriptions, parse_command_interface_descriptions", "hardware_interface/include/hardware_interface/helpers.hpp: strip"]}
{"id": "C75", "title": "Asynchronous hardware components", "statement": "For a component declared with is_async (synchronized policy), whatever way its worker thread and the framework are interleaved: read() and write() never run while a life-cycle callback of the component runs; read() begins only in INACTIVE or ACTIVE, write() only in ACTIVE and never for a sensor, and the state does not change under them; every accepted cycle calls read() exactly once and write() at most once, after a read() that returned OK; when nothing is under way the resource manager is answered exactly the result of the last finished read() (write()) since activation, and at no time an error that user code did not return; after a bad answer the next thing the framework does with the component is on_error (on_deactivate for DEACTIVATE).  Not guaranteed (refuted): that every error of read() or write() is reported, that an answer after on_configure is about a read() after it, that command mode switches do not overlap with read() and write().", "quantifier": "all schedules of the worker thread and the framework's thread, all results of user code, sensors and other components", "why_tests_cant": "The outcome depends on where the worker is when the framework loads a stored result, triggers, or starts a transition; tests see a few timings.", "anchors": ["hardware_interface/src/hardware_component_interface.cpp: init (async cycle), trigger_read, trigger_write, pause_async_operations, prepare_for_activation", "hardware_interface/src/hardware_component.cpp: configure, cleanup, shutdown, activate, deactivate, error, read, write"]}
{"id": "C76", "title": "Asynchronous controllers", "statement": "An asynchronous controller's update() begins only while the controller is active and never overlaps with itself.  It does not overlap with on_deactivate() provided the deactivation was requested by a switch, nothing fails, and the request does not set its flag between the control loop's look at the flag and its trigger; without these conditions it can (refuted twice: deactivation because of an error, and the race).  A switch request that is given up after the controller was prepared for deactivation leaves the controller active but never updated again until it is activated anew.", "quantifier": "all schedules of the worker, the control loop and the service thread", "why_tests_cant": "Races between three threads; needs the worker to be in a particular place when the flag is set or the error arrives.", "anchors": ["controller_interface/src/controller_interface_base.cpp: trigger_update, prepare_for_deactivation, wait_for_trigger_update_to_finish", "controller_manager/src/controller_manager.cpp: switch_controller_cb, deactivate_controllers, update"]}
{"id": "C77", "title": "The first loadable robot description is the one used", "statement": "A controller manager started without a robot description waits, with no hardware, no initial component states and no services, through every description that cannot be loaded, and then runs the hardware and the joint limits of the first one that can: the initial states are set once and the services are started once.  Every later description leaves hardware, limits, settings and services alone.  A well-formed description is always taken, whatever was received before.  A manager constructed with a well-formed description runs it with the configured settings.  False, shown by refutations: that a later, ignored description is not handed to controllers; that the configured settings survive an unloadable description; that the limits of an unloadable description given at construction are dropped; that with handle_exceptions=false services only start when all components were loaded.", "quantifier": "all sequences of robot descriptions, plugins, parameters, hardware behaviours and iteration orders", "why_tests_cant": "The order and the number of unloadable descriptions before and after the accepted one is unbounded, and what remains from a failed load depends on where it failed.", "anchors": ["controller_manager/src/controller_manager.cpp: ControllerManager::ControllerManager", "controller_manager/src/controller_manager.cpp: ControllerManager::robot_description_callback", "controller_manager/src/controller_manager.cpp: ControllerManager::init_resource_manager", "hardware_interface/src/resource_manager.cpp: ResourceManager::load_and_initialize_components"]}
{"id": "C78", "title": "Orderly shutdown", "statement": "When the process is asked to end, every controller, in the manager's order, is taken down through exactly its own callbacks: a running one is deactivated and then shut down, one that is not running is shut down, on_error decides when a callback errs, finalized ones are left alone.  Afterwards no controller holds an interface and no command interface of the hardware is claimed; the answer is positive exactly when all controllers are finalized, which is the case if all callbacks succeed.  Only after that, and in any case, the hardware components are shut down; a positive answer means all components are finalized.  False, shown by a refutation: that every controller ends finalized (a FAILURE of on_deactivate leaves it active, without interfaces, over finalized hardware, and on_shutdown is never called).", "quantifier": "all histories before the shutdown, all controllers and components, all outcomes of their callbacks", "why_tests_cant": "The states of the controllers at the moment of the signal and the outcomes of up to three callbacks per controller are arbitrary; a test tries one.", "anchors": ["controller_manager/src/controller_manager.cpp: ControllerManager::shutdown_controllers", "controller_manager/src/controller_manager.cpp: preshutdown_cb", "controller_manager/src/controller_manager.cpp: ControllerManager::shutdown_controller", "hardware_interface/src/resource_manager.cpp: ResourceManager::shutdown_components"]}
{"id": "C79", "title": "Components that rely on the default export", "statement": "A hardware component that leaves the exporting of interfaces to the base class offers exactly the state and command interfaces its description lists for it (an actuator those of its joints, a sensor the states of its joints and sensors, a system those of joints, sensors and gpios) plus the unlisted ones it adds.  Each starts with the described initial value read as its data type; without one with NaN, false or the largest integer.  A robot of such components loads and has exactly these interfaces; if an initial value cannot be read, or an interface is described that the base class ignores, it is not loaded.  From then on, whatever components and controllers read and write by name, a state interface shows to its component and to every controller the value its component stored last, a command interface the value the controllers or its component stored last, stores of another type are refused, and an unknown name, or one of another component, is refused and changes nothing.  False, shown by refutations: that an actuator may have <gpio> tags; that interfaces are exported in the order of the description; that a component whose store was accepted is seen by the controllers when another component offers the same state interface.", "quantifier": "all robot descriptions, data types, initial values, map orders, and sequences of reads and writes", "why_tests_cant": "Descriptions, the iteration order of the unordered maps and the interleaving of accesses are unbounded; tests use a handful of interfaces in one order.", "anchors": ["hardware_interface/src/hardware_component_interface.cpp: HardwareComponentInterface::on_init", "hardware_interface/src/hardware_component_interface.cpp: HardwareComponentInterface::on_export_state_interfaces", "hardware_interface/src/hardware_component_interface.cpp: HardwareComponentInterface::on_export_command_interfaces", "hardware_interface/include/hardware_interface/hardware_component_interface.hpp: set_state, get_state, set_command, get_command", "hardware_interface/include/hardware_interface/handle.hpp: Handle(const InterfaceDescription &)", "hardware_interface/src/resource_manager.cpp: import_state_interfaces, import_command_interfaces"]}
{"id": "C80", "title": "Diagnostics say what was measured", "statement": "The level published for the controllers is ERROR exactly when no hardware component is active or some active controller is beyond an error threshold (its average execution time or its deviation; or, if it is asynchronous or does not run at the manager's rate, the distance of its average rate from its configured rate or the deviation); WARN exactly when that is not so and no controller is loaded or an active one is beyond a warning threshold; OK otherwise.  Above OK the message names exactly the active controllers that take too long or vary too much, each once, and exactly those off their rate, each once, and says that no hardware is active or that no controller is loaded; at OK it says whether all controllers are active.  The values list, for every controller in order, its state and, if it is active, its statistics.  An asynchronous controller may take one period more.  What has not been measured yet (NaN) never raises the level; larger thresholds never raise it.  The same holds for the hardware components (for their read and their write cycle), for which nothing is judged before a robot description was loaded, and for the manager's own rate.  False, shown by refutations: that inactive controllers are mentioned whenever there are some; that a hardware component is named at most once in a list.", "quantifier": "all sets of controllers and components, states, rates, thresholds and statistics, including infinite and undefined ones", "why_tests_cant": "Two nested thresholds on two statistics for every controller and cycle, merged into one level and one text; tests look at the fault-free report.", "anchors": ["controller_manager/src/controller_manager.cpp: ControllerManager::controller_activity_diagnostic_callback", "controller_manager/src/controller_manager.cpp: ControllerManager::hardware_components_diagnostic_callback", "controller_manager/src/controller_manager.cpp: ControllerManager::controller_manager_diagnostic_callback"]}
{"id": "C81", "title": "A controller is loaded as its parameters say", "statement": "load_controller loads a controller exactly when the manager's parameters name a type that a plugin loader creates, the controller is not listed as its own fallback, no controller of that name is loaded, and its init() succeeds.  It then has the type, the parameter files, the fallback controllers and the node arguments that the parameters said at that moment, whatever is set later, and its node is given the type's own options, every parameter file in order, use_sim_time if the manager uses it, and the user's arguments, read by ROS as such.  A refused load adds, removes or changes no controller and changes no parameter except that missing ones are declared with their defaults, so it can be repeated; names stay unique over every history.  False, shown by refutations: that parameter files are read when the type's options close their ROS arguments; that the user's arguments are read the same with and without parameter files; that a params_file that is no text is an error; that the service always answers (a parameter of the wrong type throws).", "quantifier": "all parameters, histories of loads, unloads and parameter changes, plugin loaders, options of types and answers of init()", "why_tests_cant": "Parameters may be set, missing or of any type and change between loads, and the argument list depends on four sources; tests load a few controllers with one file.", "anchors": ["controller_manager/src/controller_manager.cpp: ControllerManager::load_controller", "controller_manager/src/controller_manager.cpp: ControllerManager::add_controller_impl", "controller_manager/src/controller_manager.cpp: ControllerManager::determine_controller_node_options", "controller_manager/src/controller_manager.cpp: ControllerManager::load_controller_service_cb"]}
{"id": "C82", "title": "What the spawner promises", "statement": "When the spawner exits with code 0 (no signal, no --unload-on-kill) or starts waiting for the signal, every controller of the command line is as asked: loaded (--load-only), configured (--inactive) or active, whatever the real-time loop and other clients did in between, however many of its requests were answered too late, provided nobody changed the state of a controller it was already done with. When it gives up, it has made no request about the controllers after the one that failed. With --unload-on-kill, exit code 0 means that each controller not asked to stay inactive was loaded and was unloaded by it. It unloads something only after a STRICT stop request made while all of these were active. It asks nothing else of the controller manager. False, shown by refutations: that --unload-on-kill stops and unloads the controllers at a signal (not if one is load-only, nor before all run); that exit code 0 means everything is up (not after a signal); that exit code 1 means something is missing (a repeated request after a late answer); that it can be run again on controllers that are up.", "quantifier": "all command lines with distinct controllers, histories of the manager before, operations of the real-time loop and other clients between and during its requests, lost or late answers, missing services and signals at any request", "why_tests_cant": "The spawner is a sequence of service calls interleaved with a running controller manager and other spawners; tests start it on an otherwise idle manager, one scenario per option.", "anchors": ["controller_manager/controller_manager/spawner.py (main)", "controller_manager/controller_manager/controller_manager_services.py (service_caller, load_controller, configure_controller, switch_controllers, unload_controller)", "controller_manager/src/controller_manager.cpp (load_controller, configure_controller, switch_controller_cb, unload_controller)"]}
{"id": "C83", "title": "What the unspawner and the hardware spawner promise", "statement": "When the unspawner exits with code 0 and was not interrupted, it has unloaded every controller it was given, each while it was loaded and not running, and each is gone unless someone loaded it again, although the answer to its stop request is ignored and whatever else was requested meanwhile. Otherwise it unloaded those before some controller of the list and asked to unload none after it; exit code 1 means that the manager refused an unload request. It asks only to stop all of them (STRICT) and to unload them. The hardware spawner reports the components it was given in order, all of them if it exits with 0 uninterrupted: not loaded exactly for names that are no components, success only if its request took the component to the requested state, a failure only if the manager refused; it asks for nothing but that state of these components. False, shown by refutations: that exit code 0 of the unspawner means unloaded after an interrupt; that exit code 0 of the hardware spawner means that the components are in the state.", "quantifier": "all lists of names, histories of the manager before, operations of the real-time loop and other clients between and during the requests, lost or late answers, missing services and interrupts at any request", "why_tests_cant": "Both are sequences of service calls interleaved with a running controller manager; the exit code is what launch files and scripts look at; tests run each once on an idle manager.", "anchors": ["controller_manager/controller_manager/unspawner.py (main)", "controller_manager/controller_manager/hardware_spawner.py (main, is_hardware_component_loaded, handle_set_component_state_service_call)", "controller_manager/controller_manager/controller_manager_services.py (service_caller, switch_controllers, unload_controller, list_hardware_components, set_hardware_component_state)", "controller_manager/src/controller_manager.cpp (switch_controller_cb, unload_controller, set_hardware_component_state_srv_cb)"]}
{"id": "C84", "title": "Parameter files mean what they say", "statement": "The files the spawner hands to a controller are those of its command line that have a section for the controller (its own, one below the wildcard, or the wildcard itself) and no section for its bare name when it is in a name space; each once, in the given order. A parameter read from the files (type, fallback_controllers) gets the value of the first file that gives one, in that file of the first section in the order name, scoped name, wildcard names that sets it, and none only if no file gives one. Without a name space the controller's own section decides before every wildcard. Files that are proper parameter files never make it raise. False, shown by refutations: that in a name space the controller's own section wins over the wildcard; that a later file overrides an earlier one; that a file with the scoped section always concerns the controller.", "quantifier": "all documents, lists of files, controller names, name spaces and parameters", "why_tests_cant": "Which section applies depends on the combination of keys in each of several files; tests use a handful of fixed files.", "anchors": ["controller_manager/controller_manager/controller_manager_services.py (get_params_files_with_controller_parameters, get_parameter_from_param_files, set_controller_parameters_from_param_files)"]}
