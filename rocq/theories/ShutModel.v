(** ShutModel.v -- what happens when the process is asked to end.
    Models /repo/controller_manager/src/controller_manager.cpp (CM): shutdown_controllers 622-651, the pre-shutdown callback
    689-707; /repo/hardware_interface/src/resource_manager.cpp shutdown_components 1512-1526 is RmModel.shutdown_components.
    Simplifications: handle_exceptions is true (default); removing nodes from the executor, cancelling it and logging are left out;
    the control loop does not run meanwhile (in the code nothing stops it: the callback takes no lock it respects). *)
From Verif Require Import Base Events HwModel RmModel CmModel.
Open Scope string_scope. Open Scope nat_scope. Open Scope list_scope.

(** the body of the loop, CM 630-644: the controller's node is deactivated directly (no command mode switch, chained mode and
    exported interfaces are left alone), then shut down (1559-1587) *)
Definition shutdown_one (e : env) (m : cm) (n : name) : cm :=
  let m1 := if has_lc m n Active then release_itfs (node_deactivate e m n) n else m in
  if has_lc m1 n Inactive || has_lc m1 n Unconfigured then node_shutdown e m1 n else m1.
(** CM 622-651; the status is taken right after each controller, 645-647 *)
Definition shutdown_controllers (e : env) (m : cm) : cm * bool :=
  fold_left (fun '(m, ok) n => let m' := shutdown_one e m n in (m', ok && has_lc m' n Finalized))
            (map c_name (cm_ctrls m)) (m, true).
(** the pre-shutdown callback, CM 689-707: first the controllers, then the hardware, whatever the answers *)
Definition pre_shutdown (e : env) (m : cm) : cm * bool * bool :=
  let '(m1, ok1) := shutdown_controllers e m in
  let '(r, ok2) := shutdown_components e (cm_rm m1) in
  (set_rm m1 r, ok1, ok2).
