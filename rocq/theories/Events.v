(** Events.v -- life-cycle states, results of user code, the observable trace and the oracles.

    User code (hardware plugins, controllers) is outside the repository: its behaviour is an
    oracle.  [env] contains one function per kind of user callback; every oracle may depend on the
    complete trace of everything that happened before, so quantifying over all [env] quantifies
    over all deterministic-given-history (hence over all) behaviours of user code. *)
From Verif Require Import Base.

(** lifecycle_msgs::msg::State primary states. *)
Inductive lc := Unknown | Unconfigured | Inactive | Active | Finalized.

Definition lc_eqb (a b : lc) : bool :=
  match a, b with
  | Unknown, Unknown | Unconfigured, Unconfigured | Inactive, Inactive | Active, Active
  | Finalized, Finalized => true
  | _, _ => false
  end.

Lemma lc_eqb_eq a b : lc_eqb a b = true <-> a = b.
Proof. destruct a, b; simpl; split; congruence. Qed.

(** CallbackReturn of a life-cycle callback, or an exception escaping from it. *)
Inductive cbret := CbSuccess | CbFailure | CbError | CbThrow.

(** hardware_interface::return_type (hardware_interface_return_values.hpp) or an exception. *)
Inductive rtype := ROk | RError | RDeactivate.
Inductive rres := Ret (r : rtype) | Throw.

Definition rtype_eqb (a b : rtype) : bool :=
  match a, b with ROk, ROk | RError, RError | RDeactivate, RDeactivate => true | _, _ => false end.

(** Hardware life-cycle callbacks. *)
Inductive hcb := HInit | HConfigure | HCleanup | HShutdown | HActivate | HDeactivate.
(** Controller life-cycle callbacks. *)
Inductive ccb := CConfigure | CCleanup | CShutdown | CActivate | CDeactivate.

Inductive event :=
| EvOp                                                    (* an API operation starts *)
| EvHwCb (h : name) (cb : hcb) (r : cbret)                (* hardware life-cycle callback ran *)
| EvHwErr (h : name) (ok : bool)                          (* hardware on_error ran (SUCCESS?) *)
| EvRead (h : name) (r : rres)                            (* hardware read ran *)
| EvWrite (h : name) (r : rres)                           (* hardware write ran *)
| EvPrepare (h : name) (start stop : list name) (r : rres)
| EvPerform (h : name) (start stop : list name) (r : rres)
| EvCtrlCb (c : name) (cb : ccb) (r : cbret)              (* controller life-cycle callback ran *)
| EvCtrlErr (c : name) (ok : bool)                        (* controller on_error ran *)
| EvUpdate (c : name) (r : rres)                          (* controller update ran *)
| EvChained (c : name) (on ok : bool).                    (* on_set_chained_mode ran *)

(** newest event first *)
Definition trace := list event.

Record env := {
  e_hw : trace -> name -> hcb -> cbret;
  (* true = SUCCESS, false = FAILURE/ERROR.  Simplification: on_error does not throw. *)
  e_hw_error : trace -> name -> bool;
  e_read : trace -> name -> rres;
  e_write : trace -> name -> rres;
  (* try_lock on the component mutex fails (another thread is in a transition) *)
  e_locked : trace -> name -> bool;
  (* the rw_rate test lets this cycle through (only asked for components with own rate) *)
  e_due : trace -> name -> bool;
  e_prepare : trace -> name -> list name -> list name -> rres;
  e_perform : trace -> name -> list name -> list name -> rres;
  e_ctrl : trace -> name -> ccb -> cbret;
  e_ctrl_error : trace -> name -> bool;
  e_update : trace -> name -> rres;
  (* the controller's own rate lets this cycle through; see RateModel for the timing rule *)
  e_update_due : trace -> name -> bool;
  e_set_chained : trace -> name -> bool -> bool
}.
