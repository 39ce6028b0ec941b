(** ShutSpec.v -- the words of property C78. *)
From Verif Require Import Base Events HwModel RmModel CmModel.
Open Scope string_scope. Open Scope nat_scope. Open Scope list_scope.

(** How one controller is taken down: [farewell e n t l evs l'] -- controller [n] is in state [l], the history so far is [t]
    (newest first); its callbacks add [evs] to the history and it ends in state [l']. *)
Inductive farewell (e : env) (n : name) (t : trace) : lc -> trace -> lc -> Prop :=
(** finalized (or never initialized): left alone *)
| fw_done l : l = Finalized \/ l = Unknown -> farewell e n t l [] l
(** not running: on_shutdown, once *)
| fw_shut l r : l = Unconfigured \/ l = Inactive -> e_ctrl e t n CShutdown = r -> r = CbSuccess \/ r = CbFailure ->
    farewell e n t l [EvCtrlCb n CShutdown r] Finalized
(** on_shutdown goes wrong: on_error decides *)
| fw_shut_err l r ok : l = Unconfigured \/ l = Inactive -> e_ctrl e t n CShutdown = r -> r = CbError \/ r = CbThrow ->
    e_ctrl_error e (EvCtrlCb n CShutdown r :: t) n = ok ->
    farewell e n t l [EvCtrlErr n ok; EvCtrlCb n CShutdown r] (if ok then Unconfigured else Finalized)
(** running, and on_deactivate refuses: it stays like that *)
| fw_stuck : e_ctrl e t n CDeactivate = CbFailure -> farewell e n t Active [EvCtrlCb n CDeactivate CbFailure] Active
(** running: on_deactivate first, then as if it had not been running *)
| fw_stop evs l' : e_ctrl e t n CDeactivate = CbSuccess ->
    farewell e n (EvCtrlCb n CDeactivate CbSuccess :: t) Inactive evs l' ->
    farewell e n t Active (evs ++ [EvCtrlCb n CDeactivate CbSuccess]) l'
(** on_deactivate goes wrong: on_error decides whether the controller is unconfigured (and shut down) or already finalized *)
| fw_stop_err r ok evs l' : e_ctrl e t n CDeactivate = r -> r = CbError \/ r = CbThrow ->
    e_ctrl_error e (EvCtrlCb n CDeactivate r :: t) n = ok ->
    farewell e n (EvCtrlErr n ok :: EvCtrlCb n CDeactivate r :: t) (if ok then Unconfigured else Finalized) evs l' ->
    farewell e n t Active (evs ++ [EvCtrlErr n ok; EvCtrlCb n CDeactivate r]) l'.
(** All of them, one after the other in the manager's order. *)
Inductive farewells (e : env) : trace -> list ctrl -> trace -> list lc -> Prop :=
| fws_nil t : farewells e t [] t []
| fws_cons t c cs evs l t' ls : farewell e (c_name c) t (c_lc c) evs l -> farewells e (evs ++ t) cs t' ls ->
    farewells e t (c :: cs) t' (l :: ls).

(** Nobody holds an interface. *)
Definition holds_nothing (c : ctrl) : Prop := c_cloans c = [] /\ c_sloans c = [].
(** An orderly goodbye: the callbacks of a controller in state [l], oldest first. *)
Definition goodbye (c : ctrl) : trace :=
  match c_lc c with
  | Active => [EvCtrlCb (c_name c) CDeactivate CbSuccess; EvCtrlCb (c_name c) CShutdown CbSuccess]
  | Inactive | Unconfigured => [EvCtrlCb (c_name c) CShutdown CbSuccess]
  | _ => []
  end.
(** Every callback of every component succeeds. *)
Definition hw_callbacks_succeed (e : env) : Prop := forall t n cb, e_hw e t n cb = CbSuccess.
(** Something that happens in a component. *)
Definition hardware_event (ev : event) : Prop :=
  match ev with EvHwCb _ _ _ | EvHwErr _ _ | EvRead _ _ | EvWrite _ _ | EvPrepare _ _ _ _ | EvPerform _ _ _ _ => True | _ => False end.
