(** LifeSpec.v -- specification of the life cycle of a controller as seen by its callbacks, and of what each operation
    may call. *)
From Verif Require Import Base Events HwModel RmModel CmModel CmSpec UpdateSpec.

(** a controller is in a life-cycle state, or one of its callbacks has just failed and on_error is due *)
Inductive cphase := PState (l : lc) | PError.
(** the states in which a callback may be invoked *)
Definition may_run (cb : ccb) (l : lc) : bool :=
  match cb, l with
  | Events.CConfigure, Unconfigured => true
  | Events.CCleanup, Inactive => true
  | Events.CActivate, Inactive => true
  | Events.CDeactivate, Active => true
  | Events.CShutdown, (Unconfigured | Inactive | Active) => true
  | _, _ => false
  end.
(** the state after the callback succeeded; a FAILURE leaves the state as it was, except for on_shutdown *)
Definition next_state (cb : ccb) : lc :=
  match cb with
  | Events.CConfigure => Inactive | Events.CCleanup => Unconfigured | Events.CActivate => Active
  | Events.CDeactivate => Inactive | Events.CShutdown => Finalized
  end.
Definition failed_state (cb : ccb) (l : lc) : lc := match cb with Events.CShutdown => Finalized | _ => l end.

(** one event, seen by controller [n]; [None] = the event is not allowed in that phase *)
Definition phase1 (n : name) (s : cphase) (ev : event) : option cphase :=
  match ev with
  | EvCtrlCb x cb r =>
      if String.eqb x n then
        match s with
        | PState l => if may_run cb l then
                        Some (match r with
                              | CbSuccess => PState (next_state cb)
                              | CbFailure => PState (failed_state cb l)
                              | CbError | CbThrow => PError end)
                      else None
        | PError => None
        end
      else Some s
  | EvCtrlErr x ok =>
      if String.eqb x n then
        match s with PError => Some (PState (if ok then Unconfigured else Finalized)) | PState _ => None end
      else Some s
  | EvUpdate x _ => if String.eqb x n then match s with PState Active => Some s | _ => None end else Some s
  | EvChained x _ _ => if String.eqb x n then match s with PState Active | PError => None | _ => Some s end else Some s
  | _ => Some s
  end.
(** a list of events, newest first *)
Fixpoint phase (n : name) (s : cphase) (t : trace) : option cphase :=
  match t with
  | [] => Some s
  | ev :: t' => match phase n s t' with Some s' => phase1 n s' ev | None => None end
  end.
(** chained mode after these events: what on_set_chained_mode accepted last *)
Fixpoint chained_by (n : name) (b : bool) (t : trace) : bool :=
  match t with
  | [] => b
  | EvChained x on true :: t' => if String.eqb x n then on else chained_by n b t'
  | _ :: t' => chained_by n b t'
  end.
Definition chained_in (m : cm) (n : name) : option bool := option_map c_chained (find_ctrl m n).

(** the user code an operation may call *)
Definition stops_ctrl (ev : event) : Prop :=
  match ev with EvCtrlCb _ Events.CDeactivate _ | EvCtrlErr _ _ | EvChained _ false _ => True | _ => False end.
Definition switches_ctrl (ev : event) : Prop :=
  match ev with EvCtrlCb _ (Events.CDeactivate | Events.CActivate) _ | EvCtrlErr _ _ | EvChained _ _ _ => True | _ => False end.
Definition mode_event (ev : event) : Prop :=
  match ev with EvPrepare _ _ _ _ | EvPerform _ _ _ _ => True | _ => False end.
Definition may_call (o : cop) (ev : event) : Prop :=
  match o with
  | CLoad _ _ | CTimeout | CEvaluate => False
  | CUnload n => match ev with EvCtrlCb x (Events.CCleanup | Events.CShutdown) _ | EvCtrlErr x _ => x = n | _ => False end
  | CCleanup n => match ev with EvCtrlCb x Events.CCleanup _ | EvCtrlErr x _ => x = n | _ => False end
  | CConfigure n _ => match ev with EvCtrlCb x (Events.CCleanup | Events.CConfigure) _ | EvCtrlErr x _ | EvChained x false _ => x = n | _ => False end
  | CRequest _ _ _ _ => match ev with EvPrepare _ _ _ _ => True | _ => False end
  | CPerform => switches_ctrl ev \/ mode_event ev
  | CRead => stops_ctrl ev \/ mode_event ev \/ match ev with EvRead _ _ | EvHwErr _ _ => True | _ => False end
  | CWrite => stops_ctrl ev \/ mode_event ev \/ match ev with EvWrite _ _ | EvHwErr _ _ | EvHwCb _ _ _ => True | _ => False end
  | CUpdate => match ev with EvUpdate _ _ => True | _ => False end \/ switches_ctrl ev \/ mode_event ev
  | CSetHw h _ => match ev with EvHwCb x _ _ | EvHwErr x _ => x = h | _ => False end
  end.

(** the controllers whose turn it is in an update cycle: the active ones, except those concerned by a switch that a
    service call is about to perform itself (activate_asap false) *)
Definition held_back (m : cm) (n : name) : Prop :=
  exists p, cm_pend m = Some p /\ p_done p = false /\ p_asap p = false /\
    (In n (p_act p) \/ In n (p_deact p) \/ In n (p_to p) \/ In n (p_from p)).
Definition has_turn (m : cm) (n : name) : Prop := state_in m n = Some Active /\ ~ held_back m n.
Definition updated (t : trace) : list name := flat_map (fun ev => match ev with EvUpdate n _ => [n] | _ => [] end) (rev t).
(** [a] is [b] with some elements left out *)
Inductive sublist {A} : list A -> list A -> Prop :=
| sub_nil : sublist [] []
| sub_skip x a b : sublist a b -> sublist a (x :: b)
| sub_keep x a b : sublist a b -> sublist (x :: a) (x :: b).
