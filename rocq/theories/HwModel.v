(** HwModel.v -- one hardware component.
    Models /repo/hardware_interface/src/hardware_component.cpp:57-424.
    Not modelled: statistics, introspection flags, async handlers (synchronous components only),
    the component mutex (every method runs atomically: the mutex is held for its duration; the
    try_lock of the real-time loop is the [e_locked] oracle of the resource manager model). *)
From Verif Require Import Base Events.

Inductive hkind := Actuator | Sensor | System.

Record hwc := {
  h_name : name;
  h_kind : hkind;
  h_group : name;          (* "" = no group *)
  h_rated : bool;          (* rw_rate <> 0 and <> manager rate *)
  h_state : list name;     (* exported state interfaces *)
  h_cmd : list name;       (* exported command interfaces *)
  h_lc : lc
}.

Definition set_lc (h : hwc) (l : lc) : hwc :=
  {| h_name := h_name h; h_kind := h_kind h; h_group := h_group h; h_rated := h_rated h;
     h_state := h_state h; h_cmd := h_cmd h; h_lc := l |}.

(** Result of a transition: component, trace, did an exception escape. *)
Definition hres := (hwc * trace * bool)%type.

(** HardwareComponent::error, hardware_component.cpp:226-251.  The guard excludes only UNKNOWN and
    UNCONFIGURED (so FINALIZED components do run on_error again). *)
Definition hw_error (e : env) (h : hwc) (t : trace) : hwc * trace :=
  match h_lc h with
  | Unknown | Unconfigured => (h, t)
  | _ =>
      let ok := e_hw_error e t (h_name h) in
      (set_lc h (if ok then Unconfigured else Finalized), EvHwErr (h_name h) ok :: t)
  end.

Definition call (e : env) (h : hwc) (t : trace) (cb : hcb) : cbret * trace :=
  let r := e_hw e t (h_name h) cb in (r, EvHwCb (h_name h) cb r :: t).

Definition then_error (e : env) (h : hwc) (t : trace) : hres :=
  let '(h', t') := hw_error e h t in (h', t', false).

(** initialize, :57-80 *)
Definition hw_init (e : env) (h : hwc) (t : trace) : hres :=
  match h_lc h with
  | Unknown =>
      let '(r, t1) := call e h t HInit in
      match r with
      | CbSuccess => (set_lc h Unconfigured, t1, false)
      | CbFailure | CbError => (set_lc h Finalized, t1, false)
      | CbThrow => (h, t1, true)
      end
  | _ => (h, t, false)
  end.

(** configure, :82-106.  On ERROR the code calls error(), whose guard makes it a no-op in
    UNCONFIGURED. *)
Definition hw_configure (e : env) (h : hwc) (t : trace) : hres :=
  match h_lc h with
  | Unconfigured =>
      let '(r, t1) := call e h t HConfigure in
      match r with
      | CbSuccess => (set_lc h Inactive, t1, false)
      | CbFailure => (set_lc h Unconfigured, t1, false)
      | CbError => then_error e h t1
      | CbThrow => (h, t1, true)
      end
  | _ => (h, t, false)
  end.

(** cleanup, :108-129 *)
Definition hw_cleanup (e : env) (h : hwc) (t : trace) : hres :=
  match h_lc h with
  | Inactive =>
      let '(r, t1) := call e h t HCleanup in
      match r with
      | CbSuccess => (set_lc h Unconfigured, t1, false)
      | CbFailure | CbError => then_error e h t1
      | CbThrow => (h, t1, true)
      end
  | _ => (h, t, false)
  end.

(** shutdown, :131-155 *)
Definition hw_shutdown (e : env) (h : hwc) (t : trace) : hres :=
  match h_lc h with
  | Unknown | Finalized => (h, t, false)
  | _ =>
      let '(r, t1) := call e h t HShutdown in
      match r with
      | CbSuccess => (set_lc h Finalized, t1, false)
      | CbFailure | CbError => then_error e h t1
      | CbThrow => (h, t1, true)
      end
  end.

(** activate, :157-195 *)
Definition hw_activate (e : env) (h : hwc) (t : trace) : hres :=
  match h_lc h with
  | Inactive =>
      let '(r, t1) := call e h t HActivate in
      match r with
      | CbSuccess => (set_lc h Active, t1, false)
      | CbFailure => (set_lc h Inactive, t1, false)
      | CbError => then_error e h t1
      | CbThrow => (h, t1, true)
      end
  | _ => (h, t, false)
  end.

(** deactivate, :197-224 *)
Definition hw_deactivate (e : env) (h : hwc) (t : trace) : hres :=
  match h_lc h with
  | Active =>
      let '(r, t1) := call e h t HDeactivate in
      match r with
      | CbSuccess => (set_lc h Inactive, t1, false)
      | CbFailure => (set_lc h Active, t1, false)
      | CbError => then_error e h t1
      | CbThrow => (h, t1, true)
      end
  | _ => (h, t, false)
  end.

(** read, :352-385 (synchronous: trigger_read calls the user's read in place).  [Throw] means the
    user's read threw: the exception leaves HardwareComponent::read before error() is reached. *)
Definition hw_read (e : env) (h : hwc) (t : trace) : hwc * trace * rres :=
  match h_lc h with
  | Inactive | Active =>
      let r := e_read e t (h_name h) in
      let t1 := EvRead (h_name h) r :: t in
      match r with
      | Ret RError => let '(h', t') := hw_error e h t1 in (h', t', r)
      | _ => (h, t1, r)
      end
  | _ => (h, t, Ret ROk)
  end.

(** write, :387-424 *)
Definition hw_write (e : env) (h : hwc) (t : trace) : hwc * trace * rres :=
  match h_kind h with
  | Sensor => (h, t, Ret ROk)
  | _ =>
    match h_lc h with
    | Active =>
        let r := e_write e t (h_name h) in
        let t1 := EvWrite (h_name h) r :: t in
        match r with
        | Ret RError => let '(h', t') := hw_error e h t1 in (h', t', r)
        | _ => (h, t1, r)
        end
    | _ => (h, t, Ret ROk)
    end
  end.
