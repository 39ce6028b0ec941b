(** RmSpec.v -- independent specifications used by the statements of C01-C11. *)
From Verif Require Import Base Events HwModel RmModel RmSys.

(** --- C01/C02: the documented life cycle as an automaton that reads only observable events. *)
Inductive astate :=
| AIn (l : lc)          (* component reports state l *)
| AErr.                 (* a callback demanded error handling: on_error must be next *)

Definition in_error (ok : bool) : astate := AIn (if ok then Unconfigured else Finalized).

(** [life n k a ev]: the state after event [ev]; [None] = the event is not allowed here. *)
Definition life (n : name) (k : hkind) (a : astate) (ev : event) : option astate :=
  match ev with
  | EvHwCb h cb r =>
    if negb (String.eqb h n) then Some a else
    match cb, a, r with
    | HInit, AIn Unknown, CbSuccess => Some (AIn Unconfigured)
    | HInit, AIn Unknown, CbThrow => Some (AIn Unknown)
    | HInit, AIn Unknown, _ => Some (AIn Finalized)
    | HConfigure, AIn Unconfigured, CbSuccess => Some (AIn Inactive)
    | HConfigure, AIn Unconfigured, _ => Some (AIn Unconfigured)
    | HActivate, AIn Inactive, CbSuccess => Some (AIn Active)
    | HActivate, AIn Inactive, CbError => Some AErr
    | HActivate, AIn Inactive, _ => Some (AIn Inactive)
    | HDeactivate, AIn Active, CbSuccess => Some (AIn Inactive)
    | HDeactivate, AIn Active, CbError => Some AErr
    | HDeactivate, AIn Active, _ => Some (AIn Active)
    | HCleanup, AIn Inactive, CbSuccess => Some (AIn Unconfigured)
    | HCleanup, AIn Inactive, CbThrow => Some (AIn Inactive)
    | HCleanup, AIn Inactive, _ => Some AErr
    | HShutdown, AIn Unconfigured, CbSuccess => Some (AIn Finalized)
    | HShutdown, AIn Unconfigured, _ => Some (AIn Unconfigured)
    | HShutdown, AIn Inactive, CbSuccess => Some (AIn Finalized)
    | HShutdown, AIn Inactive, CbThrow => Some (AIn Inactive)
    | HShutdown, AIn Inactive, _ => Some AErr
    | HShutdown, AIn Active, CbSuccess => Some (AIn Finalized)
    | HShutdown, AIn Active, CbThrow => Some (AIn Active)
    | HShutdown, AIn Active, _ => Some AErr
    | _, _, _ => None
    end
  | EvHwErr h ok =>
    if negb (String.eqb h n) then Some a else
    match a with
    | AErr | AIn Inactive | AIn Active | AIn Finalized => Some (in_error ok)
    | AIn Unknown | AIn Unconfigured => None
    end
  | EvRead h r =>
    if negb (String.eqb h n) then Some a else
    match a with
    | AIn Inactive | AIn Active =>
        match r with Ret RError => Some AErr | _ => Some a end
    | _ => None
    end
  | EvWrite h r =>
    if negb (String.eqb h n) then Some a else
    match k, a with
    | Sensor, _ => None
    | _, AIn Active => match r with Ret RError => Some AErr | _ => Some a end
    | _, _ => None
    end
  | EvPrepare h _ _ _ | EvPerform h _ _ _ =>
    if negb (String.eqb h n) then Some a else
    match k, a with
    | Sensor, _ => None
    | _, AIn Inactive | _, AIn Active => Some a
    | _, _ => None
    end
  | _ => Some a
  end.

(** Run the automaton over a whole trace (newest event first). *)
Fixpoint lives (n : name) (k : hkind) (start : lc) (t : trace) : option astate :=
  match t with
  | [] => Some (AIn start)
  | ev :: t' => match lives n k start t' with Some a => life n k a ev | None => None end
  end.

(** Operations of a single component. *)
Inductive hop := HopInit | HopConfigure | HopCleanup | HopShutdown | HopActivate | HopDeactivate
               | HopError | HopRead | HopWrite.
Definition hstep (e : env) (s : hwc * trace) (o : hop) : hwc * trace :=
  let '(h, t) := s in
  match o with
  | HopInit => fst (hw_init e h t)
  | HopConfigure => fst (hw_configure e h t)
  | HopCleanup => fst (hw_cleanup e h t)
  | HopShutdown => fst (hw_shutdown e h t)
  | HopActivate => fst (hw_activate e h t)
  | HopDeactivate => fst (hw_deactivate e h t)
  | HopError => hw_error e h t
  | HopRead => fst (hw_read e h t)
  | HopWrite => fst (hw_write e h t)
  end.
Definition hrun (e : env) (s : hwc * trace) (ops : list hop) : hwc * trace :=
  fold_left (hstep e) ops s.

(** --- shared vocabulary *)
Definition lc_of (r : rm) (n : name) : option lc := option_map h_lc (find_hw r n).
Definition configured (l : lc) : Prop := l = Inactive \/ l = Active.

(** the events an operation added *)
Definition new_events (t t' evs : trace) : Prop := t' = evs ++ t.

(** the cycle of component [n] failed at the device *)
Definition read_failed (n : name) (ev : event) : Prop :=
  exists r, ev = EvRead n r /\ r <> Ret ROk.
Definition write_failed (n : name) (ev : event) : Prop :=
  exists r, ev = EvWrite n r /\ r <> Ret ROk.

(** --- C05 *)
(** all (none) of a component's interfaces are listed as available *)
Definition all_available (r : rm) (h : hwc) : Prop :=
  (forall k, In k (h_cmd h) -> In k (rm_avc r)) /\ (forall k, In k (h_state h) -> In k (rm_avs r)).
Definition none_available (r : rm) (h : hwc) : Prop :=
  (forall k, In k (h_cmd h) -> ~ In k (rm_avc r)) /\ (forall k, In k (h_state h) -> ~ In k (rm_avs r)).

(** hardware whose transition callbacks never demand error handling on the way up or down *)
Definition no_transition_errors (e : env) : Prop :=
  forall t n,
    e_hw e t n HActivate <> CbError /\ e_hw e t n HDeactivate <> CbError /\
    (e_hw e t n HCleanup = CbSuccess \/ e_hw e t n HCleanup = CbThrow) /\
    (e_hw e t n HShutdown = CbSuccess \/ e_hw e t n HShutdown = CbThrow).

(** --- C08/C09: the state of a hardware group as a function of the observable history alone.
    Oldest to newest: a member's read or write that returned ERROR or DEACTIVATE sets it; a
    member's on_configure or on_cleanup, a successful on_shutdown, and a failed on_shutdown that
    on_error sends to FINALIZED clear it.  Everything else (including exceptions) leaves it. *)
Fixpoint group_state (ms : list name) (t : trace) : rtype :=
  match t with
  | [] => ROk
  | ev :: t' =>
    match ev with
    | EvRead m (Ret v) | EvWrite m (Ret v) =>
        if mem m ms && negb (rtype_eqb v ROk) then v else group_state ms t'
    | EvHwCb m HConfigure _ | EvHwCb m HCleanup _ | EvHwCb m HShutdown CbSuccess =>
        if mem m ms then ROk else group_state ms t'
    | EvHwErr m false =>
        match t' with
        | EvHwCb m' HShutdown CbFailure :: _ | EvHwCb m' HShutdown CbError :: _ =>
            if String.eqb m m' && mem m ms then ROk else group_state ms t'
        | _ => group_state ms t'
        end
    | _ => group_state ms t'
    end
  end.

(** the names of the components of group [g] *)
Definition members (hs : list hwc) (g : name) : list name :=
  map h_name (filter (fun h => String.eqb (h_group h) g) hs).

(** the event may clear the group state of the group with these members *)
Definition clears (ms : list name) (ev : event) : Prop :=
  exists m r, In m ms /\ (ev = EvHwCb m HConfigure r \/ ev = EvHwCb m HCleanup r \/ ev = EvHwCb m HShutdown r).

(** --- C11 *)
Definition mode_event (op : mode_op) (n : name) (s p : list name) (x : rres) : event :=
  match op with MPrepare => EvPrepare n s p x | MPerform => EvPerform n s p x end.

(** [h] owns one of the named command interfaces *)
Definition concerned (h : hwc) (start stop : list name) : Prop :=
  exists k, In k (h_cmd h) /\ (In k start \/ In k stop).

(** what a forwarded call may look like: a concerned, configured actuator or system, exactly its
    own share of the named interfaces *)
Definition forwarded (op : mode_op) (r : rm) (start stop : list name) (ev : event) : Prop :=
  exists n h s p x, ev = mode_event op n s p x /\ find_hw r n = Some h /\ h_kind h <> Sensor /\
    configured (h_lc h) /\ concerned h start stop /\
    (forall k, In k s <-> In k start /\ In k (h_cmd h)) /\ (forall k, In k p <-> In k stop /\ In k (h_cmd h)).
