(** RmSpec2.v -- more independent vocabulary for C02, C04, C06, C11: what exactly happens. *)
From Verif Require Import Base Events HwModel RmModel RmSys RmSpec.

(** number of reads (writes) of component n among these events *)
Definition is_read (n : name) (ev : event) : bool :=
  match ev with EvRead m _ => String.eqb m n | _ => false end.
Definition is_write (n : name) (ev : event) : bool :=
  match ev with EvWrite m _ => String.eqb m n | _ => false end.
Definition count (p : event -> bool) (evs : trace) : nat := length (filter p evs).

(** life-cycle callbacks of n among these events with their results, in the order they ran
    (the trace is newest first) *)
Definition cb_of (n : name) (ev : event) : list (hcb * cbret) :=
  match ev with EvHwCb m cb r => if String.eqb m n then [(cb, r)] else [] | _ => [] end.
Fixpoint callbacks (n : name) (evs : trace) : list (hcb * cbret) :=
  match evs with [] => [] | ev :: t => callbacks n t ++ cb_of n ev end.

(** the callbacks that lead from one primary state to another; [None]: there is no way *)
Definition path (from target : lc) : option (list hcb) :=
  match from, target with
  | Unconfigured, Unconfigured => Some []
  | Unconfigured, Inactive => Some [HConfigure]
  | Unconfigured, Active => Some [HConfigure; HActivate]
  | Unconfigured, Finalized => Some [HShutdown]
  | Inactive, Unconfigured => Some [HCleanup]
  | Inactive, Inactive => Some []
  | Inactive, Active => Some [HActivate]
  | Inactive, Finalized => Some [HShutdown]
  | Active, Unconfigured => Some [HDeactivate; HCleanup]
  | Active, Inactive => Some [HDeactivate]
  | Active, Active => Some []
  | Active, Finalized => Some [HDeactivate; HShutdown]
  | Finalized, Finalized => Some []
  | _, _ => None
  end.

(** [follows cs ds]: the callbacks cs are run in this order, up to and including the first one
    that does not succeed *)
Fixpoint follows (cs : list hcb) (ds : list (hcb * cbret)) : Prop :=
  match cs, ds with
  | [], [] => True
  | c :: cs', (d, r) :: ds' =>
      d = c /\ match r with CbSuccess => follows cs' ds' | _ => ds' = [] end
  | _, _ => False
  end.

(** every callback of n succeeds *)
Definition succeeds (e : env) (n : name) : Prop := forall t cb, e_hw e t n cb = CbSuccess.

(** command-mode-switch calls of component n *)
Definition is_call (op : mode_op) (n : name) (ev : event) : bool :=
  match op, ev with
  | MPrepare, EvPrepare m _ _ _ => String.eqb m n
  | MPerform, EvPerform m _ _ _ => String.eqb m n
  | _, _ => false
  end.

(** the device accepts every mode switch *)
Definition answers_ok (e : env) (op : mode_op) (n : name) : Prop :=
  match op with
  | MPrepare => forall t s p, e_prepare e t n s p = Ret ROk
  | MPerform => forall t s p, e_perform e t n s p = Ret ROk
  end.

(** nothing stands in the way of the switch: every concerned component is configured, active if it
    gets interfaces to start (unless inactive hardware is allowed), and accepts *)
Definition switch_possible (e : env) (op : mode_op) (allow : bool) (r : rm) (start stop : list name) : Prop :=
  forall n h, find_hw r n = Some h -> h_kind h <> Sensor -> concerned h start stop ->
    configured (h_lc h) /\ (allow = true \/ h_lc h = Active \/ forall k, In k start -> ~ In k (h_cmd h)) /\ answers_ok e op n.
