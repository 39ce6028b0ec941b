(** LcidModel.v -- the cached life-cycle id of controllers and hardware components, with concurrent
    callers.
    Models /repo/controller_interface/src/controller_interface_base.cpp (CIB): the cache
    lifecycle_id_ (34), its stores in init (79), in the registered callbacks (110-165) and in
    configure (184, 282), get_lifecycle_id (310-326); and
    /repo/hardware_interface/src/hardware_component_interface.cpp: set_lifecycle_state 493-497,
    get_lifecycle_id 499-502.

    A step is one access to shared memory of one thread.  The life-cycle node is rclcpp_lifecycle's
    documented state machine; its transitions are triggered by one thread at a time (the
    controller manager's locks), get_lifecycle_id by any number of threads.
    Simplification: sequentially consistent memory; a callback's
    "store(get_lifecycle_state().id())" is one step, because only the thread that runs the
    transition changes the node's state. *)
From Coq Require Import List Bool Arith.
Import ListNotations.

Inductive prim := PUnconfigured | PInactive | PActive | PFinalized.
Inductive tran := TConfiguring | TCleaningUp | TActivating | TDeactivating | TShuttingDown
                | TErrorProcessing.
Inductive lcid := P (p : prim) | T (t : tran).

(** Which transitions the node accepts in a primary state. *)
Definition accepts (p : prim) (t : tran) : bool :=
  match p, t with
  | PUnconfigured, TConfiguring | PInactive, TCleaningUp | PInactive, TActivating
  | PActive, TDeactivating | PUnconfigured, TShuttingDown | PInactive, TShuttingDown
  | PActive, TShuttingDown => true
  | _, _ => false
  end.

Inductive cb := Success | Failure | Error.
(** Where a transition ends. *)
Definition target (t : tran) (r : cb) : lcid :=
  match r, t with
  | Error, TErrorProcessing => P PFinalized
  | Error, _ => T TErrorProcessing
  | Success, TConfiguring => P PInactive
  | Success, TCleaningUp => P PUnconfigured
  | Success, TActivating => P PActive
  | Success, TDeactivating => P PInactive
  | Success, TShuttingDown => P PFinalized
  | Success, TErrorProcessing => P PUnconfigured
  | Failure, TConfiguring => P PUnconfigured
  | Failure, TCleaningUp => P PInactive
  | Failure, TActivating => P PInactive
  | Failure, TDeactivating => P PActive
  | Failure, TShuttingDown => P PFinalized
  | Failure, TErrorProcessing => P PFinalized
  end.

(** A thread inside get_lifecycle_id: before the call, after the load of a transition id (312-319),
    after get_lifecycle_state (321). *)
Inductive rstate := Out | Loaded | Got (v : lcid).

Record st := {
  node : lcid;                       (* get_lifecycle_state().id() *)
  called : bool;                     (* the callback of the running transition has been entered *)
  cache : lcid;                      (* lifecycle_id_ *)
  reader : nat -> rstate;
  fresh : nat -> bool;               (* ghost: the node has not moved since this call began *)
  past : list lcid;                  (* ghost: states the node has been in *)
  returns : list (nat * lcid * lcid * bool)  (* ghost: thread, returned id, node's state, fresh *)
}.

Inductive action :=
| ABegin (t : tran) | ACallback | AEnd (r : cb)   (* the thread that runs transitions *)
| AStore                                          (* configure's stores, CIB 184 and 282 *)
| ALoad (i : nat) | ARead (i : nat) | AStoreBack (i : nat).

Definition upd {A} (f : nat -> A) (i : nat) (x : A) : nat -> A := fun j => if Nat.eqb j i then x else f j.

Definition move (s : st) (n : lcid) (c : bool) : st :=
  {| node := n; called := c; cache := cache s; reader := reader s; fresh := fun _ => false;
     past := n :: past s; returns := returns s |}.
Definition put (s : st) (v : lcid) (c : bool) : st :=
  {| node := node s; called := c; cache := v; reader := reader s; fresh := fresh s;
     past := past s; returns := returns s |}.
Definition reads (s : st) (i : nat) (r : rstate) : st :=
  {| node := node s; called := called s; cache := cache s; reader := upd (reader s) i r;
     fresh := fresh s; past := past s; returns := returns s |}.
Definition begins (s : st) (i : nat) : st :=
  {| node := node s; called := called s; cache := cache s; reader := reader s;
     fresh := upd (fresh s) i true; past := past s; returns := returns s |}.
Definition gives (s : st) (i : nat) (v : lcid) : st :=
  {| node := node s; called := called s; cache := cache s; reader := upd (reader s) i Out;
     fresh := fresh s; past := past s; returns := (i, v, node s, fresh s i) :: returns s |}.

Definition is_tran (v : lcid) : bool := match v with T _ => true | P _ => false end.

(** One step; an action that is not enabled does nothing. *)
Definition step (s : st) (a : action) : st :=
  match a with
  | ABegin t => match node s with
                | P p => if accepts p t then move s (T t) false else s
                | T _ => s
                end
  | ACallback => match node s with                                       (* CIB 110-165 *)
                 | T _ => if called s then s else put s (node s) true
                 | P _ => s
                 end
  | AEnd r => match node s with
              | T t => if called s then move s (target t r) false else s
              | P _ => s
              end
  | AStore => match node s with P _ => put s (node s) (called s) | T _ => s end
  | ALoad i => match reader s i with                                     (* CIB 312-319, 325 *)
               | Out => let s1 := begins s i in
                        if is_tran (cache s) then reads s1 i Loaded else gives s1 i (cache s)
               | _ => s
               end
  | ARead i => match reader s i with Loaded => reads s i (Got (node s)) | _ => s end   (* 321 *)
  | AStoreBack i => match reader s i with                                (* 322-323 *)
                    | Got v => gives (put s v (called s)) i v
                    | _ => s
                    end
  end.

Definition run (s : st) (l : list action) : st := fold_left step l s.

(** After init (CIB 79): UNCONFIGURED, cached. *)
Definition initial : st :=
  {| node := P PUnconfigured; called := false; cache := P PUnconfigured; reader := fun _ => Out;
     fresh := fun _ => false; past := [P PUnconfigured]; returns := [] |}.

(** ---- hardware components: the state is written first, then the cache; readers only load. *)
Record hst := { h_state : lcid; h_cache : lcid; h_returns : list (lcid * lcid * bool) }.
Inductive haction := HSetState (v : lcid) | HSetCache | HGet.
(** [HSetCache] stores the id of the state set last (same call, same thread); the third component
    of a return says whether a set_lifecycle_state was under way. *)
Definition hstep (s : hst * bool) (a : haction) : hst * bool :=
  let '(x, busy) := s in
  match a with
  | HSetState v => if busy then s else
      ({| h_state := v; h_cache := h_cache x; h_returns := h_returns x |}, true)
  | HSetCache => if busy then
      ({| h_state := h_state x; h_cache := h_state x; h_returns := h_returns x |}, false) else s
  | HGet => ({| h_state := h_state x; h_cache := h_cache x;
                h_returns := (h_cache x, h_state x, busy) :: h_returns x |}, busy)
  end.
Definition hrun (s : hst * bool) (l : list haction) : hst * bool := fold_left hstep l s.
