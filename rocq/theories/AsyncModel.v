(** AsyncModel.v -- asynchronous hardware components (is_async) and asynchronous controllers: the worker thread and the
    framework's threads interleaved.
    HCI = hardware_interface/src/hardware_component_interface.cpp: the worker's cycle 90-119, trigger_read 415-450,
    trigger_write 452-475, pause_async_operations 553-559, prepare_for_activation 570-576;
    HC = hardware_interface/src/hardware_component.cpp: configure ... error 82-245, command mode switch 309-321, read 351-384, write 386-423;
    RM = resource_manager.cpp: read 2399-2497, write 2500-2605 (what is done with the result);
    CIB = controller_interface/src/controller_interface_base.cpp: registered callbacks 110-168, trigger_update 328-377,
    wait_for_trigger_update_to_finish ... 418-438;
    CM = controller_manager/src/controller_manager.cpp: switch_controller 2348-2375, deactivate_controllers 2535-2593, update 3420-3445.

    A step is one access to shared memory, or the begin or end of one call of user code.
    realtime_tools::AsyncFunctionHandler is not part of the repository; assumed, for its "synchronized" policy: a trigger is
    accepted only when no cycle runs and then makes the worker run the callback once; pause_execution and
    wait_for_trigger_cycle_to_finish return when no cycle runs; stop_thread likewise.
    Simplifications: sequentially consistent memory; user code run by the worker returns (an exception there is stored by the
    handler and not modelled); the "detached" policy, execution times and the status publisher are left out.  The framework's
    calls on one component are serialized by the component's mutex (HC 82 ff., RM 2415, 2516), so they are one thread here. *)
From Coq Require Import List Bool.
From Verif Require Import Base Events.
Import ListNotations.

(** ---------------------------------------------------------------- hardware components *)
(** what the worker calls, and the life-cycle callbacks *)
Inductive io := Read | Write.
Inductive kcb := KConfigure | KCleanup | KShutdown | KActivate | KDeactivate | KError.

(** the order of calls, newest first.  Begins carry the life-cycle state at that moment; an answer is what the component's
    read() or write() returns to the resource manager; [acc] tells whether a new cycle of the worker was started *)
Inductive ev :=
| IoBegin (c : io) (l : lc) | IoEnd (c : io) (r : rtype)
| CbBegin (k : kcb) (l : lc) | CbEnd (k : kcb) (r : cbret)
| ModeBegin | ModeEnd
| ReadAns (acc : bool) (r : rtype) | WriteAns (r : rtype).

(** the worker: no cycle; triggered; inside read(); its result not yet stored; stored and to be continued; inside write(); ... *)
Inductive worker := WIdle | WStarted | WInRead | WGotRead (r : rtype) | WStored | WInWrite | WGotWrite (r : rtype).
(** the framework's thread: nothing; inside trigger_read after loading the stored result; wants to run a callback and waits in
    pause_async_operations; inside a callback; inside prepare/perform_command_mode_switch *)
Inductive mgr := MRest | MLoaded (r : rtype) | MPausing (k : kcb) | MIn (k : kcb) | MInMode.

Record hst := { st_lc : lc; st_sensor : bool; st_r : rtype; st_w : rtype; st_wk : worker; st_mg : mgr; st_log : list ev }.
Definition mk (s : hst) (l : lc) (r w : rtype) (k : worker) (m : mgr) (e : list ev) : hst :=
  {| st_lc := l; st_sensor := st_sensor s; st_r := r; st_w := w; st_wk := k; st_mg := m; st_log := e |}.
Definition go_wk (s : hst) (k : worker) (e : list ev) : hst := mk s (st_lc s) (st_r s) (st_w s) k (st_mg s) (e ++ st_log s).
Definition go_mg (s : hst) (m : mgr) (e : list ev) : hst := mk s (st_lc s) (st_r s) (st_w s) (st_wk s) m (e ++ st_log s).

(** HC: the states a callback is called from *)
Definition enabled (k : kcb) (l : lc) : bool :=
  match k, l with
  | KConfigure, Unconfigured | KCleanup, Inactive | KActivate, Inactive | KDeactivate, Active => true
  | KShutdown, (Unconfigured | Inactive | Active) | KError, (Inactive | Active | Finalized) => true
  | _, _ => false end.
(** where a callback leads: the new state, or error() is called *)
Inductive next := To (l : lc) | ToError | Stay.
Definition result (k : kcb) (r : cbret) : next :=
  match r, k with
  | CbThrow, _ => Stay
  | CbSuccess, KConfigure => To Inactive | CbSuccess, KCleanup => To Unconfigured | CbSuccess, KShutdown => To Finalized
  | CbSuccess, KActivate => To Active | CbSuccess, KDeactivate => To Inactive | CbSuccess, KError => To Unconfigured
  | _, KError => To Finalized
  | CbFailure, KConfigure => To Unconfigured | CbFailure, KActivate => To Inactive | CbFailure, KDeactivate => To Active
  | _, _ => ToError end.

Inductive act :=
| AWork (r : rtype)              (* the worker's next step; r is what user code returns, if it returns in this step *)
| AReadLoad                      (* HCI 422: trigger_read loads the stored result *)
| ATrigger (free : bool)         (* HCI 428: trigger_async_callback; it try-locks *)
| AWriteAns                      (* HCI 465: trigger_write *)
| AOp (k : kcb)                  (* somebody asks for a transition *)
| APaused                        (* pause_async_operations returns, the callback begins *)
| AReturn (r : cbret)            (* the callback returns *)
| AModeBegin | AModeEnd.         (* prepare/perform_command_mode_switch, HC 309-321: no pause *)

Definition busy (k : worker) : bool := match k with WIdle => false | _ => true end.
Definition isok (r : rtype) : bool := match r with ROk => true | _ => false end.

(** HCI 90-119 *)
Definition work (s : hst) (r : rtype) : hst :=
  match st_wk s with
  | WIdle => s
  | WStarted => go_wk s WInRead [IoBegin Read (st_lc s)]
  | WInRead => go_wk s (WGotRead r) [IoEnd Read r]
  | WGotRead q => mk s (st_lc s) q (st_w s) (if isok q then WStored else WIdle) (st_mg s) (st_log s)
  | WStored => if (negb (st_sensor s) && lc_eqb (st_lc s) Active)%bool then go_wk s WInWrite [IoBegin Write (st_lc s)] else go_wk s WIdle []
  | WInWrite => go_wk s (WGotWrite r) [IoEnd Write r]
  | WGotWrite q => mk s (st_lc s) (st_r s) q WIdle (st_mg s) (st_log s) end.

Definition hstep (s : hst) (a : act) : hst :=
  match a with
  | AWork r => work s r
  | AReadLoad => match st_mg s, st_lc s with MRest, (Inactive | Active) => go_mg s (MLoaded (st_r s)) [] | _, _ => s end   (* HC 353-362 *)
  | ATrigger free =>
      match st_mg s with
      | MLoaded r =>
          if (free && negb (busy (st_wk s)))%bool
          then mk s (st_lc s) (st_r s) (st_w s) WStarted (if isok r then MRest else MPausing KError) (ReadAns true r :: st_log s)   (* HC 363-366, RM 2482-2488 *)
          else go_mg s MRest [ReadAns false ROk]                                                                           (* HCI 430-438 *)
      | _ => s end
  | AWriteAns =>
      match st_mg s, st_lc s with
      | MRest, Active =>
          if st_sensor s then s
          else go_mg s (match st_w s with ROk => MRest | RError => MPausing KError | RDeactivate => MPausing KDeactivate end) [WriteAns (st_w s)]  (* RM 2581-2601 *)
      | _, _ => s end
  | AOp k => match st_mg s with MRest => if enabled k (st_lc s) then go_mg s (MPausing k) [] else s | _ => s end
  | APaused =>
      match st_mg s with
      | MPausing k =>
          if busy (st_wk s) then s
          else let '(r, w) := match k with KActivate => (ROk, ROk) | _ => (st_r s, st_w s) end in      (* HC 171-172 *)
               mk s (st_lc s) r w (st_wk s) (MIn k) (CbBegin k (st_lc s) :: st_log s)
      | _ => s end
  | AReturn r =>
      match st_mg s with
      | MIn k =>
          let e := CbEnd k r :: st_log s in
          match result k r with
          | Stay => mk s (st_lc s) (st_r s) (st_w s) (st_wk s) MRest e
          | To l => mk s l (st_r s) (st_w s) (st_wk s) MRest e
          | ToError => mk s (st_lc s) (st_r s) (st_w s) (st_wk s) (if enabled KError (st_lc s) then MPausing KError else MRest) e end
      | _ => s end
  | AModeBegin => match st_mg s, st_lc s with MRest, (Inactive | Active) => go_mg s MInMode [ModeBegin] | _, _ => s end
  | AModeEnd => match st_mg s with MInMode => go_mg s MRest [ModeEnd] | _ => s end
  end.
(** after init (HC 57-80): UNCONFIGURED, nothing stored (HCI 39-42) *)
Definition hstart (sensor : bool) : hst :=
  {| st_lc := Unconfigured; st_sensor := sensor; st_r := ROk; st_w := ROk; st_wk := WIdle; st_mg := MRest; st_log := [] |}.
Definition hrun (s : hst) (l : list act) : hst := fold_left hstep l s.

(** ---------------------------------------------------------------- controllers *)
Inductive cev := UBegin | UEnd | DBegin | DEnd (ok : bool) | Activated | Skipped | Missed | Rejected.
(** the real-time loop: between two controllers; inside trigger_update after loading skip_async_triggers_; inside on_deactivate
    ([switch]: because of a request).  The service thread: nothing; has set the flag and waits; has been through prepare_for_deactivation; waits for the loop *)
Inductive loop := LRest | LPassed | LDeact (switch : bool).
Inductive serv := SRest | SWaits | SPrepared | SRequested.
Record cst := { ct_active : bool; ct_skip : bool; ct_run : bool; ct_lp : loop; ct_sv : serv; ct_log : list cev }.
Inductive cact :=
| CWork                       (* the worker's update() ends *)
| CLoad                       (* CIB 335: trigger_update loads skip_async_triggers_ *)
| CTrigger (free : bool)      (* CIB 343 *)
| CPrepare                    (* CIB 428: the service sets the flag (CM 2348-2358) *)
| CWaited                     (* CIB 429: no cycle runs *)
| CReject                     (* CM 2360-2375: prepare_command_mode_switch failed, the request is given up *)
| CRequest                    (* CM: do_switch is set *)
| CSwitch                     (* the loop, manage_switch: on_deactivate begins *)
| CFail                       (* the loop deactivates the controller because of an error (hardware or controller): no preparation *)
| CDone (ok : bool)           (* on_deactivate returns *)
| CActivate.                  (* CIB 128-141: the flag is cleared, on_activate succeeds *)
Definition cmk (a k r : bool) (l : loop) (v : serv) (e : list cev) : cst :=
  {| ct_active := a; ct_skip := k; ct_run := r; ct_lp := l; ct_sv := v; ct_log := e |}.
Definition cstep (s : cst) (x : cact) : cst :=
  let '(a, k, r, l, v, e) := (ct_active s, ct_skip s, ct_run s, ct_lp s, ct_sv s, ct_log s) in
  match x with
  | CWork => if r then cmk a k false l v (UEnd :: e) else s
  | CLoad => match l, v with
             | LRest, SRequested => s                        (* CM 3429-3437: skipped while it is being switched *)
             | LRest, _ => if a then if k then cmk a k r l v (Skipped :: e) else cmk a k r LPassed v e else s
             | _, _ => s end
  | CTrigger free => match l with
             | LPassed => if (free && negb r)%bool then cmk a k true LRest v (UBegin :: e) else cmk a k r LRest v (Missed :: e)
             | _ => s end
  | CPrepare => match v with SRest => if a then cmk a true r l SWaits e else s | _ => s end
  | CWaited => match v with SWaits => if r then s else cmk a k r l SPrepared e | _ => s end
  | CReject => match v with SPrepared => cmk a k r l SRest (Rejected :: e) | _ => s end
  | CRequest => match v with SPrepared => cmk a k r l SRequested e | _ => s end
  | CSwitch => match l, v with LRest, SRequested => if a then cmk a k r (LDeact true) v (DBegin :: e) else cmk a k r l SRest e | _, _ => s end
  | CFail => match l with LRest => if a then cmk a k r (LDeact false) v (DBegin :: e) else s | _ => s end
  | CDone ok => match l with LDeact sw => cmk (negb ok) k r LRest (if sw then SRest else v) (DEnd ok :: e) | _ => s end   (* then do_switch is cleared *)
  | CActivate => match l with LRest => if a then s else cmk true false r l v (Activated :: e) | _ => s end
  end.
Definition cstart : cst := cmk false false false LRest SRest [].
Definition crun (s : cst) (l : list cact) : cst := fold_left cstep l s.
