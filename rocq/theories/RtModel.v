(** RtModel.v -- the two threads of the controller manager as a small-step machine.

    The real-time thread runs read/update/write cycles; the service side runs one call at a time (all service
    callbacks hold services_lock_, controller_manager.cpp:2846-3240, and every modification of the list happens
    under controllers_lock_, lines 1420, 1774, 2037, 2452).  A step is one shared-memory access of one thread; a run
    is any list of steps, so every interleaving is covered.
    Simplifications: sequentially consistent memory (the two indices are plain ints in the code, lines
    660-662 of controller_manager.hpp); [rclcpp::ok()] is always true; a request vector is read or written in
    one step; the controllers in a request are names, what (de)activation does to them is CmModel.v;
    deactivation by the real-time thread after hardware or update errors is not part of this machine. *)
From Coq Require Import List Bool String Arith.
Import ListNotations.
From Verif Require Import Base.
Open Scope list_scope.

(** SwitchParams, controller_manager.hpp:727-765: the request vectors and options. *)
Record req := Req { r_act : list name; r_deact : list name; r_to : list name; r_from : list name;
  r_aitf : list name; r_ditf : list name; r_strict : bool; r_asap : bool }.
Definition no_req : req := Req [] [] [] [] [] [] false false.
(** SwitchParams::skip_cycle, controller_manager.hpp:747-754. *)
Definition skips (q : req) (c : name) : bool :=
  mem c (r_act q) || mem c (r_deact q) || mem c (r_to q) || mem c (r_from q).

Inductive tid := TRt | TSv.
Inductive ret := ROk | RTimeout | RRejected.
(** What can be observed. *)
Inductive ev :=
| EPublish (v : list name)                     (* switch_updated_list makes the list with content v current *)
| EBegin (v : list name)                       (* update_and_get_used_by_rt_list returns a list with content v *)
| ERead (v0 v : list name)                     (* the list obtained with content v0 is read and has content v *)
| EUpd (c : name) | EUpdEnd (c : name)         (* trigger_update of controller c begins / ends *)
| EPost (r : req)                              (* an accepted switch request is handed over *)
| EPerf (t : tid) (a d : list name) (ok : bool) (* perform_command_mode_switch *)
| EDeact (t : tid) (l : list name) | ETo (t : tid) (l : list name) | EFrom (t : tid) (l : list name)
| EAct (t : tid) (l : list name) (strict : bool)
| ESwitched (t : tid)                          (* do_switch is reset by manage_switch *)
| ERet (r : ret).                              (* the switch call returns *)

(** A reference to one of the two lists, with the content it had when it was obtained (ghost). *)
Definition sess := (bool * list name)%type.
(** manage_switch, controller_manager.cpp:3320-3369; switch_chained_mode obtains the list again (2598-2599). *)
Inductive mpc :=
| MPerf | MLoad | MStore (i : bool) | MDeact (x : sess)
| MLoadT (x : sess) | MStoreT (x : sess) (i : bool) | MTo (x y : sess)
| MLoadF (x : sess) | MStoreF (x : sess) (i : bool) | MFrom (x y : sess)
| MAct (x : sess) | MDone | MUnlock.
(** the real-time thread: update 3380-3600, the error paths of read 3305-3312 and write 3630-3640, 3676-3684. *)
Inductive rpc :=
| RIdle | RLd (upd : bool) (i : bool) | RPl (x : sess)
| RLp (x : sess) (j : nat) | RChk (x : sess) (j : nat) (c : name) | RSkp (x : sess) (j : nat) (c : name)
| RUpd (x : sess) (j : nat) (c : name)
| RTa (x : sess) | RRdy (x : sess) | RLk (x : sess) | RMan (k : mpc).
(** the service side; the flag of the list steps says whether they belong to a switch call (2428-2440) or to
    load/configure/unload (1421-1477, 1775-1832, 2454-2530). *)
Inductive spc :=
| SIdle
| SGet (k : bool) | SMod (k : bool) | SWait (k former : bool) | SGet2 (k : bool) | SClearL (k : bool)
| SFill | SSetAsap | SSetReady | SSetDo
| SLock | SCheck (timedout : bool) | SWaiting | SRelock (timedout : bool)
| SSpin | STry | SMan (k : mpc)
| SClr1 (r : ret) | SClr2 (r : ret) | SClr3 (r : ret) | SClr4 (r : ret).

Record st := St { l0 : list name; l1 : list name; upd : bool; used : option bool;
  do_switch : bool; ready : bool; asap : bool; q : req; mtx : option tid;
  rt : rpc; sv : spc; log : list ev }.
(** controller_manager.hpp:658-662, 738-746. *)
Definition start : st := St [] [] false None false false false no_req None RIdle SIdle [].

Definition lst (s : st) (i : bool) : list name := if i then l1 s else l0 s.
Definition set_rt s p := St (l0 s) (l1 s) (upd s) (used s) (do_switch s) (ready s) (asap s) (q s) (mtx s) p (sv s) (log s).
Definition set_sv s p := St (l0 s) (l1 s) (upd s) (used s) (do_switch s) (ready s) (asap s) (q s) (mtx s) (rt s) p (log s).
Definition emit s e := St (l0 s) (l1 s) (upd s) (used s) (do_switch s) (ready s) (asap s) (q s) (mtx s) (rt s) (sv s) (e :: log s).
Definition set_lst s (i : bool) v :=
  St (if i then l0 s else v) (if i then v else l1 s) (upd s) (used s) (do_switch s) (ready s) (asap s) (q s) (mtx s) (rt s) (sv s) (log s).
Definition set_upd s b := St (l0 s) (l1 s) b (used s) (do_switch s) (ready s) (asap s) (q s) (mtx s) (rt s) (sv s) (log s).
Definition set_used s u := St (l0 s) (l1 s) (upd s) u (do_switch s) (ready s) (asap s) (q s) (mtx s) (rt s) (sv s) (log s).
Definition set_do s b := St (l0 s) (l1 s) (upd s) (used s) b (ready s) (asap s) (q s) (mtx s) (rt s) (sv s) (log s).
Definition set_ready s b := St (l0 s) (l1 s) (upd s) (used s) (do_switch s) b (asap s) (q s) (mtx s) (rt s) (sv s) (log s).
Definition set_asap s b := St (l0 s) (l1 s) (upd s) (used s) (do_switch s) (ready s) b (q s) (mtx s) (rt s) (sv s) (log s).
Definition set_q s r := St (l0 s) (l1 s) (upd s) (used s) (do_switch s) (ready s) (asap s) r (mtx s) (rt s) (sv s) (log s).
Definition set_mtx s o := St (l0 s) (l1 s) (upd s) (used s) (do_switch s) (ready s) (asap s) (q s) o (rt s) (sv s) (log s).

(** reading a list obtained before *)
Definition look s (x : sess) := emit s (ERead (snd x) (lst s (fst x))).
(** the second half of update_and_get_used_by_rt_list (3721-3725): store the index, return the list *)
Definition take s (i : bool) : st * sess :=
  let s := set_used s (Some i) in (emit s (EBegin (lst s i)), (i, lst s i)).
Definition nonempty (l : list name) := match l with [] => false | _ => true end.

(** manage_switch after the mutex was taken (3328-3369), executed by thread [t]; [b] is the result of
    perform_command_mode_switch.  [None]: returned. *)
Definition mstep (t : tid) (k : mpc) (b : bool) (s : st) : st * option mpc :=
  match k with
  | MPerf => (emit s (EPerf t (r_aitf (q s)) (r_ditf (q s)) b), Some (if b then MLoad else MDone))
  | MLoad => (s, Some (MStore (upd s)))
  | MStore i => let '(s, x) := take s i in (s, Some (MDeact x))
  | MDeact x => let s := if nonempty (r_deact (q s)) then look s x else s in
                (emit s (EDeact t (r_deact (q s))), Some (MLoadT x))
  | MLoadT x => (s, Some (MStoreT x (upd s)))
  | MStoreT x i => let '(s, y) := take s i in (s, Some (MTo x y))
  | MTo x y => let s := if nonempty (r_to (q s)) then look s y else s in
               (emit s (ETo t (r_to (q s))), Some (MLoadF x))
  | MLoadF x => (s, Some (MStoreF x (upd s)))
  | MStoreF x i => let '(s, y) := take s i in (s, Some (MFrom x y))
  | MFrom x y => let s := if nonempty (r_from (q s)) then look s y else s in
                 (emit s (EFrom t (r_from (q s))), Some (MAct x))
  | MAct x => let s := if nonempty (r_act (q s)) then look s x else s in
              (emit s (EAct t (r_act (q s)) (r_strict (q s))), Some MDone)
  | MDone => (emit (set_do s false) (ESwitched t), Some MUnlock)
  | MUnlock => (set_mtx s None, None)
  end.

(** One step of the real-time thread; [b] is the choice the environment makes. *)
Definition rstep (b : bool) (s : st) : st :=
  match rt s with
  | RIdle => set_rt s (RLd b (upd s))                                        (* 3723, load; b: update or read/write *)
  | RLd u i => let '(s, x) := take s i in set_rt s (if u then RLp x 0 else RPl x)  (* 3723-3724 *)
  | RPl x => if b then look s x else set_rt s RIdle                          (* 3305-3316, 3630-3690 *)
  | RLp x j =>                                                               (* 3416-3420 *)
      let s := look s x in
      match nth_error (lst s (fst x)) j with
      | Some c => if do_switch s then set_rt s (RChk x j c) else set_rt (emit s (EUpd c)) (RUpd x j c)
      | None => if do_switch s then set_rt s (RTa x) else set_rt s RIdle       (* 3584 *)
      end
  | RChk x j c => if asap s then set_rt (emit s (EUpd c)) (RUpd x j c) else set_rt s (RSkp x j c)   (* 3419 *)
  | RSkp x j c => if skips (q s) c then set_rt s (RLp x (S j))                (* 3420 *)
                  else set_rt (emit s (EUpd c)) (RUpd x j c)
  | RUpd x j c => set_rt (emit s (EUpdEnd c)) (RLp x (S j))                   (* 3471-3500 *)
  | RTa x => if asap s then set_rt s (RLk x) else set_rt s (RRdy x)           (* 3586-3593 *)
  | RRdy x => set_rt (set_ready s true) RIdle                                 (* 3593 *)
  | RLk x => match mtx s with                                                 (* 3322-3327 *)
             | None => set_rt (set_mtx s (Some TRt)) (RMan MPerf) | Some _ => set_rt s RIdle end
  | RMan k => let '(s, k) := mstep TRt k b s in
              match k with Some k => set_rt s (RMan k) | None => set_rt s RIdle end
  end.

(** Inputs of the service side. *)
Inductive inp := IGo | IYes | INo | IList | ISwitch | IWrite (v : list name) | IReq (r : req).
Definition busy (s : st) (i : bool) : bool := match used s with Some u => Bool.eqb u i | None => false end.
(** One step of the service side; [None]: the thread is blocked, or the input makes no sense here. *)
Definition sstep (x : inp) (s : st) : option st :=
  match sv s, x with
  | SIdle, IList => Some (set_sv s (SGet false))
  | SIdle, ISwitch => Some (set_sv s SFill)
  (* get_unused_list, 3727-3741, 3783-3793 *)
  | SGet k, IGo => if busy s (negb (upd s)) then None else Some (set_sv s (SMod k))
  | SMod k, IWrite v => Some (set_lst s (negb (upd s)) v)
  (* switch_updated_list, 3754-3770 *)
  | SMod k, IGo => let f := upd s in
      Some (set_sv (emit (set_upd s (negb f)) (EPublish (lst s (negb f)))) (SWait k f))
  | SWait k f, IGo => if busy s f then None else Some (set_sv s (SGet2 k))
  | SGet2 k, IGo => if busy s (negb (upd s)) then None else Some (set_sv s (SClearL k))
  (* the outdated list is cleared, 1474-1477, 1832, 2440, 2527-2530; then clear_requests, 2442 *)
  | SClearL k, IGo => Some (set_sv (set_lst s (negb (upd s)) []) (if k then SClr1 ROk else SIdle))
  (* the request vectors are computed, 1866-2352; prepare_command_mode_switch may reject them, 2354-2370 *)
  | SFill, IReq r => Some (set_q s r)
  | SFill, INo => Some (set_sv s (SClr1 RRejected))
  | SFill, IYes => Some (set_sv s SSetAsap)
  | SSetAsap, IGo => Some (set_sv (set_asap s (r_asap (q s))) SSetReady)                 (* 2374 *)
  | SSetReady, IGo => Some (set_sv (set_ready s false) SSetDo)                           (* 2384 *)
  | SSetDo, IGo => Some (set_sv (emit (set_do s true) (EPost (q s))) (if r_asap (q s) then SLock else SSpin)) (* 2385-2387 *)
  (* cv.wait_for with predicate, 2390-2402 *)
  | SLock, IGo => match mtx s with None => Some (set_sv (set_mtx s (Some TSv)) (SCheck false)) | Some _ => None end
  | SCheck to, IGo => if do_switch s then (if to then Some (set_sv s (SClr1 RTimeout))
                                           else Some (set_sv (set_mtx s None) SWaiting))
                      else Some (set_sv (set_mtx s None) (SGet true))
  | SWaiting, IYes => Some (set_sv s (SRelock false))                                    (* notified or spurious *)
  | SWaiting, INo => Some (set_sv s (SRelock true))                                      (* timeout *)
  | SRelock to, IGo => match mtx s with None => Some (set_sv (set_mtx s (Some TSv)) (SCheck to)) | Some _ => None end
  (* not as soon as possible, 2404-2425 *)
  | SSpin, IGo => if ready s then Some (set_sv s STry) else Some s
  | SSpin, INo => Some (set_sv s (SClr1 RTimeout))
  | STry, IGo => match mtx s with
                 | None => Some (set_sv (set_mtx s (Some TSv)) (SMan MPerf)) | Some _ => Some (set_sv s (SGet true)) end
  | SMan k, (IYes | INo | IGo) =>
      let '(s, k) := mstep TSv k (match x with INo => false | _ => true end) s in
      Some (match k with Some k => set_sv s (SMan k) | None => set_sv s (SGet true) end)
  (* clear_requests, 1837-1848; returning releases the mutex of the asap branch *)
  | SClr1 r, IGo => Some (set_sv (set_do s false) (SClr2 r))
  | SClr2 r, IGo => Some (set_sv (set_ready s false) (SClr3 r))
  | SClr3 r, IGo => Some (set_sv (set_asap s false) (SClr4 r))
  | SClr4 r, IGo => let s := set_q s no_req in
      let s := match mtx s with Some TSv => set_mtx s None | _ => s end in
      Some (set_sv (emit s (ERet r)) SIdle)
  | _, _ => None
  end.

Inductive act := ARt (b : bool) | ASv (x : inp).
Definition step (s : st) (a : act) : option st :=
  match a with ARt b => Some (rstep b s) | ASv x => sstep x s end.
Fixpoint run (s : st) (l : list act) : option st :=
  match l with [] => Some s | a :: l => match step s a with Some s => run s l | None => None end end.
