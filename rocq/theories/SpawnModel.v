(** SpawnModel.v -- executable model of the spawner (controller_manager/controller_manager/spawner.py, the program a
    launch file starts to bring controllers up), running against the controller manager of CmModel while everything else
    goes on: the real-time loop, other clients, other spawners.

    What happens around the calls of the spawner is a script: what others do before a request is served, whether the
    service is there, how many requests were lost or answered too late, when SIGINT/SIGTERM arrives.
    Simplified: the parameters given to set_parameters are one answer (did it work); the file lock, the node, name
    spaces, the log and parsing the command line are left out. *)
From Coq Require Import String List Bool Arith.
From Verif Require Import Base Events HwModel RmModel CmModel.
Import ListNotations.
Open Scope list_scope.

(** one controller on the command line (parse_native_args / parse_args_advanced, spawner.py 76-217, 280-292): what its
    plugin and parameters make of it (as for [CLoad]), whether it can be loaded, whether its parameters can be set first,
    the order configure leaves (as for [CConfigure]), --load-only, --inactive *)
Record spec := { s_ctrl : ctrl; s_good : bool; s_params : bool; s_order : list name; s_load_only : bool; s_inactive : bool }.
Definition s_name (s : spec) : name := c_name (s_ctrl s).
(** the command line: --activate-as-group, --switch-asap, --unload-on-kill *)
Record line := { l_ctrls : list spec; l_group : bool; l_asap : bool; l_unload : bool }.

(** how one request ended: answered in time; no answer in time (lost before it was served, or served); SIGINT or SIGTERM
    while waiting (before it was served, or after) *)
Inductive fate := Replied | Late (served : bool) | Signal (served : bool).
(** around one request: what others do before it is served; if it is a switch, what happens while it waits and whether it is
    then evaluated or times out *)
Record try := { t_before : list cop; t_fate : fate; t_during : list cop; t_done : bool }.
(** around one service call: is there a server within the time limit; the requests made *)
Record call := { k_there : bool; k_tries : list try }.

(** what was done to the controller manager, newest first: by a request of the spawner, or by others; with the controllers
    the spawner had finished with *)
Inductive entry := Mine (fin : list name) (m : cm) (o : cop) (m' : cm) | Others (fin : list name) (m : cm) (o : cop) (m' : cm).
Record world := { w_cm : cm; w_log : list entry; w_fin : list name; w_script : list call }.

(** how a spawner ends: exit code 0 or 1, an exception nobody catches (also exit code 1, with a traceback); it waits for an
    answer; everything is up and it waits for the signal (--unload-on-kill) *)
Inductive ending := Exit0 | Exit1 | Raised | Waiting | Serving.
(** why a part of the program did not run to its end *)
Inductive stop := Ends (x : ending) | Interrupted.
Definition prog (A : Type) := world -> res (world * (A + stop)).
Definition ret {A} (a : A) : prog A := fun w => Val (w, inl a).
Definition quit {A} (s : stop) : prog A := fun w => Val (w, inr s).
Definition andthen {A B} (p : prog A) (f : A -> prog B) : prog B := fun w =>
  do (w1, r) <- p w; match r with inl a => f a w1 | inr s => Val (w1, inr s) end.

Section Spawn.
Variables (e : env) (allow : bool).

Definition step (mine : bool) (w : world) (o : cop) : res (world * cout) :=
  do (m', out) <- cstep e allow (w_cm w) o;
  Val ({| w_cm := m'; w_log := (if mine then Mine else Others) (w_fin w) (w_cm w) o m' :: w_log w;
          w_fin := w_fin w; w_script := w_script w |}, out).
Definition others_do (ops : list cop) (w : world) : res world :=
  rfold (fun w o => do (w', _) <- step false w o; Val w') ops w.
Definition ends_switch (o : cop) : bool := match o with CTimeout | CEvaluate => true | _ => false end.

(** the requests: list_controllers (is [n] among them), list_hardware_components (is [h] among them), load/configure/
    unload_controller and set_hardware_component_state, switch_controller *)
Inductive query := QLoaded (n : name) | QKnown (h : name) | QDo (o : cop) | QSwitch (act deact : list name) (asap : bool).

(** a request is served: controller_manager.cpp 1243-1860, 2840, and 1860-2445 for a switch, always STRICT, which waits for the real-time
    loop.  [None]: no answer yet, because a switch is pending *)
Definition serve (q : query) (t : try) (w : world) : res (world * option bool) :=
  match q with
  | QLoaded n => Val (w, match cm_pend (w_cm w) with Some _ => None
                         | None => Some (match find_ctrl (w_cm w) n with Some _ => true | None => false end) end)
  | QKnown h => Val (w, match cm_pend (w_cm w) with Some _ => None
                        | None => Some (match find_hw (cm_rm (w_cm w)) h with Some _ => true | None => false end) end)
  | QDo o => do (w1, out) <- step true w o; Val (w1, match out with CBool b => Some b | _ => None end)
  | QSwitch a d asap =>
      do (w1, out) <- step true w (CRequest a d true asap);
      match out with
      | CSw SwError => Val (w1, Some false)
      | CSw SwNothing => Val (w1, Some true)
      | CSw SwPending =>
          do w2 <- others_do (filter (fun o => negb (ends_switch o)) (t_during t)) w1;
          do (w3, out3) <- step true w2 (if t_done t then CEvaluate else CTimeout);
          Val (w3, match out3 with CBool b => Some b | _ => None end)
      | _ => Val (w1, None)
      end
  end.

(** service_caller, controller_manager_services.py 136-166: three attempts, each a new request; the answer of the first one
    that is answered in time.  Once the handler of the signal runs, signals are ignored ([deaf]). *)
Fixpoint attempts (deaf : bool) (q : query) (left : nat) (ts : list try) : prog bool := fun w =>
  match left, ts with
  | 0, _ => quit (Ends Raised) w
  | S _, [] => quit (Ends Waiting) w
  | S left', t :: ts' =>
      do w1 <- others_do (t_before t) w;
      match (if deaf then match t_fate t with Signal _ => Replied | f => f end else t_fate t) with
      | Replied => do (w2, b) <- serve q t w1;
                   match b with Some b => Val (w2, inl b) | None => Val (w2, inr (Ends Waiting)) end
      | Late served => do w2 <- (if served then do (x, _) <- serve q t w1; Val x else Val w1); attempts deaf q left' ts' w2
      | Signal served => do w2 <- (if served then do (x, _) <- serve q t w1; Val x else Val w1); Val (w2, inr Interrupted)
      end
  end.
(** Without a server: ServiceNotFoundError, caught around the main part only (spawner.py 641-643); switch_controllers has no
    time limit for the server (controller_manager_services.py 303-309) *)
Definition ask (deaf : bool) (q : query) : prog bool := fun w =>
  match w_script w with
  | [] => quit (Ends Waiting) w
  | k :: ks =>
      let w' := {| w_cm := w_cm w; w_log := w_log w; w_fin := w_fin w; w_script := ks |} in
      if k_there k then attempts deaf q 3 (k_tries k) w'
      else quit (Ends (match q with QSwitch _ _ _ => Waiting | _ => if deaf then Raised else Exit1 end)) w'
  end.

Definition need (p : prog bool) : prog unit := andthen p (fun b => if b then ret tt else quit (Ends Exit1)).
Definition finished (ns : list name) : prog unit := fun w =>
  Val ({| w_cm := w_cm w; w_log := w_log w; w_fin := ns ++ w_fin w; w_script := w_script w |}, inl tt).

(** one turn of the loop, spawner.py 452-549 *)
Definition get_loaded (s : spec) : prog unit :=
  andthen (ask false (QLoaded (s_name s))) (fun loaded =>
    if loaded then ret tt
    else if s_params s then need (ask false (QDo (CLoad (s_ctrl s) (s_good s)))) else quit (Ends Exit1)).
Definition turn (l : line) (s : spec) : prog unit :=
  andthen (get_loaded s) (fun _ =>
    if s_load_only s then finished [s_name s]
    else andthen (need (ask false (QDo (CConfigure (s_name s) (s_order s))))) (fun _ =>
      if s_inactive s then finished [s_name s]
      else if l_group l then ret tt
      else andthen (need (ask false (QSwitch [s_name s] [] (l_asap l)))) (fun _ => finished [s_name s]))).
Fixpoint turns (l : line) (ss : list spec) : prog unit :=
  match ss with [] => ret tt | s :: ss' => andthen (turn l s) (fun _ => turns l ss') end.
(** controllers_to_activate, spawner.py 451, 523 *)
Definition in_group (s : spec) : bool := negb (s_load_only s) && negb (s_inactive s).
(** the main part, spawner.py 451-575 *)
Definition main_part (l : line) : prog unit :=
  andthen (turns l (l_ctrls l)) (fun _ =>
    if l_group l then
      match map s_name (filter in_group (l_ctrls l)) with
      | [] => ret tt
      | ns => andthen (need (ask false (QSwitch ns [] (l_asap l)))) (fun _ => finished ns)
      end
    else ret tt).

(** unloading, spawner.py 616-632: goes on after a failure *)
Fixpoint unload_all (ns : list name) (ok : bool) : prog bool :=
  match ns with
  | [] => ret ok
  | n :: ns' => andthen (ask true (QDo (CUnload n))) (fun b => unload_all ns' (ok && b))
  end.
(** except KeyboardInterrupt, spawner.py 577-640 *)
Definition to_stop (l : line) : list name := map s_name (filter (fun s => negb (s_inactive s)) (l_ctrls l)).
Definition handler (l : line) : prog ending := fun w0 =>
  let w := {| w_cm := w_cm w0; w_log := w_log w0; w_fin := []; w_script := w_script w0 |} in
  (if l_unload l then
    match to_stop l with
    | [] => ret Exit0
    | ns => andthen (need (ask true (QSwitch [] ns (l_asap l)))) (fun _ =>
              andthen (unload_all ns true) (fun ok => ret (if ok then Exit0 else Exit1)))
    end
  else ret Exit0) w.

Definition ended (x : world * (ending + stop)) : world * ending :=
  (fst x, match snd x with inl y => y | inr (Ends y) => y | inr Interrupted => Waiting end).
(** main, spawner.py 321-655.  [killed]: a signal arrives after everything is up (only then does --unload-on-kill end) *)
Definition spawner (l : line) (killed : bool) (script : list call) (m : cm) : res (world * ending) :=
  do (w, r) <- main_part l {| w_cm := m; w_log := []; w_fin := []; w_script := script |};
  match r with
  | inl _ => if l_unload l then if killed then do x <- handler l w; Val (ended x) else Val (w, Serving)
             else Val (w, Exit0)
  | inr Interrupted => do x <- handler l w; Val (ended x)
  | inr (Ends x) => Val (w, x)
  end.
End Spawn.
