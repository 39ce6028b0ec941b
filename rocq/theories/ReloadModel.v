(** ReloadModel.v -- model of the reload_controller_libraries service, CM 3005-3085.

    The service holds services_lock_ throughout, so no other service runs; the real-time loop (read, update with
    manage_switch, write) does.  [rt] lists what the real-time loop does at each point where the service lets it run: first
    while the switch is waited for, then after each unload.  Simplifications: the two scans of the controller list (CM
    3014-3028) are one step (the real-time loop neither loads nor unloads); the plugin loaders that are recreated at the
    end (CM 3072-3080) are not modelled; a call made while another service is running waits for it and is not modelled. *)
From Verif Require Import Base Events HwModel RmModel CmModel.
Open Scope list_scope.

Definition rt_op (o : cop) : bool := match o with CRead | CUpdate | CWrite | CPerform => true | _ => false end.
Definition rt_run (e : env) (allow : bool) (m : cm) (ops : list cop) : res cm := crun e allow m (filter rt_op ops).

(** switch_controller({}, active, BEST_EFFORT) as called by the service (CM 3046-3050; default activate_asap = false):
    validation, waiting for the real-time loop (CM 2376-2430), answer. *)
Definition stop_all (e : env) (allow : bool) (m : cm) (active : list name) (rt : list cop) : res (cm * bool) :=
  do (m1, o) <- cstep e allow m (CRequest [] active false false);
  match o with
  | CSw SwNothing => Val (m1, true)
  | CSw SwPending =>
      do m2 <- rt_run e allow m1 rt;
      match cm_pend m2 with
      | Some p =>
          if p_done p then
            do (m3, o3) <- cstep e allow m2 CEvaluate;
            Val (m3, match o3 with CBool b => b | _ => false end)
          else do (m3, _) <- cstep e allow m2 CTimeout; Val (m3, false)
      | None => Val (m2, false)
      end
  | _ => Val (m1, false)
  end.
(** the loop over the loaded controllers, CM 3059-3069 *)
Fixpoint unload_all (e : env) (allow : bool) (m : cm) (ns : list name) (rt : list (list cop)) : res (cm * bool) :=
  match ns with
  | [] => Val (m, true)
  | n :: ns' =>
      do (m1, o) <- cstep e allow m (CUnload n);
      match o with
      | CBool true => do m2 <- rt_run e allow m1 (hd [] rt); unload_all e allow m2 ns' (tl rt)
      | _ => Val (m1, false)
      end
  end.
(** reload_controller_libraries_service_cb; the answer is response->ok *)
Definition active_names (m : cm) : list name := map c_name (filter (is_lc Active) (cm_ctrls m)).
Definition reload (e : env) (allow : bool) (m : cm) (force : bool) (rt : list (list cop)) : res (cm * bool) :=
  match active_names m, force with
  | _ :: _, false => Val (m, false)
  | act, _ =>
      match cm_ctrls m with
      | [] => Val (m, true)
      | _ =>
          do (m1, ok) <- stop_all e allow m act (hd [] rt);
          if ok then unload_all e allow m1 (map c_name (cm_ctrls m)) (tl rt) else Val (m1, false)
      end
  end.
