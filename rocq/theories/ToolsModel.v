(** ToolsModel.v -- executable model of two more command line tools, with the requests, scripts and endings of SpawnModel:
    the unspawner (controller_manager/controller_manager/unspawner.py) and the hardware spawner (hardware_spawner.py).
    Simplified: what SpawnModel simplifies; both wait without limit for the services they change something with
    (service_timeout=0.0 in controller_manager_services.py 266-284, 303-325); a signal is SIGINT (KeyboardInterrupt). *)
From Coq Require Import String List Bool Arith.
From Verif Require Import Base Events HwModel RmModel RmSpec CmModel SpawnModel.
Import ListNotations.
Open Scope list_scope.

Definition begin (m : cm) (script : list call) : world := {| w_cm := m; w_log := []; w_fin := []; w_script := script |}.
(** service_caller without a time limit for the server, controller_manager_services.py 136-147 *)
Definition patient {A} (p : prog A) : prog A := fun w =>
  do (w', r) <- p w; Val (w', match r with inr (Ends Exit1) => inr (Ends Waiting) | x => x end).

Section Tools.
Variables (e : env) (allow : bool).

(** unspawner.py 73-79: ends with 1 at the first that is not unloaded *)
Fixpoint take_down (ns : list name) : prog unit :=
  match ns with
  | [] => ret tt
  | n :: ns' => andthen (patient (ask e allow false (QDo (CUnload n)))) (fun b => if b then take_down ns' else quit (Ends Exit1))
  end.
(** unspawner.py 59-88: the answer of the switch is ignored; an interrupt leaves the program with None, exit code 0 *)
Definition unspawner (ns : list name) (script : list call) (m : cm) : res (world * ending) :=
  do (w, r) <- andthen (ask e allow false (QSwitch [] ns true)) (fun _ => take_down ns) (begin m script);
  Val (w, match r with inl _ | inr Interrupted => Exit0 | inr (Ends x) => x end).

(** what the hardware spawner prints about one component: not loaded; done; answered OK but in another state; refused
    (hardware_spawner.py 68-88, 163-165) *)
Inductive report := NotLoaded | Done | Elsewhere | Refused.
(** hardware_spawner.py 154-180; [target]: active for --activate, inactive for --configure *)
Fixpoint bring_up (target : lc) (ns : list name) (said : list (name * report)) (w : world) : res (world * list (name * report) * ending) :=
  match ns with
  | [] => Val (w, said, Exit0)
  | n :: ns' =>
      do (w1, r1) <- ask e allow false (QKnown n) w;
      match r1 with
      | inr Interrupted => Val (w1, said, Exit0)
      | inr (Ends x) => Val (w1, said, x)
      | inl false => bring_up target ns' (said ++ [(n, NotLoaded)]) w1
      | inl true =>
          do (w2, r2) <- patient (ask e allow false (QDo (CSetHw n target))) w1;
          match r2 with
          | inr Interrupted => Val (w2, said, Exit0)
          | inr (Ends x) => Val (w2, said, x)
          | inl ok =>
              let rep := if ok then match lc_of (cm_rm (w_cm w2)) n with
                                    | Some l => if lc_eqb l target then Done else Elsewhere | None => Elsewhere end
                         else Refused in
              bring_up target ns' (said ++ [(n, rep)]) w2
          end
      end
  end.
Definition hardware_spawner (target : lc) (ns : list name) (script : list call) (m : cm) : res (world * list (name * report) * ending) :=
  bring_up target ns [] (begin m script).
End Tools.
