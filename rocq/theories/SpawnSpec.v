(** SpawnSpec.v -- what a user expects of the spawner. *)
From Coq Require Import String List Bool.
From Verif Require Import Base Events HwModel RmModel CmModel CmSpec SpawnModel.
Import ListNotations.
Open Scope list_scope.

(** what the command line asks for one controller: loaded only, configured only, running *)
Definition asked_for (s : spec) : option lc :=
  if s_load_only s then None else if s_inactive s then Some Inactive else Some Active.
Definition loaded (m : cm) (n : name) : Prop := exists c, In c (cm_ctrls m) /\ c_name c = n.
Definition is_up (m : cm) (s : spec) : Prop :=
  match asked_for s with None => loaded m (s_name s) | Some l => state_in m (s_name s) = Some l end.

(** the log tells everything that happened between [m] and [m'], in order *)
Fixpoint tells (e : env) (allow : bool) (log : list entry) (m m' : cm) : Prop :=
  match log with
  | [] => m' = m
  | (Mine _ m1 o m2 | Others _ m1 o m2) :: log' => tells e allow log' m m1 /\ m2 = m' /\ exists out, cstep e allow m1 o = Val (m2, out)
  end.
(** Nobody else changes the state of a controller the spawner is done with (nobody stops, unloads or loses it). *)
Definition left_alone (log : list entry) : Prop := forall fin m o m', In (Others fin m o m') log ->
  forall n, In n fin -> state_in m' n = state_in m n.
(** nobody else loads one of these controllers *)
Definition not_reloaded (log : list entry) (ns : list name) : Prop := forall fin m c ok m', In (Others fin m (CLoad c ok) m') log ->
  ~ In (c_name c) ns.

(** no signal arrives while the controllers are brought up *)
Definition signalled (f : fate) : bool := match f with Signal _ => true | _ => false end.
Definition no_signal (script : list call) : Prop :=
  forall k t, In k script -> In t (k_tries k) -> signalled (t_fate t) = false.

(** the operations of the spawner that touch the controller named [n] *)
Definition touches (o : cop) (n : name) : Prop :=
  match o with
  | CLoad c _ => c_name c = n
  | CUnload k | CConfigure k _ | CCleanup k => k = n
  | CRequest a d _ _ => In n a \/ In n d
  | _ => False
  end.
Definition names (ss : list spec) : list name := map s_name ss.
(** all controllers of the list that are to be started are started by one request *)
Definition in_one_go (l : line) (o : cop) : Prop :=
  l_group l = true /\ o = CRequest (names (filter in_group (l_ctrls l))) [] true (l_asap l).
(** the requests the command line calls for about one controller *)
Definition called_for (l : line) (s : spec) (o : cop) : Prop :=
  (s_params s = true /\ o = CLoad (s_ctrl s) (s_good s)) \/
  (s_load_only s = false /\ o = CConfigure (s_name s) (s_order s)) \/
  (s_load_only s = false /\ s_inactive s = false /\ l_group l = false /\ o = CRequest [s_name s] [] true (l_asap l)).
