(** Props_Diag.v -- C80: the diagnostics of the controller manager say what the measurements say. *)
From Coq Require Import QArith Qabs NArith.
From Verif Require Import Base Events DiagModel DiagSpec DiagProofs DiagProofs2.
Open Scope string_scope.
Open Scope list_scope.

Theorem c80_controllers_level cr t hws cs : level_is (st_level (controllers_report cr t hws cs))
  (no_hw_active hws \/ exists c, In c cs /\ ctrl_error cr t c)
  (cs = [] \/ exists c, In c cs /\ ctrl_warn cr t c).
Proof. exact (main_controllers_level cr t hws cs). Qed.
Print Assumptions c80_controllers_level.

Theorem c80_controllers_message cr t hws cs : NoDup (map dc_name cs) -> exists high bad,
  NoDup high /\ NoDup bad /\
  (forall n, In n high <-> exists c, In c cs /\ dc_name c = n /\ dc_lc c = Active /\
     (exec_error t (dc_async c) (dc_rate c) (dc_exec c) \/ exec_warn t (dc_async c) (dc_rate c) (dc_exec c))) /\
  (forall n, In n bad <-> exists c, In c cs /\ dc_name c = n /\ dc_lc c = Active /\
     (per_error cr t (dc_async c) (dc_rate c) (dc_per c) \/ per_warn cr t (dc_async c) (dc_rate c) (dc_per c))) /\
  (st_level (controllers_report cr t hws cs) <> OK -> exists rest,
     st_msg (controllers_report cr t hws cs) = joined (remarks high bad ++ rest) /\
     (no_hw_active hws -> rest = ["No hardware components are currently active to activate controllers"]) /\
     (~ no_hw_active hws -> cs = [] -> rest = ["No controllers are currently loaded"]) /\
     (~ no_hw_active hws -> cs <> [] -> rest = [])) /\
  (st_level (controllers_report cr t hws cs) = OK ->
     ((forall c, In c cs -> dc_lc c = Active) -> st_msg (controllers_report cr t hws cs) = "All controllers are active") /\
     ((exists c, In c cs /\ dc_lc c <> Active) -> st_msg (controllers_report cr t hws cs) = "Not all controllers are active")).
Proof. exact (main_controllers_message cr t hws cs). Qed.
Print Assumptions c80_controllers_message.

Theorem c80_controllers_values cr t hws cs :
  st_values (controllers_report cr t hws cs) = flat_map (ctrl_values cr) cs.
Proof. exact (main_controllers_values cr t hws cs). Qed.
Print Assumptions c80_controllers_values.

Theorem c80_looser_thresholds cr t t' hws cs : looser (t_per t) (t_per t') -> looser (t_exec t) (t_exec t') ->
  lnum (st_level (controllers_report cr t' hws cs)) <= lnum (st_level (controllers_report cr t hws cs)).
Proof. intros H K. exact (main_looser cr t t' H K hws cs). Qed.
Print Assumptions c80_looser_thresholds.

Theorem c80_unmeasured cr t hws cs : ~ no_hw_active hws -> cs <> [] ->
  (forall c, In c cs -> dc_lc c = Active -> unmeasured (dc_per c) /\ unmeasured (dc_exec c)) ->
  st_level (controllers_report cr t hws cs) = OK.
Proof. exact (main_unmeasured cr t hws cs). Qed.
Print Assumptions c80_unmeasured.

Theorem c80_hw_nothing cr t hs :
  st_level (hardware_report cr t false hs) = ERROR /\ st_values (hardware_report cr t false hs) = [] /\
  st_level (hardware_report cr t true []) = ERROR /\
  (hs <> [] -> no_hw_active hs -> st_level (hardware_report cr t true hs) = WARN /\ st_values (hardware_report cr t true hs) = []).
Proof. exact (main_hw_nothing cr t hs). Qed.
Print Assumptions c80_hw_nothing.

Theorem c80_hw_level cr t hs : ~ no_hw_active hs -> level_is (st_level (hardware_report cr t true hs))
  (exists h, In h hs /\ hw_error cr t h) (exists h, In h hs /\ hw_warn cr t h).
Proof. exact (main_hw_level cr t hs). Qed.
Print Assumptions c80_hw_level.

Theorem c80_hw_message cr t hs : ~ no_hw_active hs -> exists high bad,
  NoDup bad /\
  (forall n, In n high <-> exists h y, In h hs /\ dh_name h = n /\ dh_lc h = Active /\ cycle_of h y /\
     (exec_error t (dh_async h) (dh_rate h) (cy_exec y) \/ exec_warn t (dh_async h) (dh_rate h) (cy_exec y))) /\
  (forall n, In n bad <-> exists h y, In h hs /\ dh_name h = n /\ dh_lc h = Active /\ cycle_of h y /\
     (per_error cr t (dh_async h) (dh_rate h) (cy_per y) \/ per_warn cr t (dh_async h) (dh_rate h) (cy_per y))) /\
  (st_level (hardware_report cr t true hs) <> OK -> st_msg (hardware_report cr t true hs) = joined (remarks high bad)) /\
  (st_level (hardware_report cr t true hs) = OK ->
     ((forall h, In h hs -> dh_lc h = Active) -> st_msg (hardware_report cr t true hs) = "All hardware components are active") /\
     ((exists h, In h hs /\ dh_lc h <> Active) -> st_msg (hardware_report cr t true hs) = "Not all hardware components are active")).
Proof. exact (main_hw_message cr t hs). Qed.
Print Assumptions c80_hw_message.

Theorem c80_hw_values cr t hs : ~ no_hw_active hs ->
  st_values (hardware_report cr t true hs) = flat_map (hw_values cr) hs.
Proof. exact (main_hw_values cr t hs). Qed.
Print Assumptions c80_hw_values.

Theorem c80_manager_level cr t rm_init description p : level_is (st_level (manager_report cr t rm_init description p))
  (rm_init = false /\ description = true \/ per_beyond p cr (mean_err t) (sd_err t))
  (rm_init = false /\ description = false \/ per_beyond p cr (mean_warn t) (sd_warn t)).
Proof. exact (main_manager cr t rm_init description p). Qed.
Print Assumptions c80_manager_level.

(** ---- concrete reports: the default thresholds, a manager at 100 Hz *)
Definition thr : thresholds :=
  {| t_per := {| mean_warn := 5; mean_err := 10; sd_warn := 5; sd_err := 10 |};
     t_exec := {| mean_warn := 1000; mean_err := 2000; sd_warn := 100; sd_err := 200 |} |}.
Definition ds (a s : Q) : dstats := {| s_avg := Fin a; s_min := Fin a; s_max := Fin a; s_sd := Fin s |}.
Definition nods : dstats := {| s_avg := NaN; s_min := NaN; s_max := NaN; s_sd := NaN |}.
Definition dc n l a r p e := {| dc_name := n; dc_lc := l; dc_async := a; dc_rate := r; dc_per := p; dc_exec := e |}.
Definition arm : dhw := {| dh_name := "arm"; dh_lc := Active; dh_async := false; dh_rate := 100;
  dh_read := Some {| cy_per := ds 100 0; cy_exec := ds 1500 0 |}; dh_write := Some {| cy_per := ds 100 0; cy_exec := ds 2500 0 |} |}.
Definition imu : dhw := {| dh_name := "imu"; dh_lc := Inactive; dh_async := true; dh_rate := 50; dh_read := None; dh_write := None |}.
Definition cs3 := [dc "jtc" Active false 100 (ds 40 0) (ds 1001 0); dc "slow" Active true 20 (ds 31 0) (ds 50000 0); dc "pid" Inactive false 100 nods nods].

Example c80_level_case : st_level (controllers_report 100 thr [arm] cs3) = ERROR /\
  ctrl_warn 100 thr (dc "jtc" Active false 100 (ds 40 0) (ds 1001 0)) /\ ~ ctrl_error 100 thr (dc "jtc" Active false 100 (ds 40 0) (ds 1001 0)) /\
  ctrl_error 100 thr (dc "slow" Active true 20 (ds 31 0) (ds 50000 0)) /\ ~ no_hw_active [arm].
Proof.
  split; [vm_compute; reflexivity|]. split; [|split; [|split]].
  - split; [reflexivity|]. right. left. reflexivity.
  - intros (_ & [(O & _)|[B|B]]); [destruct O as [O|O]; [discriminate|apply O; reflexivity]| |]; cbn in B; discriminate B.
  - split; [reflexivity|]. left. split; [left; reflexivity|]. left. right. reflexivity.
  - intros H. exact (H arm (or_introl eq_refl) eq_refl).
Qed.
Example c80_message_case : st_msg (controllers_report 100 thr [arm] cs3) =
  (nl ++ "High execution jitter or mean error : [ jtc ]; " ++ nl ++ "High periodicity jitter or mean error : [ slow ]")%string /\ NoDup (map dc_name cs3).
Proof. split; [vm_compute; reflexivity|]. cbn. repeat constructor; cbn; intros H; repeat destruct H as [H|H]; try discriminate H; exact H. Qed.
Example c80_values_case : map fst (st_values (controllers_report 100 thr [arm] cs3)) =
  ["jtc.state"; "jtc.execution_time"; "slow.state"; "slow.execution_time"; "slow.periodicity"; "pid.state"] /\
  map fst (st_values (hardware_report 100 thr true [arm; imu])) =
  ["arm.state"; "arm.read_cycle.execution_time"; "arm.write_cycle.execution_time"; "imu.state"].
Proof. split; vm_compute; reflexivity. Qed.
Definition thr2 : thresholds :=
  {| t_per := {| mean_warn := 5; mean_err := 20; sd_warn := 5; sd_err := 10 |}; t_exec := t_exec thr |}.
Example c80_looser_case : looser (t_per thr) (t_per thr2) /\ looser (t_exec thr) (t_exec thr2) /\
  st_level (controllers_report 100 thr2 [arm] cs3) = WARN.
Proof. split; [|split]; [unfold looser; cbn; repeat split; unfold Qle; cbn; discriminate|unfold looser; cbn; repeat split; unfold Qle; cbn; discriminate|vm_compute; reflexivity]. Qed.
Example c80_unmeasured_case : let cs := [dc "jtc" Active false 50 nods nods; dc "pid" Active false 100 nods nods] in
  st_level (controllers_report 100 thr [arm] cs) = OK /\ (forall c, In c cs -> dc_lc c = Active -> unmeasured (dc_per c) /\ unmeasured (dc_exec c)).
Proof. split; [reflexivity|]. intros c [<-|[<-|[]]] _; repeat split. Qed.
Example c80_hw_case : st_level (hardware_report 100 thr true [arm; imu]) = ERROR /\ hw_error 100 thr arm /\
  st_level (hardware_report 100 thr true [imu]) = WARN /\
  st_msg (hardware_report 100 thr true [arm; imu]) = (nl ++ "High execution jitter or mean error : [ arm arm ]")%string.
Proof.
  split; [vm_compute; reflexivity|]. split; [|split; vm_compute; reflexivity]. split; [reflexivity|].
  eexists. split; [right; reflexivity|]. right. left. reflexivity.
Qed.
Example c80_manager_case : st_level (manager_report 100 (t_per thr) true true (ds 94 1)) = WARN /\
  st_level (manager_report 100 (t_per thr) true true (ds 89 1)) = ERROR /\
  st_level (manager_report 100 (t_per thr) false false (ds 100 1)) = WARN /\
  st_level (manager_report 100 (t_per thr) true true (ds 95 1)) = OK.
Proof. repeat split; vm_compute; reflexivity. Qed.

(** ---- what one could expect and is not so *)
(** An inactive controller goes unmentioned as soon as any threshold is crossed: the message says so
    only when everything else is fine. *)
Theorem c80_inactive_said_refuted : ~ (forall cr t hws cs, ~ no_hw_active hws ->
  (exists c, In c cs /\ dc_lc c <> Active) ->
  exists before after, st_msg (controllers_report cr t hws cs) = (before ++ "Not all controllers are active" ++ after)%string).
Proof.
  intros H. destruct (H 100%N thr [arm] cs3) as (b & a & E).
  - intros K. exact (K arm (or_introl eq_refl) eq_refl).
  - exists (dc "pid" Inactive false 100 nods nods). split; [right; right; left; reflexivity|discriminate].
  - rewrite (proj1 c80_message_case) in E.
    assert (X : forall x y : string, In (Ascii.ascii_of_nat 78) (list_ascii_of_string (x ++ "Not all controllers are active" ++ y)%string)).
    { intros x y. induction x as [|c x IH]; [left; reflexivity|]. right. exact IH. }
    specialize (X b a). rewrite <- E in X. vm_compute in X. repeat (destruct X as [X|X]; [discriminate X|]). exact X.
Qed.
Print Assumptions c80_inactive_said_refuted.

(** A hardware component is listed twice when both its read and its write take too long. *)
Theorem c80_hw_listed_once_refuted : ~ (forall cr t hs, ~ no_hw_active hs -> NoDup (map dh_name hs) ->
  st_level (hardware_report cr t true hs) <> OK ->
  exists high bad, NoDup high /\ NoDup bad /\ st_msg (hardware_report cr t true hs) = joined (remarks high bad) /\
   incl (high ++ bad) (map dh_name hs)).
Proof.
  intros H. destruct (H 100%N thr [arm]) as (high & bad & N1 & N2 & E & HI).
  - intros K. exact (K arm (or_introl eq_refl) eq_refl).
  - repeat constructor. intros [].
  - vm_compute. discriminate.
  - assert (S1 : forall l : list name, NoDup l -> incl l ["arm"] -> l = [] \/ l = ["arm"]).
    { intros l ND I0. destruct l as [|x l]; [left; reflexivity|right]. destruct (I0 x (or_introl eq_refl)) as [<-|[]].
      destruct l as [|y l]; [reflexivity|]. destruct (I0 y (or_intror (or_introl eq_refl))) as [<-|[]].
      inversion ND as [|? ? C _]; subst. exfalso. apply C. left. reflexivity. }
    cbn [map dh_name arm] in HI.
    destruct (S1 high N1) as [-> | ->]; [intros x Hx; apply HI; apply in_or_app; left; exact Hx| |];
    (destruct (S1 bad N2) as [-> | ->]; [intros x Hx; apply HI; apply in_or_app; right; exact Hx| |]);
    vm_compute in E; discriminate E.
Qed.
Print Assumptions c80_hw_listed_once_refuted.
