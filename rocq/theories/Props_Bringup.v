(** Props_Bringup.v -- C77: one robot description per controller manager. *)
From Coq Require Import ZArith.
From Verif Require Import Props_Enforce LimitsModel EnforceModel Base Events HwModel RmModel RmWitness InitHwModel LoadModel LoadSpec
  Props_Load BringupModel BringupSpec BringupProofs.
Open Scope string_scope. Open Scope nat_scope. Open Scope list_scope.

(** However the manager was started and whatever it received: the initial states were set and the services started exactly
    once if it accepted a description (the services not, if a component that failed to reach its state ended the process),
    never otherwise. *)
Theorem c77_once : forall u x0 xs, let m := receive_all u (construct u x0) xs in
  (~ ready m -> m_boots m = [] /\ m_services m = 0) /\
  (ready m -> exists o, m_boots m = [o] /\ m_services m = match o with Done _ _ => 1 | Threw _ => 0 end).
Proof. exact once_split. Qed.
Print Assumptions c77_once.

(** Once accepted, nothing received later changes the hardware, the limiters, the settings, the initial states. *)
Theorem c77_later_ignored : forall u m xs, ready m -> let m' := receive_all u m xs in
  m_rm m' = m_rm m /\ m_boots m' = m_boots m /\ m_services m' = m_services m /\
  (died m = false -> m_text m' = last (map x_text xs) (m_text m)).
Proof. exact later_ignored. Qed.
Print Assumptions c77_later_ignored.

(** Started without a description: the manager waits with no hardware at all through all descriptions that cannot be loaded,
    and runs the hardware and the limits of the first one that can. *)
Theorem c77_first_loadable : forall u xs, u_handle u = true -> let m := receive_all u (started u) xs in
  waiting m \/
  exists bad x later, xs = bad ++ x :: later /\
    (forall some rest, bad = some ++ rest -> waiting (receive_all u (started u) some)) /\
    runs u x m /\ limits_of u x m /\
    (bad = [] -> r_set (m_rm m) = u_settings u) /\ (bad <> [] -> r_set (m_rm m) = default_settings).
Proof. exact first_loadable. Qed.
Print Assumptions c77_first_loadable.

(** A manager that has not accepted a description yet takes the next loadable one, whatever it was started with and
    whatever came before. *)
Theorem c77_good_is_taken : forall u x0 xs x ds infos, u_handle u = true -> good u x ds infos ->
  let m := receive_all u (construct u x0) xs in ~ ready m ->
  ready (receive u m x) /\ m_text (receive u m x) = x_text x /\ exists o, m_boots (receive u m x) = [o].
Proof. exact good_is_taken. Qed.
Print Assumptions c77_good_is_taken.

Theorem c77_constructed : forall u x0 ds infos, u_handle u = true -> good u x0 ds infos ->
  let m := construct u x0 in runs u x0 m /\ limits_of u x0 m /\ r_set (m_rm m) = u_settings u /\ m_text m = x_text x0.
Proof. exact constructed_with_good. Qed.
Print Assumptions c77_constructed.

(** Concrete: the robot of C70. *)
Definition usr (handle : bool) : setup :=
  {| u_settings := {| allow_inactive := true; report_deactivated := false |}; u_limits := true; u_handle := handle; u_rate := 100;
     u_initial := {| p_unconf := []; p_inact := ["camera"]; p_shutdown := false |};
     u_env := env_ok; u_le := exports; u_order := fun r => map h_name (rm_hw r); u_gorder := fun _ => ["main"]; u_period := one |}.
Definition good_x : desc := {| x_text := "robot"; x_parsed := Some (robot, [arm]) |}.
Definition slow : jl := {| l_hp := false; l_hv := true; l_ha := false; l_hd := false; l_he := false;
  l_minp := nan; l_maxp := nan; l_maxv := of_Z 100%Z; l_maxa := nan; l_maxd := nan; l_maxj := nan; l_maxe := nan |}.
(** the arm twice, and other limits *)
Definition twice_x : desc :=
  {| x_text := "twice"; x_parsed := Some (robot ++ robot,
     [{| hi_name := "arm"; hi_limits := [("a", slow)]; hi_soft := []; hi_joints := [("a", true)] |}]) |}.
Definition broken_x : desc := {| x_text := "<robot"; x_parsed := None |}.

Lemma good_robot h : good (usr h) good_x robot [arm].
Proof.
  destruct c70_example_succeeds as (_ & B & C & D).
  constructor; [discriminate|reflexivity|exact B|reflexivity|reflexivity| |exact C|exact D].
  intros k (d & p & i & Hd & Hp & Hi & ->). cbn in Hd.
  destruct Hd as [<-|[<-|[<-|[]]]]; cbn in Hp; destruct Hp as [Hp|[Hp|Hp]]; cbn in Hp;
    try contradiction; destruct Hp as [<-|[]]; cbn in Hi; repeat destruct Hi as [<-|Hi]; try contradiction.
  + exists (dsc "arm" "system" "main" 0 [pt "a" ["position"] ["position"; "velocity"]] []). cbn; auto.
  + exists (dsc "camera" "sensor" "" 50 [] [pt "c" ["image"] []]). cbn; auto.
  + exists (dsc "gripper" "actuator" "main" 500 [pt "g" ["position"] ["position"]] []). cbn; auto.
Qed.
Example c77_nonvacuous_wait : waiting (receive_all (usr true) (started (usr true)) [broken_x; twice_x]) /\
  ~ ready (receive_all (usr true) (construct (usr true) twice_x) [broken_x]).
Proof.
  split; [|vm_compute; discriminate].
  split; [vm_compute; discriminate|]. split; [apply (waits_nothing (usr true) no_desc [broken_x; twice_x] eq_refl); vm_compute; reflexivity|]. split; vm_compute; reflexivity.
Qed.
Example c77_nonvacuous_run :
  let m := receive_all (usr true) (started (usr true)) [broken_x; twice_x; good_x; twice_x] in
  ready m /\ m_services m = 1 /\ died m = false /\
  map (fun h => (h_name h, h_lc h)) (rm_hw (rm_of (r_store (m_rm m)))) =
    [("gripper", Unconfigured); ("camera", Unconfigured); ("arm", Unconfigured)] /\
  (match m_boots m with Done r _ :: _ => map (fun h => (h_name h, h_lc h)) (rm_hw r) | _ => [] end) =
    [("gripper", Active); ("camera", Inactive); ("arm", Active)].
Proof. vm_compute. repeat split; reflexivity. Qed.

(** "Controllers are given the description of the hardware that runs": false, the ignored description replaces it (CM 779
    before the test 780). *)
Theorem c77_description_refuted : exists u x y, u_handle u = true /\
  let m := receive_all u (started u) [x] in let m' := receive_all u (started u) [x; y] in
  ready m /\ died m = false /\ m_rm m' = m_rm m /\ given_to_controllers m' <> x_text x.
Proof.
  exists (usr true), good_x, twice_x. split; [reflexivity|]. cbn zeta.
  assert (A : ready (receive_all (usr true) (started (usr true)) [good_x])) by (vm_compute; reflexivity).
  assert (B : died (receive_all (usr true) (started (usr true)) [good_x]) = false) by (vm_compute; reflexivity).
  split; [exact A|]. split; [exact B|].
  destruct (later_ignored (usr true) _ [twice_x] A) as (C & _ & _ & D).
  rewrite <- (receive_all_app (usr true) (started (usr true)) [good_x] [twice_x]) in C, D. cbn [app] in C, D.
  split; [exact C|]. unfold given_to_controllers. rewrite (D B). discriminate.
Qed.
Print Assumptions c77_description_refuted.

(** "The manager's parameters are in force": false once a bad description was received, its resource manager was replaced by
    one with default settings (CM 792-796). *)
Theorem c77_settings_refuted : exists u bad x, u_handle u = true /\
  let m := receive_all u (started u) [bad; x] in ready m /\ died m = false /\
  allow_inactive (u_settings u) = true /\ allow_inactive (r_set (m_rm m)) = false /\
  report_deactivated (u_settings u) = false /\ report_deactivated (r_set (m_rm m)) = true.
Proof. exists (usr true), broken_x, good_x. vm_compute. repeat split; reflexivity. Qed.
Print Assumptions c77_settings_refuted.

(** "The limits of the accepted description are in force": false when the manager was constructed with a description that
    could not be loaded, its limits stay (clear() keeps the limiters, importing keeps what is there). *)
Theorem c77_limits_refuted : exists u bad x, u_handle u = true /\
  let m := receive_all u (construct u bad) [x] in ready m /\ died m = false /\ ~ limits_of u x m.
Proof.
  exists (usr true), twice_x, good_x. split; [reflexivity|]. cbn zeta.
  split; [vm_compute; reflexivity|]. split; [vm_compute; reflexivity|].
  intros (ds & infos & P & E). injection P as P1 P2. subst.
  apply (f_equal (fun w => match lim_get w "arm" "a" with Some l => l_hp (m_hard l) | None => true end)) in E.
  vm_compute in E. discriminate.
Qed.
Print Assumptions c77_limits_refuted.

(** "Ready means loaded": false with handle_exceptions = false, where the exception of a component leaves the flag set
    (RM 1552, CM 870-876): services are started although described components are missing. *)
Definition no_camera : lenv :=
  {| le_create := fun k _ => match k with Sensor => false | _ => true end; le_states := le_states exports; le_cmds := le_cmds exports |}.
Definition usr_bad : setup :=
  {| u_settings := default_settings; u_limits := false; u_handle := false; u_rate := 100;
     u_initial := {| p_unconf := []; p_inact := []; p_shutdown := false |};
     u_env := env_ok; u_le := no_camera; u_order := fun r => map h_name (rm_hw r); u_gorder := fun _ => ["main"]; u_period := one |}.
Theorem c77_half_loaded_refuted : exists u x ds infos d, x_parsed x = Some (ds, infos) /\ In d ds /\ known d = true /\
  let m := receive_all u (started u) [x] in ready m /\ m_services m = 1 /\
  forall h, In h (rm_hw (rm_of (r_store (m_rm m)))) -> h_name h <> d_name d.
Proof.
  exists usr_bad, good_x, robot, [arm], (dsc "gripper" "actuator" "main" 500 [pt "g" ["position"] ["position"]] []).
  split; [reflexivity|]. split; [cbn; auto|]. split; [reflexivity|]. cbn zeta.
  split; [vm_compute; reflexivity|]. split; [vm_compute; reflexivity|].
  assert (E : map h_name (rm_hw (rm_of (r_store (m_rm (receive_all usr_bad (started usr_bad) [good_x]))))) = ["arm"])
    by (vm_compute; reflexivity).
  intros h I. apply (in_map h_name) in I. rewrite E in I. destruct I as [<-|[]]. discriminate.
Qed.
Print Assumptions c77_half_loaded_refuted.
