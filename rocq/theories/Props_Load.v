(** Props_Load.v -- C70: loading a robot description is all or nothing (LoadModel.v), for every description, every plugin
    behaviour and every update rate. *)
From Coq Require Import Arith.
From Verif Require Import Base Events HwModel RmModel RmSys LoadModel LoadSpec LoadProofs LoadMain RmWitness.
Open Scope string_scope. Open Scope nat_scope. Open Scope list_scope.

(** success: exactly the described components exist, actuators, sensors, systems each in the order of the description, in the
    state Unconfigured, with a legal read/write rate; names and interfaces are not shared; each was initialized once, in order,
    and answered SUCCESS *)
Theorem c70_components : forall e le ur ds s0 s, nothing s0 -> load e le ur ds s0 = (s, true) ->
  (exists acts sens syss, rm_hw (rm_of s) = acts ++ sens ++ syss /\
     Forall2 (is_loaded Actuator) (filter (of_type "actuator") ds) acts /\
     Forall2 (is_loaded Sensor) (filter (of_type "sensor") ds) sens /\
     Forall2 (is_loaded System) (filter (of_type "system") ds) syss) /\
  (forall d, In d ds -> known d = true -> exists q, aget (s_info s) (d_name d) = Some q /\ rate_ok ur d q) /\
  wf_hw (rm_hw (rm_of s)) /\
  rm_trace (rm_of s) = inits ds ++ rm_trace (rm_of s0).
Proof. exact load_components. Qed.
Print Assumptions c70_components.

(** success: every interface the description names exists, the interfaces that exist were exported by a described component,
    none is available yet and none is claimed *)
Theorem c70_interfaces : forall e le ur ds s0 s, nothing s0 -> load e le ur ds s0 = (s, true) ->
  (forall k, describes_state ds k -> In k (rm_skeys (rm_of s))) /\
  (forall k, describes_cmd ds k -> In k (rm_ckeys (rm_of s))) /\
  (forall k, In k (rm_skeys (rm_of s)) <-> exists d, In d ds /\ In k (out_states le d)) /\
  (forall k, In k (rm_ckeys (rm_of s)) -> exists d, In d ds /\ In k (out_cmds le d)) /\
  NoDup (rm_skeys (rm_of s)) /\ NoDup (rm_ckeys (rm_of s)) /\
  rm_avs (rm_of s) = [] /\ rm_avc (rm_of s) = [] /\
  (forall k, aget (rm_claimed (rm_of s)) k = if mem k (rm_ckeys (rm_of s)) then Some false else None).
Proof. exact load_interfaces. Qed.
Print Assumptions c70_interfaces.

(** failure, from any state: no component, interface, claim or available interface is left *)
Theorem c70_failed : forall e le ur ds s0 s, load e le ur ds s0 = (s, false) -> nothing s.
Proof. exact load_failed. Qed.
Print Assumptions c70_failed.

(** when it succeeds *)
Theorem c70_succeeds : forall e le ur ds s0, nothing s0 ->
  names_distinct ds ->
  (forall d k, In d ds -> kind_of (d_type d) = Some k -> le_create le k (d_plugin d) = true) ->
  (forall d t, In d ds -> known d = true -> e_hw e t (d_name d) HInit = CbSuccess) ->
  (forall k, describes_state ds k -> exists d, In d ds /\ In k (out_states le d)) ->
  (forall k, describes_cmd ds k -> exists d, In d ds /\ In k (out_cmds le d)) ->
  NoDup (flat_map (out_cmds le) ds) ->
  snd (load e le ur ds s0) = true.
Proof. exact load_succeeds. Qed.
Print Assumptions c70_succeeds.

(** when it fails: each of these alone is enough *)
Theorem c70_refused : forall e le ur ds s0, nothing s0 ->
  (~ names_distinct ds \/
   (exists d k, In d ds /\ kind_of (d_type d) = Some k /\ le_create le k (d_plugin d) = false) \/
   (exists d, In d ds /\ known d = true /\ forall t, e_hw e t (d_name d) HInit <> CbSuccess) \/
   (exists k, describes_state ds k /\ forall d, In d ds -> ~ In k (out_states le d)) \/
   (exists k, describes_cmd ds k /\ forall d, In d ds -> ~ In k (out_cmds le d))) ->
  snd (load e le ur ds s0) = false.
Proof. exact load_refused. Qed.
Print Assumptions c70_refused.

(** the manager just loaded is the one all theorems about the resource manager and the controller manager start from, for
    components that meet their hypothesis [wf_hw] (c70_components) *)
Theorem c70_is_start : forall e le ur ds s, load e le ur ds blank = (s, true) ->
  NoDup (flat_map (out_cmds le) ds) ->
  same_manager (rm_of s) (rm_start (rm_hw (rm_of s))).
Proof. exact load_is_start. Qed.
Print Assumptions c70_is_start.

(** ---- a concrete robot: a gripper (actuator), a camera (sensor), an arm (system), and a second description *)
Definition pt n st cm : part := {| p_name := n; p_states := st; p_cmds := cm |}.
Definition dsc n t g q js ss : hwdesc :=
  {| d_name := n; d_type := t; d_plugin := n; d_group := g; d_rate := q; d_joints := js; d_sensors := ss; d_gpios := [] |}.
Definition robot : list hwdesc :=
  [ dsc "arm" "system" "main" 0 [pt "a" ["position"] ["position"; "velocity"]] [];
    dsc "camera" "sensor" "" 50 [] [pt "c" ["image"] []];
    dsc "gripper" "actuator" "main" 500 [pt "g" ["position"] ["position"]] [] ].
Definition exports : lenv :=
  {| le_create := fun _ _ => true;
     le_states := fun n => if String.eqb n "arm" then Some ["a/position"; "a/temperature"]
                           else if String.eqb n "camera" then Some ["c/image"] else Some ["g/position"];
     le_cmds := fun n => if String.eqb n "arm" then Some ["a/position"; "a/velocity"]
                         else if String.eqb n "camera" then None else Some ["g/position"] |}.

Example c70_example_loads : snd (load env_ok exports 100 robot blank) = true /\
  map h_name (rm_hw (rm_of (fst (load env_ok exports 100 robot blank)))) = ["gripper"; "camera"; "arm"] /\
  s_info (fst (load env_ok exports 100 robot blank)) = [("arm", 100); ("camera", 50); ("gripper", 100)] /\
  rm_ckeys (rm_of (fst (load env_ok exports 100 robot blank))) = ["a/position"; "a/velocity"; "g/position"].
Proof. vm_compute. auto. Qed.

Example c70_example_succeeds : nothing blank /\ names_distinct robot /\
  (forall k, describes_cmd robot k -> exists d, In d robot /\ In k (out_cmds exports d)) /\
  NoDup (flat_map (out_cmds exports) robot).
Proof.
  split; [split; cbn; auto|]. split.
  { repeat constructor; cbn; intros _ d' H; repeat destruct H as [<-|H]; cbn; try discriminate; contradiction. }
  split.
  - intros k (d & p & i & Hd & Hp & Hi & ->). cbn in Hd.
    destruct Hd as [<-|[<-|[<-|[]]]]; cbn in Hp; destruct Hp as [Hp|Hp]; cbn in Hp;
      try contradiction; destruct Hp as [<-|[]]; cbn in Hi;
      repeat destruct Hi as [<-|Hi]; try contradiction.
    + exists (dsc "arm" "system" "main" 0 [pt "a" ["position"] ["position"; "velocity"]] []). cbn; auto.
    + exists (dsc "arm" "system" "main" 0 [pt "a" ["position"] ["position"; "velocity"]] []). cbn; auto.
    + exists (dsc "gripper" "actuator" "main" 500 [pt "g" ["position"] ["position"]] []). cbn; auto.
  - repeat constructor; cbn; intuition discriminate.
Qed.

(** a description that names an interface nobody exports: refused, and nothing is left of the components loaded before *)
Example c70_example_refused :
  let bad := robot ++ [dsc "wheel" "actuator" "" 0 [pt "w" ["effort"] []] []] in
  snd (load env_ok exports 100 bad blank) = false /\ nothing (fst (load env_ok exports 100 bad blank)) /\
  length (rm_trace (rm_of (fst (load env_ok exports 100 bad blank)))) = 4.
Proof. vm_compute. repeat split. Qed.

(** ---- what is false *)

(** A component whose type is misspelt is skipped and the load still answers true, as long as no interface of it is named. *)
Theorem c70_misspelt_type_refuted : exists e le ur ds s d, load e le ur ds blank = (s, true) /\ In d ds /\
  forall h, In h (rm_hw (rm_of s)) -> h_name h <> d_name d.
Proof.
  exists env_ok, exports, 100, (robot ++ [dsc "lamp" "actuatr" "" 0 [] []]),
    (fst (load env_ok exports 100 robot blank)), (dsc "lamp" "actuatr" "" 0 [] []).
  split; [vm_compute; reflexivity|]. split; [cbn; auto|].
  assert (E : map h_name (rm_hw (rm_of (fst (load env_ok exports 100 robot blank)))) = ["gripper"; "camera"; "arm"])
    by (vm_compute; reflexivity).
  intros h Hh En. apply (in_map h_name) in Hh. rewrite E, En in Hh. cbn in Hh. intuition discriminate.
Qed.
Print Assumptions c70_misspelt_type_refuted.

(** Two components that export the same command interface: the load answers true, but the second component is listed without
    any command interface although it exported two and both exist; configuring it makes neither of them available. *)
Definition clash : lenv :=
  {| le_create := fun _ _ => true; le_states := fun _ => Some [];
     le_cmds := fun n => if String.eqb n "left" then Some ["j/position"] else Some ["k/position"; "j/position"] |}.
Definition two : list hwdesc :=
  [ dsc "left" "actuator" "" 0 [pt "j" [] ["position"]] []; dsc "right" "actuator" "" 0 [pt "k" [] ["position"]] [] ].
Theorem c70_shared_interface_refuted : exists e le ur ds s, load e le ur ds blank = (s, true) /\
  le_cmds le "right" = Some ["k/position"; "j/position"] /\
  In "k/position" (rm_ckeys (rm_of s)) /\
  (forall h, In h (rm_hw (rm_of s)) -> h_name h = "right" -> h_cmd h = []) /\
  let '(r, ok) := set_component_state e (rm_of s) "right" Active in ok = true /\ ~ In "k/position" (rm_avc r).
Proof.
  exists env_ok, clash, 100, two, (fst (load env_ok clash 100 two blank)).
  split; [vm_compute; reflexivity|]. split; [reflexivity|]. split; [vm_compute; auto|]. split.
  - assert (E : map (fun h => (h_name h, h_cmd h)) (rm_hw (rm_of (fst (load env_ok clash 100 two blank)))) =
               [("left", ["j/position"]); ("right", [])]) by (vm_compute; reflexivity).
    intros h Hh En. apply (in_map (fun h => (h_name h, h_cmd h))) in Hh. rewrite E, En in Hh. cbn in Hh.
    destruct Hh as [Hh|[Hh|[]]]; inversion Hh; reflexivity.
  - vm_compute. split; [reflexivity|tauto].
Qed.
Print Assumptions c70_shared_interface_refuted.

(** Loading a description that repeats the name of a component already loaded is refused, but the refusal removes the robot
    that was loaded, whatever state its components are in, and no life-cycle callback is called. *)
Theorem c70_second_load_wipes : forall e le ur d ds s, aget (s_info s) (d_name d) <> None ->
  exists s', load e le ur (d :: ds) s = (s', false) /\ nothing s' /\ rm_trace (rm_of s') = rm_trace (rm_of s).
Proof. exact load_again_wipes. Qed.
Print Assumptions c70_second_load_wipes.

Example c70_example_wiped : let s := fst (load env_ok exports 100 robot blank) in
  aget (s_info s) "arm" <> None /\ length (rm_hw (rm_of s)) = 3 /\
  rm_hw (rm_of (fst (load env_ok exports 100 robot s))) = [].
Proof. vm_compute. repeat split; discriminate. Qed.
