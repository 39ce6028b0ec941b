(** Props_ByName.v -- C81: a controller is loaded as its parameters say. *)
From Verif Require Import Base ByNameModel ByNameSpec ByNameProofs ByNameMain.
Open Scope string_scope. Open Scope list_scope.

(** It is loaded exactly when its parameters describe a type that one of the plugin loaders creates, it is not its own
    fallback, it is not loaded yet and its init() succeeds; nothing is thrown. *)
Theorem c81_loaded_exactly_when : forall o w n, typed (w_params w) n ->
  (snd (load o w n) = Loaded <-> exists c, described (w_params w) n c /\ created o w (i_type c) /\ ~ In n (i_fallback c) /\ ~ loaded w n /\
     o_init o (creation o (i_type c) ++ w_log w) n (node_args o c) = IOk) /\
  snd (load o w n) <> Throws.
Proof. exact loads_when_l. Qed.
Print Assumptions c81_loaded_exactly_when.
(** Then it is appended with exactly these settings, init() has seen exactly the arguments made of them, and no other
    parameter changes. *)
Theorem c81_as_described : forall o w n w', load o w n = (w', Loaded) -> exists c, described (w_params w) n c /\ ~ loaded w n /\ ~ In n (i_fallback c) /\
  w_ctrls w' = w_ctrls w ++ [c] /\ w_log w' = UInit n (node_args o c) :: creation o (i_type c) ++ w_log w /\ defaults_added n (w_params w) (w_params w').
Proof. exact loaded_l. Qed.
Print Assumptions c81_as_described.
(** Otherwise no controller is added, removed or changed. *)
Theorem c81_refused_unchanged : forall o w n w' a, load o w n = (w', a) -> a <> Loaded ->
  w_ctrls w' = w_ctrls w /\ defaults_added n (w_params w) (w_params w') /\ (a = Throws -> ~ typed (w_params w) n).
Proof. exact refused_l. Qed.
Print Assumptions c81_refused_unchanged.
(** In every history of loads, unloads and parameter changes: names are unique and every controller has the settings that
    its parameters had when it was loaded. *)
Theorem c81_settings_of_the_load : forall o ps l,
  NoDup (map i_name (w_ctrls (runs o (start ps) l))) /\
  forall c, In c (w_ctrls (runs o (start ps) l)) -> exists l1 l2, l = l1 ++ SLoad (i_name c) :: l2 /\
    described (w_params (runs o (start ps) l1)) (i_name c) c /\ ~ In (SUnload (i_name c)) l2.
Proof. exact history_l. Qed.
Print Assumptions c81_settings_of_the_load.
(** What ROS reads from the arguments: the type's own options, then every parameter file in order, then use_sim_time if the
    manager uses it, then what the user gave, as ROS arguments. *)
Theorem c81_node_arguments : forall o c, open_ended (o_custom o (i_type c)) -> plain_user (i_args c) ->
  items (node_args o c) = items (o_custom o (i_type c)) ++ map (Given "--params-file") (i_files c) ++
    (if o_sim o then [Given "--param" "use_sim_time:=true"] else []) ++ snd (read_args Inside (i_args c)).
Proof. exact node_args_l. Qed.
Print Assumptions c81_node_arguments.

(** ---- a concrete case: two controllers, a file each, simulated time *)
Definition o1 : outside := {| o_plain := fun t => String.eqb t "JTC"; o_chain := fun t => String.eqb t "PID";
  o_create := fun _ _ _ => true; o_custom := fun t => if String.eqb t "PID" then ["--ros-args"; "-r"; "a:=b"] else ["verbose"];
  o_init := fun _ _ _ => IOk; o_sim := true |}.
Definition ps1 : alist pval := [("jtc.type", PStr "JTC"); ("jtc.params_file", PStrs ["a.yaml"; "b.yaml"]); ("jtc.fallback_controllers", PStrs ["pid"]);
  ("pid.type", PStr "PID"); ("pid.node_options_args", PStrs ["-p"; "k:=1"])].
Example c81_example : let w := runs o1 (start ps1) [SLoad "jtc"; SLoad "gone"; SLoad "pid"; SSet "jtc.type" (PStr "PID"); SLoad "jtc"] in
  typed ps1 "jtc" /\ snd (load o1 (start ps1) "jtc") = Loaded /\ snd (load o1 w "jtc") = Null /\ map i_type (w_ctrls w) = ["JTC"; "PID"] /\
  map (fun c => items (node_args o1 c)) (w_ctrls w) =
   [[User "verbose"; Given "--params-file" "a.yaml"; Given "--params-file" "b.yaml"; Given "--param" "use_sim_time:=true"];
    [Given "-r" "a:=b"; Given "--param" "use_sim_time:=true"; Given "-p" "k:=1"]] /\
  open_ended (o_custom o1 "PID") /\ open_ended (o_custom o1 "JTC") /\ plain_user ["-p"; "k:=1"].
Proof.
  split; [split; [right; exists "JTC"; reflexivity|split; [exists ["pid"]; left; reflexivity|exists []; right; split; [left; reflexivity|reflexivity]]]|].
  do 4 (split; [vm_compute; reflexivity|]). split; [right; reflexivity|]. split; [left|left]; cbn; intros H; repeat destruct H as [H|H]; try discriminate H; exact H.
Qed.

(** ---- what one could expect and is not so *)
(** Own options of a type that close their ROS arguments hide the parameter files. *)
Theorem c81_hidden_file_refuted : ~ (forall o c f, In f (i_files c) -> In (Given "--params-file" f) (items (node_args o c))).
Proof.
  intros H. specialize (H {| o_plain := fun _ => true; o_chain := fun _ => false; o_create := fun _ _ _ => true;
    o_custom := fun _ => ["--ros-args"; "-r"; "a:=b"; "--"]; o_init := fun _ _ _ => IOk; o_sim := false |}
    {| i_name := "jtc"; i_type := "JTC"; i_files := ["a.yaml"]; i_fallback := []; i_args := [] |} "a.yaml" (or_introl eq_refl)).
  vm_compute in H. repeat (destruct H as [H|H]; [discriminate H|]). exact H.
Qed.
Print Assumptions c81_hidden_file_refuted.
(** Giving a parameter file changes how the user's own arguments are read. *)
Theorem c81_user_words_refuted : ~ (forall o c fs s, o_custom o (i_type c) = [] -> In (User s) (items (node_args o c)) ->
  In (User s) (items (node_args o {| i_name := i_name c; i_type := i_type c; i_files := fs; i_fallback := i_fallback c; i_args := i_args c |}))).
Proof.
  intros H. specialize (H {| o_plain := fun _ => true; o_chain := fun _ => false; o_create := fun _ _ _ => true;
    o_custom := fun _ => []; o_init := fun _ _ _ => IOk; o_sim := false |}
    {| i_name := "jtc"; i_type := "JTC"; i_files := []; i_fallback := []; i_args := ["word"; "--ros-args"; "-p"; "k:=1"] |} ["a.yaml"] "word" eq_refl).
  vm_compute in H. specialize (H (or_introl eq_refl)). repeat (destruct H as [H|H]; [discriminate H|]). exact H.
Qed.
Print Assumptions c81_user_words_refuted.
(** A params_file that is no text is not an error: the controller is loaded without any file. *)
Theorem c81_bad_file_refuted : ~ (forall o w n, aget (w_params w) (n ++ ".params_file")%string = Some POther -> snd (load o w n) <> Loaded).
Proof. intros H. apply (H o1 (start [("jtc.type", PStr "JTC"); ("jtc.params_file", POther)]) "jtc"); reflexivity. Qed.
Print Assumptions c81_bad_file_refuted.
(** Other parameters of the wrong type are not answered by the service: the exception leaves it. *)
Theorem c81_throws_refuted : ~ (forall o w n, snd (load o w n) <> Throws).
Proof. intros H. apply (H o1 (start [("jtc.type", PStr "JTC"); ("jtc.fallback_controllers", PStr "pid")]) "jtc"). reflexivity. Qed.
Print Assumptions c81_throws_refuted.
