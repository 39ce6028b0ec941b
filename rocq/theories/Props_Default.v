(** Props_Default.v -- C79: components that leave the exporting to the base class (DefaultModel.v): for every description, every
    order the maps are gone through, every sequence of accesses. *)
From Coq Require Import Ascii ZArith Floats.SpecFloat Permutation.
From Verif Require Import LimitsModel HandleModel HandleSpec ParserModel XmlTypes XmlModel Base Events HwModel RmModel LoadModel LoadSpec
  DefaultModel DefaultSpec DefaultProofs DefaultProofs2 DefaultProofs3 DefaultProofs4 DefaultProofs5 DefaultProofs6 RmWitness.
Open Scope string_scope. Open Scope nat_scope. Open Scope list_scope.

(** what an interface contains first: the initial value of the description read as its data type, and where there is none NaN, false,
    the largest integer (an unsigned one with a minus sign is C41's exception) *)
Theorem c79_initial : forall u i v,
  (starts_with u i v -> initial u i = Some v) /\
  ((forall t, ii_type i = word t -> ~ unsigned t \/ ~ In "-"%char (list_ascii_of_string (ii_initial i))) -> initial u i = Some v -> starts_with u i v).
Proof. exact (fun u i v => conj (initial_in u i v) (initial_out u i v)). Qed.
Print Assumptions c79_initial.
(** exactly the described interfaces are exported, whatever the order of the maps *)
Theorem c79_exported : forall u hs h, some_order u -> sound_robot u hs -> In h hs ->
  (exists ks, le_states (exports_of u hs) (XmlTypes.h_name h) = Some ks /\ Permutation ks (map fst (offered_states u h))) /\
  (XmlTypes.h_type h <> "sensor" ->
   exists ks, le_cmds (exports_of u hs) (XmlTypes.h_name h) = Some ks /\ Permutation ks (map fst (offered_cmds u h))).
Proof. exact exported. Qed.
Print Assumptions c79_exported.
(** so a robot of such components is loaded, with exactly these interfaces *)
Theorem c79_loads : forall e u ur hs s0, some_order u -> sound_robot u hs -> (forall h, In h hs -> nothing_ignored h) -> nothing s0 ->
  (forall h t, In h hs -> e_hw e t (XmlTypes.h_name h) HInit = CbSuccess) ->
  exists s, load e (exports_of u hs) ur (map desc_of hs) s0 = (s, true) /\
    (forall k, In k (rm_skeys (rm_of s)) <-> exists h, In h hs /\ In k (map fst (offered_states u h))) /\
    (forall k, In k (rm_ckeys (rm_of s)) <-> exists h, In h hs /\ In k (map fst (offered_cmds u h))).
Proof. exact loads. Qed.
Print Assumptions c79_loads.
(** an initial value that cannot be read, or an interface the base class ignores: the robot is not loaded *)
Theorem c79_bad_state : forall u hs h c i e ur s0, some_order u -> named_robot u hs -> In h hs -> In c (parts_with_states h) -> In i (ci_states c) ->
  unreadable u i -> nothing s0 -> snd (load e (exports_of u hs) ur (map desc_of hs) s0) = false.
Proof. exact bad_state. Qed.
Print Assumptions c79_bad_state.
Theorem c79_bad_command : forall u hs h c i e ur s0, some_order u -> named_robot u hs -> In h hs -> In c (parts_with_cmds h) -> In i (ci_cmds c) ->
  unreadable u i -> nothing s0 -> snd (load e (exports_of u hs) ur (map desc_of hs) s0) = false.
Proof. exact bad_cmd. Qed.
Print Assumptions c79_bad_command.
Theorem c79_ignored : forall u hs k e ur s0, some_order u -> named_robot u hs -> nothing s0 ->
  (describes_state (map desc_of hs) k /\ (forall h, In h hs -> ~ In k (map fst (offered_states u h)))) \/
  (describes_cmd (map desc_of hs) k /\ (forall h, In h hs -> ~ In k (map fst (offered_cmds u h)))) ->
  snd (load e (exports_of u hs) ur (map desc_of hs) s0) = false.
Proof. exact ignored. Qed.
Print Assumptions c79_ignored.
(** a state interface shows, to the component and to every controller, what its component stored into it last, and no access to
    anything else changes it *)
Theorem c79_states : forall u hs h n i v0 l, some_order u -> sound_robot u hs -> In h hs -> In (n, i) (offered_states u h) -> starts_with u i v0 ->
  Forall access_ok l ->
  let m := do_all (build u hs) l in let v := latest (state_store (XmlTypes.h_name h) n) v0 l in
  (forall T, snd (do_access m (CtrlGetState n T)) = seen v T) /\
  (forall T, snd (do_access m (CompGetState (XmlTypes.h_name h) n T)) = seen v T) /\
  (forall new, value_ok new -> snd (do_access m (CompSetState (XmlTypes.h_name h) n new)) = taken v new).
Proof. exact states. Qed.
Print Assumptions c79_states.
(** a command interface shows what the controllers or its component stored into it last *)
Theorem c79_commands : forall u hs h n i v0 l, some_order u -> sound_robot u hs -> In h hs -> In (n, i) (offered_cmds u h) -> starts_with u i v0 ->
  Forall access_ok l ->
  let m := do_all (build u hs) l in let v := latest (cmd_store (XmlTypes.h_name h) n) v0 l in
  (forall T, snd (do_access m (CtrlGetCmd n T)) = seen v T) /\
  (forall T, snd (do_access m (CompGetCmd (XmlTypes.h_name h) n T)) = seen v T) /\
  (forall new, value_ok new -> snd (do_access m (CtrlSetCmd n new)) = taken v new) /\
  (forall new, value_ok new -> snd (do_access m (CompSetCmd (XmlTypes.h_name h) n new)) = taken v new).
Proof. exact commands. Qed.
Print Assumptions c79_commands.
(** any other name is refused and nothing changes *)
Theorem c79_unknown : forall u hs l x, some_order u -> sound_robot u hs -> Forall access_ok l ->
  match x with
  | CompSetState c n _ | CompGetState c n _ => forall h, In h hs -> XmlTypes.h_name h = c -> ~ In n (map fst (offered_states u h))
  | CompSetCmd c n _ | CompGetCmd c n _ => forall h, In h hs -> XmlTypes.h_name h = c -> ~ In n (map fst (offered_cmds u h))
  | CtrlGetState n _ => forall h, In h hs -> ~ In n (map fst (offered_states u h))
  | CtrlGetCmd n _ | CtrlSetCmd n _ => forall h, In h hs -> ~ In n (map fst (offered_cmds u h))
  end -> do_access (do_all (build u hs) l) x = (do_all (build u hs) l, Refused).
Proof. exact unknown. Qed.
Print Assumptions c79_unknown.

(** ---- the hypotheses are met *)
Definition itf n t v : itf_info := {| ii_name := n; ii_min := ""; ii_max := ""; ii_initial := v; ii_type := t; ii_size := 1; ii_params := []; ii_limits := true |}.
Definition comp n cs ss : comp_info := {| ci_type := "joint"; ci_name := n; ci_mimic := NotSet; ci_limits := true; ci_cmds := cs; ci_states := ss; ci_params := [] |}.
Definition hw n t js ss gs : hw_info := {| XmlTypes.h_name := n; XmlTypes.h_type := t; XmlTypes.h_group := ""; h_rate := 0; h_async := false; h_prio := 50; h_policy := "synchronized";
  h_cores := []; h_warn := true; h_plugin := "p"; h_params := []; h_joints := js; h_sensors := ss; h_gpios := gs; h_trans := [] |}.
Definition num (s : string) : option F := if String.eqb s "2" then Some (of_Z 2) else None.
(** the maps are gone through backwards *)
Definition there : host := {| u_stod := num; u_stof := num; u_ord := @rev _; u_more_s := fun n => if String.eqb n "arm" then [("arm/mode", itf "mode" "uint8" "7")] else []; u_more_c := fun _ => [] |}.
Definition arm := hw "arm" "system" [comp "j1" [itf "position" "double" "2"] [itf "position" "double" ""; itf "homed" "bool" "TRUE"]; comp "j2" [itf "effort" "float32" ""] [itf "ticks" "int16" "-5"]]
  [comp "imu" [] [itf "temp" "uint8" ""]] [comp "io" [itf "out" "bool" ""] [itf "in" "uint32" "17"]].
Definition grip := hw "grip" "actuator" [comp "g" [itf "position" "double" ""] [itf "position" "double" "2"]] [] [].
Definition cam := hw "cam" "sensor" [] [comp "c" [] [itf "image" "int32" "12"]] [].
Definition robot := [arm; grip; cam].
Lemma any_order : some_order there. Proof. intros l. apply Permutation_sym, Permutation_rev. Qed.
Ltac distinct := repeat (constructor; [intros X; repeat (destruct X as [X|X]; [discriminate X|]); exact X|]); constructor.
Ltac starts := match goal with |- exists v, starts_with there ?i v => let w := eval vm_compute in (initial there i) in match w with Some ?v => exists v; apply initial_out; [intros t; destruct t; (left; unfold unsigned; intros [Z|[Z|Z]]; discriminate Z) || (intros E; discriminate E) || (intros _; right; vm_compute; intros X; repeat (destruct X as [X|X]; [discriminate X|]); exact X)|vm_compute; reflexivity] end end.
Example c79_example_sound : sound_robot there robot /\ (forall h, In h robot -> nothing_ignored h) /\ nothing blank /\
  (forall h t, In h robot -> e_hw env_ok t (XmlTypes.h_name h) HInit = CbSuccess).
Proof.
  split; [|split; [|split]].
  - split.
    + distinct.
    + intros h [<-|[<-|[<-|[]]]]; cbn; auto.
    + vm_compute. distinct.
    + vm_compute. distinct.
    + intros h d [<-|[<-|[<-|[]]]] D; cbn in D; repeat (destruct D as [D|D]); try contradiction; try (injection D as <-); subst; starts.
  - intros h [<-|[<-|[<-|[]]]]; split; intros E; try discriminate E; split; intros c C; cbn in C; repeat (destruct C as [C|C]; [subst; cbn; auto|]); try contradiction.
  - constructor; try reflexivity. repeat split; reflexivity.
  - intros h t I. reflexivity.
Qed.
Definition story := [CompSetState "arm" "j1/position" (VDouble (of_Z 1)); CtrlSetCmd "j1/position" (VDouble (of_Z 3)); CompSetState "arm" "imu/temp" (VInt INT8 3);
  CompSetState "grip" "j1/position" (VDouble (of_Z 9)); CompSetState "arm" "j1/position" (VBool true); CtrlSetCmd "io/out" (VBool true)].
Example c79_example_story : Forall access_ok story /\ let m := do_all (build there robot) story in
  snd (do_access m (CtrlGetState "j1/position" DOUBLE)) = Got (VDouble (of_Z 1)) /\
  snd (do_access m (CompGetCmd "arm" "j1/position" DOUBLE)) = Got (VDouble (of_Z 3)) /\
  snd (do_access m (CtrlGetState "imu/temp" UINT8)) = Got (VInt UINT8 255) /\
  snd (do_access m (CompGetCmd "arm" "io/out" DOUBLE)) = Got (VDouble (of_Z 1)) /\
  snd (do_access m (CtrlGetState "arm/mode" UINT8)) = Got (VInt UINT8 7) /\
  snd (do_access m (CompGetState "grip" "j1/position" DOUBLE)) = Refused /\
  snd (do_access m (CtrlGetState "j2/ticks" INT16)) = Got (VInt INT16 (-5)).
Proof.
  split; [repeat (constructor; [cbn; repeat split; discriminate|]); constructor|]. vm_compute. repeat split.
Qed.
Example c79_example_bad : let h := hw "arm" "system" [comp "j1" [] [itf "homed" "bool" "yes"]] [] [] in
  named_robot there [h] /\ In (comp "j1" [] [itf "homed" "bool" "yes"]) (parts_with_states h) /\ unreadable there (itf "homed" "bool" "yes").
Proof.
  cbv zeta. split; [|split].
  - split; [distinct|intros h [<-|[]]; cbn; auto|vm_compute; distinct|vm_compute; constructor].
  - left. reflexivity.
  - split.
    + intros v V. apply initial_in in V. vm_compute in V. discriminate.
    + intros t _. right. vm_compute. intros X. repeat (destruct X as [X|X]; [discriminate X|]). exact X.
Qed.

(** ---- what one might expect and is not so *)
(** "The <gpio> tag can be used as a child of all three types of hardware components" (hardware_interface_types_userdoc.rst:67):
    an actuator with one is never loaded, whatever else the base class is told to export elsewhere *)
Theorem c79_gpio_refuted : exists h c i, XmlTypes.h_type h = "actuator" /\ In c (h_gpios h) /\ In i (ci_states c) /\
  sound_robot there [h] /\ forall e ur s0, nothing s0 -> snd (load e (exports_of there [h]) ur (map desc_of [h]) s0) = false.
Proof.
  set (c := comp "io" [] [itf "in" "bool" "true"]). exists (hw "grip" "actuator" [comp "g" [itf "position" "double" ""] [itf "position" "double" "2"]] [] [c]), c, (itf "in" "bool" "true").
  split; [reflexivity|]. split; [left; reflexivity|]. split; [left; reflexivity|].
  assert (NR : named_robot there [hw "grip" "actuator" [comp "g" [itf "position" "double" ""] [itf "position" "double" "2"]] [] [c]]).
  { split; [distinct|intros h [<-|[]]; cbn; auto|vm_compute; distinct|vm_compute; distinct]. }
  split.
  - destruct NR as [A B C D]. split; try assumption. intros h d [<-|[]] X. cbn in X. repeat (destruct X as [X|X]); try contradiction; subst; starts.
  - intros e ur s0 N. apply (ignored there _ "io/in" e ur s0 any_order NR N). left. split.
    + exists (desc_of (hw "grip" "actuator" [comp "g" [itf "position" "double" ""] [itf "position" "double" "2"]] [] [c])), (part_of c), "in".
      split; [left; reflexivity|]. split; [right; right; left; reflexivity|]. split; [left; reflexivity|reflexivity].
    + intros h [<-|[]] X. vm_compute in X. repeat (destruct X as [X|X]; [discriminate X|]). exact X.
Qed.
Print Assumptions c79_gpio_refuted.
(** "Exported Command- and StateInterfaces in order they are listed in the hardware description" (HCH 606) *)
Theorem c79_order_refuted : exists u h ks, some_order u /\ sound_robot u [h] /\ le_states (exports_of u [h]) (XmlTypes.h_name h) = Some ks /\
  ks <> map fst (offered_states u h).
Proof.
  exists there, (hw "cam" "sensor" [] [comp "c" [] [itf "image" "int32" "12"; itf "depth" "bool" ""]] []), ["c/depth"; "c/image"].
  split; [exact any_order|]. split; [|split; [vm_compute; reflexivity|vm_compute; discriminate]].
  split; [distinct|intros h [<-|[]]; cbn; auto|vm_compute; distinct|vm_compute; constructor|].
  intros h d [<-|[]] X. cbn in X. repeat (destruct X as [X|X]); try contradiction; subst; starts.
Qed.
Print Assumptions c79_order_refuted.
(** two components that describe the same state interface are loaded; what the second stores is accepted, read back by itself and
    seen by nobody else *)
Theorem c79_second_owner_refuted : exists u hs s m, some_order u /\ load env_ok (exports_of u hs) 100 (map desc_of hs) blank = (s, true) /\
  map XmlTypes.h_name hs = ["left"; "right"] /\
  do_access (build u hs) (CompSetState "right" "j/position" (VDouble (of_Z 5))) = (m, Stored) /\
  snd (do_access m (CompGetState "right" "j/position" DOUBLE)) = Got (VDouble (of_Z 5)) /\
  snd (do_access m (CtrlGetState "j/position" DOUBLE)) = Got (VDouble S754_nan).
Proof.
  set (hs := [hw "left" "system" [comp "j" [] [itf "position" "double" ""]] [] []; hw "right" "system" [comp "j" [] [itf "position" "double" ""]] [] []]).
  exists there, hs, (fst (load env_ok (exports_of there hs) 100 (map desc_of hs) blank)), (fst (do_access (build there hs) (CompSetState "right" "j/position" (VDouble (of_Z 5))))).
  split; [exact any_order|]. split; [vm_compute; reflexivity|]. split; [reflexivity|]. split; [reflexivity|]. split; vm_compute; reflexivity.
Qed.
Print Assumptions c79_second_owner_refuted.
