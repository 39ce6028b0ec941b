(** Props_Mock.v -- C49 and C50: the mock hardware. *)
From Coq Require Import List Bool String Ascii Arith NArith ZArith SpecFloat Lia.
Import ListNotations.
From Verif Require Import Base LimitsModel MockModel MockSpec MockProofs MockMain MockMode.
Open Scope string_scope.
Open Scope list_scope.
Open Scope nat_scope.

(** A small arm: joints "a" and "b", "c" mimics "a"; a sensor whose command is mocked; a gpio. *)
Definition arm (dyn : bool) : mcfg := {| g_joints := ["a"; "b"; "c"];
  g_jst := [("a", HW_POS); ("a", HW_VEL); ("a", HW_ACC); ("b", HW_POS); ("b", HW_EFF); ("c", HW_POS)];
  g_jcmd := [("a", HW_POS); ("a", HW_VEL); ("b", HW_POS); ("b", HW_EFF)];
  g_sst := [("ft", "force")]; g_gst := [("io", "out")]; g_gcmd := [("io", "out")];
  g_msens := true; g_mgpio := false; g_disabled := false; g_dyn := dyn;
  g_off := of_Z 3; g_custom := ""; g_mimic := [(2, 0, of_Z 2, of_Z 1)] |}.
Definition init (c : mcfg) : mst :=
  MSt (map (fun k => (k, nan)) (exported_commands c)) (map (fun k => (k, nan)) (exported_states c)) (repeat 0 (List.length (g_joints c))).
Lemma aget_map l k : In k l <-> aget (map (fun k => (k, nan)) l) k <> None.
Proof.
  induction l as [|x l IH]; cbn; [split; [intros []|congruence]|]. destruct (String.eqb_spec k x) as [->|N].
  - split; [discriminate|intros _; left; reflexivity].
  - rewrite <- IH. split; [intros [E|E]; [congruence|exact E]|intros E; right; exact E].
Qed.
Lemma arm_nodup d : NoDup (exported_states (arm d)).
Proof. cbn. repeat (constructor; [cbn; intros H; repeat (destruct H as [H|H]; [discriminate H|]); exact H|]). constructor. Qed.
Lemma arm_slash d : forall pi, In pi (g_jst (arm d) ++ g_jcmd (arm d) ++ g_sst (arm d) ++ g_gst (arm d) ++ g_gcmd (arm d)) -> no_slash (snd pi).
Proof.
  apply Forall_forall. cbn. repeat (constructor; [cbn; repeat split; discriminate|]). constructor.
Qed.
Lemma arm_sane d : sane (arm d) (init (arm d)).
Proof.
  constructor; [apply arm_nodup|apply arm_slash| |apply aget_map|apply aget_map].
  apply Forall_forall. cbn. repeat (constructor; [cbn; tauto|]). constructor.
Qed.
Lemma arm_mimics d p : p <> "c" -> ~ mimics (arm d) p.
Proof. intros N (x&y&u&v&[E|[]]&H). injection E as <- <- <- <-. cbn in H. congruence. Qed.
Definition ops : list mop :=
  [OConf; OCmd "a/position" (of_Z 7); OCmd "b/effort" (of_Z 4); OCmd "ft/force" (of_Z 9); OCmd "io/out" (of_Z 1); ORead (of_Z 1);
   OCmd "a/position" nan; ORead (of_Z 1)].

(** C49, positions: whatever commands, reads and mode switches happened since the last configure, the position state of a
    joint with a position command is the last finite command that a read found, plus the offset. *)
Theorem c49_position_partial : forall c g0 ops g p v,
  sane c g0 -> g_dyn c = false -> g_disabled c = false ->
  In (p, HW_POS) (g_jst c) -> In (p, HW_POS) (g_jcmd c) -> ~ mimics c p -> ~ In (p, HW_POS) (g_gcmd c) ->
  mrun c g0 ops = Some g ->
  last_finite (commands_read (full (p, HW_POS)) (getf (m_cmd g0) (full (p, HW_POS))) [] ops) = Some v ->
  aget (m_st g) (full (p, HW_POS)) = Some (fadd v (pos_off c)).
Proof. exact main_position. Qed.
Print Assumptions c49_position_partial.
Example c49_position_ex : exists g,
  sane (arm false) (init (arm false)) /\ ~ mimics (arm false) "a" /\ mrun (arm false) (init (arm false)) ops = Some g /\
  last_finite (commands_read "a/position" (getf (m_cmd (init (arm false))) "a/position") [] ops) = Some (of_Z 7) /\
  aget (m_st g) "a/position" = Some (of_Z 10) /\ aget (m_st g) "c/position" = Some (of_Z 21).
Proof.
  destruct (mrun (arm false) (init (arm false)) ops) as [g|] eqn:R; [|vm_compute in R; discriminate].
  exists g. split; [apply arm_sane|]. split; [apply arm_mimics; discriminate|]. split; [reflexivity|].
  vm_compute in R. injection R as <-. vm_compute. auto.
Qed.
(** C49, other interfaces (velocity, effort, own interfaces, mocked sensors and gpios): exactly the last finite command. *)
Theorem c49_other_partial : forall c g0 ops g pi v,
  sane c g0 -> g_dyn c = false -> g_disabled c = false -> looped c pi ->
  mrun c g0 ops = Some g ->
  last_finite (commands_read (full pi) (getf (m_cmd g0) (full pi)) [] ops) = Some v ->
  aget (m_st g) (full pi) = Some v.
Proof. exact main_looped. Qed.
Print Assumptions c49_other_partial.
Example c49_other_ex : exists g,
  looped (arm false) ("b", HW_EFF) /\ looped (arm false) ("ft", "force") /\ looped (arm false) ("io", "out") /\
  mrun (arm false) (init (arm false)) ops = Some g /\
  map (fun k => (last_finite (commands_read k nan [] ops), aget (m_st g) k)) ["b/effort"; "ft/force"; "io/out"] =
  [(Some (of_Z 4), Some (of_Z 4)); (Some (of_Z 9), Some (of_Z 9)); (Some (of_Z 1), Some (of_Z 1))].
Proof.
  destruct (mrun (arm false) (init (arm false)) ops) as [g|] eqn:R; [|vm_compute in R; discriminate].
  assert (IN : forall (A : Type) (l : list A) n x, nth_error l n = Some x -> In x l) by (intros A l n x H; exact (nth_error_In _ _ H)).
  exists g.
  split; [left; split; [apply (IN _ _ 4); reflexivity|split; [apply (IN _ _ 3); reflexivity|split; [discriminate|split; [discriminate|apply arm_mimics; discriminate]]]]|].
  split; [right; left; split; [apply (IN _ _ 0); reflexivity|split; [reflexivity|apply arm_mimics; discriminate]]|].
  split; [right; right; split; [apply (IN _ _ 0); reflexivity|split; [right; apply (IN _ _ 0); reflexivity|apply arm_mimics; discriminate]]|].
  split; [reflexivity|].
  vm_compute in R. injection R as <-. vm_compute. reflexivity.
Qed.
(** C49, dynamics mode: one read makes the interface of the joint's mode equal to its finite command (plus the offset). *)
Theorem c49_dynamics_partial : forall c dt cmd modes st st' n p m i x,
  NoDup (exported_states c) -> (forall x, In x (g_jst c ++ g_jcmd c ++ g_sst c ++ g_gst c ++ g_gcmd c) -> no_slash (snd x)) ->
  g_dyn c = true -> g_disabled c = false -> NoDup (g_joints c) -> nth_error (g_joints c) n = Some p -> nth_error modes n = Some m ->
  In (m, i) mode_names -> In (p, i) (g_jst c) -> ~ mimics c p -> ~ In (p, i) (g_gcmd c) ->
  aget st (full (p, i)) <> None -> aget cmd (full (p, i)) = Some x -> isfinite x = true -> isfinite (mode_value c i x) = true ->
  read_st c dt cmd modes st = (st', GOk) -> aget st' (full (p, i)) = Some (mode_value c i x).
Proof. exact main_dyn. Qed.
Print Assumptions c49_dynamics_partial.
(** with dynamics, one read moves the joint by one backward Euler step: commanded position, velocity or acceleration are
    taken over, the other two values follow from them, from the previous state and from the period *)
Theorem c49_dynamics_moves : forall c dt cmd modes st st' n p m x s s',
  NoDup (exported_states c) -> (forall x, In x (g_jst c ++ g_jcmd c ++ g_sst c ++ g_gst c ++ g_gcmd c) -> no_slash (snd x)) ->
  g_dyn c = true -> g_disabled c = false -> NoDup (g_joints c) -> nth_error (g_joints c) n = Some p -> nth_error modes n = Some m -> ~ mimics c p ->
  (forall i, In i [HW_POS; HW_VEL; HW_ACC] -> In (p, i) (g_jst c) /\ ~ In (p, i) (g_gcmd c)) ->
  joint_state st p s -> commanded cmd p m x -> isfinite x = true -> moves c dt m x s s' -> finite3 s -> finite3 s' ->
  read_st c dt cmd modes st = (st', GOk) -> joint_state st' p s'.
Proof. exact main_moves. Qed.
Print Assumptions c49_dynamics_moves.
Definition dops : list mop :=
  [OConf; OSwitch ["a/velocity"]; OCmd "a/velocity" (of_Z 6); OCmd "b/position" (of_Z 2); OCmd "b/effort" (of_Z 4); OCmd "ft/force" (of_Z 9); OCmd "io/out" (of_Z 1); ORead (of_Z 1)].
Example c49_dynamics_ex : exists g, mrun (arm true) (init (arm true)) dops = Some g /\ m_mode g = [1; 0; 0] /\
  aget (m_st g) "a/velocity" = Some (of_Z 6) /\ aget (m_st g) "a/position" = Some (of_Z 9) /\ aget (m_st g) "b/position" = Some (of_Z 5).
Proof.
  destruct (mrun (arm true) (init (arm true)) dops) as [g|] eqn:R; [|vm_compute in R; discriminate].
  exists g. split; [reflexivity|]. vm_compute in R. injection R as <-. vm_compute. repeat split.
Qed.
Definition acmd := aset (m_cmd (init (arm true))) "a/velocity" (of_Z 6).
Example c49_moves_ex : exists st st', joint_state st "a" (of_Z 1, of_Z 2, of_Z 0) /\ commanded acmd "a" 1 (of_Z 6) /\
  moves (arm true) (of_Z 2) 1 (of_Z 6) (of_Z 1, of_Z 2, of_Z 0) (of_Z 13, of_Z 6, of_Z 2) /\ finite3 (of_Z 13, of_Z 6, of_Z 2) /\
  read_st (arm true) (of_Z 2) acmd [1; 0; 0] st = (st', GOk) /\ joint_state st' "a" (of_Z 13, of_Z 6, of_Z 2).
Proof.
  exists [("a/position", of_Z 1); ("a/velocity", of_Z 2); ("a/acceleration", of_Z 0); ("b/position", of_Z 0); ("b/effort", of_Z 0); ("c/position", of_Z 0); ("ft/force", of_Z 0); ("io/out", of_Z 0)].
  eexists. split; [vm_compute; auto|]. split; [reflexivity|]. split; [vm_compute; auto|]. split; [vm_compute; auto|]. split; [vm_compute; reflexivity|vm_compute; auto].
Qed.
(** C49, the interface named by the parameter custom_interface_with_following_offset *)
Theorem c49_custom : forall c dt cmd modes st st' p v,
  NoDup (exported_states c) -> (forall x, In x (g_jst c ++ g_jcmd c ++ g_sst c ++ g_gst c ++ g_gcmd c) -> no_slash (snd x)) ->
  g_disabled c = false ->
  In (p, g_custom c) (g_jst c) -> skipped c (g_custom c) = false -> ~ mimics c p -> ~ In (p, g_custom c) (g_gcmd c) ->
  aget cmd (full (p, HW_POS)) = Some v -> isfinite (fadd v (g_off c)) = true ->
  read_st c dt cmd modes st = (st', GOk) -> aget st' (full (p, g_custom c)) = Some (fadd v (g_off c)).
Proof. exact main_custom. Qed.
Print Assumptions c49_custom.
Definition cust : mcfg := {| g_joints := ["a"]; g_jst := [("a", HW_POS); ("a", "actual")]; g_jcmd := [("a", HW_POS)];
  g_sst := []; g_gst := []; g_gcmd := []; g_msens := false; g_mgpio := false; g_disabled := false; g_dyn := false;
  g_off := of_Z 3; g_custom := "actual"; g_mimic := [] |}.
Example c49_custom_ex :
  In ("a", g_custom cust) (g_jst cust) /\ skipped cust (g_custom cust) = false /\ ~ mimics cust "a" /\
  exists g, mrun cust (init cust) [OConf; OCmd "a/position" (of_Z 7); ORead (of_Z 1)] = Some g /\
  aget (m_st g) "a/actual" = Some (of_Z 10) /\ aget (m_st g) "a/position" = Some (of_Z 7).
Proof.
  split; [cbn; tauto|]. split; [reflexivity|]. split; [intros (x&y&u&v&[]&_)|]. eexists. split; [vm_compute; reflexivity|]. vm_compute. auto.
Qed.
(** C49, mimic joints: after a read the joint follows the mimicked one *)
Theorem c49_mimic : forall c dt cmd modes st st' a b mult off ja jb i,
  NoDup (exported_states c) -> (forall x, In x (g_jst c ++ g_jcmd c ++ g_sst c ++ g_gst c ++ g_gcmd c) -> no_slash (snd x)) ->
  g_disabled c = false -> In i [HW_POS; HW_VEL; HW_ACC] ->
  In (a, b, mult, off) (g_mimic c) -> mimic_once c ->
  nth_error (g_joints c) a = Some ja -> nth_error (g_joints c) b = Some jb -> ~ mimics c jb ->
  In (ja, i) (g_jst c) -> In (jb, i) (g_jst c) -> ~ In (ja, i) (g_gcmd c) -> ~ In (jb, i) (g_gcmd c) ->
  aget st (full (ja, i)) <> None ->
  read_st c dt cmd modes st = (st', GOk) ->
  exists v, aget st' (full (jb, i)) = Some v /\ aget st' (full (ja, i)) = Some (mimic_value i mult off v).
Proof. exact main_mimic. Qed.
Print Assumptions c49_mimic.
Example c49_mimic_ex : mimic_once (arm false) /\ In (2, 0, of_Z 2, of_Z 1) (g_mimic (arm false)) /\ ~ mimics (arm false) "a".
Proof.
  split; [repeat (constructor; [intros []|]); constructor|]. split; [left; reflexivity|]. apply arm_mimics. discriminate.
Qed.
(** The restriction to "since the last configure" is needed: every configure adds the offset to the position again, so
    after configure (or cleanup and configure) the state is not the last command plus the offset. *)
Theorem c49_configure_refuted : exists c g0 ops g p v,
  sane c g0 /\ g_dyn c = false /\ g_disabled c = false /\ In (p, HW_POS) (g_jst c) /\ In (p, HW_POS) (g_jcmd c) /\ ~ mimics c p /\
  mrun c g0 (OCmd (full (p, HW_POS)) v :: ops) = Some g /\ ops = [OConf; ORead (of_Z 1); OConf] /\ isfinite v = true /\
  aget (m_st g) (full (p, HW_POS)) <> Some (fadd v (pos_off c)) /\
  aget (m_st g) (full (p, HW_POS)) = Some (fadd (fadd v (pos_off c)) (pos_off c)).
Proof.
  exists (arm false), (init (arm false)), [OConf; ORead (of_Z 1); OConf]. eexists. exists "b", (of_Z 7).
  split; [apply arm_sane|]. split; [reflexivity|]. split; [reflexivity|]. split; [cbn; tauto|]. split; [cbn; tauto|].
  split; [apply arm_mimics; discriminate|]. split; [vm_compute; reflexivity|]. split; [reflexivity|]. split; [reflexivity|].
  split; [vm_compute; discriminate|vm_compute; reflexivity].
Qed.
Print Assumptions c49_configure_refuted.

(** C50: a switch changes the mode of a joint only if a mode interface of exactly that joint was requested, and to that mode. *)
Theorem c50_only_named : forall c g start n j m m',
  nth_error (g_joints c) n = Some j -> nth_error (m_mode g) n = Some m ->
  nth_error (m_mode (perform c g start)) n = Some m' -> m' <> m ->
  exists i, In (m', i) mode_names /\ asks j i start.
Proof. exact main_only_named. Qed.
Print Assumptions c50_only_named.
Example c50_only_named_ex : m_mode (perform (arm true) (init (arm true)) ["a/velocity"; "b/effort"]) = [1; 0; 0].
Proof. reflexivity. Qed.
(** C50: if no joint's name occurs in another joint's mode interface, an accepted request gives the joint its mode ... *)
Theorem c50_switched_partial : forall c g start n j i m, g_dyn c = true -> distinguishable (g_joints c) ->
  List.length (m_mode g) = List.length (g_joints c) ->
  nth_error (g_joints c) n = Some j -> In (m, i) mode_names -> asks j i start -> prepare c start = true ->
  nth_error (m_mode (perform c g start)) n = Some m.
Proof. exact main_mode_set. Qed.
Print Assumptions c50_switched_partial.
(** ... and two different modes for one joint are rejected. *)
Theorem c50_conflict_partial : forall c start n j i i', g_dyn c = true -> distinguishable (g_joints c) -> nth_error (g_joints c) n = Some j ->
  In i [HW_POS; HW_VEL; HW_ACC] -> In i' [HW_POS; HW_VEL; HW_ACC] -> i <> i' -> asks j i start -> asks j i' start -> prepare c start = false.
Proof. exact main_conflict. Qed.
Print Assumptions c50_conflict_partial.
Definition two (a b : name) : mcfg := {| g_joints := [a; b]; g_jst := []; g_jcmd := []; g_sst := []; g_gst := []; g_gcmd := [];
  g_msens := false; g_mgpio := false; g_disabled := false; g_dyn := true; g_off := fzero; g_custom := ""; g_mimic := [] |}.
Example c50_switched_ex : distinguishable (g_joints (two "left_joint" "right_joint")) /\
  prepare (two "left_joint" "right_joint") ["right_joint/velocity"; "left_joint/acceleration"] = true /\
  m_mode (perform (two "left_joint" "right_joint") (init (two "left_joint" "right_joint")) ["right_joint/velocity"; "left_joint/acceleration"]) = [2; 1] /\
  prepare (two "left_joint" "right_joint") ["right_joint/velocity"; "right_joint/position"] = false.
Proof.
  split; [|vm_compute; auto]. split.
  - cbn. repeat (constructor; [cbn; intros H; repeat (destruct H as [H|H]; [discriminate H|]); exact H|]). constructor.
  - intros j j' i [<-|[<-|[]]] [<-|[<-|[]]] [<-|[<-|[<-|[]]]] H; try reflexivity; vm_compute in H; discriminate.
Qed.
(** Without that restriction both parts fail: joints are matched by substring, so "joint1" captures the keys of "joint10". *)
Theorem c50_refuted : exists c g start start2, g_dyn c = true /\ NoDup (g_joints c) /\ List.length (m_mode g) = List.length (g_joints c) /\
  nth_error (g_joints c) 1 = Some "joint10" /\
  (prepare c start = true /\ asks "joint10" HW_VEL start /\ nth_error (m_mode (perform c g start)) 1 = Some 0) /\
  (prepare c start2 = true /\ asks "joint10" HW_VEL start2 /\ asks "joint10" HW_ACC start2).
Proof.
  exists (two "joint1" "joint10"), (init (two "joint1" "joint10")), ["joint1/position"; "joint10/velocity"],
    ["joint1/position"; "joint10/velocity"; "joint10/acceleration"].
  split; [reflexivity|]. split; [repeat (constructor; [cbn; intros H; repeat (destruct H as [H|H]; [discriminate H|]); exact H|]); constructor|].
  split; [reflexivity|]. split; [reflexivity|]. unfold asks. cbn. repeat split; auto.
Qed.
Print Assumptions c50_refuted.
