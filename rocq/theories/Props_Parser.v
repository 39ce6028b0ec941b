(** Props_Parser.v -- C46: joint limits from the description only become tighter.
    [joint_limits u j] are the limits computed for a joint with URDF part [u] and <ros2_control> part [j]. *)
From Coq Require Import ZArith Bool List String SpecFloat.
From Verif Require Import LimitsModel FloatOrder ParserModel ParserSpec ParserProofs.
Import ListNotations.
Open Scope string_scope.
Open Scope list_scope.

(** C46: unless switched off, a value is admitted exactly if the URDF and every readable tag admit it *)
Theorem c46_position : forall u j, tidy u j -> enabled j "position" -> forall p, double p ->
  (pos_allowed (joint_limits u j) p <->
   urdf_pos u p /\ forall i, In i (j_cmds j) -> i_name i = "position" -> tag_range i p).
Proof. exact main_position. Qed.
Print Assumptions c46_position.
Theorem c46_velocity : forall u j, tidy u j -> enabled j "velocity" -> forall v, double v ->
  (vel_allowed (joint_limits u j) v <->
   urdf_vel u v /\ forall i, In i (j_cmds j) -> i_name i = "velocity" -> tag_magnitude i v).
Proof. exact main_velocity. Qed.
Print Assumptions c46_velocity.
Theorem c46_effort : forall u j, tidy u j -> enabled j "effort" -> forall v, double v ->
  (eff_allowed (joint_limits u j) v <->
   urdf_eff u v /\ forall i, In i (j_cmds j) -> i_name i = "effort" -> tag_magnitude i v).
Proof. exact main_effort. Qed.
Print Assumptions c46_effort.
(** the soft limits are the safety controller's within the hard limits *)
Theorem c46_soft : forall u j s, tidy u j -> enabled j "position" ->
  (forall f, u_safety u = Some f -> isnan (f_lower f) = false /\ isnan (f_upper f) = false) ->
  soft_limits u j = Some s -> exists f, u_safety u = Some f /\ s_kp s = f_kp f /\ s_kv s = f_kv f /\
  forall p, double p -> (fle (s_minp s) p = true /\ fle p (s_maxp s) = true <->
    pos_allowed (joint_limits u j) p /\ fle (f_lower f) p = true /\ fle p (f_upper f) = true).
Proof. exact main_soft. Qed.
Print Assumptions c46_soft.
(** switched off for the joint: no limit at all; switched off for the command interfaces of a kind: none of that kind *)
Theorem c46_disabled_joint : forall u j, j_enable j = false ->
  let l := joint_limits u j in hp l = false /\ hv l = false /\ ha l = false /\ hd l = false /\ hj l = false /\ he l = false.
Proof. exact main_joint_off. Qed.
Print Assumptions c46_disabled_joint.
Theorem c46_disabled_interface : forall u j,
  (off j "position" -> hp (joint_limits u j) = false) /\ (off j "velocity" -> hv (joint_limits u j) = false) /\
  (off j "effort" -> he (joint_limits u j) = false) /\ (off j "jerk" -> hj (joint_limits u j) = false) /\
  (off j "acceleration" -> ha (joint_limits u j) = false /\ hd (joint_limits u j) = false).
Proof. exact main_kind_off. Qed.
Print Assumptions c46_disabled_interface.
(** acceleration and jerk are not in the URDF: (has acceleration, has deceleration, acceleration, deceleration) *)
Theorem c46_acceleration : forall u j i, j_enable j = true -> only_tag j i -> i_name i = "acceleration" -> i_enable i = true ->
  (ha (joint_limits u j), hd (joint_limits u j), maxa (joint_limits u j), maxd (joint_limits u j)) =
  match i_min i, i_max i with
  | Number d, Number a => if isfinite d then if isfinite a then (true, true, a, fabs d) else (false, true, fabs d, fabs d)
                          else if isfinite a then (true, false, a, fabs a) else (false, false, nan, nan)
  | Number d, Absent => if isfinite d then (false, true, fabs d, fabs d) else (false, false, nan, nan)
  | Absent, Number a => if isfinite a then (true, false, a, fabs a) else (false, false, nan, nan)
  | _, _ => (false, false, nan, nan)
  end.
Proof. exact main_acceleration. Qed.
Print Assumptions c46_acceleration.
Theorem c46_jerk : forall u j i, j_enable j = true -> only_tag j i -> i_name i = "jerk" -> i_enable i = true ->
  (hj (joint_limits u j), maxj (joint_limits u j)) =
  match i_min i, i_max i with
  | Invalid, _ => (false, nan)
  | _, Number m => if isfinite m then (true, fabs m) else (false, nan)
  | _, _ => (false, nan)
  end.
Proof. exact main_jerk. Qed.
Print Assumptions c46_jerk.

Definition z := of_Z.
Definition urdf := {| u_type := Revolute; u_limits := Some {| u_lower := z (-3); u_upper := z 3; u_vel := z 2; u_eff := z 50 |};
  u_safety := Some {| f_lower := z (-2); f_upper := z 2; f_kp := z 10; f_kv := z 10 |} |}.
Definition cmd n a b := {| i_name := n; i_min := a; i_max := b; i_enable := true |}.
Definition arm := {| j_enable := true; j_cmds :=
  [cmd "position" (Number (z (-1))) (Number (z 9)); cmd "velocity" Absent (Number (z 1)); cmd "effort" Invalid (Number (z 1));
   cmd "acceleration" Absent (Number (z 4)); cmd "jerk" Absent (Number (z 7))] |}.
Definition offs := {| j_enable := true; j_cmds :=
  [{| i_name := "position"; i_min := Absent; i_max := Number (z 1); i_enable := false |};
   {| i_name := "jerk"; i_min := Absent; i_max := Number (z 7); i_enable := false |}] |}.
Example c46_off_example : off offs "position" /\ off offs "jerk" /\ hv (joint_limits urdf offs) = true.
Proof.
  split; [|split; [|reflexivity]].
  - split; [exists (nth 0 (j_cmds offs) (cmd "" Absent Absent)); split; [left; reflexivity|reflexivity]|]. intros i H E; cbn in H; repeat (destruct H as [<-|H]; [reflexivity|]); destruct H.
  - split; [exists (nth 1 (j_cmds offs) (cmd "" Absent Absent)); split; [right; left; reflexivity|reflexivity]|]. intros i H E; cbn in H; repeat (destruct H as [<-|H]; [reflexivity|]); destruct H.
Qed.
Example c46_example : tidy urdf arm /\ enabled arm "position" /\ enabled arm "velocity" /\ enabled arm "effort" /\
  (let l := joint_limits urdf arm in minp l = z (-1) /\ maxp l = z 3 /\ maxv l = z 1 /\ maxe l = z 50 /\ maxa l = z 4 /\ maxj l = z 7) /\
  soft_limits urdf arm = Some {| s_minp := z (-1); s_maxp := z 2; s_kp := z 10; s_kv := z 10 |} /\
  double (z 2) /\ ~ vel_allowed (joint_limits urdf arm) (z 2) /\ urdf_vel urdf (z 2) /\
  only_tag arm (cmd "jerk" Absent (Number (z 7))).
Proof.
  split; [|split; [|split; [|split]]].
  - split; [intros x E; injection E as <-; vm_compute; auto|].
    intros i H. cbn in H. repeat (destruct H as [<-|H]; [split; intros v E; try discriminate; injection E as <-; reflexivity|]). destruct H.
  - split; [reflexivity|]. intros i H. cbn in H. repeat (destruct H as [<-|H]; [reflexivity|]). destruct H.
  - split; [reflexivity|]. intros i H. cbn in H. repeat (destruct H as [<-|H]; [reflexivity|]). destruct H.
  - split; [reflexivity|]. intros i H. cbn in H. repeat (destruct H as [<-|H]; [reflexivity|]). destruct H.
  - split; [vm_compute; tauto|]. split; [vm_compute; reflexivity|]. split; [split; reflexivity|].
    split; [intros H; specialize (H eq_refl); discriminate|].
    split; [intros x E; injection E as <-; reflexivity|].
    eexists. exists []. split; [cbn; match goal with |- ?x = _ => instantiate (1 := firstn 4 x) end; reflexivity|].
    intros k H. cbn in H. repeat (destruct H as [<-|H]; [discriminate|]). destruct H.
Qed.
