(** Props_Sem.v -- C66: semantic components report what their interfaces hold. *)
From Coq Require Import List Bool String Arith.
From Verif Require Import OrderedModel OrderedSpec SemModel SemSpec SemProofs SemMain.
From Verif Require LimitsModel.
Import ListNotations.
Open Scope string_scope.
Open Scope list_scope.
Open Scope nat_scope.

(** C66.  Whatever the sensor object remembers and however often it is asked: field "f" of the message is the latest value
    read from the interface "<name>/f". *)
Theorem c66_force_torque : forall V (nan : V) name data, List.length data = 6 -> reports ft_fields name (set_data (ft_sensor nan name) data).
Proof. exact (fun V nan name data L => reports_all ft_fields name (set_data (ft_sensor nan name) data) eq_refl eq_refl L eq_refl). Qed.
Print Assumptions c66_force_torque.
Theorem c66_imu : forall V (zero one : V) name data, List.length data = 10 -> reports imu_fields name (set_data (imu_sensor zero one name) data).
Proof. exact (fun V zero one name data L => reports_all imu_fields name (set_data (imu_sensor zero one name) data) eq_refl eq_refl L eq_refl). Qed.
Print Assumptions c66_imu.
Theorem c66_pose : forall V (zero one : V) name data, List.length data = 7 -> reports pose_fields name (set_data (pose_sensor zero one name) data).
Proof. exact (fun V zero one name data L => reports_all pose_fields name (set_data (pose_sensor zero one name) data) eq_refl eq_refl L eq_refl). Qed.
Print Assumptions c66_pose.
Theorem c66_magnetic : forall V (zero : V) name data, List.length data = 3 -> reports mag_fields name (set_data (mag_sensor zero name) data).
Proof. exact (fun V zero name data L => reports_all mag_fields name (set_data (mag_sensor zero name) data) eq_refl eq_refl L eq_refl). Qed.
Print Assumptions c66_magnetic.

(** The accessors return the corresponding fields of the message. *)
Definition parts {V} (fields : list string) (get : (nat -> option V) -> sensor V -> option (sensor V * list V)) (fs : list string) : Prop :=
  forall rd s s' l, List.length (s_data s) = List.length fields -> List.length (s_axes s) = List.length fields ->
  get rd s = Some (s', l) -> exists msg, message fields rd s = Some (s', msg) /\ values_of msg fs l.
Theorem c66_parts : forall V,
  @parts V ft_fields get_forces ["force.x"; "force.y"; "force.z"] /\ @parts V ft_fields get_torques ["torque.x"; "torque.y"; "torque.z"] /\
  @parts V imu_fields imu_orientation ["orientation.x"; "orientation.y"; "orientation.z"; "orientation.w"] /\
  @parts V imu_fields imu_angular_velocity ["angular_velocity.x"; "angular_velocity.y"; "angular_velocity.z"] /\
  @parts V imu_fields imu_linear_acceleration ["linear_acceleration.x"; "linear_acceleration.y"; "linear_acceleration.z"] /\
  @parts V pose_fields pose_position ["position.x"; "position.y"; "position.z"] /\
  @parts V pose_fields pose_orientation ["orientation.x"; "orientation.y"; "orientation.z"; "orientation.w"].
Proof.
  exact (fun V => conj (fun rd s s' l => slice_spec ft_fields 0 3 rd s s' l) (conj (fun rd s s' l => slice_spec ft_fields 3 3 rd s s' l)
    (conj (fun rd s s' l => slice_spec imu_fields 0 4 rd s s' l) (conj (fun rd s s' l => slice_spec imu_fields 4 3 rd s s' l)
    (conj (fun rd s s' l => slice_spec imu_fields 7 3 rd s s' l) (conj (fun rd s s' l => slice_spec pose_fields 0 3 rd s s' l)
    (fun rd s s' l => slice_spec pose_fields 3 4 rd s s' l))))))).
Qed.
Print Assumptions c66_parts.
(** A force/torque sensor with missing axes (empty names): each axis has the value of the interface given for it, missing
    axes stay NaN. *)
Theorem c66_missing_axes : forall V (nan : V) us ks s rds, distinct us -> assign us (ft_sensor_axes nan ks) = (s, true) ->
  exists s', updates rds s = Some s' /\
  Forall2 (fun k v => if String.eqb k "" then v = nan else exists p, asks_for us "" k p /\ v = latest rds p nan) ks (s_data s').
Proof. exact (fun V => axes_spec). Qed.
Print Assumptions c66_missing_axes.
(** Range and GPS: the current value of the interface of that name, converted; the documented filler if it cannot be read;
    covariances are remembered. *)
Theorem c66_range : forall V (to_float : V -> V) nan us name s rd, distinct us -> assign us (range_sensor name) = (s, true) ->
  exists p, asks_for us "" (name ++ "/range") p /\ range_message to_float nan rd s = Some [("range", now rd to_float nan p)].
Proof. exact (fun V => range_main). Qed.
Print Assumptions c66_range.
Theorem c66_gps : forall V to_i8 to_u16 (nan max_i8 max_u16 zero : V) us name (cov : bool) data s rd,
  List.length data = (if cov then 3 else 0) -> distinct us -> assign us (set_data (gps_sensor zero cov name) data) = (s, true) ->
  exists s' msg, gps_message to_i8 to_u16 nan max_i8 max_u16 rd s = Some (s', msg) /\
    map fst msg = gps_fields ++ (if cov then gps_cov_fields else []) /\
    (forall f v, In (f, v) msg -> exists p, asks_for us "" (name ++ "/" ++ f) p /\
       gps_value to_i8 to_u16 nan max_i8 max_u16 rd (combine gps_cov_fields data) f p v) /\
    s_refs s' = s_refs s /\ List.length (s_data s') = List.length data /\
    (forall f v, In (f, v) (combine gps_cov_fields (s_data s')) -> In (f, v) msg).
Proof. exact (fun V => gps_main). Qed.
Print Assumptions c66_gps.
(** get_values into an empty vector of the right capacity: all values, in the order of the names; any other capacity is
    refused. *)
Theorem c66_values : forall V (us : list iface) (s0 s : sensor V) rd, distinct us -> s_refs s0 = [] -> assign us s0 = (s, true) ->
  (forall p, rd p <> None) ->
  exists l, get_values rd (List.length (s_names s0)) [] s = Some (true, l) /\
  Forall2 (fun k v => exists p, asks_for us "" k p /\ rd p = Some v) (s_names s0) l.
Proof. exact (fun V => values_main). Qed.
Print Assumptions c66_values.
Theorem c66_values_capacity : forall V (s : sensor V) rd cap vs, cap <> List.length (s_refs s) -> get_values rd cap vs s = Some (false, vs).
Proof. exact (fun V => values_capacity). Qed.
Print Assumptions c66_values_capacity.
(** Command devices write each value to the interface it is meant for, and nothing else; success means all were written;
    a wrong number of values writes nothing. *)
Theorem c66_set_values : forall V us names cap refs ok (vs : list V) w b, distinct us -> get_ordered_interfaces us names "" cap [] = Returned true refs ->
  set_values ok refs vs = (w, b) ->
  (forall p v, In (p, v) w -> exists i k, nth_error names i = Some k /\ nth_error vs i = Some v /\ asks_for us "" k p) /\
  (b = true -> List.length vs = List.length names /\ forall i k v, nth_error names i = Some k -> nth_error vs i = Some v -> exists p, asks_for us "" k p /\ In (p, v) w) /\
  (List.length vs <> List.length names -> w = [] /\ b = false).
Proof. exact (fun V => set_values_main). Qed.
Print Assumptions c66_set_values.
Theorem c66_led : forall V (out : V -> bool) widen us name r g b cap refs ok x y z w res, distinct us ->
  get_ordered_interfaces us (led_names name r g b) "" cap [] = Returned true refs -> led_set out widen ok refs x y z = Some (w, res) ->
  (out x || out y || out z = true -> w = [] /\ res = false) /\
  (forall p v, In (p, v) w -> (v = widen x /\ asks_for us "" (name ++ "/" ++ r) p) \/ (v = widen y /\ asks_for us "" (name ++ "/" ++ g) p) \/ (v = widen z /\ asks_for us "" (name ++ "/" ++ b) p)) /\
  (res = true -> exists pr pg pb, asks_for us "" (name ++ "/" ++ r) pr /\ asks_for us "" (name ++ "/" ++ g) pg /\ asks_for us "" (name ++ "/" ++ b) pb /\
     w = [(pr, widen x); (pg, widen y); (pb, widen z)]).
Proof. exact (fun V => led_main). Qed.
Print Assumptions c66_led.

(** ---- examples *)
Definition itf p i := {| prefix_name := p; interface_name := i |}.
Definition loans := [itf "m" "magnetic_field.z"; itf "j" "position"; itf "m" "magnetic_field.x"; itf "m" "magnetic_field.y"].
Example c66_distinct : distinct loans.
Proof. unfold distinct. cbn. repeat (constructor; [cbn; intuition discriminate|]). constructor. Qed.
Definition rd1 (p : nat) : option nat := Some (10 + p).
Definition rd2 (p : nat) : option nat := if p =? 2 then None else Some (20 + p).
Example c66_example : exists s, assign loans (mag_sensor 0 "m") = (s, true) /\
  option_map snd (calls mag_fields [rd1; rd2] s []) = Some [("magnetic_field.x", 12); ("magnetic_field.y", 23); ("magnetic_field.z", 20)].
Proof. eexists. split; vm_compute; reflexivity. Qed.
Definition ft_loans := [itf "a" "tz"; itf "a" "fx"].
Example c66_axes_example : exists s, assign ft_loans (ft_sensor_axes 99 ["a/fx"; ""; ""; ""; ""; "a/tz"]) = (s, true) /\
  option_map s_data (updates [rd1] s) = Some [11; 99; 99; 99; 99; 10].
Proof. eexists. split; vm_compute; reflexivity. Qed.
Definition led_loans := [itf "l" "b"; itf "l" "r"; itf "l" "g"].
Example c66_led_example : exists refs, get_ordered_interfaces led_loans (led_names "l" "r" "g" "b") "" 3 [] = Returned true refs /\
  led_set (fun v => 1 <? v) (fun v => v) (fun _ => true) refs 1 0 1 = Some ([(1, 1); (2, 0); (0, 1)], true) /\
  led_set (fun v => 1 <? v) (fun v => v) (fun _ => true) refs 1 2 1 = Some ([], false).
Proof. eexists. split; [vm_compute; reflexivity|]. split; reflexivity. Qed.

(** ---- false claims *)
(** "get_values that returns true leaves the current values in the vector": calling it again with the same vector appends
    to the old values. *)
Theorem c66_values_reused_refuted : exists (us : list iface) (s0 s : sensor nat) l1 l2, distinct us /\ assign us s0 = (s, true) /\
  get_values rd1 (List.length (s_names s0)) [] s = Some (true, l1) /\
  get_values (fun p => Some (20 + p)) (List.length l1) l1 s = Some (true, l2) /\ List.length l2 <> List.length (s_names s0) /\ firstn 3 l2 = l1.
Proof.
  exists loans, (mag_sensor 0 "m"). do 3 eexists. split; [exact c66_distinct|]. split; [vm_compute; reflexivity|].
  split; [vm_compute; reflexivity|]. split; [vm_compute; reflexivity|]. split; [vm_compute; discriminate|reflexivity].
Qed.
Print Assumptions c66_values_reused_refuted.
(** "until a value could be read the orientation is the identity": true of the IMU, false of the pose sensor, whose initial
    data_ has its 1 in orientation.x. *)
Definition identity {V} (zero one : V) (msg : list (string * V)) : Prop :=
  forall f v, In (f, v) msg -> (f = "orientation.w" -> v = one) /\ (In f ["orientation.x"; "orientation.y"; "orientation.z"] -> v = zero).
Example c66_imu_identity : forall V (zero one : V) name s msg us, distinct us -> assign us (imu_sensor zero one name) = (s, true) ->
  option_map snd (message imu_fields (fun _ => None) s) = Some msg -> identity zero one msg.
Proof.
  intros V zero one name s msg us D H. destruct (c66_imu V zero one name (s_data (imu_sensor zero one name)) eq_refl us s [] (fun _ => None) D H) as (s' & msg' & C & _ & Q).
  cbn [app calls] in C. destruct (message imu_fields (fun _ => None) s) as [[s1 m1]|]; [|discriminate]. injection C as <- <-. cbn. intros [= <-] f v Hf.
  destruct (Q f v Hf) as (p & d & _ & Hd & ->). change (latest [fun _ => None] p d) with d.
  cbn in Hd. repeat (destruct Hd as [Hd|Hd]; [injection Hd as <- <-; split; intros X; [try discriminate X; reflexivity|cbn in X; repeat (destruct X as [X|X]; [try discriminate X; reflexivity|]); destruct X]|]). destruct Hd.
Qed.
Definition pose_loans := map (fun f => itf "p" f) pose_fields.
Theorem c66_pose_identity_refuted : exists s msg, distinct pose_loans /\ assign pose_loans (pose_sensor 0 1 "p") = (s, true) /\
  option_map snd (message pose_fields (fun _ => None) s) = Some msg /\ ~ identity 0 1 msg.
Proof.
  do 2 eexists. split; [unfold distinct; cbn; repeat (constructor; [cbn; intuition discriminate|]); constructor|]. split; [vm_compute; reflexivity|].
  split; [vm_compute; reflexivity|]. intros H. destruct (H "orientation.w" 0) as [E _]; [cbn; tauto|]. specialize (E eq_refl). discriminate E.
Qed.
Print Assumptions c66_pose_identity_refuted.
(** "colours that are written lie in [0, 1]": NaN passes the test. *)
Definition out_of_range (v : LimitsModel.F) : bool := LimitsModel.flt v LimitsModel.fzero || LimitsModel.flt (LimitsModel.of_Z (BinNums.Zpos BinNums.xH)) v.
Theorem c66_led_nan_refuted : exists refs w, get_ordered_interfaces led_loans (led_names "l" "r" "g" "b") "" 3 [] = Returned true refs /\
  led_set out_of_range (fun v => v) (fun _ => true) refs LimitsModel.nan LimitsModel.fzero LimitsModel.fzero = Some (w, true) /\
  In (1, LimitsModel.nan) w /\ LimitsModel.fle LimitsModel.fzero LimitsModel.nan = false.
Proof. do 2 eexists. split; [vm_compute; reflexivity|]. split; [vm_compute; reflexivity|]. split; [left; reflexivity|reflexivity]. Qed.
Print Assumptions c66_led_nan_refuted.
