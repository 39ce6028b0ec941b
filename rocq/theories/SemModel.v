(** SemModel.v -- semantic components (sensors and command devices built on loaned interfaces).
    Models /repo/controller_interface/include/semantic_components/:
    semantic_component_interface.hpp (names, assign, get_values), force_torque_sensor.hpp, imu_sensor.hpp, pose_sensor.hpp,
    magnetic_field_sensor.hpp, range_sensor.hpp, gps_sensor.hpp, semantic_component_command_interface.hpp, led_rgb_device.hpp.
    Values have an arbitrary type [V]; a loaned interface is a position in the list given to assign_loaned_..._interfaces,
    as in OrderedModel.v; [rd p] is what get_optional() answers for it during one call ([None]: the value could not be read
    without blocking).  A message is the list of its fields with their values; conversions to float, int8_t and uint16_t
    (static_cast) are parameters.  [None] as a result = out-of-range access (undefined behaviour) or an uncaught exception. *)
From Coq Require Import List Bool String Arith.
From Verif Require Import OrderedModel.
Import ListNotations.
Open Scope string_scope.
Open Scope list_scope.
Open Scope nat_scope.

Section Values.
Context {V : Type}.

(** A sensor object: interface_names_, existing_axes_ (all true except in the ForceTorqueSensor), data_, state_interfaces_. *)
Record sensor := { s_names : list string; s_axes : list bool; s_data : list V; s_refs : list nat }.
Definition set_data (s : sensor) d := {| s_names := s_names s; s_axes := s_axes s; s_data := d; s_refs := s_refs s |}.
Definition set_refs (s : sensor) r := {| s_names := s_names s; s_axes := s_axes s; s_data := s_data s; s_refs := r |}.

Definition under (name : string) (fs : list string) : list string := map (fun f => name ++ "/" ++ f)%string fs.
Definition trues (n : nat) : list bool := repeat true n.

(** ForceTorqueSensor(name), force_torque_sensor.hpp 35-47; data_ filled with NaN *)
Definition ft_fields := ["force.x"; "force.y"; "force.z"; "torque.x"; "torque.y"; "torque.z"].
Definition ft_sensor (nan : V) (name : string) : sensor :=
  {| s_names := under name ft_fields; s_axes := trues 6; s_data := repeat nan 6; s_refs := [] |}.
(** ForceTorqueSensor(six names), 59-86: an empty name is a missing axis *)
Definition ft_sensor_axes (nan : V) (ks : list string) : sensor :=
  {| s_names := filter (fun k => negb (String.eqb k "")) ks; s_axes := map (fun k => negb (String.eqb k "")) ks;
     s_data := repeat nan (List.length ks); s_refs := [] |}.
(** IMUSensor, imu_sensor.hpp 31-44, data_ 138 *)
Definition imu_fields := ["orientation.x"; "orientation.y"; "orientation.z"; "orientation.w"; "angular_velocity.x";
  "angular_velocity.y"; "angular_velocity.z"; "linear_acceleration.x"; "linear_acceleration.y"; "linear_acceleration.z"].
Definition imu_sensor (zero one : V) (name : string) : sensor :=
  {| s_names := under name imu_fields; s_axes := trues 10;
     s_data := [zero; zero; zero; one; zero; zero; zero; zero; zero; zero]; s_refs := [] |}.
(** PoseSensor, pose_sensor.hpp 34-44, data_ 120 *)
Definition pose_fields := ["position.x"; "position.y"; "position.z"; "orientation.x"; "orientation.y"; "orientation.z"; "orientation.w"].
Definition pose_sensor (zero one : V) (name : string) : sensor :=
  {| s_names := under name pose_fields; s_axes := trues 7;
     s_data := [zero; zero; zero; one; zero; zero; zero]; s_refs := [] |}.
(** MagneticFieldSensor, magnetic_field_sensor.hpp 28-33, data_ 71 *)
Definition mag_fields := ["magnetic_field.x"; "magnetic_field.y"; "magnetic_field.z"].
Definition mag_sensor (zero : V) (name : string) : sensor :=
  {| s_names := under name mag_fields; s_axes := trues 3; s_data := [zero; zero; zero]; s_refs := [] |}.
(** RangeSensor, range_sensor.hpp 30-33: no data_ *)
Definition range_sensor (name : string) : sensor :=
  {| s_names := under name ["range"]; s_axes := []; s_data := []; s_refs := [] |}.
(** GPSSensor, gps_sensor.hpp 43-59; [s_data] holds the three entries 0, 4 and 8 of covariance_ (186; the other entries are
    never written) *)
Definition gps_fields := ["status"; "service"; "latitude"; "longitude"; "altitude"].
Definition gps_cov_fields := ["latitude_covariance"; "longitude_covariance"; "altitude_covariance"].
Definition gps_sensor (zero : V) (cov : bool) (name : string) : sensor :=
  {| s_names := under name (gps_fields ++ if cov then gps_cov_fields else []); s_axes := if cov then trues 3 else [];
     s_data := if cov then [zero; zero; zero] else []; s_refs := [] |}.

(** assign_loaned_state_interfaces, semantic_component_interface.hpp 51-56.  The constructors reserve the number of names
    (six for ft_sensor_axes), so get_ordered_interfaces cannot throw; release_interfaces, 61. *)
Definition assign (us : list iface) (s : sensor) : sensor * bool :=
  match get_ordered_interfaces us (s_names s) "" (List.length (s_names s)) (s_refs s) with
  | Returned b refs => (set_refs s refs, b)
  | RangeError => (s, false)
  end.
Definition release (s : sensor) : sensor := set_refs s [].

(** update_data_from_interfaces, force_torque_sensor.hpp 150-165 (with existing axes), imu_sensor.hpp 124-134,
    pose_sensor.hpp 105-115, magnetic_field_sensor.hpp 56-66 *)
Fixpoint pull (rd : nat -> option V) (axes : list bool) (data : list V) (refs : list nat) : option (list V) :=
  match axes, data with
  | true :: axes, d :: data =>
      match refs with
      | [] => None
      | r :: refs => match pull rd axes data refs with
                     | Some l => Some ((match rd r with Some v => v | None => d end) :: l)
                     | None => None
                     end
      end
  | false :: axes, d :: data => match pull rd axes data refs with Some l => Some (d :: l) | None => None end
  | _, _ => Some []
  end.
Definition update_data (rd : nat -> option V) (s : sensor) : option sensor :=
  match pull rd (s_axes s) (s_data s) (s_refs s) with Some d => Some (set_data s d) | None => None end.
(** get_values_as_message of the four sensors: every field is data_[i] for the i-th field name
    (force_torque_sensor.hpp 130-141, imu_sensor.hpp 96-115, pose_sensor.hpp 82-96, magnetic_field_sensor.hpp 40-47) *)
Definition message (fields : list string) (rd : nat -> option V) (s : sensor) : option (sensor * list (string * V)) :=
  match update_data rd s with Some s' => Some (s', combine fields (s_data s')) | None => None end.
(** get_forces / get_torques, 96-119; get_orientation, get_angular_velocity, get_linear_acceleration, imu_sensor.hpp 52-88;
    get_position, get_orientation, pose_sensor.hpp 52-74: a slice of data_ *)
Definition slice (from n : nat) (rd : nat -> option V) (s : sensor) : option (sensor * list V) :=
  match update_data rd s with Some s' => Some (s', firstn n (skipn from (s_data s'))) | None => None end.
Definition get_forces := slice 0 3.
Definition get_torques := slice 3 3.
Definition imu_orientation := slice 0 4.
Definition imu_angular_velocity := slice 4 3.
Definition imu_linear_acceleration := slice 7 3.
Definition pose_position := slice 0 3.
Definition pose_orientation := slice 3 4.

(** one reading without memory: range_sensor.hpp 39-47, gps_sensor.hpp 66-133 *)
Definition reading (rd : nat -> option V) (s : sensor) (i : nat) (conv : V -> V) (unread : V) : option V :=
  match nth_error (s_refs s) i with
  | Some r => Some (match rd r with Some v => conv v | None => unread end)
  | None => None
  end.
(** RangeSensor::get_values_as_message, 56-60 *)
Definition range_message (to_float : V -> V) (nan : V) (rd : nat -> option V) (s : sensor) : option (list (string * V)) :=
  match reading rd s 0 to_float nan with Some v => Some [("range", v)] | None => None end.
(** GPSSensor::get_values_as_message, 165-180; get_covariance, 140-159 *)
Definition gps_message (to_i8 to_u16 : V -> V) (nan max_i8 max_u16 : V) (rd : nat -> option V) (s : sensor)
  : option (sensor * list (string * V)) :=
  match reading rd s 0 to_i8 max_i8, reading rd s 1 to_u16 max_u16, reading rd s 2 (fun v => v) nan,
        reading rd s 3 (fun v => v) nan, reading rd s 4 (fun v => v) nan, pull rd (s_axes s) (s_data s) (skipn 5 (s_refs s)) with
  | Some a, Some b, Some c, Some d, Some e, Some cov =>
      Some (set_data s cov, combine gps_fields [a; b; c; d; e] ++ combine gps_cov_fields cov)
  | _, _, _, _, _, _ => None
  end.

(** get_values, semantic_component_interface.hpp 87-100: [capacity] is that of the vector [values]; a value that cannot be
    read throws *)
Fixpoint read_all (rd : nat -> option V) (refs : list nat) : option (list V) :=
  match refs with
  | [] => Some []
  | r :: refs => match rd r, read_all rd refs with Some v, Some l => Some (v :: l) | _, _ => None end
  end.
Definition get_values (rd : nat -> option V) (capacity : nat) (values : list V) (s : sensor) : option (bool * list V) :=
  if negb (capacity =? List.length (s_refs s)) then Some (false, values)
  else match read_all rd (s_refs s) with Some l => Some (true, values ++ l) | None => None end.

(** SemanticComponentCommandInterface::set_values, semantic_component_command_interface.hpp 82-98: [ok p] tells whether
    set_value on the interface at position [p] succeeds; the writes that succeeded, in order *)
Fixpoint write_all (ok : nat -> bool) (refs : list nat) (values : list V) : list (nat * V) * bool :=
  match refs, values with
  | r :: refs, v :: values => let '(w, b) := write_all ok refs values in
      ((if ok r then [(r, v)] else []) ++ w, ok r && b)
  | _, _ => ([], true)
  end.
Definition set_values (ok : nat -> bool) (refs : list nat) (values : list V) : list (nat * V) * bool :=
  if negb (List.length values =? List.length refs) then ([], false) else write_all ok refs values.
(** LedRgbDevice, led_rgb_device.hpp 43-77: [out v] is the test (v < 0 || v > 1) on the single precision field, [widen]
    the conversion to double.  Too few interfaces: undefined behaviour. *)
Definition led_names (name r g b : string) : list string := under name [r; g; b].
Definition led_set (out : V -> bool) (widen : V -> V) (ok : nat -> bool) (refs : list nat) (r g b : V) : option (list (nat * V) * bool) :=
  if out r || out g || out b then Some ([], false)
  else match refs with
       | [_; _; _] => Some (write_all ok refs [widen r; widen g; widen b])
       | _ => None
       end.
End Values.
Arguments sensor : clear implicits.
