(** XmlSpec.v -- what a <ros2_control> element says.  Only attributes, texts and, for each tag, the list of children with that tag are used:
    the position of children with different tags never matters. *)
From Coq Require Import List Bool String Ascii ZArith SpecFloat.
From Verif Require Import Base LexSpec ArraySpec LimitsModel ParserModel XmlTypes.
Import ListNotations.
Open Scope string_scope.
Open Scope Z_scope.
Open Scope list_scope.

Definition chars := list_ascii_of_string.
(** no white space at either end *)
Definition trimmed (v : list ascii) : Prop := forall c r, (v = c :: r -> ~ space c) /\ (v = r ++ [c] -> ~ space c).
(** the text s, white space at its ends removed, is v *)
Definition means (s v : string) : Prop :=
  trimmed (chars v) /\ exists a b, Forall space a /\ Forall space b /\ chars s = a ++ chars v ++ b.
Definition attr_says (x : xml) (k v : string) : Prop := exists s, attr x k = Some s /\ means s v.
(** a missing text counts as empty *)
Definition text_says (x : xml) (v : string) : Prop := (text x = None /\ v = "") \/ exists s, text x = Some s /\ means s v.
Definition is_bool (v : string) (b : bool) : Prop := case_variant (chars v) (if b then "true" else "false").
(** a positive decimal number without leading zero that an int can hold *)
Definition is_positive (v : string) (n : Z) : Prop := numeral (chars v) n /\ (forall r, chars v <> "0"%char :: r) /\ n < 2 ^ 31.
(** an attribute that may be missing, with what it says if it is there *)
Definition attr_opt {T} (x : xml) (k : string) (P : string -> T -> Prop) (d v : T) : Prop :=
  (attr x k = None /\ v = d) \/ exists w, attr_says x k w /\ P w v.

(** <param name="...">value</param> elements, in order *)
Definition params_say (ps : list xml) (m : params) : Prop := Forall2 (fun p kv => attr_says p "name" (fst kv) /\ text_says p (snd kv)) ps m.
(** <limits enable="true|false"/>: the first one counts, without one limits are enabled *)
Definition limits_say (x : xml) (b : bool) : Prop :=
  (kids "limits" x = [] /\ b = true) \/ exists l r v, kids "limits" x = l :: r /\ attr_says l "enable" v /\ is_bool v b.
(** the value of the last parameter of that name *)
Definition param_value (m : params) (k v : string) : Prop :=
  (v = "" /\ ~ In k (map fst m)) \/ exists m1 m2, m = m1 ++ (k, v) :: m2 /\ ~ In k (map fst m2).
(** <command_interface>, <state_interface> *)
Record itf_says (x : xml) (i : itf_info) : Prop := {
  is_name : attr_says x "name" (ii_name i);
  is_params : params_say (kids "param" x) (ii_params i);
  is_min : param_value (ii_params i) "min" (ii_min i);
  is_max : param_value (ii_params i) "max" (ii_max i);
  is_initial : param_value (ii_params i) "initial_value" (ii_initial i);
  is_limits : limits_say x (ii_limits i);
  is_type : attr_opt x "data_type" eq "double" (ii_type i);
  is_size : attr_opt x "size" is_positive 1 (ii_size i) }.
(** the same interface, its limits switched off if the joint's are *)
Definition switched (b : bool) (i j : itf_info) : Prop :=
  ii_name j = ii_name i /\ ii_min j = ii_min i /\ ii_max j = ii_max i /\ ii_initial j = ii_initial i /\ ii_type j = ii_type i /\ ii_size j = ii_size i /\ ii_params j = ii_params i /\
  (ii_limits j = true <-> ii_limits i = true /\ b = true).
Definition mimic_attr (x : xml) (m : mimic) : Prop :=
  attr_opt x "mimic" (fun v m => (is_bool v true /\ m = MTrue) \/ (is_bool v false /\ m = MFalse)) NotSet m.
(** <joint> and <sensor> *)
Record comp_says (x : xml) (c : comp_info) : Prop := {
  cs_type : ci_type c = tag x;
  cs_name : attr_says x "name" (ci_name c);
  cs_mimic : (tag x = "joint" /\ mimic_attr x (ci_mimic c)) \/ (tag x <> "joint" /\ ci_mimic c = NotSet);
  cs_limits : limits_say x (ci_limits c);
  cs_cmds : Forall2 (fun y j => exists i, itf_says y i /\ switched (ci_limits c) i j) (kids "command_interface" x) (ci_cmds c);
  cs_states : Forall2 (fun y j => exists i, itf_says y i /\ switched (ci_limits c) i j) (kids "state_interface" x) (ci_states c);
  cs_params : params_say (kids "param" x) (ci_params c) }.
(** <gpio>: a <limits> element beside the interfaces has no effect *)
Record gpio_says (x : xml) (c : comp_info) : Prop := {
  gs_type : ci_type c = tag x;
  gs_name : attr_says x "name" (ci_name c);
  gs_mimic : ci_mimic c = NotSet;
  gs_limits : ci_limits c = true;
  gs_cmds : Forall2 itf_says (kids "command_interface" x) (ci_cmds c);
  gs_states : Forall2 itf_says (kids "state_interface" x) (ci_states c);
  gs_params : params_say (kids "param" x) (ci_params c) }.
(** the first child with that tag and its text; the tag must be there *)
Definition first_text (x : xml) (t : string) (v : string) : Prop := exists p r, kids t x = p :: r /\ text_says p v.

Section Spec.
Variable stod : string -> option F.
Variable to_int : F -> Z.

(** the first child with that tag that has a text; the default if there is none or if it is not a number *)
Definition number_or (x : xml) (t : string) (d v : F) : Prop :=
  ((forall y, In y (kids t x) -> text y = None) /\ v = d) \/
  exists l1 p l2 s w, kids t x = l1 ++ p :: l2 /\ (forall y, In y l1 -> text y = None) /\ text p = Some s /\ means s w /\
    (stod w = Some v \/ (stod w = None /\ v = d)).
(** <joint> or <actuator> of a transmission, without the interface names *)
Definition part_says (x : xml) (j : tj_info) : Prop :=
  attr_says x "name" (tj_name j) /\ attr_says x "role" (tj_role j) /\ attr_opt x "read_only" is_bool false (tj_ro j) /\
  number_or x "mechanical_reduction" (of_Z 1) (tj_red j) /\ number_or x "offset" (S754_zero false) (tj_off j).
(** a transmission's joint has the interfaces of the first joint of that name in the tag *)
Definition filled (joints : list comp_info) (j : tj_info) : Prop :=
  exists l1 c l2, joints = l1 ++ c :: l2 /\ ci_name c = tj_name j /\ (forall d, In d l1 -> ci_name d <> tj_name j) /\
    tj_states j = map ii_name (ci_states c) /\ tj_cmds j = map ii_name (ci_cmds c).
(** the actuator a component of type "actuator" gets in each transmission *)
Definition default_actuator (j a : tj_info) : Prop :=
  tj_name a = "actuator1" /\ tj_role a = "actuator1" /\ tj_states a = tj_states j /\ tj_cmds a = tj_cmds j /\ tj_red a = of_Z 1 /\ tj_off a = S754_zero false /\ tj_ro a = false.
Definition actuators_say (type : string) (x : xml) (js acts : list tj_info) : Prop :=
  let declared := Forall2 (fun y a => part_says y a /\ tj_states a = [] /\ tj_cmds a = []) (kids "actuator" x) in
  (type <> "actuator" /\ declared acts) \/
  (type = "actuator" /\ exists j a ds, js = [j] /\ acts = ds ++ [a] /\ declared ds /\ default_actuator j a).
(** <transmission> *)
Record trans_says (type : string) (joints : list comp_info) (x : xml) (t : tr_info) : Prop := {
  ts_name : attr_says x "name" (tr_name t);
  ts_type : first_text x "plugin" (tr_type t);
  ts_joints : Forall2 (fun y j => part_says y j /\ filled joints j) (kids "joint" x) (tr_joints t);
  ts_acts : actuators_say type x (tr_joints t) (tr_acts t);
  ts_params : params_say (kids "param" x) (tr_params t) }.

(** some elements in order, each of which may (P x (Some v)) or may not (P x None) say something: the last one that does wins, the default if none does; all must be readable *)
Definition latest {T} (P : xml -> option T -> Prop) (d : T) (l : list xml) (v : T) : Prop :=
  Forall (fun x => exists o, P x o) l /\
  ((v = d /\ Forall (fun x => P x None) l) \/ exists l1 x l2, l = l1 ++ x :: l2 /\ P x (Some v) /\ Forall (fun y => P y None) l2).
(** <hardware>: the plugin is mandatory, the group and the parameters are not *)
Definition plugin_of (x : xml) (o : option string) : Prop := exists v, o = Some v /\ first_text x "plugin" v.
Definition group_of (x : xml) (o : option string) : Prop := (kids "group" x = [] /\ o = None) \/ exists v, o = Some v /\ first_text x "group" v.
Definition params_of (x : xml) (o : option params) : Prop :=
  (kids "param" x = [] /\ o = None) \/ (kids "param" x <> [] /\ exists m, o = Some m /\ params_say (kids "param" x) m).
(** <properties>: the first <async> element's attributes *)
Definition async_of {T} (k : string) (P : string -> T -> Prop) (x : xml) (o : option T) : Prop :=
  (kids "async" x = [] /\ o = None) \/
  exists a r, kids "async" x = a :: r /\ ((attr a k = None /\ o = None) \/ exists w v, attr_says a k w /\ P w v /\ o = Some v).
Definition is_int_array (w : string) (l : list Z) : Prop :=
  exists ts, flat_array ts (chars w) /\ Forall2 (fun t n => exists f, stod (string_of_list_ascii t) = Some f /\ n = to_int f) ts l.
(** capital letters made small *)
Definition capital_letter (c : ascii) : Prop := In c (chars "ABCDEFGHIJKLMNOPQRSTUVWXYZ").
Definition in_lower_case (w v : string) : Prop :=
  Forall2 (fun c d => (capital_letter c /\ nat_of_ascii d = (nat_of_ascii c + 32)%nat) \/ (~ capital_letter c /\ d = c)) (chars w) (chars v).
(** the integer a text starts with *)
Definition starts_with_integer (w : string) (n : Z) : Prop :=
  exists a b, chars w = a ++ b /\ integer a n /\ forall c r d, b = c :: r -> ~ digit c d.
Definition is_rate (w : string) (n : Z) : Prop := starts_with_integer w n /\ 0 <= n < 2 ^ 31.

Definition known_tags : list string := ["hardware"; "properties"; "joint"; "sensor"; "gpio"; "transmission"].
(** <ros2_control> *)
Record hw_says (x : xml) (h : hw_info) : Prop := {
  hs_name : attr_says x "name" (h_name h);
  hs_type : attr_says x "type" (h_type h);
  hs_rate : attr_opt x "rw_rate" is_rate 0 (h_rate h);
  hs_async : attr_opt x "is_async" is_bool false (h_async h);
  hs_known : forall t, kids t x <> [] -> In t known_tags;
  hs_plugin : latest plugin_of "" (kids "hardware" x) (h_plugin h);
  hs_group : latest group_of "" (kids "hardware" x) (h_group h);
  hs_params : latest params_of [] (kids "hardware" x) (h_params h);
  hs_prio : exists base, ((h_async h = true /\ attr_opt x "thread_priority" is_positive 50 base) \/ (h_async h = false /\ base = 2 ^ 31 - 1)) /\
                         latest (async_of "thread_priority" is_positive) base (kids "properties" x) (h_prio h);
  hs_policy : latest (async_of "scheduling_policy" in_lower_case) "synchronized" (kids "properties" x) (h_policy h);
  hs_cores : latest (async_of "affinity" is_int_array) [] (kids "properties" x) (h_cores h);
  hs_warn : latest (async_of "print_warnings" is_bool) true (kids "properties" x) (h_warn h);
  hs_joints : Forall2 comp_says (kids "joint" x) (h_joints h);
  hs_sensors : Forall2 comp_says (kids "sensor" x) (h_sensors h);
  hs_gpios : Forall2 gpio_says (kids "gpio" x) (h_gpios h);
  hs_trans : Forall2 (trans_says (h_type h) (h_joints h)) (kids "transmission" x) (h_trans h) }.

(** the first joint of that name is number k of the tag *)
Definition first_joint (n : string) (l : list comp_info) (k : nat) : Prop :=
  exists c, nth_error l k = Some c /\ ci_name c = n /\ forall i d, (i < k)%nat -> nth_error l i = Some d -> ci_name d <> n.
(** joint number i of the tag against the URDF: it must be there, not fixed; what it mimics *)
Definition joint_agrees (u : list (string * urdf_joint)) (h : hw_info) (i : nat) (c : comp_info) (o : option mimic_info) : Prop :=
  exists j, aget u (ci_name c) = Some j /\ uj_fixed j = false /\
    ((uj_mimic j = None /\ ci_mimic c <> MTrue /\ o = None) \/ (uj_mimic j <> None /\ ci_mimic c = MFalse /\ o = None) \/
     exists n m, uj_mimic j = Some (n, m_mult m, m_off m) /\ ci_mimic c <> MFalse /\ ci_cmds c = [] /\ o = Some m /\ m_joint m = i /\ first_joint n (h_joints h) (m_mimicked m)).
Definition somes {T} (l : list (option T)) : list T := flat_map (fun o => match o with Some v => [v] | None => [] end) l.
(** text of a limit: nothing, a number, or not a number *)
Definition limit_text (s : string) (t : ParserModel.text) : Prop :=
  (s = "" /\ t = Absent) \/ (s <> "" /\ ((stod s = None /\ t = Invalid) \/ exists v, stod s = Some v /\ t = Number v)).
Definition limit_joint (c : comp_info) (j : joint) : Prop :=
  j_enable j = ci_limits c /\ Forall2 (fun i k => i_name k = ii_name i /\ limit_text (ii_min i) (i_min k) /\ limit_text (ii_max i) (i_max k) /\ i_enable k = ii_limits i) (ci_cmds c) (j_cmds j).
(** the last joint of the tag with that name *)
Definition last_named (n : string) (l : list comp_info) (c : comp_info) : Prop :=
  exists l1 l2, l = l1 ++ c :: l2 /\ ci_name c = n /\ forall d, In d l2 -> ci_name d <> n.
(** what the parser returns for one tag: the joints agree with the URDF, the mimic joints in order, and for each joint name the limits of the last joint of that name *)
Record robot_says (u : list (string * urdf_joint)) (h : hw_info) (r : robot_info) : Prop := {
  rs_hw : r_hw r = h;
  rs_mimic : exists os, List.length os = List.length (h_joints h) /\ r_mimic r = somes os /\ forall i c o, nth_error (h_joints h) i = Some c -> nth_error os i = Some o -> joint_agrees u h i c o;
  rs_limits : forall n c j lj, last_named n (h_joints h) c -> aget u n = Some j -> limit_joint c lj ->
               aget (r_limits r) n = Some (joint_limits (uj_limits j) lj) /\ aget (r_soft r) n = soft_limits (uj_limits j) lj;
  rs_only : forall n, (forall c, In c (h_joints h) -> ci_name c <> n) -> aget (r_limits r) n = None /\ aget (r_soft r) n = None }.
End Spec.
(** where the <ros2_control> elements are *)
Definition control_tags (root : xml) (l : list xml) : Prop :=
  (tag root = "robot" /\ l = kids "ros2_control" root) \/ (tag root = "sdf" /\ exists m r, kids "model" root = m :: r /\ l = kids "ros2_control" m).
