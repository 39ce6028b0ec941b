(** XmlTypes.v -- the data of the component parser: an XML element as tinyxml2 presents it, and the structures of hardware_info.hpp.
    CP = hardware_interface/src/component_parser.cpp, HI = hardware_interface/include/hardware_interface/hardware_info.hpp. *)
From Coq Require Import List Bool String ZArith.
From Verif Require Import LimitsModel ParserModel.
Import ListNotations.
Open Scope list_scope.

(** an element: its name, its attributes in document order, its text (tinyxml2's GetText, None = null), its child elements.
    Simplification: comments and the position of the text among the children are dropped. *)
Inductive xml := Elem (tag : string) (attrs : list (string * string)) (text : option string) (children : list xml).
Definition tag (x : xml) := match x with Elem t _ _ _ => t end.
Definition attrs (x : xml) := match x with Elem _ a _ _ => a end.
Definition text (x : xml) := match x with Elem _ _ t _ => t end.
Definition children (x : xml) := match x with Elem _ _ _ c => c end.
(** FindAttribute: the first attribute of that name *)
Definition attr (x : xml) (k : string) : option string :=
  match find (fun kv => String.eqb (fst kv) k) (attrs x) with Some kv => Some (snd kv) | None => None end.
(** FirstChildElement(t), then NextSiblingElement(t) until null *)
Definition kids (t : string) (x : xml) : list xml := filter (fun y => String.eqb (tag y) t) (children x).

(** an unordered_map<string, string> filled with m[k] = v: the writes in order; a look-up gives the last one *)
Definition params := list (string * string).
Definition look (k : string) (m : params) : option string :=
  match find (fun kv => String.eqb (fst kv) k) (rev m) with Some kv => Some (snd kv) | None => None end.
Definition look_or (d : string) (k : string) (m : params) : string := match look k m with Some v => v | None => d end.

(** InterfaceInfo, HI 35-62 *)
Record itf_info := { ii_name : string; ii_min : string; ii_max : string; ii_initial : string; ii_type : string; ii_size : Z; ii_params : params; ii_limits : bool }.
(** MimicAttribute, HI 75-80 *)
Inductive mimic := NotSet | MTrue | MFalse.
(** ComponentInfo, HI 86-120 *)
Record comp_info := { ci_type : string; ci_name : string; ci_mimic : mimic; ci_limits : bool; ci_cmds : list itf_info; ci_states : list itf_info; ci_params : params }.
(** JointInfo and ActuatorInfo, HI 123-145: a joint or actuator of a transmission *)
Record tj_info := { tj_name : string; tj_states : list string; tj_cmds : list string; tj_role : string; tj_red : F; tj_off : F; tj_ro : bool }.
(** TransmissionInfo, HI 148-158 *)
Record tr_info := { tr_name : string; tr_type : string; tr_joints : list tj_info; tr_acts : list tj_info; tr_params : params }.
(** HardwareInfo, HI 372-430, with HardwareAsyncParams; original_xml is left out; limits, soft limits and mimic joints are in [robot_info] *)
Record hw_info := { h_name : string; h_type : string; h_group : string; h_rate : Z; h_async : bool; h_prio : Z; h_policy : string; h_cores : list Z; h_warn : bool;
  h_plugin : string; h_params : params; h_joints : list comp_info; h_sensors : list comp_info; h_gpios : list comp_info; h_trans : list tr_info }.
(** MimicJoint, HI 66-72 *)
Record mimic_info := { m_joint : nat; m_mimicked : nat; m_mult : F; m_off : F }.
(** one element of the vector parse_control_resources_from_urdf returns *)
Record robot_info := { r_hw : hw_info; r_mimic : list mimic_info; r_limits : list (string * lim); r_soft : list (string * sl) }.

(** what urdf::Model knows about a joint: the limits, the mimic element (joint, multiplier, offset), whether it is fixed *)
Record urdf_joint := { uj_limits : ujoint; uj_mimic : option (string * F * F); uj_fixed : bool }.
(** urdf::Model::initString: None = it failed *)
Definition urdf := option (list (string * urdf_joint)).
