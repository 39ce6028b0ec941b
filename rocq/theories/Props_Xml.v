(** Props_Xml.v -- C74: reading the <ros2_control> elements of a robot description. *)
From Coq Require Import List Bool String Ascii ZArith SpecFloat Lia.
From Verif Require Import Base LexSpec LimitsModel ParserModel XmlTypes XmlModel XmlSpec XmlProofs XmlProofs2 XmlProofs3 XmlProofs4 XmlProofs5.
Import ListNotations.
Open Scope string_scope.
Open Scope Z_scope.
Open Scope list_scope.

(** A <ros2_control> element is accepted, with this result, exactly when it says this; everything else is refused. *)
Theorem c74_element : forall stod to_int x h, parse_resource stod to_int x = Some h <-> hw_says stod to_int x h.
Proof. exact resource_iff. Qed.
Print Assumptions c74_element.

(** The order of children with different tags does not matter. *)
Theorem c74_order : forall stod to_int x x', tag x = tag x' -> attrs x = attrs x' -> (forall t, kids t x = kids t x') ->
  parse_resource stod to_int x = parse_resource stod to_int x'.
Proof. exact order_free. Qed.
Print Assumptions c74_order.

(** An answer is one entry per <ros2_control> element, in order, each as the element says and in agreement with the URDF. *)
Theorem c74_answer : forall stod to_int doc u rs, parse_urdf stod to_int doc u = Answer rs ->
  exists root l m hs, doc = Some (Some root) /\ control_tags root l /\ l <> [] /\ u = Some m /\ Forall2 (hw_says stod to_int) l hs /\ Forall2 (robot_says stod m) hs rs.
Proof. exact main_answer. Qed.
Print Assumptions c74_answer.

(** A description is accepted exactly when it has such elements, each readable, and every joint agrees with the URDF. *)
Theorem c74_accepts : forall stod to_int doc u, (exists rs, parse_urdf stod to_int doc u = Answer rs) <->
  exists root l m hs, doc = Some (Some root) /\ control_tags root l /\ l <> [] /\ u = Some m /\ Forall2 (hw_says stod to_int) l hs /\
    Forall (fun h => forall i c, nth_error (h_joints h) i = Some c -> exists o, joint_agrees m h i c o) hs.
Proof. exact main_accepts. Qed.
Print Assumptions c74_accepts.

(** Every mimic joint reported has no command interface, its index and that of the mimicked joint are valid, and the mimicked joint is the one the URDF names. *)
Theorem c74_mimic : forall stod u h r m, robot_says stod u h r -> In m (r_mimic r) ->
  exists c d j n, nth_error (h_joints h) (m_joint m) = Some c /\ nth_error (h_joints h) (m_mimicked m) = Some d /\ aget u (ci_name c) = Some j /\
    uj_mimic j = Some (n, m_mult m, m_off m) /\ ci_name d = n /\ ci_cmds c = [] /\ ci_mimic c <> MFalse.
Proof. exact main_mimic. Qed.
Print Assumptions c74_mimic.

(** Interface descriptions: exactly the names component/interface; of several with the same name the map keeps the first. *)
Theorem c74_interface_names : forall sel l n, (exists i, aget (describe_into sel [] l) n = Some i) <-> exists c i, In c l /\ In i (sel c) /\ n = (ci_name c ++ "/" ++ ii_name i)%string.
Proof. exact main_map. Qed.
Print Assumptions c74_interface_names.
Theorem c74_first_description : forall sel m l n, aget (describe_into sel m l) n = match aget m n with Some v => Some v | None => aget (descriptions sel l) n end.
Proof. exact main_described. Qed.
Print Assumptions c74_first_description.

(** A null pointer is dereferenced exactly for a document without root element and for an <sdf> without <model>. *)
Theorem c74_null_pointer : forall stod to_int doc u, parse_urdf stod to_int doc u = NullDeref <->
  doc = Some None \/ exists root, doc = Some (Some root) /\ tag root = "sdf" /\ kids "model" root = [].
Proof. exact main_crash. Qed.
Print Assumptions c74_null_pointer.

(** A concrete robot *)
Definition el t a c := Elem t a None c.
Definition tx t s := Elem t [] (Some s) [].
Definition pos tg := Elem tg [("name", " position ")] None [Elem "param" [("name", "min")] (Some " -1 ") []; Elem "param" [("name", "max")] (Some "1") []; Elem "param" [("name", "min")] (Some "-2") []].
Definition vel tg := Elem tg [("name", "velocity"); ("size", "3"); ("data_type", "bool")] None [].
Definition arm_tag : xml := el "ros2_control" [("name", "arm"); ("type", " system "); ("rw_rate", "100"); ("is_async", "TRUE")]
  [ el "joint" [("name", "j1"); ("mimic", "false")] [pos "command_interface"; vel "state_interface"; el "limits" [("enable", "false")] []];
    el "hardware" [] [tx "plugin" " my/Plugin
"; tx "group" "g"; Elem "param" [("name", "port")] (Some "/dev/x") []];
    el "joint" [("name", "j2")] [vel "state_interface"];
    el "gpio" [("name", "io")] [el "command_interface" [("name", "out")] []];
    el "properties" [] [el "async" [("affinity", "[2, 4]"); ("scheduling_policy", "Detached"); ("thread_priority", "70")] []];
    el "transmission" [("name", "t1")] [tx "plugin" "trans/Simple"; el "joint" [("name", "j1"); ("role", "r")] [tx "mechanical_reduction" "2"; tx "offset" "two"]; el "actuator" [("name", "a1"); ("role", "r")] []] ].
Definition num (s : string) : option F := if String.eqb s "2" then Some (of_Z 2) else if String.eqb s "4" then Some (of_Z 4) else None.
Definition cast (f : F) : Z := if fle f (of_Z 2) then 2 else 4.
Definition free : urdf_joint := {| uj_limits := {| u_type := Revolute; u_limits := None; u_safety := None |}; uj_mimic := None; uj_fixed := false |}.
Definition follow : urdf_joint := {| uj_limits := {| u_type := Revolute; u_limits := None; u_safety := None |}; uj_mimic := Some ("j1", of_Z 2, of_Z 0); uj_fixed := false |}.
Definition robot_doc := Some (Some (el "robot" [("name", "r")] [el "link" [] []; arm_tag])).
Example arm_read : match parse_resource num cast arm_tag with
  | Some h => h_name h = "arm" /\ h_type h = "system" /\ h_rate h = 100 /\ h_async h = true /\ h_plugin h = "my/Plugin" /\ h_group h = "g" /\ look "port" (h_params h) = Some "/dev/x" /\
      h_prio h = 70 /\ h_policy h = "detached" /\ h_cores h = [2; 4] /\ h_warn h = true /\ map ci_name (h_joints h) = ["j1"; "j2"] /\
      map (fun c => map (fun i => (ii_name i, ii_min i, ii_max i, ii_limits i)) (ci_cmds c)) (h_joints h) = [[("position", "-2", "1", false)]; []] /\
      map (fun c => map (fun i => (ii_name i, ii_size i, ii_type i)) (ci_states c)) (h_joints h) = [[("velocity", 3, "bool")]; [("velocity", 3, "bool")]] /\
      map ci_mimic (h_joints h) = [MFalse; NotSet] /\ map (fun t => map tj_cmds (tr_joints t)) (h_trans h) = [[["position"]]]
  | None => False end.
Proof. vm_compute. repeat split. Qed.
Example robot_read : match parse_urdf num cast robot_doc (Some [("j1", free); ("j2", follow)]) with
  | Answer [r] => map (fun m => (m_joint m, m_mimicked m)) (r_mimic r) = [(1%nat, 0%nat)] /\ map fst (r_limits r) = ["j1"; "j2"] | _ => False end.
Proof. vm_compute. repeat split. Qed.
(** refusals *)
Example refused_joint_unknown : parse_urdf num cast robot_doc (Some [("j1", free)]) = Throws. Proof. vm_compute. reflexivity. Qed.
Example refused_tag : parse_resource num cast (el "ros2_control" [("name", "a"); ("type", "system")] [el "jiont" [("name", "j")] []]) = None. Proof. vm_compute. reflexivity. Qed.
Example refused_plugin : parse_resource num cast (el "ros2_control" [("name", "a"); ("type", "system")] [el "hardware" [] []]) = None. Proof. vm_compute. reflexivity. Qed.
Example refused_size : parse_itf (el "command_interface" [("name", "p"); ("size", "0")] []) = None /\ parse_itf (el "command_interface" [("name", "p"); ("size", "2147483648")] []) = None. Proof. split; vm_compute; reflexivity. Qed.
(** reordering the children of [arm_tag] *)
Example reordered : let y := Elem (tag arm_tag) (attrs arm_tag) None (match children arm_tag with a :: b :: c => b :: a :: c | l => l end) in
  y <> arm_tag /\ (forall t, kids t arm_tag = kids t y).
Proof.
  split; [vm_compute; discriminate|]. intro t. unfold kids. cbn [arm_tag el children filter tag].
  destruct (String.eqb_spec "joint" t) as [<-|]; [reflexivity|]. destruct (String.eqb_spec "hardware" t) as [<-|]; reflexivity.
Qed.

(** What is accepted although it cannot be meant.  A rate followed by anything: *)
Theorem c74_rate_refuted : ~ forall stod to_int x h w, parse_resource stod to_int x = Some h -> attr_says x "rw_rate" w -> integer (chars w) (h_rate h).
Proof.
  intro H. set (x := el "ros2_control" [("name", "a"); ("type", "system"); ("rw_rate", "10abc")] []).
  assert (E : exists h, parse_resource num cast x = Some h) by (eexists; vm_compute; reflexivity). destruct E as (h & E).
  assert (A : attr_says x "rw_rate" "10abc") by (apply get_attr_some; vm_compute; reflexivity). specialize (H _ _ _ _ _ E A). apply LexProofs.strto_iff in H. destruct H as (neg & v & S & _). vm_compute in S. discriminate.
Qed.
Print Assumptions c74_rate_refuted.
(** A mechanical reduction that is not a number silently becomes 1: *)
Theorem c74_reduction_refuted : exists stod x j, parse_tj stod x = Some j /\ (exists y, In y (kids "mechanical_reduction" x) /\ text y = Some "two") /\ stod "two" = None /\ tj_red j = of_Z 1.
Proof.
  exists num, (el "joint" [("name", "j"); ("role", "r")] [tx "mechanical_reduction" "two"]). eexists. split; [vm_compute; reflexivity|]. split; [eexists; split; [left; reflexivity|reflexivity]|]. split; reflexivity.
Qed.
Print Assumptions c74_reduction_refuted.
(** A <limits enable="false"/> of a gpio has no effect: *)
Theorem c74_gpio_limits_refuted : exists x c i, parse_complex x = Some c /\ (exists l, kids "limits" x = [l] /\ attr l "enable" = Some "false") /\ In i (ci_cmds c) /\ ii_limits i = true.
Proof.
  exists (el "gpio" [("name", "io")] [el "limits" [("enable", "false")] []; el "command_interface" [("name", "out")] []]). eexists. eexists. split; [vm_compute; reflexivity|].
  split; [eexists; split; reflexivity|]. split; [left; reflexivity|reflexivity].
Qed.
Print Assumptions c74_gpio_limits_refuted.
(** A misspelt attribute is ignored, an element without <hardware> is accepted with an empty plugin name, and of two <hardware> elements the second takes over the first one's group: *)
Theorem c74_misspelt_refuted : forall stod to_int, exists x h, parse_resource stod to_int x = Some h /\ attr x "is_asynch" = Some "true" /\ h_async h = false /\ h_plugin h = "".
Proof. intros. exists (el "ros2_control" [("name", "a"); ("type", "system"); ("is_asynch", "true")] []). eexists. split; [reflexivity|]. repeat split. Qed.
Print Assumptions c74_misspelt_refuted.
Theorem c74_group_refuted : forall stod to_int, exists x h h1 h2, parse_resource stod to_int x = Some h /\ kids "hardware" x = [h1; h2] /\ kids "group" h2 = [] /\ h_plugin h = "b" /\ h_group h = "g".
Proof.
  intros. exists (el "ros2_control" [("name", "a"); ("type", "system")] [el "hardware" [] [tx "plugin" "a"; tx "group" "g"]; el "hardware" [] [tx "plugin" "b"]]). eexists. eexists. eexists.
  split; [reflexivity|]. repeat split.
Qed.
Print Assumptions c74_group_refuted.
(** It can crash: *)
Theorem c74_no_crash_refuted : exists root, tag root = "sdf" /\ forall stod to_int u, parse_urdf stod to_int (Some (Some root)) u = NullDeref.
Proof. exists (el "sdf" [] []). split; [reflexivity|]. intros. reflexivity. Qed.
Print Assumptions c74_no_crash_refuted.
