(** XmlModel.v -- the component parser, CP = hardware_interface/src/component_parser.cpp.  None = a C++ exception leaves the function.
    hardware_interface::stod and the cast to int are parameters; tinyxml2 and urdf::Model are inputs. *)
From Coq Require Import List Bool String Ascii ZArith SpecFloat.
From Verif Require Import Base LexModel ArrayModel LimitsModel ParserModel XmlTypes.
Import ListNotations.
Open Scope string_scope.
Open Scope Z_scope.
Open Scope list_scope.

(** ros2_control::strip, helpers.hpp:197-207 *)
Definition strip (s : string) : string :=
  string_of_list_ascii (rev (skip_spaces (rev (skip_spaces (list_ascii_of_string s))))).
Definition pbool (s : string) : option bool := match parse_bool (list_ascii_of_string s) with Ok b => Some b | _ => None end.
Definition bind {A B} (x : option A) (f : A -> option B) : option B := match x with Some a => f a | None => None end.
Notation "x <- e ;; k" := (bind e (fun x => k)) (at level 61, e at next level, right associativity).
Fixpoint mapM {A B} (f : A -> option B) (l : list A) : option (list B) :=
  match l with [] => Some [] | x :: r => y <- f x ;; ys <- mapM f r ;; Some (y :: ys) end.

(** get_text_for_element, CP 94-104 *)
Definition get_text (x : xml) : string := match text x with Some s => strip s | None => "" end.
(** get_attribute_value, CP 116-134 *)
Definition get_attr (x : xml) (k : string) : option string := match attr x k with Some s => Some (strip s) | None => None end.
(** the regular expression [1-9][0-9]* , CP 204, 326 *)
Definition positive_re : re :=
  Cat (Cls (fun c => match digit_of c with Some d => 1 <=? d | None => false end)) (Star (Cls (fun c => match digit_of c with Some _ => true | None => false end))).
Definition int_max : Z := 2 ^ 31 - 1.
(** std::stoi: strtol's longest prefix, int range *)
Definition std_stoi (s : string) : option Z :=
  match std_stol (list_ascii_of_string s) with
  | Ok (v, _) => if (v <? - 2 ^ 31) || (int_max <? v) then None else Some v
  | _ => None end.
Definition positive (s : string) : option Z := if regex_match (list_ascii_of_string s) positive_re then std_stoi s else None.
(** parse_size_attribute, CP 192-222 *)
Definition parse_size (x : xml) : option Z := match attr x "size" with None => Some 1 | Some s => positive (strip s) end.
(** parse_data_type_attribute, CP 232-246 *)
Definition parse_data_type (x : xml) : string := match attr x "data_type" with None => "double" | Some s => strip s end.
(** parse_rw_rate_attribute, CP 256-291 *)
Definition parse_rw_rate (x : xml) : option Z :=
  match attr x "rw_rate" with None => Some 0 | Some s => v <- std_stoi (strip s) ;; if v <? 0 then None else Some v end.
(** parse_is_async_attribute, CP 301-305 *)
Definition parse_is_async (x : xml) : option bool := match attr x "is_async" with None => Some false | Some s => pbool (strip s) end.
(** parse_thread_priority_attribute, CP 315-341 *)
Definition parse_priority (x : xml) : option Z := match attr x "thread_priority" with None => Some 50 | Some s => positive (strip s) end.
(** parse_parameters_from_xml, CP 349-375, over the <param> siblings *)
Definition parse_param (p : xml) : option (string * string) := k <- get_attr p "name" ;; Some (k, strip (get_text p)).
Definition parse_params (ps : list xml) : option params := mapM parse_param ps.
(** the <limits enable="..."> child, CP 411-418 and 467-474 *)
Definition parse_limits (x : xml) : option bool := match kids "limits" x with [] => Some true | l :: _ => s <- get_attr l "enable" ;; pbool s end.
(** parse_interfaces_from_xml, CP 384-443 *)
Definition parse_itf (x : xml) : option itf_info :=
  n <- get_attr x "name" ;;
  ps <- parse_params (kids "param" x) ;;
  lim <- parse_limits x ;;
  sz <- parse_size x ;;
  Some {| ii_name := n; ii_min := look_or "" "min" ps; ii_max := look_or "" "max" ps; ii_initial := look_or "" "initial_value" ps;
          ii_type := parse_data_type x; ii_size := sz; ii_params := ps; ii_limits := lim |}.
Definition with_limits (i : itf_info) (b : bool) : itf_info :=
  {| ii_name := ii_name i; ii_min := ii_min i; ii_max := ii_max i; ii_initial := ii_initial i; ii_type := ii_type i; ii_size := ii_size i; ii_params := ii_params i; ii_limits := ii_limits i && b |}.
(** the mimic attribute, CP 450-463: only the missing attribute is caught, parse_bool's std::invalid_argument is not *)
Definition parse_mimic (x : xml) : option mimic :=
  if String.eqb (tag x) "joint" then
    match get_attr x "mimic" with None => Some NotSet | Some s => match pbool s with Some true => Some MTrue | Some false => Some MFalse | None => None end end
  else Some NotSet.
(** parse_component_from_xml, CP 443-504 *)
Definition parse_component (x : xml) : option comp_info :=
  n <- get_attr x "name" ;; m <- parse_mimic x ;; lim <- parse_limits x ;;
  cs <- mapM parse_itf (kids "command_interface" x) ;; ss <- mapM parse_itf (kids "state_interface" x) ;; ps <- parse_params (kids "param" x) ;;
  Some {| ci_type := tag x; ci_name := n; ci_mimic := m; ci_limits := lim;
          ci_cmds := map (fun i => with_limits i lim) cs; ci_states := map (fun i => with_limits i lim) ss; ci_params := ps |}.
(** parse_complex_component_from_xml, CP 515-550 *)
Definition parse_complex (x : xml) : option comp_info :=
  n <- get_attr x "name" ;;
  cs <- mapM parse_itf (kids "command_interface" x) ;; ss <- mapM parse_itf (kids "state_interface" x) ;; ps <- parse_params (kids "param" x) ;;
  Some {| ci_type := tag x; ci_name := n; ci_mimic := NotSet; ci_limits := true; ci_cmds := cs; ci_states := ss; ci_params := ps |}.

Section Parser.
(** hardware_interface::stod (None = it throws) and static_cast<int> *)
Variable stod : string -> option F.
Variable to_int : F -> Z.

(** get_parameter_value_or, CP 160-189, over all children *)
Fixpoint param_or (l : list xml) (k : string) (d : F) : F :=
  match l with
  | [] => d
  | x :: r => if String.eqb (tag x) k then match text x with Some s => match stod (strip s) with Some v => v | None => d end | None => param_or r k d end else param_or r k d end.
Definition one : F := of_Z 1.
Definition zero : F := S754_zero false.
(** parse_transmission_joint_from_xml, CP 552-565; parse_transmission_actuator_from_xml, CP 567-580 *)
Definition parse_tj (x : xml) : option tj_info :=
  n <- get_attr x "name" ;; r <- get_attr x "role" ;; ro <- match attr x "read_only" with None => Some false | Some s => pbool (strip s) end ;;
  Some {| tj_name := n; tj_states := []; tj_cmds := []; tj_role := r; tj_red := param_or (children x) "mechanical_reduction" one;
          tj_off := param_or (children x) "offset" zero; tj_ro := ro |}.
(** parse_transmission_from_xml, CP 588-631 *)
Definition parse_trans (x : xml) : option tr_info :=
  n <- get_attr x "name" ;; ty <- match kids "plugin" x with [] => None | p :: _ => Some (get_text p) end ;;
  js <- mapM parse_tj (kids "joint" x) ;; acts <- mapM parse_tj (kids "actuator" x) ;; ps <- parse_params (kids "param" x) ;;
  Some {| tr_name := n; tr_type := ty; tr_joints := js; tr_acts := acts; tr_params := ps |}.
(** auto_fill_transmission_interfaces, CP 638-688, for one transmission *)
Definition fill_joint (joints : list comp_info) (j : tj_info) : option tj_info :=
  match find (fun c => String.eqb (tj_name j) (ci_name c)) joints with
  | None => None
  | Some c => Some {| tj_name := tj_name j; tj_states := tj_states j ++ map ii_name (ci_states c); tj_cmds := tj_cmds j ++ map ii_name (ci_cmds c);
                      tj_role := tj_role j; tj_red := tj_red j; tj_off := tj_off j; tj_ro := tj_ro j |} end.
Definition fill_trans (type : string) (joints : list comp_info) (t : tr_info) : option tr_info :=
  js <- mapM (fill_joint joints) (tr_joints t) ;;
  acts <- (if String.eqb type "actuator" then match js with
             | [j] => Some (tr_acts t ++ [{| tj_name := "actuator1"; tj_states := tj_states j; tj_cmds := tj_cmds j; tj_role := "actuator1"; tj_red := one; tj_off := zero; tj_ro := false |}])
             | _ => None end else Some (tr_acts t)) ;;
  Some {| tr_name := tr_name t; tr_type := tr_type t; tr_joints := js; tr_acts := acts; tr_params := tr_params t |}.

(** parse_array<int> *)
Definition int_array (s : string) : option (list Z) :=
  match parse_number_array (fun t => match stod (string_of_list_ascii t) with Some v => Some (to_int v) | None => None end) (list_ascii_of_string s) with Ok l => Some l | _ => None end.
Definition lower (s : string) : string := string_of_list_ascii (to_lower_case (list_ascii_of_string s)).
(** one child of the <ros2_control> element, CP 713-791 *)
Definition parse_child (h : hw_info) (x : xml) : option hw_info :=
  if String.eqb (tag x) "hardware" then
    plugin <- match kids "plugin" x with [] => None | p :: _ => Some (get_text p) end ;;
    ps <- match kids "param" x with [] => Some (h_params h) | l => parse_params l end ;;
    Some {| h_name := h_name h; h_type := h_type h; h_group := match kids "group" x with [] => h_group h | g :: _ => get_text g end; h_rate := h_rate h; h_async := h_async h;
            h_prio := h_prio h; h_policy := h_policy h; h_cores := h_cores h; h_warn := h_warn h; h_plugin := plugin; h_params := ps;
            h_joints := h_joints h; h_sensors := h_sensors h; h_gpios := h_gpios h; h_trans := h_trans h |}
  else if String.eqb (tag x) "properties" then
    match kids "async" x with
    | [] => Some h
    | a :: _ =>
      cores <- match get_attr a "affinity" with None => Some (h_cores h) | Some s => int_array s end ;;
      let policy := match get_attr a "scheduling_policy" with None => h_policy h | Some s => lower s end in
      prio <- match attr a "thread_priority" with None => Some (h_prio h) | Some _ => parse_priority a end ;;
      warn <- match get_attr a "print_warnings" with None => Some (h_warn h) | Some s => pbool s end ;;
      Some {| h_name := h_name h; h_type := h_type h; h_group := h_group h; h_rate := h_rate h; h_async := h_async h;
              h_prio := prio; h_policy := policy; h_cores := cores; h_warn := warn; h_plugin := h_plugin h; h_params := h_params h;
              h_joints := h_joints h; h_sensors := h_sensors h; h_gpios := h_gpios h; h_trans := h_trans h |}
    end
  else if String.eqb (tag x) "joint" then
    c <- parse_component x ;;
    Some {| h_name := h_name h; h_type := h_type h; h_group := h_group h; h_rate := h_rate h; h_async := h_async h; h_prio := h_prio h; h_policy := h_policy h; h_cores := h_cores h;
            h_warn := h_warn h; h_plugin := h_plugin h; h_params := h_params h; h_joints := h_joints h ++ [c]; h_sensors := h_sensors h; h_gpios := h_gpios h; h_trans := h_trans h |}
  else if String.eqb (tag x) "sensor" then
    c <- parse_component x ;;
    Some {| h_name := h_name h; h_type := h_type h; h_group := h_group h; h_rate := h_rate h; h_async := h_async h; h_prio := h_prio h; h_policy := h_policy h; h_cores := h_cores h;
            h_warn := h_warn h; h_plugin := h_plugin h; h_params := h_params h; h_joints := h_joints h; h_sensors := h_sensors h ++ [c]; h_gpios := h_gpios h; h_trans := h_trans h |}
  else if String.eqb (tag x) "gpio" then
    c <- parse_complex x ;;
    Some {| h_name := h_name h; h_type := h_type h; h_group := h_group h; h_rate := h_rate h; h_async := h_async h; h_prio := h_prio h; h_policy := h_policy h; h_cores := h_cores h;
            h_warn := h_warn h; h_plugin := h_plugin h; h_params := h_params h; h_joints := h_joints h; h_sensors := h_sensors h; h_gpios := h_gpios h ++ [c]; h_trans := h_trans h |}
  else if String.eqb (tag x) "transmission" then
    t <- parse_trans x ;;
    Some {| h_name := h_name h; h_type := h_type h; h_group := h_group h; h_rate := h_rate h; h_async := h_async h; h_prio := h_prio h; h_policy := h_policy h; h_cores := h_cores h;
            h_warn := h_warn h; h_plugin := h_plugin h; h_params := h_params h; h_joints := h_joints h; h_sensors := h_sensors h; h_gpios := h_gpios h; h_trans := h_trans h ++ [t] |}
  else None.
Fixpoint parse_children (h : hw_info) (l : list xml) : option hw_info := match l with [] => Some h | x :: r => h' <- parse_child h x ;; parse_children h' r end.
(** parse_resource_from_xml, CP 697-798 *)
Definition parse_resource (x : xml) : option hw_info :=
  n <- get_attr x "name" ;; ty <- get_attr x "type" ;; rate <- parse_rw_rate x ;; asy <- parse_is_async x ;;
  prio <- (if (asy : bool) then parse_priority x else Some int_max) ;;
  h <- parse_children {| h_name := n; h_type := ty; h_group := ""; h_rate := rate; h_async := asy; h_prio := prio; h_policy := "synchronized"; h_cores := []; h_warn := true;
                         h_plugin := ""; h_params := []; h_joints := []; h_sensors := []; h_gpios := []; h_trans := [] |} (children x) ;;
  ts <- mapM (fill_trans (h_type h) (h_joints h)) (h_trans h) ;;
  Some {| h_name := h_name h; h_type := h_type h; h_group := h_group h; h_rate := h_rate h; h_async := h_async h; h_prio := h_prio h; h_policy := h_policy h; h_cores := h_cores h;
          h_warn := h_warn h; h_plugin := h_plugin h; h_params := h_params h; h_joints := h_joints h; h_sensors := h_sensors h; h_gpios := h_gpios h; h_trans := ts |}.

(** the joint as the limits code (ParserModel, CP 809-968) sees it *)
Definition text_of (s : string) : ParserModel.text := if String.eqb s "" then Absent else match stod s with Some v => Number v | None => Invalid end.
Definition limits_joint (c : comp_info) : joint :=
  {| j_enable := ci_limits c; j_cmds := map (fun i => {| i_name := ii_name i; i_min := text_of (ii_min i); i_max := text_of (ii_max i); i_enable := ii_limits i |}) (ci_cmds c) |}.
(** std::find_if over the joints of the tag: the index of the first of that name *)
Fixpoint joint_index (n : string) (l : list comp_info) : option nat :=
  match l with [] => None | c :: r => if String.eqb (ci_name c) n then Some O else match joint_index n r with Some k => Some (S k) | None => None end end.
(** one joint of one tag against the URDF, CP 1041-1107 *)
Definition check_joint (u : list (string * urdf_joint)) (h : hw_info) (i : nat) (c : comp_info) (r : robot_info) : option robot_info :=
  match aget u (ci_name c) with
  | None => None
  | Some j =>
    match uj_mimic j, ci_mimic c with None, MTrue => None | _, _ =>
      ms <- match uj_mimic j, ci_mimic c with
            | None, _ => Some (r_mimic r) | Some _, MFalse => Some (r_mimic r)
            | Some (n, mult, off), _ => match ci_cmds c with _ :: _ => None | [] => k <- joint_index n (h_joints h) ;;
                Some (r_mimic r ++ [{| m_joint := i; m_mimicked := k; m_mult := mult; m_off := off |}]) end end ;;
      if uj_fixed j then None else
      Some {| r_hw := r_hw r; r_mimic := ms; r_limits := aset (r_limits r) (ci_name c) (joint_limits (uj_limits j) (limits_joint c));
              r_soft := match soft_limits (uj_limits j) (limits_joint c) with Some s => aset (r_soft r) (ci_name c) s | None => r_soft r end |} end end.
Fixpoint check_joints (u : list (string * urdf_joint)) (h : hw_info) (i : nat) (l : list comp_info) (r : robot_info) : option robot_info :=
  match l with [] => Some r | c :: t => r' <- check_joint u h i c r ;; check_joints u h (S i) t r' end.
Definition check_hw (u : list (string * urdf_joint)) (h : hw_info) : option robot_info :=
  check_joints u h 0 (h_joints h) {| r_hw := h; r_mimic := []; r_limits := []; r_soft := [] |}.

(** what the call does: an answer, an exception, or a null pointer dereference *)
Inductive outcome := Answer (l : list robot_info) | Throws | NullDeref.
Definition of_option (x : option (list robot_info)) : outcome := match x with Some l => Answer l | None => Throws end.
(** parse_control_resources_from_urdf, CP 975-1112.  The document: None = empty string or tinyxml2 reports an error; Some None = no root element *)
Definition parse_urdf (doc : option (option xml)) (u : urdf) : outcome :=
  match doc with
  | None => Throws
  | Some None => NullDeref
  | Some (Some root) =>
    let go (l : list xml) := of_option (match l with [] => None | _ => hs <- mapM parse_resource l ;; m <- u ;; mapM (check_hw m) hs end) in
    if String.eqb (tag root) "robot" then go (kids "ros2_control" root)
    else if String.eqb (tag root) "sdf" then match kids "model" root with [] => NullDeref | m :: _ => go (kids "ros2_control" m) end
    else Throws end.
End Parser.

(** InterfaceDescription's name, HI 326-331; parse_state/command_interface_descriptions returning a vector, CP 1114-1129, 1146-1161 *)
Definition itf_full (c : comp_info) (i : itf_info) : string := (ci_name c ++ "/" ++ ii_name i)%string.
Definition descriptions (sel : comp_info -> list itf_info) (l : list comp_info) : list (string * itf_info) :=
  flat_map (fun c => map (fun i => (itf_full c i, i)) (sel c)) l.
(** the overloads filling a map, CP 1131-1144, 1163-1177: insert does not overwrite *)
Definition insert_new (m : list (string * itf_info)) (d : string * itf_info) : list (string * itf_info) :=
  match aget m (fst d) with Some _ => m | None => m ++ [d] end.
Definition describe_into (sel : comp_info -> list itf_info) (m : list (string * itf_info)) (l : list comp_info) : list (string * itf_info) :=
  fold_left insert_new (descriptions sel l) m.
