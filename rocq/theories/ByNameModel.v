(** ByNameModel.v -- loading a controller by its name: what the manager's parameters say about it, and the arguments its node
    is given.
    CM = /repo/controller_manager/src/controller_manager.cpp: load_controller(name) 1387-1413, load_controller(name, type) 1243-1385,
    add_controller_impl 2447-2530, determine_controller_node_options 4966-5016, load_controller_service_cb 2974-2987.
    Simplifications: handle_exceptions is true; statistics, logging and introspection are left out; the life cycle of the
    loaded controller and the two real-time lists are in CmModel.v and RtModel.v (a load that adds the controller here is
    [CLoad] there, which also says what happens to the chain data).  Of rclcpp: has_parameter, declare_parameter, get_parameter
    (which throws if the parameter is set with another type) on a map of the parameters; declaring a parameter that is not
    there does not fail.  Setting a parameter may be refused by rclcpp (a declared type): such a request is no step here. *)
From Verif Require Import Base.
Open Scope string_scope. Open Scope list_scope.

(** the value of a parameter; [PUnset]: declared with a type and never set *)
Inductive pval := PStr (s : string) | PStrs (l : list string) | POther | PUnset.
(** ControllerInfo, hardware_interface/controller_info.hpp *)
Record cinfo := { i_name : name; i_type : string; i_files : list string; i_fallback : list name; i_args : list string }.
Inductive init_result := IOk | IError | IThrow.
(** user code seen by the manager: a plugin is created, init() is called with these node arguments *)
Inductive uevent := UCreate (chainable : bool) (type : string) | UInit (n : name) (args : list string).
Record world := { w_params : alist pval; w_ctrls : list cinfo; w_log : list uevent }.
(** what is outside: the classes of the two plugin loaders, whether creation succeeds, define_custom_node_options of the type,
    the answer of init(); use_sim_time of the manager *)
Record outside := {
  o_plain : string -> bool; o_chain : string -> bool;
  o_create : list uevent -> bool -> string -> bool;
  o_custom : string -> list string;
  o_init : list uevent -> name -> list string -> init_result;
  o_sim : bool
}.
Definition with_params (w : world) (ps : alist pval) : world := {| w_params := ps; w_ctrls := w_ctrls w; w_log := w_log w |}.
Definition say (w : world) (e : uevent) : world := {| w_params := w_params w; w_ctrls := w_ctrls w; w_log := e :: w_log w |}.
Inductive answer := Loaded | Null | Throws.

Definition declare (ps : alist pval) (k : name) (v : pval) : alist pval := match aget ps k with Some _ => ps | None => aset ps k v end.
(** get_parameter into a string / a vector of strings: not set; a value; an exception *)
Inductive got (A : Type) := Nothing | Got (a : A) | Raises.
Arguments Nothing {A}. Arguments Got {A} a. Arguments Raises {A}.
Definition get_str (ps : alist pval) (k : name) : got string :=
  match aget ps k with None | Some PUnset => Nothing | Some (PStr s) => Got s | Some _ => Raises end.
Definition get_strs (ps : alist pval) (k : name) : got (list string) :=
  match aget ps k with None | Some PUnset => Nothing | Some (PStrs l) => Got l | Some _ => Raises end.

(** determine_controller_node_options, CM 4966-5016 *)
Definition ros_flag : string := "--ros-args".
Definition with_flag (l : list string) : list string := if mem ros_flag l then l else l ++ [ros_flag].
Definition node_args (o : outside) (c : cinfo) : list string :=
  let a0 := o_custom o (i_type c) in
  let a1 := fold_left (fun a f => with_flag a ++ ["--params-file"; f]) (i_files c) a0 in
  let a2 := if o_sim o then with_flag a1 ++ ["--param"; "use_sim_time:=true"] else a1 in
  let a3 := match i_args c with [] => a2 | _ => if mem ros_flag (i_args c) then a2 else a2 ++ [ros_flag] end in
  a3 ++ i_args c.

(** add_controller_impl, CM 2447-2530 *)
Definition add_controller (o : outside) (w : world) (c : cinfo) : world * answer :=
  if existsb (fun d => String.eqb (i_name d) (i_name c)) (w_ctrls w) then (w, Null)
  else
    let args := node_args o c in
    let w1 := say w (UInit (i_name c) args) in
    match o_init o (w_log w) (i_name c) args with
    | IOk => ({| w_params := w_params w1; w_ctrls := w_ctrls w1 ++ [c]; w_log := w_log w1 |}, Loaded)
    | IError | IThrow => (w1, Null)
    end.

(** creation, CM 1271-1283: a class known to both loaders is created by both *)
Definition create (o : outside) (w : world) (t : string) : world * bool :=
  let '(w1, b1) := if o_plain o t then (say w (UCreate false t), o_create o (w_log w) false t) else (w, true) in
  if negb b1 then (w1, false)
  else if o_chain o t then (say w1 (UCreate true t), o_create o (w_log w1) true t) else (w1, true).

(** load_controller(name, type), CM 1243-1385 *)
Definition files_key (n : name) : name := (n ++ ".params_file")%string.
Definition fallback_key (n : name) : name := (n ++ ".fallback_controllers")%string.
Definition args_key (n : name) : name := (n ++ ".node_options_args")%string.
Definition type_key (n : name) : name := (n ++ ".type")%string.
Definition load_typed (o : outside) (w : world) (n : name) (t : string) : world * answer :=
  if negb (o_plain o t) && negb (o_chain o t) then (w, Null)
  else
    let '(w1, made) := create o w t in
    if negb made then (w1, Null)
    else
      let files := match aget (w_params w1) (files_key n) with Some (PStrs l) => l | Some (PStr s) => [s] | _ => [] end in
      let w2 := with_params w1 (declare (w_params w1) (fallback_key n) (PStrs [])) in
      match get_strs (w_params w2) (fallback_key n) with
      | Raises => (w2, Throws)
      | f =>
          let fb := match f with Got l => l | _ => [] end in
          if mem n fb then (w2, Null)
          else
            let w3 := with_params w2 (declare (w_params w2) (args_key n) (PStrs [])) in
            match get_strs (w_params w3) (args_key n) with
            | Raises => (w3, Throws)
            | a =>
                let args := match a with Got l => l | _ => [] end in
                add_controller o w3 {| i_name := n; i_type := t; i_files := files; i_fallback := fb; i_args := args |}
            end
      end.
(** load_controller(name), CM 1387-1413 *)
Definition load (o : outside) (w : world) (n : name) : world * answer :=
  let w1 := with_params w (declare (w_params w) (type_key n) PUnset) in
  match get_str (w_params w1) (type_key n) with
  | Raises => (w1, Throws)
  | Nothing => (w1, Null)
  | Got t => load_typed o w1 n t
  end.

(** what can happen: a load, a parameter is set (by a spawner or a user), a controller is unloaded *)
Inductive step := SLoad (n : name) | SSet (k : name) (v : pval) | SUnload (n : name).
Definition do_step (o : outside) (w : world) (s : step) : world :=
  match s with
  | SLoad n => fst (load o w n)
  | SSet k v => with_params w (aset (w_params w) k v)
  | SUnload n => {| w_params := w_params w; w_ctrls := filter (fun c => negb (String.eqb (i_name c) n)) (w_ctrls w); w_log := w_log w |}
  end.
Definition start (ps : alist pval) : world := {| w_params := ps; w_ctrls := []; w_log := [] |}.
Definition runs (o : outside) (w : world) (l : list step) : world := fold_left (do_step o) l w.
