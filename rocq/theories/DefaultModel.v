(** DefaultModel.v -- hardware components that rely on what the base class offers: interfaces made from the description, exported,
    and accessed by name.
    HCI = /repo/hardware_interface/src/hardware_component_interface.cpp: on_init 248-273, on_export_state_interfaces 298-342,
    on_export_command_interfaces 360-396, has_state ... get_command_interface_handle 504-540; HCH = hardware_component_interface.hpp:
    set_state, get_state, set_command, get_command 340-520; HC = hardware_component.cpp: export_state_interfaces,
    export_command_interfaces 248-307 (export_*_interfaces of the plugin return nothing: the default, HCI 283-289, 345-351);
    HH = handle.hpp: Handle(InterfaceDescription) 75-250; HI = hardware_info.hpp: HandleDataType 174-216;
    RM = resource_manager.cpp: import_state_interfaces 684-716, import_command_interfaces 752-781, add_*_interfaces 951-1062.
    Simplifications: handle_exceptions is true; no limiters are bound to the commands (EnforceModel.v has them); every access
    gets its lock (the ones by name wait for it, HCH 365); a loaned interface is the manager's map entry. *)
From Coq Require Import ZArith Floats.SpecFloat.
From Verif Require Import LimitsModel HandleModel LexModel ParserModel XmlTypes XmlModel Base Events HwModel RmModel LoadModel.
Open Scope string_scope. Open Scope nat_scope. Open Scope list_scope.

(** What is outside: the conversions of texts to double and float; the order in which an unordered_map with that content is iterated;
    what export_unlisted_*_interface_descriptions returns for the component of a name (by default nothing). *)
Record host := {
  u_stod : string -> option F; u_stof : string -> option F;
  u_ord : list (string * itf_info) -> list (string * itf_info);
  u_more_s : name -> list (string * itf_info); u_more_c : name -> list (string * itf_info)
}.

(** HandleDataType(string), HI 174-216 *)
Definition dtype_of (s : string) : option dtype :=
  if String.eqb s "double" then Some DOUBLE else if String.eqb s "bool" then Some BOOL else if String.eqb s "float32" then Some FLOAT32
  else if String.eqb s "uint8" then Some UINT8 else if String.eqb s "int8" then Some INT8 else if String.eqb s "uint16" then Some UINT16
  else if String.eqb s "int16" then Some INT16 else if String.eqb s "uint32" then Some UINT32 else if String.eqb s "int32" then Some INT32
  else None.
(** the numeric limits used for an empty text, HH 124-236 *)
Definition top (t : dtype) : Z :=
  match t with UINT8 => 255 | INT8 => 127 | UINT16 => 65535 | INT16 => 32767 | UINT32 => 4294967295 | INT32 => 2147483647 | _ => 0 end%Z.
(** stoui8 ... stoi32, lexical_casts.hpp (LexModel) *)
Definition integer_of (t : dtype) (s : string) : option Z :=
  let a := list_ascii_of_string s in
  match (match t with UINT8 => stoui 8 a | UINT16 => stoui 16 a | UINT32 => stoui 32 a
              | INT8 => stoi 8 a | INT16 => stoi 16 a | _ => stoi 32 a end) with LexModel.Ok z => Some z | _ => None end.
(** the value a new handle has, HH 75-250; None: the constructor throws *)
Definition initial (u : host) (i : itf_info) : option value :=
  match dtype_of (ii_type i) with
  | None => None
  | Some DOUBLE => if String.eqb (ii_initial i) "" then Some (VDouble S754_nan) else option_map VDouble (u_stod u (ii_initial i))
  | Some FLOAT32 => if String.eqb (ii_initial i) "" then Some (VFloat S754_nan) else option_map VFloat (u_stof u (ii_initial i))
  | Some BOOL => if String.eqb (ii_initial i) "" then Some (VBool false) else option_map VBool (pbool (ii_initial i))
  | Some t => if String.eqb (ii_initial i) "" then Some (VInt t (top t)) else option_map (VInt t) (integer_of t (ii_initial i))
  end.

(** joint_state_interfaces_ ... gpio_command_interfaces_ *)
Record maps := { j_states : list (string * itf_info); s_states : list (string * itf_info); g_states : list (string * itf_info);
  j_cmds : list (string * itf_info); g_cmds : list (string * itf_info) }.
Definition no_maps := {| j_states := []; s_states := []; g_states := []; j_cmds := []; g_cmds := [] |}.
Definition states_in := describe_into ci_states [].
Definition cmds_in := describe_into ci_cmds [].
(** HCI 248-273 *)
Definition on_init (h : hw_info) : maps :=
  if String.eqb (XmlTypes.h_type h) "actuator" then
    {| j_states := states_in (h_joints h); s_states := []; g_states := []; j_cmds := cmds_in (h_joints h); g_cmds := [] |}
  else if String.eqb (XmlTypes.h_type h) "sensor" then
    {| j_states := states_in (h_joints h); s_states := states_in (h_sensors h); g_states := []; j_cmds := []; g_cmds := [] |}
  else if String.eqb (XmlTypes.h_type h) "system" then
    {| j_states := states_in (h_joints h); s_states := states_in (h_sensors h); g_states := states_in (h_gpios h);
       j_cmds := cmds_in (h_joints h); g_cmds := cmds_in (h_gpios h) |}
  else no_maps.
(** the descriptions on_export_* go through, HCI 301-342, 363-396 *)
Definition states_of (u : host) (h : hw_info) : list (string * itf_info) :=
  let m := on_init h in u_more_s u (XmlTypes.h_name h) ++ u_ord u (j_states m) ++ u_ord u (s_states m) ++ u_ord u (g_states m).
Definition cmds_of (u : host) (h : hw_info) : list (string * itf_info) :=
  let m := on_init h in u_more_c u (XmlTypes.h_name h) ++ u_ord u (j_cmds m) ++ u_ord u (g_cmds m).

(** ---- the names the manager is given (LoadModel) *)
Definition export_names (u : host) (l : list (string * itf_info)) : option (list name) :=
  if forallb (fun d => match initial u (snd d) with Some _ => true | None => false end) l then Some (map fst l) else None.
Definition part_of (c : comp_info) : part := {| p_name := ci_name c; p_states := map ii_name (ci_states c); p_cmds := map ii_name (ci_cmds c) |}.
Definition desc_of (h : hw_info) : hwdesc :=
  {| d_name := XmlTypes.h_name h; d_type := XmlTypes.h_type h; d_plugin := h_plugin h; d_group := XmlTypes.h_group h;
     d_rate := Z.to_nat (h_rate h); d_joints := map part_of (h_joints h); d_sensors := map part_of (h_sensors h); d_gpios := map part_of (h_gpios h) |}.
(** what all these components, every plugin being found, export *)
Definition exports_of (u : host) (hs : list hw_info) : lenv :=
  {| le_create := fun _ _ => true;
     le_states := fun n => match find (fun h => String.eqb (XmlTypes.h_name h) n) hs with Some h => export_names u (states_of u h) | None => None end;
     le_cmds := fun n => match find (fun h => String.eqb (XmlTypes.h_name h) n) hs with Some h => export_names u (cmds_of u h) | None => None end |}.

(** ---- the handles *)
(** every handle of every component, hardware_states_ and hardware_commands_ of each component (by its name), the manager's
    state_interface_map_ and command_interface_map_; an address is a shared pointer *)
Record mem := { m_w : HandleModel.world; m_next : nat; m_own_s : alist (alist nat); m_own_c : alist (alist nat); m_smap : alist nat; m_cmap : alist nat }.
Definition put_new (m : alist nat) (d : name * nat) : alist nat := match aget m (fst d) with Some _ => m | None => m ++ [d] end.
(** a loop of on_export_*: make_shared, hardware_*_.insert, push_back; None: an exception left it *)
Fixpoint make (u : host) (l : list (string * itf_info)) (w : HandleModel.world) (next : nat) (own : alist nat)
  : HandleModel.world * nat * alist nat * option (list (name * nat)) :=
  match l with
  | [] => (w, next, own, Some [])
  | (n, i) :: l' =>
      match initial u i with
      | None => (w, next, own, None)
      | Some v =>
          let w1 := match HandleModel.step (New next v) w with HandleModel.Ok _ w' => w' | _ => w end in
          let '(w2, next2, own2, r) := make u l' w1 (S next) (put_new own (n, next)) in
          (w2, next2, own2, option_map (cons (n, next)) r)
      end
  end.
(** add_state_interfaces (what is there stays, the exception is caught per interface), RM 951-1000 *)
Definition add_s (sm : alist nat) (l : list (name * nat)) : alist nat := fold_left put_new l sm.
(** add_command_interfaces: the first that is there already ends it, RM 717-733, 1045-1062 *)
Fixpoint add_c (cm : alist nat) (l : list (name * nat)) : alist nat :=
  match l with [] => cm | d :: l' => match aget cm (fst d) with Some _ => cm | None => add_c (cm ++ [d]) l' end end.
Definition or_none {A} (o : option (list A)) : list A := match o with Some l => l | None => [] end.
(** one component, RM 1187-1262 *)
Definition import_hw (u : host) (m : mem) (h : hw_info) : mem :=
  match kind_of (XmlTypes.h_type h) with
  | None => m
  | Some k =>
      let '(w1, n1, os, rs) := make u (states_of u h) (m_w m) (m_next m) [] in
      let '(w2, n2, oc, rc) := match k with Sensor => (w1, n1, [], Some []) | _ => make u (cmds_of u h) w1 n1 [] end in
      {| m_w := w2; m_next := n2; m_own_s := m_own_s m ++ [(XmlTypes.h_name h, os)]; m_own_c := m_own_c m ++ [(XmlTypes.h_name h, oc)];
         m_smap := add_s (m_smap m) (or_none rs); m_cmap := add_c (m_cmap m) (or_none rc) |}
  end.
Definition empty_mem : mem := {| m_w := HandleModel.start; m_next := 0; m_own_s := []; m_own_c := []; m_smap := []; m_cmap := [] |}.
Definition build (u : host) (hs : list hw_info) : mem := fold_left (import_hw u) hs empty_mem.

(** ---- accesses by name: by a component (HCH 340-520) to its own interfaces; by a controller to what it was lent *)
Inductive access :=
| CompSetState (c n : name) (v : value) | CompGetState (c n : name) (T : dtype)
| CompSetCmd (c n : name) (v : value) | CompGetCmd (c n : name) (T : dtype)
| CtrlGetState (n : name) (T : dtype) | CtrlGetCmd (n : name) (T : dtype) | CtrlSetCmd (n : name) (v : value).
Inductive answer := Got (v : value) | Stored | Refused.
Definition in_own (o : alist (alist nat)) (c n : name) : option nat := match aget o c with Some m => aget m n | None => None end.
Definition place (m : mem) (x : access) : option nat :=
  match x with
  | CompSetState c n _ | CompGetState c n _ => in_own (m_own_s m) c n
  | CompSetCmd c n _ | CompGetCmd c n _ => in_own (m_own_c m) c n
  | CtrlGetState n _ => aget (m_smap m) n
  | CtrlGetCmd n _ | CtrlSetCmd n _ => aget (m_cmap m) n
  end.
Definition on_handle (x : access) (a : nat) : op :=
  match x with
  | CompSetState _ _ v | CompSetCmd _ _ v | CtrlSetCmd _ v => Set_ a v true
  | CompGetState _ _ T | CompGetCmd _ _ T | CtrlGetState _ T | CtrlGetCmd _ T => Get a T true
  end.
Definition with_w (m : mem) (w : HandleModel.world) : mem :=
  {| m_w := w; m_next := m_next m; m_own_s := m_own_s m; m_own_c := m_own_c m; m_smap := m_smap m; m_cmap := m_cmap m |}.
Definition do_access (m : mem) (x : access) : mem * answer :=
  match place m x with
  | None => (m, Refused)
  | Some a =>
      match HandleModel.step (on_handle x a) (m_w m) with
      | HandleModel.Ok (RVal (Some v)) w => (with_w m w, Got v)
      | HandleModel.Ok _ w => (with_w m w, Stored)
      | _ => (m, Refused)
      end
  end.
Definition do_all (m : mem) (l : list access) : mem := fold_left (fun m x => fst (do_access m x)) l m.
