(** EnforceModel.v -- the joint limiters inside the resource manager: which command interfaces they are bound to, what a
    controller's set_value through a loaned interface stores, and what the pass over all joints at the end of the update
    cycle does.  RM = hardware_interface/src/resource_manager.cpp, HI = .../include/hardware_interface/.
    The limiters themselves are LimitsModel.v.
    Simplifications: all interfaces hold doubles (a handle of another type makes get_optional() throw); values, claims and
    limiters of one resource manager only; a mutex is either free or, where the code tries it, busy as the operation says. *)
From Coq Require Import ZArith Bool List String SpecFloat.
From Verif Require Import Base LimitsModel.
Import ListNotations.
Open Scope string_scope.
Open Scope list_scope.

(** HW_IF_POSITION ..., HI types/hardware_interface_type_values.hpp; the four supported ones, RM 1088-1090 *)
Definition kinds : list name := ["position"; "velocity"; "effort"; "acceleration"].
(** fmt "{}/{}", RM 867 *)
Definition itf (joint kind : name) : name := (joint ++ "/" ++ kind)%string.
(** the members of JointControlInterfacesData by interface type *)
Definition get_kind (d : jd) (k : name) : option F :=
  if String.eqb k "position" then d_pos d else if String.eqb k "velocity" then d_vel d
  else if String.eqb k "effort" then d_eff d else if String.eqb k "acceleration" then d_acc d else None.
(** a command of one kind only, RM 1107-1125 *)
Definition one_kind (k : name) (v : F) : jd :=
  {| d_pos := if String.eqb k "position" then Some v else None; d_vel := if String.eqb k "velocity" then Some v else None;
     d_eff := if String.eqb k "effort" then Some v else None; d_acc := if String.eqb k "acceleration" then Some v else None;
     d_jerk := None |}.

(** HardwareInfo: limits, soft_limits, joints (name, enable_limits) *)
Record hwinfo := { hi_name : name; hi_limits : alist jl; hi_soft : alist sl; hi_joints : list (name * bool) }.
(** a limiter object: JointSaturationLimiter without, JointSoftLimiter with soft limits, RM 826-846; m_prev its prev_command_ *)
Record limiter := { m_hard : jl; m_soft : option sl; m_prev : jd }.
Definition with_prev (m : limiter) (p : jd) : limiter := {| m_hard := m_hard m; m_soft := m_soft m; m_prev := p |}.
Definition run_limiter (m : limiter) (act des : jd) (dt : F) : outcome :=
  match m_soft m with Some s => enforce_soft (m_hard m) s (m_prev m) act des dt | None => enforce (m_hard m) (m_prev m) act des dt end.
(** JointInterfacesCommandLimiterData, the parts that survive a cycle (data_structures.hpp 107-113) *)
Record jdata := { t_act : jd; t_cmd : jd }.
(** CommandInterface: prefix, interface type, value, is_command_limited_, the hardware whose limiter was bound (RM 1165) *)
Record citf := { c_prefix : name; c_kind : name; c_val : F; c_limited : bool; c_bound : option name }.
(** ResourceStorage, RM 1395-1440: state_interface_map_, command_interface_map_, claimed_command_interface_map_,
    joint_limiters_interface_, limiters_data_, and the period 1 / cm_update_rate_ in seconds (RM 1085-1086) *)
Record world := { w_states : alist F; w_cmds : alist citf; w_claims : alist bool;
                  w_lims : alist (alist limiter); w_data : alist jdata; w_period : F }.

Definition set_states (w : world) x := {| w_states := x; w_cmds := w_cmds w; w_claims := w_claims w; w_lims := w_lims w; w_data := w_data w; w_period := w_period w |}.
Definition set_cmds (w : world) x := {| w_states := w_states w; w_cmds := x; w_claims := w_claims w; w_lims := w_lims w; w_data := w_data w; w_period := w_period w |}.
Definition set_claims (w : world) x := {| w_states := w_states w; w_cmds := w_cmds w; w_claims := x; w_lims := w_lims w; w_data := w_data w; w_period := w_period w |}.
Definition set_lims (w : world) x := {| w_states := w_states w; w_cmds := w_cmds w; w_claims := w_claims w; w_lims := x; w_data := w_data w; w_period := w_period w |}.
Definition set_data (w : world) x := {| w_states := w_states w; w_cmds := w_cmds w; w_claims := w_claims w; w_lims := w_lims w; w_data := x; w_period := w_period w |}.

(** std::unordered_map::insert keeps what is there *)
Definition insert {A} (m : alist A) (k : name) (v : A) : alist A := match aget m k with Some _ => m | None => aset m k v end.
Definition lim_get (w : world) (hw j : name) : option limiter := match aget (w_lims w) hw with Some ls => aget ls j | None => None end.
Definition lim_set (w : world) (hw j : name) (m : limiter) : world :=
  set_lims w (aset (w_lims w) hw (aset (match aget (w_lims w) hw with Some ls => ls | None => [] end) j m)).

(** import_joint_limiters, RM 783-853 *)
Definition limits_enabled (joints : list (name * bool)) (j : name) : bool :=
  negb (existsb (fun p => (String.eqb (fst p) j && negb (snd p))%bool) joints).
Definition no_jdata : jdata := {| t_act := no_data; t_cmd := no_data |}.
Definition import_joint (hi : hwinfo) (w : world) (p : name * jl) : world :=
  if limits_enabled (hi_joints hi) (fst p) then
    let w1 := set_data w (insert (w_data w) (fst p) no_jdata) in
    match lim_get w1 (hi_name hi) (fst p) with
    | Some _ => w1
    | None => lim_set w1 (hi_name hi) (fst p) {| m_hard := snd p; m_soft := aget (hi_soft hi) (fst p); m_prev := no_data |} end
  else w.
Definition import_hw (w : world) (hi : hwinfo) : world := fold_left (import_joint hi) (hi_limits hi) w.
Definition import_limiters (infos : list hwinfo) (w : world) : world := fold_left import_hw infos w.
Definition empty_world (period : F) : world :=
  {| w_states := []; w_cmds := []; w_claims := []; w_lims := []; w_data := []; w_period := period |}.

(** bind_command_limiter_to_interface, RM 1073-1170: every hardware whose limiters know the prefix overwrites the one before *)
Definition bound_to (w : world) (prefix kind : name) : option name :=
  fold_left (fun acc hw => match lim_get w hw prefix with Some _ => if mem kind kinds then Some hw else acc | None => acc end)
            (map fst (w_lims w)) None.

Definition is_claimed (w : world) (n : name) : bool := match aget (w_claims w) n with Some b => b | None => false end.
(** update_joint_limiters_data, RM 855-890: an interface that is not there leaves what was known before *)
Definition read_state (w : world) (j k : name) (old : option F) : option F :=
  match aget (w_states w) (itf j k) with Some v => Some v | None => old end.
Definition read_cmd (w : world) (j k : name) (old : option F) : option F :=
  match aget (w_cmds w) (itf j k) with
  | Some c => if is_claimed w (itf j k) then Some (c_val c) else None
  | None => old end.
Definition fill_data (f : name -> option F -> option F) (d : jd) : jd :=
  {| d_pos := f "position" (d_pos d); d_vel := f "velocity" (d_vel d); d_eff := f "effort" (d_eff d);
     d_acc := f "acceleration" (d_acc d); d_jerk := d_jerk d |}.
Definition data_of (w : world) (j : name) : jdata := match aget (w_data w) j with Some d => d | None => no_jdata end.
(** RM 917-922 *)
Definition refresh (w : world) (j : name) : world :=
  let d := data_of w j in
  set_data w (aset (w_data w) j {| t_act := fill_data (read_state w j) (t_act d); t_cmd := fill_data (read_cmd w j) (t_cmd d) |}).
(** set_value on the interface if it is in the map *)
Definition with_val (c : citf) (v : F) : citf :=
  {| c_prefix := c_prefix c; c_kind := c_kind c; c_val := v; c_limited := c_limited c; c_bound := c_bound c |}.
Definition put (w : world) (n : name) (v : F) : world :=
  match aget (w_cmds w) n with Some c => set_cmds w (aset (w_cmds w) n (with_val c v)) | None => w end.
(** update_joint_limiters_commands, RM 892-915 *)
Definition put_kind (j : name) (cmd : jd) (w : world) (k : name) : world :=
  match get_kind cmd k with Some v => put w (itf j k) v | None => w end.
Definition write_back (w : world) (j : name) (cmd : jd) : world := fold_left (put_kind j cmd) kinds w.

Inductive res :=
| ROk (b : bool)
| RThrew           (* std::runtime_error *)
| RUndef.          (* undefined behaviour (std::clamp with hi < lo) *)

(** enforce_command_limits(joint_name, period), RM 932-950.  Simplification: the hardware components are visited in the order
    of the list (the code iterates over an unordered_map) *)
Fixpoint enforce_joint (hws : list name) (w : world) (j : name) (dt : F) (acc : bool) : world * res :=
  match hws with
  | [] => (w, ROk acc)
  | hw :: r =>
      match lim_get w hw j with
      | None => enforce_joint r w j dt acc
      | Some m =>
          let w1 := refresh w j in
          let d := data_of w1 j in
          match run_limiter m (t_act d) (t_cmd d) dt with
          | Done p c b =>
              let w2 := lim_set w1 hw j (with_prev m p) in
              enforce_joint r (if b then write_back w2 j c else w2) j dt b
          | Threw p => (lim_set w1 hw j (with_prev m p), RThrew)
          | Undefined => (w1, RUndef)
          end
      end
  end.
(** ResourceManager::enforce_command_limits, RM 2378-2395; [order] the joints in the order of the unordered_maps, a joint as
    many times as there are hardware components with a limiter for it *)
Fixpoint enforce_all (order : list name) (w : world) (dt : F) (acc : bool) : world * res :=
  match order with
  | [] => (w, ROk acc)
  | j :: r =>
      match enforce_joint (map fst (w_lims w)) w j dt false with
      | (w1, ROk b) => enforce_all r w1 dt (acc || b)
      | stop => stop end
  end.

(** the limiter bound to a command interface, RM 1097-1163; [None]: the default one, handle.hpp 783-789.
    Answer: the value to store, or how it ended; and is_limited *)
Definition with_limited (c : citf) (b : bool) : citf :=
  {| c_prefix := c_prefix c; c_kind := c_kind c; c_val := c_val c; c_limited := b; c_bound := c_bound c |}.
Definition mark (w : world) (n : name) (b : bool) : world :=
  match aget (w_cmds w) n with Some c => set_cmds w (aset (w_cmds w) n (with_limited c b)) | None => w end.
Inductive limited_to := LValue (v : F) | LThrew | LUndef.
Definition on_set (w : world) (n : name) (v : F) : world * limited_to :=
  match aget (w_cmds w) n with
  | None => (w, LValue v)
  | Some c =>
      match c_bound c with
      | None => (mark w n false, LValue v)
      | Some hw =>
          match lim_get w hw (c_prefix c) with
          | None => (mark w n false, LValue v)   (* does not happen: limiters are never removed *)
          | Some m =>
              let act := fill_data (read_state w (c_prefix c)) no_data in
              match run_limiter m act (one_kind (c_kind c) v) (w_period w) with
              | Done p cmd b => (mark (lim_set w hw (c_prefix c) (with_prev m p)) n b,
                                 LValue (match get_kind cmd (c_kind c) with Some x => x | None => v end))
              | Threw p => (mark (lim_set w hw (c_prefix c) (with_prev m p)) n false, LThrew)
              | Undefined => (mark w n false, LUndef)
              end
          end
      end
  end.
(** LoanedCommandInterface::set_value, loaned_command_interface.hpp 100-119, CommandInterface::set_limited_value, handle.hpp
    723-733: limit, then try to store; [busy] is how many times the handle's lock is found taken *)
Fixpoint loaned_set (tries : nat) (busy : nat) (w : world) (n : name) (v : F) : world * res :=
  match tries with
  | O => (w, ROk false)
  | S t =>
      match on_set w n v with
      | (w1, LValue x) => match busy with O => (put w1 n x, ROk true) | S b => loaned_set t b w1 n v end
      | (w1, LThrew) => (w1, RThrew)
      | (w1, LUndef) => (w1, RUndef) end
  end.

(** what can happen: a state interface is added or its value changes (hardware read), a command interface is added or removed
    (components, reference interfaces of controllers) or its value changed by the hardware itself, is claimed or released, a
    controller sets a command, the pass over all joints (skipped when joint_limiters_lock_ is taken) *)
Inductive op :=
| OState (n : name) (v : F)
| OAddCmd (prefix kind : name) (v : F)
| ORemove (n : name)
| OHwSet (n : name) (v : F)
| OClaim (n : name) (b : bool)
| OSet (n : name) (v : F) (busy : nat)
| OEnforce (lock_free : bool) (order : list name) (dt : F).

Definition step (w : world) (o : op) : world * res :=
  match o with
  | OState n v => (set_states w (aset (w_states w) n v), ROk true)
  (* add_command_interfaces, RM 1044-1063; a second interface of the same name is refused with an exception *)
  | OAddCmd prefix kind v =>
      match aget (w_cmds w) (itf prefix kind) with
      | Some _ => (w, RThrew)
      | None => (set_claims (set_cmds w (aset (w_cmds w) (itf prefix kind)
                   {| c_prefix := prefix; c_kind := kind; c_val := v; c_limited := false; c_bound := bound_to w prefix kind |}))
                   (insert (w_claims w) (itf prefix kind) false), ROk true) end
  (* remove_command_interfaces, RM 1177-1185 *)
  | ORemove n => (set_claims (set_cmds w (adel (w_cmds w) n)) (adel (w_claims w) n), ROk true)
  | OHwSet n v => (put w n v, ROk true)
  | OClaim n b => (set_claims w (aset (w_claims w) n b), ROk true)
  | OSet n v busy => loaned_set 10 busy w n v
  | OEnforce false _ _ => (w, ROk false)
  | OEnforce true order dt => enforce_all order w dt false
  end.
Definition run_ops (w : world) (os : list op) : world := fold_left (fun w o => fst (step w o)) os w.
