(** DefaultSpec.v -- the words of property C79. *)
From Coq Require Import Ascii ZArith Floats.SpecFloat Permutation.
From Verif Require Import LimitsModel HandleModel HandleSpec LexSpec ParserModel XmlTypes XmlModel Base Events HwModel RmModel LoadModel LoadSpec DefaultModel.
Open Scope string_scope. Open Scope nat_scope. Open Scope list_scope.

(** An unordered map is iterated in some order. *)
Definition some_order (u : host) : Prop := forall l, Permutation (u_ord u l) l.

(** ---- what a new interface contains *)
Definition word (t : dtype) : string :=
  match t with DOUBLE => "double" | FLOAT32 => "float32" | BOOL => "bool" | UINT8 => "uint8" | INT8 => "int8" | UINT16 => "uint16"
  | INT16 => "int16" | UINT32 => "uint32" | INT32 => "int32" end.
(** the integers of a type *)
Inductive fits : dtype -> Z -> Prop :=
| f_u8 (z : Z) : (0 <= z < 2 ^ 8)%Z -> fits UINT8 z | f_i8 (z : Z) : (- 2 ^ 7 <= z < 2 ^ 7)%Z -> fits INT8 z
| f_u16 (z : Z) : (0 <= z < 2 ^ 16)%Z -> fits UINT16 z | f_i16 (z : Z) : (- 2 ^ 15 <= z < 2 ^ 15)%Z -> fits INT16 z
| f_u32 (z : Z) : (0 <= z < 2 ^ 32)%Z -> fits UINT32 z | f_i32 (z : Z) : (- 2 ^ 31 <= z < 2 ^ 31)%Z -> fits INT32 z.
(** without an initial value: NaN, false, the largest integer *)
Inductive blank_value : value -> Prop :=
| b_double : blank_value (VDouble S754_nan) | b_float : blank_value (VFloat S754_nan) | b_bool : blank_value (VBool false)
| b_int (t : dtype) (z : Z) : fits t z -> (forall z' : Z, fits t z' -> (z' <= z)%Z) -> blank_value (VInt t z).
(** the described initial value *)
Inductive reads_as (u : host) (s : string) : value -> Prop :=
| r_double x : u_stod u s = Some x -> reads_as u s (VDouble x)
| r_float x : u_stof u s = Some x -> reads_as u s (VFloat x)
| r_bool (b : bool) : case_variant (list_ascii_of_string s) (if b then "true" else "false") -> reads_as u s (VBool b)
| r_int (t : dtype) (z : Z) : integer (list_ascii_of_string s) z -> fits t z -> reads_as u s (VInt t z).
Definition starts_with (u : host) (i : itf_info) (v : value) : Prop :=
  ii_type i = word (type_of v) /\ (if String.eqb (ii_initial i) "" then blank_value v else reads_as u (ii_initial i) v).
Definition unsigned (t : dtype) : Prop := t = UINT8 \/ t = UINT16 \/ t = UINT32.

(** ---- what the base class exports for a component *)
Definition full (c : comp_info) (i : itf_info) : name := (ci_name c ++ "/" ++ ii_name i)%string.
Definition parts_with_states (h : hw_info) : list comp_info :=
  if String.eqb (XmlTypes.h_type h) "actuator" then h_joints h
  else if String.eqb (XmlTypes.h_type h) "sensor" then h_joints h ++ h_sensors h
  else h_joints h ++ h_sensors h ++ h_gpios h.
Definition parts_with_cmds (h : hw_info) : list comp_info :=
  if String.eqb (XmlTypes.h_type h) "actuator" then h_joints h
  else if String.eqb (XmlTypes.h_type h) "sensor" then []
  else h_joints h ++ h_gpios h.
Definition offered_states (u : host) (h : hw_info) : list (name * itf_info) :=
  u_more_s u (XmlTypes.h_name h) ++ flat_map (fun c => map (fun i => (full c i, i)) (ci_states c)) (parts_with_states h).
Definition offered_cmds (u : host) (h : hw_info) : list (name * itf_info) :=
  (if String.eqb (XmlTypes.h_type h) "sensor" then [] else u_more_c u (XmlTypes.h_name h)) ++
  flat_map (fun c => map (fun i => (full c i, i)) (ci_cmds c)) (parts_with_cmds h).
Definition a_type (h : hw_info) : Prop := In (XmlTypes.h_type h) ["actuator"; "sensor"; "system"].

(** A robot the base class can serve: known types, distinct component names, no interface name twice, every initial value
    readable. *)
Record sound_robot (u : host) (hs : list hw_info) : Prop := {
  sr_names : NoDup (map XmlTypes.h_name hs);
  sr_types : forall h, In h hs -> a_type h;
  sr_states : NoDup (flat_map (fun h => map fst (offered_states u h)) hs);
  sr_cmds : NoDup (flat_map (fun h => map fst (offered_cmds u h)) hs);
  sr_values : forall h d, In h hs -> In d (offered_states u h) \/ In d (offered_cmds u h) -> exists v, starts_with u (snd d) v
}.
(** It describes nothing the base class ignores. *)
Definition nothing_ignored (h : hw_info) : Prop :=
  (XmlTypes.h_type h = "actuator" -> (forall c, In c (h_sensors h) -> ci_states c = []) /\ (forall c, In c (h_gpios h) -> ci_states c = [] /\ ci_cmds c = [])) /\
  (XmlTypes.h_type h = "sensor" -> (forall c, In c (h_joints h) -> ci_cmds c = []) /\ (forall c, In c (h_gpios h) -> ci_states c = [] /\ ci_cmds c = [])).

(** ---- what is read *)
(** the value last stored among the accesses that [sel]ects; stores of another type do not count *)
Definition latest (sel : access -> option value) (v0 : value) (l : list access) : value :=
  fold_left (fun v x => match sel x with Some v' => if dtype_eqb (type_of v') (type_of v) then v' else v | None => v end) l v0.
(** the component [c] stores into its state interface [n]; it, or a controller, stores into its command interface [n] *)
Definition state_store (c n : name) (x : access) : option value :=
  match x with CompSetState c' n' v => if (String.eqb c' c && String.eqb n' n)%bool then Some v else None | _ => None end.
Definition cmd_store (c n : name) (x : access) : option value :=
  match x with
  | CompSetCmd c' n' v => if (String.eqb c' c && String.eqb n' n)%bool then Some v else None
  | CtrlSetCmd n' v => if String.eqb n' n then Some v else None
  | _ => None end.
(** reading a value as its own type, or a bool as a double; nothing else *)
Definition seen (v : value) (T : dtype) : answer :=
  if dtype_eqb (type_of v) T then Got v
  else match v, T with VBool b, DOUBLE => Got (VDouble (if b then of_Z 1 else fzero)) | _, _ => Refused end.
Definition taken (v : value) (new : value) : answer := if dtype_eqb (type_of new) (type_of v) then Stored else Refused.
(** C++ values *)
Definition access_ok (x : access) : Prop :=
  match x with CompSetState _ _ v | CompSetCmd _ _ v | CtrlSetCmd _ v => value_ok v | _ => True end.
(** The initial value cannot be read (stoul's treatment of a minus sign apart, C41). *)
Definition unreadable (u : host) (i : itf_info) : Prop :=
  (forall v, ~ starts_with u i v) /\ (forall t, ii_type i = word t -> ~ unsigned t \/ ~ In "-"%char (list_ascii_of_string (ii_initial i))).
Record named_robot (u : host) (hs : list hw_info) : Prop := {
  nr_names : NoDup (map XmlTypes.h_name hs);
  nr_types : forall h, In h hs -> a_type h;
  nr_states : NoDup (flat_map (fun h => map fst (offered_states u h)) hs);
  nr_cmds : NoDup (flat_map (fun h => map fst (offered_cmds u h)) hs)
}.
