(** HandleModel.v -- hardware_interface::Handle (handle.hpp:63-640), the storage behind state and
    command interfaces.  Handle objects live at identifiers (their addresses); the pointer member
    value_ptr_ points to an external double, or into the variant member of some handle object. *)
From Coq Require Import ZArith Bool List Arith.
From Verif Require Import LimitsModel.
Import ListNotations.

(** HandleDataType, hardware_info.hpp:155-330 *)
Inductive dtype := DOUBLE | FLOAT32 | BOOL | UINT8 | INT8 | UINT16 | INT16 | UINT32 | INT32.
Definition dtype_eqb (a b : dtype) : bool :=
  match a, b with DOUBLE, DOUBLE | FLOAT32, FLOAT32 | BOOL, BOOL | UINT8, UINT8 | INT8, INT8 | UINT16, UINT16
  | INT16, INT16 | UINT32, UINT32 | INT32, INT32 => true | _, _ => false end.
(** a C++ value of one of the types; integers are kept as numbers, floats as numbers of the model *)
Inductive value := VDouble (x : F) | VFloat (x : F) | VBool (b : bool) | VInt (t : dtype) (z : Z).
Definition type_of (v : value) : dtype :=
  match v with VDouble _ => DOUBLE | VFloat _ => FLOAT32 | VBool _ => BOOL | VInt t _ => t end.
(** VInt only with an integer type *)
Definition value_ok (v : value) : Prop := match v with VInt t _ => t <> DOUBLE /\ t <> FLOAT32 /\ t <> BOOL | _ => True end.
(** double * *)
Inductive ptr := Null | Ext (a : nat) | Inside (h : nat).
(** value_ (None = std::monostate), data_type_, value_ptr_; the names and the mutex have no content here *)
Record hstate := { hv : option value; ht : dtype; hp : ptr }.
Record world := { objs : nat -> option hstate; ext : nat -> F }.

Definition set_obj (w : world) (i : nat) (h : option hstate) : world :=
  {| objs := fun j => if Nat.eqb j i then h else objs w j; ext := ext w |}.
Definition set_ext (w : world) (a : nat) (x : F) : world :=
  {| objs := objs w; ext := fun b => if Nat.eqb b a then x else ext w b |}.

(** outcome of an operation: a return value and the new world; an exception (the world is unchanged);
    undefined behaviour (a dead object, or a pointer to a double that is not there) *)
Inductive ret := RUnit | RBool (b : bool) | RVal (v : option value).
Inductive res := Ok (r : ret) (w : world) | Throws | UB.

(** *value_ptr_ *)
Definition load_ptr (w : world) (p : ptr) : option F :=
  match p with
  | Null => None
  | Ext a => Some (ext w a)
  | Inside i => match objs w i with Some h => match hv h with Some (VDouble x) => Some x | _ => None end | None => None end end.
Definition store_ptr (w : world) (p : ptr) (x : F) : option world :=
  match p with
  | Null => None
  | Ext a => Some (set_ext w a x)
  | Inside i => match objs w i with
            | Some h => match hv h with
                        | Some (VDouble _) => Some (set_obj w i (Some {| hv := Some (VDouble x); ht := ht h; hp := hp h |}))
                        | _ => None end
            | None => None end end.

(** get_optional<T>, handle.hpp:306-386; [lock]: the shared lock was obtained (try_to_lock).
    get_value<T> :399-415/:527-588 takes the same decisions. *)
Definition get (w : world) (i : nat) (T : dtype) (lock : bool) : res :=
  match objs w i with
  | None => UB
  | Some h =>
      if negb lock then Ok (RVal None) w else
      match T with
      | DOUBLE => match ht h with
          | DOUBLE => match hp h with
                      | Null => Throws
                      | p => match load_ptr w p with Some x => Ok (RVal (Some (VDouble x))) w | None => UB end end
          | BOOL => match hv h with
                    | Some (VBool b) => Ok (RVal (Some (VDouble (if b then of_Z 1 else fzero)))) w
                    | _ => Throws end
          | _ => Throws end
      | _ => match hv h with
             | Some v => if dtype_eqb (type_of v) T then Ok (RVal (Some v)) w else Throws
             | None => Throws end
      end
  end.
(** set_value<T>, handle.hpp:427-503 *)
Definition set (w : world) (i : nat) (v : value) (lock : bool) : res :=
  match objs w i with
  | None => UB
  | Some h =>
      if negb lock then Ok (RBool false) w else
      match v with
      | VDouble x => match hp h with
                     | Null => Throws
                     | p => match store_ptr w p x with Some w' => Ok (RBool true) w' | None => UB end end
      | _ => match hv h with
             | Some u => if dtype_eqb (type_of u) (type_of v)
                         then Ok (RBool true) (set_obj w i (Some {| hv := Some v; ht := ht h; hp := hp h |}))
                         else Throws
             | None => Throws end
      end
  end.
(** std::get_if<double>(&value_) in the object [i] *)
Definition inner (i : nat) (v : option value) : ptr := match v with Some (VDouble _) => Inside i | _ => Null end.
(** copy, handle.hpp:592-608 *)
Definition copied (i : nat) (o : hstate) : hstate :=
  {| hv := hv o; ht := ht o; hp := match hv o with None => hp o | Some _ => inner i (hv o) end |}.

Inductive op :=
| New (i : nat) (v : value)              (* Handle(prefix, interface, data_type, initial_value), :75-242; [v] the parsed initial value *)
| NewExt (i : nat) (a : option nat)      (* Handle(prefix, interface, pointer to double), :66-73; Handle(name), :252-264 *)
| CopyNew (i j : nat)                    (* Handle i(j), :266 *)
| CopyAssign (i j : nat)                 (* i = j, :268-275 *)
| MoveNew (i j : nat)                    (* Handle i(std::move(j)), :277 *)
| MoveAssign (i j : nat)                 (* i = std::move(j), :279-283; i = j would lock the same mutex twice *)
| Destroy (i : nat)
| Get (i : nat) (T : dtype) (lock : bool)
| Set_ (i : nat) (v : value) (lock : bool)
| Poke (a : nat) (x : F).                (* the owner of an external double writes to it *)

(** members of a fresh object, handle.hpp:622-632 *)
Definition fresh : hstate := {| hv := None; ht := DOUBLE; hp := Null |}.
Definition step (o : op) (w : world) : res :=
  match o with
  | New i v => match objs w i with None => Ok RUnit (set_obj w i (Some {| hv := Some v; ht := type_of v; hp := inner i (Some v) |})) | Some _ => UB end
  | NewExt i a => match objs w i with
      | None => Ok RUnit (set_obj w i (Some {| hv := None; ht := DOUBLE; hp := match a with Some x => Ext x | None => Null end |}))
      | Some _ => UB end
  | CopyNew i j => match objs w i, objs w j with None, Some o => Ok RUnit (set_obj w i (Some (copied i o))) | _, _ => UB end
  | CopyAssign i j => match objs w i, objs w j with
      | Some _, Some o => if Nat.eqb i j then Ok RUnit w else Ok RUnit (set_obj w i (Some (copied i o)))
      | _, _ => UB end
  (* swap of all members, handle.hpp:610-619 *)
  | MoveNew i j => match objs w i, objs w j with
      | None, Some o => Ok RUnit (set_obj (set_obj w i (Some o)) j (Some fresh)) | _, _ => UB end
  | MoveAssign i j => match objs w i, objs w j with
      | Some h, Some o => if Nat.eqb i j then UB else Ok RUnit (set_obj (set_obj w i (Some o)) j (Some h)) | _, _ => UB end
  | Destroy i => match objs w i with Some _ => Ok RUnit (set_obj w i None) | None => UB end
  | Get i T lock => get w i T lock
  | Set_ i v lock => set w i v lock
  | Poke a x => Ok RUnit (set_ext w a x)
  end.
(** a program; an exception is caught and the program goes on *)
Fixpoint run (os : list op) (w : world) : option world :=
  match os with
  | [] => Some w
  | o :: r => match step o w with Ok _ w' => run r w' | Throws => run r w | UB => None end end.
Definition start : world := {| objs := fun _ => None; ext := fun _ => fzero |}.
