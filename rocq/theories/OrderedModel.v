(** OrderedModel.v -- assigning loaned interfaces to requested names.
    Models /repo/controller_interface/include/controller_interface/helpers.hpp:
    get_ordered_interfaces (49-87), interface_list_contains_interface_type (89-95).
    An interface is its prefix and interface name; get_name() is "<prefix>/<interface>"
    (/repo/hardware_interface/include/hardware_interface/handle.hpp, constructors of Handle).  References into
    [unordered_interfaces] are positions in that list; the capacity of the output vector is a number (push_back may
    exceed it: that only reallocates). *)
From Coq Require Import List Bool String Arith.
Import ListNotations.
Open Scope string_scope.
Open Scope list_scope.
Open Scope nat_scope.

Record iface := { prefix_name : string; interface_name : string }.
Definition full_name (i : iface) : string := prefix_name i ++ "/" ++ interface_name i.

Inductive outcome := RangeError | Returned (b : bool) (ordered : list nat).

(** the condition inside the loops, 67-83 *)
Definition matches (ty name : string) (i : iface) : bool :=
  if negb (String.eqb ty "") then
    (String.eqb name (prefix_name i) && String.eqb ty (interface_name i)) || String.eqb (name ++ "/" ++ ty) (full_name i)
  else String.eqb name (full_name i).

(** the inner loop, 65-84: [k] is the position of the first interface of [us] *)
Fixpoint inner (ty name : string) (k : nat) (us : list iface) (acc : list nat) : list nat :=
  match us with
  | [] => acc
  | u :: us => inner ty name (S k) us (if matches ty name u then acc ++ [k] else acc)
  end.
(** the outer loop, 63-85 *)
Fixpoint outer (ty : string) (names : list string) (us : list iface) (acc : list nat) : list nat :=
  match names with
  | [] => acc
  | n :: names => outer ty names us (inner ty n 0 us acc)
  end.
Definition get_ordered_interfaces (us : list iface) (names : list string) (ty : string) (capacity : nat)
  (ordered : list nat) : outcome :=
  if capacity <? List.length names then RangeError
  else let out := outer ty names us ordered in
       Returned (List.length names =? List.length out) out.

(** interface_list_contains_interface_type, 89-95 *)
Definition contains_interface_type (l : list string) (ty : string) : bool := existsb (String.eqb ty) l.
