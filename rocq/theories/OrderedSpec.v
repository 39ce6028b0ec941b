(** OrderedSpec.v -- which interface a name asks for (documentation of get_ordered_interfaces, helpers.hpp:29-48). *)
From Coq Require Import List Bool String Arith.
From Verif Require Import OrderedModel.
Import ListNotations.
Open Scope string_scope.
Open Scope list_scope.

(** with an interface type the names are joints, without they are full interface names *)
Definition requested (ty name : string) : string := match ty with EmptyString => name | _ => (name ++ "/" ++ ty)%string end.
(** position [k] of the given interfaces holds the interface that [name] asks for *)
Definition asks_for (us : list iface) (ty name : string) (k : nat) : Prop :=
  exists u, nth_error us k = Some u /\ full_name u = requested ty name.
(** the i-th output is the interface requested at position i *)
Definition in_order (us : list iface) (ty : string) (names : list string) (out : list nat) : Prop :=
  Forall2 (asks_for us ty) names out.
Definition found (us : list iface) (ty name : string) : Prop := exists k, asks_for us ty name k.
(** no two of the given interfaces have the same name (true of what one controller has claimed) *)
Definition distinct (us : list iface) : Prop := NoDup (map full_name us).
