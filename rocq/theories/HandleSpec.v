(** HandleSpec.v -- words used in the statements about handles. *)
From Coq Require Import ZArith Bool List Arith.
From Verif Require Import LimitsModel HandleModel.
Import ListNotations.

(** the data type of handle i *)
Definition has_type (w : world) (i : nat) (t : dtype) : Prop := exists h, objs w i = Some h /\ ht h = t.
(** reading handle i as its own type returns v *)
Definition reads (w : world) (i : nat) (v : value) : Prop :=
  has_type w i (type_of v) /\ step (Get i (type_of v) true) w = Ok (RVal (Some v)) w.
Definition live (w : world) (i : nat) : Prop := objs w i <> None.
(** handle i refers to the external double a / stores a double itself *)
Definition shares (w : world) (i a : nat) : Prop := exists h, objs w i = Some h /\ hp h = Ext a.
Definition owns_double (w : world) (i : nat) : Prop := exists h x, objs w i = Some h /\ hv h = Some (VDouble x).
(** operations except moves of handles that store a double themselves *)
Definition calm (w : world) (o : op) : Prop :=
  match o with
  | MoveNew _ j => ~ owns_double w j
  | MoveAssign i j => ~ owns_double w i /\ ~ owns_double w j
  | New _ v | Set_ _ v _ => value_ok v
  | _ => True end.
(** all worlds calm programs can produce (exceptions change nothing) *)
Inductive reachable : world -> Prop :=
| r_start : reachable start
| r_step w o r w' : reachable w -> calm w o -> step o w = Ok r w' -> reachable w'.
(** the operation stores into, replaces, moves or ends handle i, or stores into the double it shares *)
Definition touches (w : world) (i : nat) (o : op) : Prop :=
  match o with
  | Set_ j _ _ => j = i \/ exists a, shares w i a /\ shares w j a
  | Poke a _ => shares w i a
  | CopyAssign j _ => j = i
  | MoveAssign j k => j = i \/ k = i
  | MoveNew _ k => k = i
  | Destroy j => j = i
  | _ => False end.
(** the objects an operation needs exist, and the one it creates does not yet *)
Definition proper (w : world) (o : op) : Prop :=
  match o with
  | New i _ | NewExt i _ => ~ live w i
  | CopyNew i j | MoveNew i j => ~ live w i /\ live w j
  | CopyAssign i j => live w i /\ live w j
  | MoveAssign i j => live w i /\ live w j /\ i <> j
  | Destroy i | Get i _ _ | Set_ i _ _ => live w i
  | Poke _ _ => True end.
