(** LcidSpec.v -- what get_lifecycle_id should answer. *)
From Coq Require Import List Bool Arith.
Import ListNotations.
From Verif Require Import LcidModel.

(** [undisturbed s l]: along the schedule no callback of the life-cycle node is entered while a call of get_lifecycle_id holds a state it has read and not yet stored. *)
Definition pending (s : st) : Prop := exists i v, reader s i = Got v.
Fixpoint undisturbed (s : st) (l : list action) : Prop :=
  match l with
  | [] => True
  | a :: l' => (a = ACallback -> ~ pending s) /\ undisturbed (step s a) l'
  end.

(** Every call during which the node rested in one primary state answered that state. *)
Definition right_answers (s : st) : Prop :=
  forall i v p, In (i, v, P p, true) (returns s) -> v = P p.

(** A call made from start to end while nothing else happens. *)
Definition ask (i : nat) : list action := [ALoad i; ARead i; AStoreBack i].
Definition idle (s : st) : Prop := forall i, reader s i = Out.

(** Calls never overlap with anything: always right. *)
Inductive sequential : st -> Prop :=
| sq_start : sequential initial
| sq_owner s a : sequential s -> (match a with ABegin _ | ACallback | AEnd _ | AStore => True | _ => False end) ->
    sequential (step s a)
| sq_ask s i : sequential s -> sequential (run s (ask i)).

