(** InitHwSpec.v -- start-up of hardware groups (C47). *)
From Coq Require Import Permutation.
From Verif Require Import Base Events HwModel RmModel RmSys RmSpec InitHwModel.

(** a callback of component [n] did not succeed *)
Definition cb_failed (n : name) (cb : hcb) (t : trace) : Prop := exists c, In (EvHwCb n cb c) t /\ c <> CbSuccess.
(** named in one of the two parameter lists (empty names are skipped) *)
Definition listed (p : iparams) (n : name) : Prop := In n (p_unconf p) \/ In n (p_inact p).
Definition is_active (r : rm) (n : name) : Prop := lc_of r n = Some Active.
(** the iteration orders enumerate the components and the group names *)
Definition orders (hs : list hwc) (order gorder : list name) : Prop :=
  Permutation order (map h_name hs) /\ NoDup gorder /\
  (forall g, In g gorder <-> g <> "" /\ exists h, In h hs /\ h_group h = g).
(** component [n] of the description, to be activated *)
Definition to_activate (hs : list hwc) (p : iparams) (g n : name) : Prop :=
  exists h, In h hs /\ h_name h = n /\ h_group h = g /\ (n = "" \/ ~ listed p n).
