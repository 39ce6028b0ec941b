(** KindsSpec.v -- vocabulary for C65: what an interface configuration selects. *)
From Verif Require Import Base Events HwModel RmModel ChainModel CmModel.
Open Scope list_scope.

(** controller_interface::InterfaceConfiguration, controller_interface_base.hpp 45-71: NONE, ALL, INDIVIDUAL,
    INDIVIDUAL_BEST_EFFORT, REGEX *)
Definition selects (cfg : icfg) (k : name) : Prop :=
  match cfg with
  | INone => False
  | IAll => True
  | IIndividual ks => In k ks
  | IBestEffort ks => In k ks
  | IRegex ps => exists p, In p ps /\ p k = true
  end.
(** two different patterns of the configuration match [k] *)
Definition selects_twice (cfg : icfg) (k : name) : Prop :=
  match cfg with
  | IRegex ps => exists a p b q d, ps = a ++ p :: b ++ q :: d /\ p k = true /\ q k = true
  | _ => False
  end.
