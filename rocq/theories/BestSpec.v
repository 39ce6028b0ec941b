(** BestSpec.v -- specification for BEST_EFFORT switch requests. *)
From Verif Require Import Base Events HwModel RmModel CmModel.
Open Scope list_scope.

(** the same state, but the switch under way (if any) was requested as BEST_EFFORT *)
Definition best_of (p : pend) : pend :=
  {| p_act := p_act p; p_deact := p_deact p; p_to := p_to p; p_from := p_from p; p_start := p_start p;
     p_stop := p_stop p; p_strict := false; p_asap := p_asap p; p_done := p_done p |}.
Definition as_best_effort (m : cm) : cm := set_pend m (option_map best_of (cm_pend m)).
(** the names of loaded controllers *)
Definition is_loaded (m : cm) (n : name) : bool := match find_ctrl m n with Some _ => true | None => false end.
Definition loaded_of (m : cm) (l : list name) : list name := filter (is_loaded m) l.
(** a list of names of which at least one is loaded, or no list at all *)
Definition some_known (m : cm) (l : list name) : Prop := l = [] \/ exists n, In n l /\ In n (map c_name (cm_ctrls m)).
