(** ListSpec.v -- words for C60: the list services tell the truth. *)
From Verif Require Import Base Events HwModel RmModel RmSpec CmModel CmSpec ExportSpec ListModel.
Open Scope string_scope.
Open Scope list_scope.

(** interface [s] of controller [n] *)
Definition itf (n s : name) : name := String.append n (String.append "/" s).
(** everything [c] exports is named "<c>/..." *)
Definition exports_named (c : ctrl) : Prop := forall k, In k (c_refs c ++ c_exps c) -> exists s, k = itf (c_name c) s.
(** interface [k] is "p/..." (or, degenerate, is called p itself) *)
Definition belongs (k p : name) : Prop := owned_by k p \/ (prefix_of k = None /\ k = p).
Definition loaded (m : cm) (p : name) : Prop := In p (map c_name (cm_ctrls m)).

(** entry [x] of list_controllers describes controller [c] correctly *)
Definition describes (m : cm) (c : ctrl) (x : centry) : Prop :=
  l_name x = c_name c /\ l_state x = c_lc c /\ l_chainable x = c_chainable c /\ l_chained x = c_chained c /\
  (configured (c_lc c) ->
     (forall k, In k (l_cmds x) <-> wants_cmd m c k) /\ (forall k, In k (l_states x) <-> wants_state m c k) /\
     (forall p, In p (map k_name (l_conns x)) <-> loaded m p /\ exists k, wants_cmd m c k /\ belongs k p) /\
     (forall y k s, In y (l_conns x) -> wants_cmd m c k -> k = itf (k_name y) s -> prefix_of k = Some (k_name y) -> In s (k_itfs y)) /\
     (forall y s, In y (l_conns x) -> In s (k_itfs y) -> exists k p, wants_cmd m c k /\ loaded m p /\ (k = itf p s \/ prefix_of k = None))) /\
  (~ configured (c_lc c) -> l_cmds x = [] /\ l_states x = [] /\ l_conns x = []) /\
  (c_chainable c = true -> configured (c_lc c) ->
     map (itf (c_name c)) (l_refs x) = c_refs c /\ exps_of m (c_name c) = Some (map (itf (c_name c)) (l_exps x)) /\
     incl (map (itf (c_name c)) (l_exps x)) (c_exps c)) /\
  (c_chainable c = false \/ ~ configured (c_lc c) -> l_refs x = [] /\ l_exps x = []).

(** an active controller holds (has on loan) command interface [k] *)
Definition held (m : cm) (k : name) : Prop := exists c, In c (cm_ctrls m) /\ c_lc c = Active /\ In k (c_cloans c).
(** entry [x] describes command (state) interface [k] of component [h] correctly; the last two conjuncts: what is
    available is so for a reason, if the component's own transitions never end in an error *)
Definition describes_cmd (e : env) (m : cm) (h : hwc) (k : name) (x : hentry) : Prop :=
  i_name x = k /\ (configured (h_lc h) -> i_available x = true) /\
  (no_transition_errors e -> i_available x = true -> configured (h_lc h)) /\
  (i_claimed x = true <-> i_available x = true /\ held m k).
Definition describes_state (e : env) (h : hwc) (k : name) (x : hentry) : Prop :=
  i_name x = k /\ (configured (h_lc h) -> i_available x = true) /\
  (no_transition_errors e -> i_available x = true -> configured (h_lc h)) /\ i_claimed x = false.
(** entry [x] of list_hardware_components describes component [h] correctly *)
Definition describes_hw (e : env) (m : cm) (h : hwc) (x : hwentry) : Prop :=
  w_name x = h_name h /\ w_kind x = h_kind h /\ w_state x = h_lc h /\
  Forall2 (describes_cmd e m h) (h_cmd h) (w_cmds x) /\ Forall2 (describes_state e h) (h_state h) (w_states x).
