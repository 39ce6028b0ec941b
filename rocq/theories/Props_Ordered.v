(** Props_Ordered.v -- C45: get_ordered_interfaces. *)
From Coq Require Import List Bool String Arith Lia.
From Verif Require Import OrderedModel OrderedSpec OrderedProofs.
Import ListNotations.
Open Scope string_scope.
Open Scope list_scope.
Open Scope nat_scope.

(** C45, restricted to interfaces with pairwise distinct names and an empty output vector; missing for the full
    claim: see the two refutations below. *)
Theorem c45_in_order_partial : forall us names ty cap out, distinct us ->
  get_ordered_interfaces us names ty cap [] = Returned true out -> in_order us ty names out.
Proof. exact main_true. Qed.
Print Assumptions c45_in_order_partial.
(** it then returns true exactly if every name is found, collects exactly the requested interfaces and never
    exceeds the reserved capacity (no allocation) *)
Theorem c45_complete_partial : forall us names ty cap, distinct us -> List.length names <= cap ->
  exists b out, get_ordered_interfaces us names ty cap [] = Returned b out /\ List.length out <= cap /\
  (b = true <-> Forall (found us ty) names) /\
  (forall k, In k out <-> exists n, In n names /\ asks_for us ty n k).
Proof. exact main_complete. Qed.
Print Assumptions c45_complete_partial.
Theorem c45_range_error : forall us names ty cap ordered,
  get_ordered_interfaces us names ty cap ordered = RangeError <-> cap < List.length names.
Proof. exact main_throw. Qed.
Print Assumptions c45_range_error.

Definition ifc p i := {| prefix_name := p; interface_name := i |}.
Example c45_example : distinct [ifc "j2" "position"; ifc "j1" "velocity"; ifc "j1" "position"] /\
  get_ordered_interfaces [ifc "j2" "position"; ifc "j1" "velocity"; ifc "j1" "position"] ["j1"; "j2"] "position" 2 [] = Returned true [2; 0] /\
  get_ordered_interfaces [ifc "j2" "position"; ifc "j1" "velocity"; ifc "j1" "position"] ["j2/position"; "j1/effort"] "" 3 [] = Returned false [0] /\
  get_ordered_interfaces [ifc "j2" "position"] ["j2"; "j1"] "position" 1 [] = RangeError.
Proof.
  split; [|repeat split; vm_compute; reflexivity].
  unfold distinct. cbn. repeat (constructor; [cbn; intuition discriminate|]). constructor.
Qed.

(** a duplicated interface makes up for a missing one: true although "j2" was not found *)
Theorem c45_refuted_duplicate : exists us names ty out,
  get_ordered_interfaces us names ty 2 [] = Returned true out /\ In "j2" names /\ ~ found us ty "j2".
Proof.
  exists [ifc "j1" "position"; ifc "j1" "position"], ["j1"; "j2"], "position", [0; 1].
  split; [vm_compute; reflexivity|]. split; [right; now left|].
  intros (k & u & H & E). destruct k as [|[|[|k]]]; cbn in H; try discriminate; injection H as <-; discriminate.
Qed.
Print Assumptions c45_refuted_duplicate.
(** the vector is not cleared: a second call (re-activation without clearing) with one of the two names missing
    reports success, although the vector starts with the stale entry *)
Theorem c45_refuted_stale : exists us names ty old out, distinct us /\
  get_ordered_interfaces us names ty 2 [] = Returned false old /\
  get_ordered_interfaces us names ty 2 old = Returned true out /\ In "j2" names /\ ~ found us ty "j2".
Proof.
  exists [ifc "j1" "position"], ["j1"; "j2"], "position", [0], [0; 0].
  split; [repeat constructor; intros []|].
  split; [vm_compute; reflexivity|]. split; [vm_compute; reflexivity|]. split; [right; now left|].
  intros (k & u & H & E). destruct k as [|[|k]]; cbn in H; try discriminate; injection H as <-; discriminate.
Qed.
Print Assumptions c45_refuted_stale.
