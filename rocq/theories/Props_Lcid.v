(** Props_Lcid.v -- C72: get_lifecycle_id agrees with the life-cycle state (LcidModel.v), for every history of transitions,
    every number of calling threads and every interleaving. *)
From Coq Require Import List Bool Arith.
Import ListNotations.
From Verif Require Import LcidModel LcidSpec LcidProofs.

(** calls that overlap with nothing: the answer is the state, after every history of transitions, whatever their callbacks
    answered *)
Theorem c72_sequential : forall s i p, sequential s -> node s = P p ->
  returns (run s (ask i)) = (i, P p, P p, true) :: returns s.
Proof. exact sequential_answer. Qed.
Print Assumptions c72_sequential.

(** any number of threads and any interleaving in which no callback is entered between a caller's reading of the state and its
    storing it: every call during which the node stayed in one state answers that state *)
Theorem c72_undisturbed : forall l, undisturbed initial l -> right_answers (run initial l).
Proof. exact quiet_answers. Qed.
Print Assumptions c72_undisturbed.

(** whatever happened before, a callback entered while no call is about to store makes later answers right again *)
Theorem c72_heals : forall l t l' i p, node (run initial l) = T t -> called (run initial l) = false ->
  ~ pending (run initial l) ->
  undisturbed (step (run initial l) ACallback) l' ->
  let s := run (step (run initial l) ACallback) l' in
  reader s i = Out -> node s = P p ->
  returns (run s (ask i)) = (i, P p, P p, true) :: returns s.
Proof. exact heals. Qed.
Print Assumptions c72_heals.

(** in every interleaving the answer is a state the controller has really been in *)
Theorem c72_real_state : forall l i v n f, In (i, v, n, f) (returns (run initial l)) -> In v (past (run initial l)).
Proof. intros l i v n f H. destruct (seen_run l) as (_ & _ & _ & S). exact (S i v n f H). Qed.
Print Assumptions c72_real_state.

(** hardware components: whenever no set_lifecycle_state is under way the answer is the state *)
Theorem c72_hardware : forall v0 l,
  let '(x, busy) := hrun ({| h_state := v0; h_cache := v0; h_returns := [] |}, false) l in
  (busy = false -> h_cache x = h_state x) /\ (forall r n, In (r, n, false) (h_returns x) -> r = n).
Proof. exact hardware_answers. Qed.
Print Assumptions c72_hardware.

(** ---- concrete schedules *)
Definition transition (t : tran) (r : cb) : list action := [ABegin t; ACallback; AEnd r].

Example c72_example : let l := transition TConfiguring Success ++ ask 0 ++ transition TActivating Success ++
    [ALoad 1; ALoad 0; ARead 0; ARead 1; AStoreBack 1; AStoreBack 0] ++ transition TDeactivating Error ++
    [ACallback; AEnd Success] ++ ask 1 in
  undisturbed initial l /\ map (fun x => snd (fst (fst x))) (returns (run initial l)) =
    [P PUnconfigured; P PActive; P PActive; P PInactive].
Proof.
  split; [|vm_compute; reflexivity].
  cbn [app ask transition]. repeat (split; [try discriminate; intros _ (i & v & H); revert H|]); try exact I;
    destruct i as [|[|i]]; vm_compute; discriminate.
Qed.

Example c72_example_hardware :
  h_returns (fst (hrun ({| h_state := P PInactive; h_cache := P PInactive; h_returns := [] |}, false)
    [HGet; HSetState (P PActive); HGet; HSetCache; HGet])) =
  [(P PActive, P PActive, false); (P PInactive, P PActive, true); (P PInactive, P PInactive, false)].
Proof. reflexivity. Qed.

(** ---- what is false *)

(** One call that reads the state just before a deactivation and stores it just after leaves "ACTIVE" behind: the controller is
    INACTIVE, nothing is under way, and every later call - however many - answers ACTIVE. *)
Definition bad : list action :=
  transition TConfiguring Success ++ ask 0 ++ transition TActivating Success ++
  [ALoad 1; ARead 1] ++ transition TDeactivating Success ++ ask 0 ++ [AStoreBack 1].
Theorem c72_stale_refuted : exists l, node (run initial l) = P PInactive /\ idle (run initial l) /\
  forall asks, returns (run (run initial l) (flat_map ask asks)) =
    rev (map (fun i => (i, P PActive, P PInactive, true)) asks) ++ returns (run initial l).
Proof.
  exists bad.
  assert (N : node (run initial bad) = P PInactive) by (vm_compute; reflexivity).
  assert (I : idle (run initial bad)) by (intros [|[|i]]; vm_compute; reflexivity).
  split; [exact N|]. split; [exact I|]. intro asks.
  apply stays_wrong; [vm_compute; reflexivity|exact N|exact I].
Qed.
Print Assumptions c72_stale_refuted.
