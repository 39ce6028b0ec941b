(** Props_Handle.v -- C42, C43: interface handles.  [reachable] worlds are those any program can produce that
    does not move a handle which stores a double itself. *)
From Coq Require Import ZArith Bool List Arith.
From Verif Require Import LimitsModel HandleModel HandleSpec HandleProofs.
Import ListNotations.
Open Scope nat_scope.

(** C42: what was stored is read back ... *)
Theorem c42_read_back : forall w i v r w', reachable w -> value_ok v ->
  step (Set_ i v true) w = Ok r w' -> r = RBool true /\ reads w' i v.
Proof. exact main_read_back. Qed.
Print Assumptions c42_read_back.
(** ... until the next store (assignment, move or end) that concerns the handle or the double it shares *)
Theorem c42_until_next_store : forall w o r w' i v, reachable w -> calm w o -> step o w = Ok r w' ->
  ~ touches w i o -> reads w i v -> reads w' i v.
Proof. exact main_kept. Qed.
Print Assumptions c42_until_next_store.
(** a handle with a value accepts every value of its type *)
Theorem c42_store_accepted : forall w i v, reachable w -> value_ok v -> (exists u, reads w i u) -> has_type w i (type_of v) ->
  exists w', step (Set_ i v true) w = Ok (RBool true) w'.
Proof. exact main_set_works. Qed.
Print Assumptions c42_store_accepted.
(** only assigning or moving a whole handle changes its data type *)
Theorem c42_type_fixed : forall w o r w' i t, reachable w -> calm w o -> step o w = Ok r w' ->
  (forall j, o <> CopyAssign i j /\ o <> MoveAssign i j /\ o <> MoveAssign j i /\ o <> MoveNew j i) -> o <> Destroy i ->
  has_type w i t -> has_type w' i t.
Proof. exact main_type. Qed.
Print Assumptions c42_type_fixed.
(** accesses of another type throw (an exception changes nothing), except that a bool can be read as 0 or 1 *)
Theorem c42_store_refused : forall w i v t, reachable w -> value_ok v -> has_type w i t -> t <> type_of v ->
  step (Set_ i v true) w = Throws.
Proof. exact main_set_refused. Qed.
Print Assumptions c42_store_refused.
Theorem c42_read_refused : forall w i T t, reachable w -> has_type w i t -> t <> T -> (t <> BOOL \/ T <> DOUBLE) ->
  step (Get i T true) w = Throws.
Proof. exact main_get_refused. Qed.
Print Assumptions c42_read_refused.
Theorem c42_read_bool : forall w i, reachable w -> has_type w i BOOL ->
  exists b, reads w i (VBool b) /\ step (Get i DOUBLE true) w = Ok (RVal (Some (VDouble (if b then of_Z 1 else fzero)))) w.
Proof. exact main_get_bool. Qed.
Print Assumptions c42_read_bool.
(** an access that does not get the lock reports so and changes nothing *)
Theorem c42_locked : forall w i v T, live w i ->
  step (Set_ i v false) w = Ok (RBool false) w /\ step (Get i T false) w = Ok (RVal None) w.
Proof. exact main_locked. Qed.
Print Assumptions c42_locked.

Definition d (n : Z) : value := VDouble (of_Z n).
Definition demo := [New 0 (d 1); New 1 (VInt INT8 7); NewExt 2 (Some 9); CopyNew 3 0; CopyNew 4 2; Set_ 0 (d 5) true; Set_ 4 (d 6) true].
Definition after (os : list op) : world := match run os start with Some w => w | None => start end.
Lemma run_reachable os : forall w w', reachable w -> (forall os1 o os2 u, os = os1 ++ o :: os2 -> run os1 w = Some u -> calm u o) -> run os w = Some w' -> reachable w'.
Proof.
  induction os as [|o os IH]; intros w w' Rw C H; [injection H as <-; exact Rw|]. cbn [run] in H.
  pose proof (C [] o os w eq_refl eq_refl) as C0. destruct (step o w) as [r w1| |] eqn:S; [| |discriminate].
  - apply (IH w1); [exact (r_step w o r w1 Rw C0 S)| |exact H]. intros os1 o' os2 u E Q. apply (C (o :: os1) o' os2); [rewrite E; reflexivity|cbn [run]; rewrite S; exact Q].
  - apply (IH w); [exact Rw| |exact H]. intros os1 o' os2 u E Q. apply (C (o :: os1) o' os2); [rewrite E; reflexivity|cbn [run]; rewrite S; exact Q].
Qed.
Lemma demo_reachable : reachable (after demo).
Proof.
  apply (run_reachable demo start); [constructor| |reflexivity]. intros os1 o os2 u E _.
  assert (I1 : In o demo) by (rewrite E; apply in_or_app; right; left; reflexivity). cbn in I1.
  repeat (destruct I1 as [<-|I1]; [cbn; repeat split; discriminate|]). destruct I1.
Qed.
Example c42_example : reachable (after demo) /\ reads (after demo) 0 (d 5) /\ reads (after demo) 3 (d 1) /\ reads (after demo) 2 (d 6) /\
  reads (after demo) 1 (VInt INT8 7) /\ has_type (after demo) 1 INT8 /\ step (Get 1 DOUBLE true) (after demo) = Throws /\
  touches (after demo) 2 (Set_ 4 (d 0) true) /\ ~ touches (after demo) 3 (Set_ 0 (d 0) true).
Proof.
  split; [apply demo_reachable|]. split; [split; [eexists; split; reflexivity|reflexivity]|]. split; [split; [eexists; split; reflexivity|reflexivity]|].
  split; [split; [eexists; split; reflexivity|reflexivity]|]. split; [split; [eexists; split; reflexivity|reflexivity]|]. split; [eexists; split; reflexivity|]. split; [reflexivity|].
  split; [right; exists 9; split; eexists; split; reflexivity|]. intros [E|(a & (h & H1 & H2) & _)]; [discriminate|]. vm_compute in H1. injection H1 as <-. discriminate.
Qed.

(** C43: a copy reads the same, shares exactly the external storage, and the original stays *)
Theorem c43_copy : forall w i j o r w', reachable w -> o = CopyNew i j \/ (o = CopyAssign i j /\ i <> j) -> step o w = Ok r w' ->
  (forall v, reads w' i v <-> reads w j v) /\ (forall v, reads w' j v <-> reads w j v) /\ (forall a, shares w' i a <-> shares w j a) /\
  (forall t, has_type w' i t <-> has_type w j t).
Proof. exact main_copy. Qed.
Print Assumptions c43_copy.
(** no handle ever reads or writes the storage of another one, and nothing undefined happens *)
Theorem c43_own_storage_partial : forall w i h k, reachable w -> objs w i = Some h -> hp h = Inside k -> k = i.
Proof. exact main_own. Qed.
Print Assumptions c43_own_storage_partial.
Theorem c43_defined_partial : forall w o, reachable w -> calm w o -> proper w o -> step o w <> UB.
Proof. exact main_defined. Qed.
Print Assumptions c43_defined_partial.
(** moving a handle that stores no double itself *)
Theorem c43_move_partial : forall w i j o r w', reachable w -> calm w o -> o = MoveNew i j \/ o = MoveAssign i j -> step o w = Ok r w' ->
  (forall v, reads w' i v <-> reads w j v) /\ (forall a, shares w' i a <-> shares w j a) /\ (forall t, has_type w' i t <-> has_type w j t).
Proof. exact main_move. Qed.
Print Assumptions c43_move_partial.
(** but a moved handle that stores a double keeps pointing into the object it was made from: reading it is
    undefined, and after "a = std::move(b)" a still reads its own old value *)
Theorem c43_refuted : exists w w1 w2 x y, reachable w /\ x <> y /\ reads w 0 (VDouble x) /\ reads w 1 (VDouble y) /\
  step (MoveNew 2 0) w = Ok RUnit w1 /\ step (Get 2 DOUBLE true) w1 = UB /\
  step (MoveAssign 0 1) w = Ok RUnit w2 /\ step (Get 0 DOUBLE true) w2 = Ok (RVal (Some (VDouble x))) w2.
Proof.
  exists (after [New 0 (d 1); New 1 (d 2)]). do 2 eexists. exists (of_Z 1), (of_Z 2). split.
  { apply (run_reachable [New 0 (d 1); New 1 (d 2)] start); [constructor| |reflexivity]. intros os1 o os2 u E _.
    assert (I1 : In o [New 0 (d 1); New 1 (d 2)]) by (rewrite E; apply in_or_app; right; left; reflexivity). destruct I1 as [<-|[<-|[]]]; exact I. }
  split; [vm_compute; discriminate|]. split; [split; [eexists; split; reflexivity|reflexivity]|]. split; [split; [eexists; split; reflexivity|reflexivity]|].
  split; [reflexivity|]. split; [reflexivity|]. split; [reflexivity|]. reflexivity.
Qed.
Print Assumptions c43_refuted.
Example c43_example : reachable (after demo) /\ (exists w', step (CopyAssign 0 2) (after demo) = Ok RUnit w') /\ calm (after demo) (MoveAssign 2 4) /\
  (exists w', step (MoveAssign 2 4) (after demo) = Ok RUnit w') /\ proper (after demo) (Set_ 0 (d 1) true).
Proof.
  split; [apply demo_reachable|]. split; [eexists; reflexivity|]. split.
  - split; intros (h & x & H1 & H2); vm_compute in H1; injection H1 as <-; discriminate.
  - split; [eexists; reflexivity|]. cbn. unfold live. vm_compute. discriminate.
Qed.
