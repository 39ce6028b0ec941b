(** Props_Stats.v -- C44: run-time statistics (exact arithmetic). *)
From Coq Require Import Reals List Bool Arith Lra Lia.
From Verif Require Import StatsModel StatsSpec StatsProofs.
Import ListNotations.
Open Scope R_scope.

(** C44: after every history in which the collector has been reset (by reset() or automatically on publication) it
    reports the count of the finite samples since then and, if there is one, their mean, extrema and standard deviation. *)
Theorem c44_statistics : forall os, Forall representable os -> was_reset (window_of os) = true ->
  count (sdata (coll (run os start))) = length (samples (window_of os)) /\
  (samples (window_of os) <> [] -> statistics_of (samples (window_of os)) (sdata (coll (run os start)))).
Proof. exact main_statistics. Qed.
Print Assumptions c44_statistics.
(** publication shows exactly these statistics and the last measurement ... *)
Theorem c44_published : forall os, Forall representable os -> was_reset (window_of os) = true -> samples (window_of os) <> [] ->
  let w := run (os ++ [Publish]) start in
  statistics_of (samples (window_of os)) (pdata (publ w)) /\ pcurrent (publ w) = current (coll (run os start)).
Proof. exact main_published. Qed.
Print Assumptions c44_published.
(** ... until the next publication *)
Theorem c44_unpublished : forall os o, o <> Publish -> o <> ResetPublished ->
  pdata (publ (run (os ++ [o]) start)) = pdata (publ (run os start)) /\
  pcurrent (publ (run (os ++ [o]) start)) = pcurrent (publ (run os start)).
Proof. exact main_unpublished. Qed.
Print Assumptions c44_unpublished.
(** the current measurement is the last one given, finite or not *)
Theorem c44_current : forall os o, o <> Publish ->
  current (coll (run (os ++ [o]) start)) = current_step o (current (coll (run os start))).
Proof. exact main_current. Qed.
Print Assumptions c44_current.
(** a collector that was never reset counts but reports NaN, whatever the samples *)
Theorem c44_never_reset : forall os, Forall representable os -> was_reset (window_of os) = false ->
  let d := sdata (coll (run os start)) in
  count d = length (samples (window_of os)) /\ average d = Nan /\ minimum d = Nan /\ maximum d = Nan /\ std_dev d = Nan.
Proof. exact main_never_reset. Qed.
Print Assumptions c44_never_reset.

Definition hist := [Add (Num 9); Reset; Add (Num 2); Add Nan; Add (Num 4); Publish; Add PInf; Add (Num 6)].
Example c44_example : Forall representable hist /\ was_reset (window_of hist) = true /\ samples (window_of hist) = [2; 4; 6] /\
  mean [2; 4; 6] = 4 /\ was_reset (window_of (SetThreshold 2 :: hist)) = true /\
  samples (window_of (SetThreshold 2 :: hist)) = [6] /\
  was_reset (window_of [Add (Num 9)]) = false.
Proof.
  assert (H : 10 <= DBL_MAX).
  { unfold DBL_MAX. assert (1 <= 2 ^ 971) by (apply pow_R1_Rle; lra).
    assert (16 <= 2 ^ 53 - 1) by (replace 53%nat with (5 + 48)%nat by reflexivity; rewrite pow_add;
      assert (1 <= 2 ^ 48) by (apply pow_R1_Rle; lra); cbn [pow] in *; lra).
    replace 10 with (10 * 1) by lra. apply Rmult_le_compat; lra. }
  repeat split; try (unfold mean, sum; cbn; lra).
  repeat constructor; cbn; lra.
Qed.
