(** LcidProofs.v -- get_lifecycle_id under concurrency. *)
From Coq Require Import List Bool Arith Lia.
Import ListNotations.
From Verif Require Import LcidModel LcidSpec.

(** At rest the cached id is a transition id (so it will be refreshed) or the node's state; so is
    what callers are about to store. *)
Definition agrees (s : st) (v : lcid) : Prop :=
  is_tran v = true \/ v = node s \/ (is_tran (node s) = true /\ called s = false).
Record good (s : st) : Prop := {
  g_cache : agrees s (cache s);
  g_got : forall i v, reader s i = Got v -> agrees s v
}.
Lemma upd_spec {A} (f : nat -> A) i x j : upd f i x j = if Nat.eqb j i then x else f j.
Proof. reflexivity. Qed.

Lemma agrees_prim s v p : agrees s v -> node s = P p -> is_tran v = false -> v = P p.
Proof. intros [H|[H|[H _]]] N T; [congruence|congruence|]. rewrite N in H. discriminate. Qed.

Lemma target_after t r : is_tran (target t r) = true -> target t r = T TErrorProcessing.
Proof. destruct t, r; cbn; intro H; try discriminate; reflexivity. Qed.

(** strengthened: at a transition whose callback ran, nothing primary is cached or pending *)
Record good2 (s : st) : Prop := {
  g2 : good s;
  g2_cache : is_tran (node s) = true -> called s = true -> is_tran (cache s) = true;
  g2_got : is_tran (node s) = true -> called s = true ->
           forall i v, reader s i = Got v -> is_tran v = true
}.

Lemma good2_initial : good2 initial.
Proof. split; [split|..]; cbn; try discriminate. right; left; reflexivity. Qed.

Lemma good2_step s a : good2 s -> (a = ACallback -> ~ pending s) -> good2 (step s a).
Proof.
  intros G U. pose proof G as [[G1 G2] C1 C2]. destruct a as [t| |r| |i|i|i]; cbn [step].
  - (* begin *)
    destruct (node s) as [p|t0] eqn:N; [|exact G]. destruct (accepts p t); [|exact G].
    split; [split|..]; cbn; try discriminate.
    + right; right; auto.
    + intros i v _. right; right; auto.
  - (* callback *)
    destruct (node s) as [p|t0] eqn:N; [exact G|]. destruct (called s) eqn:C; [exact G|].
    specialize (U eq_refl).
    split; [split|..]; cbn.
    + left; reflexivity.
    + intros i v Hv. exfalso. apply U. now exists i, v.
    + reflexivity.
    + intros _ _ i v Hv. exfalso. apply U. now exists i, v.
  - (* end *)
    destruct (node s) as [p|t0] eqn:N; [exact G|]. destruct (called s) eqn:C; [|exact G].
    split; [split|..]; cbn; try discriminate.
    + left. now apply C1.
    + intros i v Hv. left. now apply (C2 eq_refl eq_refl i v).
  - (* configure's store *)
    destruct (node s) as [p|t0] eqn:N; [|exact G].
    split; [split|..]; cbn; rewrite ?N; try discriminate.
    + right; left. cbn. now rewrite N.
    + intros i v Hv. destruct (G2 i v Hv) as [H|[H|[H _]]]; [left; assumption| |].
      * right; left. cbn. now rewrite N in *.
      * rewrite N in H. discriminate.
  - (* load *)
    destruct (reader s i) eqn:R; try exact G.
    destruct (is_tran (cache s)) eqn:TC.
    + split; [split|..]; cbn.
      * exact G1.
      * intros j v. rewrite upd_spec. destruct (Nat.eqb j i); [discriminate|]. apply G2.
      * intros _ _. exact TC.
      * intros H1 H2 j v. rewrite upd_spec. destruct (Nat.eqb j i); [discriminate|]. now apply C2.
    + split; [split|..]; cbn.
      * exact G1.
      * intros j v. rewrite upd_spec. destruct (Nat.eqb j i); [discriminate|]. apply G2.
      * intros A B. rewrite TC. exact (C1 A B).
      * intros H1 H2 j v. rewrite upd_spec. destruct (Nat.eqb j i); [discriminate|]. now apply C2.
  - (* read *)
    destruct (reader s i) eqn:R; try exact G.
    split; [split|..]; cbn.
    + exact G1.
    + intros j v. rewrite upd_spec. destruct (Nat.eqb j i).
      * intro H; inversion H; subst. right; left; reflexivity.
      * apply G2.
    + exact C1.
    + intros H1 H2 j v. rewrite upd_spec. destruct (Nat.eqb j i).
      * intro H; inversion H; subst. assumption.
      * now apply C2.
  - (* store back *)
    destruct (reader s i) eqn:R; try exact G.
    split; [split|..]; cbn.
    + exact (G2 i v R).
    + intros j w. rewrite upd_spec. destruct (Nat.eqb j i); [discriminate|]. apply G2.
    + intros H1 H2. exact (C2 H1 H2 i v R).
    + intros H1 H2 j w. rewrite upd_spec. destruct (Nat.eqb j i); [discriminate|]. now apply C2.
Qed.

(** A fresh call that has read the node's state holds the node's state. *)
Definition fresh_ok (s : st) : Prop := forall i v, reader s i = Got v -> fresh s i = true -> v = node s.

Lemma fresh_step s a : fresh_ok s -> fresh_ok (step s a).
Proof.
  intros F. unfold fresh_ok in *. destruct a as [t| |r| |i|i|i]; cbn [step].
  - destruct (node s) as [p|t0] eqn:N; [|rewrite N; exact F]. destruct (accepts p t); [|rewrite N; exact F].
    cbn. discriminate.
  - destruct (node s) as [p|t0] eqn:N; [rewrite N; exact F|].
    destruct (called s); [rewrite N; exact F|]. cbn. rewrite N. exact F.
  - destruct (node s) as [p|t0] eqn:N; [rewrite N; exact F|].
    destruct (called s); [|rewrite N; exact F]. cbn. discriminate.
  - destruct (node s) as [p|t0] eqn:N; [|rewrite N; exact F]. cbn. rewrite N. exact F.
  - destruct (reader s i) eqn:R; try exact F. destruct (is_tran (cache s)); cbn; intros j v;
      rewrite !upd_spec; destruct (Nat.eqb j i); try discriminate; apply F.
  - destruct (reader s i) eqn:R; try exact F. cbn. intros j v. rewrite upd_spec.
    destruct (Nat.eqb_spec j i) as [->|]; [intros H _; now inversion H|apply F].
  - destruct (reader s i) eqn:R; try exact F. cbn. intros j w. rewrite upd_spec.
    destruct (Nat.eqb j i); [discriminate|apply F].
Qed.

Lemma answers_step s a : good2 s -> fresh_ok s -> right_answers s -> right_answers (step s a).
Proof.
  intros [[G1 G2] C1 C2] F A. destruct a as [t| |r| |i|i|i]; cbn [step].
  - destruct (node s) as [p|t0] eqn:N; [|exact A]. destruct (accepts p t); exact A.
  - destruct (node s) as [p|t0] eqn:N; [exact A|]. destruct (called s); exact A.
  - destruct (node s) as [p|t0] eqn:N; [exact A|]. destruct (called s); exact A.
  - destruct (node s) as [p|t0] eqn:N; exact A.
  - destruct (reader s i) eqn:R; try exact A. destruct (is_tran (cache s)) eqn:TC; [exact A|].
    intros j v p Hin. cbn in Hin. destruct Hin as [E|Hin]; [|exact (A j v p Hin)].
    inversion E; subst. rewrite H2. apply (agrees_prim s _ p); assumption.
  - destruct (reader s i) eqn:R; exact A.
  - destruct (reader s i) eqn:R; try exact A.
    intros j w p Hin. cbn in Hin. destruct Hin as [E|Hin]; [|exact (A j w p Hin)].
    inversion E; subst. now apply (F j w).
Qed.

Lemma run_from l : forall s, good2 s -> fresh_ok s -> right_answers s -> undisturbed s l ->
  good2 (run s l) /\ fresh_ok (run s l) /\ right_answers (run s l).
Proof.
  induction l as [|a l IH]; intros s G F A U; [auto|]. destruct U as [U1 U2].
  change (run s (a :: l)) with (run (step s a) l).
  apply IH; [now apply good2_step|now apply fresh_step|now apply answers_step|assumption].
Qed.

Lemma fresh_initial : fresh_ok initial. Proof. intros i v H. discriminate. Qed.

Theorem quiet_answers l : undisturbed initial l -> right_answers (run initial l).
Proof.
  intro U. apply run_from; [apply good2_initial|apply fresh_initial| |exact U].
  intros i v p [].
Qed.

Lemma ask_answer s i : reader s i = Out ->
  exists v, returns (run s (ask i)) = (i, v, node s, true) :: returns s /\
    v = (if is_tran (cache s) then node s else cache s) /\
    node (run s (ask i)) = node s /\ called (run s (ask i)) = called s /\
    cache (run s (ask i)) = v /\ (forall j, reader (run s (ask i)) j = reader s j).
Proof.
  intro R. unfold ask, run. cbn [fold_left step]. rewrite R.
  assert (EQ : Nat.eqb i i = true) by apply Nat.eqb_refl.
  destruct (is_tran (cache s)) eqn:TC.
  - cbn. rewrite !upd_spec, !EQ. cbn. rewrite !upd_spec, !EQ. cbn. rewrite !upd_spec, !EQ.
    exists (node s). do 5 (split; [reflexivity|]). intro j. rewrite !upd_spec.
    destruct (Nat.eqb_spec j i) as [->|]; [now rewrite R|reflexivity].
  - cbn. rewrite !upd_spec, !EQ. cbn. rewrite !upd_spec, !EQ. cbn. rewrite ?upd_spec, ?EQ.
    exists (cache s). do 5 (split; [reflexivity|]). intro j. rewrite !upd_spec.
    destruct (Nat.eqb_spec j i) as [->|]; [now rewrite R|reflexivity].
Qed.

Lemma owner_reader s a : (match a with ABegin _ | ACallback | AEnd _ | AStore => True | _ => False end) ->
  reader (step s a) = reader s.
Proof.
  destruct a; cbn; try tauto; intros _; destruct (node s); try reflexivity;
    try (destruct (accepts p t); reflexivity); destruct (called s); reflexivity.
Qed.

Lemma sequential_good s : sequential s -> idle s /\ good2 s /\ fresh_ok s.
Proof.
  induction 1 as [|s a H (I & G & F) O|s i H (I & G & F)].
  - split; [intro; reflexivity|]. split; [apply good2_initial|apply fresh_initial].
  - split; [intro i; rewrite (owner_reader s a O); apply I|].
    split; [|now apply fresh_step]. apply good2_step; [assumption|].
    intros _ (i & v & E). rewrite I in E. discriminate.
  - split.
    + intro j. destruct (ask_answer s i (I i)) as (v & _ & _ & _ & _ & _ & R). rewrite R. apply I.
    + unfold run, ask. cbn [fold_left]. split; repeat apply fresh_step; auto.
      apply good2_step; [|discriminate]. apply good2_step; [|discriminate].
      apply good2_step; [assumption|discriminate].
Qed.

Theorem sequential_answer s i p : sequential s -> node s = P p ->
  returns (run s (ask i)) = (i, P p, P p, true) :: returns s.
Proof.
  intros S N. destruct (sequential_good s S) as (I & [[G _] _ _] & _).
  destruct (ask_answer s i (I i)) as (v & R & E & _). rewrite R, N. repeat f_equal.
  destruct (is_tran (cache s)) eqn:TC; [congruence|]. rewrite E. eapply agrees_prim; eauto.
Qed.

(** Whatever happened before: a callback entered while no call is about to store repairs the cache;
    from then on every undisturbed schedule answers right. *)
Theorem heals l t l' i p : node (run initial l) = T t -> called (run initial l) = false ->
  ~ pending (run initial l) ->
  undisturbed (step (run initial l) ACallback) l' ->
  let s := run (step (run initial l) ACallback) l' in
  reader s i = Out -> node s = P p ->
  returns (run s (ask i)) = (i, P p, P p, true) :: returns s.
Proof.
  intros N C NP U s R Np. set (s1 := run initial l) in *.
  assert (G : good2 (step s1 ACallback)).
  { cbn [step]. rewrite N, C. split; [split|..]; cbn.
    - left; rewrite ?N; reflexivity.
    - intros j v Hv. exfalso. apply NP. now exists j, v.
    - intros _ _. rewrite ?N; reflexivity.
    - intros _ _ j v Hv. exfalso. apply NP. now exists j, v. }
  assert (GS : good2 s).
  { unfold s. clear R Np s. revert G U. generalize (step s1 ACallback). induction l' as [|a l' IH]; intros x G U; [exact G|].
    destruct U as [U1 U2]. change (run x (a :: l')) with (run (step x a) l').
    apply IH; [now apply good2_step|assumption]. }
  destruct GS as [[GC _] _ _].
  destruct (ask_answer s i R) as (v & E1 & E2 & _). rewrite E1, Np. repeat f_equal.
  destruct (is_tran (cache s)) eqn:TC; [congruence|]. rewrite E2. eapply agrees_prim; eauto.
Qed.

(** The answer is always a state the node has really been in. *)
Definition seen (s : st) : Prop :=
  In (node s) (past s) /\ In (cache s) (past s) /\
  (forall i v, reader s i = Got v -> In v (past s)) /\
  (forall i v n f, In (i, v, n, f) (returns s) -> In v (past s)).

Lemma seen_step s a : seen s -> seen (step s a).
Proof.
  intros (S1 & S2 & S3 & S4). assert (S : seen s) by (repeat split; auto).
  destruct a as [t| |r| |i|i|i]; cbn [step].
  - destruct (node s) as [p|t0] eqn:N; [|exact S]. destruct (accepts p t); [|exact S].
    repeat split; cbn; auto; intros; right; eauto.
  - destruct (node s) as [p|t0] eqn:N; [exact S|]. destruct (called s); [exact S|].
    repeat split; cbn; rewrite ?N; auto.
  - destruct (node s) as [p|t0] eqn:N; [exact S|]. destruct (called s); [|exact S].
    repeat split; cbn; auto; intros; right; eauto.
  - destruct (node s) as [p|t0] eqn:N; [|exact S]. repeat split; cbn; rewrite ?N; auto.
  - destruct (reader s i) eqn:R; try exact S. destruct (is_tran (cache s)).
    + repeat split; cbn; auto. intros j v. rewrite upd_spec. destruct (Nat.eqb j i); [discriminate|eauto].
    + repeat split; cbn; auto.
      * intros j v. rewrite upd_spec. destruct (Nat.eqb j i); [discriminate|eauto].
      * intros j v n f [E|H]; [inversion E; subst; exact S2|eauto].
  - destruct (reader s i) eqn:R; try exact S. repeat split; cbn; auto.
    intros j v. rewrite upd_spec. destruct (Nat.eqb j i); [intro E; inversion E; subst; exact S1|eauto].
  - destruct (reader s i) eqn:R; try exact S. repeat split; cbn; eauto.
    + intros j w. rewrite upd_spec. destruct (Nat.eqb j i); [discriminate|eauto].
    + intros j w n f [E|H]; [inversion E; subst; eauto|eauto].
Qed.

Theorem seen_run l : seen (run initial l).
Proof.
  unfold run. rewrite <- fold_left_rev_right. induction (rev l) as [|a r IH]; cbn.
  - repeat split; cbn; auto; intros; try discriminate; contradiction.
  - now apply seen_step.
Qed.

(** A wrong cached id stays until the next transition. *)
Theorem stays_wrong s p q : cache s = P p -> node s = P q -> idle s ->
  forall asks, let s' := run s (flat_map ask asks) in
  cache s' = P p /\ node s' = P q /\ idle s' /\
  returns s' = rev (map (fun i => (i, P p, P q, true)) asks) ++ returns s.
Proof.
  intros C N I asks. revert s C N I. induction asks as [|i asks IH]; intros s C N I; [cbn; auto|].
  cbn [flat_map map rev]. unfold run. rewrite fold_left_app.
  change (fold_left step (ask i) s) with (run s (ask i)).
  destruct (ask_answer s i (I i)) as (v & E1 & E2 & E3 & _ & E5 & E6).
  rewrite C in E2. cbn in E2. subst v.
  destruct (IH (run s (ask i))) as (X1 & X2 & X3 & X4); [exact E5|congruence|intro j; rewrite E6; apply I|].
  split; [exact X1|]. split; [exact X2|]. split; [exact X3|].
  rewrite <- app_assoc, <- N. cbn [app]. rewrite N. rewrite E1, N in X4. exact X4.
Qed.

(** ---- hardware *)
Theorem hardware_answers v0 l : let '(x, busy) := hrun ({| h_state := v0; h_cache := v0; h_returns := [] |}, false) l in
  (busy = false -> h_cache x = h_state x) /\
  (forall r n, In (r, n, false) (h_returns x) -> r = n).
Proof.
  assert (H : let '(x, busy) := hrun ({| h_state := v0; h_cache := v0; h_returns := [] |}, false) l in
    (busy = false -> h_cache x = h_state x) /\ (forall r n, In (r, n, false) (h_returns x) -> r = n)).
  { unfold hrun. rewrite <- fold_left_rev_right. induction (rev l) as [|a r IH]; cbn.
    - split; [reflexivity|intros ? ? []].
    - destruct (fold_right _ _ r) as [x busy]. destruct IH as [I1 I2].
      destruct a; cbn.
      + destruct busy; cbn; auto. split; [discriminate|auto].
      + destruct busy; cbn; auto.
      + split; [exact I1|]. intros r0 n [E|H]; [inversion E; subst; auto|auto]. }
  exact H.
Qed.
