(** RtLive.v -- no deadlock: whatever happened before, both threads can come to rest. *)
From Coq Require Import List Bool String Arith Lia.
Import ListNotations.
From Verif Require Import Base RtModel RtSpec RtProofs.
Open Scope list_scope.

Definition reaches (s s' : st) : Prop := exists l, ok_schedule s l /\ run s l = Some s'.
Lemma reaches_refl s : reaches s s.
Proof. exists []. repeat split. Qed.
Lemma ok_app l1 l2 : forall s s1, ok_schedule s l1 -> run s l1 = Some s1 -> ok_schedule s1 l2 ->
  ok_schedule s (l1 ++ l2) /\ run s (l1 ++ l2) = run s1 l2.
Proof.
  induction l1 as [|a l IH]; intros s s1 [A B] R O; cbn in *; [injection R as <-; split; [exact O|reflexivity]|].
  destruct A as [A1 A], B as [B1 B]. destruct (step s a) as [s2|] eqn:E; [|discriminate].
  destruct (IH s2 s1 (conj A B) R O) as [[C D] F]. split; [|exact F]. split; (split; [assumption|]); rewrite ?E; assumption.
Qed.
Lemma reaches_trans a b c : reaches a b -> reaches b c -> reaches a c.
Proof.
  intros (l1&O1&R1) (l2&O2&R2). exists (l1 ++ l2). destruct (ok_app l1 l2 a b O1 R1 O2) as [O R].
  split; [exact O|]. rewrite R. exact R2.
Qed.
Lemma reaches_rt s b : reaches s (rstep b s).
Proof. exists [ARt b]. split; [|reflexivity]. split; cbn; (split; [|exact I]); intros H; [exact I|discriminate]. Qed.
Lemma reaches_sv s x s' : rt s = RIdle -> sstep x s = Some s' -> reaches s s'.
Proof.
  intros R E. exists [ASv x]. split; [|cbn; rewrite E; reflexivity]. split; cbn.
  - split; [|rewrite E; exact I]. intros H. unfold first_access in H. rewrite R in H. destruct (used s); discriminate.
  - split; [|rewrite E; exact I]. intros _. unfold reacting. rewrite R. reflexivity.
Qed.
Lemma reaches_inv s s' : Inv s -> reaches s s' -> Inv s'.
Proof. intros I (l&O&R). exact (run_inv l s s' I O R). Qed.

(** the real-time thread alone ends its cycle *)
Definition mrank (k : mpc) : nat :=
  match k with MPerf => 13 | MLoad => 12 | MStore _ => 11 | MDeact _ => 10 | MLoadT _ => 9 | MStoreT _ _ => 8 | MTo _ _ => 7
  | MLoadF _ => 6 | MStoreF _ _ => 5 | MFrom _ _ => 4 | MAct _ => 3 | MDone => 2 | MUnlock => 1 end.
Definition rank (s : st) : nat :=
  match rt s with
  | RIdle => 0 | RMan k => mrank k | RLk _ => 14 | RRdy _ => 14 | RTa _ => 15 | RPl _ => 1
  | RUpd x j _ => 20 + 4 * (length (lst s (fst x)) - S j) + 1
  | RSkp x j _ => 20 + 4 * (length (lst s (fst x)) - S j) + 2
  | RChk x j _ => 20 + 4 * (length (lst s (fst x)) - S j) + 3
  | RLp x j => 20 + 4 * (length (lst s (fst x)) - j)
  | RLd _ i => 21 + 4 * length (lst s i) end.
Lemma lst_rt s r i : lst (set_rt s r) i = lst s i.
Proof. reflexivity. Qed.
Lemma rank_dec s : rt s <> RIdle -> rank (rstep false s) < rank s.
Proof.
  intros N. unfold rstep, rank. destruct (rt s) as [|u i|x|x j|x j c|x j c|x j c|x|x|x|k] eqn:E; [congruence|..].
  - destruct u; cbn [take rt set_rt fst]; unfold lst; cbn; lia.
  - cbn. lia.
  - cbn zeta. destruct (nth_error (lst (look s x) (fst x)) j) eqn:NT.
    + assert (j < length (lst s (fst x))) by (apply nth_error_Some; change (lst s) with (lst (look s x)); congruence).
      destruct (do_switch (look s x)); cbn [rt set_rt fst];
        change (length (lst (set_rt _ _) (fst x))) with (length (lst s (fst x))); lia.
    + destruct (do_switch (look s x)); cbn [rt set_rt]; lia.
  - destruct (asap s); cbn [rt set_rt]; change (length (lst (set_rt _ _) (fst x))) with (length (lst s (fst x))); lia.
  - destruct (skips (q s) c); cbn [rt set_rt]; change (length (lst (set_rt _ _) (fst x))) with (length (lst s (fst x))); lia.
  - cbn [rt set_rt]. change (length (lst (set_rt _ _) (fst x))) with (length (lst s (fst x))). lia.
  - destruct (asap s); cbn; lia.
  - cbn. lia.
  - destruct (mtx s); cbn; lia.
  - destruct k; cbn; lia.
Qed.
Lemma mstep_sv t k b s : sv (fst (mstep t k b s)) = sv s.
Proof. destruct k; cbn; try reflexivity; destruct (nonempty _); reflexivity. Qed.
Lemma rstep_sv b s : sv (rstep b s) = sv s.
Proof.
  unfold rstep. destruct (rt s) as [|u i|x|x j|x j c|x j c|x j c|x|x|x|k]; try reflexivity.
  - destruct b; reflexivity.
  - cbn zeta. destruct (nth_error _ _), (do_switch _); reflexivity.
  - destruct (asap s); reflexivity.
  - destruct (skips _ _); reflexivity.
  - destruct (asap s); reflexivity.
  - destruct (mtx s); reflexivity.
  - pose proof (mstep_sv TRt k b s) as H. destruct (mstep TRt k b s) as [s1 [k1|]]; exact H.
Qed.
Lemma rt_rest s : exists s', reaches s s' /\ rt s' = RIdle /\ sv s' = sv s.
Proof.
  remember (rank s) as n eqn:E. revert s E. induction n as [n IH] using lt_wf_ind. intros s ->.
  assert (D : rt s = RIdle \/ rt s <> RIdle) by (destruct (rt s); auto; right; discriminate).
  destruct D as [D|D]; [exists s; split; [apply reaches_refl|split; [exact D|reflexivity]]|].
  destruct (IH _ (rank_dec s D) _ eq_refl) as (s'&A&B&C). exists s'. split; [|split; [exact B|]].
  - eapply reaches_trans; [apply (reaches_rt s false)|exact A].
  - rewrite C. apply rstep_sv.
Qed.
(** one empty cycle of the real-time thread makes the current list the used one *)
Lemma rt_cycle s : rt s = RIdle -> exists s', reaches s s' /\ rt s' = RIdle /\ sv s' = sv s /\
  used s' = Some (upd s') /\ upd s' = upd s.
Proof.
  intros R. exists (rstep false (rstep false (rstep false s))). split.
  - eapply reaches_trans; [apply (reaches_rt s false)|]. eapply reaches_trans; [apply reaches_rt|apply reaches_rt].
  - unfold rstep. rewrite R. cbn. repeat split.
Qed.
Definition at_rest (s : st) : Prop := rt s = RIdle /\ sv s = SIdle.
Definition done (s : st) : Prop := exists s', reaches s s' /\ at_rest s'.
Lemma done_sv s x s' : rt s = RIdle -> sstep x s = Some s' -> done s' -> done s.
Proof. intros R E (s2&A&B). exists s2. split; [|exact B]. eapply reaches_trans; [exact (reaches_sv s x s' R E)|exact A]. Qed.
Ltac fwd x V := eapply (done_sv _ x); [cbn; assumption|unfold sstep; cbn; rewrite ?V; reflexivity|].
Lemma done_clr4 s r : rt s = RIdle -> sv s = SClr4 r -> done s.
Proof.
  intros R V. eapply (done_sv _ IGo); [exact R|unfold sstep; rewrite V; reflexivity|].
  eexists. split; [apply reaches_refl|]. split; cbn; [|reflexivity]. destruct (mtx s) as [[]|]; exact R.
Qed.
Lemma done_clr1 s r : rt s = RIdle -> sv s = SClr1 r -> done s.
Proof. intros R V. fwd IGo V. fwd IGo V. fwd IGo V. eapply done_clr4; [cbn; exact R|reflexivity]. Qed.
Lemma done_clearl s k : rt s = RIdle -> sv s = SClearL k -> done s.
Proof.
  intros R V. fwd IGo V. destruct k; [eapply done_clr1; [cbn; exact R|reflexivity]|].
  eexists. split; [apply reaches_refl|]. split; [exact R|reflexivity].
Qed.
Lemma busy_other s : used s = Some (upd s) -> busy s (negb (upd s)) = false.
Proof. intros H. unfold busy. rewrite H. destruct (upd s); reflexivity. Qed.
Lemma done_get2 s k : rt s = RIdle -> sv s = SGet2 k -> done s.
Proof.
  intros R V. destruct (rt_cycle s R) as (s1&A&R1&V1&U1&_). rewrite V in V1.
  assert (D : done s1).
  { eapply (done_sv _ IGo); [exact R1|unfold sstep; rewrite V1, (busy_other _ U1); reflexivity|].
    eapply done_clearl; [cbn; exact R1|reflexivity]. }
  destruct D as (s2&B&C). exists s2. split; [eapply reaches_trans; eassumption|exact C].
Qed.
Lemma done_wait s k f : rt s = RIdle -> sv s = SWait k f -> f = negb (upd s) -> done s.
Proof.
  intros R V F. destruct (rt_cycle s R) as (s1&A&R1&V1&U1&U2). rewrite V in V1.
  assert (D : done s1).
  { eapply (done_sv _ IGo); [exact R1|unfold sstep; rewrite V1, F, <- U2, (busy_other _ U1); reflexivity|].
    eapply done_get2; [cbn; exact R1|reflexivity]. }
  destruct D as (s2&B&C). exists s2. split; [eapply reaches_trans; eassumption|exact C].
Qed.
Lemma done_mod s k : rt s = RIdle -> sv s = SMod k -> done s.
Proof.
  intros R V. fwd IGo V. eapply done_wait; [cbn; exact R|reflexivity|]. cbn. destruct (upd s); reflexivity.
Qed.
Lemma done_get s k : rt s = RIdle -> sv s = SGet k -> done s.
Proof.
  intros R V. destruct (rt_cycle s R) as (s1&A&R1&V1&U1&_). rewrite V in V1.
  assert (D : done s1).
  { eapply (done_sv _ IGo); [exact R1|unfold sstep; rewrite V1, (busy_other _ U1); reflexivity|].
    eapply done_mod; [cbn; exact R1|reflexivity]. }
  destruct D as (s2&B&C). exists s2. split; [eapply reaches_trans; eassumption|exact C].
Qed.
Lemma mstep_some k s : exists s1, fst (mstep TSv k true s) = s1 /\ rt s1 = rt s /\ 
  match snd (mstep TSv k true s) with Some k1 => mrank k1 < mrank k | None => True end.
Proof. destruct k; cbn; eexists; repeat split; try (destruct (nonempty _); reflexivity); lia. Qed.
Lemma done_man : forall n k s, mrank k = n -> rt s = RIdle -> sv s = SMan k -> done s.
Proof.
  induction n as [n IH] using lt_wf_ind. intros k s M R V.
  destruct (mstep_some k s) as (s1&E1&R1&K1). destruct (mstep TSv k true s) as [s2 k2] eqn:MS. cbn in *. subst s2.
  destruct k2 as [k2|].
  - eapply (done_sv _ IYes); [exact R|unfold sstep; rewrite V, MS; reflexivity|].
    eapply (IH (mrank k2)); [lia|reflexivity|cbn; congruence|reflexivity].
  - eapply (done_sv _ IYes); [exact R|unfold sstep; rewrite V, MS; reflexivity|].
    eapply done_get; [cbn; congruence|reflexivity].
Qed.
Lemma done_check s to : rt s = RIdle -> sv s = SCheck to -> done s.
Proof.
  intros R V. destruct (do_switch s) eqn:D.
  - destruct to.
    + eapply (done_sv _ IGo); [exact R|unfold sstep; rewrite V, D; reflexivity|]. eapply done_clr1; [cbn; exact R|reflexivity].
    + eapply (done_sv _ IGo); [exact R|unfold sstep; rewrite V, D; reflexivity|].
      eapply (done_sv _ INo); [exact R|reflexivity|].
      eapply (done_sv _ IGo); [exact R|reflexivity|].
      eapply (done_sv _ IGo); [exact R|unfold sstep; cbn; rewrite D; reflexivity|].
      eapply done_clr1; [cbn; exact R|reflexivity].
  - eapply (done_sv _ IGo); [exact R|unfold sstep; rewrite V, D; reflexivity|]. eapply done_get; [cbn; exact R|reflexivity].
Qed.
Lemma done_setdo s : rt s = RIdle -> sv s = SSetDo -> mtx s = None -> done s.
Proof.
  intros R V M. destruct (r_asap (q s)) eqn:A.
  - eapply (done_sv _ IGo); [exact R|unfold sstep; rewrite V, A; reflexivity|].
    eapply (done_sv _ IGo); [exact R|unfold sstep; cbn; rewrite M; reflexivity|]. eapply done_check; [cbn; exact R|reflexivity].
  - eapply (done_sv _ IGo); [exact R|unfold sstep; rewrite V, A; reflexivity|].
    eapply (done_sv _ INo); [exact R|reflexivity|]. eapply done_clr1; [cbn; exact R|reflexivity].
Qed.
Lemma done_all s : Inv s -> done s.
Proof.
  intros I. destruct (rt_rest s) as (s1&A&R&V).
  assert (I1 : Inv s1) by exact (reaches_inv s s1 I A).
  assert (D : done s1).
  { clear A V I. destruct I1 as (pubs&p&_&_&L&S). unfold SInv in S.
    destruct (sv s1) as [|k|k|k f|k|k| | | | | |to| |to| | |kk|r|r|r|r] eqn:V.
    - exists s1. split; [apply reaches_refl|split; assumption].
    - eapply done_get; eassumption.
    - eapply done_mod; eassumption.
    - eapply done_wait; [exact R|exact V|]. destruct L as ((p'&_&A)&_). exact (proj1 (A k f V)).
    - eapply done_get2; eassumption.
    - eapply done_clearl; eassumption.
    - eapply (done_sv _ INo); [exact R|unfold sstep; rewrite V; reflexivity|]. eapply done_clr1; [cbn; exact R|reflexivity].
    - eapply (done_sv _ IGo); [exact R|unfold sstep; rewrite V; reflexivity|].
      eapply (done_sv _ IGo); [exact R|reflexivity|]. apply done_setdo; [exact R|reflexivity|]. cbn. destruct S as (_&_&_&_&S). exact S.
    - eapply (done_sv _ IGo); [exact R|unfold sstep; rewrite V; reflexivity|].
      apply done_setdo; [exact R|reflexivity|]. cbn. destruct S as ((_&_&_&_&S)&_). exact S.
    - apply done_setdo; [exact R|exact V|]. destruct S as ((_&_&_&_&S)&_). exact S.
    - destruct S as (_&_&S). rewrite R in S. destruct S as (_&S&_).
      eapply (done_sv _ IGo); [exact R|unfold sstep; rewrite V, S; reflexivity|]. eapply done_check; [cbn; exact R|reflexivity].
    - eapply done_check; eassumption.
    - destruct S as (_&_&S). rewrite R in S. destruct S as (_&S&_).
      eapply (done_sv _ INo); [exact R|unfold sstep; rewrite V; reflexivity|].
      eapply (done_sv _ IGo); [exact R|unfold sstep; cbn; rewrite S; reflexivity|]. eapply done_check; [cbn; exact R|reflexivity].
    - destruct S as (_&_&S). rewrite R in S. destruct S as (_&S&_).
      eapply (done_sv _ IGo); [exact R|unfold sstep; rewrite V, S; reflexivity|]. eapply done_check; [cbn; exact R|reflexivity].
    - eapply (done_sv _ INo); [exact R|unfold sstep; rewrite V; reflexivity|]. eapply done_clr1; [cbn; exact R|reflexivity].
    - destruct S as (_&S&_). eapply (done_sv _ IGo); [exact R|unfold sstep; rewrite V, S; reflexivity|].
      eapply done_man; [reflexivity|cbn; exact R|reflexivity].
    - eapply done_man; [reflexivity|exact R|exact V].
    - eapply done_clr1; eassumption.
    - fwd IGo V. fwd IGo V. eapply done_clr4; [cbn; exact R|reflexivity].
    - fwd IGo V. eapply done_clr4; [cbn; exact R|reflexivity].
    - eapply done_clr4; eassumption. }
  destruct D as (s2&B&C). exists s2. split; [eapply reaches_trans; eassumption|exact C].
Qed.
Lemma main_no_deadlock l s : ok_schedule start l -> run start l = Some s ->
  exists l' s', ok_schedule s l' /\ run s l' = Some s' /\ rt s' = RIdle /\ sv s' = SIdle.
Proof.
  intros O R. destruct (done_all s (run_inv l start s start_inv O R)) as (s'&(l'&A&B)&C&D). eauto 7.
Qed.
