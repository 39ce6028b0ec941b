(** RmRw.v -- read and write cycles of the whole manager (C08-C10), from states satisfying the invariants. *)
From Verif Require Import Base Events HwModel RmModel RmSys RmSpec HwProofs RmProofs RmInv RmAvail RmCycle RmGroup RmTurn.

(** [before m n l]: m comes before n in the loop order l *)
Definition before (m n : name) (l : list name) : Prop := exists l1 l2 l3, l = l1 ++ m :: l2 ++ n :: l3.

Record cycle_facts (failing : name -> event -> Prop) (l : list name) (e : env) (r r' : rm) (st : rwstatus) (evs : trace) : Prop := {
  cy_ok : rw_result st = ROk <-> rw_failed st = [];
  cy_nodup : NoDup (rw_failed st);
  cy_incl : incl (rw_failed st) l;
  cy_trace : rm_trace r' = evs ++ EvOp :: rm_trace r;
  cy_fail : forall n h, find_hw r n = Some h -> In n l -> Exists (failing n) evs -> In n (rw_failed st);
  cy_why : forall n h, find_hw r n = Some h -> In n l -> In n (rw_failed st) ->
     Exists (failing n) evs \/
     (h_group h <> ""%string /\ exists e1 e2, evs = e2 ++ e1 /\
        group_state (members (rm_hw r) (h_group h)) (e1 ++ EvOp :: rm_trace r) <> ROk);
  cy_group : forall n h, find_hw r n = Some h -> In n l -> h_group h <> ""%string ->
     (forall t, e_locked e t n = false) ->
     Forall (fun ev => ~ clears (members (rm_hw r) (h_group h)) ev) evs ->
     group_state (members (rm_hw r) (h_group h)) (rm_trace r) <> ROk -> In n (rw_failed st);
  cy_later : forall m n h, find_hw r n = Some h -> In n l -> h_group h <> ""%string ->
     (forall t, e_locked e t n = false) ->
     Forall (fun ev => ~ clears (members (rm_hw r) (h_group h)) ev) evs ->
     before m n l -> Exists (fun ev => about m ev /\ fails (members (rm_hw r) (h_group h)) ev) evs ->
     In n (rw_failed st);
  cy_still : forall n h, find_hw r n = Some h -> In n l -> ~ In n (rw_failed st) -> find_hw r' n = Some h
}.

Lemma before_split m n l l1 l2 : NoDup l -> l = l1 ++ n :: l2 -> before m n l -> In m l1.
Proof.
  intros Nd E (a & b & c & E2). rewrite E2 in E, Nd. clear E2 l.
  revert l1 E. induction a as [|x a IH]; intros l1 E.
  - destruct l1 as [|y l1]; simpl in E.
    + inversion E; subst. simpl in Nd. inversion Nd as [|? ? N _]; subst. elim N. apply in_or_app. right. left. reflexivity.
    + inversion E; subst. left. reflexivity.
  - destruct l1 as [|y l1]; simpl in *.
    + inversion E; subst. inversion Nd as [|? ? N _]; subst. elim N. apply in_or_app. right. right.
      apply in_or_app. right. left. reflexivity.
    + inversion E; subst. right. apply IH; [inversion Nd; assumption|assumption].
Qed.

Lemma about_fun m n ev : about m ev -> about n ev -> m = n.
Proof. destruct ev; simpl; congruence || tauto. Qed.

Section Facts.
  Variable e : env.
  Variable f : rm * rwstatus -> name -> rm * rwstatus.
  Variable failing : name -> event -> Prop.
  Variable turn : rm -> rwstatus -> name -> hwc -> rm -> rwstatus -> trace -> Prop.
  Hypothesis Hfail : forall n ev, failing n ev -> about n ev.
  Hypothesis Hf : forall r st n, names_ok r ->
    only n r (fst (f (r, st) n)) /\
    (snd (f (r, st) n) = st \/
     (rw_failed (snd (f (r, st) n)) = rw_failed st ++ [n] /\ rw_result (snd (f (r, st) n)) <> ROk)).
  Hypothesis Hg : forall r st n, names_ok r -> top_ok (rm_trace r) ->
     only n r (fst (f (r, st) n)) /\ gok n r (fst (f (r, st) n)) /\ top_ok (rm_trace (fst (f (r, st) n))).
  Hypothesis Ht : forall r st n h, names_ok r -> GInv r -> find_hw r n = Some h ->
    exists evs, rm_trace (fst (f (r, st) n)) = evs ++ rm_trace r /\ 
      turn r st n h (fst (f (r, st) n)) (snd (f (r, st) n)) evs.
  (* the three outcomes of a turn *)
  Hypothesis Hturn : forall r st n h r2 st2 evs, turn r st n h r2 st2 evs ->
    (e_locked e (rm_trace r) n = true /\ st2 = st /\ find_hw r2 n = Some h /\ evs = []) \/
    (e_locked e (rm_trace r) n = false /\ st2 = st /\ find_hw r2 n = Some h /\ Forall (fun ev => ~ failing n ev) evs /\ ~ bad r h) \/
    (e_locked e (rm_trace r) n = false /\ rw_failed st2 = rw_failed st ++ [n] /\ (Exists (failing n) evs \/ bad r h)).

  Lemma split_where n l1 l2 (e1 e2 e3 : trace) (P : event -> Prop) m :
    (forall ev, P ev -> about m ev) ->
    Forall (fun ev => exists m, In m l1 /\ about m ev) e1 -> Forall (about n) e2 ->
    Forall (fun ev => exists m, In m l2 /\ about m ev) e3 ->
    Exists P (e3 ++ e2 ++ e1) ->
    (In m l2 \/ Exists P e2 /\ m = n \/ In m l1 /\ Exists P e1).
  Proof.
    intros Pa A B C X. rewrite !Exists_app in X. destruct X as [X|[X|X]].
    - left. apply Exists_exists in X. destruct X as (ev & X1 & X2). rewrite Forall_forall in C.
      destruct (C ev X1) as (m' & M1 & M2). rewrite (about_fun m m' ev); auto.
    - right; left. split; [exact X|]. apply Exists_exists in X. destruct X as (ev & X1 & X2). rewrite Forall_forall in B.
      eapply about_fun; eauto.
    - right; right. split; [|exact X]. apply Exists_exists in X. destruct X as (ev & X1 & X2). rewrite Forall_forall in A.
      destruct (A ev X1) as (m' & M1 & M2). rewrite (about_fun m m' ev); auto.
  Qed.

  Lemma cycle_of l s : names_ok (sy_rm s) -> GInv (sy_rm s) -> NoDup l ->
    exists evs, cycle_facts failing l e (sy_rm s) (fst (fold_left f l (op_trace s, rw_ok)))
                        (snd (fold_left f l (op_trace s, rw_ok))) evs.
  Proof.
    intros Hn G Nd. set (r := op_trace s).
    assert (Hn' : names_ok r) by exact Hn.
    assert (G' : GT r) by (split; [eapply GInv_same; [..|exact G]; reflexivity|exact I]).
    destruct (status_fold f l r Hf Hn' Nd) as (S1 & S2 & S3).
    destruct (cfold f Hf l r rw_ok Hn') as [_ _ (evs & T & _) _].
    exists evs.
    assert (Seen : forall n h, find_hw (sy_rm s) n = Some h -> In n l ->
       seen turn l r n h (fst (fold_left f l (r, rw_ok))) (snd (fold_left f l (r, rw_ok))) evs).
    { intros n h Fd Hi. destruct (seen_fold f turn Hf Hg Ht l r n h Hn' G' Nd Hi Fd) as (evs' & T' & _ & Sn).
      assert (evs' = evs) by (rewrite T in T'; apply app_inv_tail in T'; congruence). subst. exact Sn. }
    set (r' := fst (fold_left f l (r, rw_ok))) in *. set (st := snd (fold_left f l (r, rw_ok))) in *.
    constructor; auto.
    - intros n h Fd Hi X. destruct (Seen n h Fd Hi) as [(l1 & l2 & e1 & e2 & e3 & r1 & st1 & r2 & st2 & El & Ee & A1 & A2 & A3 & A4 & A5 & A6 & A7 & A8 & A9 & A10)].
      apply A10. assert (Hno : ~ In n l1 /\ ~ In n l2) by (subst l; apply NoDup_remove_2 in Nd; rewrite in_app_iff in Nd; tauto).
      subst evs. destruct (split_where n l1 l2 e1 e2 e3 (failing n) n (Hfail n) A1 A2 A3 X) as [C|[[C _]|[C _]]]; try tauto.
      destruct (Hturn _ _ _ _ _ _ _ A7) as [(_ & _ & _ & ->)|[(_ & _ & _ & N & _)|(_ & -> & _)]].
      + inversion C.
      + exfalso. apply Exists_exists in C. destruct C as (ev & C1 & C2). rewrite Forall_forall in N. exact (N ev C1 C2).
      + apply in_or_app. right. left. reflexivity.
    - intros n h Fd Hi X. destruct (Seen n h Fd Hi) as [(l1 & l2 & e1 & e2 & e3 & r1 & st1 & r2 & st2 & El & Ee & A1 & A2 & A3 & A4 & A5 & A6 & A7 & A8 & A9 & A10)].
      apply A10 in X. destruct (Hturn _ _ _ _ _ _ _ A7) as [(_ & -> & _)|[(_ & -> & _)|(_ & _ & [C|C])]]; try tauto.
      + left. rewrite Ee, !Exists_app. tauto.
      + right. destruct C as [C1 C2]. split; [exact C1|]. exists e1, (e3 ++ e2). split; [rewrite Ee, app_assoc; reflexivity|].
        rewrite A4 in C2. rewrite (members_statics r r1 _ A5) in C2. change (rm_trace r) with (EvOp :: rm_trace (sy_rm s)) in C2.
        exact C2.
    - intros n h Fd Hi Hgr Lk Cl X. destruct (Seen n h Fd Hi) as [(l1 & l2 & e1 & e2 & e3 & r1 & st1 & r2 & st2 & El & Ee & A1 & A2 & A3 & A4 & A5 & A6 & A7 & A8 & A9 & A10)].
      apply A10. subst evs. apply Forall_app in Cl. destruct Cl as [_ Cl]. apply Forall_app in Cl. destruct Cl as [_ Cl].
      destruct (Hturn _ _ _ _ _ _ _ A7) as [(C & _)|[(_ & _ & _ & _ & N)|(_ & -> & _)]].
      + rewrite Lk in C. discriminate.
      + exfalso. apply N. split; [exact Hgr|]. rewrite A4, (members_statics r r1 _ A5).
        apply gs_keep; [exact I|exact Cl|exact X].
      + apply in_or_app. right. left. reflexivity.
    - intros m n h Fd Hi Hgr Lk Cl Bf X. destruct (Seen n h Fd Hi) as [(l1 & l2 & e1 & e2 & e3 & r1 & st1 & r2 & st2 & El & Ee & A1 & A2 & A3 & A4 & A5 & A6 & A7 & A8 & A9 & A10)].
      apply A10. pose proof (before_split m n l l1 l2 Nd El Bf) as Hm.
      assert (Hno : m <> n /\ ~ In m l2).
      { subst l. split.
        - intros ->. apply NoDup_remove_2 in Nd. rewrite in_app_iff in Nd. tauto.
        - intros C. clear - Hm C Nd. induction l1 as [|x l1 IH]; [contradiction|]. simpl in Nd. inversion Nd as [|? ? N1 N2]; subst.
          destruct Hm as [->|Hm]; [|auto]. apply N1. apply in_or_app. right. right. exact C. }
      subst evs. 
      assert (X1 : Exists (fails (members (rm_hw (sy_rm s)) (h_group h))) e1).
      { destruct (split_where n l1 l2 e1 e2 e3 _ m (fun ev P => proj1 P) A1 A2 A3 X) as [C|[[_ C]|[_ C]]]; try tauto.
        eapply Exists_impl; [|exact C]. intros ev [_ P]. exact P. }
      apply Forall_app in Cl. destruct Cl as [_ Cl]. apply Forall_app in Cl. destruct Cl as [_ Cl].
      destruct (Hturn _ _ _ _ _ _ _ A7) as [(C & _)|[(_ & _ & _ & _ & N)|(_ & -> & _)]].
      + rewrite Lk in C. discriminate.
      + exfalso. apply N. split; [exact Hgr|]. rewrite A4, (members_statics r r1 _ A5).
        apply gs_fails; [exact Cl|exact X1].
      + apply in_or_app. right. left. reflexivity.
    - intros n h Fd Hi X. destruct (Seen n h Fd Hi) as [(l1 & l2 & e1 & e2 & e3 & r1 & st1 & r2 & st2 & El & Ee & A1 & A2 & A3 & A4 & A5 & A6 & A7 & A8 & A9 & A10)].
      rewrite A8. rewrite A10 in X. destruct (Hturn _ _ _ _ _ _ _ A7) as [(_ & _ & C & _)|[(_ & _ & C & _)|(_ & C & _)]]; auto.
      exfalso. apply X. rewrite C. apply in_or_app. right. left. reflexivity.
  Qed.
End Facts.

Lemma read_failed_about n ev : read_failed n ev -> about n ev.
Proof. intros (r & -> & _). reflexivity. Qed.
Lemma write_failed_about n ev : write_failed n ev -> about n ev.
Proof. intros (r & -> & _). reflexivity. Qed.

Lemma find_In_names r n h : find_hw r n = Some h -> In n (map h_name (rm_hw r)).
Proof. intros H. rewrite <- (find_hw_name _ _ _ H). apply in_map. eapply find_hw_In; exact H. Qed.

Lemma read_facts e allow s : names_ok (sy_rm s) -> GInv (sy_rm s) ->
  exists st evs, snd (rstep e allow s ORead) = OutStatus st /\
    cycle_facts read_failed (map h_name (rm_hw (sy_rm s))) e (sy_rm s) (sy_rm (fst (rstep e allow s ORead))) st evs /\
    Forall read_ev evs /\
    (forall n h, find_hw (sy_rm s) n = Some h -> In n (rw_failed st) ->
       forall h', find_hw (sy_rm (fst (rstep e allow s ORead))) n = Some h' -> ~ configured (h_lc h')).
Proof.
  intros Hn G. cbn [rstep]. fold (op_trace s). unfold rm_read.
  assert (Hn' : names_ok (op_trace s)) by exact Hn.
  assert (G' : GT (op_trace s)) by (split; [eapply GInv_same; [..|exact G]; reflexivity|exact I]).
  change (rm_hw (op_trace s)) with (rm_hw (sy_rm s)). set (l := map h_name (rm_hw (sy_rm s))).
  assert (Tn : forall r st n h r2 st2 evs, read_turn e r st n h r2 st2 evs ->
    (e_locked e (rm_trace r) n = true /\ st2 = st /\ find_hw r2 n = Some h /\ evs = []) \/
    (e_locked e (rm_trace r) n = false /\ st2 = st /\ find_hw r2 n = Some h /\ Forall (fun ev => ~ read_failed n ev) evs /\ ~ bad r h) \/
    (e_locked e (rm_trace r) n = false /\ rw_failed st2 = rw_failed st ++ [n] /\ (Exists (read_failed n) evs \/ bad r h)))
    by (intros r st n h r2 st2 evs []; auto 10).
  destruct (cycle_of e (read_one e) read_failed (read_turn e) read_failed_about (read_one_Hf e) (read_one_all e)
              (read_one_turn e) Tn l s Hn G Hn) as (evs & F).
  destruct (fold_read_ev e l (op_trace s) rw_ok) as (evs' & T' & R).
  assert (evs' = evs).
  { pose proof (cy_trace _ _ _ _ _ _ _ F) as T. rewrite T in T'. apply app_inv_tail in T'. congruence. } subst evs'.
  pose proof (seen_fold (read_one e) (read_turn e) (read_one_Hf e) (read_one_all e) (read_one_turn e) l (op_trace s)) as Sn.
  destruct (fold_left (read_one e) l (op_trace s, rw_ok)) as [r' st]. simpl in *.
  exists st, evs. split; [reflexivity|]. split; [exact F|]. split; [exact R|].
  intros n h Fd Hi h' Fd'.
  destruct (Sn n h Hn' G' Hn (find_In_names _ _ _ Fd) Fd) as (evs2 & _ & _ & [(l1 & l2 & e1 & e2 & e3 & r1 & st1 & r2 & st2 & El & Ee & A1 & A2 & A3 & A4 & A5 & A6 & A7 & A8 & A9 & A10)]).
  apply A10 in Hi. rewrite A8 in Fd'. destruct A7 as [_ -> _ _|_ -> _ _ _|_ _ _ C _]; [tauto|tauto|]. eauto.
Qed.

Lemma In_writables s n h : find_hw (sy_rm s) n = Some h -> h_kind h <> Sensor -> In n (writables (rm_hw (sy_rm s))).
Proof.
  intros H K. rewrite <- (find_hw_name _ _ _ H). apply in_map. apply filter_In. split; [eapply find_hw_In; exact H|].
  unfold is_sensor. destruct (h_kind h); [reflexivity|congruence|reflexivity].
Qed.

Lemma write_facts e allow s : names_ok (sy_rm s) -> GInv (sy_rm s) ->
  exists st evs, snd (rstep e allow s OWrite) = OutStatus st /\
    cycle_facts write_failed (writables (rm_hw (sy_rm s))) e (sy_rm s) (sy_rm (fst (rstep e allow s OWrite))) st evs /\
    (forall n h, find_hw (sy_rm s) n = Some h -> In n (writables (rm_hw (sy_rm s))) ->
       (In (EvWrite n (Ret RError)) evs \/ In (EvWrite n Throw) evs ->
          forall h', find_hw (sy_rm (fst (rstep e allow s OWrite))) n = Some h' -> ~ configured (h_lc h')) /\
       (In (EvWrite n (Ret RDeactivate)) evs -> exists x, In (EvHwCb n HDeactivate x) evs /\
          (x = CbSuccess -> lc_of (sy_rm (fst (rstep e allow s OWrite))) n = Some Inactive))).
Proof.
  intros Hn G. cbn [rstep]. fold (op_trace s). unfold rm_write.
  assert (Hn' : names_ok (op_trace s)) by exact Hn.
  assert (G' : GT (op_trace s)) by (split; [eapply GInv_same; [..|exact G]; reflexivity|exact I]).
  change (rm_hw (op_trace s)) with (rm_hw (sy_rm s)). fold (writables (rm_hw (sy_rm s))). set (l := writables (rm_hw (sy_rm s))).
  assert (Nd : NoDup l) by (apply names_filter; exact Hn).
  assert (Tn : forall r st n h r2 st2 evs, write_turn e r st n h r2 st2 evs ->
    (e_locked e (rm_trace r) n = true /\ st2 = st /\ find_hw r2 n = Some h /\ evs = []) \/
    (e_locked e (rm_trace r) n = false /\ st2 = st /\ find_hw r2 n = Some h /\ Forall (fun ev => ~ write_failed n ev) evs /\ ~ bad r h) \/
    (e_locked e (rm_trace r) n = false /\ rw_failed st2 = rw_failed st ++ [n] /\ (Exists (write_failed n) evs \/ bad r h)))
    by (intros r st n h r2 st2 evs []; auto 10).
  destruct (cycle_of e (write_one e) write_failed (write_turn e) write_failed_about (write_one_Hf e) (write_one_all e)
              (write_one_turn e) Tn l s Hn G Nd) as (evs & F).
  pose proof (seen_fold (write_one e) (write_turn e) (write_one_Hf e) (write_one_all e) (write_one_turn e) l (op_trace s)) as Sn.
  destruct (fold_left (write_one e) l (op_trace s, rw_ok)) as [r' st]. simpl in *.
  exists st, evs. split; [reflexivity|]. split; [exact F|].
  intros n h Fd Hi.
  destruct (Sn n h Hn' G' Nd Hi Fd) as (evs2 & T2 & _ & [(l1 & l2 & e1 & e2 & e3 & r1 & st1 & r2 & st2 & El & Ee & A1 & A2 & A3 & A4 & A5 & A6 & A7 & A8 & A9 & A10)]).
  assert (Eq2 : evs2 = evs).
  { pose proof (cy_trace _ _ _ _ _ _ _ F) as T. rewrite T in T2. apply app_inv_tail in T2. congruence. } rewrite Eq2 in Ee.
  assert (Hno : ~ In n l1 /\ ~ In n l2) by (rewrite El in Nd; apply NoDup_remove_2 in Nd; rewrite in_app_iff in Nd; tauto).
  assert (Loc : forall q, In (EvWrite n q) evs -> In (EvWrite n q) e2).
  { intros q Hq. assert (X : Exists (eq (EvWrite n q)) (e3 ++ e2 ++ e1)) by (rewrite <- Ee; apply Exists_exists; eauto).
    destruct (split_where n l1 l2 e1 e2 e3 (eq (EvWrite n q)) n ltac:(intros ev <-; reflexivity) A1 A2 A3 X) as [C|[[C _]|[C _]]]; try tauto.
    apply Exists_exists in C. destruct C as (ev & C1 & <-). exact C1. }
  assert (Wf : forall q, q <> Ret ROk -> write_failed n (EvWrite n q)) by (intros q Q; exists q; auto).
  split.
  - intros X h' Fd'. rewrite A8 in Fd'.
    assert (Y : exists q, q <> Ret ROk /\ q <> Ret RDeactivate /\ In (EvWrite n q) e2)
      by (destruct X as [X|X]; eexists; (split; [|split; [|apply Loc; exact X]]); discriminate).
    destruct Y as (q & Q1 & Q2 & Y).
    destruct A7 as [_ _ _ ->|_ _ _ N _|_ _ _ C _ _|_ _ _ N _ _].
    + contradiction.
    + rewrite Forall_forall in N. elim (N _ Y). auto.
    + eauto.
    + rewrite Forall_forall in N. pose proof (N _ Y (Wf q Q1)) as E. inversion E. congruence.
  - intros X. apply Loc in X.
    destruct A7 as [_ _ _ ->|_ _ _ N _|_ _ _ C N _|_ _ _ N C _].
    + contradiction.
    + rewrite Forall_forall in N. elim (N _ X). apply Wf. discriminate.
    + rewrite Forall_forall in N. elim (N _ X). reflexivity.
    + destruct C as (x & C1 & C2).
      { apply Exists_exists. eexists. split; [exact X|]. apply Wf. discriminate. }
      exists x. split; [rewrite Ee; apply in_or_app; right; apply in_or_app; left; exact C1|].
      intros Hx. unfold lc_of. rewrite A8. exact (C2 Hx).
Qed.
