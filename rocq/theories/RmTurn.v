(** RmTurn.v -- read and write cycles from the point of view of one component (C08-C10). *)
From Verif Require Import Base Events HwModel RmModel RmSys RmSpec HwProofs RmProofs RmInv RmAvail RmCycle RmGroup.

Definition bad (r : rm) (h : hwc) : Prop :=
  h_group h <> ""%string /\ group_state (members (rm_hw r) (h_group h)) (rm_trace r) <> ROk.

Lemma merged_bad r n h : GInv r -> find_hw r n = Some h -> (merged r h <-> bad r h).
Proof.
  intros G Hf. unfold merged, bad, poisoned. split.
  - intros [A (v & B & C)]. split; [exact A|]. rewrite (G n h Hf A) in B. congruence.
  - intros [A B]. split; [exact A|]. rewrite (G n h Hf A). eauto.
Qed.

Lemma noerr_ev e r n : exists evs, rm_trace (rm_error e r n) = evs ++ rm_trace r /\
  Forall (fun ev => exists ok, ev = EvHwErr n ok) evs.
Proof.
  unfold rm_error. destruct (find_hw r n) as [h|] eqn:E; [|exists []; split; [reflexivity|constructor]].
  pose proof (find_hw_name _ _ _ E) as <-.
  destruct (err_events e h (rm_trace r)) as [X|(ok & X)]; destruct (hw_error e h (rm_trace r)) as [h' t']; simpl in *; subst.
  - exists []. split; [reflexivity|constructor].
  - eexists [_]. split; [reflexivity|]. constructor; [eauto|constructor].
Qed.

(** ------------------------------------------------------------ read *)
Inductive read_turn (e : env) (r : rm) (st : rwstatus) (n : name) (h : hwc) (r2 : rm) (st2 : rwstatus) (evs : trace) : Prop :=
| RtLocked : e_locked e (rm_trace r) n = true -> st2 = st -> find_hw r2 n = Some h -> evs = [] -> read_turn e r st n h r2 st2 evs
| RtOk : e_locked e (rm_trace r) n = false -> st2 = st -> find_hw r2 n = Some h ->
    Forall (fun ev => ~ read_failed n ev) evs -> ~ bad r h -> read_turn e r st n h r2 st2 evs
| RtFail : e_locked e (rm_trace r) n = false ->
    rw_failed st2 = rw_failed st ++ [n] -> rw_result st2 = RError ->
    (forall h2, find_hw r2 n = Some h2 -> ~ configured (h_lc h2)) ->
    (Exists (read_failed n) evs \/ bad r h) -> read_turn e r st n h r2 st2 evs.

Lemma read_one_turn e r st n h : names_ok r -> GInv r -> find_hw r n = Some h ->
  exists evs, rm_trace (fst (read_one e (r, st) n)) = evs ++ rm_trace r /\ 
    read_turn e r st n h (fst (read_one e (r, st) n)) (snd (read_one e (r, st) n)) evs.
Proof.
  intros Hn G Hf. unfold read_one. rewrite Hf. destruct (e_locked e (rm_trace r) n) eqn:El.
  { exists []. split; [reflexivity|]. apply RtLocked; auto. }
  destruct (read_ret_outcome e r n h Hn Hf) as (evs & T & O).
  pose proof (read_ret_only e r n h Hn Hf) as On.
  destruct (read_ret e r h) as [r1 v]. simpl in *.
  assert (Hn1 : names_ok r1) by (eapply names_ok_evolve; [apply On|exact Hn]).
  destruct (rt_dec v) as [->|Hv].
  - exists evs. split; [exact T|]. destruct O as [_ O2 O3 O4 O5|w W _ Ew _ _|W _ _ _|W _ _ _ _ _]; try congruence.
    apply RtOk; auto. rewrite <- (merged_bad r n h G Hf). exact O5.
  - destruct (noerr_ev e r1 n) as (ev2 & T2 & F2).
    exists (ev2 ++ evs).
    assert (C : Exists (read_failed n) (ev2 ++ evs) \/ bad r h).
    { destruct O as [O1 _ _ _ _|w W X -> _ _|_ X _ _|_ M _ _ _ _]; [congruence| | |].
      - left. apply Exists_app. right. eapply Exists_impl; [|exact X]. intros ev ->. exists (Ret w). split; [reflexivity|congruence].
      - left. apply Exists_app. right. exact X.
      - right. apply (merged_bad r n h G Hf). exact M. }
    assert (N : forall h2, find_hw (remove_hw_itfs (rm_error e r1 n) h) n = Some h2 -> ~ configured (h_lc h2))
      by (intros h2 F; exact (rm_error_not_conf e r1 n h2 Hn1 F)).
    destruct v; [congruence| |]; simpl; (split; [rewrite T2, T; apply app_assoc|]); apply RtFail; auto.
Qed.

(** only reads and on_error *)
Definition read_ev (ev : event) : Prop := (exists m r, ev = EvRead m r) \/ (exists m ok, ev = EvHwErr m ok).

Lemma dres_read_ev n res t t' : dres true n res t t' -> exists evs, t' = evs ++ t /\ Forall read_ev evs.
Proof.
  intros [[_ ->]|[->|[_ (ok & ->)]]].
  - exists []. split; [reflexivity|constructor].
  - exists [EvRead n res]. split; [reflexivity|]. constructor; [left; eauto|constructor].
  - exists [EvHwErr n ok; EvRead n res]. split; [reflexivity|]. constructor; [right; eauto|]. constructor; [left; eauto|constructor].
Qed.

Lemma read_one_ev e r st n : exists evs, rm_trace (fst (read_one e (r, st) n)) = evs ++ rm_trace r /\ Forall read_ev evs.
Proof.
  assert (Z : exists evs : trace, rm_trace r = evs ++ rm_trace r /\ Forall read_ev evs) by (exists []; split; [reflexivity|constructor]).
  unfold read_one. destruct (find_hw r n) as [h|] eqn:Hf; [|exact Z]. destruct (e_locked e _ n); [exact Z|].
  assert (R : exists evs, rm_trace (fst (read_ret e r h)) = evs ++ rm_trace r /\ Forall read_ev evs).
  { unfold read_ret. destruct (h_rated h && _); [rewrite update_group_trace; exact Z|].
    pose proof (hw_read_dres e h (rm_trace r)) as D. destruct (hw_read e h (rm_trace r)) as [[h' t'] res]. simpl in D.
    destruct res; [rewrite update_group_trace|]; simpl; eapply dres_read_ev; exact D. }
  destruct (read_ret e r h) as [r1 v]. simpl in R. destruct R as (evs & T & F).
  destruct (noerr_ev e r1 n) as (ev2 & T2 & F2).
  assert (X : exists evs0, rm_trace (rm_error e r1 n) = evs0 ++ rm_trace r /\ Forall read_ev evs0).
  { exists (ev2 ++ evs). rewrite T2, T. split; [apply app_assoc|]. apply Forall_app. split; [|exact F].
    eapply Forall_impl; [|exact F2]. intros ev (ok & ->). right. eauto. }
  destruct v; simpl; [exists evs; auto|exact X|exact X].
Qed.

Lemma fold_read_ev e l : forall r st, exists evs, rm_trace (fst (fold_left (read_one e) l (r, st))) = evs ++ rm_trace r /\ Forall read_ev evs.
Proof.
  induction l as [|n l IH]; intros r st; [exists []; split; [reflexivity|constructor]|]. cbn [fold_left].
  destruct (read_one_ev e r st n) as (e1 & T1 & F1). destruct (read_one e (r, st) n) as [r1 st1]. simpl in T1.
  destruct (IH r1 st1) as (e2 & T2 & F2). exists (e2 ++ e1). rewrite T2, T1. split; [apply app_assoc|].
  apply Forall_app. auto.
Qed.

Lemma read_one_Hf e : forall r st n, names_ok r ->
    only n r (fst (read_one e (r, st) n)) /\
    (snd (read_one e (r, st) n) = st \/
     (rw_failed (snd (read_one e (r, st) n)) = rw_failed st ++ [n] /\ rw_result (snd (read_one e (r, st) n)) <> ROk)).
Proof.
  intros r st n Hn. split; [apply read_one_only; exact Hn|]. unfold read_one.
  destruct (find_hw r n); [|left; reflexivity]. destruct (e_locked e _ n); [left; reflexivity|].
  destruct (read_ret e r h) as [r1 []]; simpl; [left; reflexivity|right; split; [reflexivity|discriminate]..].
Qed.

(** the cycle seen by component n *)
Record seen (turn : rm -> rwstatus -> name -> hwc -> rm -> rwstatus -> trace -> Prop)
  (l : list name) (r : rm) (n : name) (h : hwc) (r' : rm) (st' : rwstatus) (evs : trace) : Prop := {
  se_main : exists l1 l2 e1 e2 e3 r1 st1 r2 st2,
     l = l1 ++ n :: l2 /\ evs = e3 ++ e2 ++ e1 /\
     Forall (fun ev => exists m, In m l1 /\ about m ev) e1 /\ Forall (about n) e2 /\
     Forall (fun ev => exists m, In m l2 /\ about m ev) e3 /\
     rm_trace r1 = e1 ++ rm_trace r /\ Forall2 same_static (rm_hw r) (rm_hw r1) /\ find_hw r1 n = Some h /\
     turn r1 st1 n h r2 st2 e2 /\ find_hw r' n = find_hw r2 n /\
     ~ In n (rw_failed st1) /\ (In n (rw_failed st') <-> In n (rw_failed st2))
}.

Section Seen.
  Variable e : env.
  Variable f : rm * rwstatus -> name -> rm * rwstatus.
  Variable turn : rm -> rwstatus -> name -> hwc -> rm -> rwstatus -> trace -> Prop.
  Hypothesis Hf : forall r st n, names_ok r ->
    only n r (fst (f (r, st) n)) /\
    (snd (f (r, st) n) = st \/
     (rw_failed (snd (f (r, st) n)) = rw_failed st ++ [n] /\ rw_result (snd (f (r, st) n)) <> ROk)).
  Hypothesis Hg : forall r st n, names_ok r -> top_ok (rm_trace r) ->
     only n r (fst (f (r, st) n)) /\ gok n r (fst (f (r, st) n)) /\ top_ok (rm_trace (fst (f (r, st) n))).
  Hypothesis Ht : forall r st n h, names_ok r -> GInv r -> find_hw r n = Some h ->
    exists evs, rm_trace (fst (f (r, st) n)) = evs ++ rm_trace r /\ 
      turn r st n h (fst (f (r, st) n)) (snd (f (r, st) n)) evs.

  Lemma seen_fold l r n h : names_ok r -> GT r -> NoDup l -> In n l -> find_hw r n = Some h ->
    exists evs, rm_trace (fst (fold_left f l (r, rw_ok))) = evs ++ rm_trace r /\
      Forall (fun ev => exists m, In m l /\ about m ev) evs /\
      seen turn l r n h (fst (fold_left f l (r, rw_ok))) (snd (fold_left f l (r, rw_ok))) evs.
  Proof.
    intros Hn G Nd Hi Hfd.
    apply in_split in Hi. destruct Hi as (l1 & l2 & ->).
    pose proof (NoDup_remove_2 _ _ _ Nd) as Hno. rewrite in_app_iff in Hno.
    pose proof (cfold f Hf l1 r rw_ok Hn) as C1. pose proof (fold_GT f l1 Hg r rw_ok Hn G) as G1.
    rewrite fold_left_app. cbn [fold_left].
    destruct (fold_left f l1 (r, rw_ok)) as [r1 st1] eqn:E1. simpl in C1, G1.
    destruct C1 as [A1 A2 (e1 & A3 & A4) (fs1 & A5 & A6 & _)].
    assert (Hn1 : names_ok r1) by (eapply names_ok_evolve; [apply A1|exact Hn]).
    assert (F1 : find_hw r1 n = Some h) by (rewrite A2; [exact Hfd|tauto]).
    destruct (Ht r1 st1 n h Hn1 (proj1 G1) F1) as (e2 & T2 & Tu).
    destruct (Hf r1 st1 n Hn1) as [[B1 B2 (e2' & B3 & B4)] _].
    destruct (f (r1, st1) n) as [r2 st2] eqn:E2. simpl in *.
    assert (e2' = e2) by (rewrite B3 in T2; apply app_inv_tail in T2; exact T2). subst e2'.
    assert (Hn2 : names_ok r2) by (eapply names_ok_evolve; [apply B1|exact Hn1]).
    destruct (cfold f Hf l2 r2 st2 Hn2) as [D1 D2 (e3 & D3 & D4) (fs3 & D5 & D6 & _)].
    exists (e3 ++ e2 ++ e1). split; [rewrite D3, B3, A3, !app_assoc; reflexivity|]. split.
    { rewrite !Forall_app. repeat split.
      - eapply Forall_impl; [|exact D4]. intros ev (m & M1 & M2). exists m. rewrite in_app_iff. simpl. tauto.
      - eapply Forall_impl; [|exact B4]. intros ev M. exists n. rewrite in_app_iff. simpl. tauto.
      - eapply Forall_impl; [|exact A4]. intros ev (m & M1 & M2). exists m. rewrite in_app_iff. simpl. tauto. }
    constructor. exists l1, l2, e1, e2, e3, r1, st1, r2, st2. simpl in A5.
    repeat (split; [first [reflexivity|assumption|apply A1]|]).
    split; [apply D2; tauto|]. split.
    - rewrite A5. intros C. apply A6 in C. tauto.
    - rewrite D5, in_app_iff. split; [|tauto]. intros [C|C]; [exact C|]. apply D6 in C. tauto.
  Qed.
End Seen.

(** ------------------------------------------------------------ history function facts *)
Definition fails (ms : list name) (ev : event) : Prop :=
  exists m v, In m ms /\ v <> ROk /\ (ev = EvRead m (Ret v) \/ ev = EvWrite m (Ret v)).

Lemma gs_keep ms evs t : top_ok t -> Forall (fun ev => ~ clears ms ev) evs ->
  group_state ms t <> ROk -> group_state ms (evs ++ t) <> ROk.
Proof.
  intros Tt F N. induction F as [|ev evs Hev F IH]; [exact N|]. cbn [app group_state].
  destruct ev; try exact IH.
  - assert (K : cb = HConfigure \/ cb = HCleanup \/ cb = HShutdown -> mem h ms = false).
    { intros C. apply mem_false. intros C2. apply Hev. exists h, r. split; [exact C2|].
      destruct C as [->|[->| ->]]; auto. }
    destruct cb; try exact IH.
    + rewrite K by auto. exact IH.
    + rewrite K by auto. exact IH.
    + rewrite K by auto. destruct r; exact IH.
  - destruct ok; [exact IH|]. destruct evs as [|ev2 evs].
    + cbn [app] in *. destruct t as [|[] t]; try exact IH. destruct cb; try exact IH. contradiction.
    + cbn [app] in *. destruct ev2; try exact IH. destruct cb; try exact IH.
      destruct (String.eqb_spec h h0) as [->|]; [|simpl; destruct r; exact IH].
      assert (M : mem h0 ms = false).
      { apply mem_false. intros C. inversion F as [|? ? H1 _]; subst. apply H1. exists h0, r. split; [exact C|]. auto. }
      rewrite M. destruct r; exact IH.
  - destruct r as [v|]; [|exact IH]. destruct (mem h ms && negb (rtype_eqb v ROk)) eqn:E; [|exact IH].
    apply andb_prop in E. destruct E as [_ E]. destruct v; [discriminate|congruence|congruence].
  - destruct r as [v|]; [|exact IH]. destruct (mem h ms && negb (rtype_eqb v ROk)) eqn:E; [|exact IH].
    apply andb_prop in E. destruct E as [_ E]. destruct v; [discriminate|congruence|congruence].
Qed.

Lemma gs_fails ms evs t : Forall (fun ev => ~ clears ms ev) evs -> Exists (fails ms) evs ->
  group_state ms (evs ++ t) <> ROk.
Proof.
  intros F X. apply Exists_exists in X. destruct X as (ev & Hi & m & v & M & V & E).
  apply in_split in Hi. destruct Hi as (a & b & ->). rewrite <- app_assoc.
  apply Forall_app in F. destruct F as [F1 F2]. apply gs_keep; [|exact F1|].
  - destruct E as [->| ->]; exact I.
  - apply mem_In in M. destruct E as [->| ->]; cbn [app group_state]; rewrite M; destruct v; simpl; congruence.
Qed.

(** converse: a bad group state comes from a failing member event with no clearing since *)
Lemma gs_bad_inv ms t : group_state ms t <> ROk ->
  exists t1 ev t2, t = t1 ++ ev :: t2 /\ fails ms ev /\
    Forall (fun ev => forall m r, In m ms -> ev <> EvHwCb m HConfigure r /\ ev <> EvHwCb m HCleanup r) t1.
Proof.
  induction t as [|ev t IH]; intros N; [elim N; reflexivity|].
  assert (Go : group_state ms t <> ROk -> (forall m r, In m ms -> ev <> EvHwCb m HConfigure r /\ ev <> EvHwCb m HCleanup r) ->
     exists t1 ev' t2, ev :: t = t1 ++ ev' :: t2 /\ fails ms ev' /\
       Forall (fun ev => forall m r, In m ms -> ev <> EvHwCb m HConfigure r /\ ev <> EvHwCb m HCleanup r) t1).
  { intros A B. destruct (IH A) as (t1 & ev' & t2 & -> & C & D). exists (ev :: t1), ev', t2. repeat split; auto. }
  cbn [group_state] in N.
  destruct ev; try (apply Go; [exact N|intros; split; discriminate]).
  - destruct cb; try (apply Go; [exact N|intros; split; discriminate]).
    + destruct (mem h ms) eqn:M; [congruence|]. apply mem_false in M. apply Go; [exact N|].
      intros m r0 Hm. split; [|discriminate]. intros C. inversion C; subst. tauto.
    + destruct (mem h ms) eqn:M; [congruence|]. apply mem_false in M. apply Go; [exact N|].
      intros m r0 Hm. split; [discriminate|]. intros C. inversion C; subst. tauto.
    + apply Go; [|intros; split; discriminate]. destruct r; try exact N. destruct (mem h ms); [congruence|exact N].
  - apply Go; [|intros; split; discriminate]. destruct ok; [exact N|]. destruct t as [|[] t]; try exact N.
    destruct cb; try exact N. destruct r; try exact N; destruct (String.eqb h h0 && mem h ms); try exact N; congruence.
  - destruct r as [v|]; [|apply Go; [exact N|intros; split; discriminate]].
    destruct (mem h ms) eqn:M; [|apply Go; [exact N|intros; split; discriminate]].
    destruct (rt_dec v) as [->|V]; [apply Go; [exact N|intros; split; discriminate]|].
    exists [], (EvRead h (Ret v)), t. split; [reflexivity|]. split; [|constructor]. apply mem_In in M. exists h, v. auto.
  - destruct r as [v|]; [|apply Go; [exact N|intros; split; discriminate]].
    destruct (mem h ms) eqn:M; [|apply Go; [exact N|intros; split; discriminate]].
    destruct (rt_dec v) as [->|V]; [apply Go; [exact N|intros; split; discriminate]|].
    exists [], (EvWrite h (Ret v)), t. split; [reflexivity|]. split; [|constructor]. apply mem_In in M. exists h, v. auto.
Qed.

(** ------------------------------------------------------------ write *)
Inductive write_turn (e : env) (r : rm) (st : rwstatus) (n : name) (h : hwc) (r2 : rm) (st2 : rwstatus) (evs : trace) : Prop :=
| WtLocked : e_locked e (rm_trace r) n = true -> st2 = st -> find_hw r2 n = Some h -> evs = [] -> write_turn e r st n h r2 st2 evs
| WtOk : e_locked e (rm_trace r) n = false -> st2 = st -> find_hw r2 n = Some h ->
    Forall (fun ev => ~ write_failed n ev) evs -> ~ bad r h -> write_turn e r st n h r2 st2 evs
| WtError : e_locked e (rm_trace r) n = false ->
    rw_failed st2 = rw_failed st ++ [n] -> rw_result st2 = RError ->
    (forall h2, find_hw r2 n = Some h2 -> ~ configured (h_lc h2)) ->
    Forall (fun ev => ev <> EvWrite n (Ret RDeactivate)) evs ->
    (Exists (write_failed n) evs \/ bad r h) -> write_turn e r st n h r2 st2 evs
| WtDeactivate : e_locked e (rm_trace r) n = false ->
    rw_failed st2 = rw_failed st ++ [n] -> rw_result st2 = RDeactivate ->
    Forall (fun ev => write_failed n ev -> ev = EvWrite n (Ret RDeactivate)) evs ->
    (Exists (write_failed n) evs -> exists x, In (EvHwCb n HDeactivate x) evs /\
        (x = CbSuccess -> lc_of r2 n = Some Inactive)) ->
    (Exists (write_failed n) evs \/ bad r h) -> write_turn e r st n h r2 st2 evs.

Lemma hw_write_active e h t n v evs : h_name h = n -> snd (fst (hw_write e h t)) = evs ++ t ->
  Exists (write_returned n v) evs -> h_lc h = Active.
Proof.
  intros Hn. unfold hw_write.
  assert (Z : t = evs ++ t -> Exists (write_returned n v) evs -> h_lc h = Active).
  { intros E X. destruct evs as [|a l]; [inversion X|]. exfalso. apply (f_equal (@length _)) in E.
    simpl in E. rewrite app_length in E. lia. }
  destruct (h_kind h), (h_lc h) eqn:El; simpl; auto.
Qed.

Lemma write_ret_active e r n h v evs : find_hw r n = Some h -> rm_trace (fst (write_ret e r h)) = evs ++ rm_trace r ->
  Exists (write_returned n v) evs -> h_lc h = Active.
Proof.
  intros Hf T X. pose proof (find_hw_name _ _ _ Hf) as Hname. unfold write_ret in T. destruct (h_rated h && _).
  - rewrite update_group_trace in T. destruct evs as [|a l]; [inversion X|]. exfalso. apply (f_equal (@length _)) in T.
    simpl in T. rewrite app_length in T. lia.
  - apply (hw_write_active e h (rm_trace r) n v evs); [exact Hname| |exact X].
    destruct (hw_write e h (rm_trace r)) as [[h' t'] res]. simpl.
    destruct res; [rewrite update_group_trace in T|]; exact T.
Qed.

(** set_component_state INACTIVE adds no write events; from ACTIVE it runs on_deactivate *)
Lemma set_inactive_events e r n h : find_hw r n = Some h ->
  exists evs, rm_trace (fst (set_component_state e r n Inactive)) = evs ++ rm_trace r /\
    Forall (fun ev => ~ write_failed n ev) evs /\
    (h_lc h = Active -> exists x, In (EvHwCb n HDeactivate x) evs /\
       (x = CbSuccess -> lc_of (fst (set_component_state e r n Inactive)) n = Some Inactive)).
Proof.
  intros Hf. pose proof (find_hw_name _ _ _ Hf) as Hname. unfold set_component_state. rewrite Hf. unfold set_state_of.
  assert (Nf : forall x y z, ~ write_failed n (EvHwCb x y z)) by (intros x y z (q & Q & _); discriminate).
  assert (Nf2 : forall x y, ~ write_failed n (EvHwErr x y)) by (intros x y (q & Q & _); discriminate).
  assert (Z : h_lc h <> Active -> exists evs, rm_trace (fst (r, false)) = evs ++ rm_trace r /\
    Forall (fun ev => ~ write_failed n ev) evs /\
    (h_lc h = Active -> exists x, In (EvHwCb n HDeactivate x) evs /\
       (x = CbSuccess -> lc_of (fst (r, false)) n = Some Inactive)))
    by (intros N; exists []; repeat split; [constructor|congruence]).
  destruct (h_lc h) eqn:El; try (apply Z; discriminate).
  - unfold configure_hardware, run_transition, hw_configure, call, then_error, hw_error. rewrite El.
    destruct (e_hw e (rm_trace r) (h_name h) HConfigure); simpl; rewrite ?El; simpl; rewrite set_group_trace; simpl;
      (eexists [_]; split; [reflexivity|]; split; [constructor; [apply Nf|constructor]|discriminate]).
  - unfold deactivate_hardware, run_transition, hw_deactivate, call, then_error, hw_error. rewrite El, Hname.
    destruct (e_hw e (rm_trace r) n HDeactivate) eqn:Ec; simpl.
    + eexists [_]. split; [reflexivity|]. split; [constructor; [apply Nf|constructor]|]. intros _.
      exists CbSuccess. split; [left; reflexivity|]. intros _. unfold lc_of.
      change (option_map h_lc (find_hw (put_hw r (set_lc h Inactive)) n) = Some Inactive).
      rewrite (find_put_same r (set_lc h Inactive) h n Hf Hname). reflexivity.
    + eexists [_]. split; [reflexivity|]. split; [constructor; [apply Nf|constructor]|]. intros _.
      exists CbFailure. split; [left; reflexivity|discriminate].
    + eexists [_; _]. split; [reflexivity|]. split; [constructor; [apply Nf2|constructor; [apply Nf|constructor]]|]. intros _.
      exists CbError. split; [right; left; reflexivity|discriminate].
    + eexists [_]. split; [reflexivity|]. split; [constructor; [apply Nf|constructor]|]. intros _.
      exists CbThrow. split; [left; reflexivity|discriminate].
Qed.

Lemma write_one_turn e r st n h : names_ok r -> GInv r -> find_hw r n = Some h ->
  exists evs, rm_trace (fst (write_one e (r, st) n)) = evs ++ rm_trace r /\ 
    write_turn e r st n h (fst (write_one e (r, st) n)) (snd (write_one e (r, st) n)) evs.
Proof.
  intros Hn G Hf. unfold write_one. rewrite Hf. destruct (e_locked e (rm_trace r) n) eqn:El.
  { exists []. split; [reflexivity|]. apply WtLocked; auto. }
  destruct (write_ret_outcome e r n h Hn Hf) as (evs & T & O).
  pose proof (write_ret_only e r n h Hn Hf) as On.
  pose proof (write_ret_nerr_same e r n h Hf) as Sm.
  pose proof (fun v evs => write_ret_active e r n h v evs Hf) as Ac.
  destruct (write_ret e r h) as [r1 v]. simpl in *.
  assert (Hn1 : names_ok r1) by (eapply names_ok_evolve; [apply On|exact Hn]).
  assert (C : v <> ROk -> Exists (write_failed n) evs \/ bad r h).
  { intros Hv. destruct O as [O1 _ _ _ _|w W X Ew _ _|_ X _ _|_ M _ _ _ _]; [congruence| | |].
    - left. eapply Exists_impl; [|exact X]. intros ev ->. exists (Ret w). split; [reflexivity|congruence].
    - left. exact X.
    - right. apply (merged_bad r n h G Hf). exact M. }
  destruct v.
  - exists evs. split; [exact T|]. destruct O as [_ O2 O3 O4 O5|w W _ Ew _ _|W _ _ _|W _ _ _ _ _]; try congruence.
    apply WtOk; auto. rewrite <- (merged_bad r n h G Hf). exact O5.
  - destruct (noerr_ev e r1 n) as (ev2 & T2 & F2).
    exists (ev2 ++ evs). simpl. split; [rewrite T2, T; apply app_assoc|]. apply WtError; auto.
    + intros h2 F; exact (rm_error_not_conf e r1 n h2 Hn1 F).
    + apply Forall_app. split; [eapply Forall_impl; [|exact F2]; intros ev (ok & ->); discriminate|].
      destruct O as [W _ _ _ _|w W _ Ew U _|_ _ U _|_ _ _ _ U _]; [discriminate| | |].
      * subst w. eapply Forall_impl; [|exact U]. intros ev X ->. 
        assert (K : write_returned n RError (EvWrite n (Ret RDeactivate)))
          by (apply X; exists (Ret RDeactivate); split; [reflexivity|discriminate]). discriminate K.
      * apply Forall_forall. intros ev Hi ->. apply (U RDeactivate). apply Exists_exists. eexists. split; [exact Hi|reflexivity].
      * eapply Forall_impl; [|exact U]. intros ev X ->. apply X. exists (Ret RDeactivate). split; [reflexivity|discriminate].
    + destruct C as [C|C]; [discriminate| |right; exact C]. left. apply Exists_app. right. exact C.
  - specialize (Sm ltac:(discriminate)).
    destruct (set_inactive_events e r1 n h Sm) as (ev2 & T2 & F2 & D2).
    exists (ev2 ++ evs). simpl. split; [rewrite T2, T; apply app_assoc|]. apply WtDeactivate; auto.
    + apply Forall_app. split; [eapply Forall_impl; [|exact F2]; intros ev X Y; elim (X Y)|].
      destruct O as [W _ _ _ _|w W _ Ew U _|W _ _ _|_ _ _ _ U _]; try discriminate.
      * subst w. exact U.
      * eapply Forall_impl; [|exact U]. intros ev X Y. elim (X Y).
    + intros X. assert (X1 : Exists (write_failed n) evs).
      { apply Exists_app in X. destruct X as [X|X]; [|exact X]. exfalso. apply Exists_exists in X.
        destruct X as (ev & X1 & X2). rewrite Forall_forall in F2. exact (F2 ev X1 X2). }
      destruct O as [W _ _ _ _|w W Y Ew U _|W _ _ _|_ _ _ _ U _]; try discriminate.
      * destruct (D2 (Ac w evs T Y)) as (x & D3 & D4). exists x. split; [apply in_or_app; left; exact D3|exact D4].
      * exfalso. apply Exists_exists in X1. destruct X1 as (ev & X1 & X2). rewrite Forall_forall in U. exact (U ev X1 X2).
    + destruct C as [C|C]; [discriminate| |right; exact C]. left. apply Exists_app. right. exact C.
Qed.

Lemma write_one_Hf e : forall r st n, names_ok r ->
    only n r (fst (write_one e (r, st) n)) /\
    (snd (write_one e (r, st) n) = st \/
     (rw_failed (snd (write_one e (r, st) n)) = rw_failed st ++ [n] /\ rw_result (snd (write_one e (r, st) n)) <> ROk)).
Proof.
  intros r st n Hn. split; [apply write_one_only; exact Hn|]. unfold write_one.
  destruct (find_hw r n); [|left; reflexivity]. destruct (e_locked e _ n); [left; reflexivity|].
  destruct (write_ret e r h) as [r1 []]; simpl; [left; reflexivity|right; split; [reflexivity|discriminate]..].
Qed.

(** ------------------------------------------------------------ cycles from reachable states *)
Definition writables (hs : list hwc) : list name := map h_name (filter (fun h => negb (is_sensor h)) hs).

Lemma names_filter (p : hwc -> bool) l : NoDup (map h_name l) -> NoDup (map h_name (filter p l)).
Proof.
  induction l as [|x l IH]; simpl; [auto|]. intros H. inversion H as [|? ? H1 H2]; subst.
  destruct (p x); simpl; [|auto]. constructor; [|auto]. intros C. apply H1. apply in_map_iff in C.
  destruct C as (y & E & Y). rewrite <- E. apply in_map. apply filter_In in Y. apply Y.
Qed.

(** status facts common to both cycles *)
Lemma status_fold f l r :
  (forall r st n, names_ok r -> only n r (fst (f (r, st) n)) /\
    (snd (f (r, st) n) = st \/
     (rw_failed (snd (f (r, st) n)) = rw_failed st ++ [n] /\ rw_result (snd (f (r, st) n)) <> ROk))) ->
  names_ok r -> NoDup l ->
  let st := snd (fold_left f l (r, rw_ok)) in
  (rw_result st = ROk <-> rw_failed st = []) /\ NoDup (rw_failed st) /\ incl (rw_failed st) l.
Proof.
  intros Hf Hn Nd st. destruct (cfold f Hf l r rw_ok Hn) as [_ _ _ (fs & A & B & C & D & E)].
  fold st in A, D, E. simpl in A. rewrite A. split; [|split; auto].
  split.
  - intros X. destruct fs; [reflexivity|]. exfalso. apply E; [discriminate|exact X].
  - intros ->. rewrite (D eq_refl). reflexivity.
Qed.
