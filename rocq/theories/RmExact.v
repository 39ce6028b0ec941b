(** RmExact.v -- exact statements about cycles, state requests, claims and mode switches. *)
From Verif Require Import Base Events HwModel RmModel RmSys RmSpec RmSpec2 HwProofs RmProofs RmInv RmAvail RmCycle RmGroup RmTurn RmRw RmMode RmMain.

Lemma count_app p a b : count p (a ++ b) = count p a + count p b.
Proof. unfold count. rewrite filter_app, app_length. reflexivity. Qed.

Lemma count_zero p evs : Forall (fun ev => p ev = false) evs -> count p evs = 0.
Proof. induction 1 as [|ev evs H _ IH]; [reflexivity|]. unfold count in *. simpl. rewrite H. exact IH. Qed.

(** ------------------------------------------------------------------ cycles *)
Definition about_only (p : name -> event -> bool) : Prop := forall n ev, p n ev = true -> about n ev.
Lemma is_read_about : about_only is_read.
Proof. intros n [] H; simpl in *; try discriminate; apply String.eqb_eq; exact H. Qed.
Lemma is_write_about : about_only is_write.
Proof. intros n [] H; simpl in *; try discriminate; apply String.eqb_eq; exact H. Qed.

Lemma count_others p l n evs : about_only p -> ~ In n l ->
  Forall (fun ev => exists m, In m l /\ about m ev) evs -> count (p n) evs = 0.
Proof.
  intros Ha Hn F. apply count_zero. eapply Forall_impl; [|exact F]. intros ev (m & M1 & M2).
  destruct (p n ev) eqn:E; [|reflexivity]. exfalso. apply Hn. rewrite <- (about_fun m n ev); auto.
Qed.

Lemma cycle_count f p l n r st :
  (forall r st n, names_ok r ->
    only n r (fst (f (r, st) n)) /\
    (snd (f (r, st) n) = st \/
     (rw_failed (snd (f (r, st) n)) = rw_failed st ++ [n] /\ rw_result (snd (f (r, st) n)) <> ROk))) ->
  about_only p -> names_ok r -> NoDup l -> In n l ->
  exists evs r1 st1 e2, rm_trace (fst (fold_left f l (r, st))) = evs ++ rm_trace r /\
    names_ok r1 /\ find_hw r1 n = find_hw r n /\
    rm_trace (fst (f (r1, st1) n)) = e2 ++ rm_trace r1 /\ count (p n) evs = count (p n) e2.
Proof.
  intros Hf Ha Hn Nd Hi.
  destruct (cfold_at f Hf l n r st Hn Nd Hi) as (l1 & l2 & r1 & st1 & r2 & st2 & El & N1 & N2 & C1 & E & Hn1 & Hn2 & C2).
  destruct C1 as [_ C1o (e1 & T1 & F1) _]. destruct C2 as [_ _ (e3 & T3 & F3) _].
  destruct (Hf r1 st1 n Hn1) as [[_ _ (e2 & T2 & F2)] _].
  exists (e3 ++ e2 ++ e1), r1, st1, e2. rewrite E in T2 |- *. simpl in T2 |- *.
  split; [rewrite T3, T2, T1, <- !app_assoc; reflexivity|]. split; [exact Hn1|]. split; [apply C1o; exact N1|].
  split; [exact T2|]. rewrite !count_app, (count_others p l2 n e3), (count_others p l1 n e1); auto. lia.
Qed.

Lemma tail_eq {A} (a b c : list A) : a ++ c = b ++ c -> a = b.
Proof. apply app_inv_tail. Qed.

Lemma err_count p e h t evs : (forall m ok, p (EvHwErr m ok) = false) -> snd (hw_error e h t) = evs ++ t -> count p evs = 0.
Proof.
  intros Hp. unfold hw_error. destruct (h_lc h); simpl; intros E;
    match type of E with
    | ?t = ?x ++ ?t => change ([] ++ t = x ++ t) in E; apply tail_eq in E; subst; reflexivity
    | ?y :: ?t = ?x ++ ?t => change ([y] ++ t = x ++ t) in E; apply tail_eq in E; subst; unfold count; simpl; rewrite Hp; reflexivity
    end.
Qed.

Lemma rm_error_count p e r n evs : (forall m ok, p (EvHwErr m ok) = false) ->
  rm_trace (rm_error e r n) = evs ++ rm_trace r -> count p evs = 0.
Proof.
  intros Hp. unfold rm_error. destruct (find_hw r n) as [h|].
  - pose proof (err_count p e h (rm_trace r)) as K. destruct (hw_error e h (rm_trace r)) as [h' t']. simpl in *. intros E. apply K; auto.
  - intros E. change ([] ++ rm_trace r = evs ++ rm_trace r) in E. apply tail_eq in E. subst. reflexivity.
Qed.

Lemma hw_read_count e h t evs : snd (fst (hw_read e h t)) = evs ++ t ->
  count (is_read (h_name h)) evs = (match h_lc h with Inactive | Active => 1 | _ => 0 end).
Proof.
  unfold hw_read. destruct (h_lc h) eqn:El; cbn [fst snd];
    try (intros E; change ([] ++ t = evs ++ t) in E; apply tail_eq in E; subst; reflexivity).
  1,2: destruct (e_read e t (h_name h)) as [[]|]; cbn [fst snd];
    try (intros E; match type of E with ?y :: ?t = ?x ++ ?t => change ([y] ++ t = x ++ t) in E end; apply tail_eq in E; subst;
         unfold count; simpl; rewrite String.eqb_refl; reflexivity).
  1,2: destruct (err_nonread e h (h_name h) (EvRead (h_name h) (Ret RError) :: t)) as (x & X & _);
    pose proof (err_count (is_read (h_name h)) e h (EvRead (h_name h) (Ret RError) :: t) x (fun _ _ => eq_refl) X) as Z;
    destruct (hw_error e h _) as [h' t']; simpl in *; intros E; subst t';
    replace (x ++ EvRead (h_name h) (Ret RError) :: t) with ((x ++ [EvRead (h_name h) (Ret RError)]) ++ t) in E by (rewrite <- app_assoc; reflexivity);
    apply tail_eq in E; subst evs; rewrite count_app, Z; unfold count; simpl; rewrite String.eqb_refl; reflexivity.
Qed.

Lemma hw_write_count e h t evs : snd (fst (hw_write e h t)) = evs ++ t ->
  count (is_write (h_name h)) evs = (match h_kind h, h_lc h with Sensor, _ => 0 | _, Active => 1 | _, _ => 0 end).
Proof.
  unfold hw_write.
  assert (Z0 : t = evs ++ t -> count (is_write (h_name h)) evs = 0)
    by (intros E; change ([] ++ t = evs ++ t) in E; apply tail_eq in E; subst; reflexivity).
  assert (Act : snd (fst (let r := e_write e t (h_name h) in
        let t1 := EvWrite (h_name h) r :: t in
        match r with
        | Ret RError => let '(h', t') := hw_error e h t1 in (h', t', r)
        | _ => (h, t1, r)
        end)) = evs ++ t -> count (is_write (h_name h)) evs = 1).
  { cbv zeta. destruct (e_write e t (h_name h)) as [[]|]; cbn [fst snd];
    try (intros E; match type of E with ?y :: ?t = ?x ++ ?t => change ([y] ++ t = x ++ t) in E end; apply tail_eq in E; subst;
         unfold count; simpl; rewrite String.eqb_refl; reflexivity).
    destruct (err_nonread e h (h_name h) (EvWrite (h_name h) (Ret RError) :: t)) as (x & X & _).
    pose proof (err_count (is_write (h_name h)) e h (EvWrite (h_name h) (Ret RError) :: t) x (fun _ _ => eq_refl) X) as Z.
    destruct (hw_error e h _) as [h' t']; simpl in *; intros E; subst t'.
    replace (x ++ EvWrite (h_name h) (Ret RError) :: t) with ((x ++ [EvWrite (h_name h) (Ret RError)]) ++ t) in E by (rewrite <- app_assoc; reflexivity).
    apply tail_eq in E; subst evs; rewrite count_app, Z; unfold count; simpl; rewrite String.eqb_refl; reflexivity. }
  destruct (h_kind h); destruct (h_lc h); cbn [fst snd]; auto.
Qed.

(** is this component's turn not skipped by its own read/write rate *)
Definition due (e : env) (h : hwc) : Prop := h_rated h = false \/ forall t, e_due e t (h_name h) = true.

Lemma due_no_skip e h t : due e h -> h_rated h && negb (e_due e t (h_name h)) = false.
Proof. intros [->|H]; [reflexivity|]. rewrite H. apply andb_false_r. Qed.

Lemma read_ret_count e r h evs : rm_trace (fst (read_ret e r h)) = evs ++ rm_trace r ->
  let k := match h_lc h with Inactive | Active => 1 | _ => 0 end in
  count (is_read (h_name h)) evs <= k /\ (due e h -> count (is_read (h_name h)) evs = k).
Proof.
  intros T k. unfold read_ret in T.
  destruct (h_rated h && negb (e_due e (rm_trace r) (h_name h))) eqn:Es.
  - rewrite update_group_trace in T. change ([] ++ rm_trace r = evs ++ rm_trace r) in T. apply tail_eq in T. subst evs.
    split; [unfold count; simpl; lia|]. intros D. rewrite due_no_skip in Es by exact D. discriminate.
  - pose proof (hw_read_count e h (rm_trace r) evs) as K. destruct (hw_read e h (rm_trace r)) as [[h' t'] res]. cbn [fst snd] in K.
    assert (E : t' = evs ++ rm_trace r) by (destruct res; [rewrite update_group_trace in T|]; exact T).
    rewrite (K E). split; [apply le_n|reflexivity].
Qed.

Lemma write_ret_count e r h evs : rm_trace (fst (write_ret e r h)) = evs ++ rm_trace r ->
  let k := match h_kind h, h_lc h with Sensor, _ => 0 | _, Active => 1 | _, _ => 0 end in
  count (is_write (h_name h)) evs <= k /\ (due e h -> count (is_write (h_name h)) evs = k).
Proof.
  intros T k. unfold write_ret in T.
  destruct (h_rated h && negb (e_due e (rm_trace r) (h_name h))) eqn:Es.
  - rewrite update_group_trace in T. change ([] ++ rm_trace r = evs ++ rm_trace r) in T. apply tail_eq in T. subst evs.
    split; [unfold count; simpl; lia|]. intros D. rewrite due_no_skip in Es by exact D. discriminate.
  - pose proof (hw_write_count e h (rm_trace r) evs) as K. destruct (hw_write e h (rm_trace r)) as [[h' t'] res]. cbn [fst snd] in K.
    assert (E : t' = evs ++ rm_trace r) by (destruct res; [rewrite update_group_trace in T|]; exact T).
    rewrite (K E). split; [apply le_n|reflexivity].
Qed.

Lemma read_one_count e r st n h evs : names_ok r -> find_hw r n = Some h ->
  rm_trace (fst (read_one e (r, st) n)) = evs ++ rm_trace r ->
  let k := match h_lc h with Inactive | Active => 1 | _ => 0 end in
  count (is_read n) evs <= k /\
  ((forall t, e_locked e t n = false) -> due e h -> count (is_read n) evs = k).
Proof.
  intros Hn Hf T k. pose proof (find_hw_name _ _ _ Hf) as Hname. unfold read_one in T. rewrite Hf in T.
  destruct (e_locked e (rm_trace r) n) eqn:El.
  - change ([] ++ rm_trace r = evs ++ rm_trace r) in T. apply tail_eq in T. subst. split; [unfold count; simpl; lia|].
    intros C. rewrite C in El. discriminate.
  - destruct (on_trace _ _ _ (read_ret_only e r n h Hn Hf)) as (e1 & T1 & _).
    pose proof (read_ret_count e r h e1 T1) as K. rewrite Hname in K.
    destruct (read_ret e r h) as [r1 v]. cbn [fst snd] in *.
    assert (Done : rm_trace r1 = evs ++ rm_trace r -> count (is_read n) evs = count (is_read n) e1).
    { intros E. rewrite T1 in E. apply tail_eq in E. subst. reflexivity. }
    assert (More : forall h0, rm_trace (remove_hw_itfs (rm_error e r1 n) h0) = evs ++ rm_trace r -> count (is_read n) evs = count (is_read n) e1).
    { intros h0 E. change (rm_trace (rm_error e r1 n) = evs ++ rm_trace r) in E.
      destruct (noerr_ev e r1 n) as (e2 & T2 & _). pose proof (rm_error_count (is_read n) e r1 n e2 (fun _ _ => eq_refl) T2) as Z.
      rewrite T2, T1, app_assoc in E. apply tail_eq in E. subst. rewrite count_app, Z. reflexivity. }
    assert (Q : count (is_read n) evs = count (is_read n) e1) by (destruct v; eauto).
    rewrite Q. destruct K as [K1 K2]. split; [exact K1|]. intros _ D. apply K2. exact D.
Qed.

(** a request for INACTIVE runs no write *)
Lemma set_inactive_count p e r n evs : (forall m cb x, p (EvHwCb m cb x) = false) -> (forall m ok, p (EvHwErr m ok) = false) ->
  rm_trace (fst (set_component_state e r n Inactive)) = evs ++ rm_trace r -> count p evs = 0.
Proof.
  intros P1 P2. unfold set_component_state. destruct (find_hw r n) as [h|].
  2: { cbn [fst]. intros E. change ([] ++ rm_trace r = evs ++ rm_trace r) in E. apply tail_eq in E. subst. reflexivity. }
  assert (Z0 : rm_trace r = evs ++ rm_trace r -> count p evs = 0)
    by (intros E; change ([] ++ rm_trace r = evs ++ rm_trace r) in E; apply tail_eq in E; subst; reflexivity).
  assert (Z1 : forall a, p a = false -> a :: rm_trace r = evs ++ rm_trace r -> count p evs = 0)
    by (intros a Pa E; change ([a] ++ rm_trace r = evs ++ rm_trace r) in E; apply tail_eq in E; subst; unfold count; simpl; rewrite Pa; reflexivity).
  assert (Z2 : forall a b, p a = false -> p b = false -> a :: b :: rm_trace r = evs ++ rm_trace r -> count p evs = 0)
    by (intros a b Pa Pb E; change ([a; b] ++ rm_trace r = evs ++ rm_trace r) in E; apply tail_eq in E; subst; unfold count; simpl; rewrite Pa, Pb; reflexivity).
  unfold set_state_of. destruct (h_lc h) eqn:El; cbn [fst]; auto.
  - unfold configure_hardware, run_transition, hw_configure, call, then_error, hw_error. rewrite El.
    destruct (e_hw e (rm_trace r) (h_name h) HConfigure); simpl; rewrite ?El; simpl; rewrite set_group_trace; simpl; apply Z1, P1.
  - unfold deactivate_hardware, run_transition, hw_deactivate, call, then_error, hw_error. rewrite El.
    destruct (e_hw e (rm_trace r) (h_name h) HDeactivate); simpl; auto; [apply Z1, P1|apply Z1, P1|apply Z2; [apply P2|apply P1]|apply Z1, P1].
Qed.

Lemma write_one_count e r st n h evs : names_ok r -> find_hw r n = Some h ->
  rm_trace (fst (write_one e (r, st) n)) = evs ++ rm_trace r ->
  let k := match h_kind h, h_lc h with Sensor, _ => 0 | _, Active => 1 | _, _ => 0 end in
  count (is_write n) evs <= k /\
  ((forall t, e_locked e t n = false) -> due e h -> count (is_write n) evs = k).
Proof.
  intros Hn Hf T k. pose proof (find_hw_name _ _ _ Hf) as Hname. unfold write_one in T. rewrite Hf in T.
  destruct (e_locked e (rm_trace r) n) eqn:El.
  - change ([] ++ rm_trace r = evs ++ rm_trace r) in T. apply tail_eq in T. subst. split; [unfold count; simpl; lia|].
    intros C. rewrite C in El. discriminate.
  - pose proof (write_ret_only e r n h Hn Hf) as O. destruct (on_trace _ _ _ O) as (e1 & T1 & _).
    pose proof (write_ret_count e r h e1 T1) as K. rewrite Hname in K.
    destruct (write_ret e r h) as [r1 v]. cbn [fst snd] in *.
    assert (Done : rm_trace r1 = evs ++ rm_trace r -> count (is_write n) evs = count (is_write n) e1).
    { intros E. rewrite T1 in E. apply tail_eq in E. subst. reflexivity. }
    assert (More : forall h0, rm_trace (remove_hw_itfs (rm_error e r1 n) h0) = evs ++ rm_trace r -> count (is_write n) evs = count (is_write n) e1).
    { intros h0 E. change (rm_trace (rm_error e r1 n) = evs ++ rm_trace r) in E.
      destruct (noerr_ev e r1 n) as (e2 & T2 & _). pose proof (rm_error_count (is_write n) e r1 n e2 (fun _ _ => eq_refl) T2) as Z.
      rewrite T2, T1, app_assoc in E. apply tail_eq in E. subst. rewrite count_app, Z. reflexivity. }
    assert (Dea : rm_trace (fst (set_component_state e r1 n Inactive)) = evs ++ rm_trace r -> count (is_write n) evs = count (is_write n) e1).
    { intros E. assert (Hn1 : names_ok r1) by (eapply names_ok_evolve; [apply O|exact Hn]).
      destruct (set_component_state_ok e r1 n Inactive Hn1) as [[_ _ (e2 & T2 & _)] _].
      pose proof (set_inactive_count (is_write n) e r1 n e2 (fun _ _ _ => eq_refl) (fun _ _ => eq_refl) T2) as Z.
      rewrite T2, T1, app_assoc in E. apply tail_eq in E. subst. rewrite count_app, Z. reflexivity. }
    assert (Q : count (is_write n) evs = count (is_write n) e1) by (destruct v; eauto).
    rewrite Q. destruct K as [K1 K2]. split; [exact K1|]. intros _ D. apply K2. exact D.
Qed.

Lemma main_cycle_reads e allow hs ops n h evs : wf_hw hs ->
  let s := rrun e allow (sys_start hs) ops in
  let s' := fst (rstep e allow s ORead) in
  find_hw (sy_rm s) n = Some h ->
  rm_trace (sy_rm s') = evs ++ EvOp :: rm_trace (sy_rm s) ->
  (configured (h_lc h) -> (forall t, e_locked e t n = false) -> h_rated h = false \/ (forall t, e_due e t n = true) ->
     count (is_read n) evs = 1) /\
  count (is_read n) evs <= 1 /\ (~ configured (h_lc h) -> count (is_read n) evs = 0) /\ count (is_write n) evs = 0.
Proof.
  intros W s s' Hf T. pose proof (reach_names e allow hs ops W) as Hn. fold s in Hn.
  assert (Hn' : names_ok (op_trace s)) by exact Hn.
  destruct (cycle_count (read_one e) is_read (map h_name (rm_hw (sy_rm s))) n (op_trace s) rw_ok (read_one_Hf e) is_read_about Hn' Hn (find_In_names _ _ _ Hf))
    as (evs' & r1 & st1 & e2 & T' & N1 & F1 & T2 & C).
  destruct (fold_read_ev e (map h_name (rm_hw (sy_rm s))) (op_trace s) rw_ok) as (evs2 & T2' & R).
  assert (Es : rm_trace (sy_rm s') = rm_trace (fst (fold_left (read_one e) (map h_name (rm_hw (sy_rm s))) (op_trace s, rw_ok)))).
  { unfold s'. cbn [rstep]. fold (op_trace s). unfold rm_read. change (rm_hw (op_trace s)) with (rm_hw (sy_rm s)).
    destruct (fold_left (read_one e) _ _). reflexivity. }
  assert (evs' = evs) by (rewrite <- Es, T in T'; apply tail_eq in T'; congruence). subst evs'.
  assert (evs2 = evs) by (rewrite <- Es, T in T2'; apply tail_eq in T2'; congruence). subst evs2.
  rewrite C. change (find_hw (op_trace s) n) with (find_hw (sy_rm s) n) in F1. rewrite Hf in F1.
  destruct (read_one_count e r1 st1 n h e2 N1 F1 T2) as [K1 K2]. pose proof (find_hw_name _ _ _ Hf) as Hname.
  split; [|split; [|split]].
  - intros Cf L D. rewrite K2; [destruct Cf as [-> | ->]; reflexivity|exact L|]. unfold due. rewrite Hname. exact D.
  - destruct (h_lc h); lia.
  - intros Nc. destruct (h_lc h) eqn:El; try lia; exfalso; apply Nc; unfold configured; auto.
  - apply count_zero. eapply Forall_impl; [|exact R]. intros ev [(m & x & ->)|(m & x & ->)]; reflexivity.
Qed.

Lemma main_cycle_writes e allow hs ops n h evs : wf_hw hs ->
  let s := rrun e allow (sys_start hs) ops in
  let s' := fst (rstep e allow s OWrite) in
  find_hw (sy_rm s) n = Some h ->
  rm_trace (sy_rm s') = evs ++ EvOp :: rm_trace (sy_rm s) ->
  (h_lc h = Active -> h_kind h <> Sensor -> (forall t, e_locked e t n = false) ->
   h_rated h = false \/ (forall t, e_due e t n = true) -> count (is_write n) evs = 1) /\
  count (is_write n) evs <= 1 /\ (h_lc h <> Active \/ h_kind h = Sensor -> count (is_write n) evs = 0).
Proof.
  intros W s s' Hf T. pose proof (reach_names e allow hs ops W) as Hn. fold s in Hn.
  assert (Hn' : names_ok (op_trace s)) by exact Hn.
  assert (Nd : NoDup (writables (rm_hw (sy_rm s)))) by (apply names_filter; exact Hn).
  assert (Es : rm_trace (sy_rm s') = rm_trace (fst (fold_left (write_one e) (writables (rm_hw (sy_rm s))) (op_trace s, rw_ok)))).
  { unfold s'. cbn [rstep]. fold (op_trace s). unfold rm_write. change (rm_hw (op_trace s)) with (rm_hw (sy_rm s)).
    fold (writables (rm_hw (sy_rm s))). destruct (fold_left (write_one e) _ _). reflexivity. }
  destruct (writable_dec s n) as [Hi|Hi].
  - destruct (cycle_count (write_one e) is_write (writables (rm_hw (sy_rm s))) n (op_trace s) rw_ok (write_one_Hf e) is_write_about Hn' Nd Hi)
      as (evs' & r1 & st1 & e2 & T' & N1 & F1 & T2 & C).
    assert (evs' = evs) by (rewrite <- Es, T in T'; apply tail_eq in T'; congruence). subst evs'.
    rewrite C. change (find_hw (op_trace s) n) with (find_hw (sy_rm s) n) in F1. rewrite Hf in F1.
    destruct (write_one_count e r1 st1 n h e2 N1 F1 T2) as [K1 K2]. pose proof (find_hw_name _ _ _ Hf) as Hname.
    split; [|split].
    + intros Ac Sn L D. rewrite K2; [rewrite Ac; destruct (h_kind h); congruence|exact L|]. unfold due. rewrite Hname. exact D.
    + destruct (h_kind h), (h_lc h); lia.
    + intros [Nc|Nc]; destruct (h_kind h), (h_lc h); try lia; congruence.
  - pose proof (In_writables s n h Hf) as K.
    destruct (cfold (write_one e) (write_one_Hf e) (writables (rm_hw (sy_rm s))) (op_trace s) rw_ok Hn') as [_ _ (evs' & T' & F) _].
    assert (evs' = evs) by (rewrite <- Es, T in T'; apply tail_eq in T'; congruence). subst evs'.
    rewrite (count_others is_write (writables (rm_hw (sy_rm s))) n evs is_write_about Hi F).
    split; [|split; auto]. intros _ S. elim Hi. apply K. exact S.
Qed.

(** ------------------------------------------------------------------ state requests (C04) *)
Definition step_spec (e : env) (r : rm) (n : name) (cb : hcb) (target : lc) (x : rm * bool) : Prop :=
  exists evs, rm_trace (fst x) = evs ++ rm_trace r /\
    callbacks n evs = [(cb, e_hw e (rm_trace r) n cb)] /\
    (e_hw e (rm_trace r) n cb = CbSuccess -> snd x = true /\ evs = [EvHwCb n cb CbSuccess]).

Ltac step_tac e r h cb El :=
  unfold run_transition, hw_configure, hw_cleanup, hw_shutdown, hw_activate, hw_deactivate, call, then_error, hw_error;
  rewrite El; destruct (e_hw e (rm_trace r) (h_name h) cb) eqn:Ec; simpl; rewrite ?El; simpl; rewrite ?set_group_trace; simpl;
  (first [ eexists [_]; split; [reflexivity|]; split; [simpl; rewrite String.eqb_refl; reflexivity|]
         | eexists [_; _]; split; [reflexivity|]; split; [simpl; rewrite String.eqb_refl; reflexivity|] ]);
  (discriminate || (intros _; split; reflexivity)).

Lemma configure_step e r h n : find_hw r n = Some h -> h_lc h = Unconfigured ->
  step_spec e r n HConfigure Inactive (configure_hardware e r h).
Proof. intros Hf El. rewrite <- (find_hw_name _ _ _ Hf). unfold step_spec, configure_hardware. step_tac e r h HConfigure El. Qed.
Lemma cleanup_step e r h n : find_hw r n = Some h -> h_lc h = Inactive ->
  step_spec e r n HCleanup Unconfigured (cleanup_hardware e r h).
Proof.
  intros Hf El. rewrite <- (find_hw_name _ _ _ Hf). unfold step_spec, cleanup_hardware.
  unfold run_transition, hw_cleanup, call, then_error, hw_error. rewrite El.
  destruct (e_hw e (rm_trace r) (h_name h) HCleanup) eqn:Ec; simpl; rewrite ?El; simpl;
    try (destruct (e_hw_error e _ (h_name h)); simpl); rewrite ?set_group_trace; simpl;
  (first [ eexists [_]; split; [reflexivity|]; split; [simpl; rewrite String.eqb_refl; reflexivity|]
         | eexists [_; _]; split; [reflexivity|]; split; [simpl; rewrite String.eqb_refl; reflexivity|] ]);
  (discriminate || (intros _; split; reflexivity)).
Qed.
Lemma shutdown_step e r h n : find_hw r n = Some h -> h_lc h <> Unknown -> h_lc h <> Finalized ->
  step_spec e r n HShutdown Finalized (shutdown_hardware e r h).
Proof.
  intros Hf E1 E2. rewrite <- (find_hw_name _ _ _ Hf). unfold step_spec, shutdown_hardware.
  unfold run_transition, hw_shutdown, call, then_error, hw_error.
  destruct (h_lc h) eqn:El; try congruence;
  destruct (e_hw e (rm_trace r) (h_name h) HShutdown) eqn:Ec; simpl; rewrite ?El; simpl;
    try (destruct (e_hw_error e _ (h_name h)); simpl); rewrite ?set_group_trace; simpl;
  (first [ eexists [_]; split; [reflexivity|]; split; [simpl; rewrite String.eqb_refl; reflexivity|]
         | eexists [_; _]; split; [reflexivity|]; split; [simpl; rewrite String.eqb_refl; reflexivity|] ]);
  (discriminate || (intros _; split; reflexivity)).
Qed.
Lemma activate_step e r h n : find_hw r n = Some h -> h_lc h = Inactive ->
  step_spec e r n HActivate Active (activate_hardware e r h).
Proof. intros Hf El. rewrite <- (find_hw_name _ _ _ Hf). unfold step_spec, activate_hardware. step_tac e r h HActivate El. Qed.
Lemma deactivate_step e r h n : find_hw r n = Some h -> h_lc h = Active ->
  step_spec e r n HDeactivate Inactive (deactivate_hardware e r h).
Proof. intros Hf El. rewrite <- (find_hw_name _ _ _ Hf). unfold step_spec, deactivate_hardware. step_tac e r h HDeactivate El. Qed.

(** what a request does, given the path *)
Definition req_spec (e : env) (r : rm) (n : name) (cs : list hcb) (x : rm * bool) : Prop :=
  exists evs, rm_trace (fst x) = evs ++ rm_trace r /\ follows cs (callbacks n evs) /\
    (succeeds e n -> snd x = true /\ evs = rev (map (fun cb => EvHwCb n cb CbSuccess) cs)).

Lemma req_one e r n cb target x : step_spec e r n cb target x -> req_spec e r n [cb] x.
Proof.
  intros (evs & T & C & S). exists evs. split; [exact T|]. split.
  - rewrite C. simpl. split; [reflexivity|]. destruct (e_hw e (rm_trace r) n cb); auto.
  - intros H. apply S. apply H.
Qed.

Lemma callbacks_app n a b : callbacks n (a ++ b) = callbacks n b ++ callbacks n a.
Proof. induction a as [|ev a IH]; simpl; [rewrite app_nil_r; reflexivity|]. rewrite IH, app_assoc. reflexivity. Qed.

Lemma req_two e r n cb1 mid cb2 target x f :
  step_spec e r n cb1 mid x ->
  (snd x = true -> e_hw e (rm_trace r) n cb1 = CbSuccess) ->
  (snd x = true -> exists h, find_hw (fst x) n = Some h /\ step_spec e (fst x) n cb2 target (f (fst x) h)) ->
  req_spec e r n [cb1; cb2] (then_hw x n f).
Proof.
  intros (evs & T & C & S) Ok Sec. unfold then_hw. destruct x as [r1 ok]. cbn [fst snd] in *.
  destruct ok.
  - destruct (Sec eq_refl) as (h & Hf & (evs2 & T2 & C2 & S2)). rewrite Hf. pose proof (Ok eq_refl) as Ok1.
    exists (evs2 ++ evs). split; [rewrite T2, T; apply app_assoc|]. split.
    + rewrite callbacks_app, C, C2, Ok1. simpl. split; [reflexivity|]. split; [reflexivity|]. destruct (e_hw e (rm_trace r1) n cb2); auto.
    + intros H. destruct (S2 (H _ _)) as [-> ->]. destruct (S (H _ _)) as [_ ->]. split; reflexivity.
  - exists evs. split; [exact T|]. split.
    + rewrite C. simpl. split; [reflexivity|]. destruct (e_hw e (rm_trace r) n cb1) eqn:E; auto.
      destruct (S eq_refl) as [X _]. discriminate.
    + intros H. destruct (S (H _ _)) as [X _]. discriminate.
Qed.

Lemma configure_ok_iff e r h n : find_hw r n = Some h -> h_lc h = Unconfigured ->
  snd (configure_hardware e r h) = true ->
  e_hw e (rm_trace r) n HConfigure = CbSuccess /\ exists h', find_hw (fst (configure_hardware e r h)) n = Some h' /\ h_lc h' = Inactive.
Proof.
  intros Hf El. pose proof (find_hw_name _ _ _ Hf) as Hname. unfold configure_hardware, run_transition, hw_configure, call, then_error, hw_error.
  rewrite El, Hname. destruct (e_hw e (rm_trace r) n HConfigure) eqn:Ec; simpl; rewrite ?El; simpl; try discriminate.
  intros _. split; [reflexivity|]. eexists. split; [rewrite find_set_group; exact (find_put_same r (set_lc h Inactive) h n Hf Hname)|reflexivity].
Qed.
Lemma deactivate_ok_iff e r h n : find_hw r n = Some h -> h_lc h = Active ->
  snd (deactivate_hardware e r h) = true ->
  e_hw e (rm_trace r) n HDeactivate = CbSuccess /\ exists h', find_hw (fst (deactivate_hardware e r h)) n = Some h' /\ h_lc h' = Inactive.
Proof.
  intros Hf El. pose proof (find_hw_name _ _ _ Hf) as Hname. unfold deactivate_hardware, run_transition, hw_deactivate, call, then_error, hw_error.
  rewrite El, Hname. destruct (e_hw e (rm_trace r) n HDeactivate) eqn:Ec; simpl; rewrite ?El; simpl; try discriminate.
  - intros _. split; [reflexivity|]. eexists. split; [exact (find_put_same r (set_lc h Inactive) h n Hf Hname)|reflexivity].
  - destruct (e_hw_error e _ n); discriminate.
Qed.

Lemma set_state_path e r n h target : find_hw r n = Some h ->
  match path (h_lc h) target with
  | None => set_component_state e r n target = (r, false)
  | Some cs => req_spec e r n cs (set_component_state e r n target)
  end.
Proof.
  intros Hf. pose proof (find_hw_name _ _ _ Hf) as Hname. unfold set_component_state. rewrite Hf. unfold set_state_of.
  assert (Z : req_spec e r n [] (r, true)) by (exists []; repeat split; auto).
  destruct target, (h_lc h) eqn:El; cbv beta iota delta [path]; try reflexivity; auto.
  - eapply req_one. apply cleanup_step; auto.
  - rewrite Hname. eapply req_two.
    + apply deactivate_step; auto.
    + intros X. apply (deactivate_ok_iff e r h n Hf El X).
    + intros X. destruct (deactivate_ok_iff e r h n Hf El X) as (_ & h' & F & L). exists h'. split; [exact F|]. apply cleanup_step; auto.
  - eapply req_one. apply configure_step; auto.
  - eapply req_one. apply deactivate_step; auto.
  - rewrite Hname. eapply req_two.
    + apply configure_step; auto.
    + intros X. apply (configure_ok_iff e r h n Hf El X).
    + intros X. destruct (configure_ok_iff e r h n Hf El X) as (_ & h' & F & L). exists h'. split; [exact F|]. apply activate_step; auto.
  - eapply req_one. apply activate_step; auto.
  - eapply req_one. apply shutdown_step; auto; congruence.
  - eapply req_one. apply shutdown_step; auto; congruence.
  - rewrite Hname. eapply req_two.
    + apply deactivate_step; auto.
    + intros X. apply (deactivate_ok_iff e r h n Hf El X).
    + intros X. destruct (deactivate_ok_iff e r h n Hf El X) as (_ & h' & F & L). exists h'. split; [exact F|]. apply shutdown_step; auto; congruence.
Qed.

Lemma main_progress e allow hs ops n h target : wf_hw hs ->
  let s := rrun e allow (sys_start hs) ops in
  let s' := fst (rstep e allow s (OSet n target)) in
  let out := snd (rstep e allow s (OSet n target)) in
  find_hw (sy_rm s) n = Some h ->
  match path (h_lc h) target with
  | None => out = OutBool false /\ rm_trace (sy_rm s') = EvOp :: rm_trace (sy_rm s) /\ rm_hw (sy_rm s') = rm_hw (sy_rm s)
  | Some cs => exists evs, rm_trace (sy_rm s') = evs ++ EvOp :: rm_trace (sy_rm s) /\
      follows cs (callbacks n evs) /\
      (succeeds e n -> out = OutBool true /\ evs = rev (map (fun cb => EvHwCb n cb CbSuccess) cs))
  end.
Proof.
  intros W s s' out Hf. pose proof (set_state_path e (op_trace s) n h target Hf) as K.
  unfold s', out. cbn [rstep]. fold (op_trace s). destruct (path (h_lc h) target) as [cs|].
  - destruct K as (evs & A & B & C). destruct (set_component_state e (op_trace s) n target) as [r' b]. cbn [fst snd] in *.
    exists evs. split; [exact A|]. split; [exact B|]. intros H. destruct (C H) as [-> ->]. split; reflexivity.
  - rewrite K. repeat split.
Qed.

(** --- shutdown_components *)
Lemma shutdown_fold e l : forall r b, names_ok r ->
  let x := fold_left (fun '(r, ok) n => let '(r', b) := set_component_state e r n Finalized in (r', ok && b)) l (r, b) in
  names_ok (fst x) /\
  (forall m, ~ In m l -> find_hw (fst x) m = find_hw r m) /\
  (NoDup l -> snd x = true -> b = true /\ forall n, In n l -> lc_of (fst x) n = Some Finalized) /\
  (NoDup l -> (forall n, In n l -> succeeds e n /\ exists h, find_hw r n = Some h /\ h_lc h <> Unknown) -> snd x = b).
Proof.
  induction l as [|n l IH]; intros r b Hn x.
  - unfold x. simpl. split; [exact Hn|]. split; [reflexivity|]. split; [intros _ H; split; [exact H|intros n []]|reflexivity].
  - unfold x. cbn [fold_left]. destruct (set_component_state_ok e r n Finalized Hn) as [O S].
    pose proof (fun h F => set_state_path e r n h Finalized F) as P.
    destruct (set_component_state e r n Finalized) as [r1 b1]. cbn [fst snd] in *.
    assert (Hn1 : names_ok r1) by (eapply names_ok_evolve; [apply O|exact Hn]).
    destruct (IH r1 (b && b1) Hn1) as (A & B & C & D). set (y := fold_left _ l (r1, b && b1)) in *.
    split; [exact A|]. split; [|split].
    + intros m Hm. rewrite B by (intro X; apply Hm; right; exact X). apply (on_other _ _ _ O). intros ->. apply Hm. left. reflexivity.
    + intros Nd H. inversion Nd as [|? ? N1 N2]; subst. destruct (C N2 H) as [Hb HF]. apply andb_prop in Hb. destruct Hb as [Hb Hb1].
      split; [exact Hb|]. intros m [<-|Hm]; [|auto]. unfold lc_of. rewrite B by exact N1. apply S. exact Hb1.
    + intros Nd H. inversion Nd as [|? ? N1 N2]; subst.
      assert (b1 = true).
      { destruct (H n (or_introl eq_refl)) as (Su & h & F & L). specialize (P h F).
        destruct (h_lc h); try congruence; simpl in P; destruct P as (evs & _ & _ & P); apply P; exact Su. }
      subst b1. rewrite andb_true_r in *. apply D; [exact N2|]. intros m Hm. destruct (H m (or_intror Hm)) as (Su & h & F & L).
      split; [exact Su|]. exists h. split; [|exact L]. rewrite (on_other _ _ _ O); [exact F|]. intros ->. contradiction.
Qed.

Lemma lives_known n k t a : lives n k Unconfigured t = Some a -> a <> AIn Unknown.
Proof.
  revert a. induction t as [|ev t IH]; intros a; simpl; [intros E; inversion E; discriminate|].
  destruct (lives n k Unconfigured t) as [b|]; [|discriminate]. specialize (IH b eq_refl).
  intros E C. subst a. unfold life in E.
  destruct ev; try (inversion E; congruence);
    (destruct (negb (String.eqb h n)); [congruence|]).
  - destruct cb, b as [[]|], r; try congruence; inversion E.
  - destruct b as [[]|]; try congruence; unfold in_error in E; destruct ok; inversion E.
  - destruct b as [[]|]; try congruence; destruct r as [[]|]; inversion E.
  - destruct k, b as [[]|]; try congruence; destruct r as [[]|]; inversion E.
  - destruct k, b as [[]|]; try congruence; inversion E.
  - destruct k, b as [[]|]; try congruence; inversion E.
Qed.

Lemma main_shutdown_all e allow hs ops : wf_hw hs ->
  let s := rrun e allow (sys_start hs) ops in
  let s' := fst (rstep e allow s OShutdown) in
  (snd (rstep e allow s OShutdown) = OutBool true -> forall n, In n (map h_name hs) -> lc_of (sy_rm s') n = Some Finalized) /\
  ((forall n, succeeds e n) -> snd (rstep e allow s OShutdown) = OutBool true).
Proof.
  intros W s s'. pose proof (reach_names e allow hs ops W) as Hn. fold s in Hn.
  assert (Hn' : names_ok (op_trace s)) by exact Hn.
  pose proof (shutdown_fold e (map h_name (rm_hw (op_trace s))) (op_trace s) true Hn') as (A & B & C & D).
  unfold s'. cbn [rstep]. fold (op_trace s). fold (shutdown_components e (op_trace s)) in A, B, C, D.
  destruct (shutdown_components e (op_trace s)) as [r' b]. cbn [fst snd] in *. split.
  - intros E n Hi. inversion E; subst b. cbn [sy_rm mk]. apply (C Hn' eq_refl).
    change (rm_hw (op_trace s)) with (rm_hw (sy_rm s)). unfold s. rewrite reach_name_list by exact W. exact Hi.
  - intros Su. f_equal. apply D; [exact Hn'|]. intros n Hi. split; [apply Su|].
    apply in_map_iff in Hi. destruct Hi as (h & <- & Hh). exists h.
    assert (F : find_hw (sy_rm s) (h_name h) = Some h) by (apply In_find; [exact Hn|exact Hh]).
    split; [exact F|]. intros El. pose proof (main_manager_life e allow hs ops (h_name h) h W F) as L.
    rewrite El in L. apply lives_known in L. congruence.
Qed.

(** ------------------------------------------------------------------ claims (C06) *)
Definition tracked (k : name) (s : sys) : Prop :=
  In k (rm_ckeys (sy_rm s)) /\ exists b, aget (rm_claimed (sy_rm s)) k = Some b /\ (b = true -> In k (sy_loans s)).

Lemma rstep_tracked e allow s o k : names_ok (sy_rm s) -> excl k s -> tracked k s ->
  (In k (rm_ckeys (sy_rm (fst (rstep e allow s o))))) -> ~ In k (removed_by s o) ->
  tracked k (fst (rstep e allow s o)).
Proof.
  intros Hn [Ex1 Ex2] (HK & b & H1 & H2) Hck Hrm. split; [exact Hck|]. clear Hck.
  assert (Hn' : names_ok (op_trace s)) by exact Hn.
  assert (Hk : forall r', claimed_same (op_trace s) r' ->
     exists b0, aget (rm_claimed (sy_rm (mk r' (sy_loans s)))) k = Some b0 /\ (b0 = true -> In k (sy_loans (mk r' (sy_loans s))))).
  { intros r' Hc. exists b. simpl. rewrite Hc. split; [exact H1|exact H2]. }
  assert (Hev : forall r', evolve (op_trace s) r' ->
     exists b0, aget (rm_claimed (sy_rm (mk r' (sy_loans s)))) k = Some b0 /\ (b0 = true -> In k (sy_loans (mk r' (sy_loans s))))).
  { intros r' Hx. apply Hk. apply (ev_claimed _ _ Hx). }
  unfold rstep. fold (op_trace s). destruct o.
  - destruct (set_component_state_ok e (op_trace s) h target Hn') as [[H _ _] _].
    destruct (set_component_state _ _ _ _). apply Hev. exact H.
  - pose proof (shutdown_components_evolve e _ Hn') as H.
    destruct (shutdown_components _ _). apply Hev. exact H.
  - pose proof (rm_read_evolve e _ Hn') as H. destruct (rm_read _ _). apply Hev. exact H.
  - pose proof (rm_write_evolve e _ Hn') as H. destruct (rm_write _ _). apply Hev. exact H.
  - unfold claim_cmd. destruct (cmd_available (op_trace s) k0); [|apply Hk; reflexivity].
    destruct (aget (rm_claimed (op_trace s)) k0) as [[]|] eqn:E; try (apply Hk; reflexivity).
    simpl. destruct (String.eqb_spec k k0) as [->|Hne].
    + exists true. split; [apply aget_aset_same|]. intros _.
      assert (M : mem k0 (rm_ckeys (sy_rm s)) = true) by (apply mem_In; exact HK). rewrite M. left. reflexivity.
    + exists b. rewrite aget_aset_other by congruence. split; [exact H1|]. intros Hb. destruct (mem k0 _); [right|]; auto.
  - destruct (mem k0 (sy_loans s)) eqn:E; [|apply Hk; reflexivity]. simpl.
    destruct (String.eqb_spec k k0) as [->|Hne].
    + exists false. split; [apply aget_aset_same|discriminate].
    + exists b. rewrite aget_aset_other by congruence. split; [exact H1|]. intros Hb. apply In_remove1_neq; auto.
  - pose proof (import_refs_claimed (op_trace s) c ks k b H1) as H.
    destruct (import_refs (op_trace s) c ks) as [r' b']. simpl in *. exists b. auto.
  - simpl in Hrm. unfold remove_refs. change (rm_refs (op_trace s)) with (rm_refs (sy_rm s)).
    destruct (aget (rm_refs (sy_rm s)) c) as [ks|]; [|apply Hk; reflexivity]. simpl.
    exists b. rewrite fold_adel_other by exact Hrm. auto.
  - unfold make_refs_available. destruct (aget (rm_refs _) _); apply Hk; reflexivity.
  - unfold make_refs_unavailable. destruct (aget (rm_refs _) _); apply Hk; reflexivity.
  - apply Hk. apply claimed_same_import_exps.
  - apply Hk. unfold claimed_same, remove_exps. destruct (aget (rm_exps _) _); reflexivity.
  - unfold make_exps_available. destruct (aget (rm_exps _) _); apply Hk; reflexivity.
  - unfold make_exps_unavailable. destruct (aget (rm_exps _) _); apply Hk; reflexivity.
  - apply Hk. apply claimed_same_cache.
  - destruct (rm_prepare_evolve e allow (op_trace s) start stop Hn') as [H _].
    destruct (rm_prepare _ _ _ _ _). apply Hev. exact H.
  - destruct (rm_perform_evolve e allow (op_trace s) start stop Hn') as [H _].
    destruct (rm_perform _ _ _ _ _). apply Hev. exact H.
Qed.

Lemma aget_false ks k : In k ks -> aget (map (fun k => (k, false)) ks) k = Some false.
Proof.
  induction ks as [|x ks IH]; [intros []|]. simpl. destruct (String.eqb_spec k x) as [->|N]; [reflexivity|].
  intros [C|H]; [congruence|auto].
Qed.

Lemma hw_tracked e allow hs ops k : wf_hw hs -> In k (flat_map h_cmd hs) ->
  excl k (rrun e allow (sys_start hs) ops) /\ tracked k (rrun e allow (sys_start hs) ops).
Proof.
  intros Hwf Hk.
  assert (G : forall s, AInv s -> excl k s -> tracked k s -> In k (hw_cmds (sy_rm s)) ->
             excl k (rrun e allow s ops) /\ tracked k (rrun e allow s ops)).
  { induction ops as [|o ops IH]; intros s HA HE HT HK; simpl; [auto|].
    assert (Nr : ~ In k (removed_by s o)).
    { intros Hr. unfold removed_by in Hr. destruct o; try destruct Hr.
      destruct (aget (rm_refs (sy_rm s)) c) as [ks|] eqn:E; [|destruct Hr].
      exact (ki_refs _ (ai_k _ HA) c ks k E Hr HK). }
    assert (HK' : In k (hw_cmds (sy_rm (fst (rstep e allow s o))))).
    { rewrite hw_cmds_statics, rstep_statics by apply HA. rewrite <- hw_cmds_statics. exact HK. }
    assert (HA' : AInv (fst (rstep e allow s o))) by (apply rstep_AInv; exact HA).
    apply IH; auto.
    - apply rstep_excl; [apply HA|exact HE|]. intros C. contradiction.
    - apply rstep_tracked; [apply HA|exact HE|exact HT| |exact Nr]. apply (ki_c _ (ai_k _ HA')). exact HK'. }
  apply G.
  - constructor; [apply start_RInv; exact Hwf | apply start_KInv; exact Hwf].
  - apply start_excl.
  - split; [exact Hk|]. exists false. split; [|discriminate]. simpl. apply aget_false. exact Hk.
  - unfold hw_cmds. simpl. rewrite flat_map_set by reflexivity. exact Hk.
Qed.

Lemma main_claim_iff e allow hs ops k : wf_hw hs -> In k (flat_map h_cmd hs) ->
  let s := rrun e allow (sys_start hs) ops in
  let s' := fst (rstep e allow s (OClaim k)) in
  (In k (rm_avc (sy_rm s)) /\ ~ In k (sy_loans s) ->
     snd (rstep e allow s (OClaim k)) = OutBool true /\ sy_loans s' = k :: sy_loans s) /\
  (~ (In k (rm_avc (sy_rm s)) /\ ~ In k (sy_loans s)) ->
     snd (rstep e allow s (OClaim k)) = OutBool false /\ sy_loans s' = sy_loans s).
Proof.
  intros W Hk s s'. destruct (hw_tracked e allow hs ops k W Hk) as [Ex (HK & b & H1 & H2)]. fold s in Ex, HK, H1, H2.
  unfold s'. cbn [rstep]. fold (op_trace s). unfold claim_cmd, cmd_available.
  change (rm_avc (op_trace s)) with (rm_avc (sy_rm s)). change (rm_claimed (op_trace s)) with (rm_claimed (sy_rm s)).
  change (rm_ckeys (op_trace s)) with (rm_ckeys (sy_rm s)). rewrite H1.
  assert (M : mem k (rm_ckeys (sy_rm s)) = true) by (apply mem_In; exact HK).
  destruct (mem k (rm_avc (sy_rm s))) eqn:Ea; [apply mem_In in Ea|apply mem_false in Ea].
  - destruct b; cbn [fst snd]; rewrite ?M; cbn [sy_loans mk].
    + split; [intros [_ C]; elim C; auto|auto].
    + split; [auto|]. intros C. exfalso. apply C. split; [exact Ea|]. intros Hi.
      rewrite (on_loan_one k s Ex Hi) in H1. discriminate.
  - cbn [fst snd]. split; [intros [C _]; contradiction|auto].
Qed.

(** ------------------------------------------------------------------ groups (C08) *)
Lemma main_failures_in_group_exact e allow hs ops n h st : wf_hw hs ->
  let s := rrun e allow (sys_start hs) ops in
  let s' := fst (rstep e allow s ORead) in
  find_hw (sy_rm s) n = Some h -> snd (rstep e allow s ORead) = OutStatus st -> In n (rw_failed st) ->
  exists evs, rm_trace (sy_rm s') = evs ++ EvOp :: rm_trace (sy_rm s) /\
  (Exists (read_failed n) evs \/
  (h_group h <> ""%string /\ exists e1 e2, evs = e2 ++ e1 /\ group_state (members hs (h_group h)) (e1 ++ EvOp :: rm_trace (sy_rm s)) <> ROk)).
Proof.
  intros W s s' F O' Hi. destruct (read_facts e allow s (reach_names _ _ _ _ W) (reach_GInv _ _ _ _ W)) as (st' & evs & O & C & R & _).
  assert (st' = st) by congruence. subst st'. exists evs. split; [exact (cy_trace _ _ _ _ _ _ _ C)|].
  destruct (cy_why _ _ _ _ _ _ _ C n h F (find_In_names _ _ _ F) Hi) as [X|(G & e1 & e2 & E & B)].
  - left. exact X.
  - right. split; [exact G|]. exists e1, e2. split; [exact E|]. unfold s in B. rewrite reach_members in B by exact W. exact B.
Qed.

(** ------------------------------------------------------------------ mode switches (C11) *)
Lemma is_call_event op n m s p x : is_call op n (mode_event op m s p x) = String.eqb m n.
Proof. destruct op; reflexivity. Qed.

Lemma mode_loop_cons e op allow start stop h hs r ret : 
  ~ (common_itfs (h_cmd h) start = [] /\ common_itfs (h_cmd h) stop = []) ->
  mode_loop e op allow start stop (h :: hs) r ret =
  (if negb (match common_itfs (h_cmd h) start with [] => true | _ => false end) && lc_eqb (h_lc h) Inactive && negb allow
   then (r, false)
   else match h_lc h with
        | Inactive | Active =>
            let '(res, t') := mode_call e op (rm_trace r) (h_name h) (common_itfs (h_cmd h) start) (common_itfs (h_cmd h) stop) in
            mode_loop e op allow start stop hs (with_trace r t') (match res with Ret ROk => ret | _ => false end)
        | _ => mode_loop e op allow start stop hs r false
        end).
Proof.
  intros Ne. cbn [mode_loop]. destruct (common_itfs (h_cmd h) start); [|reflexivity].
  destruct (common_itfs (h_cmd h) stop); [elim Ne; split; reflexivity|reflexivity].
Qed.

Lemma mode_loop_exact e op allow start stop hs : NoDup (map h_name hs) ->
  forall r ret, exists evs,
    rm_trace (fst (mode_loop e op allow start stop hs r ret)) = evs ++ rm_trace r /\
    (forall n, count (is_call op n) evs <= 1) /\
    (forall n, ~ In n (map h_name hs) -> count (is_call op n) evs = 0) /\
    (snd (mode_loop e op allow start stop hs r ret) = true ->
       forall h, In h hs -> concerned h start stop -> count (is_call op (h_name h)) evs = 1) /\
    ((forall h, In h hs -> concerned h start stop ->
        configured (h_lc h) /\ (allow = true \/ h_lc h = Active \/ forall k, In k start -> ~ In k (h_cmd h)) /\ answers_ok e op (h_name h)) ->
     snd (mode_loop e op allow start stop hs r ret) = ret).
Proof.
  induction hs as [|h hs IH]; intros Nd r ret.
  - exists []. cbn [mode_loop fst snd]. split; [reflexivity|]. split; [intros; unfold count; simpl; lia|]. split; [reflexivity|]. split; [intros _ h []|reflexivity].
  - inversion Nd as [|? ? N1 N2]; subst. specialize (IH N2).
    destruct (concerned_dec h start stop) as [(E1 & E2 & Nc)|(Ne & Co)].
    + cbn [mode_loop]. rewrite E1, E2. destruct (IH r ret) as (evs & A & B & C & D & F). exists evs. split; [exact A|]. split; [exact B|].
      split; [intros n Hn; apply C; intro X; apply Hn; right; exact X|]. split.
      * intros X h' [<-|Hi] Hc; [contradiction|]. auto.
      * intros X. apply F. intros h' Hi Hc. apply X; [right; exact Hi|exact Hc].
    + rewrite mode_loop_cons by exact Ne. set (s := common_itfs (h_cmd h) start) in *. set (p := common_itfs (h_cmd h) stop) in *.
      match goal with |- context [if ?c then (r, false) else _] => destruct c eqn:Eg end.
      * exists []. cbn [fst snd]. split; [reflexivity|]. split; [intros; unfold count; simpl; lia|]. split; [reflexivity|]. split; [discriminate|].
        intros X. exfalso. destruct (X h (or_introl eq_refl) Co) as (_ & [->|[L|L]] & _).
        -- rewrite andb_false_r in Eg. discriminate.
        -- rewrite L in Eg. simpl in Eg. rewrite andb_false_r in Eg. discriminate.
        -- assert (Es : s = []).
           { destruct s as [|k s'] eqn:Es; [reflexivity|]. exfalso.
             assert (Hk : In k (common_itfs (h_cmd h) start)) by (fold s; rewrite Es; left; reflexivity).
             apply In_common in Hk. destruct Hk. apply (L k); auto. }
           rewrite Es in Eg. discriminate.
      * assert (Un : ~ configured (h_lc h) -> forall evs r' b, 
            (exists evs, rm_trace r' = evs ++ rm_trace r /\
               (forall n, count (is_call op n) evs <= 1) /\
               (forall n, ~ In n (map h_name hs) -> count (is_call op n) evs = 0)) -> b = false -> evs = rm_trace r' ->
            exists evs, rm_trace r' = evs ++ rm_trace r /\
              (forall n, count (is_call op n) evs <= 1) /\
              (forall n, ~ In n (map h_name (h :: hs)) -> count (is_call op n) evs = 0) /\
              (b = true -> forall h0, In h0 (h :: hs) -> concerned h0 start stop -> count (is_call op (h_name h0)) evs = 1) /\
              ((forall h0, In h0 (h :: hs) -> concerned h0 start stop ->
                  configured (h_lc h0) /\ (allow = true \/ h_lc h0 = Active \/ forall k, In k start -> ~ In k (h_cmd h0)) /\ answers_ok e op (h_name h0)) ->
               b = ret)).
        { intros Nc _ r' b (evs & A & B & C) -> _. exists evs. split; [exact A|]. split; [exact B|].
          split; [intros n Hn; apply C; intro X; apply Hn; right; exact X|]. split; [discriminate|].
          intros X. elim Nc. apply (X h (or_introl eq_refl) Co). }
        assert (False_snd : forall hs' r', snd (mode_loop e op allow start stop hs' r' false) = false).
        { clear. induction hs' as [|x hs' IH2]; intros r'; cbn [mode_loop]; [reflexivity|].
          destruct (common_itfs (h_cmd x) start), (common_itfs (h_cmd x) stop); auto;
          (match goal with |- context [if ?c then (r', false) else _] => destruct c; [reflexivity|] end;
           destruct (h_lc x); auto; destruct (mode_call _ _ _ _ _ _) as [[[]|] ?]; apply IH2). }
        assert (Call : exists evs, let X := (let '(res, t') := mode_call e op (rm_trace r) (h_name h) s p in
              mode_loop e op allow start stop hs (with_trace r t') (match res with Ret ROk => ret | _ => false end)) in
            rm_trace (fst X) = evs ++ rm_trace r /\
              (forall n, count (is_call op n) evs <= 1) /\
              (forall n, ~ In n (map h_name (h :: hs)) -> count (is_call op n) evs = 0) /\
              (snd X = true -> forall h0, In h0 (h :: hs) -> concerned h0 start stop -> count (is_call op (h_name h0)) evs = 1) /\
              ((forall h0, In h0 (h :: hs) -> concerned h0 start stop ->
                  configured (h_lc h0) /\ (allow = true \/ h_lc h0 = Active \/ forall k, In k start -> ~ In k (h_cmd h0)) /\ answers_ok e op (h_name h0)) ->
               snd X = ret)).
        { rewrite mode_call_event. cbv beta iota zeta.
          set (q := match op with MPrepare => e_prepare e (rm_trace r) (h_name h) s p | MPerform => e_perform e (rm_trace r) (h_name h) s p end).
          set (rt := match q with Ret ROk => ret | _ => false end).
          destruct (IH (with_trace r (mode_event op (h_name h) s p q :: rm_trace r)) rt) as (evs & A & B & C & D & F).
          exists (evs ++ [mode_event op (h_name h) s p q]). cbn [rm_trace with_trace] in A.
          split; [rewrite <- app_assoc; exact A|].
          assert (Cnt : forall n, count (is_call op n) (evs ++ [mode_event op (h_name h) s p q]) = count (is_call op n) evs + (if String.eqb (h_name h) n then 1 else 0))
            by (intros n; rewrite count_app; f_equal; unfold count; cbn [filter]; rewrite is_call_event; destruct (String.eqb (h_name h) n); reflexivity).
          split; [intros n; rewrite Cnt; destruct (String.eqb_spec (h_name h) n) as [<-|]; [rewrite C by exact N1; lia|specialize (B n); lia]|].
          split; [intros n Hn; rewrite Cnt, C by (intro X; apply Hn; right; exact X); destruct (String.eqb_spec (h_name h) n) as [E|]; [elim Hn; left; exact E|reflexivity]|].
          split.
          - intros X h' [<-|Hi] Hc; rewrite Cnt; [rewrite C by exact N1; rewrite String.eqb_refl; reflexivity|].
            rewrite (D X h' Hi Hc). destruct (String.eqb_spec (h_name h) (h_name h')) as [E|]; [elim N1; rewrite E; apply in_map; exact Hi|reflexivity].
          - intros X. rewrite F by (intros h' Hi Hc; apply X; [right; exact Hi|exact Hc]).
            destruct (X h (or_introl eq_refl) Co) as (_ & _ & Hok). unfold rt, q. destruct op; simpl in Hok; rewrite Hok; reflexivity. }
        assert (Bad : ~ configured (h_lc h) -> exists evs, let X := mode_loop e op allow start stop hs r false in
            rm_trace (fst X) = evs ++ rm_trace r /\
              (forall n, count (is_call op n) evs <= 1) /\
              (forall n, ~ In n (map h_name (h :: hs)) -> count (is_call op n) evs = 0) /\
              (snd X = true -> forall h0, In h0 (h :: hs) -> concerned h0 start stop -> count (is_call op (h_name h0)) evs = 1) /\
              ((forall h0, In h0 (h :: hs) -> concerned h0 start stop ->
                  configured (h_lc h0) /\ (allow = true \/ h_lc h0 = Active \/ forall k, In k start -> ~ In k (h_cmd h0)) /\ answers_ok e op (h_name h0)) ->
               snd X = ret)).
        { intros Nc. destruct (IH r false) as (evs & A & B & C & _). eapply Un; [exact Nc|exists evs; auto|apply False_snd|reflexivity]. }
        destruct (h_lc h); [apply Bad|apply Bad|exact Call|exact Call|apply Bad]; intros [X|X]; discriminate.
Qed.

Lemma two_counts r : names_ok r -> forall n, In n (map h_name (filter is_actuator (rm_hw r))) -> ~ In n (map h_name (filter is_system (rm_hw r))).
Proof.
  intros Hn n H1 H2. apply in_map_iff in H1, H2. destruct H1 as (a & <- & A), H2 as (b & E & B).
  apply filter_In in A, B. destruct A as [A1 A2], B as [B1 B2].
  assert (a = b).
  { pose proof (In_find _ _ Hn A1) as X. pose proof (In_find _ _ Hn B1) as Y. rewrite E in Y. congruence. }
  subst. unfold is_actuator, is_system in *. destruct (h_kind b); discriminate.
Qed.

Lemma mode_two_exact e op allow start stop r : names_ok r ->
  let x := mode_loop e op allow start stop (filter is_actuator (rm_hw r)) r true in
  let y := mode_loop e op allow start stop (filter is_system (rm_hw r)) (fst x) true in
  exists evs, rm_trace (fst y) = evs ++ rm_trace r /\    (forall n, count (is_call op n) evs <= 1) /\    (snd x && snd y = true -> forall n h, find_hw r n = Some h -> h_kind h <> Sensor -> concerned h start stop -> count (is_call op n) evs = 1) /\    ((forall n h, find_hw r n = Some h -> h_kind h <> Sensor -> concerned h start stop ->
        configured (h_lc h) /\ (allow = true \/ h_lc h = Active \/ forall k, In k start -> ~ In k (h_cmd h)) /\ answers_ok e op n) ->
     snd x && snd y = true).
Proof.
  intros Hn x y.
  destruct (mode_loop_exact e op allow start stop (filter is_actuator (rm_hw r)) (names_filter _ _ Hn) r true) as (e1 & A1 & A2 & A3 & A4 & A5). fold x in A1, A4, A5.
  destruct (mode_loop_exact e op allow start stop (filter is_system (rm_hw r)) (names_filter _ _ Hn) (fst x) true) as (e2 & B1 & B2 & B3 & B4 & B5). fold y in B1, B4, B5.
  pose proof (two_counts r Hn) as Dj.
  exists (e2 ++ e1). split; [rewrite B1, A1; apply app_assoc|]. split; [|split].
  - intros n. rewrite count_app. destruct (in_dec string_dec n (map h_name (filter is_actuator (rm_hw r)))) as [H|H].
    + rewrite (B3 n (Dj n H)). apply A2.
    + rewrite (A3 n H), Nat.add_0_r. apply B2.
  - intros X n h Hf Hk Hc. apply andb_prop in X. destruct X as [X1 X2].
    pose proof (find_hw_In _ _ _ Hf) as Hi. pose proof (find_hw_name _ _ _ Hf) as <-. rewrite count_app.
    destruct (h_kind h) eqn:Ek; [|congruence|].
    + assert (Hin : In h (filter is_actuator (rm_hw r))) by (apply filter_In; split; [exact Hi|unfold is_actuator; rewrite Ek; reflexivity]).
      rewrite (A4 X1 h Hin Hc). rewrite (B3 _ (Dj _ (in_map h_name _ _ Hin))). reflexivity.
    + assert (Hin : In h (filter is_system (rm_hw r))) by (apply filter_In; split; [exact Hi|unfold is_system; rewrite Ek; reflexivity]).
      rewrite (B4 X2 h Hin Hc). rewrite A3; [reflexivity|]. intros C. exact (Dj _ C (in_map h_name _ _ Hin)).
  - intros X. rewrite A5, B5; [reflexivity| |]; intros h Hi Hc; apply filter_In in Hi; destruct Hi as [Hi K];
      (apply X; [apply In_find; assumption| |exact Hc]); [apply sysm_not_sensor|apply act_not_sensor]; exact K.
Qed.

Lemma main_prepare_exact e allow hs ops start stop b : wf_hw hs ->
  let s := rrun e allow (sys_start hs) ops in
  let s' := fst (rstep e allow s (OPrepare start stop)) in
  snd (rstep e allow s (OPrepare start stop)) = OutBool b ->
  exists evs, rm_trace (sy_rm s') = evs ++ EvOp :: rm_trace (sy_rm s) /\    (forall n, count (is_call MPrepare n) evs <= 1) /\    (b = true -> forall n h, find_hw (sy_rm s) n = Some h -> h_kind h <> Sensor -> concerned h start stop -> count (is_call MPrepare n) evs = 1) /\    ((forall k, In k start \/ In k stop -> In k (rm_ckeys (sy_rm s)) /\ In k (rm_avc (sy_rm s))) ->
     switch_possible e MPrepare allow (sy_rm s) start stop -> b = true).
Proof.
  intros W s s'. pose proof (reach_names e allow hs ops W) as Hn. fold s in Hn.
  assert (Hn' : names_ok (op_trace s)) by exact Hn. unfold s'. cbn [rstep]. fold (op_trace s). unfold rm_prepare.
  destruct (both_empty start stop) eqn:Eb.
  { intros E. inversion E; subst. exists []. split; [reflexivity|]. split; [intros; unfold count; simpl; lia|]. split; [|reflexivity].
    apply both_empty_true in Eb. destruct Eb as [-> ->]. intros _ n h _ _ (k & _ & [[]|[]]). }
  assert (Ref : forall P : Prop, (P -> False) -> OutBool false = OutBool b ->
     exists evs, rm_trace (op_trace s) = evs ++ EvOp :: rm_trace (sy_rm s) /\       (forall n, count (is_call MPrepare n) evs <= 1) /\       (b = true -> forall n h, find_hw (sy_rm s) n = Some h -> h_kind h <> Sensor -> concerned h start stop -> count (is_call MPrepare n) evs = 1) /\       (P -> switch_possible e MPrepare allow (sy_rm s) start stop -> b = true)).
  { intros P HP E. inversion E; subst. exists []. split; [reflexivity|]. split; [intros; unfold count; simpl; lia|]. split; [discriminate|]. intros X. elim (HP X). }
  destruct (negb (forallb (cmd_exists (op_trace s)) start && forallb (cmd_exists (op_trace s)) stop)) eqn:E1.
  { cbn [fst snd]. apply Ref. intros X. apply negb_true_iff in E1. apply andb_false_iff in E1.
    rewrite <- !not_true_iff_false, !forallb_forall in E1. destruct E1 as [E1|E1]; apply E1; intros k Hk; apply mem_In; apply (X k); auto. }
  destruct (negb (forallb (cmd_available (op_trace s)) start && forallb (cmd_available (op_trace s)) stop)) eqn:E2.
  { cbn [fst snd]. apply Ref. intros X. apply negb_true_iff in E2. apply andb_false_iff in E2.
    rewrite <- !not_true_iff_false, !forallb_forall in E2. destruct E2 as [E2|E2]; apply E2; intros k Hk; apply mem_In; apply (X k); auto. }
  destruct (mode_two_exact e MPrepare allow start stop (op_trace s) Hn') as (evs & A & B & C & D).
  destruct (mode_loop e MPrepare allow start stop (filter is_actuator (rm_hw (op_trace s))) (op_trace s) true) as [r1 x].
  cbn [fst snd] in *.
  destruct (mode_loop e MPrepare allow start stop (filter is_system (rm_hw (op_trace s))) r1 true) as [r2 y].
  cbn [fst snd] in *. intros E. assert (Eb2 : x && y = b) by congruence. exists evs. split; [exact A|]. split; [exact B|].
  rewrite Eb2 in C, D. split; [exact C|]. intros _ H. apply D. exact H.
Qed.

Lemma main_perform_exact e allow hs ops start stop b : wf_hw hs ->
  let s := rrun e allow (sys_start hs) ops in
  let s' := fst (rstep e allow s (OPerform start stop)) in
  snd (rstep e allow s (OPerform start stop)) = OutBool b ->
  exists evs, rm_trace (sy_rm s') = evs ++ EvOp :: rm_trace (sy_rm s) /\    (forall n, count (is_call MPerform n) evs <= 1) /\    (b = true -> forall n h, find_hw (sy_rm s) n = Some h -> h_kind h <> Sensor -> concerned h start stop -> count (is_call MPerform n) evs = 1) /\    (switch_possible e MPerform allow (sy_rm s) start stop -> b = true).
Proof.
  intros W s s'. pose proof (reach_names e allow hs ops W) as Hn. fold s in Hn.
  assert (Hn' : names_ok (op_trace s)) by exact Hn. unfold s'. cbn [rstep]. fold (op_trace s). unfold rm_perform.
  destruct (both_empty start stop) eqn:Eb.
  { intros E. inversion E; subst. exists []. split; [reflexivity|]. split; [intros; unfold count; simpl; lia|]. split; [|reflexivity].
    apply both_empty_true in Eb. destruct Eb as [-> ->]. intros _ n h _ _ (k & _ & [[]|[]]). }
  destruct (mode_two_exact e MPerform allow start stop (op_trace s) Hn') as (evs & A & B & C & D).
  destruct (mode_loop e MPerform allow start stop (filter is_actuator (rm_hw (op_trace s))) (op_trace s) true) as [r1 x].
  cbn [fst snd] in *.
  destruct (mode_loop e MPerform allow start stop (filter is_system (rm_hw (op_trace s))) r1 true) as [r2 y].
  cbn [fst snd] in *. intros E. assert (Eb2 : x && y = b) by congruence. exists evs. split; [exact A|]. split; [exact B|].
  rewrite Eb2 in C, D. split; [exact C|]. intros H. apply D. exact H.
Qed.
