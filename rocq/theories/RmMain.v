(** RmMain.v -- the proofs behind Props_Rm.v: invariants instantiated at reachable states. *)
From Verif Require Import Base Events HwModel RmModel RmSys RmSpec HwProofs RmProofs RmInv RmAvail RmCycle RmGroup RmTurn RmRw RmMode.
Open Scope string_scope.
Open Scope list_scope.

Lemma main_component_life e h ops : h_lc h = Unknown ->
  lives (h_name h) (h_kind h) Unknown (snd (hrun e (h, []) ops)) = Some (AIn (h_lc (fst (hrun e (h, []) ops)))).
Proof. intros H. apply hrun_lives. simpl. rewrite H. reflexivity. Qed.

Lemma main_manager_life e allow hs ops n h : wf_hw hs ->
  find_hw (sy_rm (rrun e allow (sys_start hs) ops)) n = Some h ->
  lives n (h_kind h) Unconfigured (rm_trace (sy_rm (rrun e allow (sys_start hs) ops))) = Some (AIn (h_lc h)).
Proof. intros W F. exact (ri_lives _ (reach_RInv e allow hs ops W) n h F). Qed.

Lemma lives_prefix n k start t1 : forall t2 a, lives n k start (t1 ++ t2) = Some a -> exists b, lives n k start t2 = Some b.
Proof.
  induction t1 as [|ev t1 IH]; intros t2 a H; [eauto|]. simpl in H.
  destruct (lives n k start (t1 ++ t2)) as [b|] eqn:E; [|discriminate]. eapply IH; exact E.
Qed.

Lemma main_rw_allowed e allow hs ops n h t1 ev t2 : wf_hw hs ->
  find_hw (sy_rm (rrun e allow (sys_start hs) ops)) n = Some h ->
  rm_trace (sy_rm (rrun e allow (sys_start hs) ops)) = t1 ++ ev :: t2 ->
  (forall r, ev = EvRead n r ->
     exists l, lives n (h_kind h) Unconfigured t2 = Some (AIn l) /\ (l = Inactive \/ l = Active)) /\
  (forall r, ev = EvWrite n r ->
     lives n (h_kind h) Unconfigured t2 = Some (AIn Active) /\ h_kind h <> Sensor).
Proof.
  intros W F T. pose proof (main_manager_life e allow hs ops n h W F) as L. rewrite T in L.
  destruct (lives_prefix _ _ _ _ _ _ L) as (b & B). cbn [lives] in B.
  destruct (lives n (h_kind h) Unconfigured t2) as [a|]; [|discriminate].
  split; intros r ->; cbn [life] in B; rewrite String.eqb_refl in B; cbn [negb] in B.
  - destruct a as [[]|]; try discriminate; eexists; split; eauto.
  - destruct (h_kind h), a as [[]|]; try discriminate; split; (reflexivity || discriminate).
Qed.

Lemma main_untouched e h t :
  (~ configured (h_lc h) -> hw_read e h t = (h, t, Ret ROk)) /\
  (h_lc h <> Active \/ h_kind h = Sensor -> hw_write e h t = (h, t, Ret ROk)).
Proof.
  unfold configured, hw_read, hw_write. split; intros H.
  - destruct (h_lc h); try reflexivity; exfalso; apply H; auto.
  - destruct (h_kind h), (h_lc h); try reflexivity; exfalso; destruct H; congruence.
Qed.

Lemma reach_names e allow hs ops : wf_hw hs -> names_ok (sy_rm (rrun e allow (sys_start hs) ops)).
Proof. intros W. apply (reach_RInv e allow hs ops W). Qed.

Lemma main_finalized_stays e allow hs ops o n h : wf_hw hs ->
  let s := rrun e allow (sys_start hs) ops in
  find_hw (sy_rm s) n = Some h -> h_lc h = Finalized ->
  h_group h = "" \/ (o <> ORead /\ o <> OWrite) ->
  lc_of (sy_rm (fst (rstep e allow s o))) n = Some Finalized.
Proof.
  intros W s F L G. unfold lc_of. rewrite (rstep_stays e allow s o n (reach_names _ _ _ _ W)) with (h := h); auto.
  - simpl. rewrite L. reflexivity.
  - destruct G as [G|G]; [left|right; exact G]. intros h' F'. congruence.
Qed.

Lemma main_set_state e allow hs ops n target : wf_hw hs ->
  let s := rrun e allow (sys_start hs) ops in
  let s' := fst (rstep e allow s (OSet n target)) in
  (snd (rstep e allow s (OSet n target)) = OutBool true -> lc_of (sy_rm s') n = Some target) /\
  (forall m, m <> n -> lc_of (sy_rm s') m = lc_of (sy_rm s) m).
Proof.
  intros W s s'. subst s'. cbn [rstep]. fold (op_trace s).
  assert (Hn : names_ok (op_trace s)) by (exact (reach_names e allow hs ops W)).
  destruct (set_component_state_ok e (op_trace s) n target Hn) as [[_ O _] S].
  destruct (set_component_state e (op_trace s) n target) as [r' b]. cbn [fst snd sy_rm mk] in *. split.
  - intros E. inversion E. auto.
  - intros m Hm. unfold lc_of. rewrite O by exact Hm. reflexivity.
Qed.

Lemma main_available e allow hs ops n h : wf_hw hs ->
  let r := sy_rm (rrun e allow (sys_start hs) ops) in
  find_hw r n = Some h -> configured (h_lc h) -> all_available r h.
Proof. intros W r F C. eapply av_fwd; [apply reach_AvInv; exact W|exact F|exact C]. Qed.

Lemma main_unavailable e allow hs ops n h : wf_hw hs -> no_transition_errors e ->
  let r := sy_rm (rrun e allow (sys_start hs) ops) in
  find_hw r n = Some h -> ~ configured (h_lc h) -> none_available r h.
Proof. intros W Q r F C. eapply av_bwd; [apply reach_AvInv; exact W|exact Q|exact F|exact C]. Qed.

Lemma main_exclusive_hw e allow hs ops k : wf_hw hs -> In k (flat_map h_cmd hs) ->
  count_occ string_dec (sy_loans (rrun e allow (sys_start hs) ops)) k <= 1.
Proof. intros W K. exact (proj1 (hw_exclusive e allow hs ops k W K)). Qed.

Lemma excl_reach e allow hs ops k : wf_hw hs -> no_removal_on_loan e allow (sys_start hs) ops ->
  excl k (rrun e allow (sys_start hs) ops).
Proof.
  intros W N. apply all_exclusive; [|apply start_excl|exact N].
  constructor; [apply start_RInv; exact W | apply start_KInv; exact W].
Qed.

Lemma main_exclusive_all e allow hs ops k : wf_hw hs -> no_removal_on_loan e allow (sys_start hs) ops ->
  count_occ string_dec (sy_loans (rrun e allow (sys_start hs) ops)) k <= 1.
Proof. intros W N. exact (proj1 (excl_reach e allow hs ops k W N)). Qed.

Lemma on_loan_one k s : excl k s -> In k (sy_loans s) -> aget (rm_claimed (sy_rm s)) k = Some true.
Proof.
  intros [A B] H. apply B. apply (count_occ_In string_dec) in H. unfold loan_count in *. lia.
Qed.

Lemma main_claim_refused e allow hs ops k : wf_hw hs -> no_removal_on_loan e allow (sys_start hs) ops ->
  let s := rrun e allow (sys_start hs) ops in
  In k (sy_loans s) \/ ~ In k (rm_avc (sy_rm s)) ->
  snd (rstep e allow s (OClaim k)) = OutBool false /\ sy_loans (fst (rstep e allow s (OClaim k))) = sy_loans s.
Proof.
  intros W N s H. cbn [rstep]. fold (op_trace s). unfold claim_cmd, cmd_available.
  change (rm_avc (op_trace s)) with (rm_avc (sy_rm s)). change (rm_claimed (op_trace s)) with (rm_claimed (sy_rm s)).
  destruct (mem k (rm_avc (sy_rm s))) eqn:E; [|split; reflexivity].
  apply mem_In in E. destruct H as [H|H]; [|contradiction].
  rewrite (on_loan_one k s (excl_reach e allow hs ops k W N) H). split; reflexivity.
Qed.

Lemma claim_out e allow s k : snd (rstep e allow s (OClaim k)) =
  OutBool (if mem k (rm_avc (sy_rm s)) then
             match aget (rm_claimed (sy_rm s)) k with Some false => mem k (rm_ckeys (sy_rm s)) | _ => false end else false).
Proof.
  cbn [rstep]. fold (op_trace s). unfold claim_cmd, cmd_available.
  change (rm_avc (op_trace s)) with (rm_avc (sy_rm s)). change (rm_claimed (op_trace s)) with (rm_claimed (sy_rm s)).
  destruct (mem k (rm_avc (sy_rm s))); [|reflexivity]. destruct (aget (rm_claimed (sy_rm s)) k) as [[]|]; reflexivity.
Qed.

Lemma main_release e allow hs ops k : wf_hw hs -> In k (flat_map h_cmd hs) ->
  let s := rrun e allow (sys_start hs) ops in
  In k (sy_loans s) ->
  let s' := fst (rstep e allow s (ORelease k)) in
  ~ In k (sy_loans s') /\
  (In k (rm_avc (sy_rm s)) -> snd (rstep e allow s' (OClaim k)) = OutBool true) /\
  (forall k', k' <> k -> snd (rstep e allow s' (OClaim k')) = snd (rstep e allow s (OClaim k'))).
Proof.
  intros W K s L s'. pose proof (hw_exclusive e allow hs ops k W K) as [X _]. fold s in X.
  assert (Hk : In k (rm_ckeys (sy_rm s))).
  { destruct (reach_AInv e allow hs ops W) as [_ KI]. apply (ki_c _ KI). 
    rewrite hw_cmds_statics. 
    assert (St : forall ops, statics (sy_rm (rrun e allow (sys_start hs) ops)) = statics (rm_start hs)).
    { intros o. assert (P : RInv (rrun e allow (sys_start hs) o) /\ statics (sy_rm (rrun e allow (sys_start hs) o)) = statics (rm_start hs)).
      { apply (rrun_ind e allow (fun s => RInv s /\ statics (sy_rm s) = statics (rm_start hs))).
        - intros s0 o0 [A B]. split; [apply rstep_RInv; exact A|]. rewrite rstep_statics by apply A. exact B.
        - split; [apply start_RInv; exact W|reflexivity]. } apply P. }
    rewrite St, <- hw_cmds_statics. unfold hw_cmds. simpl. rewrite flat_map_set by reflexivity. exact K. }
  assert (E : s' = mk (release_cmd (op_trace s) k) (remove1 k (sy_loans s))).
  { unfold s'. cbn [rstep]. apply mem_In in L. rewrite L. reflexivity. }
  rewrite E. clear E s'. split; [|split].
  - cbn [mk sy_loans]. intros C. apply (count_occ_In string_dec) in C. unfold loan_count in X.
    pose proof (count_remove1_eq k (sy_loans s) L). lia.
  - intros A. rewrite claim_out. cbn [mk sy_rm release_cmd with_claimed rm_avc rm_claimed rm_ckeys with_trace op_trace].
    rewrite aget_aset_same. apply mem_In in A, Hk. rewrite A, Hk. reflexivity.
  - intros k' Hn. rewrite !claim_out. cbn [mk sy_rm release_cmd with_claimed rm_avc rm_claimed rm_ckeys with_trace op_trace].
    rewrite aget_aset_other by exact Hn. reflexivity.
Qed.

(** ------------------------------------------------------------ C08-C10 *)
Lemma reach_members e allow hs ops g : wf_hw hs ->
  members (rm_hw (sy_rm (rrun e allow (sys_start hs) ops))) g = members hs g.
Proof.
  intros W.
  assert (P : RInv (rrun e allow (sys_start hs) ops) /\ statics (sy_rm (rrun e allow (sys_start hs) ops)) = statics (rm_start hs)).
  { apply (rrun_ind e allow (fun s => RInv s /\ statics (sy_rm s) = statics (rm_start hs))).
    - intros s0 o0 [A B]. split; [apply rstep_RInv; exact A|]. rewrite rstep_statics by apply A. exact B.
    - split; [apply start_RInv; exact W|reflexivity]. }
  destruct P as [_ P].
  assert (M : forall r, members (rm_hw r) g = members (statics r) g).
  { intros r. unfold members, statics. induction (rm_hw r) as [|h l IH]; [reflexivity|]. simpl.
    destruct (String.eqb (h_group h) g); simpl; congruence. }
  rewrite M, P, <- M. unfold members. simpl. induction hs as [|h l IH]; [reflexivity|]. simpl.
  assert (W' : wf_hw l).
  { destruct W as [A B C]. simpl in A, B, C. constructor.
    - inversion A; assumption.
    - clear - B. induction (h_cmd h); [exact B|]. inversion B; auto.
    - clear - C. induction (h_state h); [exact C|]. inversion C; auto. }
  clear P M. destruct (String.eqb (h_group h) g); simpl; [f_equal|];
   (clear; induction l as [|x l IH]; [reflexivity|]; simpl; destruct (String.eqb (h_group x) g); simpl; congruence).
Qed.

Lemma reach_name_list e allow hs ops : wf_hw hs ->
  map h_name (rm_hw (sy_rm (rrun e allow (sys_start hs) ops))) = map h_name hs.
Proof.
  intros W.
  assert (P : RInv (rrun e allow (sys_start hs) ops) /\ statics (sy_rm (rrun e allow (sys_start hs) ops)) = statics (rm_start hs)).
  { apply (rrun_ind e allow (fun s => RInv s /\ statics (sy_rm s) = statics (rm_start hs))).
    - intros s0 o0 [A B]. split; [apply rstep_RInv; exact A|]. rewrite rstep_statics by apply A. exact B.
    - split; [apply start_RInv; exact W|reflexivity]. }
  destruct P as [_ P].
  assert (M : forall r, map h_name (rm_hw r) = map h_name (statics r)) by (intros r; unfold statics; rewrite map_map; reflexivity).
  rewrite M, P, <- M. simpl. apply map_name_set.
Qed.

Lemma read_ev_clears ms ev : read_ev ev -> ~ clears ms ev.
Proof. intros [(m & r & ->)|(m & ok & ->)] (m' & r' & _ & [C|[C|C]]); discriminate. Qed.

Lemma failed_not_ok l e failing r r' st evs n : cycle_facts failing l e r r' st evs -> In n (rw_failed st) -> rw_result st <> ROk.
Proof. intros F Hi C. apply (cy_ok _ _ _ _ _ _ _ F) in C. rewrite C in Hi. exact Hi. Qed.

Lemma main_bad_group_read e allow hs ops n h : wf_hw hs ->
  let s := rrun e allow (sys_start hs) ops in
  find_hw (sy_rm s) n = Some h -> h_group h <> "" -> (forall t, e_locked e t n = false) ->
  group_state (members hs (h_group h)) (rm_trace (sy_rm s)) <> ROk ->
  exists st, snd (rstep e allow s ORead) = OutStatus st /\ rw_result st <> ROk /\ In n (rw_failed st).
Proof.
  intros W s F G L B. destruct (read_facts e allow s (reach_names _ _ _ _ W) (reach_GInv _ _ _ _ W)) as (st & evs & O & C & R & _).
  assert (Hi : In n (rw_failed st)).
  { eapply (cy_group _ _ _ _ _ _ _ C); eauto using find_In_names.
    - eapply Forall_impl; [|exact R]. intros ev. apply read_ev_clears.
    - unfold s in *. rewrite reach_members by exact W. exact B. }
  exists st. split; [exact O|]. split; [|exact Hi]. eapply failed_not_ok; eassumption.
Qed.

Lemma main_bad_group_write e allow hs ops n h : wf_hw hs ->
  let s := rrun e allow (sys_start hs) ops in
  let s' := fst (rstep e allow s OWrite) in
  find_hw (sy_rm s) n = Some h -> h_kind h <> Sensor -> h_group h <> "" -> (forall t, e_locked e t n = false) ->
  group_state (members hs (h_group h)) (rm_trace (sy_rm s)) <> ROk ->
  (forall evs, rm_trace (sy_rm s') = evs ++ EvOp :: rm_trace (sy_rm s) ->
     Forall (fun ev => ~ clears (members hs (h_group h)) ev) evs) ->
  exists st, snd (rstep e allow s OWrite) = OutStatus st /\ rw_result st <> ROk /\ In n (rw_failed st).
Proof.
  intros W s s' F K G L B Q. destruct (write_facts e allow s (reach_names _ _ _ _ W) (reach_GInv _ _ _ _ W)) as (st & evs & O & C & _).
  specialize (Q evs (cy_trace _ _ _ _ _ _ _ C)).
  rewrite <- (reach_members e allow hs ops (h_group h) W) in B, Q. fold s in B, Q.
  assert (Hi : In n (rw_failed st)).
  { eapply (cy_group _ _ _ _ _ _ _ C); eauto. eapply In_writables; eassumption. }
  exists st. split; [exact O|]. split; [|exact Hi]. eapply failed_not_ok; eassumption.
Qed.

Lemma main_later_members e allow hs ops m n h v evs : wf_hw hs ->
  let s := rrun e allow (sys_start hs) ops in
  find_hw (sy_rm s) n = Some h -> h_group h <> "" -> In m (members hs (h_group h)) ->
  (forall t, e_locked e t n = false) ->
  before m n (map h_name hs) ->
  rm_trace (sy_rm (fst (rstep e allow s ORead))) = evs ++ EvOp :: rm_trace (sy_rm s) ->
  In (EvRead m (Ret v)) evs -> v <> ROk ->
  exists st, snd (rstep e allow s ORead) = OutStatus st /\ In n (rw_failed st).
Proof.
  intros W s F G M L B T Hi V. destruct (read_facts e allow s (reach_names _ _ _ _ W) (reach_GInv _ _ _ _ W)) as (st & evs' & O & C & R & _).
  assert (evs' = evs).
  { pose proof (cy_trace _ _ _ _ _ _ _ C) as T'. rewrite T in T'. apply app_inv_tail in T'. congruence. }
  subst evs'. exists st. split; [exact O|].
  rewrite <- (reach_members e allow hs ops (h_group h) W) in M. rewrite <- (reach_name_list e allow hs ops W) in B. fold s in M, B.
  eapply (cy_later _ _ _ _ _ _ _ C m); eauto using find_In_names.
  - eapply Forall_impl; [|exact R]. intros ev. apply read_ev_clears.
  - apply Exists_exists. eexists. split; [exact Hi|]. split; [reflexivity|]. exists m, v. auto.
Qed.

Lemma main_group_stays_bad ms t evs :
  (exists m v, In m ms /\ v <> ROk /\ (In (EvRead m (Ret v)) evs \/ In (EvWrite m (Ret v)) evs)) ->
  Forall (fun ev => ~ clears ms ev) evs ->
  group_state ms (evs ++ t) <> ROk.
Proof.
  intros (m & v & M & V & H) F. apply gs_fails; [exact F|]. apply Exists_exists.
  destruct H as [H|H]; (eexists; split; [exact H|]; exists m, v; auto).
Qed.

Lemma main_failures_in_group e allow hs ops n h st : wf_hw hs ->
  let s := rrun e allow (sys_start hs) ops in
  let s' := fst (rstep e allow s ORead) in
  find_hw (sy_rm s) n = Some h -> snd (rstep e allow s ORead) = OutStatus st -> In n (rw_failed st) ->
  (exists evs, rm_trace (sy_rm s') = evs ++ EvOp :: rm_trace (sy_rm s) /\ Exists (read_failed n) evs) \/
  (h_group h <> "" /\ exists t1 ev t2, rm_trace (sy_rm s') = t1 ++ ev :: t2 /\ fails (members hs (h_group h)) ev).
Proof.
  intros W s s' F O' Hi. destruct (read_facts e allow s (reach_names _ _ _ _ W) (reach_GInv _ _ _ _ W)) as (st' & evs & O & C & R & _).
  assert (st' = st) by congruence. subst st'.
  destruct (cy_why _ _ _ _ _ _ _ C n h F (find_In_names _ _ _ F) Hi) as [X|(G & e1 & e2 & E & B)].
  - left. exists evs. split; [exact (cy_trace _ _ _ _ _ _ _ C)|exact X].
  - right. split; [exact G|]. destruct (gs_bad_inv _ _ B) as (t1 & ev & t2 & T & Fl & _).
    exists (e2 ++ t1), ev, t2. split.
    + unfold s'. rewrite (cy_trace _ _ _ _ _ _ _ C), E, <- !app_assoc, T. reflexivity.
    + unfold s in Fl. rewrite reach_members in Fl by exact W. exact Fl.
Qed.

Lemma main_read_list e allow hs ops : wf_hw hs ->
  let s := rrun e allow (sys_start hs) ops in
  exists st evs, snd (rstep e allow s ORead) = OutStatus st /\
    rm_trace (sy_rm (fst (rstep e allow s ORead))) = evs ++ EvOp :: rm_trace (sy_rm s) /\
    (rw_result st = ROk <-> rw_failed st = []) /\ NoDup (rw_failed st) /\
    (forall n, In n (rw_failed st) -> In n (map h_name hs)) /\
    forall n h, find_hw (sy_rm s) n = Some h ->
      (Exists (read_failed n) evs -> In n (rw_failed st)) /\
      (h_group h = "" -> In n (rw_failed st) -> Exists (read_failed n) evs).
Proof.
  intros W s. destruct (read_facts e allow s (reach_names _ _ _ _ W) (reach_GInv _ _ _ _ W)) as (st & evs & O & C & R & _).
  exists st, evs. split; [exact O|]. destruct C as [C1 C2 C3 C4 C5 C6 _ _ _].
  split; [exact C4|]. split; [exact C1|]. split; [exact C2|]. split.
  - intros n Hn. rewrite <- (reach_name_list e allow hs ops W). apply C3. exact Hn.
  - intros n h F. split; [eauto using find_In_names|]. intros G Hi.
    destruct (C6 n h F (find_In_names _ _ _ F) Hi) as [X|(X & _)]; [exact X|congruence].
Qed.

Lemma writables_sub hs n : In n (writables hs) -> In n (map h_name hs).
Proof. intros H. apply in_map_iff in H. destruct H as (h & <- & H). apply filter_In in H. apply in_map. apply H. Qed.

Lemma not_writable_same e allow s n h : names_ok (sy_rm s) -> find_hw (sy_rm s) n = Some h -> ~ In n (writables (rm_hw (sy_rm s))) ->
  find_hw (sy_rm (fst (rstep e allow s OWrite))) n = Some h /\
  forall evs, rm_trace (sy_rm (fst (rstep e allow s OWrite))) = evs ++ EvOp :: rm_trace (sy_rm s) ->
    forall q, ~ In (EvWrite n q) evs.
Proof.
  intros Hn F N. cbn [rstep]. fold (op_trace s). unfold rm_write. fold (writables (rm_hw (op_trace s))).
  destruct (cfold (write_one e) (write_one_Hf e) (writables (rm_hw (op_trace s))) (op_trace s) rw_ok Hn) as [_ A (evs & T & B) _].
  destruct (fold_left _ _ _) as [r' st]. cbn [fst snd sy_rm mk] in *. split.
  - rewrite A by exact N. exact F.
  - intros evs' T' q Hq. assert (evs' = evs).
    { rewrite T in T'. change (rm_trace (op_trace s)) with (EvOp :: rm_trace (sy_rm s)) in T'. apply app_inv_tail in T'. congruence. }
    subst evs'. rewrite Forall_forall in B. destruct (B _ Hq) as (m & M1 & M2). simpl in M2. subst m. exact (N M1).
Qed.

Lemma writable_dec s n : In n (writables (rm_hw (sy_rm s))) \/ ~ In n (writables (rm_hw (sy_rm s))).
Proof. destruct (in_dec string_dec n (writables (rm_hw (sy_rm s)))); auto. Qed.

Lemma main_write_list e allow hs ops : wf_hw hs ->
  let s := rrun e allow (sys_start hs) ops in
  exists st evs, snd (rstep e allow s OWrite) = OutStatus st /\
    rm_trace (sy_rm (fst (rstep e allow s OWrite))) = evs ++ EvOp :: rm_trace (sy_rm s) /\
    (rw_result st = ROk <-> rw_failed st = []) /\ NoDup (rw_failed st) /\
    (forall n, In n (rw_failed st) -> In n (map h_name hs)) /\
    forall n h, find_hw (sy_rm s) n = Some h ->
      (Exists (write_failed n) evs -> In n (rw_failed st)) /\
      (h_group h = "" -> In n (rw_failed st) -> Exists (write_failed n) evs).
Proof.
  intros W s. destruct (write_facts e allow s (reach_names _ _ _ _ W) (reach_GInv _ _ _ _ W)) as (st & evs & O & C & _).
  exists st, evs. split; [exact O|]. destruct C as [C1 C2 C3 C4 C5 C6 _ _ _].
  split; [exact C4|]. split; [exact C1|]. split; [exact C2|]. split.
  - intros n Hn. rewrite <- (reach_name_list e allow hs ops W). apply writables_sub. apply C3. exact Hn.
  - intros n h F. split.
    + intros X. destruct (writable_dec s n) as [D|D]; [eauto|]. exfalso.
      destruct (not_writable_same e allow s n h (reach_names _ _ _ _ W) F D) as [_ Q]. specialize (Q evs C4).
      apply Exists_exists in X. destruct X as (ev & X1 & (q & -> & _)). exact (Q q X1).
    + intros G Hi. destruct (C6 n h F (C3 n Hi) Hi) as [X|(X & _)]; [exact X|congruence].
Qed.

Lemma find_reach_next e allow s o n h : names_ok (sy_rm s) -> find_hw (sy_rm s) n = Some h ->
  exists h', find_hw (sy_rm (fst (rstep e allow s o))) n = Some h'.
Proof.
  intros Hn F. destruct (rstep_shape e allow s o Hn) as [E|[E _]].
  - destruct (evolve_find _ _ n h E) as (h' & F' & _); [exact F|]. eauto.
  - exists h. rewrite (find_hw_same _ _ n E). exact F.
Qed.

Lemma main_read_life e allow hs ops st n h : wf_hw hs ->
  let s := rrun e allow (sys_start hs) ops in
  let s' := fst (rstep e allow s ORead) in
  snd (rstep e allow s ORead) = OutStatus st -> find_hw (sy_rm s) n = Some h ->
  (In n (rw_failed st) -> exists l, lc_of (sy_rm s') n = Some l /\ ~ configured l) /\
  (~ In n (rw_failed st) -> find_hw (sy_rm s') n = Some h).
Proof.
  intros W s s' O' F. destruct (read_facts e allow s (reach_names _ _ _ _ W) (reach_GInv _ _ _ _ W)) as (st' & evs & O & C & R & D).
  assert (st' = st) by congruence. subst st'. split.
  - intros Hi. destruct (find_reach_next e allow s ORead n h (reach_names _ _ _ _ W) F) as (h' & F').
    exists (h_lc h'). unfold lc_of, s'. rewrite F'. split; [reflexivity|]. exact (D n h F Hi h' F').
  - intros N. exact (cy_still _ _ _ _ _ _ _ C n h F (find_In_names _ _ _ F) N).
Qed.

Lemma main_write_life e allow hs ops st n h evs : wf_hw hs ->
  let s := rrun e allow (sys_start hs) ops in
  let s' := fst (rstep e allow s OWrite) in
  snd (rstep e allow s OWrite) = OutStatus st -> find_hw (sy_rm s) n = Some h ->
  rm_trace (sy_rm s') = evs ++ EvOp :: rm_trace (sy_rm s) ->
  (In (EvWrite n (Ret RError)) evs \/ In (EvWrite n Throw) evs ->
     exists l, lc_of (sy_rm s') n = Some l /\ ~ configured l) /\
  (In (EvWrite n (Ret RDeactivate)) evs -> exists x, In (EvHwCb n HDeactivate x) evs /\
     (x = CbSuccess -> lc_of (sy_rm s') n = Some Inactive)) /\
  (~ In n (rw_failed st) -> find_hw (sy_rm s') n = Some h).
Proof.
  intros W s s' O' F T. destruct (write_facts e allow s (reach_names _ _ _ _ W) (reach_GInv _ _ _ _ W)) as (st' & evs' & O & C & D).
  assert (st' = st) by congruence. subst st'.
  assert (evs' = evs).
  { pose proof (cy_trace _ _ _ _ _ _ _ C) as T'. unfold s' in T. rewrite T in T'. apply app_inv_tail in T'. congruence. }
  subst evs'. destruct (writable_dec s n) as [Wr|Wr].
  - destruct (D n h F Wr) as [D1 D2]. split; [|split].
    + intros X. destruct (find_reach_next e allow s OWrite n h (reach_names _ _ _ _ W) F) as (h' & F').
      exists (h_lc h'). unfold lc_of, s'. rewrite F'. split; [reflexivity|]. exact (D1 X h' F').
    + exact D2.
    + intros N. exact (cy_still _ _ _ _ _ _ _ C n h F Wr N).
  - destruct (not_writable_same e allow s n h (reach_names _ _ _ _ W) F Wr) as [Q1 Q2]. specialize (Q2 evs T).
    split; [|split].
    + intros [X|X]; elim (Q2 _ X).
    + intros X; elim (Q2 _ X).
    + intros _. exact Q1.
Qed.

Lemma main_prepare e allow hs ops start stop b : wf_hw hs ->
  let s := rrun e allow (sys_start hs) ops in
  let s' := fst (rstep e allow s (OPrepare start stop)) in
  snd (rstep e allow s (OPrepare start stop)) = OutBool b ->
  exists evs, rm_trace (sy_rm s') = evs ++ EvOp :: rm_trace (sy_rm s) /\ rm_hw (sy_rm s') = rm_hw (sy_rm s) /\
    Forall (forwarded MPrepare (sy_rm s) start stop) evs /\
    (b = true ->
       Forall (fun ev => exists n s p, ev = EvPrepare n s p (Ret ROk)) evs /\
       (forall k, In k start \/ In k stop -> In k (rm_ckeys (sy_rm s)) /\ In k (rm_avc (sy_rm s))) /\
       forall n h, find_hw (sy_rm s) n = Some h -> h_kind h <> Sensor -> concerned h start stop ->
          configured (h_lc h) /\ (exists s p x, In (EvPrepare n s p x) evs) /\
          (allow = false -> (exists k, In k start /\ In k (h_cmd h)) -> h_lc h = Active)).
Proof.
  intros W s s' O. subst s'. cbn [rstep] in *. fold (op_trace s) in *.
  assert (Hn : names_ok (op_trace s)) by (exact (reach_names e allow hs ops W)).
  destruct (rm_prepare_spec e allow (op_trace s) start stop Hn) as [(evs & A1 & A2 & A3 & A4) B].
  destruct (rm_prepare e allow (op_trace s) start stop) as [r' b']. cbn [fst snd sy_rm mk] in *. inversion O; subst b'.
  exists evs. split; [exact A1|]. split; [exact A2|]. split; [exact A3|]. intros X. destruct (A4 X) as [A5 A6].
  split; [exact A5|]. split; [exact (B X)|]. intros n h F K C. destruct (A6 n h F K C) as (D1 & D2 & D3).
  split; [exact D1|]. split; [|exact D3]. apply Exists_exists in D2. destruct D2 as (ev & E1 & (p & q & x & ->)). eauto.
Qed.

Lemma main_perform e allow hs ops start stop b : wf_hw hs ->
  let s := rrun e allow (sys_start hs) ops in
  let s' := fst (rstep e allow s (OPerform start stop)) in
  snd (rstep e allow s (OPerform start stop)) = OutBool b ->
  exists evs, rm_trace (sy_rm s') = evs ++ EvOp :: rm_trace (sy_rm s) /\ rm_hw (sy_rm s') = rm_hw (sy_rm s) /\
    Forall (forwarded MPerform (sy_rm s) start stop) evs /\
    (b = true ->
       Forall (fun ev => exists n s p, ev = EvPerform n s p (Ret ROk)) evs /\
       forall n h, find_hw (sy_rm s) n = Some h -> h_kind h <> Sensor -> concerned h start stop ->
          configured (h_lc h) /\ (exists s p x, In (EvPerform n s p x) evs) /\
          (allow = false -> (exists k, In k start /\ In k (h_cmd h)) -> h_lc h = Active)).
Proof.
  intros W s s' O. subst s'. cbn [rstep] in *. fold (op_trace s) in *.
  assert (Hn : names_ok (op_trace s)) by (exact (reach_names e allow hs ops W)).
  destruct (rm_perform_spec e allow (op_trace s) start stop Hn) as (evs & A1 & A2 & A3 & A4).
  destruct (rm_perform e allow (op_trace s) start stop) as [r' b']. cbn [fst snd sy_rm mk] in *. inversion O; subst b'.
  exists evs. split; [exact A1|]. split; [exact A2|]. split; [exact A3|]. intros X. destruct (A4 X) as [A5 A6].
  split; [exact A5|]. intros n h F K C. destruct (A6 n h F K C) as (D1 & D2 & D3).
  split; [exact D1|]. split; [|exact D3]. apply Exists_exists in D2. destruct D2 as (ev & E1 & (p & q & x & ->)). eauto.
Qed.
