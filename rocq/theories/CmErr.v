(** CmErr.v -- the error path of update(): the group of a failing controller is deactivated (C25). *)
From Coq Require Import Lia.
From Verif Require Import Base Events HwModel RmModel RmSys RmSpec RmProofs RmInv ChainModel CmModel CmPrim ChainSpec CmTopo CmInv CmSpec CmExcl CmReach CmSwitch CmOutcome CmLoad CmIntact UpdateSpec CmDeact.

(** the update loop: what it leaves in the trace and in the list *)
Lemma with_trace_twice r a b : with_trace (with_trace r a) b = with_trace r b. Proof. reflexivity. Qed.
Lemma update_loop e p : forall l m ds m1 ds1, fold_left (update_one e p) l (m, ds) = (m1, ds1) ->
  incl ds ds1 /\
  exists x, m1 = set_rm m (with_trace (cm_rm m) (x ++ rm_trace (cm_rm m))) /\
    (forall n r, In (EvUpdate n r) x -> r <> Ret ROk -> exists c, In c l /\ c_name c = n /\ c_lc c = Active /\ incl (c_group c) ds1) /\
    (forall n, In n ds1 -> In n ds \/ exists c r, In c l /\ In (EvUpdate (c_name c) r) x /\ r <> Ret ROk /\ In n (c_group c)).
Proof.
  induction l as [|c l IH]; intros m ds m1 ds1 H; cbn [fold_left] in H.
  { injection H as <- <-. split; [apply incl_refl|]. exists []. split; [destruct m as [[] ? ? ? ? ?]; reflexivity|].
    split; [intros n r []|intros n Hn; left; exact Hn]. }
  assert (SK : forall m ds, fold_left (update_one e p) l (m, ds) = (m1, ds1) -> incl ds ds1 /\
    exists x, m1 = set_rm m (with_trace (cm_rm m) (x ++ rm_trace (cm_rm m))) /\
    (forall n r, In (EvUpdate n r) x -> r <> Ret ROk -> exists c0, In c0 (c :: l) /\ c_name c0 = n /\ c_lc c0 = Active /\ incl (c_group c0) ds1) /\
    (forall n, In n ds1 -> In n ds \/ exists c0 r, In c0 (c :: l) /\ In (EvUpdate (c_name c0) r) x /\ r <> Ret ROk /\ In n (c_group c0))).
  { intros m0 ds0 H0. destruct (IH _ _ _ _ H0) as (A & x & B & C & D). split; [exact A|]. exists x. split; [exact B|]. split.
    - intros n r I N. destruct (C n r I N) as (c0 & I0 & K). exists c0. split; [right; exact I0|exact K].
    - intros n I. destruct (D n I) as [I0|(c0 & r & I0 & K)]; [left; exact I0|]. right. exists c0, r. split; [right; exact I0|exact K]. }
  unfold update_one at 2 in H. destruct (skipped p (c_name c)); [exact (SK _ _ H)|].
  destruct (is_lc Active c && e_update_due e (rm_trace (cm_rm m)) (c_name c)) eqn:LD; [|exact (SK _ _ H)].
  apply andb_prop in LD. destruct LD as [LA _]. unfold is_lc in LA. apply lc_eqb_eq in LA.
  set (r := e_update e (rm_trace (cm_rm m)) (c_name c)) in *.
  assert (STEP : forall ds0, fold_left (update_one e p) l (emit m (EvUpdate (c_name c) r), ds0) = (m1, ds1) -> incl ds ds0 ->
     (r = Ret ROk /\ ds0 = ds \/ r <> Ret ROk /\ ds0 = add_items ds (c_group c)) ->
     incl ds ds1 /\
    exists x, m1 = set_rm m (with_trace (cm_rm m) (x ++ rm_trace (cm_rm m))) /\
    (forall n r, In (EvUpdate n r) x -> r <> Ret ROk -> exists c0, In c0 (c :: l) /\ c_name c0 = n /\ c_lc c0 = Active /\ incl (c_group c0) ds1) /\
    (forall n, In n ds1 -> In n ds \/ exists c0 r, In c0 (c :: l) /\ In (EvUpdate (c_name c0) r) x /\ r <> Ret ROk /\ In n (c_group c0))).
  { intros ds0 H0 I0 R. destruct (SK _ _ H0) as (A & x & B & C & D). split; [intros z Hz; apply A; apply I0; exact Hz|].
    exists (x ++ [EvUpdate (c_name c) r]). split; [|split].
    - rewrite B. cbn [emit set_rm cm_rm]. rewrite with_trace_twice. rewrite <- app_assoc. reflexivity.
    - intros n q I N. apply in_app_iff in I. destruct I as [I|[I|[]]]; [exact (C n q I N)|]. injection I as <- <-.
      exists c. split; [left; reflexivity|]. split; [reflexivity|]. split; [exact LA|].
      destruct R as [[R _]|[_ ->]]; [congruence|]. intros z Hz. apply A. apply In_add_items. right. exact Hz.
    - intros n I. destruct (D n I) as [I1|(c0 & q & I1 & I2 & K)].
      + destruct R as [[_ ->]|[R ->]]; [left; exact I1|]. apply In_add_items in I1. destruct I1 as [I1|I1]; [left; exact I1|].
        right. exists c, r. split; [left; reflexivity|]. split; [apply in_app_iff; right; left; reflexivity|]. split; assumption.
      + right. exists c0, q. split; [exact I1|]. split; [apply in_app_iff; left; exact I2|exact K]. }
  destruct (r) as [[]|] eqn:Er; cbv zeta in H; rewrite ?Er in H.
  1:{ apply (STEP ds H (incl_refl _)). left. auto. }
  all: apply (STEP _ H); [intros z Hz; apply In_add_items; left; exact Hz|right; split; [discriminate|reflexivity]].
Qed.

(** ---------------------------------------------------------------- the parts of an update that had failures *)
Definition fbs_of (m : cm) (ds : list name) : list name :=
  flat_map (fun n => match find_ctrl m n with Some c => c_fallback c | None => [] end) ds.

Lemma update_loop_ev e p : forall l m ds m1 ds1 x t, fold_left (update_one e p) l (m, ds) = (m1, ds1) ->
  rm_trace (cm_rm m1) = x ++ t -> rm_trace (cm_rm m) = t -> forall ev, In ev x -> exists n r, ev = EvUpdate n r.
Proof.
  intros l m ds m1 ds1 x t H T1 T0.
  assert (G : exists y, rm_trace (cm_rm m1) = y ++ rm_trace (cm_rm m) /\ forall ev, In ev y -> exists n r, ev = EvUpdate n r).
  { clear x t T1 T0. revert m ds m1 ds1 H. induction l as [|c l IH]; intros m ds m1 ds1 H; cbn [fold_left] in H.
    - injection H as <- <-. exists []. split; [reflexivity|intros ? []].
    - unfold update_one at 2 in H. destruct (skipped p (c_name c)); [exact (IH _ _ _ _ H)|]. destruct (_ && _); [|exact (IH _ _ _ _ H)].
      assert (STEP : forall r ds', fold_left (update_one e p) l (emit m (EvUpdate (c_name c) r), ds') = (m1, ds1) ->
        exists y, rm_trace (cm_rm m1) = y ++ rm_trace (cm_rm m) /\ forall ev, In ev y -> exists n r, ev = EvUpdate n r).
      { intros r ds' H'. destruct (IH _ _ _ _ H') as (y & Y & U). exists (y ++ [EvUpdate (c_name c) r]). split; [rewrite Y, <- app_assoc; reflexivity|].
        intros ev I. apply in_app_iff in I. destruct I as [I|[<-|[]]]; eauto. }
      cbv zeta in H. destruct (e_update e _ _) as [[]|]; exact (STEP _ _ H). }
  destruct G as (y & Y & U). rewrite T1, T0 in Y. apply app_inv_tail in Y. subst y. exact U.
Qed.

Lemma update_trace e allow m m' o : cstep e allow m CUpdate = Val (m', o) ->
  exists m1 ds x, fold_left (update_one e (cm_pend m)) (cm_ctrls m) (emit m EvOp, []) = (m1, ds) /\
    m1 = set_rm m (with_trace (cm_rm m) (x ++ EvOp :: rm_trace (cm_rm m))) /\
    mtf m1 m' /\
    (forall n r, In (EvUpdate n r) x -> r <> Ret ROk -> exists c, In c (cm_ctrls m) /\ c_name c = n /\ c_lc c = Active /\ incl (c_group c) ds) /\
    (forall n, In n ds -> exists c r, In c (cm_ctrls m) /\ In (EvUpdate (c_name c) r) x /\ r <> Ret ROk /\ In n (c_group c)).
Proof.
  unfold cstep. intros H. apply bind_val in H. destruct H as (m2 & H & E). injection E as -> _.
  unfold cm_update in H. change (cm_pend (emit m EvOp)) with (cm_pend m) in H. change (cm_ctrls (emit m EvOp)) with (cm_ctrls m) in H.
  destruct (fold_left _ _ _) as [m1 ds] eqn:F. exists m1, ds.
  destruct (update_loop _ _ _ _ _ _ _ F) as (_ & x & A & B & C). exists x. split; [reflexivity|]. split; [exact A|].
  split; [|split; [exact B|]].
  - destruct ds as [|d ds]; [injection H as <-; apply mtf_refl|]. cbv zeta in H.
    match type of H with context [deactivate_controllers e (mode_change e allow m1 ?a ?b) ?b] => set (fl := a) in *; set (dl := b) in * end.
    assert (T : mtf m1 (deactivate_controllers e (mode_change e allow m1 fl dl) dl)).
    { eapply mtf_trans; [|apply mtf_deactivate]. apply mtf_prep_perf. }
    destruct fl as [|f fl']; [injection H as <-; exact T|]. eapply mtf_trans; [exact T|]. eapply mtf_activate. exact H.
  - intros n Hn. destruct (C n Hn) as [[]|K]. exact K.
Qed.

Lemma happened_app m m' t x y : happened m m' t -> rm_trace (cm_rm m') = y ++ x ++ EvOp :: rm_trace (cm_rm m) -> t = y ++ x.
Proof.
  unfold happened. intros -> H. rewrite app_assoc in H.
  apply (app_inv_tail (EvOp :: rm_trace (cm_rm m))). exact H.
Qed.

(** which controllers failed, read off the list *)
Lemma failed_in e allow m m' o m1 ds x : 
  fold_left (update_one e (cm_pend m)) (cm_ctrls m) (emit m EvOp, []) = (m1, ds) ->
  m1 = set_rm m (with_trace (cm_rm m) (x ++ EvOp :: rm_trace (cm_rm m))) -> mtf m1 m' ->
  cstep e allow m CUpdate = Val (m', o) ->
  forall n, failed_update m m' n <-> exists r, In (EvUpdate n r) x /\ r <> Ret ROk.
Proof.
  intros F E T _ n. destruct T as (y & T & Y). rewrite E in T. cbn [set_rm cm_rm with_trace rm_trace] in T. split.
  - intros (t & r & Ht & Hi & N). rewrite (happened_app _ _ _ _ _ Ht T) in Hi. apply in_app_iff in Hi.
    destruct Hi as [Hi|Hi]; [|exists r; auto]. rewrite forallb_forall in Y. specialize (Y _ Hi). discriminate.
  - intros (r & Hi & N). exists (y ++ x), r. split; [unfold happened; rewrite T, app_assoc; reflexivity|]. split; [apply in_app_iff; right; exact Hi|exact N].
Qed.

Section Upd.
Variables (e : env) (allow : bool) (m m' : cm) (o : cout).
Hypothesis HN : NI m.
Hypothesis HS : cstep e allow m CUpdate = Val (m', o).

Lemma taken_list : exists m1 ds x,
    (m1 = set_rm m (with_trace (cm_rm m) (x ++ EvOp :: rm_trace (cm_rm m))) /\ forall ev, In ev x -> exists n r, ev = EvUpdate n r) /\
    (forall KS, steps e allow KS m m1) /\
    (forall n, taken_out m m' n <-> In n ds) /\
    (forall f, fallback_for m m' f <-> In f (fbs_of m ds)) /\
    match ds with
    | [] => m' = m1
    | _ => let fl := add_items [] (fbs_of m ds) in
           let users := fold_left (fun acc f => users_of m1 f acc) (fbs_of m ds) [] in
           let dl := add_items ds users in
           let m2 := deactivate_controllers e (mode_change e allow m1 fl dl) dl in
           match fl with [] => m' = m2 | _ => activate_controllers e allow m2 fl true (match cm_pend m with Some p => p_start p | None => [] end) = Val m' end
    end.
Proof using HN HS.
  destruct (update_trace _ _ _ _ _ HS) as (m1 & ds & x & F & E & T & B & C).
  pose proof (failed_in _ _ _ _ _ _ _ _ F E T HS) as FI.
  assert (TO : forall n, taken_out m m' n <-> In n ds).
  { intros n. split.
    - intros (c & Hc & Hf & Hg). apply FI in Hf. destruct Hf as (r & Hi & N). destruct (B _ _ Hi N) as (c' & Hc' & En & _ & Hg').
      assert (c' = c) by (eapply find_same; [exact (proj1 HN)|apply NoDup_find; [exact (proj1 HN)|exact Hc]|exact Hc'|exact En]). subst. apply Hg'. exact Hg.
    - intros Hn. destruct (C n Hn) as (c & r & Hc & Hi & N & Hg). exists c. split; [exact Hc|]. split; [|exact Hg]. apply FI. exists r. auto. }
  exists m1, ds, x. split; [split; [exact E|eapply update_loop_ev; [exact F|rewrite E; reflexivity|reflexivity]]|]. split.
  { intros KS. eapply steps_trans; [apply (emit_step e allow KS m EvOp); reflexivity|].
    pose proof (update_loop_steps e allow KS (cm_pend m) (cm_ctrls m) (emit m EvOp, [])) as S. rewrite F in S. exact S. }
  split; [exact TO|]. split.
  - intros f. unfold fallback_for, fbs_of. rewrite in_flat_map. split.
    + intros (d & Hd & Ht & Hf). exists (c_name d). split; [apply TO; exact Ht|]. unfold find_ctrl. rewrite (NoDup_find _ _ (proj1 HN) Hd). exact Hf.
    + intros (n & Hn & Hf). destruct (find_ctrl m n) as [d|] eqn:Fd; [|destruct Hf]. exists d.
      pose proof (find_in_name _ _ _ Fd) as Nd. split; [eapply find_in_In; exact Fd|]. split; [|exact Hf]. rewrite Nd. apply TO. exact Hn.
  - unfold cstep in HS. apply bind_val in HS. destruct HS as (m2 & H & E2). injection E2 as -> _.
    unfold cm_update in H. change (cm_pend (emit m EvOp)) with (cm_pend m) in H. change (cm_ctrls (emit m EvOp)) with (cm_ctrls m) in H.
    rewrite F in H. destruct ds as [|d ds]; [injection H as <-; reflexivity|]. cbv zeta in H |- *.
    assert (FE : forall l, flat_map (fun n => match find_ctrl m1 n with Some c => c_fallback c | None => [] end) l = fbs_of m l).
    { intros l. rewrite E. reflexivity. }
    rewrite FE in H. destruct (add_items [] (fbs_of m (d :: ds))) as [|f fl'] eqn:FL; [injection H as <-; reflexivity|exact H].
Qed.

Lemma main_taken_out n : taken_out m m' n -> deactivates e n -> ~ fallback_for m m' n -> state_in m' n <> Some Active.
Proof using HN HS.
  destruct taken_list as (m1 & ds & x & [E _] & _ & TO & FB & K). intros T D NF. apply TO in T.
  assert (NF' : ~ In n (fbs_of m ds)) by (intros C; apply NF; apply FB; exact C).
  destruct ds as [|d ds]; [destruct T|]. cbv zeta in K.
  match type of K with context [deactivate_controllers e (mode_change e allow m1 ?a ?b) ?b] => set (fl := a) in *; set (dl := b) in * end.
  assert (O : state_in (deactivate_controllers e (mode_change e allow m1 fl dl) dl) n <> Some Active).
  { apply deactivate_off; [exact D|]. left. unfold dl. apply In_add_items. left. exact T. }
  destruct fl as [|f fl'] eqn:FL; [rewrite K; exact O|].
  rewrite (sf_activate _ _ (f :: fl') _ _ _ _ _ (incl_refl _) K n); [exact O|].
  rewrite <- FL. unfold fl. intros C. apply In_add_items in C. destruct C as [[]|C]. exact (NF' C).
Qed.
End Upd.
