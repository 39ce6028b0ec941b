(** CmBest.v -- BEST_EFFORT switch requests: they do what STRICT does when STRICT accepts, ignore unknown names, and touch
    nothing that was not asked for. *)
From Verif Require Import Base Events HwModel RmModel RmSys RmSpec RmSpec2 RmInv RmAvail RmProofs RmMode ChainModel CmModel CmPrim ChainSpec CmTopo ChainMain CmInv CmExcl CmReach CmSpec CmSwitch CmOutcome CmLoad CmCache CmCache2 UpdateSpec FollowSpec CmFollow CmLeak CmFallback CmRefs DoneSpec CmDone TellSpec CmTell CmIntact AcceptSpec CmAccept BestSpec CmPend CmHwErr CmDeact CmBystander.
Open Scope list_scope.

Lemma list_best l : forall ns got r, list_controllers l true ns got true = Some r -> list_controllers l false ns got true = Some r.
Proof.
  induction ns as [|n ns IH]; intros got r H; cbn [list_controllers] in *; [exact H|]. destruct (find_in l n); [apply IH; exact H|discriminate].
Qed.
Lemma act_best l : forall rest kept w w', act_loop l true kept rest w = Val (inl w') -> act_loop l false kept rest w = Val (inl w').
Proof.
  induction rest as [|n rest IH]; intros kept w w' H; cbn [act_loop] in *; [exact H|].
  destruct (check_activate l w n) as [[w1 ok]|]; cbn [bind] in *; [|discriminate]. destruct ok; [apply IH; exact H|discriminate].
Qed.
Lemma deact_best m : forall rest kept w w', deact_loop m true kept rest w = Some w' -> deact_loop m false kept rest w = Some w'.
Proof.
  induction rest as [|n rest IH]; intros kept w w' H; cbn [deact_loop] in *; [exact H|].
  destruct (match find_ctrl m n with Some c => is_lc Active c && check_preceding m w c | None => false end); [apply IH; exact H|discriminate].
Qed.
Lemma conflict1_best w c w' : conflict_one true w c = inl w' -> conflict_one false w c = inl w'.
Proof.
  unfold conflict_one. set (w1 := if (_ && negb _)%bool then _ else w). cbv zeta. rewrite !andb_true_r, !andb_false_r.
  destruct (negb (is_lc Active c) && mem (c_name c) (w_deact w1)); [discriminate|].
  destruct (is_lc Active c && negb (mem (c_name c) (w_deact w1) && negb false) && mem (c_name c) (w_act w1)); [discriminate|].
  destruct (negb (is_lc Inactive c) && negb (mem (c_name c) (w_deact w1) && negb false) && (mem (c_name c) (w_act w1) && negb false)); [discriminate|].
  exact (fun h => h).
Qed.
Lemma conflict_best : forall cs w w', conflict_loop true cs w = inl w' -> conflict_loop false cs w = inl w'.
Proof.
  induction cs as [|c cs IH]; intros w w' H; cbn [conflict_loop] in *; [exact H|]. destruct (conflict_one true w c) as [w1|] eqn:E; [|discriminate].
  rewrite (conflict1_best _ _ _ E). apply IH. exact H.
Qed.
Lemma request_best e allow m a d asap m1 o : switch_request e allow m a d true asap = Val (m1, o) -> o <> SwError -> cm_pend m = None ->
  switch_request e allow m a d false asap = Val (as_best_effort m1, o).
Proof.
  intros H NE PE. unfold switch_request in *.
  destruct (list_controllers (cm_ctrls m) true d [] true) as [d'|] eqn:Ed; [|injection H as _ <-; contradiction]. rewrite (list_best _ _ _ _ Ed).
  destruct (list_controllers (cm_ctrls m) true a [] true) as [a'|] eqn:Ea; [|injection H as _ <-; contradiction]. rewrite (list_best _ _ _ _ Ea).
  destruct (propagate _ _ _) as [w1|]; cbn [bind] in *; [|discriminate].
  destruct (act_loop _ true _ _ _) as [[w2|w2]|] eqn:E2; cbn [bind] in *; [|injection H as _ <-; contradiction|discriminate]. rewrite (act_best _ _ _ _ _ E2). cbn [bind].
  destruct (deact_loop m true _ _ _) as [w3|] eqn:E3; [|injection H as _ <-; contradiction]. rewrite (deact_best _ _ _ _ _ E3).
  destruct (sw_empty w3).
  { injection H as <- <-. unfold as_best_effort, set_rm, set_pend. cbn. rewrite PE. reflexivity. }
  destruct (conflict_loop true _ _) as [w4|] eqn:E4; [|injection H as _ <-; contradiction]. rewrite (conflict_best _ _ _ E4).
  destruct (sw_empty w4).
  { injection H as <- <-. unfold as_best_effort, set_rm, set_pend. cbn. rewrite PE. reflexivity. }
  destruct (check_availability _ _) as [[|]|]; cbn [bind negb] in *; [|injection H as _ <-; contradiction|discriminate].
  destruct (rm_prepare _ _ _ _ _) as [r5 [|]]; cbn [negb] in *; [|injection H as _ <-; contradiction].
  injection H as <- <-. reflexivity.
Qed.
Lemma main_best e allow m a d asap m1 o : cstep e allow m (CRequest a d true asap) = Val (m1, CSw o) -> o <> SwError ->
  cstep e allow m (CRequest a d false asap) = Val (as_best_effort m1, CSw o).
Proof.
  intros H NE. unfold cstep, serviced in *. destruct (cm_pend (emit m EvOp)) eqn:PE; [discriminate|].
  apply bind_val in H. destruct H as ([m' o'] & H & E). injection E as -> ->. rewrite (request_best _ _ _ _ _ _ _ _ H NE PE). reflexivity.
Qed.
Lemma main_best_done e allow hs ops m a d asap : wf_hw hs -> cleans_up e -> crun e allow (cm_start hs) ops = Val m ->
  acceptable e allow m a d -> (forall n, In n a \/ state_in m n = Some Active -> works e n) -> hardware_performs e ->
  exists m1 m2 m3, cstep e allow m (CRequest a d false asap) = Val (m1, CSw SwPending) /\
    cstep e allow m1 CPerform = Val (m2, CNone) /\ cstep e allow m2 CEvaluate = Val (m3, CBool true) /\
    (forall n, state_in m3 n = asked_state m a d n) /\
    (forall c, In c (cm_ctrls m3) -> In (c_name c) a -> c_cloans c = cmd_names (cm_rm m3) c /\ c_sloans c = state_names (cm_rm m3) c).
Proof.
  intros W CU HC HA HW HP. destruct (main_accepts _ _ _ _ _ _ _ asap W CU HC HA) as (m1 & H1).
  destruct (main_done_both e allow hs ops m a d asap m1 W HC (nodup_left _ _ (ac_once _ _ _ _ _ HA)) (ac_real _ _ _ _ _ HA) HW HP H1) as (m2 & m3 & _ & _ & H2 & H3 & H4 & H5).
  exists (as_best_effort m1), (as_best_effort m2), m3. split; [apply (main_best _ _ _ _ _ _ _ _ H1); discriminate|]. auto.
Qed.

(** unknown names are ignored *)
Lemma list_known m : forall ns got ok, (ok = true \/ exists n, In n ns /\ In n (map c_name (cm_ctrls m))) -> (got = [] -> ok = true -> ns = [] \/ exists n, In n ns /\ In n (map c_name (cm_ctrls m))) ->
  list_controllers (cm_ctrls m) false ns got ok = Some (got ++ loaded_of m ns).
Proof.
  induction ns as [|n ns IH]; intros got ok K G; cbn [list_controllers].
  { destruct K as [->|(n & [] & _)]. rewrite app_nil_r. reflexivity. }
  unfold loaded_of. cbn [filter]. unfold is_loaded at 1. change (find_ctrl m n) with (find_in (cm_ctrls m) n).
  destruct (find_in (cm_ctrls m) n) as [c|] eqn:F.
  - rewrite IH; [rewrite <- app_assoc; reflexivity|auto|]. intros X. destruct got; discriminate.
  - assert (NI : ~ In n (map c_name (cm_ctrls m))).
    { intros I. apply in_map_iff in I. destruct I as (c & <- & Ic). unfold find_in in F. pose proof (find_none _ _ F c Ic) as X. cbn in X. rewrite String.eqb_refl in X. discriminate. }
    assert (Q : forall y, (exists n0, In n0 (n :: ns) /\ In n0 y) -> y = map c_name (cm_ctrls m) -> exists n0, In n0 ns /\ In n0 y).
    { intros y (z & [<-|Iz] & Iy) ->; [contradiction|eauto]. }
    rewrite IH; [reflexivity| |].
    + destruct got as [|g got]; [|left; reflexivity]. right. destruct K as [->|K]; [|apply Q; auto]. destruct (G eq_refl eq_refl) as [X|X]; [discriminate|apply Q; auto].
    + intros -> X. discriminate.
Qed.
Lemma loaded_in m ns n : In n (loaded_of m ns) <-> In n ns /\ is_loaded m n = true.
Proof. unfold loaded_of. apply filter_In. Qed.
Lemma is_loaded_name m n : is_loaded m n = true <-> In n (map c_name (cm_ctrls m)).
Proof.
  unfold is_loaded, find_ctrl. destruct (find_in (cm_ctrls m) n) as [c|] eqn:F.
  - split; [|reflexivity]. intros _. apply find_some in F. destruct F as [Ic E]. apply String.eqb_eq in E. subst n. apply in_map. exact Ic.
  - split; [discriminate|]. intros I. apply in_map_iff in I. destruct I as (c & <- & Ic). unfold find_in in F. pose proof (find_none _ _ F c Ic) as X. cbn in X. rewrite String.eqb_refl in X. discriminate.
Qed.
Lemma loaded_twice m ns : loaded_of m (loaded_of m ns) = loaded_of m ns.
Proof.
  unfold loaded_of. induction ns as [|n ns IH]; [reflexivity|]. cbn [filter]. destruct (is_loaded m n) eqn:E; [|exact IH]. cbn [filter]. rewrite E, IH. reflexivity.
Qed.
Lemma list_both m ns : some_known m ns -> list_controllers (cm_ctrls m) false ns [] true = list_controllers (cm_ctrls m) false (loaded_of m ns) [] true.
Proof.
  intros K. rewrite list_known; [|auto|intros _ _; exact K]. rewrite list_known; [rewrite loaded_twice; reflexivity|auto|].
  intros _ _. destruct K as [->|(n & I & L)]; [auto|]. right. exists n. split; [|exact L]. apply loaded_in. split; [exact I|]. apply is_loaded_name. exact L.
Qed.
Lemma main_unknown e allow m a d asap : some_known m a -> some_known m d ->
  cstep e allow m (CRequest a d false asap) = cstep e allow m (CRequest (loaded_of m a) (loaded_of m d) false asap).
Proof.
  intros Ka Kd. unfold cstep, serviced. destruct (cm_pend (emit m EvOp)); [reflexivity|]. unfold switch_request.
  change (cm_ctrls (emit m EvOp)) with (cm_ctrls m). rewrite (list_both m a Ka), (list_both m d Kd). reflexivity.
Qed.

(** what is started was asked for (or runs already and is restarted); what is stopped was asked for, or is restarted *)
Record within (m : cm) (a d : list name) (w : sw) : Prop := {
  wi_a : forall n, In n (w_act w) -> In n a \/ exists c, In c (cm_ctrls m) /\ c_name c = n /\ c_lc c = Active;
  wi_d : forall n, In n (w_deact w) -> In n d \/ exists c, In c (cm_ctrls m) /\ c_name c = n /\ c_lc c = Active /\ (In n (w_to w) \/ In n (w_from w)) }.
Lemma within_conflict1 m a d strict w c : In c (cm_ctrls m) -> within m a d w -> within m a d (either (conflict_one strict w c)) /\
  w_to (either (conflict_one strict w c)) = w_to w /\ w_from (either (conflict_one strict w c)) = w_from w.
Proof.
  intros Ic W. unfold conflict_one. set (restart := ((_ || _) && _ && _)%bool). set (w1 := if restart then _ else w).
  assert (W1 : within m a d w1 /\ w_to w1 = w_to w /\ w_from w1 = w_from w).
  { unfold w1. destruct restart eqn:R; [|split; [exact W|auto]]. unfold restart in R. apply andb_prop in R. destruct R as [R _]. apply andb_prop in R. destruct R as [R1 R].
    apply active_dec in R. destruct W as [A D]. split; [|auto]. constructor; cbn; intros x Hx; apply in_app_iff in Hx; (destruct Hx as [Hx|[<-|[]]]; [auto|right; exists c; auto]).
    do 3 (split; [auto|]). apply orb_prop in R1. rewrite !mem_In in R1. exact R1. }
  clearbody w1. cbv zeta.
  set (Q := fun x => within m a d x /\ w_to x = w_to w /\ w_from x = w_from w).
  assert (RA : forall w, Q w -> Q (sw_lists w (remove1 (c_name c) (w_act w)) (w_deact w))).
  { intros x [[A D] T]. split; [|exact T]. constructor; cbn; auto. intros y I. apply In_remove1_sub in I. auto. }
  assert (RD : forall w, Q w -> Q (sw_lists w (w_act w) (remove1 (c_name c) (w_deact w)))).
  { intros x [[A D] T]. split; [|exact T]. constructor; cbn; auto. intros y I. apply In_remove1_sub in I. auto. }
  assert (RI : forall w r s t, Q w -> Q (sw_itfs w r s t)). { intros x r s t [[A D] T]. split; [|exact T]. constructor; cbn; assumption. }
  assert (QW : Q w) by (split; [exact W|auto]).
  change (Q (either (if ((negb (is_lc Active c) && mem (c_name c) (w_deact w1)) && strict)%bool then inr w else
    let w2 := if (negb (is_lc Active c) && mem (c_name c) (w_deact w1))%bool then sw_lists w1 (w_act w1) (remove1 (c_name c) (w_deact w1)) else w1 in
    let in_d := (mem (c_name c) (w_deact w1) && negb (negb (is_lc Active c) && mem (c_name c) (w_deact w1)))%bool in
    let in_a := mem (c_name c) (w_act w1) in
  let c2 := is_lc Active c && negb in_d && in_a in
  if c2 && strict then inr w else
  let w3 := if c2 then sw_lists w2 (remove1 (c_name c) (w_act w2)) (w_deact w2) else w2 in
  let in_a := in_a && negb c2 in
  let c3 := negb (is_lc Inactive c) && negb in_d && in_a in
  if c3 && strict then inr w else
  let w4 := if c3 then sw_lists w3 (remove1 (c_name c) (w_act w3)) (w_deact w3) else w3 in
  let in_a := in_a && negb c3 in
  let w5 := sw_itfs w4 (w_rm w4)
              (if in_a then w_start w4 ++ extract_cmd (w_rm w4) c else w_start w4)
              (if in_d then w_stop w4 ++ extract_cmd (w_rm w4) c else w_stop w4) in
  inl (if in_a then
          sw_itfs w5 (cache_controller (w_rm w5) (c_name c)
                        (cmd_names (w_rm w5) c ++ state_names (w_rm w5) c)) (w_start w5) (w_stop w5)
        else w5)))). cbv zeta.
  repeat match goal with |- context [if ?b then inr _ else _] => destruct b; [exact QW|] end. cbn [either].
  match goal with |- Q (if ?b then sw_itfs ?w ?r _ _ else _) => destruct b end; repeat apply RI;
  repeat match goal with |- Q (if ?b then _ else _) => destruct b; [apply RA || apply RD|] end; auto;
  repeat match goal with |- Q (if ?b then _ else _) => destruct b; [apply RA || apply RD|] end; auto; try exact W1.
Qed.
Lemma within_conflict m a d strict : forall cs w, incl cs (cm_ctrls m) -> within m a d w -> within m a d (either (conflict_loop strict cs w)).
Proof.
  induction cs as [|c cs IH]; intros w Hi W; cbn [conflict_loop]; [exact W|].
  destruct (within_conflict1 m a d strict w c (Hi c (or_introl eq_refl)) W) as [W1 _]. destruct (conflict_one strict w c) as [w1|w1]; cbn [either] in W1; [|exact W1].
  apply IH; [intros x Hx; apply Hi; right; exact Hx|exact W1].
Qed.
Lemma act_within l strict : forall rest kept w x, act_loop l strict kept rest w = Val x -> incl (w_act w) (kept ++ rest) ->
  incl (w_act (either x)) (kept ++ rest) /\ w_deact (either x) = w_deact w.
Proof.
  induction rest as [|n rest IH]; intros kept w x H I; cbn [act_loop] in H; [injection H as <-; auto|].
  apply bind_val in H. destruct H as ([w1 ok] & H1 & H). assert (E : w_act w1 = w_act w /\ w_deact w1 = w_deact w).
  { unfold check_activate in H1. destruct (find_in l n) as [c|]; [|discriminate]. apply bind_val in H1. destruct H1 as ([w2 ok2] & H2 & H1).
    assert (E2 : w_act w2 = w_act w /\ w_deact w2 = w_deact w).
    { destruct (c_lc c); try (injection H2 as <- _; auto). apply follow_spec in H2. destruct H2 as ([A B _ _] & _). auto. }
    destruct ok2; [apply bind_val in H1; destruct H1 as (b & _ & H1)|]; injection H1 as <- _; exact E2. }
  destruct E as [E1 E2]. destruct ok; [|destruct strict].
  - apply IH in H; [|rewrite E1, <- app_assoc; exact I]. rewrite <- app_assoc, E2 in H. exact H.
  - injection H as <-. cbn [either]. rewrite E1, E2. auto.
  - apply IH in H; [|cbn; apply incl_refl]. destruct H as [H3 H4]. cbn in H4. split; [|congruence].
    intros y Hy. apply H3 in Hy. apply in_app_iff in Hy. apply in_app_iff. destruct Hy; [auto|right; right; assumption].
Qed.
Lemma deact_within m strict : forall rest kept w x, deact_loop m strict kept rest w = Some x -> incl (w_deact w) (kept ++ rest) ->
  incl (w_deact x) (kept ++ rest) /\ w_act x = w_act w.
Proof.
  induction rest as [|n rest IH]; intros kept w x H I; cbn [deact_loop] in H; [injection H as <-; auto|]. cbv zeta in H.
  destruct (match find_ctrl m n with Some c => is_lc Active c && check_preceding m w c | None => false end); [|destruct strict; [discriminate|]].
  - apply IH in H; [|rewrite <- app_assoc; exact I]. rewrite <- app_assoc in H. exact H.
  - apply IH in H; [|cbn; apply incl_refl]. destruct H as [H3 H4]. split; [|exact H4].
    intros y Hy. apply H3 in Hy. apply in_app_iff in Hy. apply in_app_iff. destruct Hy; [auto|right; right; assumption].
Qed.
Lemma request_within e allow m a d strict asap m' : switch_request e allow m a d strict asap = Val (m', SwPending) ->
  cm_ctrls m' = cm_ctrls m /\ exists p, cm_pend m' = Some p /\ p_done p = false /\
    (forall n, In n (p_act p) -> In n a \/ exists c, In c (cm_ctrls m) /\ c_name c = n /\ c_lc c = Active) /\
    (forall n, In n (p_deact p) -> In n d \/ exists c, In c (cm_ctrls m) /\ c_name c = n /\ c_lc c = Active).
Proof.
  intros H. unfold switch_request in H.
  destruct (list_controllers _ strict d [] true) as [d'|] eqn:Ed; [|discriminate].
  destruct (list_controllers _ strict a [] true) as [a'|] eqn:Ea; [|discriminate].
  apply bind_val in H. destruct H as (w1 & H1 & H). apply propagate_same in H1. destruct H1 as ([A1 D1 _ _] & _ & _). cbn [w_act w_deact] in A1, D1.
  apply bind_val in H. destruct H as (x & H2 & H). apply act_within in H2; [|rewrite A1; apply incl_refl]. destruct H2 as [A2 D2]. rewrite D1 in D2. cbn [app] in A2.
  destruct x as [w2|w2]; [|discriminate]. cbn [either] in A2, D2.
  destruct (deact_loop m strict [] (w_deact w2) w2) as [w3|] eqn:E3; [|discriminate]. apply deact_within in E3; [|apply incl_refl]. cbn [app] in E3. destruct E3 as [D3 A3].
  destruct (sw_empty w3); [discriminate|].
  assert (W3 : within m a d w3).
  { constructor; intros n Hn; left.
    - rewrite A3 in Hn. apply A2 in Hn. destruct (CmBystander.list_sub _ _ _ _ _ _ Ea n Hn) as [[]|]; assumption.
    - apply D3 in Hn. rewrite D2 in Hn. destruct (CmBystander.list_sub _ _ _ _ _ _ Ed n Hn) as [[]|]; assumption. }
  pose proof (within_conflict m a d strict (cm_ctrls m) w3 (incl_refl _) W3) as W4. destruct (conflict_loop strict (cm_ctrls m) w3) as [w4|w4]; [|discriminate]. cbn [either] in W4.
  destruct (sw_empty w4); [discriminate|]. apply bind_val in H. destruct H as (b & _ & H). destruct b; cbn [negb] in H; [|discriminate].
  destruct (rm_prepare e allow (w_rm w4) (w_start w4) (w_stop w4)) as [r5 ok]. destruct ok; cbn [negb] in H; [|discriminate].
  injection H as <-. split; [reflexivity|]. eexists. split; [reflexivity|]. cbn. split; [reflexivity|]. destruct W4 as [WA WD]. split; [exact WA|].
  intros n Hn. destruct (WD n Hn) as [X|(c & X & Y & Z & _)]; [auto|]. right. eauto.
Qed.
Lemma main_starts_only e allow hs ops m a d strict asap m1 m2 out : crun e allow (cm_start hs) ops = Val m ->
  cstep e allow m (CRequest a d strict asap) = Val (m1, CSw SwPending) -> cstep e allow m1 CPerform = Val (m2, out) ->
  forall n, state_in m2 n = Some Active -> In n a \/ state_in m n = Some Active.
Proof.
  intros HC H1 H2 n Hn. pose proof (reach_NI _ _ _ _ _ HC) as HN. pose proof (crun_snoc _ _ _ _ _ _ _ _ HC H1) as HC1.
  unfold cstep, serviced in H1. set (me := emit m EvOp) in *. destruct (cm_pend me); [discriminate|].
  apply bind_val in H1. destruct H1 as ([m1' o] & H1 & E). assert (m1' = m1) by congruence. assert (o = SwPending) by congruence. subst m1' o.
  destruct (request_within _ _ _ _ _ _ _ _ H1) as (C1 & p & Pp & Dp & PA & _).
  unfold cstep in H2. change (cm_pend (emit m1 EvOp)) with (cm_pend m1) in H2. rewrite Pp, Dp in H2.
  apply bind_val in H2. destruct H2 as (m3 & H2 & E2). injection E2 as <- _. change (state_in m3 n = Some Active) in Hn.
  unfold state_in in Hn. destruct (find_ctrl m3 n) as [c'|] eqn:F; [|discriminate]. cbn [option_map] in Hn. injection Hn as Hn.
  assert (N1 : NI (emit m1 EvOp)) by (exact (reach_NI _ _ _ _ _ HC1)).
  destruct (manage_active e allow _ p m3 N1 H2 c' (find_in_In _ _ _ F) Hn) as (c & Ic & SC & AC).
  assert (Nc : c_name c = n) by (rewrite <- (find_in_name _ _ _ F); symmetry; apply SC).
  change (cm_ctrls (emit m1 EvOp)) with (cm_ctrls m1) in Ic. rewrite C1 in Ic.
  assert (Q : forall c0, In c0 (cm_ctrls m) -> c_name c0 = n -> c_lc c0 = Active -> state_in m n = Some Active).
  { intros c0 I0 E0 L0. unfold state_in, find_ctrl. rewrite <- E0, (NoDup_find _ _ (proj1 HN) I0). cbn. congruence. }
  destruct AC as [L|[_ AC]]; [right; eapply Q; eassumption|]. rewrite Nc in AC. destruct (PA n AC) as [X|(c0 & I0 & E0 & L0)]; [auto|]. right. eapply Q; eassumption.
Qed.
