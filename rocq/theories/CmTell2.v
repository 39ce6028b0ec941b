(** CmTell2.v -- what the hardware is told in the error handling of the real-time cycle. *)
From Coq Require Import Lia Permutation.
From Verif Require Import Base Events HwModel RmModel RmSys RmSpec RmSpec2 HwProofs RmProofs RmInv RmMode RmExact ChainModel CmModel CmPrim ChainSpec CmTopo CmInv CmSpec CmReach CmSwitch CmOutcome CmLoad CmIntact UpdateSpec CmDeact CmErr CmFallback LifeSpec CmLife CmRefs DoneSpec CmDone CmCycle TellSpec CmTell.
Open Scope list_scope.

Lemma list_cmds_spec m ns k : NoDup (map c_name (cm_ctrls m)) ->
  In k (list_cmds m ns) <-> commanded_configured m m ns k.
Proof.
  intros ND. unfold list_cmds, commanded_configured, wants_cmd. rewrite in_flat_map. split.
  - intros (n & Hn & H). destruct (find_ctrl m n) as [c|] eqn:F; [|destruct H]. destruct (find_loaded m n c F) as [Hc <-].
    unfold extract_cmd in H. exists c. split; [exact Hc|]. split; [exact Hn|].
    unfold is_lc in H. destruct (c_lc c); cbn in H; try (destruct H; fail); auto.
  - intros (c & Hc & Hn & L & H). exists (c_name c). split; [exact Hn|]. unfold find_ctrl. rewrite (NoDup_find _ _ ND Hc).
    unfold extract_cmd, is_lc. destruct L as [L|L]; rewrite L; exact H.
Qed.

(** telling the hardware, then stopping controllers *)
Definition stop_told (e : env) (m0 m m' : cm) (stop : name -> Prop) (before : trace) : Prop :=
  exists prepared performed ctl,
    rm_trace (cm_rm m') = ctl ++ performed ++ prepared ++ before /\
    told MPrepare m nothing stop prepared /\ told MPerform m nothing stop performed /\ Forall stops_ctrl ctl /\
    (can_stop e m stop -> all_agreed MPrepare m nothing stop prepared /\ all_agreed MPerform m nothing stop performed).

Lemma possible_stop e op allow m (stop : name -> Prop) b : (forall k, In k b <-> stop k) -> can_stop e m stop -> switch_possible e op allow (cm_rm m) [] b.
Proof.
  intros Eb [_ C] n h F K (k & I & [[]|W]). destruct (C n h F K) as [A B]; [exists k; split; [exact I|apply Eb; exact W]|].
  split; [exact A|]. split; [right; right; intros ? []|]. unfold answers_ok. destruct op; intros t s p; apply B.
Qed.

Lemma stopping e allow m ds : RI (cm_rm m) -> NoDup (map c_name (cm_ctrls m)) ->
  stop_told e m m (deactivate_controllers e (mode_change e allow m [] ds) ds) (commanded_configured m m ds) (rm_trace (cm_rm m)).
Proof.
  intros HR ND. unfold mode_change. cbn [list_cmds flat_map].
  pose proof (fun k => list_cmds_spec m ds k ND) as LS.
  destruct (prep_perf_tells e allow m [] (list_cmds m ds) HR) as (t1 & t2 & T & _ & D1 & D2 & _ & C).
  destruct (LF_trace _ _ _ (LF_deactivate stops_ctrl e ds (fun ev h => h) (prep_perf e allow m [] (list_cmds m ds)))) as (x & Tx & Fx).
  assert (NN : forall k, member [] k <-> nothing k) by (intros k; unfold member, nothing; cbn; tauto).
  exists t1, t2, x. split; [rewrite Tx, T; reflexivity|].
  split; [eapply told_iff; [exact NN|exact LS|exact D1]|]. split; [eapply told_iff; [exact NN|exact LS|exact D2]|]. split; [exact Fx|].
  intros CS. destruct C as [C1 C2].
  - intros k [[]|Hk]. apply (proj1 CS). apply LS. exact Hk.
  - eapply possible_stop; [exact LS|exact CS].
  - eapply possible_stop; [exact LS|exact CS].
  - split; (eapply agreed_iff; [exact NN|exact LS|assumption]).
Qed.

Lemma main_read_tells e allow hs ops m m' out : wf_hw hs -> crun e allow (cm_start hs) ops = Val m ->
  cstep e allow m CRead = Val (m', out) ->
  exists reads later, happened m m' (later ++ reads) /\ Forall read_ev reads /\
    let after := after_read e m in
    let stop := commanded_configured after after (users_of_failed after (read_report e m)) in
    (rw_result (read_report e m) = ROk -> later = []) /\
    (rw_result (read_report e m) <> ROk -> exists prepared performed ctl, later = ctl ++ performed ++ prepared /\
       told MPrepare after nothing stop prepared /\ told MPerform after nothing stop performed /\ Forall stops_ctrl ctl /\
       (can_stop e after stop -> all_agreed MPrepare after nothing stop prepared /\ all_agreed MPerform after nothing stop performed)).
Proof.
  intros W R H. pose proof (reach_NI _ _ _ _ _ R) as [ND _]. pose proof (reach_CI _ _ _ _ _ W R) as [_ HR _].
  unfold cstep in H. injection H as <- _. unfold cm_read, after_read, read_report, users_of_failed.
  assert (HR0 : RI (cm_rm (emit m EvOp))) by (apply RI_emit; [intros h []|exact HR]).
  assert (HR1 : RI (fst (rm_read e (cm_rm (emit m EvOp))))).
  { apply (prim_RI e allow (fun _ => True) (emit m EvOp) _ HR0 (p_read e allow (fun _ => True) (emit m EvOp) I)). }
  destruct (ext_read e (cm_rm (emit m EvOp))) as (x & Tx & Fx).
  destruct (rm_read e (cm_rm (emit m EvOp))) as [r1 st]. cbn [fst snd cm_rm set_rm] in *.
  set (m1 := set_rm (emit m EvOp) r1) in *.
  destruct (rtype_eqb (rw_result st) ROk) eqn:E.
  - exists x, []. split; [exact Tx|]. split; [exact Fx|]. split; [reflexivity|]. intros N. destruct (rw_result st); [elim N; reflexivity| |]; discriminate.
  - destruct (stopping e allow m1 (flat_map (cached_controllers r1) (rw_failed st)) HR1 ND) as (t1 & t2 & ctl & T & D).
    exists x, (ctl ++ t2 ++ t1). split; [unfold happened; rewrite T; unfold m1; cbn [cm_rm set_rm]; rewrite Tx, !app_assoc; reflexivity|]. split; [exact Fx|]. cbv zeta.
    split; [intros N; rewrite N in E; discriminate|]. intros _. exists t1, t2, ctl. split; [reflexivity|]. exact D.
Qed.

Lemma main_write_tells e allow hs ops m m' out : wf_hw hs -> crun e allow (cm_start hs) ops = Val m ->
  cstep e allow m CWrite = Val (m', out) ->
  exists writes later, happened m m' (later ++ writes) /\ Forall write_ev writes /\
    let after := after_write e m in
    let stop := commanded_configured after after (users_of_failed after (write_report e m)) in
    (rw_result (write_report e m) = ROk -> later = []) /\
    (rw_result (write_report e m) <> ROk -> exists prepared performed ctl, later = ctl ++ performed ++ prepared /\
       told MPrepare after nothing stop prepared /\ told MPerform after nothing stop performed /\ Forall stops_ctrl ctl /\
       (can_stop e after stop -> all_agreed MPrepare after nothing stop prepared /\ all_agreed MPerform after nothing stop performed)).
Proof.
  intros W R H. pose proof (reach_NI _ _ _ _ _ R) as [ND _]. pose proof (reach_CI _ _ _ _ _ W R) as [_ HR _].
  unfold cstep in H. injection H as <- _. unfold cm_write, after_write, write_report, users_of_failed.
  assert (HR0 : RI (cm_rm (emit m EvOp))) by (apply RI_emit; [intros h []|exact HR]).
  assert (HR1 : RI (fst (rm_write e (cm_rm (emit m EvOp))))).
  { apply (prim_RI e allow (fun _ => True) (emit m EvOp) _ HR0 (p_write e allow (fun _ => True) (emit m EvOp) I)). }
  destruct (ext_write e (cm_rm (emit m EvOp))) as (x & Tx & Fx).
  destruct (rm_write e (cm_rm (emit m EvOp))) as [r1 st]. cbn [fst snd cm_rm set_rm] in *.
  set (m1 := set_rm (emit m EvOp) r1) in *.
  set (all := flat_map (cached_controllers r1) (rw_failed st)) in *.
  assert (G : forall ds, (forall k, commanded_configured m1 m1 ds k <-> commanded_configured m1 m1 all k) ->
     exists writes later, happened m (deactivate_controllers e (mode_change e allow m1 [] ds) ds) (later ++ writes) /\ Forall write_ev writes /\
     exists prepared performed ctl, later = ctl ++ performed ++ prepared /\
       told MPrepare m1 nothing (commanded_configured m1 m1 all) prepared /\ told MPerform m1 nothing (commanded_configured m1 m1 all) performed /\ Forall stops_ctrl ctl /\
       (can_stop e m1 (commanded_configured m1 m1 all) -> all_agreed MPrepare m1 nothing (commanded_configured m1 m1 all) prepared /\ all_agreed MPerform m1 nothing (commanded_configured m1 m1 all) performed)).
  { intros ds ED. destruct (stopping e allow m1 ds HR1 ND) as (t1 & t2 & ctl & T & D1 & D2 & D3 & D4).
    assert (NN : forall k, nothing k <-> nothing k) by (intros; reflexivity).
    exists x, (ctl ++ t2 ++ t1). split; [unfold happened; rewrite T; unfold m1; cbn [cm_rm set_rm]; rewrite Tx, !app_assoc; reflexivity|]. split; [exact Fx|].
    exists t1, t2, ctl. split; [reflexivity|]. split; [eapply told_iff; [exact NN|exact ED|exact D1]|]. split; [eapply told_iff; [exact NN|exact ED|exact D2]|].
    split; [exact D3|]. intros [C1 C2]. destruct D4 as [A B].
    { split; [intros k Hk; apply C1, ED, Hk|]. intros n h F K (k & I & Hk). apply (C2 n h F K). exists k. split; [exact I|apply ED; exact Hk]. }
    split; (eapply agreed_iff; [exact NN|exact ED|assumption]). }
  cbv zeta in *. destruct (rw_result st) eqn:E.
  - exists x, []. split; [exact Tx|]. split; [exact Fx|]. split; [reflexivity|]. intros N. elim N. reflexivity.
  - destruct (G all (fun k => iff_refl _)) as (w & l & A & B & C). exists w, l. split; [exact A|]. split; [exact B|]. split; [discriminate|]. intros _. exact C.
  - match goal with |- context [mode_change e allow m1 [] ?ds] => destruct (G ds) as (w & l & A & B & C) end.
    { intros k. unfold commanded_configured, wants_cmd. split; intros (c & C1 & C2 & C3 & C4); exists c; (split; [exact C1|]); (split; [|auto]).
      - apply filter_In in C2. tauto.
      - apply filter_In. split; [exact C2|]. unfold find_ctrl. rewrite (NoDup_find _ _ (ND : NoDup (map c_name (cm_ctrls m1))) C1).
        unfold extract_cmd, is_lc. unfold m1 in C4. cbn [cm_rm set_rm] in C4. destruct C3 as [L|L]; rewrite L; cbn; destruct (cmd_names r1 c); [destruct C4|reflexivity|destruct C4|reflexivity]. }
    exists w, l. split; [exact A|]. split; [exact B|]. split; [discriminate|]. intros _. exact C.
Qed.
