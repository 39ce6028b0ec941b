(** CmTell3.v -- what the hardware is told when the update of controllers failed. *)
From Coq Require Import Lia Permutation.
From Verif Require Import Base Events HwModel RmModel RmSys RmSpec RmSpec2 HwProofs RmProofs RmInv RmMode RmExact ChainModel CmModel CmPrim ChainSpec CmTopo CmInv CmSpec CmReach CmSwitch CmOutcome CmLoad CmIntact UpdateSpec CmDeact CmErr CmFallback LifeSpec CmLife CmRefs DoneSpec CmDone CmCycle TellSpec CmTell CmTell2.
Open Scope list_scope.

Lemma users_inv m f x : forall acc, In x (users_of m f acc) ->
  In x acc \/ exists fc c k, find_ctrl m f = Some fc /\ In c (cm_ctrls m) /\ c_name c = x /\ c_lc c = Active /\ In k (cmd_names (cm_rm m) fc) /\ In k (cmd_names (cm_rm m) c).
Proof.
  intros acc. unfold users_of. destruct (find_ctrl m f) as [fc|]; [|auto].
  assert (I : forall k l acc, incl l (cm_ctrls m) -> In x (fold_left (fun acc c => if is_lc Active c && mem k (cmd_names (cm_rm m) c) then add_item acc (c_name c) else acc) l acc) ->
     In x acc \/ exists c, In c (cm_ctrls m) /\ c_name c = x /\ c_lc c = Active /\ In k (cmd_names (cm_rm m) c)).
  { intros k. induction l as [|c l IH]; intros a IN H; [left; exact H|]. cbn [fold_left] in H. apply IH in H; [|intros z Hz; apply IN; right; exact Hz].
    destruct H as [H|H]; [|right; exact H]. destruct (is_lc Active c && _) eqn:E; [|left; exact H]. apply In_add_item in H. destruct H as [->|H]; [|left; exact H].
    right. apply andb_prop in E. destruct E as [E1 E2]. exists c. split; [apply IN; left; reflexivity|]. split; [reflexivity|].
    split; [apply lc_eqb_eq; exact E1|apply mem_In; exact E2]. }
  assert (J : forall ks acc, In x (fold_left (fun acc k => fold_left (fun acc c => if is_lc Active c && mem k (cmd_names (cm_rm m) c) then add_item acc (c_name c) else acc) (cm_ctrls m) acc) ks acc) ->
     In x acc \/ exists k c, In k ks /\ In c (cm_ctrls m) /\ c_name c = x /\ c_lc c = Active /\ In k (cmd_names (cm_rm m) c)).
  { induction ks as [|k ks IH]; intros a H; [left; exact H|]. cbn [fold_left] in H. apply IH in H. destruct H as [H|(k' & c & A & B)]; [|right; exists k', c; split; [right; exact A|exact B]].
    apply I in H; [|apply incl_refl]. destruct H as [H|(c & A)]; [left; exact H|right; exists k, c; split; [left; reflexivity|exact A]]. }
  intros H. apply J in H. destruct H as [H|(k & c & A & B & C & D & E)]; [left; exact H|right; exists fc, c, k; auto 8].
Qed.
Lemma users_all_inv m x : forall fs acc, In x (fold_left (fun acc f => users_of m f acc) fs acc) ->
  In x acc \/ exists f fc c k, In f fs /\ find_ctrl m f = Some fc /\ In c (cm_ctrls m) /\ c_name c = x /\ c_lc c = Active /\ In k (cmd_names (cm_rm m) fc) /\ In k (cmd_names (cm_rm m) c).
Proof.
  induction fs as [|f fs IH]; intros acc H; [left; exact H|]. cbn [fold_left] in H. apply IH in H.
  destruct H as [H|(f' & fc & c & k & A & B)]; [|right; exists f', fc, c, k; split; [right; exact A|exact B]].
  apply users_inv in H. destruct H as [H|(fc & c & k & B)]; [left; exact H|right; exists f, fc, c, k; split; [left; reflexivity|exact B]].
Qed.
Lemma possible_both e op allow m (start stop : name -> Prop) a b : (forall k, In k a <-> start k) -> (forall k, In k b <-> stop k) ->
  can_switch e allow m start stop -> switch_possible e op allow (cm_rm m) a b.
Proof.
  intros Ea Eb [_ C] n h F K (k & I & W). destruct (C n h F K) as (A & S & B).
  { exists k. split; [exact I|]. destruct W as [W|W]; [left; apply Ea|right; apply Eb]; exact W. }
  split; [exact A|]. split.
  - destruct S as [S|[S|S]]; [left; exact S|right; left; exact S|right; right]. intros k' Hk. apply S. apply Ea. exact Hk.
  - unfold answers_ok. destruct op; intros t s p; apply B.
Qed.
Lemma told_some op m a (b : name -> Prop) t : told op m a b t -> (forall k, ~ a k) -> (forall k, ~ b k) -> t = [].
Proof.
  intros [F _] A B. destruct t as [|ev t]; [reflexivity|]. inversion F as [|? ? (n & h & s & p & x & _ & _ & _ & _ & _ & k & _ & [K|K]) _]; subst; [elim (A k K)|elim (B k K)].
Qed.

Section Upd.
Variables (e : env) (allow : bool) (m m' : cm) (o : cout).
Hypothesis HF : FI m.
Hypothesis HS : cstep e allow m CUpdate = Val (m', o).

Lemma update_tells :
  exists updates later, happened m m' (later ++ updates) /\ (forall ev, In ev updates -> exists n r, ev = EvUpdate n r) /\
    ((forall n, ~ taken_out m m' n) -> later = []) /\
    exists prepared performed down up undone, later = undone ++ up ++ down ++ performed ++ prepared /\
      told MPrepare m (starts_in_update m m') (stops_in_update m m') prepared /\
      told MPerform m (starts_in_update m m') (stops_in_update m m') performed /\
      Forall stops_ctrl down /\ Forall switches_ctrl up /\
      (cm_pend m = None -> undone = []) /\ Forall LifeSpec.mode_event undone /\
      ((exists n, taken_out m m' n) -> can_switch e allow m (starts_in_update m m') (stops_in_update m m') ->
         all_agreed MPrepare m (starts_in_update m m') (stops_in_update m m') prepared /\
         all_agreed MPerform m (starts_in_update m m') (stops_in_update m m') performed).
Proof using HF HS.
  pose proof (ci_n _ (fi_ci _ HF)) as HN. pose proof (proj1 HN) as ND. pose proof (ci_r _ (fi_ci _ HF)) as HR.
  destruct (taken_list _ _ _ _ _ HN HS) as (m1 & ds & x & [E U] & SM & TO & FB & K).
  destruct ds as [|d ds].
  { exists x, []. subst m'. split; [unfold happened; rewrite E; reflexivity|]. split; [exact U|]. split; [reflexivity|].
    exists [], [], [], [], []. split; [reflexivity|]. split; [apply told_nil|]. split; [apply told_nil|].
    split; [constructor|]. split; [constructor|]. split; [reflexivity|]. split; [constructor|]. intros (n & Hn). apply TO in Hn. destruct Hn. }
  cbv zeta in K. set (fbs := fbs_of m (d :: ds)) in *. set (us := fold_left _ fbs []) in *. set (dl := add_items (d :: ds) us) in *.
  set (fl := add_items [] fbs) in *. set (m2 := deactivate_controllers e (mode_change e allow m1 fl dl) dl) in *.
  assert (F1 : FI m1) by exact (steps_FI _ _ _ _ _ (SM calm) HF). pose proof (ci_r _ (fi_ci _ F1)) as HR1.
  assert (ND1 : NoDup (map c_name (cm_ctrls m1))) by (rewrite E; exact ND).
  assert (HH : rm_hw (cm_rm m1) = rm_hw (cm_rm m)) by (rewrite E; reflexivity).
  assert (W1 : forall c k, In k (cmd_names (cm_rm m1) c) <-> wants_cmd m c k) by (intros c k; rewrite E; reflexivity).
  assert (C1 : cm_ctrls m1 = cm_ctrls m) by (rewrite E; reflexivity).
  assert (LS : forall k, member (list_cmds m1 fl) k <-> starts_in_update m m' k).
  { intros k. unfold member. rewrite list_cmds_spec by exact ND1. unfold commanded_configured, starts_in_update. rewrite C1. split.
    - intros (c & Ic & In' & L & W). exists c. split; [exact Ic|]. split; [exact L|]. split; [|apply W1; exact W].
      apply FB. unfold fl in In'. apply In_add_items in In'. destruct In' as [[]|In']. exact In'.
    - intros (c & Ic & L & Fb & W). exists c. split; [exact Ic|]. split; [apply In_add_items; right; apply FB; exact Fb|]. split; [exact L|apply W1; exact W]. }
  assert (LP : forall k, member (list_cmds m1 dl) k <-> stops_in_update m m' k).
  { intros k. unfold member. rewrite list_cmds_spec by exact ND1. unfold commanded_configured, stops_in_update. rewrite C1. split.
    - intros (c & Ic & In' & L & W). exists c. split; [exact Ic|]. split; [exact L|]. split; [|apply W1; exact W].
      unfold dl in In'. apply In_add_items in In'. destruct In' as [In'|In']; [left; apply TO; exact In'|right].
      unfold us in In'. apply users_all_inv in In'. destruct In' as [[]|(f & fc & c0 & k0 & If & Ff & I0 & N0 & L0 & Kf & K0)].
      rewrite C1 in I0. assert (c0 = c) by (eapply find_same; [exact ND|apply NoDup_find; [exact ND|exact Ic]|exact I0|exact N0]). subst c0.
      split; [exact L0|]. destruct (find_loaded m1 f fc Ff) as [Hf Nf]. rewrite C1 in Hf. exists fc, k0. split; [exact Hf|].
      split; [rewrite Nf; apply FB; exact If|]. split; [apply W1; exact Kf|apply W1; exact K0].
    - intros (c & Ic & L & T & W). exists c. split; [exact Ic|]. split; [|split; [exact L|apply W1; exact W]].
      apply In_add_items. destruct T as [T|(La & f & k0 & Hf & Fb & Kf & K0)]; [left; apply TO; exact T|right].
      apply (users_all m1 (c_name f) f k0 c); [unfold find_ctrl; rewrite C1; apply NoDup_find; assumption|apply W1; exact Kf|rewrite C1; exact Ic|exact La|apply W1; exact K0|].
      apply FB. exact Fb. }
  destruct (prep_perf_tells e allow m1 (list_cmds m1 fl) (list_cmds m1 dl) HR1) as (t1 & t2 & T & Hpp & D1 & D2 & _ & C).
  destruct (LF_trace _ _ _ (LF_deactivate stops_ctrl e dl (fun ev h => h) (mode_change e allow m1 fl dl))) as (y & Ty & Fy).
  fold m2 in Ty. assert (Tx : rm_trace (cm_rm m1) = x ++ EvOp :: rm_trace (cm_rm m)) by (rewrite E; reflexivity).
  assert (TD1 : told MPrepare m (starts_in_update m m') (stops_in_update m m') t1) by (eapply told_iff; [exact LS|exact LP|eapply told_hw; [symmetry; exact HH|exact D1]]).
  assert (TD2 : told MPerform m (starts_in_update m m') (stops_in_update m m') t2) by (eapply told_iff; [exact LS|exact LP|eapply told_hw; [symmetry; exact HH|exact D2]]).
  assert (AG : can_switch e allow m (starts_in_update m m') (stops_in_update m m') -> all_agreed MPrepare m (starts_in_update m m') (stops_in_update m m') t1 /\
         all_agreed MPerform m (starts_in_update m m') (stops_in_update m m') t2).
  { intros CS. assert (CS1 : can_switch e allow m1 (starts_in_update m m') (stops_in_update m m')) by (rewrite E; exact CS).
    destruct C as [A1 A2].
    - intros k Hk. apply (proj1 CS1). destruct Hk as [Hk|Hk]; [left; apply LS|right; apply LP]; exact Hk.
    - eapply possible_both; [exact LS|exact LP|exact CS1].
    - eapply possible_both; [exact LS|exact LP|exact CS1].
    - split; (eapply agreed_iff; [exact LS|exact LP|eapply agreed_hw; [symmetry; exact HH|assumption]]). }
  assert (T2 : rm_trace (cm_rm m2) = (y ++ t2 ++ t1 ++ x) ++ EvOp :: rm_trace (cm_rm m)).
  { rewrite Ty. unfold mode_change. rewrite T, Tx. rewrite <- !app_assoc. reflexivity. }
  assert (R : exists up undone, rm_trace (cm_rm m') = (undone ++ up) ++ rm_trace (cm_rm m2) /\ Forall switches_ctrl up /\ (cm_pend m = None -> undone = []) /\ Forall LifeSpec.mode_event undone).
  { destruct fl as [|f0 fl0]; [subst m'; exists [], []; split; [reflexivity|]; split; [constructor|]; split; [reflexivity|constructor]|].
    assert (HR2 : RI (cm_rm m2)).
    { eapply (steps_hw e allow up_only); [unfold up_only; discriminate|exact HR1|]. unfold m2, mode_change. eapply steps_trans; [apply prep_perf_steps|apply deactivate_steps]. }
    destruct (activate_tells _ _ _ _ _ _ HR2 K) as (up & u1 & u2 & Tu & Fu & Q1 & Q2). exists up, (u2 ++ u1).
    split; [rewrite Tu, <- !app_assoc; reflexivity|]. split; [exact Fu|]. split.
    - intros EP. rewrite EP in Q1, Q2. apply told_some in Q1; [|intros ? []|intros ? []]. apply told_some in Q2; [|intros ? []|intros ? []]. subst. reflexivity.
    - apply Forall_app. split; [destruct Q2 as [Q _]|destruct Q1 as [Q _]]; (eapply Forall_impl; [|exact Q]); intros ev (n & h & s & p & z & -> & _); exact I. }
  destruct R as (up & undone & Tr & Fu & Un & Me).
  exists x, (undone ++ up ++ y ++ t2 ++ t1). split.
  { unfold happened. rewrite Tr, T2, <- !app_assoc. reflexivity. }
  split; [exact U|]. split.
  { intros NT. elim (NT d). apply TO. left. reflexivity. }
  exists t1, t2, y, up, undone. split; [reflexivity|]. split; [exact TD1|]. split; [exact TD2|]. split; [exact Fy|]. split; [exact Fu|].
  split; [exact Un|]. split; [exact Me|]. intros _. exact AG.
Qed.
End Upd.
Lemma main_update_tells e allow hs ops m m' out : wf_hw hs -> crun e allow (cm_start hs) ops = Val m ->
  cstep e allow m CUpdate = Val (m', out) ->
  exists updates later, happened m m' (later ++ updates) /\ (forall ev, In ev updates -> exists n r, ev = EvUpdate n r) /\
    ((forall n, ~ taken_out m m' n) -> later = []) /\
    exists prepared performed down up undone, later = undone ++ up ++ down ++ performed ++ prepared /\
      told MPrepare m (starts_in_update m m') (stops_in_update m m') prepared /\
      told MPerform m (starts_in_update m m') (stops_in_update m m') performed /\
      Forall stops_ctrl down /\ Forall switches_ctrl up /\
      (cm_pend m = None -> undone = []) /\ Forall LifeSpec.mode_event undone /\
      ((exists n, taken_out m m' n) -> can_switch e allow m (starts_in_update m m') (stops_in_update m m') ->
         all_agreed MPrepare m (starts_in_update m m') (stops_in_update m m') prepared /\
         all_agreed MPerform m (starts_in_update m m') (stops_in_update m m') performed).
Proof. intros WF R S. eapply update_tells; [eapply reach_FI; eassumption|exact S]. Qed.
