From Verif Require Import Base Events HwModel RmModel RmSpec HwProofs RmProofs RmSys RmAvail CmModel CmPrim CmTopo CmInv CmExcl CmReach CmSpec CmLoad CmLeak CmAvail LifeSpec CmLife CmCycle UpdateSpec
  ShutModel ShutSpec.
Open Scope string_scope. Open Scope nat_scope. Open Scope list_scope.

Lemma has_lc_find m n c l : find_ctrl m n = Some c -> has_lc m n l = lc_eqb (c_lc c) l.
Proof. intros F. unfold has_lc. rewrite F. reflexivity. Qed.
Lemma rel_find m n c : find_ctrl m n = Some c -> find_ctrl (release_itfs m n) n = Some (upd_loans [] [] c).
Proof. intros F. rewrite (release_one m n c F). erewrite find_upd_same; [|reflexivity|rewrite find_set_rm; exact F]. rewrite String.eqb_refl. reflexivity. Qed.
Lemma rel_trace m n : rm_trace (cm_rm (release_itfs m n)) = rm_trace (cm_rm m).
Proof. unfold release_itfs. destruct (find_ctrl m n); [|reflexivity]. cbn. apply release_keeps_trace. Qed.
Lemma upd_find m n f c : (forall c, c_name (f c) = c_name c) -> find_ctrl m n = Some c -> find_ctrl (upd m n f) n = Some (f c).
Proof. intros K F. erewrite find_upd_same; [|exact K|exact F]. rewrite String.eqb_refl. reflexivity. Qed.

(** node_shutdown of a controller that does not run *)
Lemma shut_quiet e m n c : find_ctrl m n = Some c -> c_lc c = Unconfigured \/ c_lc c = Inactive ->
  exists evs l, farewell e n (rm_trace (cm_rm m)) (c_lc c) evs l /\
    rm_trace (cm_rm (node_shutdown e m n)) = evs ++ rm_trace (cm_rm m) /\
    exists c', find_ctrl (node_shutdown e m n) n = Some c' /\ c_lc c' = l /\ c_cloans c' = [] /\ c_sloans c' = [].
Proof.
  intros F L. unfold node_shutdown. rewrite F.
  assert (G : forall X, (match c_lc c with Unconfigured | Inactive | Active => X | _ => m end) = X) by (intros X; destruct L as [-> | ->]; reflexivity).
  rewrite G. unfold ctrl_call.
  set (r := e_ctrl e (rm_trace (cm_rm m)) n CShutdown). set (m1 := emit m _).
  assert (F1 : find_ctrl m1 n = Some c) by exact F.
  pose proof (rel_find _ _ _ F1) as F2.
  assert (T2 : rm_trace (cm_rm (release_itfs m1 n)) = EvCtrlCb n CShutdown r :: rm_trace (cm_rm m)) by (rewrite rel_trace; reflexivity).
  assert (OKK : r = CbSuccess \/ r = CbFailure -> exists evs l, farewell e n (rm_trace (cm_rm m)) (c_lc c) evs l /\
    rm_trace (cm_rm (upd (release_itfs m1 n) n (upd_lc Finalized))) = evs ++ rm_trace (cm_rm m) /\
    exists c', find_ctrl (upd (release_itfs m1 n) n (upd_lc Finalized)) n = Some c' /\ c_lc c' = l /\ c_cloans c' = [] /\ c_sloans c' = []).
  { intros R. exists [EvCtrlCb n CShutdown r], Finalized. split; [apply fw_shut; auto|]. split; [exact T2|].
    eexists. split; [apply upd_find; [reflexivity|exact F2]|]. repeat split. }
  assert (BAD : r = CbError \/ r = CbThrow -> exists evs l, farewell e n (rm_trace (cm_rm m)) (c_lc c) evs l /\
    rm_trace (cm_rm (node_error e (release_itfs m1 n) n)) = evs ++ rm_trace (cm_rm m) /\
    exists c', find_ctrl (node_error e (release_itfs m1 n) n) n = Some c' /\ c_lc c' = l /\ c_cloans c' = [] /\ c_sloans c' = []).
  { intros R. set (ok := e_ctrl_error e (EvCtrlCb n CShutdown r :: rm_trace (cm_rm m)) n).
    exists [EvCtrlErr n ok; EvCtrlCb n CShutdown r], (if ok then Unconfigured else Finalized).
    split; [apply fw_shut_err; auto|].
    unfold node_error. rewrite T2. fold ok. split.
    - cbn [upd set_ctrls cm_rm]. rewrite rel_trace. cbn [emit set_rm cm_rm with_trace rm_trace]. rewrite T2. reflexivity.
    - eexists. split; [apply upd_find; [reflexivity|]; apply rel_find; rewrite find_emit; exact F2|]. repeat split. }
  destruct r; [apply OKK|apply OKK|apply BAD|apply BAD]; auto.
Qed.

Lemma one_spec e m n c : find_ctrl m n = Some c -> idle c ->
  exists evs l, farewell e n (rm_trace (cm_rm m)) (c_lc c) evs l /\
    rm_trace (cm_rm (shutdown_one e m n)) = evs ++ rm_trace (cm_rm m) /\
    exists c', find_ctrl (shutdown_one e m n) n = Some c' /\ c_lc c' = l /\ c_cloans c' = [] /\ c_sloans c' = [].
Proof.
  intros F I. unfold shutdown_one. rewrite (has_lc_find m n c Active F).
  destruct (lc_eqb (c_lc c) Active) eqn:A.
  - apply lc_eqb_eq in A. unfold node_deactivate, node_transition. rewrite F, A. cbn [lc_eqb]. unfold ctrl_call.
    set (r := e_ctrl e (rm_trace (cm_rm m)) n CDeactivate). set (m1 := emit m _).
    assert (F1 : find_ctrl m1 n = Some c) by exact F.
    assert (T1 : rm_trace (cm_rm m1) = EvCtrlCb n CDeactivate r :: rm_trace (cm_rm m)) by reflexivity.
    assert (ERR : r = CbError \/ r = CbThrow ->
      let m2 := release_itfs (node_error e m1 n) n in exists evs l, farewell e n (rm_trace (cm_rm m)) Active evs l /\
      rm_trace (cm_rm (if has_lc m2 n Inactive || has_lc m2 n Unconfigured then node_shutdown e m2 n else m2)) = evs ++ rm_trace (cm_rm m) /\
      exists c', find_ctrl (if has_lc m2 n Inactive || has_lc m2 n Unconfigured then node_shutdown e m2 n else m2) n = Some c' /\
        c_lc c' = l /\ c_cloans c' = [] /\ c_sloans c' = []).
    { intros R m2. set (ok := e_ctrl_error e (EvCtrlCb n CDeactivate r :: rm_trace (cm_rm m)) n).
      assert (F2 : exists c2, find_ctrl m2 n = Some c2 /\ c_lc c2 = (if ok then Unconfigured else Finalized) /\ c_cloans c2 = [] /\ c_sloans c2 = []).
      { eexists. split; [unfold m2; apply rel_find; unfold node_error; rewrite T1; fold ok; apply upd_find; [reflexivity|]; apply rel_find; rewrite find_emit; exact F1|].
        repeat split. }
      assert (T2 : rm_trace (cm_rm m2) = EvCtrlErr n ok :: EvCtrlCb n CDeactivate r :: rm_trace (cm_rm m)).
      { unfold m2. rewrite rel_trace. unfold node_error. rewrite T1. fold ok. cbn [upd set_ctrls cm_rm]. rewrite rel_trace.
        cbn [emit set_rm cm_rm with_trace rm_trace]. rewrite T1. reflexivity. }
      destruct F2 as (c2 & F2 & L2 & C2 & S2). rewrite !(has_lc_find m2 n c2 _ F2), L2. destruct ok eqn:OK.
      - cbn [lc_eqb orb]. destruct (shut_quiet e m2 n c2 F2 (or_introl L2)) as (evs & l & W & T & X). rewrite L2, T2 in W.
        exists (evs ++ [EvCtrlErr n true; EvCtrlCb n CDeactivate r]), l. split.
        + apply (fw_stop_err e n _ r true evs l); [reflexivity|exact R|exact OK|exact W].
        + split; [rewrite T, T2, <- app_assoc; reflexivity|exact X].
      - cbn [lc_eqb orb]. exists ([] ++ [EvCtrlErr n false; EvCtrlCb n CDeactivate r]), Finalized. split.
        + apply (fw_stop_err e n _ r false [] Finalized); [reflexivity|exact R|exact OK|apply fw_done; left; reflexivity].
        + split; [rewrite T2; reflexivity|]. exists c2. auto. }
    destruct r eqn:R.
    + (* success *)
      set (m2 := release_itfs _ n).
      assert (F2 : exists c2, find_ctrl m2 n = Some c2 /\ c_lc c2 = Inactive).
      { eexists. split; [unfold m2; apply rel_find; apply upd_find; [reflexivity|exact F1]|reflexivity]. }
      assert (T2 : rm_trace (cm_rm m2) = EvCtrlCb n CDeactivate CbSuccess :: rm_trace (cm_rm m)) by (unfold m2; rewrite rel_trace; exact T1).
      destruct F2 as (c2 & F2 & L2). rewrite !(has_lc_find m2 n c2 _ F2), L2. cbn [lc_eqb orb].
      destruct (shut_quiet e m2 n c2 F2 (or_intror L2)) as (evs & l & W & T & X). rewrite L2, T2 in W.
      exists (evs ++ [EvCtrlCb n CDeactivate CbSuccess]), l. split; [apply fw_stop; [exact R|exact W]|].
      split; [rewrite T, T2, <- app_assoc; reflexivity|exact X].
    + (* failure *)
      set (m2 := release_itfs _ n).
      assert (F2 : exists c2, find_ctrl m2 n = Some c2 /\ c_lc c2 = Active /\ c_cloans c2 = [] /\ c_sloans c2 = []).
      { eexists. split; [unfold m2; apply rel_find; apply upd_find; [reflexivity|exact F1]|repeat split]. }
      assert (T2 : rm_trace (cm_rm m2) = EvCtrlCb n CDeactivate CbFailure :: rm_trace (cm_rm m)) by (unfold m2; rewrite rel_trace; exact T1).
      destruct F2 as (c2 & F2 & L2 & X). rewrite !(has_lc_find m2 n c2 _ F2), L2. cbn [lc_eqb orb].
      exists [EvCtrlCb n CDeactivate CbFailure], Active. split; [apply fw_stuck; exact R|]. split; [exact T2|]. exists c2. auto.
    + apply ERR. left. reflexivity.
    + apply ERR. right. reflexivity.
  - assert (NA : c_lc c <> Active) by (intros X; apply lc_eqb_eq in X; congruence).
    rewrite !(has_lc_find m n c _ F). destruct (I NA) as [I1 I2].
    destruct (c_lc c) eqn:L; cbn [lc_eqb orb]; try congruence.
    1: { exists [], Unknown. split; [apply fw_done; right; reflexivity|]. split; [reflexivity|]. exists c. auto. }
    3: { exists [], Finalized. split; [apply fw_done; left; reflexivity|]. split; [reflexivity|]. exists c. auto. }
    all: rewrite <- L; apply shut_quiet; auto.
Qed.
Lemma one_frame e n m : frame n m (shutdown_one e m n).
Proof.
  unfold shutdown_one. set (m1 := if has_lc m n Active then _ else m).
  assert (A : frame n m m1).
  { unfold m1. destruct (has_lc m n Active); [|apply frame_refl]. eapply frame_trans; [apply frame_transition|apply frame_release]. }
  destruct (_ || _); [|exact A]. eapply frame_trans; [exact A|apply frame_shutdown].
Qed.

Lemma one_steps e allow m n : steps e allow any_kind m (shutdown_one e m n).
Proof.
  unfold shutdown_one. set (m1 := if has_lc m n Active then _ else m).
  assert (A : steps e allow any_kind m m1).
  { unfold m1, has_lc. destruct (find_ctrl m n) as [c|] eqn:F; [|apply s_refl].
    destruct (is_lc Active c) eqn:L; [|apply s_refl]. unfold is_lc in L. apply lc_eqb_eq in L.
    destruct (deactivate_node e allow any_kind m n c F L) as (l & m2 & S1 & F1 & _ & Hl & E). rewrite E.
    eapply s_one; [exact S1|]. apply p_halt; [exact F1| |intros _; right; exact L]. intros X. split; [exact L|apply Hl; exact X]. }
  destruct (_ || _); [|exact A]. eapply steps_trans; [exact A|apply node_shutdown_steps].
Qed.

Definition sd (e : env) : cm * bool -> name -> cm * bool :=
  fun '(m, ok) n => let m' := shutdown_one e m n in (m', ok && has_lc m' n Finalized).
Lemma sd_names e ns : forall x, map c_name (cm_ctrls (fst (fold_left (sd e) ns x))) = map c_name (cm_ctrls (fst x)).
Proof.
  induction ns as [|n ns IH]; intros [m ok]; [reflexivity|]. cbn [fold_left]. rewrite IH. cbn [sd fst]. apply (fr_names _ _ _ (one_frame e n m)).
Qed.
Lemma sd_other e ns : forall x k, ~ In k ns -> find_ctrl (fst (fold_left (sd e) ns x)) k = find_ctrl (fst x) k.
Proof.
  induction ns as [|n ns IH]; intros [m ok] k N; [reflexivity|]. cbn [fold_left]. rewrite IH; [|intro X; apply N; right; exact X].
  cbn [sd fst]. apply (fr_other _ _ _ (one_frame e n m)). intros ->. apply N. left. reflexivity.
Qed.
Lemma sd_steps e allow ns : forall x, steps e allow any_kind (fst x) (fst (fold_left (sd e) ns x)).
Proof.
  induction ns as [|n ns IH]; intros [m ok]; [apply s_refl|]. cbn [fold_left]. eapply steps_trans; [|apply IH]. cbn [sd fst]. apply one_steps.
Qed.

(** the loop *)
Lemma sd_spec e : forall cs m ok, NoDup (map c_name cs) -> (forall c, In c cs -> find_ctrl m (c_name c) = Some c /\ idle c) ->
  let x := fold_left (sd e) (map c_name cs) (m, ok) in
  exists ls, farewells e (rm_trace (cm_rm m)) cs (rm_trace (cm_rm (fst x))) ls /\
    Forall2 (fun c l => exists c', find_ctrl (fst x) (c_name c) = Some c' /\ c_lc c' = l /\ holds_nothing c') cs ls /\
    snd x = ok && forallb (lc_eqb Finalized) ls.
Proof.
  induction cs as [|c cs IH]; intros m ok ND A; cbn zeta.
  - exists []. split; [apply fws_nil|]. split; [constructor|]. cbn. rewrite andb_true_r. reflexivity.
  - cbn [map fold_left]. inversion ND as [|? ? N1 N2]; subst.
    destruct (A c (or_introl eq_refl)) as [F I].
    destruct (one_spec e m (c_name c) c F I) as (evs & l & W & T & c' & F' & L' & C1 & C2).
    set (m1 := shutdown_one e m (c_name c)) in *.
    assert (A1 : forall d, In d cs -> find_ctrl m1 (c_name d) = Some d /\ idle d).
    { intros d D. destruct (A d (or_intror D)) as [Fd Id]. split; [|exact Id].
      unfold m1. rewrite (fr_other _ _ _ (one_frame e (c_name c) m)); [exact Fd|]. intros X. apply N1. rewrite <- X. apply in_map. exact D. }
    destruct (IH m1 (ok && has_lc m1 (c_name c) Finalized) N2 A1) as (ls & R1 & R2 & R3).
    exists (l :: ls). split; [apply (fws_cons e _ c cs evs l); [exact W|]; rewrite <- T; exact R1|]. split.
    + constructor; [|exact R2]. exists c'. split; [|split; [exact L'|split; assumption]].
      change (sd e (m, ok) (c_name c)) with (m1, ok && has_lc m1 (c_name c) Finalized).
      rewrite sd_other; [exact F'|exact N1].
    + change (sd e (m, ok) (c_name c)) with (m1, ok && has_lc m1 (c_name c) Finalized). rewrite R3.
      rewrite (has_lc_find m1 _ c' _ F'), L'. cbn [forallb]. rewrite andb_assoc. replace (lc_eqb Finalized l) with (lc_eqb l Finalized) by (destruct l; reflexivity). reflexivity.
Qed.

Lemma F2_states cs : forall l' ls m', NoDup (map c_name l') -> map c_name cs = map c_name l' ->
  (forall c, In c l' -> find_ctrl m' (c_name c) = Some c) ->
  Forall2 (fun c l => exists c', find_ctrl m' (c_name c) = Some c' /\ c_lc c' = l /\ holds_nothing c') cs ls ->
  map c_lc l' = ls /\ Forall holds_nothing l'.
Proof.
  induction cs as [|c cs IH]; intros [|c' l'] ls m' ND E A H; cbn in E; try discriminate; inversion H; subst.
  - split; [reflexivity|constructor].
  - injection E as E1 E2. match goal with X : exists _, _ |- _ => destruct X as (c2 & F & L & Hn) end.
    pose proof (A c' (or_introl eq_refl)) as F'. rewrite <- E1, F in F'. injection F' as ->.
    cbn [map] in ND. inversion ND; subst. match goal with X : Forall2 _ cs ?k |- _ => destruct (IH l' k m') as [P Q] end; auto.
    + intros d D. apply A. right. exact D.
    + split; [cbn [map]; rewrite P; reflexivity|constructor; assumption].
Qed.

Theorem controllers_story e allow hs ops m m' ok : wf_hw hs -> crun e allow (cm_start hs) ops = Val m -> shutdown_controllers e m = (m', ok) ->
  farewells e (rm_trace (cm_rm m)) (cm_ctrls m) (rm_trace (cm_rm m')) (map c_lc (cm_ctrls m')) /\
  map c_name (cm_ctrls m') = map c_name (cm_ctrls m) /\
  (ok = true <-> forall c, In c (cm_ctrls m') -> c_lc c = Finalized) /\
  (forall c, In c (cm_ctrls m') -> holds_nothing c) /\
  (forall k, In k (flat_map h_cmd hs) -> aget (rm_claimed (cm_rm m')) k <> Some true).
Proof.
  intros W R S. pose proof (reach_CI _ _ _ _ _ W R) as [CN CR CL].
  unfold shutdown_controllers in S. change (fold_left (sd e) (map c_name (cm_ctrls m)) (m, true) = (m', ok)) in S.
  assert (ND : NoDup (map c_name (cm_ctrls m))) by exact (proj1 CN).
  destruct (sd_spec e (cm_ctrls m) m true ND) as (ls & A & B & C).
  { intros c I. split; [apply NoDup_find; [exact ND|exact I]|exact (CL c I)]. }
  pose proof (sd_names e (map c_name (cm_ctrls m)) (m, true)) as NM. pose proof (sd_steps e allow (map c_name (cm_ctrls m)) (m, true)) as ST.
  cbn zeta in A, B, C. rewrite S in A, B, C, NM, ST. cbn [fst snd] in A, B, C, NM, ST.
  assert (ND' : NoDup (map c_name (cm_ctrls m'))) by (rewrite NM; exact ND).
  destruct (F2_states (cm_ctrls m) (cm_ctrls m') ls m' ND' (eq_sym NM)) as [P Q]; [intros c I; apply NoDup_find; [exact ND'|exact I]|exact B|].
  rewrite Forall_forall in Q.
  split; [rewrite P; exact A|]. split; [exact NM|]. split; [|split; [exact Q|]].
  - cbn [andb] in C. rewrite C, <- P, forallb_forall. split.
    + intros H c I. specialize (H (c_lc c) (in_map c_lc _ _ I)). apply lc_eqb_eq in H. symmetry. exact H.
    + intros H l I. apply in_map_iff in I. destruct I as (c & <- & I). apply lc_eqb_eq. symmetry. apply H. exact I.
  - intros k K T. pose proof (reach_KI _ _ _ _ _ _ W K R) as KK.
    assert (KK' : KI k m') by (eapply (steps_inv e allow any_kind (KI k)); [intros a b X Y; eapply prim_KI; eassumption|exact KK|exact ST]).
    destruct KK' as [_ _ _ D]. destruct (cnt_held _ _ (D T)) as (c & Hc & Kc). destruct (Q c Hc) as [Z _]. rewrite Z in Kc. destruct Kc.
Qed.

(** when everything goes well *)
Lemma farewell_ok e n t l evs l' : callbacks_succeed e -> farewell e n t l evs l' ->
  evs = rev (match l with Active => [EvCtrlCb n CDeactivate CbSuccess; EvCtrlCb n CShutdown CbSuccess]
                        | Inactive | Unconfigured => [EvCtrlCb n CShutdown CbSuccess] | _ => [] end) /\
  (l <> Unknown -> l' = Finalized).
Proof.
  intros CB H. induction H as [t l D|t l r D E R|t l r ok D E R _|t E|t evs l' E H IH|t r ok evs l' E R _ H IH].
  - destruct D as [-> | ->]; (split; [reflexivity|intro X; congruence]).
  - pose proof (CB t n CShutdown) as K. rewrite K in E. subst r. destruct D as [-> | ->]; (split; [reflexivity|intros _; reflexivity]).
  - rewrite CB in E. subst r. destruct R; discriminate.
  - rewrite CB in E. discriminate.
  - destruct IH as [-> IH]. split; [reflexivity|]. intros _. apply IH. discriminate.
  - rewrite CB in E. subst r. destruct R; discriminate.
Qed.
Lemma farewells_ok e t cs t' ls : callbacks_succeed e -> farewells e t cs t' ls ->
  t' = rev (flat_map goodbye cs) ++ t /\ ((forall c, In c cs -> c_lc c <> Unknown) -> forall l, In l ls -> l = Finalized).
Proof.
  intros CB H. induction H as [t|t c cs evs l t' ls W H [IH1 IH2]]; [split; [reflexivity|intros _ l []]|].
  destruct (farewell_ok _ _ _ _ _ _ CB W) as [E1 E2]. split.
  - rewrite IH1. cbn [flat_map]. rewrite rev_app_distr, <- app_assoc. f_equal. f_equal. exact E1.
  - intros A x [<-|I]; [apply E2; apply A; left; reflexivity|apply IH2; [intros d D; apply A; right; exact D|exact I]].
Qed.
