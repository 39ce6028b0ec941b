(** CmCycle.v -- the update cycle, and every operation follows the life cycles (LifeSpec.v). *)
From Coq Require Import Lia Permutation.
From Verif Require Import Base Events HwModel RmModel HwProofs RmProofs RmInv ChainModel CmModel CmPrim ChainSpec CmTopo CmInv CmSpec CmReach CmSwitch CmOutcome CmLoad CmIntact UpdateSpec CmDeact CmErr LifeSpec CmLife.

Lemma updated_app a b : updated (a ++ b) = updated b ++ updated a.
Proof. unfold updated. rewrite rev_app_distr, flat_map_app. reflexivity. Qed.
Lemma in_updated t n : In n (updated t) <-> exists r, In (EvUpdate n r) t.
Proof.
  unfold updated. rewrite in_flat_map. split.
  - intros (ev & I & H). apply in_rev in I. destruct ev; try destruct H. destruct H; subst. eexists. exact I. destruct H.
  - intros (r & I). exists (EvUpdate n r). rewrite <- in_rev. split; [exact I|left; reflexivity].
Qed.
Lemma sub_in {A} (a b : list A) : sublist a b -> forall x, In x a -> In x b.
Proof. induction 1; intros z Hz; [exact Hz|right; auto|]. destruct Hz as [->|Hz]; [left; reflexivity|right; auto]. Qed.
Lemma sub_nodup {A} (a b : list A) : sublist a b -> NoDup b -> NoDup a.
Proof.
  induction 1; intros N; [exact N|inversion N; auto|]. inversion N; subst. constructor; [|auto].
  intros I. apply (sub_in _ _ H) in I. contradiction.
Qed.
Definition turn (p : option pend) (c : ctrl) : bool := is_lc Active c && negb (skipped p (c_name c)).
Lemma cycle_loop e p : forall l m ds m1 ds1, fold_left (update_one e p) l (m, ds) = (m1, ds1) ->
  exists x, m1 = set_rm m (with_trace (cm_rm m) (x ++ rm_trace (cm_rm m))) /\
    Forall (fun ev => is_upd ev = true) x /\ sublist (updated x) (map c_name (filter (turn p) l)) /\
    (forall c, In c l -> turn p c = true -> (forall t, e_update_due e t (c_name c) = true) -> In (c_name c) (updated x)).
Proof.
  induction l as [|c l IH]; intros m ds m1 ds1 H; cbn [fold_left] in H.
  { injection H as <- <-. exists []. split; [destruct m as [[] ? ? ? ? ?]; reflexivity|]. split; [constructor|]. split; [constructor|intros c []]. }
  assert (E : update_one e p (m, ds) c = (m, ds) /\ (turn p c = true -> e_update_due e (rm_trace (cm_rm m)) (c_name c) = false) \/
              turn p c = true /\ exists r ds', update_one e p (m, ds) c = (emit m (EvUpdate (c_name c) r), ds')).
  { unfold update_one, turn. destruct (skipped p (c_name c)); [left; split; [reflexivity|rewrite andb_false_r; discriminate]|].
    destruct (is_lc Active c); cbn [andb negb]; [|left; split; [reflexivity|discriminate]].
    destruct (e_update_due e (rm_trace (cm_rm m)) (c_name c)); [|left; split; reflexivity].
    right. split; [reflexivity|]. cbv zeta. destruct (e_update e (rm_trace (cm_rm m)) (c_name c)) as [[]|]; eexists; eexists; reflexivity. }
  destruct E as [(E & D)|(T & r & ds' & E)]; rewrite E in H.
  - destruct (IH _ _ _ _ H) as (x & A & B & C & F). exists x. split; [exact A|]. split; [exact B|]. split.
    + cbn [filter]. destruct (turn p c); [cbn [map]; constructor|]; exact C.
    + intros d [<-|I] Td Dd; [specialize (D Td); rewrite Dd in D; discriminate|auto].
  - destruct (IH _ _ _ _ H) as (x & A & B & C & F). exists (x ++ [EvUpdate (c_name c) r]). split.
    { rewrite A. cbn [emit set_rm cm_rm]. rewrite with_trace_twice, <- app_assoc. reflexivity. }
    split; [apply Forall_app; auto|]. rewrite updated_app. cbn. rewrite T. cbn [map]. split; [constructor; exact C|].
    intros d [<-|I] Td Dd; [left; reflexivity|right; auto].
Qed.
Lemma upd_phase n x s : Forall (fun ev => is_upd ev = true) x -> (In n (updated x) -> s = PState Active) -> phase n s x = Some s.
Proof.
  induction x as [|ev x IH]; intros F H; [reflexivity|]. inversion F; subst. cbn [phase]. 
  rewrite IH; [|assumption|intros I; apply H; change (ev :: x) with ([ev] ++ x); rewrite updated_app; apply in_app_iff; left; exact I].
  destruct ev; try discriminate. cbn [phase1]. destruct (String.eqb c n) eqn:Ec; [|reflexivity]. apply String.eqb_eq in Ec. subst c.
  rewrite H; [reflexivity|]. apply in_updated. eexists. left. reflexivity.
Qed.
Lemma upd_chained n x b : Forall (fun ev => is_upd ev = true) x -> chained_by n b x = b.
Proof. induction 1 as [|ev x H _ IH]; [reflexivity|]. destruct ev; try discriminate. exact IH. Qed.
Lemma find_of_NI m c : NI m -> In c (cm_ctrls m) -> find_ctrl m (c_name c) = Some c.
Proof.
  intros N I. assert (ND : NoDup (map c_name (cm_ctrls m))) by apply N.
  unfold find_ctrl. revert ND I. generalize (cm_ctrls m). induction l as [|d l IH]; intros ND I; [destruct I|].
  cbn [map] in ND. inversion ND; subst. cbn. destruct I as [->|I]; [rewrite String.eqb_refl; reflexivity|].
  destruct (String.eqb (c_name d) (c_name c)) eqn:E; [|auto]. apply String.eqb_eq in E. exfalso. apply H1. rewrite E. apply in_map. exact I.
Qed.
Lemma turn_spec m c : NI m -> In c (cm_ctrls m) -> (turn (cm_pend m) c = true <-> has_turn m (c_name c)).
Proof.
  intros N I. unfold turn, has_turn, state_in. rewrite (find_of_NI m c N I). cbn [option_map].
  assert (S : skipped (cm_pend m) (c_name c) = true <-> held_back m (c_name c)).
  { unfold skipped, held_back. destruct (cm_pend m) as [p|]; [|split; [discriminate|intros (p & E & _); discriminate]].
    destruct (p_done p) eqn:D, (p_asap p) eqn:As; cbn [negb andb].
    1-3: split; [discriminate|intros (q & E & D1 & D2 & _); injection E as <-; congruence].
    rewrite !orb_true_iff, !mem_In. split; [intros H; exists p; tauto|intros (q & E & _ & _ & H); injection E as <-; tauto]. }
  rewrite andb_true_iff, negb_true_iff. unfold is_lc. rewrite lc_eqb_eq. split; intros [A B].
  - split; [f_equal; exact A|]. intros H. apply S in H. congruence.
  - split; [congruence|]. destruct (skipped _ _); [|reflexivity]. exfalso. apply B. apply S. reflexivity.
Qed.

(** the update cycle: first the updates, in list order, then whatever follows *)
Lemma main_cycle e allow m m' o : NI m -> cstep e allow m CUpdate = Val (m', o) ->
  exists later ups, happened m m' (later ++ ups) /\
    (forall ev, In ev ups -> exists n r, ev = EvUpdate n r) /\ (forall n r, ~ In (EvUpdate n r) later) /\
    sublist (updated ups) (map c_name (cm_ctrls m)) /\
    (forall n, In n (updated ups) -> has_turn m n) /\
    (forall n, has_turn m n -> (forall t, e_update_due e t n = true) -> In n (updated ups)).
Proof.
  intros N H. destruct (update_trace e allow m m' o H) as (m1 & ds & x & L & E & (y & Y & U) & _).
  destruct (cycle_loop e _ _ _ _ _ _ L) as (x' & E' & A & B & C). cbn [emit set_rm cm_rm] in E'. rewrite with_trace_twice in E'.
  assert (x' = x).
  { assert (T : rm_trace (cm_rm m1) = x ++ EvOp :: rm_trace (cm_rm m)) by (rewrite E; reflexivity).
    rewrite E' in T. cbn [cm_rm set_rm with_trace rm_trace] in T. apply app_inv_tail in T. exact T. }
  subst x'. exists y, x. split; [unfold happened; rewrite Y, E; cbn; rewrite <- app_assoc; reflexivity|].
  split. { intros ev I. rewrite Forall_forall in A. specialize (A ev I). destruct ev; try discriminate. eauto. }
  split. { intros n r I. rewrite forallb_forall in U. specialize (U _ I). discriminate. }
  assert (SB : forall (f : ctrl -> bool) l a, sublist a (map c_name (filter f l)) -> sublist a (map c_name l)).
  { intros f l. induction l as [|c l IH]; intros a S; cbn [filter map] in *; [exact S|]. destruct (f c); [|constructor; auto].
    cbn [map] in S. inversion S; subst; [apply sub_skip|apply sub_keep]; auto. }
  split; [eapply SB; exact B|]. split.
  - intros n I. apply (sub_in _ _ B) in I. apply in_map_iff in I. destruct I as (c & <- & I). apply filter_In in I. destruct I as [I T].
    apply turn_spec; assumption.
  - intros n T D. assert (G : exists c, In c (cm_ctrls m) /\ c_name c = n).
    { destruct T as [S _]. unfold state_in in S. destruct (find_ctrl m n) as [c|] eqn:F; [|discriminate]. exists c. split; [eapply find_in_In; exact F|eapply find_in_name; exact F]. }
    destruct G as (c & I & <-). apply C; [exact I| |exact D]. apply turn_spec; assumption.
Qed.
Lemma LF_loop (P : event -> Prop) e p m ds m1 ds1 : NI m -> (forall n r, P (EvUpdate n r)) ->
  fold_left (update_one e p) (cm_ctrls m) (m, ds) = (m1, ds1) -> LF P m m1.
Proof.
  intros N HP L. destruct (cycle_loop e _ _ _ _ _ _ L) as (x & E & A & B & _). constructor. exists x. rewrite E. cbn. split; [reflexivity|].
  split. { eapply Forall_impl; [|exact A]. intros ev He. destruct ev; try discriminate. apply HP. }
  intros n c F. exists c. split; [exact F|]. split; [|apply upd_chained; exact A]. apply upd_phase; [exact A|].
  intros I. apply (sub_in _ _ B) in I. apply in_map_iff in I. destruct I as (d & Ed & I). apply filter_In in I. destruct I as [I T].
  pose proof (find_of_NI m d N I) as Fd. rewrite Ed in Fd. unfold find_ctrl in F, Fd. rewrite F in Fd. injection Fd as ->.
  unfold turn in T. apply andb_true_iff in T. destruct T as [T _]. unfold is_lc in T. apply lc_eqb_eq in T. rewrite T. reflexivity.
Qed.
Lemma LF_weak (P Q : event -> Prop) m m' : (forall ev, P ev -> Q ev) -> LF P m m' -> LF Q m m'.
Proof. intros H [(x & A & B & C)]. constructor. exists x. split; [exact A|]. split; [eapply Forall_impl; eassumption|exact C]. Qed.
Definition upd_or (ev : event) := match ev with EvUpdate _ _ => True | _ => False end \/ switches_ctrl ev \/ mode_event ev.
Lemma LF_cm_update e allow m m' : NI m -> cm_update e allow m = Val m' -> LF upd_or m m'.
Proof.
  intros N H. unfold cm_update in H. destruct (fold_left _ _ _) as [m1 ds] eqn:L.
  assert (L1 : LF upd_or m m1) by (eapply LF_loop; [exact N| |exact L]; intros; left; exact I).
  destruct ds as [|d ds]; [injection H as <-; exact L1|]. cbv zeta in H.
  match type of H with match ?fl with _ => _ end = _ => set (F := fl) in * end.
  match goal with H : context [deactivate_controllers e ?a ?b] |- _ => set (M := a) in *; set (D := b) in * end.
  assert (L2 : LF upd_or m1 M) by (apply LF_prep_perf; intros ev He; right; right; exact He).
  assert (L3 : LF upd_or M (deactivate_controllers e M D)) by (apply LF_deactivate; intros ev He; right; left; apply stops_switches; exact He).
  destruct F as [|f F]; [injection H as <-; eapply LF_trans; [exact L1|eapply LF_trans; [exact L2|exact L3]]|].
  eapply LF_trans; [exact L1|eapply LF_trans; [exact L2|eapply LF_trans; [exact L3|]]]. eapply LF_activate; [|exact H].
  intros ev He. right. exact He.
Qed.
Definition read_or (ev : event) := stops_ctrl ev \/ mode_event ev \/ read_ev ev.
Definition write_or (ev : event) := stops_ctrl ev \/ mode_event ev \/ write_ev ev.
Lemma LF_cm_read e allow m : LF read_or m (cm_read e allow m).
Proof.
  unfold cm_read. pose proof (ext_read e (cm_rm m)) as X. destruct (rm_read e (cm_rm m)) as [r1 st]. cbn [fst] in X.
  assert (L1 : LF read_or m (set_rm m r1)).
  { apply LF_rm. eapply ext_weak; [|exact X]. intros ev He. split; [destruct ev; cbn in *; tauto|right; right; exact He]. }
  destruct (rtype_eqb _ _); [exact L1|]. cbv zeta. eapply LF_trans; [exact L1|]. eapply LF_trans; [apply LF_prep_perf; intros ev He; right; left; exact He|].
  apply LF_deactivate. intros ev He. left. exact He.
Qed.
Lemma LF_cm_write e allow m : LF write_or m (cm_write e allow m).
Proof.
  unfold cm_write. pose proof (ext_write e (cm_rm m)) as X. destruct (rm_write e (cm_rm m)) as [r1 st]. cbn [fst] in X.
  assert (L1 : LF write_or m (set_rm m r1)).
  { apply LF_rm. eapply ext_weak; [|exact X]. intros ev He. split; [destruct ev; cbn in *; tauto|right; right; exact He]. }
  cbv zeta. destruct (rw_result st); [exact L1|..]; (eapply LF_trans; [exact L1|]; eapply LF_trans; [apply LF_prep_perf; intros ev He; right; left; exact He|]);
  apply LF_deactivate; intros ev He; left; exact He.
Qed.

(** one operation *)
Record follows (m m' : cm) (o : cop) (t : trace) : Prop := {
  fo_kept : forall n c, find_ctrl m n = Some c ->
    (exists c', find_ctrl m' n = Some c' /\ phase n (PState (c_lc c)) t = Some (PState (c_lc c')) /\ chained_by n (c_chained c) t = c_chained c') \/
    (o = CUnload n /\ find_ctrl m' n = None /\ exists l, l <> Active /\ phase n (PState (c_lc c)) t = Some (PState l)) }.
Definition life_step (m m' : cm) (o : cop) : Prop := exists t, happened m m' t /\ Forall (may_call o) t /\ follows m m' o t.
Lemma life_of_LF m m' o (P : event -> Prop) : (forall ev, P ev -> may_call o ev) -> LF P (emit m EvOp) m' -> life_step m m' o.
Proof.
  intros H [(x & A & B & C)]. exists x. split; [exact A|]. split; [eapply Forall_impl; [exact H|exact B]|].
  constructor. intros n c F. left. exact (C n c F).
Qed.
Lemma NI_emit m : NI m -> NI (emit m EvOp). Proof. intros H. exact H. Qed.
Lemma find_app l l' n d : find_in l n = Some d -> find_in (l ++ l') n = Some d.
Proof. induction l as [|x l IH]; cbn; [discriminate|]. destruct (String.eqb (c_name x) n); auto. Qed.
Lemma find_refresh r l n d : find_in l n = Some d -> find_in (map (refresh_claimed r) l) n = Some (refresh_claimed r d).
Proof. induction l as [|x l IH]; cbn; [discriminate|]. destruct (String.eqb (c_name x) n); [intros [= ->]; reflexivity|exact IH]. Qed.
Lemma main_step e allow m o m' out : NI m -> cstep e allow m o = Val (m', out) -> life_step m m' o.
Proof.
  intros N H. unfold cstep in H. set (m0 := emit m EvOp) in *. assert (N0 : NI m0) by exact N.
  assert (R : forall o, life_step m m0 o) by (intros q; apply (life_of_LF m m0 q (fun _ => False)); [intros ev []|apply LF_refl]).
  assert (SV : forall x o, serviced m0 x = Val (m', out) -> (x = Val (m', out) -> life_step m m' o) -> life_step m m' o).
  { intros x q Hx K. unfold serviced in Hx. destruct (cm_pend m0); [injection Hx as <- <-; apply R|apply K; exact Hx]. }
  destruct o.
  - apply (SV _ _ H). clear H. intros H. injection H as <- <-. unfold load_controller.
    destruct (find_ctrl m0 (c_name c)) eqn:F; [apply R|]. destruct init_ok; [|apply R]. unfold fst.
    apply (life_of_LF m _ _ (fun _ => False)); [intros ev []|]. apply LF_same; [reflexivity|]. intros n d Hd. exists d. split; [|auto].
    apply find_app. exact Hd.
  - apply (SV _ _ H). clear H. intros H. destruct (unload_controller e m0 n) as [m1 b] eqn:U. injection H as -> <-.
    pose proof (LF_unload (may_call (CUnload n)) e m0 n m' b) as L.
    destruct L as [L|(m4 & L & (c4 & F4 & A4) & ->)]; [split; intros; reflexivity|split; intros; reflexivity|exact U|eapply life_of_LF; [|exact L]; auto|].
    destruct L as [(x & A & B & C)]. exists x. split; [exact A|]. split; [exact B|]. constructor. intros k c F.
    destruct (C k c F) as (c' & F' & P1 & P2). destruct (string_dec k n) as [->|Ne].
    + right. split; [reflexivity|]. rewrite F4 in F'. injection F' as <-. split; [|exists (c_lc c4); auto].
      unfold find_ctrl. cbn [cm_ctrls set_ctrls]. apply find_in_none. intros I. apply in_map_iff in I. destruct I as (d & Ed & I).
      apply filter_In in I. destruct I as [_ I]. rewrite Ed, String.eqb_refl in I. discriminate.
    + left. exists c'. split; [|auto]. unfold find_ctrl in *. cbn [cm_ctrls set_ctrls]. clear -F' Ne. revert F'. generalize (cm_ctrls m4).
      induction l as [|d l IH]; cbn; [discriminate|]. destruct (String.eqb (c_name d) k) eqn:E.
      * intros [= <-]. apply String.eqb_eq in E. destruct (String.eqb (c_name d) n) eqn:E2; [apply String.eqb_eq in E2; congruence|].
        cbn. rewrite E, String.eqb_refl. reflexivity.
      * intros H. destruct (negb (String.eqb (c_name d) n)); [cbn; rewrite E|]; auto.
  - apply (SV _ _ H). clear H. intros H. injection H as <- <-. eapply life_of_LF; [intros ev K; exact K|]. apply LF_cleanup_controller. split; intros; reflexivity.
  - apply (SV _ _ H). clear H. intros H. apply bind_val in H. destruct H as ([m1 b] & H & H1). injection H1 as E1 E2. cbn [fst snd] in *. subst.
    eapply life_of_LF; [intros ev K; exact K|]. eapply LF_configure_controller; [exact N0|split; intros; reflexivity|split; intros; reflexivity|intros; reflexivity|exact H].
  - apply (SV _ _ H). clear H. intros H. apply bind_val in H. destruct H as ([m1 b] & H & H1). injection H1 as <- <-.
    apply request_tr in H. destruct H as [E X]. eapply life_of_LF; [intros ev K; exact K|]. apply LF_calm.
    + eapply ext_weak; [|exact X]. intros ev He. destruct ev; cbn in *; tauto.
    + intros n c F. exists c. unfold find_ctrl in *. rewrite E. auto.
  - destruct (cm_pend m0) as [p|]; [|injection H as <- <-; apply R]. destruct (p_done p); [injection H as <- <-; apply R|].
    apply bind_val in H. destruct H as (m1 & H & H1). injection H1 as <- <-. eapply life_of_LF; [intros ev K; exact K|].
    eapply LF_trans; [eapply LF_manage; [|exact H]; intros ev K; exact K|]. apply LF_same; [reflexivity|]. intros n c F. exists c. auto.
  - destruct (cm_pend m0) as [p|]; [|injection H as <- <-; apply R]. destruct (p_done p); injection H as <- <-; [apply R|].
    eapply life_of_LF; [intros ev K; exact K|]. apply LF_same; [reflexivity|]. intros n c F. exists c. auto.
  - destruct (cm_pend m0) as [p|]; [|injection H as <- <-; apply R]. destruct (p_done p); [|injection H as <- <-; apply R].
    injection H as <- <-. eapply life_of_LF; [intros ev K; exact K|]. apply LF_same; [reflexivity|]. intros n c F.
    exists (refresh_claimed (cm_rm m0) c). split; [|split; reflexivity]. apply find_refresh. exact F.
  - injection H as <- <-. eapply life_of_LF; [|apply LF_cm_read]. intros ev K. exact K.
  - apply bind_val in H. destruct H as (m1 & H & H1). injection H1 as <- <-. eapply life_of_LF; [|eapply LF_cm_update; [exact N0|exact H]]. intros ev K. exact K.
  - injection H as <- <-. eapply life_of_LF; [|apply LF_cm_write]. intros ev K. exact K.
  - pose proof (ext_set_state e (cm_rm m0) h target) as X. destruct (set_component_state e (cm_rm m0) h target) as [r1 ok]. injection H as <- <-.
    eapply life_of_LF; [intros ev K; exact K|]. apply LF_rm. eapply ext_weak; [|exact X]. intros ev K. split; [destruct ev; cbn in *; tauto|exact K].
Qed.

Definition unloads_no (n : name) (ops : list cop) : Prop := ~ In (CUnload n) ops.
Lemma phase_evop n s t : phase n s (t ++ [EvOp]) = phase n s t.
Proof. rewrite phase_app. reflexivity. Qed.
Lemma chained_evop n b t : chained_by n b (t ++ [EvOp]) = chained_by n b t.
Proof. rewrite chained_app. reflexivity. Qed.
Lemma main_history e allow n : forall ops m m' c, NI m -> crun e allow m ops = Val m' -> find_ctrl m n = Some c -> ~ In (CUnload n) ops ->
  exists t c', rm_trace (cm_rm m') = t ++ rm_trace (cm_rm m) /\ find_ctrl m' n = Some c' /\
    phase n (PState (c_lc c)) t = Some (PState (c_lc c')) /\ chained_by n (c_chained c) t = c_chained c'.
Proof.
  induction ops as [|o ops IH]; intros m m' c N H F U; cbn in H.
  { injection H as <-. exists [], c. auto. }
  destruct (cstep e allow m o) as [[m1 out]|] eqn:S; cbn in H; [|discriminate].
  destruct (main_step _ _ _ _ _ _ N S) as (t & HA & _ & [FO]). 
  assert (N1 : NI m1). { eapply (cstep_inv e allow NI); [intros x X; exact (proj1 X)|intros a b A B; eapply prim_NI; eassumption|exact N|exact S]. }
  destruct (FO n c F) as [(c1 & F1 & P1 & C1)|(E & _)]; [|exfalso; apply U; left; exact E].
  destruct (IH m1 m' c1 N1 H F1) as (t' & c' & T & F' & P' & C'); [intros I; apply U; right; exact I|].
  exists (t' ++ t ++ [EvOp]), c'. split; [rewrite T, HA, <- !app_assoc; reflexivity|]. split; [exact F'|].
  rewrite phase_app, phase_evop, P1, chained_app, chained_evop, C1. auto.
Qed.
Lemma main_load e allow m c m' : cstep e allow m (CLoad c true) = Val (m', CBool true) ->
  exists c', find_ctrl m (c_name c) = None /\ cm_ctrls m' = cm_ctrls m ++ [c'] /\
    c_name c' = c_name c /\ c_lc c' = Unconfigured /\ c_chained c' = false /\ c_cloans c' = [] /\ c_sloans c' = [].
Proof.
  intros H. unfold cstep, serviced in H. destruct (cm_pend _); [discriminate|]. unfold to_out, load_controller in H.
  destruct (find_ctrl (emit m EvOp) (c_name c)) eqn:F; [discriminate|]. injection H as <-. exists (fresh c). split; [exact F|]. repeat split.
Qed.
