(** CmBystander.v -- controllers that a switch request does not name and from which no loaded controller wants anything are
    not touched by the switch. *)
From Verif Require Import Base Events HwModel RmModel RmSys RmSpec RmProofs RmInv CmModel CmPrim CmInv CmSpec CmSwitch FollowSpec CmFollow BestSpec.
Open Scope list_scope.

Section By.
Variables (m : cm) (n : name).
Let l := cm_ctrls m.
Hypothesis Hno : forall c k, In c l -> may_want m c k -> ~ owned_by k n.
Record ev (r : rm) : Prop := {
  v_avc : incl (rm_avc r) (everything m); v_avs : incl (rm_avs r) (everything m);
  v_refs : rm_refs r = rm_refs (cm_rm m); v_exps : rm_exps r = rm_exps (cm_rm m) }.
Lemma ev_start : ev (cm_rm m).
Proof. constructor; try reflexivity; unfold everything; intros k Hk; rewrite !in_app_iff; auto. Qed.
Lemma ev_exps r f r' : make_exps_available r f = Some r' -> ev r -> ev r'.
Proof.
  unfold make_exps_available. destruct (aget _ _) as [ks|] eqn:E; [|discriminate]. intros [= <-] [A B C D].
  constructor; try assumption. cbn [rm_avs with_av]. intros k Hk. apply In_add_items in Hk. destruct Hk as [Hk|Hk]; [auto|].
  rewrite D in E. apply vals_incl in E. unfold everything. rewrite !in_app_iff. auto.
Qed.
Lemma ev_refs r f r' : make_refs_available r f = Some r' -> ev r -> ev r'.
Proof.
  unfold make_refs_available. destruct (aget _ _) as [ks|] eqn:E; [|discriminate]. intros [= <-] [A B C D].
  constructor; try assumption. cbn [rm_avc with_av]. intros k Hk. apply In_add_items in Hk. destruct Hk as [Hk|Hk]; [auto|].
  rewrite C in E. apply vals_incl in E. unfold everything. rewrite !in_app_iff. auto.
Qed.
Lemma not_owner r c k f : ev r -> In c l -> In k (cmd_names r c ++ state_names r c) -> chained_to l k = Val (Some f) -> c_name f <> n.
Proof.
  intros V Ic Hk H E. assert (W : may_want m c k) by (apply in_app_iff in Hk; destruct Hk as [Hk|Hk]; [left|right]; eapply names_mono; [|exact Hk| |exact Hk]; apply V).
  apply (Hno c k Ic W). unfold chained_to in H. destruct (prefix_of k) as [p|] eqn:P; [|discriminate]. injection H as H.
  unfold owned_by. rewrite P. f_equal. rewrite <- (find_in_name _ _ _ H). exact E.
Qed.
Record out (w : sw) : Prop := { o_a : ~ In n (w_act w); o_d : ~ In n (w_deact w); o_t : ~ In n (w_to w); o_f : ~ In n (w_from w); o_ev : ev (w_rm w) }.

Lemma out_prop_itf c : In c l -> forall ks w w', (forall k, In k ks -> exists r, ev r /\ In k (cmd_names r c ++ state_names r c)) ->
  rfold (propagate_itf l) ks w = Val w' -> out w -> out w'.
Proof.
  intros Ic. induction ks as [|k ks IH]; intros w w' HK H O; cbn [rfold] in H; [injection H as <-; exact O|].
  apply bind_val in H. destruct H as (w1 & H1 & H). eapply IH; [intros k' Hk'; apply HK; right; exact Hk'|exact H|].
  unfold propagate_itf in H1. apply bind_val in H1. destruct H1 as (fo & C & H1). injection H1 as <-. destruct fo as [f|]; [|exact O].
  destruct (HK k (or_introl eq_refl)) as (r & V & K). pose proof (not_owner r c k f V Ic K C) as NE.
  destruct O as [A B T F V']. constructor; cbn; try assumption. intros I. apply In_add_item in I. destruct I as [I|I]; [congruence|exact (F I)].
Qed.
Lemma out_propagate : forall cs w w', incl cs l -> propagate l cs w = Val w' -> out w -> out w'.
Proof.
  induction cs as [|c cs IH]; intros w w' Hi H O; cbn [propagate] in H; [injection H as <-; exact O|].
  assert (Ic : In c l) by (apply Hi; left; reflexivity). assert (Hi' : incl cs l) by (intros x Hx; apply Hi; right; exact Hx).
  destruct (mem (c_name c) (w_deact w)); [|eapply IH; eassumption]. destruct (is_lc Active c); [|injection H as <-; exact O].
  apply bind_val in H. destruct H as (w1 & H1 & H). eapply IH; [exact Hi'|exact H|]. eapply (out_prop_itf c Ic); [|exact H1|exact O].
  intros k Hk. exists (w_rm w). split; [apply O|exact Hk].
Qed.
Lemma In_remove1 x y (ls : list name) : In x (remove1 y ls) -> In x ls.
Proof.
  induction ls as [|z ls IH]; cbn [remove1]; [auto|]. destruct (String.eqb y z); [intros H; right; exact H|]. intros [->|H]; [left; reflexivity|right; auto].
Qed.
Lemma out_follow : forall fuel w c w' ok, In c l -> check_following fuel l w c = Val (w', ok) -> out w -> out w'.
Proof.
  induction fuel as [|fu IH]; intros w c w' ok Ic H O; cbn [check_following] in H; [discriminate|]. cbv zeta in H.
  assert (Hks : forall k, In k (cmd_names (w_rm w) c ++ state_names (w_rm w) c) -> exists r, ev r /\ In k (cmd_names r c ++ state_names r c)).
  { intros k Hk. exists (w_rm w). split; [apply O|exact Hk]. }
  revert Hks H. generalize (cmd_names (w_rm w) c ++ state_names (w_rm w) c). generalize (cmd_names (w_rm w) c) (state_names (w_rm w) c).
  intros cmds states ks. revert w O. induction ks as [|k ks IHk]; intros w O Hks H; cbn [follow_loop] in H; [injection H as <- _; exact O|].
  apply bind_val in H. destruct H as ([w1 ok1] & H1 & H).
  assert (O1 : out w1).
  { clear H. unfold follow_itf in H1. apply bind_val in H1. destruct H1 as (fo & C & H1). destruct fo as [f|]; [|injection H1 as <- _; exact O].
    destruct (Hks k (or_introl eq_refl)) as (r & V & K). pose proof (not_owner r c k f V Ic K C) as NE.
    assert (If : In f l). { unfold chained_to in C. destruct (prefix_of k); [|discriminate]. injection C as C. eapply find_in_In. exact C. }
    destruct (negb (c_chainable f)); [injection H1 as <- _; exact O|]. cbv zeta in H1. destruct (is_lc Active f && mem (c_name f) (w_deact w)); [injection H1 as <- _; exact O|].
    destruct (negb (is_lc Active f) && negb (mem (c_name f) (w_act w))); [injection H1 as <- _; exact O|].
    apply bind_val in H1. destruct H1 as ([w2 ok2] & H2 & H1). pose proof (IH w f w2 ok2 If H2 O) as O2. clear H2.
    destruct ok2; cbn [negb] in H1; [|injection H1 as <- _; exact O2].
    destruct (negb (c_chained f)).
    - destruct (mem (c_name f) (w_to w2)); [injection H1 as <- _; exact O2|].
      apply bind_val in H1. destruct H1 as (r1 & E1 & H1). destruct (make_exps_available (w_rm w2) (c_name f)) eqn:M1; [|discriminate]. injection E1 as ->.
      pose proof (ev_exps _ _ _ M1 (o_ev _ O2)) as V1. destruct (mem k cmds).
      + apply bind_val in H1. destruct H1 as (r2 & E2 & H1). destruct (make_refs_available r1 (c_name f)) eqn:M2; [|discriminate]. injection E2 as ->.
        injection H1 as <- _. destruct O2 as [A B T F _]. constructor; cbn; try assumption; [|eapply ev_refs; eassumption].
        intros I. apply in_app_iff in I. destruct I as [I|[I|[]]]; [exact (T I)|congruence].
      + injection H1 as <- _. destruct O2 as [A B T F _]. constructor; cbn; assumption.
    - injection H1 as <- _. destruct O2 as [A B T F V2]. constructor; cbn; try assumption. intros I. apply In_remove1 in I. exact (F I). }
  destruct ok1; [|injection H as <- _; exact O1]. eapply IHk; [exact O1| |exact H]. intros k' Hk'. apply Hks. right. exact Hk'.
Qed.
Lemma out_check w x w' ok : check_activate l w x = Val (w', ok) -> out w -> out w'.
Proof.
  intros H O. unfold check_activate in H. destruct (find_in l x) as [c|] eqn:F; [|discriminate]. apply bind_val in H. destruct H as ([w1 ok1] & H1 & H).
  assert (O1 : out w1).
  { destruct (c_lc c); try (injection H1 as <- _; exact O). eapply out_follow; [eapply find_in_In; exact F|exact H1|exact O]. }
  destruct ok1; [|injection H as <- _; exact O1]. apply bind_val in H. destruct H as (b & _ & H). injection H as <- _. exact O1.
Qed.
Lemma out_act strict : forall rest kept w x, ~ In n kept -> ~ In n rest -> act_loop l strict kept rest w = Val x -> out w -> out (either x).
Proof.
  induction rest as [|k rest IH]; intros kept w x NK NR H O; cbn [act_loop] in H; [injection H as <-; exact O|].
  apply bind_val in H. destruct H as ([w1 ok] & H1 & H). pose proof (out_check _ _ _ _ H1 O) as O1.
  assert (NR' : ~ In n rest) by (intros I; apply NR; right; exact I).
  destruct ok; [|destruct strict].
  - eapply IH; [| |exact H|exact O1]; [|exact NR']. intros I. apply in_app_iff in I. destruct I as [I|[I|[]]]; [exact (NK I)|apply NR; left; exact I].
  - injection H as <-. exact O1.
  - eapply IH; [exact NK|exact NR'|exact H|]. destruct O1 as [A B T F V]. constructor; cbn; try assumption.
    intros I. apply in_app_iff in I. destruct I; contradiction.
Qed.
Lemma out_deact strict : forall rest kept w w', ~ In n kept -> ~ In n rest -> deact_loop m strict kept rest w = Some w' -> out w -> out w'.
Proof.
  induction rest as [|k rest IH]; intros kept w x NK NR H O; cbn [deact_loop] in H; [injection H as <-; exact O|].
  assert (NR' : ~ In n rest) by (intros I; apply NR; right; exact I). cbv zeta in H.
  destruct (match find_ctrl m k with Some c => is_lc Active c && check_preceding m w c | None => false end); [|destruct strict; [discriminate|]].
  - eapply IH; [| |exact H|exact O]; [|exact NR']. intros I. apply in_app_iff in I. destruct I as [I|[I|[]]]; [exact (NK I)|apply NR; left; exact I].
  - eapply IH; [exact NK|exact NR'|exact H|]. destruct O as [A B T F V]. constructor; cbn; try assumption.
    intros I. apply in_app_iff in I. destruct I; contradiction.
Qed.
Lemma ev_cache r c ks : ev r -> ev (cache_controller r c ks).
Proof.
  intros [A B C D]. destruct (cache_av c ks r) as [E1 E2]. pose proof (grow_cache c ks r) as G. constructor.
  - rewrite E1. exact A.
  - rewrite E2. exact B.
  - rewrite (g_refs _ _ G). exact C.
  - rewrite (g_exps _ _ G). exact D.
Qed.
Lemma out_conflict1 strict w c : out w -> out (either (conflict_one strict w c)).
Proof.
  intros O. unfold conflict_one. set (restart := ((_ || _) && _ && _)%bool). set (w1 := if restart then _ else w).
  assert (O1 : out w1).
  { unfold w1. destruct restart eqn:R; [|exact O]. unfold restart in R. apply andb_prop in R. destruct R as [R _]. apply andb_prop in R. destruct R as [R _].
    assert (NE : c_name c <> n). { intros E. rewrite E in R. apply orb_prop in R. destruct R as [R|R]; apply mem_In in R; [exact (o_t _ O R)|exact (o_f _ O R)]. }
    destruct O as [A B T F V]. constructor; cbn; try assumption; intros I; apply in_app_iff in I; (destruct I as [I|[I|[]]]; [auto|congruence]). }
  clearbody w1. cbv zeta.
  assert (RA : forall w, out w -> out (sw_lists w (remove1 (c_name c) (w_act w)) (w_deact w))).
  { intros x [A B T F V]. constructor; cbn; try assumption. intros I. apply In_remove1 in I. auto. }
  assert (RD : forall w, out w -> out (sw_lists w (w_act w) (remove1 (c_name c) (w_deact w)))).
  { intros x [A B T F V]. constructor; cbn; try assumption. intros I. apply In_remove1 in I. auto. }
  assert (RI : forall w s t, out w -> out (sw_itfs w (w_rm w) s t)). { intros x s t [A B T F V]. constructor; cbn; assumption. }
  assert (RC : forall w ks s t, out w -> out (sw_itfs w (cache_controller (w_rm w) (c_name c) ks) s t)).
  { intros x ks s t [A B T F V]. constructor; cbn; try assumption. apply ev_cache. exact V. }
  repeat match goal with |- context [if ?b then inr _ else _] => destruct b; [exact O|] end. cbn [either].
  match goal with |- out (if ?b then sw_itfs ?w ?r _ _ else _) => destruct b end.
  - apply RC. apply RI. repeat match goal with |- out (if ?b then _ else _) => destruct b; [apply RA || apply RD|] end; auto;
    repeat match goal with |- out (if ?b then _ else _) => destruct b; [apply RA || apply RD|] end; auto; try exact O1.
  - apply RI. repeat match goal with |- out (if ?b then _ else _) => destruct b; [apply RA || apply RD|] end; auto;
    repeat match goal with |- out (if ?b then _ else _) => destruct b; [apply RA || apply RD|] end; auto; try exact O1.
Qed.
Lemma out_conflict strict : forall cs w, out w -> out (either (conflict_loop strict cs w)).
Proof.
  induction cs as [|c cs IH]; intros w O; cbn [conflict_loop]; [exact O|]. pose proof (out_conflict1 strict w c O) as O1.
  destruct (conflict_one strict w c) as [w1|w1]; cbn [either] in O1; [apply IH; exact O1|exact O1].
Qed.
Lemma list_sub strict ls : forall ns got ok r, list_controllers ls strict ns got ok = Some r -> forall k, In k r -> In k got \/ In k ns.
Proof.
  induction ns as [|x ns IH]; intros got ok r H k Hk; cbn [list_controllers] in H; [destruct ok; [injection H as <-; auto|discriminate]|].
  destruct (find_in ls x).
  - destruct (IH _ _ _ H k Hk) as [I|I]; [|right; right; exact I]. apply in_app_iff in I. destruct I as [I|[I|[]]]; [auto|]. right. left. exact I.
  - destruct strict; [discriminate|]. destruct (IH _ _ _ H k Hk); [auto|]. right. right. assumption.
Qed.
Lemma out_request e allow a d strict asap m' o : ~ In n a -> ~ In n d -> switch_request e allow m a d strict asap = Val (m', o) ->
  cm_ctrls m' = l /\ (o = SwPending -> exists p, cm_pend m' = Some p /\ p_done p = false /\ ~ In n (p_act p) /\ ~ In n (p_deact p) /\ ~ In n (p_to p) /\ ~ In n (p_from p)).
Proof.
  intros Na Nd H. unfold switch_request in H. fold l in H.
  destruct (list_controllers l strict d [] true) as [d'|] eqn:Ed; [|injection H as <- <-; split; [reflexivity|discriminate]].
  destruct (list_controllers l strict a [] true) as [a'|] eqn:Ea; [|injection H as <- <-; split; [reflexivity|discriminate]].
  assert (Nd' : ~ In n d') by (intros I; destruct (list_sub _ _ _ _ _ _ Ed n I) as [[]|X]; contradiction).
  assert (Na' : ~ In n a') by (intros I; destruct (list_sub _ _ _ _ _ _ Ea n I) as [[]|X]; contradiction).
  apply bind_val in H. destruct H as (w1 & H1 & H).
  assert (O1 : out w1). { apply (out_propagate l _ _ (incl_refl l) H1). constructor; cbn; auto. apply ev_start. }
  apply bind_val in H. destruct H as (x & H2 & H). pose proof (out_act strict _ _ _ _ (in_nil (a:=n)) Na' H2 O1) as O2.
  destruct x as [w2|w2]; [|injection H as <- <-; split; [reflexivity|discriminate]]. cbn [either] in O2.
  destruct (deact_loop m strict [] (w_deact w2) w2) as [w3|] eqn:E3; [|injection H as <- <-; split; [reflexivity|discriminate]].
  pose proof (out_deact strict _ _ _ _ (in_nil (a:=n)) (o_d _ O2) E3 O2) as O3.
  destruct (sw_empty w3); [injection H as <- <-; split; [reflexivity|discriminate]|].
  pose proof (out_conflict strict l w3 O3) as O4. destruct (conflict_loop strict l w3) as [w4|w4]; [|injection H as <- <-; split; [reflexivity|discriminate]]. cbn [either] in O4.
  destruct (sw_empty w4); [injection H as <- <-; split; [reflexivity|discriminate]|].
  apply bind_val in H. destruct H as (b & _ & H). destruct b; cbn [negb] in H; [|injection H as <- <-; split; [reflexivity|discriminate]].
  destruct (rm_prepare e allow (w_rm w4) (w_start w4) (w_stop w4)) as [r5 ok]. destruct ok; cbn [negb] in H; [|injection H as <- <-; split; [reflexivity|discriminate]].
  injection H as <- <-. split; [reflexivity|]. intros _. eexists. split; [reflexivity|]. cbn. destruct O4. auto.
Qed.
End By.

Section Untouched.
Variables (e : env) (allow : bool) (n : name).
Lemma by_deact1 m k : k <> n -> find_ctrl (deactivate_one e m k) n = find_ctrl m n.
Proof.
  intros N. unfold deactivate_one. destruct (find_ctrl m k) as [c|]; [|reflexivity]. destruct (is_lc Active c); [|reflexivity].
  assert (E1 : find_ctrl (release_itfs (node_deactivate e m k) k) n = find_ctrl m n).
  { rewrite (fr_other k _ _ (frame_release k _)) by auto. apply (fr_other k _ _ (frame_transition e k m _ _ _ _)). auto. }
  destruct (c_chainable c); [|exact E1]. rewrite <- E1. rewrite <- (fr_other k _ _ (frame_chained e k (release_itfs (node_deactivate e m k) k) false)) by auto.
  set (m2 := set_chained e _ k false). destruct (make_exps_unavailable (cm_rm m2) k) as [r3|]; [|reflexivity]. destruct (make_refs_unavailable r3 k); reflexivity.
Qed.
Lemma by_deact ns : forall m, ~ In n ns -> find_ctrl (deactivate_controllers e m ns) n = find_ctrl m n.
Proof.
  unfold deactivate_controllers. induction ns as [|k ns IH]; intros m N; cbn [fold_left]; [reflexivity|].
  rewrite IH by (intros I; apply N; right; exact I). apply by_deact1. intros ->. apply N. left. reflexivity.
Qed.
Lemma by_chain ns on : forall m, ~ In n ns -> find_ctrl (switch_chained_mode e m ns on) n = find_ctrl m n.
Proof.
  unfold switch_chained_mode. induction ns as [|k ns IH]; intros m N; cbn [fold_left]; [reflexivity|].
  rewrite IH by (intros I; apply N; right; exact I). destruct (find_ctrl m k) as [c|]; [|reflexivity]. destruct (is_lc Active c); [reflexivity|].
  apply (fr_other k _ _ (frame_chained e k m on)). intros ->. apply N. left. reflexivity.
Qed.
Lemma by_ex m k m' : exports_available m k = Val m' -> find_ctrl m' n = find_ctrl m n.
Proof.
  unfold exports_available. intros H. apply bind_val in H. destruct H as (r1 & _ & H). apply bind_val in H. destruct H as (r2 & _ & H). injection H as <-. reflexivity.
Qed.
Lemma by_un m k m' : exports_unavailable m k = Val m' -> find_ctrl m' n = find_ctrl m n.
Proof.
  unfold exports_unavailable. intros H. apply bind_val in H. destruct H as (r1 & _ & H). apply bind_val in H. destruct H as (r2 & _ & H). injection H as <-. reflexivity.
Qed.
Lemma by_pre ns : forall m m', rfold preactivate ns m = Val m' -> find_ctrl m' n = find_ctrl m n.
Proof.
  induction ns as [|k ns IH]; intros m m' H; cbn [rfold] in H; [injection H as <-; reflexivity|]. apply bind_val in H. destruct H as (m1 & H1 & H).
  rewrite (IH _ _ H). unfold preactivate in H1. destruct (find_ctrl m k) as [c|]; [|injection H1 as <-; reflexivity].
  destruct (c_chainable c); [eapply by_ex; exact H1|injection H1 as <-; reflexivity].
Qed.
Lemma by_act1 m ok f k m' ok' f' : k <> n -> activate_one e (m, ok, f) k = Val (m', ok', f') -> find_ctrl m' n = find_ctrl m n.
Proof.
  intros N H. unfold activate_one in H. destruct (find_ctrl m k) as [c|]; [|injection H as <- _ _; reflexivity]. cbv zeta in H.
  apply bind_val in H. destruct H as ([r1 [cl|]] & _ & H); [|injection H as <- _ _; reflexivity].
  destruct (forallb (claim_state r1) (state_names r1 c)); [|injection H as <- _ _; reflexivity].
  set (m1 := upd _ k _) in H. assert (E1 : find_ctrl m1 n = find_ctrl m n).
  { unfold m1. rewrite (fr_other k (set_rm m (release_all r1 (c_cloans c)))); [reflexivity|apply frame_upd; apply keeps_loans|auto]. }
  set (m2 := node_activate e m1 k) in H. assert (E2 : find_ctrl m2 n = find_ctrl m n).
  { rewrite <- E1. apply (fr_other k _ _ (frame_transition e k m1 _ _ _ _)). auto. }
  destruct (find_ctrl m2 k) as [c2|]; [|injection H as <- _ _; exact E2]. destruct (is_lc Active c2).
  - destruct (c_chainable c); [|injection H as <- _ _; exact E2]. apply bind_val in H. destruct H as (m3 & H3 & H). injection H as <- _ _. rewrite (by_ex _ _ _ H3). exact E2.
  - assert (E3 : find_ctrl (release_itfs m2 k) n = find_ctrl m n) by (rewrite (fr_other k _ _ (frame_release k m2)) by auto; exact E2).
    destruct (c_chainable c); [|injection H as <- _ _; exact E3]. apply bind_val in H. destruct H as (m3 & H3 & H). injection H as <- _ _. rewrite (by_un _ _ _ H3). exact E3.
Qed.
Lemma by_acts ns : forall m ok f m' ok' f', ~ In n ns -> rfold (activate_one e) ns (m, ok, f) = Val (m', ok', f') -> find_ctrl m' n = find_ctrl m n.
Proof.
  induction ns as [|k ns IH]; intros m ok f m' ok' f' N H; cbn [rfold] in H; [injection H as <- _ _; reflexivity|]. apply bind_val in H. destruct H as ([[m1 ok1] f1] & H1 & H).
  rewrite (IH _ _ _ _ _ _ (fun i => N (or_intror i)) H). eapply by_act1; [|exact H1]. intros ->. apply N. left. reflexivity.
Qed.
Lemma by_pp m s t : find_ctrl (prep_perf e allow m s t) n = find_ctrl m n.
Proof. unfold prep_perf. destruct (rm_prepare e allow (cm_rm m) s t). reflexivity. Qed.
Lemma by_manage m p m' : ~ In n (p_act p) -> ~ In n (p_deact p) -> ~ In n (p_to p) -> ~ In n (p_from p) -> manage_switch e allow m p = Val m' -> find_ctrl m' n = find_ctrl m n.
Proof.
  intros A D T F H. unfold manage_switch in H. destruct (rm_perform e allow (cm_rm m) (p_start p) (p_stop p)) as [r1 ok]. destruct ok; cbn [negb] in H; [|injection H as <-; reflexivity].
  cbv zeta in H. set (m4 := switch_chained_mode e _ (p_from p) false) in H. assert (E4 : find_ctrl m4 n = find_ctrl m n).
  { unfold m4. rewrite by_chain by exact F. rewrite by_chain by exact T. rewrite by_deact by exact D. reflexivity. }
  unfold activate_controllers in H. apply bind_val in H. destruct H as (m5 & H5 & H). apply bind_val in H. destruct H as ([[m6 ok6] f6] & H6 & H).
  assert (E6 : find_ctrl m6 n = find_ctrl m n) by (rewrite (by_acts _ _ _ _ _ _ _ A H6), (by_pre _ _ _ H5); exact E4).
  destruct (negb ok6 && p_strict p); [injection H as <-; rewrite by_pp, by_deact by exact A; exact E6|].
  destruct (negb match f6 with [] => true | _ => false end); injection H as <-; [rewrite by_pp|]; exact E6.
Qed.
End Untouched.

Lemma main_bystander e allow m a d strict asap m1 m2 out n : ~ In n a -> ~ In n d ->
  (forall c k, In c (cm_ctrls m) -> may_want m c k -> ~ owned_by k n) ->
  cstep e allow m (CRequest a d strict asap) = Val (m1, CSw SwPending) -> cstep e allow m1 CPerform = Val (m2, out) ->
  find_ctrl m2 n = find_ctrl m n.
Proof.
  intros Na Nd Hno H1 H2. unfold cstep, serviced in H1. set (me := emit m EvOp) in *. destruct (cm_pend me); [discriminate|].
  apply bind_val in H1. destruct H1 as ([m1' o] & H1 & E). assert (m1' = m1) by congruence. assert (o = SwPending) by congruence. subst m1' o.
  destruct (out_request me n Hno e allow a d strict asap m1 SwPending Na Nd H1) as [C1 P]. destruct (P eq_refl) as (p & Pp & Dp & X1 & X2 & X3 & X4).
  unfold cstep in H2. change (cm_pend (emit m1 EvOp)) with (cm_pend m1) in H2. rewrite Pp, Dp in H2.
  apply bind_val in H2. destruct H2 as (m3 & H2 & E2). injection E2 as <- _.
  change (find_ctrl m3 n = find_ctrl m n). rewrite (by_manage e allow n _ _ _ X1 X2 X3 X4 H2).
  unfold find_ctrl. change (cm_ctrls (emit m1 EvOp)) with (cm_ctrls m1). rewrite C1. reflexivity.
Qed.
