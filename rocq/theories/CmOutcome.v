(** CmOutcome.v -- rejected requests leave the controllers alone; the answer of a switch. *)
From Coq Require Import Lia.
From Verif Require Import Base Events HwModel RmModel RmProofs RmInv ChainModel CmModel CmPrim ChainSpec CmTopo ChainMain CmInv CmReach CmSpec CmSwitch.

Lemma conflict_grow strict cs : forall w, grow (w_rm w) (w_rm (either (conflict_loop strict cs w))).
Proof.
  induction cs as [|c cs IH]; intros w; cbn [conflict_loop]; [apply grow_refl|].
  assert (X : grow (w_rm w) (w_rm (either (conflict_one strict w c)))).
  { unfold conflict_one. cbv zeta.
    repeat match goal with |- context [if ?b then _ else _] => destruct b end; cbn [either]; try apply grow_refl; apply grow_cache. }
  destruct (conflict_one strict w c) as [w1|w1]; cbn [either] in *; [eapply grow_trans; [exact X|apply IH]|exact X].
Qed.

(** every request, whatever its strictness and outcome *)
Lemma request_grow e allow m a d strict asap m' o : switch_request e allow m a d strict asap = Val (m', o) ->
  exists r, grow (cm_rm m) r /\
    ((m' = set_rm m r /\ o <> SwPending) \/ (exists p, m' = set_pend (set_rm m r) (Some p) /\ o = SwPending /\ p_strict p = strict /\ p_asap p = asap /\ p_done p = false)).
Proof.
  intros H. unfold switch_request in H.
  assert (Q : forall r o', grow (cm_rm m) r -> o' <> SwPending -> (set_rm m r, o') = (m', o) ->
     exists r, grow (cm_rm m) r /\
    ((m' = set_rm m r /\ o <> SwPending) \/ (exists p, m' = set_pend (set_rm m r) (Some p) /\ o = SwPending /\ p_strict p = strict /\ p_asap p = asap /\ p_done p = false))).
  { intros r o' G Ho [= <- <-]. exists r. split; [exact G|]. left. auto. }
  destruct (list_controllers _ strict d [] true) as [d'|];
    [|injection H as <- <-; apply (Q (cm_rm m) SwError); [apply grow_refl|discriminate|rewrite set_rm_same; reflexivity]].
  destruct (list_controllers _ strict a [] true) as [a'|];
    [|injection H as <- <-; apply (Q (cm_rm m) SwError); [apply grow_refl|discriminate|rewrite set_rm_same; reflexivity]].
  apply bind_val in H. destruct H as (w1 & H1 & H). apply propagate_same in H1. destruct H1 as (_ & P3 & _). cbn [w_rm] in P3.
  apply bind_val in H. destruct H as (x & H2 & H). apply act_loop_grow in H2. rewrite P3 in H2.
  destruct x as [w2|w2]; cbn [either] in H2; [|injection H as <- <-; eapply Q; [exact H2| |reflexivity]; discriminate].
  destruct (deact_loop m strict [] (w_deact w2) w2) as [w3|] eqn:H3; [|injection H as <- <-; eapply Q; [exact H2| |reflexivity]; discriminate].
  apply deact_loop_rm in H3.
  destruct (sw_empty w3); [rewrite H3 in H; injection H as <- <-; eapply Q; [exact H2| |reflexivity]; discriminate|].
  pose proof (conflict_grow strict (cm_ctrls m) w3) as H4. rewrite H3 in H4. pose proof (grow_trans _ _ _ H2 H4) as S4.
  destruct (conflict_loop strict (cm_ctrls m) w3) as [w4|w4]; cbn [either] in S4; [|injection H as <- <-; eapply Q; [exact S4| |reflexivity]; discriminate].
  destruct (sw_empty w4); [injection H as <- <-; eapply Q; [exact S4| |reflexivity]; discriminate|].
  apply bind_val in H. destruct H as (b & _ & H).
  destruct (negb b); [injection H as <- <-; eapply Q; [exact S4| |reflexivity]; discriminate|].
  pose proof (grow_prepare e allow (w_rm w4) (w_start w4) (w_stop w4)) as K.
  destruct (rm_prepare e allow (w_rm w4) (w_start w4) (w_stop w4)) as [r5 ok]. cbn [fst] in K.
  pose proof (grow_trans _ _ _ S4 K) as S5.
  destruct (negb ok); [injection H as <- <-; eapply Q; [exact S5| |reflexivity]; discriminate|].
  injection H as <- <-. exists r5. split; [exact S5|]. right. eexists. split; [reflexivity|]. auto.
Qed.

Lemma emit_grow m ev : grow (cm_rm m) (cm_rm (emit m ev)).
Proof. apply grow_trace. Qed.

(** C14: a rejected request changes no controller, no claim and no component, and leaves nothing
    pending. *)
Lemma main_rejected e allow m a d strict asap m' :
  cstep e allow m (CRequest a d strict asap) = Val (m', CSw SwError) ->
  cm_ctrls m' = cm_ctrls m /\ cm_pend m' = cm_pend m /\ cm_pend m' = None /\
  rm_claimed (cm_rm m') = rm_claimed (cm_rm m) /\ rm_hw (cm_rm m') = rm_hw (cm_rm m) /\
  incl (rm_avc (cm_rm m)) (rm_avc (cm_rm m')) /\ incl (rm_avs (cm_rm m)) (rm_avs (cm_rm m')).
Proof.
  unfold cstep. set (m0 := emit m EvOp). unfold serviced. change (cm_pend m0) with (cm_pend m).
  destruct (cm_pend m) eqn:P; [discriminate|]. intros H. apply bind_val in H. destruct H as ([m1 o] & H & H1). injection H1 as <- ->.
  apply request_grow in H. destruct H as (r & G & [[-> _]|(p & _ & E & _)]); [|discriminate].
  pose proof (grow_trans _ _ _ (emit_grow m EvOp) G) as [].
  cbn [set_rm cm_ctrls cm_pend cm_rm]. change (cm_pend m0) with (cm_pend m). rewrite P. repeat split; assumption.
Qed.
(** ... and nothing happens later because of it. *)
Lemma main_nothing_pending e allow m o m' out : cm_pend m = None ->
  o = CPerform \/ o = CTimeout \/ o = CEvaluate -> cstep e allow m o = Val (m', out) ->
  cm_ctrls m' = cm_ctrls m /\ cm_pend m' = None /\ out = CNone.
Proof.
  intros P H. unfold cstep. change (cm_pend (emit m EvOp)) with (cm_pend m). rewrite P.
  destruct H as [->|[->| ->]]; intros [= <- <-]; auto.
Qed.

Lemma main_strict_valid e allow hs ops m a d asap m' out : crun e allow (cm_start hs) ops = Val m ->
  cstep e allow m (CRequest a d true asap) = Val (m', out) ->
  out <> CSw SwError -> out <> CBlocked ->
  valid_switch m m' a d.
Proof.
  intros R. pose proof (reach_NI _ _ _ _ _ R) as [ND _].
  unfold cstep. set (m0 := emit m EvOp). unfold serviced. destruct (cm_pend m0) eqn:P; [intros [= <- <-]; congruence|].
  intros H N1 N2. apply bind_val in H. destruct H as ([m1 o] & H & H1). injection H1 as <- <-.
  apply request_strict in H; [|exact ND].
  destruct H as [[-> _]|[(-> & -> & -> & ->)|(-> & p & Rs & _ & [])]]; [congruence| |].
  - split; [intros n []|]. split; [intros c _ []|]. split; [intros c _ []|]. split; [intros c k f _ []|].
    split; [intros c1 c2 k _ _ _ []|]. split; [intros c k _ []|]. split; [intros c f _ []|].
    exists []. split; [intros n []|intros c k _ []].
  - split; [exact sf_known|]. split; [exact sf_stop|]. split; [exact sf_start|]. split; [exact sf_partners|].
    split; [exact sf_conf|]. split; [exact sf_avail|]. split; [exact sf_fb|].
    exists Rs. split; [intros n Hn; apply sf_restart; exact Hn|exact sf_free].
Qed.

(** ---------------------------------------------------------------- pending switches *)
Definition quiet_kinds (k : pk) : Prop := k <> KPend /\ k <> KList.
Lemma prim_pend e allow (KS : pk -> Prop) m m' : (~ KS KPend) -> prim e allow KS m m' -> cm_pend m' = cm_pend m.
Proof.
  intros N P. destruct P; try reflexivity; try contradiction.
  unfold build_topology in H0. apply bind_val in H0. destruct H0 as ([[s rc] sc] & _ & H0). injection H0 as <-.
  unfold reorder in H1. apply bind_val in H1. destruct H1 as (ns & _ & H1). injection H1 as <-. reflexivity.
Qed.
Lemma steps_pend e allow (KS : pk -> Prop) m m' : (~ KS KPend) -> steps e allow KS m m' -> cm_pend m' = cm_pend m.
Proof. intros N S. induction S; [reflexivity|]. rewrite (prim_pend _ _ _ _ _ N H). exact IHS. Qed.

Definition no_pend (k : pk) : Prop := k <> KPend.
Definition done_of (p : pend) : pend :=
  {| p_act := p_act p; p_deact := p_deact p; p_to := p_to p; p_from := p_from p; p_start := p_start p;
     p_stop := p_stop p; p_strict := p_strict p; p_asap := p_asap p; p_done := true |}.
Lemma quiet_steps e allow m m' : steps e allow quiet_kinds m m' ->
  cm_pend m' = cm_pend m /\ map c_name (cm_ctrls m') = map c_name (cm_ctrls m).
Proof.
  intros S. split; [eapply steps_pend; [|exact S]; intros [K _]; apply K; reflexivity|].
  apply (steps_names e allow). clear -S. induction S as [|a b S IH P]; [apply s_refl|]. eapply s_one; [exact IH|].
  assert (X : forall k, quiet_kinds k -> not_list k) by (intros k [_ K]; exact K).
  destruct P; (econstructor; eauto; fail) || idtac.
  - eapply p_lc; eauto. intros Hl. destruct (H2 Hl); auto.
Qed.

(** while a switch is pending, everything but its end keeps the plan and the set of controllers *)
Lemma pending_kept e allow m o m' out p : cm_pend m = Some p -> cstep e allow m o = Val (m', out) ->
  o <> CTimeout -> o <> CEvaluate ->
  (cm_pend m' = Some p \/ cm_pend m' = Some (done_of p)) /\ map c_name (cm_ctrls m') = map c_name (cm_ctrls m).
Proof.
  intros P. unfold cstep. set (m0 := emit m EvOp).
  assert (P0 : cm_pend m0 = Some p) by exact P.
  assert (N0 : map c_name (cm_ctrls m0) = map c_name (cm_ctrls m)) by reflexivity.
  assert (KU : quiet_kinds KUp) by (split; discriminate). assert (KH : quiet_kinds KHw) by (split; discriminate).
  unfold serviced. rewrite P0.
  assert (Q : forall x, steps e allow quiet_kinds m0 x -> (cm_pend x = Some p \/ cm_pend x = Some (done_of p)) /\ map c_name (cm_ctrls x) = map c_name (cm_ctrls m)).
  { intros x S. apply quiet_steps in S. destruct S as [A B]. split; [left; congruence|congruence]. }
  destruct o; intros H Ne1 Ne2; try (injection H as <- <-; apply Q; apply s_refl).
  - destruct (p_done p) eqn:D; [injection H as <- <-; apply Q; apply s_refl|].
    apply bind_val in H. destruct H as (m1 & H & H1). injection H1 as <- <-.
    apply (manage_switch_steps e allow quiet_kinds KU) in H. apply quiet_steps in H. destruct H as [_ H].
    split; [right; reflexivity|]. cbn [set_pend cm_ctrls]. congruence.
  - contradiction.
  - contradiction.
  - injection H as <- <-. apply Q. apply read_steps. exact KH.
  - apply bind_val in H. destruct H as (m1 & H & H1). injection H1 as <- <-. apply Q. eapply update_steps; [exact KU|exact H].
  - injection H as <- <-. apply Q. apply write_steps. exact KH.
  - pose proof (p_sethw e allow quiet_kinds m0 h target KH) as K. destruct (set_component_state e (cm_rm m0) h target) as [r1 ok].
    injection H as <- <-. apply Q. apply steps_prim. exact K.
Qed.
Definition not_end (o : cop) : Prop := o <> CTimeout /\ o <> CEvaluate.
Lemma pending_kept_run e allow : forall mid m m' p, cm_pend m = Some p -> Forall not_end mid ->
  crun e allow m mid = Val m' ->
  (cm_pend m' = Some p \/ cm_pend m' = Some (done_of p)) /\ map c_name (cm_ctrls m') = map c_name (cm_ctrls m).
Proof.
  unfold crun. induction mid as [|o mid IH]; intros m m' p P FA H; cbn [rfold] in H; [injection H as <-; auto|].
  apply bind_val in H. destruct H as (m1 & H1 & H). apply bind_val in H1. destruct H1 as ([m2 out] & H1 & H2). injection H2 as <-.
  inversion FA as [|? ? [N1 N2] FA']; subst. destruct (pending_kept _ _ _ _ _ _ _ P H1 N1 N2) as [[Q|Q] E];
    destruct (IH _ _ _ Q FA' H) as [[Z|Z] E']; rewrite Z, E'; (split; [|exact E]); auto.
Qed.

Lemma refresh_keeps r c : c_name (refresh_claimed r c) = c_name c /\ c_lc (refresh_claimed r c) = c_lc c.
Proof. split; reflexivity. Qed.
Lemma find_refresh r l n : find_in (map (refresh_claimed r) l) n = option_map (refresh_claimed r) (find_in l n).
Proof.
  unfold find_in. induction l as [|c l IH]; cbn [map find]; [reflexivity|].
  change (c_name (refresh_claimed r c)) with (c_name c). destruct (String.eqb (c_name c) n); [reflexivity|exact IH].
Qed.

Lemma switch_ok_true m p : NoDup (map c_name (cm_ctrls m)) -> (switch_ok m p = true <->
  forall c, In c (cm_ctrls m) -> (In (c_name c) (p_act p) -> c_lc c = Active) /\
    (In (c_name c) (p_deact p) -> ~ In (c_name c) (p_act p) -> c_lc c <> Active)).
Proof.
  intros ND. unfold switch_ok. rewrite forallb_forall. split; intros H c Hc; specialize (H c Hc).
  - apply andb_true_iff in H. destruct H as [H1 H2]. apply orb_true_iff in H1, H2. split.
    + intros I. apply mem_In in I. rewrite I in H1. destruct H1 as [H1|H1]; [discriminate|]. apply active_dec. exact H1.
    + intros I J. apply mem_In in I. apply mem_false in J. rewrite I, J in H2. destruct H2 as [H2|H2]; [discriminate|].
      apply negb_true_iff in H2. intros C. apply active_dec in C. congruence.
  - destruct H as [H1 H2]. apply andb_true_iff. split; apply orb_true_iff.
    + destruct (mem (c_name c) (p_act p)) eqn:E; [right|left; reflexivity]. apply active_dec. apply H1. apply mem_In. exact E.
    + destruct (mem (c_name c) (p_deact p)) eqn:E; [|left; reflexivity].
      destruct (mem (c_name c) (p_act p)) eqn:E'; [left; reflexivity|right].
      apply negb_true_iff. destruct (is_lc Active c) eqn:L; [|reflexivity]. exfalso. apply active_dec in L.
      apply mem_In in E. apply mem_false in E'. exact (H2 E E' L).
Qed.

(** C16 *)
Lemma main_answer e allow hs ops m a d asap m1 mid m2 m3 b :
  crun e allow (cm_start hs) ops = Val m ->
  cstep e allow m (CRequest a d true asap) = Val (m1, CSw SwPending) ->
  Forall not_end mid -> crun e allow m1 mid = Val m2 ->
  cstep e allow m2 CEvaluate = Val (m3, CBool b) ->
  exists restarted,
    (forall n, In n restarted -> ~ In n d /\ state_in m n = Some Active) /\
    (b = true <->
      (forall n, In n a \/ In n restarted -> state_in m3 n = Some Active) /\
      (forall n, In n d -> ~ In n a -> exists l, state_in m3 n = Some l /\ l <> Active)).
Proof.
  intros R H FA HM HE. pose proof (reach_NI _ _ _ _ _ R) as [ND _].
  unfold cstep in H. set (m0 := emit m EvOp) in H. unfold serviced in H. destruct (cm_pend m0) eqn:P0; [discriminate|].
  apply bind_val in H. destruct H as ([mm o] & H & H1). injection H1 as -> ->.
  apply request_strict in H; [|exact ND]. destruct H as [[C _]|[(C & _)|(_ & p & Rs & _ & SF)]]; [discriminate|discriminate|].
  destruct SF as [(r & G & E1) SA SD _ SDn SR SK SS SSt _ _ _ _ _ _].
  assert (P1 : cm_pend m1 = Some p) by (rewrite E1; reflexivity).
  assert (N1 : map c_name (cm_ctrls m1) = map c_name (cm_ctrls m)) by (rewrite E1; reflexivity).
  destruct (pending_kept_run _ _ _ _ _ _ P1 FA HM) as [P2 N2]. rewrite N1 in N2.
  assert (ND2 : NoDup (map c_name (cm_ctrls m2))) by (rewrite N2; exact ND).
  assert (EV : b = switch_ok (emit m2 EvOp) p /\ cm_ctrls m3 = map (refresh_claimed (cm_rm (emit m2 EvOp))) (cm_ctrls m2)).
  { unfold cstep in HE. change (cm_pend (emit m2 EvOp)) with (cm_pend m2) in HE.
    destruct P2 as [P2|P2]; rewrite P2 in HE.
    - rewrite SDn in HE. discriminate.
    - cbn [done_of p_done] in HE. injection HE as <- <-. split; reflexivity. }
  destruct EV as [Eb Em]. exists Rs. split.
  { intros n Hn. destruct (SR n Hn) as (A & c & Hc & <- & L). split; [exact A|].
    unfold state_in. change (cm_ctrls m0) with (cm_ctrls m) in Hc. unfold find_ctrl. rewrite (NoDup_find _ _ ND Hc). cbn [option_map]. rewrite L. reflexivity. }
  assert (ST : forall n, state_in m3 n = state_in m2 n).
  { intros n. unfold state_in, find_ctrl. rewrite Em, find_refresh. destruct (find_in (cm_ctrls m2) n); reflexivity. }
  assert (KN : forall n, In n (a ++ d) \/ In n Rs -> exists c, In c (cm_ctrls m2) /\ c_name c = n /\ state_in m2 n = Some (c_lc c)).
  { intros n Hn. assert (In n (map c_name (cm_ctrls m2))) as I.
    { rewrite N2. destruct Hn as [Hn|Hn]; [destruct (SK n Hn) as (c & Hc & <-)|destruct (SR n Hn) as (_ & c & Hc & <- & _)];
        apply in_map; exact Hc. }
    apply in_map_iff in I. destruct I as (c & <- & Hc). exists c. split; [exact Hc|]. split; [reflexivity|].
    unfold state_in, find_ctrl. rewrite (NoDup_find _ _ ND2 Hc). reflexivity. }
  rewrite Eb. rewrite (switch_ok_true (emit m2 EvOp) p ND2). change (cm_ctrls (emit m2 EvOp)) with (cm_ctrls m2). rewrite SA, SD.
  split.
  - intros H. split.
    + intros n Hn. rewrite ST. destruct (KN n) as (c & Hc & <- & E); [rewrite in_app_iff; tauto|].
      rewrite E. f_equal. apply (H c Hc). rewrite in_app_iff. exact Hn.
    + intros n Hd Na. rewrite ST. destruct (KN n) as (c & Hc & <- & E); [rewrite in_app_iff; tauto|].
      exists (c_lc c). split; [exact E|]. apply (H c Hc); [apply in_app_iff; left; exact Hd|].
      intros C. apply in_app_iff in C. destruct C as [C|C]; [contradiction|]. apply (proj1 (SR _ C)). exact Hd.
  - intros [H1 H2] c Hc. assert (E : state_in m2 (c_name c) = Some (c_lc c)).
    { unfold state_in, find_ctrl. rewrite (NoDup_find _ _ ND2 Hc). reflexivity. }
    split.
    + intros I. apply in_app_iff in I. specialize (H1 _ I). rewrite ST, E in H1. congruence.
    + intros I J. apply in_app_iff in I. destruct I as [I|I]; [|exfalso; apply J; apply in_app_iff; auto].
      destruct (H2 (c_name c) I) as (l & L1 & L2); [intros C; apply J; apply in_app_iff; auto|]. rewrite ST, E in L1. congruence.
Qed.
