(** CmFollow.v -- proofs for C15 (what a rejected request leaves behind) and C22 (validation returns). *)
From Coq Require Import Lia.
From Verif Require Import Base Events HwModel RmModel RmProofs ChainModel CmModel CmPrim ChainSpec CmTopo CmInv CmSpec CmSwitch CmOutcome FollowSpec.

(** ---------------------------------------------------------------- where availability comes from *)
Section Origin.
Variables (m : cm) (a : list name).
Let l := cm_ctrls m.
Record origin (r : rm) : Prop := {
  o_refs : rm_refs r = rm_refs (cm_rm m); o_exps : rm_exps r = rm_exps (cm_rm m);
  o_avc : forall k, In k (rm_avc r) -> In k (rm_avc (cm_rm m)) \/ exists f, may_be_chained m a f /\ exports_ref m f k;
  o_avs : forall k, In k (rm_avs r) -> In k (rm_avs (cm_rm m)) \/ exists f, may_be_chained m a f /\ exports_state m f k }.
Lemma origin_start : origin (cm_rm m).
Proof. constructor; auto. Qed.
Lemma origin_same r r' : rm_refs r' = rm_refs r -> rm_exps r' = rm_exps r -> rm_avc r' = rm_avc r -> rm_avs r' = rm_avs r ->
  origin r -> origin r'.
Proof. intros A B C D [E F G H]. constructor; congruence || (rewrite ?C, ?D; auto). Qed.
Lemma origin_exps r f r' : may_be_chained m a f -> make_exps_available r (c_name f) = Some r' -> origin r -> origin r'.
Proof.
  intros Hf H [A B C D]. unfold make_exps_available in H. destruct (aget _ _) as [ks|] eqn:E; [|discriminate]. injection H as <-.
  constructor; [exact A|exact B|exact C|]. cbn [rm_avs with_av]. intros k Hk. apply In_add_items in Hk. destruct Hk as [Hk|Hk]; [auto|].
  right. exists f. split; [exact Hf|]. exists ks. rewrite <- B. auto.
Qed.
Lemma origin_refs r f r' : may_be_chained m a f -> make_refs_available r (c_name f) = Some r' -> origin r -> origin r'.
Proof.
  intros Hf H [A B C D]. unfold make_refs_available in H. destruct (aget _ _) as [ks|] eqn:E; [|discriminate]. injection H as <-.
  constructor; [exact A|exact B| |exact D]. cbn [rm_avc with_av]. intros k Hk. apply In_add_items in Hk. destruct Hk as [Hk|Hk]; [auto|].
  right. exists f. split; [exact Hf|]. exists ks. rewrite <- A. auto.
Qed.
Lemma chained_in k f : chained_to l k = Val (Some f) -> In f l /\ owned_by k (c_name f).
Proof.
  unfold chained_to, owned_by. destruct (prefix_of k) as [p|]; [|discriminate]. intros [= H].
  destruct (find_loaded m p f H) as [A B]. split; [exact A|]. rewrite B. reflexivity.
Qed.

Lemma follow_origin : forall fuel w c w' ok, incl (w_act w) a -> check_following fuel l w c = Val (w', ok) ->
  origin (w_rm w) -> origin (w_rm w').
Proof.
  induction fuel as [|fu IH]; intros w c w' ok Ha H; cbn [check_following] in H; [discriminate|].
  revert H. generalize (cmd_names (w_rm w) c ++ state_names (w_rm w) c).
  generalize (cmd_names (w_rm w) c) (state_names (w_rm w) c).
  intros cmds states ks. revert w w' ok Ha.
  induction ks as [|k ks IHk]; intros w w' ok Ha H O; cbn [follow_loop] in H.
  { injection H as <- <-. exact O. }
  apply bind_val in H. destruct H as ([w1 ok1] & H1 & H2).
  assert (X : origin (w_rm w1) /\ incl (w_act w1) a).
  { clear H2 IHk. unfold follow_itf in H1. apply bind_val in H1. destruct H1 as (fo & Hfo & H1).
    destruct fo as [f|]; [|injection H1 as <- <-; auto].
    apply chained_in in Hfo. destruct Hfo as [Hin _].
    destruct (c_chainable f) eqn:Ch; cbn [negb] in H1; [|injection H1 as <- <-; auto].
    destruct (is_lc Active f && mem (c_name f) (w_deact w)); [injection H1 as <- <-; auto|].
    destruct (negb (is_lc Active f) && negb (mem (c_name f) (w_act w))) eqn:N; [injection H1 as <- <-; auto|].
    assert (R : c_lc f = Active \/ In (c_name f) a).
    { apply andb_false_iff in N. destruct N as [N|N]; apply negb_false_iff in N; [left; apply active_dec; exact N|right; apply Ha, mem_In; exact N]. }
    apply bind_val in H1. destruct H1 as ([w2 ok2] & H2 & H1).
    pose proof (follow_spec l _ _ _ _ _ H2) as ([SA _ _ _] & _). apply IH in H2; [|exact Ha|exact O].
    assert (Ha2 : incl (w_act w2) a) by (rewrite SA; exact Ha).
    destruct (negb ok2); [injection H1 as <- <-; auto|].
    destruct (c_chained f) eqn:Cd; cbn [negb] in H1; [injection H1 as <- <-; auto|].
    assert (M : may_be_chained m a f) by (repeat split; assumption).
    destruct (mem (c_name f) (w_to w2)); [injection H1 as <- <-; auto|].
    apply bind_val in H1. destruct H1 as (r1 & A1 & H1). apply of_option_val in A1.
    pose proof (origin_exps _ _ _ M A1 H2) as O1.
    destruct (mem k cmds); [|injection H1 as <- <-; auto].
    apply bind_val in H1. destruct H1 as (r2 & A2 & H1). apply of_option_val in A2. injection H1 as <- <-.
    split; [eapply origin_refs; eassumption|exact Ha2]. }
  destruct X as [X1 X2]. destruct ok1; [eapply IHk; eassumption|injection H2 as <- <-; exact X1].
Qed.
Lemma check_activate_origin w n w' ok : incl (w_act w) a -> check_activate l w n = Val (w', ok) ->
  origin (w_rm w) -> origin (w_rm w') /\ incl (w_act w') a.
Proof.
  intros Ha H O. pose proof (check_activate_spec l _ _ _ _ H) as ([SA _ _ _] & _). split; [|rewrite SA; exact Ha].
  unfold check_activate in H. destruct (find_in l n) as [c|]; [|discriminate].
  apply bind_val in H. destruct H as ([w1 ok1] & H1 & H).
  assert (X : origin (w_rm w1)).
  { destruct (c_lc c); try (injection H1 as <- <-; exact O). eapply follow_origin; eassumption. }
  destruct ok1; [|injection H as <- <-; exact X]. apply bind_val in H. destruct H as (b & _ & H). injection H as <- <-. exact X.
Qed.
Lemma act_loop_origin strict : forall rest kept w x, incl (w_act w) a -> incl kept a -> incl rest a ->
  act_loop l strict kept rest w = Val x -> origin (w_rm w) -> origin (w_rm (either x)).
Proof.
  induction rest as [|n rest IH]; intros kept w x Ha Hk Hr H O; cbn [act_loop] in H; [injection H as <-; exact O|].
  apply bind_val in H. destruct H as ([w1 ok] & H1 & H). apply check_activate_origin in H1; [|exact Ha|exact O]. destruct H1 as [O1 A1].
  assert (Hr' : incl rest a) by (intros x' Hx; apply Hr; right; exact Hx).
  destruct ok.
  - eapply IH; [exact A1| |exact Hr'|exact H|exact O1]. apply incl_app; [exact Hk|]. intros x' [<-|[]]. apply Hr. left. reflexivity.
  - destruct strict; [injection H as <-; exact O1|]. eapply IH; [|exact Hk|exact Hr'|exact H|exact O1].
    cbn [w_act sw_lists]. apply incl_app; assumption.
Qed.

(** without chaining nothing changes at all *)
Lemma follow_none fuel w c w' ok : (forall k, In k (cmd_names (w_rm w) c ++ state_names (w_rm w) c) -> chained_to l k = Val None) ->
  check_following fuel l w c = Val (w', ok) -> w' = w.
Proof.
  destruct fuel as [|fu]; cbn [check_following]; [discriminate|].
  generalize (cmd_names (w_rm w) c) (state_names (w_rm w) c). intros cmds states.
  generalize (cmds ++ states). intros ks.
  induction ks as [|k ks IHk]; intros Hk H; cbn [follow_loop] in H; [injection H as <- <-; reflexivity|].
  unfold follow_itf at 1 in H. rewrite (Hk k (or_introl eq_refl)) in H. cbn [bind] in H. apply IHk in H; [exact H|].
  intros k' H'. apply Hk. right. exact H'.
Qed.
End Origin.

(** the other parts of the validation do not touch availability *)
Lemma cache_av c ks : forall r, rm_avc (cache_controller r c ks) = rm_avc r /\ rm_avs (cache_controller r c ks) = rm_avs r.
Proof.
  unfold cache_controller. induction ks as [|k ks IH]; intros r; cbn [fold_left]; [auto|].
  destruct (IH (cache_one c r k)) as [A B]. rewrite A, B. unfold cache_one. destruct (find _ _); auto.
Qed.
Lemma conflict_av strict cs : forall w, rm_avc (w_rm (either (conflict_loop strict cs w))) = rm_avc (w_rm w) /\
  rm_avs (w_rm (either (conflict_loop strict cs w))) = rm_avs (w_rm w).
Proof.
  induction cs as [|c cs IH]; intros w; cbn [conflict_loop]; [auto|].
  assert (X : rm_avc (w_rm (either (conflict_one strict w c))) = rm_avc (w_rm w) /\ rm_avs (w_rm (either (conflict_one strict w c))) = rm_avs (w_rm w)).
  { unfold conflict_one. cbv zeta.
    repeat match goal with |- context [if ?b then _ else _] => destruct b end; cbn [either]; try (split; reflexivity); apply cache_av. }
  destruct (conflict_one strict w c) as [w1|w1]; cbn [either] in *; [|exact X].
  destruct (IH w1) as [A B]. rewrite A, B. exact X.
Qed.
Lemma mode_av e op allow start stop hs : forall r b, rm_avc (fst (mode_loop e op allow start stop hs r b)) = rm_avc r /\
  rm_avs (fst (mode_loop e op allow start stop hs r b)) = rm_avs r.
Proof.
  induction hs as [|h hs IH]; intros r b; cbn [mode_loop]; [auto|].
  assert (X : forall s p, rm_avc (fst (if negb (match common_itfs (h_cmd h) start with [] => true | _ => false end) && lc_eqb (h_lc h) Inactive && negb allow
        then (r, false)
        else
          match h_lc h with
          | Inactive | Active =>
              let '(res, t') := mode_call e op (rm_trace r) (h_name h) s p in
              mode_loop e op allow start stop hs (with_trace r t')
                        (match res with Ret ROk => b | _ => false end)
          | _ => mode_loop e op allow start stop hs r false
          end)) = rm_avc r /\ rm_avs (fst (if negb (match common_itfs (h_cmd h) start with [] => true | _ => false end) && lc_eqb (h_lc h) Inactive && negb allow
        then (r, false)
        else
          match h_lc h with
          | Inactive | Active =>
              let '(res, t') := mode_call e op (rm_trace r) (h_name h) s p in
              mode_loop e op allow start stop hs (with_trace r t')
                        (match res with Ret ROk => b | _ => false end)
          | _ => mode_loop e op allow start stop hs r false
          end)) = rm_avs r).
  { intros s p. destruct (_ && negb allow); [auto|].
    destruct (h_lc h); try apply IH;
    (destruct (mode_call _ _ _ _ _ _) as [res t']; destruct (IH (with_trace r t') (match res with Ret ROk => b | _ => false end)) as [A B]; rewrite A, B; auto). }
  destruct (common_itfs (h_cmd h) start) as [|a s] eqn:E1; destruct (common_itfs (h_cmd h) stop) as [|d p] eqn:E2;
    [apply IH|apply X|apply X|apply X].
Qed.
Lemma prepare_av e allow r a d : rm_avc (fst (rm_prepare e allow r a d)) = rm_avc r /\ rm_avs (fst (rm_prepare e allow r a d)) = rm_avs r.
Proof.
  unfold rm_prepare. destruct (both_empty a d); [auto|].
  destruct (negb _); [auto|]. destruct (negb _); [auto|].
  pose proof (mode_av e MPrepare allow a d (filter is_actuator (rm_hw r)) r true) as X.
  destruct (mode_loop _ _ _ _ _ (filter is_actuator _) _ _) as [r1 b1]. cbn [fst] in X.
  pose proof (mode_av e MPrepare allow a d (filter is_system (rm_hw r)) r1 true) as Y.
  destruct (mode_loop _ _ _ _ _ (filter is_system _) _ _) as [r2 b2]. cbn [fst] in *.
  destruct X, Y. split; congruence.
Qed.
Lemma list_incl l strict : forall ns got ok r, list_controllers l strict ns got ok = Some r -> incl r (got ++ ns).
Proof.
  induction ns as [|n ns IH]; intros got ok r H; cbn [list_controllers] in H.
  { destruct ok; [|discriminate]. injection H as <-. rewrite app_nil_r. apply incl_refl. }
  destruct (find_in l n).
  - apply IH in H. rewrite <- app_assoc in H. exact H.
  - destruct strict; [discriminate|]. apply IH in H. intros x Hx. apply H in Hx. rewrite in_app_iff in *. cbn [In]. destruct Hx; auto.
Qed.

(** the availability after a request is the one after the loop over the activate list *)
Lemma request_av e allow m a d strict asap m' o : switch_request e allow m a d strict asap = Val (m', o) ->
  same_availability m m' \/ exists a' d' w x, incl a' a /\ incl d' d /\ w_act w = a' /\ w_deact w = d' /\ w_rm w = cm_rm m /\
    act_loop (cm_ctrls m) strict [] a' w = Val x /\
    rm_avc (cm_rm m') = rm_avc (w_rm (either x)) /\ rm_avs (cm_rm m') = rm_avs (w_rm (either x)).
Proof.
  intros H. unfold switch_request in H.
  destruct (list_controllers _ strict d [] true) as [d'|] eqn:Ld; [|injection H as <- <-; left; split; reflexivity].
  destruct (list_controllers _ strict a [] true) as [a'|] eqn:La; [|injection H as <- <-; left; split; reflexivity].
  apply list_incl in Ld, La. cbn [app] in Ld, La.
  apply bind_val in H. destruct H as (w1 & H1 & H). apply propagate_same in H1. destruct H1 as (P1 & P3 & _). cbn [w_rm] in P3.
  destruct P1 as [PA PD _ _]. cbn [w_act w_deact] in PA, PD.
  apply bind_val in H. destruct H as (x & H2 & H). right. exists a', d', w1, x.
  split; [exact La|]. split; [exact Ld|]. split; [exact PA|]. split; [exact PD|]. split; [exact P3|]. split; [exact H2|].
  destruct x as [w2|w2]; cbn [either]; [|injection H as <- <-; auto].
  destruct (deact_loop m strict [] (w_deact w2) w2) as [w3|] eqn:H3; [|injection H as <- <-; auto].
  apply deact_loop_rm in H3.
  destruct (sw_empty w3); [rewrite H3 in H; injection H as <- <-; auto|].
  pose proof (conflict_av strict (cm_ctrls m) w3) as H4. rewrite H3 in H4.
  destruct (conflict_loop strict (cm_ctrls m) w3) as [w4|w4]; cbn [either] in H4; [|injection H as <- <-; exact H4].
  destruct (sw_empty w4); [injection H as <- <-; exact H4|].
  apply bind_val in H. destruct H as (b & _ & H).
  destruct (negb b); [injection H as <- <-; exact H4|].
  pose proof (prepare_av e allow (w_rm w4) (w_start w4) (w_stop w4)) as K.
  destruct (rm_prepare e allow (w_rm w4) (w_start w4) (w_stop w4)) as [r5 ok]. cbn [fst] in K.
  assert (Z : rm_avc r5 = rm_avc (w_rm w2) /\ rm_avs r5 = rm_avs (w_rm w2)) by (destruct H4, K; split; congruence).
  destruct (negb ok); injection H as <- <-; exact Z.
Qed.

Lemma main_origin e allow m a d strict asap m' o : switch_request e allow m a d strict asap = Val (m', o) ->
  (forall k, In k (rm_avc (cm_rm m')) <-> In k (rm_avc (cm_rm m)) \/ (In k (rm_avc (cm_rm m')) /\ exists f, may_be_chained m a f /\ exports_ref m f k)) /\
  (forall k, In k (rm_avs (cm_rm m')) <-> In k (rm_avs (cm_rm m)) \/ (In k (rm_avs (cm_rm m')) /\ exists f, may_be_chained m a f /\ exports_state m f k)).
Proof.
  intros H. pose proof (request_grow _ _ _ _ _ _ _ _ _ H) as (r & G & R).
  assert (GG : incl (rm_avc (cm_rm m)) (rm_avc (cm_rm m')) /\ incl (rm_avs (cm_rm m)) (rm_avs (cm_rm m'))).
  { destruct G. destruct R as [[-> _]|(p & -> & _)]; auto. }
  destruct GG as [GC GS].
  assert (O : (forall k, In k (rm_avc (cm_rm m')) -> In k (rm_avc (cm_rm m)) \/ exists f, may_be_chained m a f /\ exports_ref m f k) /\
     (forall k, In k (rm_avs (cm_rm m')) -> In k (rm_avs (cm_rm m)) \/ exists f, may_be_chained m a f /\ exports_state m f k)).
  { apply request_av in H. destruct H as [[A B]|(a' & d' & w & x & Ia & _ & Wa & _ & Wr & L & A & B)].
    - rewrite A, B. auto.
    - apply (act_loop_origin m a) in L.
      + destruct L as [_ _ LC LS]. rewrite A, B. auto.
      + rewrite Wa. exact Ia.
      + intros z [].
      + exact Ia.
      + rewrite Wr. apply origin_start. }
  destruct O as [OC OS]. split; intros k; split.
  - intros Hk. destruct (OC k Hk) as [X|X]; auto.
  - intros [Hk|[Hk _]]; auto.
  - intros Hk. destruct (OS k Hk) as [X|X]; auto.
  - intros [Hk|[Hk _]]; auto.
Qed.

Lemma act_loop_none m strict : forall rest kept w x, no_chaining m rest -> w_rm w = cm_rm m ->
  act_loop (cm_ctrls m) strict kept rest w = Val x -> w_rm (either x) = cm_rm m.
Proof.
  induction rest as [|n rest IH]; intros kept w x N Hw H; cbn [act_loop] in H; [injection H as <-; exact Hw|].
  apply bind_val in H. destruct H as ([w1 ok] & H1 & H).
  assert (W1 : w1 = w).
  { unfold check_activate in H1. destruct (find_in (cm_ctrls m) n) as [c|] eqn:F; [|discriminate].
    apply bind_val in H1. destruct H1 as ([w2 ok2] & H2 & H1).
    assert (W2 : w2 = w).
    { destruct (c_lc c); try (injection H2 as <- <-; reflexivity). eapply follow_none; [|exact H2].
      intros k Hk. destruct (find_loaded m n c F) as [Hin Hn]. rewrite Hw in Hk.
      destruct (N c k Hin (or_introl (eq_sym Hn))) as (b & Ob & Nb).
      { unfold wants, wants_cmd, wants_state. apply in_app_iff. exact Hk. }
      unfold chained_to. rewrite Ob. f_equal. destruct (find_in (cm_ctrls m) b) as [f|] eqn:Fb; [|reflexivity].
      destruct (find_loaded m b f Fb) as [A B]. destruct (Nb f A B). }
    subst w2. destruct ok2; [|injection H1 as <- <-; reflexivity].
    apply bind_val in H1. destruct H1 as (b & _ & H1). injection H1 as <- <-. reflexivity. }
  subst w1. assert (N' : no_chaining m rest) by (intros c k A B; apply N; [exact A|right; exact B]).
  destruct ok; [eapply IH; eassumption|]. destruct strict; [injection H as <-; exact Hw|]. eapply IH; [exact N'| |exact H]; exact Hw.
Qed.
Lemma main_unchanged e allow m a d strict asap m' o : no_chaining m a ->
  switch_request e allow m a d strict asap = Val (m', o) -> same_availability m m'.
Proof.
  intros N H. apply request_av in H. destruct H as [X|(a' & d' & w & x & Ia & _ & Wa & _ & Wr & L & A & B)]; [exact X|].
  apply act_loop_none in L; [|intros c k Hc Hn; apply N; [exact Hc|apply Ia; exact Hn]|exact Wr].
  split; congruence.
Qed.

(** ---------------------------------------------------------------- validation returns *)
Section Total.
Variables (m : cm) (a : list name).
Let l := cm_ctrls m.
Hypothesis Hacyc : acyclic m.
Hypothesis Hnames : proper_names m.
Hypothesis Hreg : exports_registered m.
Hypothesis Hclaim : claims_known m.
Hypothesis Hconf : all_configured m a.
Record tot (r : rm) : Prop := {
  t_avc : incl (rm_avc r) (everything m); t_avs : incl (rm_avs r) (everything m);
  t_refs : rm_refs r = rm_refs (cm_rm m); t_exps : rm_exps r = rm_exps (cm_rm m);
  t_claimed : rm_claimed r = rm_claimed (cm_rm m);
  t_known : forall k, In k (rm_avc r) -> aget (rm_claimed r) k <> None }.
Lemma aget_In {A} (x : alist A) n v : aget x n = Some v -> In (n, v) x.
Proof.
  induction x as [|[k w] x IH]; cbn [aget]; [discriminate|]. destruct (String.eqb_spec n k) as [->|].
  - intros [= ->]. left. reflexivity.
  - intros H. right. apply IH. exact H.
Qed.
Lemma vals_incl (x : alist (list name)) n ks : aget x n = Some ks -> incl ks (flat_map snd x).
Proof. intros H k Hk. apply in_flat_map. exists (n, ks). split; [apply aget_In; exact H|exact Hk]. Qed.
Lemma tot_start : tot (cm_rm m).
Proof.
  constructor; try reflexivity; unfold everything.
  - intros k Hk. apply in_app_iff. auto.
  - intros k Hk. rewrite !in_app_iff. auto.
  - intros k Hk. apply Hclaim. left. exact Hk.
Qed.
Lemma tot_exps r n r' : make_exps_available r n = Some r' -> tot r -> tot r'.
Proof.
  unfold make_exps_available. destruct (aget _ _) as [ks|] eqn:E; [|discriminate]. intros [= <-] [A B C D F G].
  constructor; try assumption. cbn [rm_avs with_av]. intros k Hk. apply In_add_items in Hk. destruct Hk as [Hk|Hk]; [auto|].
  rewrite D in E. apply vals_incl in E. unfold everything. rewrite !in_app_iff. auto.
Qed.
Lemma tot_refs r n r' : make_refs_available r n = Some r' -> tot r -> tot r'.
Proof.
  unfold make_refs_available. destruct (aget _ _) as [ks|] eqn:E; [|discriminate]. intros [= <-] [A B C D F G].
  rewrite C in E. constructor; try assumption; cbn [rm_avc with_av].
  - intros k Hk. apply In_add_items in Hk. destruct Hk as [Hk|Hk]; [auto|].
    apply vals_incl in E. unfold everything. rewrite !in_app_iff. auto.
  - intros k Hk. apply In_add_items in Hk. destruct Hk as [Hk|Hk]; [auto|]. cbn [rm_claimed with_av]. rewrite F.
    apply Hclaim. right. eauto.
Qed.
Lemma tot_want r c k : tot r -> In k (cmd_names r c ++ state_names r c) -> may_want m c k.
Proof.
  intros T H. apply in_app_iff in H. destruct H as [H|H]; [left|right]; eapply names_mono; [|exact H| |exact H]; apply T.
Qed.
Lemma chained_total r c k : tot r -> In c l -> In k (cmd_names r c ++ state_names r c) ->
  exists fo, chained_to l k = Val fo /\ forall f, fo = Some f -> In f l /\ owned_by k (c_name f) /\ may_want m c k.
Proof.
  intros T Hc Hk. pose proof (tot_want _ _ _ T Hk) as W. destruct (Hnames c k Hc W) as (b & Ob).
  unfold chained_to. rewrite Ob. eexists. split; [reflexivity|]. intros f F. destruct (find_loaded m b f F) as [A B].
  split; [exact A|]. split; [|exact W]. unfold owned_by. rewrite B. exact Ob.
Qed.

Definition below (rank : name -> nat) (c : ctrl) : nat := length (filter (fun x => Nat.ltb (rank (c_name x)) (rank (c_name c))) l).
Lemma filter_lt {A} (f g : A -> bool) : forall xs y, (forall x, f x = true -> g x = true) -> In y xs -> g y = true -> f y = false ->
  length (filter f xs) < length (filter g xs).
Proof.
  intros xs y I. assert (LE : forall xs, length (filter f xs) <= length (filter g xs)).
  { induction xs0 as [|x xs0 IH]; [cbn; lia|]. cbn [filter]. specialize (I x). destruct (f x); [rewrite I by reflexivity; cbn [length]; lia|].
    destruct (g x); cbn [length]; lia. }
  induction xs as [|x xs IH]; intros Hy G F; [destruct Hy|]. cbn [filter]. destruct Hy as [->|Hy].
  - rewrite G, F. cbn [length]. specialize (LE xs). lia.
  - specialize (IH Hy G F). specialize (I x). destruct (f x); [rewrite I by reflexivity; cbn [length]; lia|]. destruct (g x); cbn [length]; lia.
Qed.
Lemma below_lt rank c f : In f l -> rank (c_name f) < rank (c_name c) -> below rank f < below rank c.
Proof.
  intros Hf L. apply filter_lt with f; [|exact Hf| |].
  - intros x Hx. apply Nat.ltb_lt in Hx. apply Nat.ltb_lt. lia.
  - apply Nat.ltb_lt. exact L.
  - apply Nat.ltb_ge. lia.
Qed.
Lemma below_len rank c : below rank c <= length l.
Proof. unfold below. induction l as [|x xs IH]; [cbn; lia|]. cbn [filter]. destruct (Nat.ltb _ _); cbn [length]; lia. Qed.

Lemma follow_total rank : (forall c f k, In c l -> In f l -> may_want m c k -> owned_by k (c_name f) -> rank (c_name f) < rank (c_name c)) ->
  forall fuel w c, below rank c < fuel -> In c l -> incl (w_act w) a -> tot (w_rm w) ->
  exists w' ok, check_following fuel l w c = Val (w', ok) /\ tot (w_rm w').
Proof.
  intros Hrank. induction fuel as [|fu IH]; intros w c Hb Hc Ha T; [lia|]. cbn [check_following].
  assert (Hks : forall k, In k (cmd_names (w_rm w) c ++ state_names (w_rm w) c) ->
     exists fo, chained_to l k = Val fo /\ forall f, fo = Some f -> In f l /\ owned_by k (c_name f) /\ may_want m c k).
  { intros k Hk. eapply chained_total; eassumption. }
  revert Hks. generalize (cmd_names (w_rm w) c ++ state_names (w_rm w) c).
  generalize (cmd_names (w_rm w) c) (state_names (w_rm w) c).
  intros cmds states ks. revert w Ha T.
  induction ks as [|k ks IHk]; intros w Ha T Hks; cbn [follow_loop]; [eauto|].
  assert (X : exists w1 ok1, follow_itf (check_following fu l) l c cmds states w k = Val (w1, ok1) /\ tot (w_rm w1) /\ w_act w1 = w_act w).
  { unfold follow_itf. destruct (Hks k (or_introl eq_refl)) as (fo & -> & Hfo). cbn [bind].
    destruct fo as [f|]; [|eauto]. destruct (Hfo f eq_refl) as (Hin & Hown & Hw).
    destruct (negb (c_chainable f)); [eauto|].
    destruct (is_lc Active f && mem (c_name f) (w_deact w)); [eauto|].
    destruct (negb (is_lc Active f) && negb (mem (c_name f) (w_act w))) eqn:N; [eauto|].
    assert (R : c_lc f = Inactive \/ c_lc f = Active).
    { apply andb_false_iff in N. destruct N as [N|N]; apply negb_false_iff in N; [right; apply active_dec; exact N|].
      apply Hconf; [exact Hin|]. apply Ha, mem_In, N. }
    destruct (Hreg c f k Hc Hin Hw Hown R) as [RR RE].
    pose proof (below_lt rank c f Hin (Hrank c f k Hc Hin Hw Hown)) as BL.
    destruct (IH w f ltac:(lia) Hin Ha T) as (w2 & ok2 & E2 & T2). rewrite E2. cbn [bind].
    pose proof (follow_spec l _ _ _ _ _ E2) as ([SA _ _ _] & _).
    destruct (negb ok2); [exists w2, false; auto|].
    destruct (negb (c_chained f)); [|eexists _, true; split; [reflexivity|]; cbn [w_rm w_act sw_chain]; auto].
    destruct (mem (c_name f) (w_to w2)); [exists w2, true; auto|].
    assert (E1 : exists r1, make_exps_available (w_rm w2) (c_name f) = Some r1).
    { unfold make_exps_available. destruct T2 as [_ _ _ TE _ _]. rewrite TE. destruct (aget (rm_exps (cm_rm m)) (c_name f)); [eauto|congruence]. }
    destruct E1 as (r1 & E1). rewrite E1. cbn [of_option bind]. pose proof (tot_exps _ _ _ E1 T2) as T3.
    destruct (mem k cmds); [|eexists _, true; split; [reflexivity|]; cbn [w_rm w_act sw_chain]; auto].
    assert (E4 : exists r2, make_refs_available r1 (c_name f) = Some r2).
    { unfold make_refs_available. destruct T3 as [_ _ TR _ _ _]. rewrite TR. destruct (aget (rm_refs (cm_rm m)) (c_name f)); [eauto|congruence]. }
    destruct E4 as (r2 & E4). rewrite E4. cbn [of_option bind].
    eexists _, true. split; [reflexivity|]. cbn [w_rm w_act sw_chain]. split; [eapply tot_refs; eassumption|exact SA]. }
  destruct X as (w1 & ok1 & -> & T1 & A1). cbn [bind]. destruct ok1; [|eauto].
  apply IHk; [rewrite A1; exact Ha|exact T1|]. intros k' Hk'. apply Hks. right. exact Hk'.
Qed.

Lemma rforall_total f : forall ks, (forall k, In k ks -> exists b, f k = Val b) -> exists b, rforall f ks = Val b.
Proof.
  induction ks as [|k ks IH]; intros H; cbn [rforall]; [eauto|]. destruct (H k (or_introl eq_refl)) as (b & ->). cbn [bind].
  destruct b; [|eauto]. apply IH. intros k' Hk'. apply H. right. exact Hk'.
Qed.
Lemma lc_inactive f : is_lc Inactive f = true -> c_lc f = Inactive.
Proof. unfold is_lc. apply lc_eqb_eq. Qed.
Lemma fallback_total r c : tot r -> In c l -> exists b, check_fallback l r c = Val b.
Proof.
  intros T Hc. apply rforall_total. intros n _. unfold check_fallback_one. destruct (find_in l n) as [fb|] eqn:F; [|eauto].
  destruct (find_loaded m n fb F) as [Hfb _].
  destruct (negb _); [eauto|].
  assert (X : forall avail exported ks, (forall k, In k ks -> In k (cmd_names r fb ++ state_names r fb)) ->
     (forall f k, In f l -> may_want m fb k -> owned_by k (c_name f) -> c_lc f = Inactive -> exists ks, exported (c_name f) = Val ks) ->
     exists b, rforall (fallback_itf l c avail exported) ks = Val b).
  { intros avail exported ks Hks Hex. apply rforall_total. intros k Hk. unfold fallback_itf. destruct (avail k); [eauto|].
    destruct (chained_total r fb k T Hfb (Hks k Hk)) as (fo & -> & Hfo). cbn [bind]. destruct fo as [f|]; [|eauto].
    destruct (Hfo f eq_refl) as (A & B & C). destruct (is_lc Inactive f) eqn:L; [|eauto].
    destruct (mem _ _); [|eauto]. destruct (Hex f k A C B (lc_inactive _ L)) as (ks' & ->). cbn [bind]. eauto. }
  destruct (X (cmd_available r) (fun n0 => of_option (aget (rm_refs r) n0)) (cmd_names r fb)) as (b1 & ->).
  - intros k Hk. apply in_app_iff. auto.
  - intros f k A B C D. destruct (Hreg fb f k Hfb A B C (or_introl D)) as [R _]. rewrite (t_refs _ T).
    destruct (aget _ _); [cbn; eauto|congruence].
  - cbn [bind]. destruct (negb b1); [eauto|]. apply X.
    + intros k Hk. apply in_app_iff. auto.
    + intros f k A B C D. destruct (Hreg fb f k Hfb A B C (or_introl D)) as [_ R]. rewrite (t_exps _ T).
      destruct (aget _ _); [cbn; eauto|congruence].
Qed.
Lemma check_activate_total w n : incl (w_act w) a -> tot (w_rm w) -> (exists c, find_in l n = Some c) ->
  exists w' ok, check_activate l w n = Val (w', ok) /\ tot (w_rm w').
Proof.
  intros Ha T (c & F). unfold check_activate. rewrite F. destruct (find_loaded m n c F) as [Hc _].
  destruct Hacyc as (rank & Hrank).
  assert (X : exists w1 ok1, (match c_lc c with
         | Unconfigured => Val (w, false)
         | Active => Val (w, mem n (w_deact w))
         | Inactive => check_following (S (length l)) l w c
         | _ => Val (w, false)
         end) = Val (w1, ok1) /\ tot (w_rm w1)).
  { destruct (c_lc c); try (eexists _, _; split; [reflexivity|exact T]).
    apply (follow_total rank Hrank); [pose proof (below_len rank c); lia|exact Hc|exact Ha|exact T]. }
  destruct X as (w1 & ok1 & -> & T1). cbn [bind]. destruct ok1; [|eauto].
  destruct (fallback_total _ c T1 Hc) as (b & ->). cbn [bind]. eauto.
Qed.
Lemma act_loop_total strict : forall rest kept w, incl (w_act w) a -> incl kept a -> incl rest a -> tot (w_rm w) ->
  (forall n, In n rest -> exists c, find_in l n = Some c) ->
  exists x, act_loop l strict kept rest w = Val x /\ tot (w_rm (either x)).
Proof.
  induction rest as [|n rest IH]; intros kept w Ha Hk Hr T Hf; cbn [act_loop]; [eauto|].
  destruct (check_activate_total w n Ha T (Hf n (or_introl eq_refl))) as (w1 & ok & E & T1). rewrite E. cbn [bind].
  pose proof (check_activate_spec l _ _ _ _ E) as ([SA _ _ _] & _).
  assert (Hr' : incl rest a) by (intros x' Hx; apply Hr; right; exact Hx).
  assert (Hf' : forall n, In n rest -> exists c, find_in l n = Some c) by (intros n' Hn; apply Hf; right; exact Hn).
  destruct ok.
  - apply IH; [rewrite SA; exact Ha| |exact Hr'|exact T1|exact Hf']. apply incl_app; [exact Hk|]. intros x' [<-|[]]. apply Hr. left. reflexivity.
  - destruct strict; [eauto|]. apply IH; [|exact Hk|exact Hr'|exact T1|exact Hf']. cbn [w_act sw_lists]. apply incl_app; assumption.
Qed.
Lemma propagate_total : forall cs w, incl cs l -> tot (w_rm w) -> exists w', propagate l cs w = Val w'.
Proof.
  induction cs as [|c cs IH]; intros w Hcs T; cbn [propagate]; [eauto|].
  assert (Hcs' : incl cs l) by (intros x Hx; apply Hcs; right; exact Hx).
  destruct (mem _ _); [|apply IH; assumption]. destruct (is_lc _ _); [|eauto].
  assert (X : exists w1, rfold (propagate_itf l) (cmd_names (w_rm w) c ++ state_names (w_rm w) c) w = Val w1 /\ w_rm w1 = w_rm w).
  { assert (Hks : forall k, In k (cmd_names (w_rm w) c ++ state_names (w_rm w) c) -> exists fo, chained_to l k = Val fo).
    { intros k Hk. destruct (chained_total _ c k T (Hcs c (or_introl eq_refl)) Hk) as (fo & E & _). eauto. }
    revert Hks. generalize (cmd_names (w_rm w) c ++ state_names (w_rm w) c). intros ks. clear T. revert w.
    induction ks as [|k ks IHk]; intros w Hks; cbn [rfold]; [eauto|].
    unfold propagate_itf at 1. destruct (Hks k (or_introl eq_refl)) as (fo & ->). cbn [bind].
    set (w2 := match fo with Some f => _ | None => w end). destruct (IHk w2) as (w1 & E & R).
    { intros k' Hk'. apply Hks. right. exact Hk'. }
    exists w1. split; [exact E|]. rewrite R. unfold w2. destruct fo; reflexivity. }
  destruct X as (w1 & -> & R). cbn [bind]. apply IH; [exact Hcs'|]. rewrite R. exact T.
Qed.
Lemma list_found strict : forall ns got ok r, list_controllers l strict ns got ok = Some r ->
  (forall n, In n got -> exists c, find_in l n = Some c) -> forall n, In n r -> exists c, find_in l n = Some c.
Proof.
  induction ns as [|n ns IH]; intros got ok r H Hg; cbn [list_controllers] in H.
  { destruct ok; [|discriminate]. injection H as <-. exact Hg. }
  destruct (find_in l n) as [c|] eqn:F.
  - eapply IH; [exact H|]. intros x Hx. apply in_app_iff in Hx. destruct Hx as [Hx|[<-|[]]]; eauto.
  - destruct strict; [discriminate|]. eapply IH; eassumption.
Qed.
Lemma tot_av r r' : rm_avc r' = rm_avc r -> rm_avs r' = rm_avs r -> rm_refs r' = rm_refs r -> rm_exps r' = rm_exps r ->
  rm_claimed r' = rm_claimed r -> tot r -> tot r'.
Proof. intros A B C D E [F G H I J K]. constructor; rewrite ?A, ?B, ?C, ?D, ?E; assumption. Qed.
Lemma avail_cmds_total r fut : tot r -> forall ks taken, exists o, avail_cmds r fut ks taken = Val o.
Proof.
  intros T. induction ks as [|k ks IH]; intros taken; cbn [avail_cmds]; [eauto|].
  destruct (cmd_available r k) eqn:A; cbn [negb]; [|eauto].
  assert (X : exists b, cmd_claimed r k = Some b).
  { unfold cmd_claimed. rewrite A. unfold cmd_available in A. apply mem_In in A. pose proof (t_known _ T k A) as K.
    destruct (aget (rm_claimed r) k); [eauto|congruence]. }
  destruct X as (b & ->). cbn [of_option bind]. destruct (_ && _); [eauto|]. destruct (mem _ _); [eauto|]. apply IH.
Qed.
Lemma avail_loop_total r fut deact : tot r -> forall ns taken, exists b, avail_loop l r fut deact ns taken = Val b.
Proof.
  intros T. induction ns as [|n ns IH]; intros taken; cbn [avail_loop]; [eauto|].
  destruct (mem _ _); [apply IH|]. destruct (find_in l n) as [c|]; [|eauto].
  destruct (avail_cmds_total r fut T (cmd_names r c) taken) as (o & ->). cbn [bind]. destruct o; [|eauto].
  destruct (forallb _ _); [apply IH|eauto].
Qed.
Lemma request_total e allow d strict asap : exists m' o, switch_request e allow m a d strict asap = Val (m', o).
Proof.
  unfold switch_request.
  destruct (list_controllers _ strict d [] true) as [d'|]; [|eauto].
  destruct (list_controllers _ strict a [] true) as [a'|] eqn:La; [|eauto].
  pose proof (list_found _ _ _ _ _ La ltac:(intros n [])) as Hf. apply list_incl in La. cbn [app] in La.
  set (w0 := {| w_rm := cm_rm m; w_act := a'; w_deact := d'; w_to := []; w_from := []; w_start := []; w_stop := [] |}).
  destruct (propagate_total (cm_ctrls m) w0 (incl_refl _) tot_start) as (w1 & P). unfold l in P. rewrite P. cbn [bind].
  apply propagate_same in P. destruct P as ([PA _ _ _] & P3 & _). cbn [w_rm w_act w0] in P3, PA.
  destruct (act_loop_total strict a' [] w1) as (x & E & T).
  { rewrite PA. exact La. } { intros z []. } { exact La. } { rewrite P3. apply tot_start. } { exact Hf. }
  unfold l in E. rewrite E. cbn [bind]. destruct x as [w2|w2]; cbn [either] in T; [|eauto].
  destruct (deact_loop m strict [] (w_deact w2) w2) as [w3|] eqn:H3; [|eauto]. apply deact_loop_rm in H3.
  destruct (sw_empty w3); [eauto|].
  pose proof (conflict_av strict (cm_ctrls m) w3) as H4. pose proof (conflict_grow strict (cm_ctrls m) w3) as G4.
  destruct (conflict_loop strict (cm_ctrls m) w3) as [w4|w4]; cbn [either] in H4, G4; [|eauto].
  destruct (sw_empty w4); [eauto|].
  assert (T4 : tot (w_rm w4)).
  { destruct H4 as [A B], G4. apply tot_av with (w_rm w3); try assumption. rewrite H3. exact T. }
  assert (X : exists b, check_availability (cm_ctrls m) w4 = Val b).
  { unfold check_availability. destruct (future_available _ _); [|eauto]. apply avail_loop_total. exact T4. }
  destruct X as (b & ->). cbn [bind]. destruct (negb b); [eauto|].
  destruct (rm_prepare e allow (w_rm w4) (w_start w4) (w_stop w4)) as [r5 ok]. destruct (negb ok); eauto.
Qed.
End Total.
Lemma main_returns e allow m a d strict asap :
  acyclic m -> proper_names m -> exports_registered m -> claims_known m -> all_configured m a ->
  exists m' o, switch_request e allow m a d strict asap = Val (m', o).
Proof. intros A B C D E. exact (request_total m a A B C D E e allow d strict asap). Qed.
