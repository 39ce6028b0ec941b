(** CmChained.v -- validation of a switch request: which controllers change to and from chained mode. *)
From Verif Require Import Base Events HwModel RmModel RmSys RmSpec RmProofs RmInv CmModel CmPrim CmInv CmSpec CmSwitch FollowSpec CmFollow UpdateSpec BestSpec CmBystander ChainedSpec.
Open Scope list_scope.

Section V.
Variables (m : cm) (n : name) (a0 d0 : list name).
Let l := cm_ctrls m.
Definition commander : Prop := exists c k, In c l /\ (In (c_name c) a0 \/ c_lc c = Active) /\ may_command m c k /\ owned_by k n.
Definition unchained : Prop := forall f, In f l -> c_name f = n -> c_chained f = false.
Record cw (w : sw) : Prop := {
  cw_ev : ev m (w_rm w); cw_act : incl (w_act w) a0; cw_deact : incl (w_deact w) d0;
  cw_from : In n (w_from w) -> stopped_user m d0 n;
  cw_to : In n (w_to w) -> unchained /\ commander }.
Hypothesis ND : NoDup (map c_name l).
Lemma same_ctrl f g : In f l -> In g l -> c_name f = c_name g -> f = g.
Proof.
  intros Hf Hg E. assert (X : find_in l (c_name f) = Some f) by (apply NoDup_find; assumption).
  assert (Y : find_in l (c_name g) = Some g) by (apply NoDup_find; assumption). rewrite E in X. congruence.
Qed.
Lemma owner_of k f : chained_to l k = Val (Some f) -> In f l /\ owned_by k (c_name f).
Proof.
  unfold chained_to. destruct (prefix_of k) as [b|] eqn:P; [|discriminate]. intros [= H]. split; [eapply find_in_In; exact H|].
  unfold owned_by. rewrite P, (find_in_name _ _ _ H). reflexivity.
Qed.
Lemma ev_may r c k : ev m r -> In k (cmd_names r c ++ state_names r c) -> may_want m c k.
Proof. intros V Hk. apply in_app_iff in Hk. destruct Hk as [Hk|Hk]; [left|right]; eapply names_mono; [|exact Hk| |exact Hk]; apply V. Qed.
Lemma ev_cmd r c k : ev m r -> In k (cmd_names r c) -> may_command m c k.
Proof. intros V Hk. eapply names_mono; [|exact Hk]. apply V. Qed.

Lemma cw_prop_itf c : In c l -> c_lc c = Active -> In (c_name c) d0 -> forall ks w w',
  (forall k, In k ks -> may_want m c k) -> rfold (propagate_itf l) ks w = Val w' -> cw w -> cw w'.
Proof.
  intros Ic La Id. induction ks as [|k ks IH]; intros w w' HK H O; cbn [rfold] in H; [injection H as <-; exact O|].
  apply bind_val in H. destruct H as (w1 & H1 & H). eapply IH; [intros k' Hk'; apply HK; right; exact Hk'|exact H|].
  unfold propagate_itf in H1. apply bind_val in H1. destruct H1 as (fo & C & H1). injection H1 as <-. destruct fo as [f|]; [|exact O].
  destruct O as [V A D F T]. constructor; cbn; try assumption. intros I. apply In_add_item in I. destruct I as [I|I]; [|exact (F I)].
  exists c, k. destruct (owner_of k f C) as [_ Ow]. rewrite <- I in Ow. repeat split; auto. apply HK. left. reflexivity.
Qed.
Lemma cw_propagate : forall cs w w', incl cs l -> propagate l cs w = Val w' -> cw w -> cw w'.
Proof.
  induction cs as [|c cs IH]; intros w w' Hi H O; cbn [propagate] in H; [injection H as <-; exact O|].
  assert (Ic : In c l) by (apply Hi; left; reflexivity). assert (Hi' : incl cs l) by (intros x Hx; apply Hi; right; exact Hx).
  destruct (mem (c_name c) (w_deact w)) eqn:Md; [|eapply IH; eassumption]. destruct (is_lc Active c) eqn:La; [|injection H as <-; exact O].
  apply bind_val in H. destruct H as (w1 & H1 & H). eapply IH; [exact Hi'|exact H|]. eapply (cw_prop_itf c Ic); [| | |exact H1|exact O].
  - apply active_dec. exact La.
  - apply (cw_deact _ O). apply mem_In. exact Md.
  - intros k Hk. eapply ev_may; [apply (cw_ev _ O)|exact Hk].
Qed.

Definition runs_now (c : ctrl) : Prop := In c l /\ (In (c_name c) a0 \/ c_lc c = Active).
(** one check: lists of chained-mode changes grow (to) and shrink (from) *)
Definition mono (w w' : sw) : Prop := incl (w_to w) (w_to w') /\ incl (w_from w') (w_from w) /\ w_act w' = w_act w /\ w_deact w' = w_deact w.
Lemma mono_refl w : mono w w. Proof. repeat split; auto using incl_refl. Qed.
Lemma mono_trans a b c : mono a b -> mono b c -> mono a c.
Proof. intros (A & B & C & D) (A' & B' & C' & D'). repeat split; [eapply incl_tran; eassumption|eapply incl_tran; eassumption|congruence|congruence]. Qed.
Lemma cw_itf rec c cmds states w k w' ok : runs_now c -> In k (cmds ++ states) ->
  (forall k, In k (cmds ++ states) -> may_want m c k) -> (forall k, In k cmds -> may_command m c k) ->
  (forall w f w' ok, runs_now f -> rec w f = Val (w', ok) -> cw w -> cw w' /\ mono w w') ->
  follow_itf rec l c cmds states w k = Val (w', ok) -> cw w -> cw w' /\ mono w w'.
Proof.
  intros Rc Ik HW HC IH H1 O. assert (Z : cw w /\ mono w w) by (split; [exact O|apply mono_refl]).
  unfold follow_itf in H1. apply bind_val in H1. destruct H1 as (fo & C & H1). destruct fo as [f|]; [|injection H1 as <- _; exact Z].
  destruct (owner_of k f C) as [If Ow].
  destruct (negb (c_chainable f)); [injection H1 as <- _; exact Z|]. cbv zeta in H1. destruct (is_lc Active f && mem (c_name f) (w_deact w)); [injection H1 as <- _; exact Z|].
  destruct (negb (is_lc Active f) && negb (mem (c_name f) (w_act w))) eqn:Rn; [injection H1 as <- _; exact Z|].
  apply bind_val in H1. destruct H1 as ([w2 ok2] & H2 & H1).
  assert (Rf : runs_now f).
  { split; [exact If|]. destruct (is_lc Active f) eqn:Lf; [right; apply active_dec; exact Lf|]. left. apply (cw_act _ O). apply mem_In. destruct (mem (c_name f) (w_act w)); [reflexivity|discriminate Rn]. }
  destruct (IH w f w2 ok2 Rf H2 O) as [O2 M2]. clear H2.
  assert (Z2 : cw w2 /\ mono w w2) by (split; assumption).
  destruct ok2; cbn [negb] in H1; [|injection H1 as <- _; exact Z2].
  destruct (negb (c_chained f)) eqn:Cf.
  - destruct (mem (c_name f) (w_to w2)); [injection H1 as <- _; exact Z2|].
    apply bind_val in H1. destruct H1 as (r1 & E1 & H1). destruct (make_exps_available (w_rm w2) (c_name f)) eqn:M1; [|discriminate]. injection E1 as ->.
    pose proof (ev_exps m _ _ _ M1 (cw_ev _ O2)) as V1. destruct (mem k cmds) eqn:Mk.
    + apply bind_val in H1. destruct H1 as (r2 & E2 & H1). destruct (make_refs_available r1 (c_name f)) eqn:M3; [|discriminate]. injection E2 as ->.
      injection H1 as <- _. split.
      * destruct O2 as [V A D F T]. constructor; cbn; try assumption; [eapply ev_refs; eassumption|].
        intros I. apply in_app_iff in I. destruct I as [I|[I|[]]]; [exact (T I)|]. split.
        -- intros g Ig Eg. rewrite (same_ctrl g f Ig If) by congruence. destruct (c_chained f); [discriminate Cf|reflexivity].
        -- exists c, k. rewrite <- I. destruct Rc as [Ic Rc]. repeat split; auto. apply HC. apply mem_In. exact Mk.
      * eapply mono_trans; [exact M2|]. repeat split; cbn; auto using incl_refl. intros x Hx. apply in_or_app. left. exact Hx.
    + injection H1 as <- _. split; [destruct O2 as [V A D F T]; constructor; cbn; assumption|]. eapply mono_trans; [exact M2|]. repeat split; cbn; auto using incl_refl.
  - injection H1 as <- _. split.
    + destruct O2 as [V A D F T]. constructor; cbn; try assumption. intros I. apply In_remove1 in I. exact (F I).
    + eapply mono_trans; [exact M2|]. repeat split; cbn; auto using incl_refl. intros x Hx. eapply In_remove1. exact Hx.
Qed.
Lemma cw_loop one cmds : (forall w k w' ok, In k cmds -> one w k = Val (w', ok) -> cw w -> cw w' /\ mono w w') ->
  forall w w' ok, follow_loop one cmds w = Val (w', ok) -> cw w -> cw w' /\ mono w w'.
Proof.
  induction cmds as [|k ks IH]; intros HO w w' ok H O; cbn [follow_loop] in H; [injection H as <- _; split; [exact O|apply mono_refl]|].
  apply bind_val in H. destruct H as ([w1 ok1] & H1 & H). destruct (HO w k w1 ok1 (or_introl eq_refl) H1 O) as [O1 M1].
  destruct ok1; [|injection H as <- _; auto]. destruct (IH (fun w k w' ok i => HO w k w' ok (or_intror i)) w1 w' ok H O1) as [O2 M2].
  split; [exact O2|]. eapply mono_trans; eassumption.
Qed.
Lemma cw_follow : forall fuel w c w' ok, runs_now c -> check_following fuel l w c = Val (w', ok) -> cw w -> cw w' /\ mono w w'.
Proof.
  induction fuel as [|fu IH]; intros w c w' ok Rc H O; cbn [check_following] in H; [discriminate|]. cbv zeta in H.
  eapply cw_loop; [|exact H|exact O]. intros w1 k w2 ok2 Ik H1 O1. eapply cw_itf; [exact Rc|exact Ik| | |exact IH|exact H1|exact O1].
  - intros k' Hk'. eapply ev_may; [apply (cw_ev _ O)|exact Hk'].
  - intros k' Hk'. eapply ev_cmd; [apply (cw_ev _ O)|exact Hk'].
Qed.
Lemma cw_check w x w' ok : In x a0 -> check_activate l w x = Val (w', ok) -> cw w -> cw w' /\ mono w w'.
Proof.
  intros Ix H O. unfold check_activate in H. destruct (find_in l x) as [c|] eqn:F; [|discriminate]. apply bind_val in H. destruct H as ([w1 ok1] & H1 & H).
  assert (O1 : cw w1 /\ mono w w1).
  { destruct (c_lc c); try (injection H1 as <- _; split; [exact O|apply mono_refl]). eapply cw_follow; [|exact H1|exact O].
    split; [eapply find_in_In; exact F|]. left. rewrite (find_in_name _ _ _ F). exact Ix. }
  destruct ok1; [|injection H as <- _; exact O1]. apply bind_val in H. destruct H as (b & _ & H). injection H as <- _. exact O1.
Qed.

(** the check of a controller that commands interface [k] of [f] by name *)
Variables (p f : ctrl) (k : name).
Hypothesis (Ip : In p l) (Lp : c_lc p = Inactive) (Bp : by_name p) (Wk : wants_cmd m p k) (If : In f l) (Nf : c_name f = n) (Ow : owned_by k n).
Record good (w : sw) : Prop := {
  g_ch : c_chainable f = true; g_to : c_chained f = false -> In n (w_to w); g_stay : c_lc f = Active -> ~ In n (w_deact w) }.
Lemma good_mono w w' : mono w w' -> good w -> good w'.
Proof. intros (A & _ & _ & D) [X Y Z]. constructor; [exact X|intros U; apply A; auto|rewrite D; exact Z]. Qed.
Lemma good_itf rec cmds states w w' : In k cmds -> runs_now p ->
  (forall k, In k (cmds ++ states) -> may_want m p k) -> (forall k, In k cmds -> may_command m p k) ->
  (forall w f w' ok, runs_now f -> rec w f = Val (w', ok) -> cw w -> cw w' /\ mono w w') ->
  follow_itf rec l p cmds states w k = Val (w', true) -> cw w -> good w'.
Proof.
  intros Ik Rp HW HC IH H1 O. pose proof H1 as H0. unfold follow_itf in H1. apply bind_val in H1. destruct H1 as (fo & C & H1).
  assert (E : fo = Some f).
  { unfold chained_to in C. rewrite Ow in C. injection C as <-. rewrite <- Nf. apply NoDup_find; assumption. }
  subst fo. destruct (c_chainable f) eqn:Cf; cbn [negb] in H1; [|discriminate]. cbv zeta in H1.
  destruct (is_lc Active f && mem (c_name f) (w_deact w)) eqn:Df.
  { exfalso. destruct Bp as (ks & ss & E1 & E2 & _). injection H1 as _ H1. rewrite E1, E2 in H1. cbn [is_all] in H1. rewrite !andb_false_r in H1. discriminate. }
  destruct (negb (is_lc Active f) && negb (mem (c_name f) (w_act w))) eqn:Rn; [discriminate|].
  apply bind_val in H1. destruct H1 as ([w2 ok2] & H2 & H1).
  assert (Rf : runs_now f).
  { split; [exact If|]. destruct (is_lc Active f) eqn:Lf; [right; apply active_dec; exact Lf|]. left. apply (cw_act _ O). apply mem_In. destruct (mem (c_name f) (w_act w)); [reflexivity|discriminate Rn]. }
  destruct (IH w f w2 ok2 Rf H2 O) as [O2 (_ & _ & _ & D2)]. clear H2.
  destruct ok2; cbn [negb] in H1; [|discriminate].
  assert (St : forall x, w_deact x = w_deact w2 -> c_lc f = Active -> ~ In n (w_deact x)).
  { intros x Ex La I. rewrite Ex, D2 in I. apply active_dec in La. rewrite La, Nf in Df. apply mem_In in I. rewrite I in Df. discriminate. }
  destruct (c_chained f) eqn:Cc; cbn [negb] in H1.
  - assert (Ew : w' = sw_chain w2 (w_rm w2) (w_to w2) (remove1 (c_name f) (w_from w2))) by congruence. subst w'. constructor; [exact Cf|intros X; rewrite Cc in X; discriminate X|apply St; reflexivity].
  - destruct (mem (c_name f) (w_to w2)) eqn:Mt.
    + assert (Ew : w' = w2) by congruence. subst w'. constructor; [exact Cf| |apply St; reflexivity]. intros _. apply mem_In. rewrite <- Nf. exact Mt.
    + apply bind_val in H1. destruct H1 as (r1 & E1 & H1). apply mem_In in Ik. rewrite Ik in H1.
      apply bind_val in H1. destruct H1 as (r2 & E2 & H1). assert (Ew : w' = sw_chain w2 r2 (w_to w2 ++ [c_name f]) (w_from w2)) by congruence. subst w'.
      constructor; [exact Cf| |apply St; reflexivity]. intros _. cbn. apply in_or_app. right. left. exact Nf.
Qed.
Lemma good_check w w' : In (c_name p) a0 -> check_activate l w (c_name p) = Val (w', true) -> cw w -> good w'.
Proof.
  intros Ia H O. unfold check_activate in H. rewrite (NoDup_find l p ND Ip), Lp in H.
  apply bind_val in H. destruct H as ([w1 ok1] & H1 & H). destruct ok1; [|discriminate].
  apply bind_val in H. destruct H as (b & _ & H). assert (w' = w1) by congruence. subst w'. clear H b.
  assert (Rp : runs_now p) by (split; auto). cbn [check_following] in H1. cbv zeta in H1.
  assert (Ik : In k (cmd_names (w_rm w) p)).
  { destruct Bp as (ks & ss & E1 & E2 & _). unfold wants_cmd, cmd_names in *. rewrite E1 in *. exact Wk. }
  assert (HW : forall k, In k (cmd_names (w_rm w) p ++ state_names (w_rm w) p) -> may_want m p k) by (intros k' Hk'; eapply ev_may; [apply (cw_ev _ O)|exact Hk']).
  assert (HC : forall k, In k (cmd_names (w_rm w) p) -> may_command m p k) by (intros k' Hk'; eapply ev_cmd; [apply (cw_ev _ O)|exact Hk']).
  revert Ik HW HC H1. generalize (cmd_names (w_rm w) p) (state_names (w_rm w) p). intros cmds states Ik HW HC.
  assert (G : forall ks w, incl ks (cmds ++ states) -> In k ks -> cw w ->
     follow_loop (follow_itf (check_following (length l) l) l p cmds states) ks w = Val (w1, true) -> good w1).
  { induction ks as [|k' ks IHk]; intros x Hi Hk Ox H; [destruct Hk|]. cbn [follow_loop] in H.
    apply bind_val in H. destruct H as ([x1 ok1] & H1 & H). destruct ok1; [|discriminate].
    assert (Hi' : incl ks (cmds ++ states)) by (intros y Hy; apply Hi; right; exact Hy).
    destruct (cw_itf _ p cmds states x k' x1 true Rp (Hi _ (or_introl eq_refl)) HW HC (cw_follow (length l)) H1 Ox) as [Ox1 _].
    destruct Hk as [->|Hk]; [|eapply IHk; eassumption].
    pose proof (good_itf _ cmds states x x1 Ik Rp HW HC (cw_follow (length l)) H1 Ox) as Gx.
    assert (M : cw w1 /\ mono x1 w1).
    { eapply cw_loop; [|exact H|exact Ox1]. intros w2 k2 w3 ok3 Ik2 H2 O2. eapply cw_itf; [exact Rp|apply Hi'; exact Ik2|exact HW|exact HC|apply cw_follow|exact H2|exact O2]. }
    eapply good_mono; [apply M|exact Gx]. }
  intros H1. eapply G; [apply incl_refl| |exact O|exact H1]. apply in_or_app. left. exact Ik.
Qed.
Lemma good_act strict : forall rest kept w x, incl rest a0 -> w_act w = kept ++ rest -> (In (c_name p) kept -> good w) -> cw w ->
  act_loop l strict kept rest w = Val (inl x) -> cw x /\ w_deact x = w_deact w /\ (In (c_name p) (w_act x) -> good x).
Proof.
  induction rest as [|y rest IH]; intros kept w x Hi Ea Hg O H; cbn [act_loop] in H.
  { injection H as <-. rewrite app_nil_r in Ea. split; [exact O|]. split; [reflexivity|]. rewrite Ea. exact Hg. }
  apply bind_val in H. destruct H as ([w1 ok] & H1 & H). destruct (cw_check _ _ _ _ (Hi _ (or_introl eq_refl)) H1 O) as [O1 M1].
  pose proof M1 as (_ & _ & A1 & D1). assert (Hi' : incl rest a0) by (intros z Hz; apply Hi; right; exact Hz).
  destruct ok; [|destruct strict; [discriminate|]].
  - destruct (IH (kept ++ [y]) w1 x Hi') as (X & Y & Z); [rewrite A1, Ea, <- app_assoc; reflexivity| |exact O1|exact H|].
    + intros I. apply in_app_iff in I. destruct I as [I|[->|[]]]; [eapply good_mono; [exact M1|apply Hg; exact I]|].
      eapply good_check; [apply Hi; left; reflexivity|exact H1|exact O].
    + split; [exact X|]. split; [congruence|exact Z].
  - destruct (IH kept (sw_lists w1 (kept ++ rest) (w_deact w1)) x Hi') as (X & Y & Z); [reflexivity| | |exact H|].
    + intros I. destruct (good_mono _ _ M1 (Hg I)) as [P Q R]. constructor; cbn; assumption.
    + destruct O1 as [V A D F T]. constructor; cbn; try assumption. intros z Hz. apply A. rewrite A1, Ea. apply in_app_iff in Hz. apply in_app_iff. destruct Hz; [left|right; right]; assumption.
    + split; [exact X|]. split; [cbn in Y; congruence|exact Z].
Qed.
End V.
