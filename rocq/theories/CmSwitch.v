(** CmSwitch.v -- validation of switch requests (switch_controller_cb up to the hand-over). *)
From Coq Require Import Lia.
From Verif Require Import Base Events HwModel RmModel RmProofs ChainModel CmModel CmPrim ChainSpec CmTopo CmInv CmSpec.

(** what validation may change in the resource manager: availability and the controller cache
    grow, prepare calls are recorded *)
Record grow (r r' : rm) : Prop := {
  g_hw : rm_hw r' = rm_hw r; g_sk : rm_skeys r' = rm_skeys r; g_ck : rm_ckeys r' = rm_ckeys r;
  g_cl : rm_claimed r' = rm_claimed r; g_refs : rm_refs r' = rm_refs r; g_exps : rm_exps r' = rm_exps r;
  g_gr : rm_groups r' = rm_groups r; g_avs : incl (rm_avs r) (rm_avs r'); g_avc : incl (rm_avc r) (rm_avc r');
  g_used : forall h, incl (cached_controllers r h) (cached_controllers r' h) }.
Lemma grow_refl r : grow r r.
Proof. constructor; try reflexivity; intros; apply incl_refl. Qed.
Lemma grow_trans a b c : grow a b -> grow b c -> grow a c.
Proof.
  intros [] []. constructor; try congruence; try (eapply incl_tran; eassumption).
  intros h. eapply incl_tran; [apply g_used0|apply g_used1].
Qed.
Lemma grow_refs r n r' : make_refs_available r n = Some r' -> grow r r'.
Proof.
  unfold make_refs_available. destruct (aget _ _) as [ks|]; [|discriminate]. intros [= <-].
  constructor; try reflexivity; simpl; try (intros; apply incl_refl).
  intros x Hx. apply In_add_items. auto.
Qed.
Lemma grow_exps r n r' : make_exps_available r n = Some r' -> grow r r'.
Proof.
  unfold make_exps_available. destruct (aget _ _) as [ks|]; [|discriminate]. intros [= <-].
  constructor; try reflexivity; simpl; try (intros; apply incl_refl).
  intros x Hx. apply In_add_items. auto.
Qed.
Lemma grow_cache c ks : forall r, grow r (cache_controller r c ks).
Proof.
  unfold cache_controller. induction ks as [|k ks IH]; intros r; cbn [fold_left]; [apply grow_refl|].
  eapply grow_trans; [|apply IH]. unfold cache_one. destruct (find _ _) as [h|]; [|apply grow_refl].
  constructor; try reflexivity; simpl; try (intros; apply incl_refl).
  intros h0 x Hx. unfold cached_controllers in *. cbn [rm_used with_used]. rewrite aget_aset.
  destruct (String.eqb_spec h0 (h_name h)) as [->|]; [|exact Hx]. apply In_add_item. right. exact Hx.
Qed.
Lemma grow_trace r t : grow r (with_trace r t).
Proof. constructor; try reflexivity; intros; apply incl_refl. Qed.
Lemma grow_mode e op allow start stop hs : forall r b, grow r (fst (mode_loop e op allow start stop hs r b)).
Proof.
  induction hs as [|h hs IH]; intros r b; cbn [mode_loop]; [apply grow_refl|].
  assert (X : grow r (fst (if negb (match common_itfs (h_cmd h) start with [] => true | _ => false end) && lc_eqb (h_lc h) Inactive && negb allow
        then (r, false)
        else
          match h_lc h with
          | Inactive | Active =>
              let '(res, t') := mode_call e op (rm_trace r) (h_name h) (common_itfs (h_cmd h) start) (common_itfs (h_cmd h) stop) in
              mode_loop e op allow start stop hs (with_trace r t')
                        (match res with Ret ROk => b | _ => false end)
          | _ => mode_loop e op allow start stop hs r false
          end))).
  { destruct (_ && negb allow); [apply grow_refl|].
    destruct (h_lc h); try apply IH;
    (destruct (mode_call _ _ _ _ _ _) as [res t']; eapply grow_trans; [apply grow_trace|apply IH]). }
  destruct (common_itfs (h_cmd h) start) as [|a s]; destruct (common_itfs (h_cmd h) stop) as [|d p];
    [apply IH|exact X|exact X|exact X].
Qed.
Lemma grow_prepare e allow r a d : grow r (fst (rm_prepare e allow r a d)).
Proof.
  unfold rm_prepare. destruct (both_empty a d); [apply grow_refl|].
  destruct (negb _); [apply grow_refl|]. destruct (negb _); [apply grow_refl|].
  pose proof (grow_mode e MPrepare allow a d (filter is_actuator (rm_hw r)) r true) as X.
  destruct (mode_loop _ _ _ _ _ (filter is_actuator _) _ _) as [r1 b1]. cbn [fst] in X.
  pose proof (grow_mode e MPrepare allow a d (filter is_system (rm_hw r)) r1 true) as Y.
  destruct (mode_loop _ _ _ _ _ (filter is_system _) _ _) as [r2 b2]. cbn [fst] in *.
  eapply grow_trans; eassumption.
Qed.

Lemma names_mono cfg av av' : incl av av' -> incl (cfg_names cfg av) (cfg_names cfg av').
Proof.
  intros H. destruct cfg as [| |ks|ks|ps]; simpl; try apply incl_refl; [exact H| |].
  - intros k Hk. apply filter_In in Hk. destruct Hk as [A B]. apply filter_In. split; [exact A|].
    apply mem_In. apply H. apply mem_In. exact B.
  - intros k Hk. apply in_flat_map in Hk. destruct Hk as (p & Hp & Hk). apply in_flat_map. exists p. split; [exact Hp|].
    apply filter_In in Hk. apply filter_In. split; [apply H; apply Hk|apply Hk].
Qed.
Lemma cmd_mono r r' c : grow r r' -> incl (cmd_names r c) (cmd_names r' c).
Proof. intros G. apply names_mono. apply G. Qed.
Lemma state_mono r r' c : grow r r' -> incl (state_names r c) (state_names r' c).
Proof. intros G. apply names_mono. apply G. Qed.

(** ---------------------------------------------------------------- lists of names *)
Lemma list_strict l : forall ns got r, list_controllers l true ns got true = Some r ->
  r = got ++ ns /\ forall n, In n ns -> exists c, find_in l n = Some c.
Proof.
  induction ns as [|n ns IH]; intros got r; cbn [list_controllers].
  - intros [= <-]. split; [rewrite app_nil_r; reflexivity|intros n []].
  - destruct (find_in l n) as [c|] eqn:F; [|discriminate]. intros H. apply IH in H. destruct H as [-> H].
    split; [rewrite <- app_assoc; reflexivity|]. intros x [<-|Hx]; [exists c; exact F|apply H; exact Hx].
Qed.

(** ---------------------------------------------------------------- propagate *)
Record same_sw (w w' : sw) : Prop := {
  ss_act : w_act w' = w_act w; ss_deact : w_deact w' = w_deact w;
  ss_start : w_start w' = w_start w; ss_stop : w_stop w' = w_stop w }.
Lemma same_sw_refl w : same_sw w w. Proof. constructor; reflexivity. Qed.
Lemma same_sw_trans a b c : same_sw a b -> same_sw b c -> same_sw a c.
Proof. intros [] []. constructor; congruence. Qed.
Lemma same_chain w r t f : same_sw w (sw_chain w r t f). Proof. constructor; reflexivity. Qed.

Lemma propagate_itfs_same l : forall ks w w', rfold (propagate_itf l) ks w = Val w' ->
  same_sw w w' /\ w_rm w' = w_rm w /\ w_to w' = w_to w.
Proof.
  induction ks as [|k ks IH]; intros w w' H; cbn [rfold] in H.
  - injection H as <-. split; [apply same_sw_refl|auto].
  - apply bind_val in H. destruct H as (w1 & H1 & H2). apply IH in H2. destruct H2 as (A & B & C).
    unfold propagate_itf in H1. apply bind_val in H1. destruct H1 as (f & _ & H1). injection H1 as <-.
    destruct f as [f|]; [|auto]. split; [eapply same_sw_trans; [apply same_chain|exact A]|]. rewrite B, C. auto.
Qed.
Lemma propagate_same l cs : forall w w', propagate l cs w = Val w' ->
  same_sw w w' /\ w_rm w' = w_rm w /\ w_to w' = w_to w.
Proof.
  induction cs as [|c cs IH]; intros w w' H; cbn [propagate] in H; [injection H as <-; split; [apply same_sw_refl|auto]|].
  destruct (mem (c_name c) (w_deact w)); [|apply IH; exact H].
  destruct (is_lc Active c); [|injection H as <-; split; [apply same_sw_refl|auto]].
  apply bind_val in H. destruct H as (w1 & H1 & H2). apply propagate_itfs_same in H1. apply IH in H2.
  destruct H1 as (A & B & C), H2 as (A' & B' & C'). split; [eapply same_sw_trans; eassumption|]. split; congruence.
Qed.

(** ---------------------------------------------------------------- check_following *)
Section Follow.
Variables (l : list ctrl).
(** the immediate requirements on the partner of interface [k] *)
Definition partner_ok (w : sw) (c : ctrl) (cmds states : list name) (k : name) : Prop :=
  forall f, chained_to l k = Val (Some f) ->
    c_chainable f = true /\
    ((c_lc f = Active /\ (~ In (c_name f) (w_deact w) \/
        (In k states /\ is_all (c_state c) = true) \/ (In k cmds /\ is_all (c_cmd c) = true))) \/
     (c_lc f <> Active /\ In (c_name f) (w_act w))).

Lemma active_dec f : is_lc Active f = true <-> c_lc f = Active.
Proof. unfold is_lc. apply lc_eqb_eq. Qed.

Lemma follow_spec : forall fuel w c w' ok, check_following fuel l w c = Val (w', ok) ->
  same_sw w w' /\ grow (w_rm w) (w_rm w') /\
  (ok = true -> forall k, In k (cmd_names (w_rm w) c ++ state_names (w_rm w) c) ->
     partner_ok w c (cmd_names (w_rm w) c) (state_names (w_rm w) c) k).
Proof.
  induction fuel as [|fu IH]; intros w c w' ok H; cbn [check_following] in H; [discriminate|].
  revert H. generalize (cmd_names (w_rm w) c ++ state_names (w_rm w) c).
  generalize (cmd_names (w_rm w) c) (state_names (w_rm w) c).
  intros cmds states ks. revert w w' ok.
  induction ks as [|k ks IHk]; intros w w' ok H; cbn [follow_loop] in H.
  { injection H as <- <-. split; [apply same_sw_refl|]. split; [apply grow_refl|]. intros _ k []. }
  apply bind_val in H. destruct H as ([w1 ok1] & H1 & H2).
  assert (S1 : same_sw w w1 /\ grow (w_rm w) (w_rm w1) /\ (ok1 = true -> partner_ok w c cmds states k)).
  { clear H2 IHk. unfold follow_itf in H1. apply bind_val in H1. destruct H1 as (fo & Hfo & H1).
    assert (Z : forall P : Prop, w1 = w -> P -> same_sw w w1 /\ grow (w_rm w) (w_rm w1) /\ P).
    { intros P -> HP. split; [apply same_sw_refl|]. split; [apply grow_refl|exact HP]. }
    destruct fo as [f|].
    2:{ injection H1 as <- <-. apply Z; [reflexivity|]. intros _ f Hf. congruence. }
    destruct (c_chainable f) eqn:Ch; cbn [negb] in H1; [|injection H1 as <- <-; apply Z; [reflexivity|discriminate]].
    destruct (is_lc Active f) eqn:L; cbn [andb negb] in H1.
    - apply active_dec in L. destruct (mem (c_name f) (w_deact w)) eqn:D; cbn [andb] in H1.
      + injection H1 as <- <-. apply Z; [reflexivity|]. intros O g Hg. assert (g = f) by congruence. subst g.
        split; [exact Ch|]. left. split; [exact L|]. right. apply orb_true_iff in O.
        destruct O as [O|O]; apply andb_true_iff in O; destruct O as [O1 O2]; apply mem_In in O1; auto.
      + apply bind_val in H1. destruct H1 as ([w2 ok2] & H2 & H1). apply IH in H2. destruct H2 as (A & B & _).
        assert (Q : partner_ok w c cmds states k).
        { intros g Hg. assert (g = f) by congruence. subst g. split; [exact Ch|]. left. split; [exact L|]. left. apply mem_false. exact D. }
        assert (Y : same_sw w2 w1 /\ grow (w_rm w2) (w_rm w1)).
        { destruct (negb ok2); [injection H1 as <- <-; split; [apply same_sw_refl|apply grow_refl]|].
          destruct (negb (c_chained f)); [|injection H1 as <- <-; split; [apply same_chain|apply grow_refl]].
          destruct (mem (c_name f) (w_to w2)); [injection H1 as <- <-; split; [apply same_sw_refl|apply grow_refl]|].
          apply bind_val in H1. destruct H1 as (r1 & A1 & H1). apply of_option_val in A1. apply grow_exps in A1.
          destruct (mem k cmds).
          - apply bind_val in H1. destruct H1 as (r2 & A2 & H1). apply of_option_val in A2. apply grow_refs in A2. injection H1 as <- <-.
            split; [apply same_chain|]. eapply grow_trans; eassumption.
          - injection H1 as <- <-. split; [apply same_chain|exact A1]. }
        destruct Y as [Y1 Y2]. split; [eapply same_sw_trans; eassumption|]. split; [eapply grow_trans; eassumption|]. intros _. exact Q.
    - assert (L' : c_lc f <> Active) by (intros C; apply active_dec in C; congruence).
      destruct (mem (c_name f) (w_act w)) eqn:D; cbn [negb] in H1; [|injection H1 as <- <-; apply Z; [reflexivity|discriminate]].
      apply bind_val in H1. destruct H1 as ([w2 ok2] & H2 & H1). apply IH in H2. destruct H2 as (A & B & _).
      assert (Q : partner_ok w c cmds states k).
      { intros g Hg. assert (g = f) by congruence. subst g. split; [exact Ch|]. right. split; [exact L'|]. apply mem_In. exact D. }
      assert (Y : same_sw w2 w1 /\ grow (w_rm w2) (w_rm w1)).
      { destruct (negb ok2); [injection H1 as <- <-; split; [apply same_sw_refl|apply grow_refl]|].
        destruct (negb (c_chained f)); [|injection H1 as <- <-; split; [apply same_chain|apply grow_refl]].
        destruct (mem (c_name f) (w_to w2)); [injection H1 as <- <-; split; [apply same_sw_refl|apply grow_refl]|].
        apply bind_val in H1. destruct H1 as (r1 & A1 & H1). apply of_option_val in A1. apply grow_exps in A1.
        destruct (mem k cmds).
        - apply bind_val in H1. destruct H1 as (r2 & A2 & H1). apply of_option_val in A2. apply grow_refs in A2. injection H1 as <- <-.
          split; [apply same_chain|]. eapply grow_trans; eassumption.
        - injection H1 as <- <-. split; [apply same_chain|exact A1]. }
      destruct Y as [Y1 Y2]. split; [eapply same_sw_trans; eassumption|]. split; [eapply grow_trans; eassumption|]. intros _. exact Q. }
  destruct S1 as (A & B & C). destruct ok1.
  - apply IHk in H2. destruct H2 as (A' & B' & C'). split; [eapply same_sw_trans; eassumption|].
    split; [eapply grow_trans; eassumption|]. intros O k' [<-|Hk]; [apply C; reflexivity|].
    specialize (C' O k' Hk). intros f Hf. specialize (C' f Hf). destruct A as [A1 A2 _ _]. rewrite A1, A2 in C'. exact C'.
  - injection H2 as <- <-. split; [exact A|]. split; [exact B|discriminate].
Qed.

(** fallback controllers *)
Lemma rforall_true f : forall ks, rforall f ks = Val true -> forall k, In k ks -> f k = Val true.
Proof.
  induction ks as [|k ks IH]; intros H x []; cbn [rforall] in H; apply bind_val in H; destruct H as (b & Hb & H);
    destruct b; try discriminate; [congruence|apply IH; assumption].
Qed.
Definition fb_ready (n : name) : Prop := exists d, find_in l n = Some d /\ (c_lc d = Inactive \/ c_lc d = Active).
Lemma fallback_spec r c : check_fallback l r c = Val true -> forall n, In n (c_fallback c) -> fb_ready n.
Proof.
  intros H n Hn. apply (rforall_true _ _ H) in Hn. unfold check_fallback_one in Hn.
  destruct (find_in l n) as [d|] eqn:F; [|discriminate]. exists d. split; [exact F|].
  destruct (is_lc Inactive d || is_lc Active d) eqn:E; [|discriminate].
  apply orb_true_iff in E. unfold is_lc in E. rewrite !lc_eqb_eq in E. exact E.
Qed.

Definition start_ok (w : sw) (top : rm) (n : name) : Prop :=
  exists c, find_in l n = Some c /\
    ((c_lc c = Inactive /\ exists r, grow (w_rm w) r /\ grow r top /\
        forall k, In k (cmd_names r c ++ state_names r c) -> partner_ok w c (cmd_names r c) (state_names r c) k) \/
     (c_lc c = Active /\ In n (w_deact w))) /\
    forall n', In n' (c_fallback c) -> fb_ready n'.
Lemma check_activate_spec w n w' ok : check_activate l w n = Val (w', ok) ->
  same_sw w w' /\ grow (w_rm w) (w_rm w') /\ (ok = true -> start_ok w (w_rm w') n).
Proof.
  unfold check_activate. destruct (find_in l n) as [c|] eqn:F; [|discriminate].
  intros H. apply bind_val in H. destruct H as ([w1 ok1] & H1 & H).
  assert (S1 : same_sw w w1 /\ grow (w_rm w) (w_rm w1) /\ (ok1 = true ->
     (c_lc c = Inactive /\ exists r, grow (w_rm w) r /\ grow r (w_rm w1) /\
        forall k, In k (cmd_names r c ++ state_names r c) -> partner_ok w c (cmd_names r c) (state_names r c) k) \/
     (c_lc c = Active /\ In n (w_deact w)))).
  { assert (Z : forall P : Prop, w1 = w -> P -> same_sw w w1 /\ grow (w_rm w) (w_rm w1) /\ P).
    { intros P -> HP. split; [apply same_sw_refl|]. split; [apply grow_refl|exact HP]. }
    destruct (c_lc c) eqn:L; try (injection H1 as <- <-; apply Z; [reflexivity|]; try discriminate).
    - apply follow_spec in H1. destruct H1 as (A & B & C). split; [exact A|]. split; [exact B|].
      intros O. left. split; [reflexivity|]. exists (w_rm w). split; [apply grow_refl|]. split; [exact B|]. apply C. exact O.
    - intros O. right. split; [reflexivity|]. apply mem_In. exact O. }
  destruct S1 as (A & B & C). destruct ok1.
  - apply bind_val in H. destruct H as (b & Hb & H). injection H as <- <-.
    split; [exact A|]. split; [exact B|]. intros ->. exists c. split; [exact F|]. split; [apply C; reflexivity|].
    eapply fallback_spec. exact Hb.
  - injection H as <- <-. split; [exact A|]. split; [exact B|discriminate].
Qed.

Lemma start_ok_earlier w w1 top top' n : same_sw w w1 -> grow (w_rm w) (w_rm w1) -> grow top top' ->
  start_ok w1 top n -> start_ok w top' n.
Proof.
  intros [A D _ _] G GT (c & F & H & Hf). exists c. split; [exact F|]. split; [|exact Hf].
  destruct H as [(L & r & Gr & Gt & H)|(L & H)]; [left|right; rewrite <- D; auto].
  split; [exact L|]. exists r. split; [eapply grow_trans; eassumption|]. split; [eapply grow_trans; eassumption|].
  intros k Hk f Hf'. specialize (H k Hk f Hf'). rewrite A, D in H. exact H.
Qed.
Lemma act_loop_strict : forall rest kept w x, act_loop l true kept rest w = Val x ->
  same_sw w (either x) /\ grow (w_rm w) (w_rm (either x)) /\
  (forall w', x = inl w' -> forall n, In n rest -> start_ok w (w_rm w') n).
Proof.
  induction rest as [|n rest IH]; intros kept w x H; cbn [act_loop] in H.
  { injection H as <-. split; [apply same_sw_refl|]. split; [apply grow_refl|]. intros w' _ n []. }
  apply bind_val in H. destruct H as ([w1 ok] & H1 & H). apply check_activate_spec in H1. destruct H1 as (A & B & C).
  destruct ok.
  - apply IH in H. destruct H as (A' & B' & C'). split; [eapply same_sw_trans; eassumption|]. split; [eapply grow_trans; eassumption|].
    intros w' E n' [<-|Hn].
    + eapply start_ok_earlier; [apply same_sw_refl|apply grow_refl| |apply C; reflexivity]. subst x. exact B'.
    + eapply start_ok_earlier; [exact A|exact B|apply grow_refl|]. eapply C'; eassumption.
  - injection H as <-. split; [exact A|]. split; [exact B|]. discriminate.
Qed.
(** BEST_EFFORT: the lists shrink *)
Lemma act_loop_grow strict : forall rest kept w x, act_loop l strict kept rest w = Val x -> grow (w_rm w) (w_rm (either x)).
Proof.
  induction rest as [|n rest IH]; intros kept w x H; cbn [act_loop] in H; [injection H as <-; apply grow_refl|].
  apply bind_val in H. destruct H as ([w1 ok] & H1 & H). apply check_activate_spec in H1. destruct H1 as (_ & B & _).
  destruct ok; [apply IH in H; eapply grow_trans; eassumption|].
  destruct strict; [injection H as <-; exact B|]. apply IH in H. eapply grow_trans; [exact B|exact H].
Qed.
End Follow.

(** ---------------------------------------------------------------- deactivate loop *)
Lemma deact_loop_strict m : forall rest kept w w', deact_loop m true kept rest w = Some w' ->
  w' = w /\ forall n, In n rest -> exists c, find_ctrl m n = Some c /\ c_lc c = Active /\ check_preceding m w c = true.
Proof.
  induction rest as [|n rest IH]; intros kept w w' H; cbn [deact_loop] in H; [injection H as <-; split; [reflexivity|intros n []]|].
  destruct (find_ctrl m n) as [c|] eqn:F; [|discriminate].
  destruct (is_lc Active c && check_preceding m w c) eqn:E; [|discriminate].
  apply andb_true_iff in E. destruct E as [E1 E2]. apply active_dec in E1.
  apply IH in H. destruct H as [-> H]. split; [reflexivity|]. intros x [<-|Hx]; [exists c; auto|apply H; exact Hx].
Qed.

(** ---------------------------------------------------------------- conflict loop *)
Lemma conflict_strict cs : forall w w', conflict_loop true cs w = inl w' ->
  exists R, w_act w' = w_act w ++ R /\ w_deact w' = w_deact w ++ R /\ grow (w_rm w) (w_rm w') /\
    w_to w' = w_to w /\ w_from w' = w_from w /\
    (forall n, In n R -> ~ In n (w_deact w) /\ (In n (w_to w) \/ In n (w_from w)) /\ exists c, In c cs /\ c_name c = n /\ c_lc c = Active) /\
    (forall c, In c cs -> c_lc c = Active -> In (c_name c) (w_to w) \/ In (c_name c) (w_from w) -> In (c_name c) (w_deact w) \/ In (c_name c) R).
Proof.
  induction cs as [|c cs IH]; intros w w' H; cbn [conflict_loop] in H.
  { injection H as <-. exists []. rewrite !app_nil_r. repeat split; try reflexivity; try (intros; apply incl_refl); intros; contradiction. }
  destruct (conflict_one true w c) as [w1|w1] eqn:E; [|discriminate]. apply IH in H.
  destruct H as (R & HA & HD & HG & HT & HF & HR & HC).
  set (restart := (mem (c_name c) (w_to w) || mem (c_name c) (w_from w)) && is_lc Active c && negb (mem (c_name c) (w_deact w))) in *.
  assert (X : w_act w1 = w_act w ++ (if restart then [c_name c] else []) /\
              w_deact w1 = w_deact w ++ (if restart then [c_name c] else []) /\
              grow (w_rm w) (w_rm w1) /\ w_to w1 = w_to w /\ w_from w1 = w_from w).
  { unfold conflict_one in E. fold restart in E. cbv zeta in E. rewrite !andb_true_r in E.
    destruct (negb (is_lc Active c) && _) in E; [discriminate|]. cbn [negb] in E. rewrite !andb_true_r in E.
    destruct (is_lc Active c && _ && _) in E; [discriminate|]. cbn [negb] in E. rewrite ?andb_true_r in E.
    destruct (negb (is_lc Inactive c) && _ && _) in E; [discriminate|]. cbn [negb] in E. rewrite ?andb_true_r in E.
    injection E as <-.
    match goal with |- context [if ?b then sw_itfs _ (cache_controller _ _ _) _ _ else _] => destruct b end;
    cbn [sw_itfs w_act w_deact w_rm w_to w_from];
    destruct restart; cbn [sw_lists w_act w_deact w_rm w_to w_from]; rewrite ?app_nil_r;
    (split; [reflexivity|]; split; [reflexivity|]; split; [|split; reflexivity]); try apply grow_refl; apply grow_cache. }
  destruct X as (XA & XD & XG & XT & XF).
  exists ((if restart then [c_name c] else []) ++ R). rewrite HA, HD, XA, XD, <- !app_assoc.
  split; [reflexivity|]. split; [reflexivity|]. split; [eapply grow_trans; eassumption|]. split; [congruence|]. split; [congruence|].
  rewrite XT, XF, XD in *. split.
  - intros n Hn. apply in_app_iff in Hn. destruct Hn as [Hn|Hn].
    + destruct restart eqn:Re; [|destruct Hn]. destruct Hn as [<-|[]]. unfold restart in Re.
      apply andb_true_iff in Re. destruct Re as [Re R3]. apply andb_true_iff in Re. destruct Re as [R1 R2].
      apply negb_true_iff, mem_false in R3. apply orb_true_iff in R1. rewrite !mem_In in R1. apply active_dec in R2.
      split; [exact R3|]. split; [exact R1|]. exists c. split; [left; reflexivity|auto].
    + destruct (HR n Hn) as (A & B & c0 & C & D). split; [intros K; apply A; apply in_app_iff; auto|]. split; [exact B|].
      exists c0. split; [right; exact C|exact D].
  - intros c0 [<-|Hc] L K.
    + destruct restart eqn:Re; [right; left; reflexivity|]. unfold restart in Re.
      assert (R2 : is_lc Active c = true) by (apply active_dec; exact L).
      assert (R1 : mem (c_name c) (w_to w) || mem (c_name c) (w_from w) = true) by (apply orb_true_iff; rewrite !mem_In; exact K).
      rewrite R1, R2 in Re. cbn [andb] in Re. apply negb_false_iff, mem_In in Re. left. exact Re.
    + destruct (HC c0 Hc L K) as [A|A]; [|right; apply in_app_iff; auto].
      apply in_app_iff in A. destruct A as [A|A]; [left; exact A|right; apply in_app_iff; auto].
Qed.

(** ---------------------------------------------------------------- availability *)
Lemma future_spec l : forall deact acc fut,
  fold_left (fun acc n =>
      match acc, find_in l n with
      | Some a, Some c => Some (a ++ match c_cmd c with IIndividual ks => ks | _ => c_claimed c end)
      | _, _ => None
      end) deact (Some acc) = Some fut ->
  forall k, In k fut -> In k acc \/ exists n c, In n deact /\ find_in l n = Some c /\ gives_up c k.
Proof.
  induction deact as [|n deact IH]; intros acc fut H k Hk; cbn [fold_left] in H; [injection H as <-; left; exact Hk|].
  destruct (find_in l n) as [c|] eqn:F.
  - destruct (IH _ _ H k Hk) as [A|(n' & c' & A & B & C)]; [|right; exists n', c'; split; [right; exact A|auto]].
    apply in_app_iff in A. destruct A as [A|A]; [left; exact A|].
    right. exists n, c. split; [left; reflexivity|]. split; [exact F|]. unfold gives_up. destruct (c_cmd c); exact A.
  - exfalso. clear -H. induction deact as [|x d IH]; cbn [fold_left] in H; [discriminate|auto].
Qed.

Lemma avail_cmds_spec r fut : forall ks taken t', avail_cmds r fut ks taken = Val (Some t') ->
  incl taken t' /\ incl ks t' /\
  forall k, In k ks -> In k (rm_avc r) /\ (aget (rm_claimed r) k = Some true -> In k fut) /\ ~ In k taken.
Proof.
  induction ks as [|k ks IH]; intros taken t' H; cbn [avail_cmds] in H.
  { injection H as <-. split; [apply incl_refl|]. split; [intros x []|intros x []]. }
  destruct (cmd_available r k) eqn:A; cbn [negb] in H; [|discriminate].
  apply bind_val in H. destruct H as (cl & Hc & H). apply of_option_val in Hc. unfold cmd_claimed in Hc. rewrite A in Hc.
  destruct (cl && negb (mem k fut)) eqn:B; [discriminate|]. destruct (mem k taken) eqn:T; [discriminate|].
  apply IH in H. destruct H as (I1 & I2 & H). split; [intros x Hx; apply I1; apply in_app_iff; auto|].
  split; [intros x [<-|Hx]; [apply I1; apply in_app_iff; right; left; reflexivity|apply I2; exact Hx]|].
  intros x [<-|Hx].
  - split; [apply mem_In; exact A|]. split; [|apply mem_false; exact T]. intros C. rewrite C in Hc. injection Hc as <-.
    cbn [andb] in B. apply negb_false_iff, mem_In in B. exact B.
  - destruct (H x Hx) as (H1 & H2 & H3). split; [exact H1|]. split; [exact H2|]. intros C. apply H3. apply in_app_iff. auto.
Qed.
Lemma avail_loop_spec l r fut deact : forall ns taken, avail_loop l r fut deact ns taken = Val true ->
  (forall n, In n ns -> ~ In n deact -> exists c, find_in l n = Some c /\
     (forall k, In k (cmd_names r c) -> In k (rm_avc r) /\ (aget (rm_claimed r) k = Some true -> In k fut) /\ ~ In k taken) /\
     (forall k, In k (state_names r c) -> In k (rm_avs r))) /\
  (forall n1 n2 c1 c2 k, In n1 ns -> In n2 ns -> n1 <> n2 -> ~ In n1 deact -> ~ In n2 deact ->
     find_in l n1 = Some c1 -> find_in l n2 = Some c2 -> In k (cmd_names r c1) -> In k (cmd_names r c2) -> False).
Proof.
  induction ns as [|n ns IH]; intros taken H; cbn [avail_loop] in H.
  { split; [intros n []|intros n1 n2 c1 c2 k []]. }
  destruct (mem n deact) eqn:D.
  - apply IH in H. destruct H as [H1 H2]. apply mem_In in D. split.
    + intros x [<-|Hx] Nd; [contradiction|]. apply H1; assumption.
    + intros n1 n2 c1 c2 k [<-|X1] [<-|X2] Ne N1 N2; try contradiction. eapply H2; eassumption.
  - apply mem_false in D. destruct (find_in l n) as [c|] eqn:F; [|discriminate].
    apply bind_val in H. destruct H as (o & Ho & H). destruct o as [t'|]; [|discriminate].
    destruct (forallb (state_available r) (state_names r c)) eqn:S; [|discriminate].
    apply avail_cmds_spec in Ho. destruct Ho as (I1 & I2 & Ho). apply IH in H. destruct H as [H1 H2]. split.
    + intros x [<-|Hx] Nd.
      * exists c. split; [exact F|]. split; [exact Ho|]. intros k Hk. rewrite forallb_forall in S. apply mem_In. apply S. exact Hk.
      * destruct (H1 x Hx Nd) as (c' & F' & A & B). exists c'. split; [exact F'|]. split; [|exact B].
        intros k Hk. destruct (A k Hk) as (A1 & A2 & A3). split; [exact A1|]. split; [exact A2|]. intros C. apply A3. apply I1. exact C.
    + assert (X : forall n2 c2 k, In n2 ns -> ~ In n2 deact -> find_in l n2 = Some c2 -> In k (cmd_names r c) -> In k (cmd_names r c2) -> False).
      { intros n2 c2 k Hn Nd Hc K1 K2. destruct (H1 n2 Hn Nd) as (c' & F' & A & _). assert (c' = c2) by congruence. subst c'.
        destruct (A k K2) as (_ & _ & A3). apply A3. apply I2. exact K1. }
      intros n1 n2 c1 c2 k [<-|X1] [<-|X2] Ne N1 N2 E1 E2 K1 K2; [congruence| | |exact (H2 n1 n2 c1 c2 k X1 X2 Ne N1 N2 E1 E2 K1 K2)].
      * assert (c1 = c) by congruence. subst c1. eapply X; eassumption.
      * assert (c2 = c) by congruence. subst c2. eapply X; eassumption.
Qed.

(** ---------------------------------------------------------------- the request *)
Lemma find_loaded m n c : find_in (cm_ctrls m) n = Some c -> In c (cm_ctrls m) /\ c_name c = n.
Proof. intros H. split; [eapply find_in_In; exact H|eapply find_in_name; exact H]. Qed.

Definition preceding_ok (m : cm) (act deact : list name) : Prop :=
  forall n, In n deact -> exists c, find_ctrl m n = Some c /\ c_lc c = Active /\
    (c_chainable c = true -> forall u p, In u (cache_get (cm_stc m) n ++ cache_get (cm_refc m) n) -> find_ctrl m u = Some p ->
       (c_lc p = Inactive -> ~ In u act) /\ (c_lc p = Active -> In u deact)).

Record strict_facts (m m' : cm) (a d R : list name) (p : pend) : Prop := {
  sf_rm : exists r, grow (cm_rm m) r /\ m' = set_pend (set_rm m r) (Some p);
  sf_act : p_act p = a ++ R; sf_deact : p_deact p = d ++ R;
  sf_strict : p_strict p = true; sf_done : p_done p = false;
  sf_restart : forall n, In n R -> ~ In n d /\ exists c, In c (cm_ctrls m) /\ c_name c = n /\ c_lc c = Active;
  sf_known : all_loaded m (a ++ d);
  sf_stop : stops_active m d;
  sf_start : starts_inactive m a d;
  sf_partners : partners_run m m' a d;
  sf_prec : preceding_ok m a d;
  sf_conf : no_conflict m a d;
  sf_free : interfaces_free m a d (d ++ R);
  sf_avail : interfaces_available m m' a d;
  sf_fb : fallbacks_ready m a }.

Lemma preceding_spec m w c n : find_ctrl m n = Some c -> check_preceding m w c = true -> c_chainable c = true ->
  forall u p, In u (cache_get (cm_stc m) n ++ cache_get (cm_refc m) n) -> find_ctrl m u = Some p ->
  (c_lc p = Inactive -> ~ In u (w_act w)) /\ (c_lc p = Active -> In u (w_deact w)).
Proof.
  intros F H Ch u p Hu Hp. unfold check_preceding in H. rewrite Ch in H. cbn [negb] in H.
  rewrite (find_in_name _ _ _ F) in H. rewrite forallb_forall in H. specialize (H u Hu). rewrite Hp in H.
  apply andb_true_iff in H. destruct H as [H1 H2]. apply negb_true_iff in H1, H2.
  unfold is_lc in H1, H2. split; intros L; rewrite L in *; cbn [lc_eqb andb] in *.
  - apply mem_false. exact H1.
  - apply negb_false_iff, mem_In in H2. exact H2.
Qed.

Lemma request_strict e allow m a d asap m' o : NoDup (map c_name (cm_ctrls m)) ->
  switch_request e allow m a d true asap = Val (m', o) ->
  (o = SwError /\ exists r, grow (cm_rm m) r /\ m' = set_rm m r) \/
  (o = SwNothing /\ a = [] /\ d = [] /\ m' = m) \/
  (o = SwPending /\ exists p R, p_asap p = asap /\ strict_facts m m' a d R p).
Proof.
  intros ND H. unfold switch_request in H.
  destruct (list_controllers _ true d [] true) as [d'|] eqn:Ld.
  2:{ injection H as <- <-. left. split; [reflexivity|]. exists (cm_rm m). rewrite set_rm_same. split; [apply grow_refl|reflexivity]. }
  destruct (list_controllers _ true a [] true) as [a'|] eqn:La.
  2:{ injection H as <- <-. left. split; [reflexivity|]. exists (cm_rm m). rewrite set_rm_same. split; [apply grow_refl|reflexivity]. }
  apply list_strict in Ld, La. destruct Ld as [-> Kd], La as [-> Ka]. cbn [app] in H.
  apply bind_val in H. destruct H as (w1 & H1 & H). apply propagate_same in H1. destruct H1 as ([P1 P2 _ _] & P3 & P4).
  cbn [w_act w_deact w_rm w_to] in P1, P2, P3, P4.
  apply bind_val in H. destruct H as (x & H2 & H).
  assert (E0 : a = [] -> x = inl w1) by (intros ->; cbn [act_loop] in H2; congruence).
  apply act_loop_strict in H2. destruct H2 as (S2 & G2 & A2).
  assert (SO : forall n, In n a -> forall w', x = inl w' -> start_ok (cm_ctrls m) w1 (w_rm w') n) by (intros n Hn w' E; eapply A2; eassumption).
  clear A2. rewrite P3 in G2.
  destruct x as [w2|w2]; cbn [either] in *.
  2:{ injection H as <- <-. left. split; [reflexivity|]. eexists. split; [exact G2|reflexivity]. }
  specialize (fun n Hn => SO n Hn w2 eq_refl).
  destruct (deact_loop m true [] (w_deact w2) w2) as [w3|] eqn:H3.
  2:{ injection H as <- <-. left. split; [reflexivity|]. eexists. split; [exact G2|reflexivity]. }
  apply deact_loop_strict in H3. destruct H3 as [-> A3].
  destruct S2 as [Sa Sd _ _]. rewrite P1 in Sa. rewrite P2 in Sd.
  destruct (sw_empty w2) eqn:Em.
  { injection H as <- <-. right. left. split; [reflexivity|]. unfold sw_empty in Em. rewrite Sa, Sd in Em.
    destruct a as [|? ?]; [|discriminate]. destruct d as [|? ?]; [|discriminate].
    split; [reflexivity|]. split; [reflexivity|]. specialize (E0 eq_refl). injection E0 as ->.
    rewrite P3. apply set_rm_same. }
  destruct (conflict_loop true (cm_ctrls m) w2) as [w4|w4] eqn:H4.
  2:{ injection H as <- <-. left. split; [reflexivity|]. exists (w_rm w4). split; [|reflexivity].
      eapply grow_trans; [exact G2|]. clear -H4. revert w2 H4. induction (cm_ctrls m) as [|c cs IH]; intros w H; cbn [conflict_loop] in H; [discriminate|].
      assert (X : grow (w_rm w) (w_rm (either (conflict_one true w c)))).
      { unfold conflict_one. cbv zeta.
        repeat match goal with |- context [if ?b then _ else _] => destruct b end; cbn [either]; try apply grow_refl; apply grow_cache. }
      destruct (conflict_one true w c) as [w1|w1]; cbn [either] in X; [|injection H as <-; exact X].
      eapply grow_trans; [exact X|apply IH; exact H]. }
  apply conflict_strict in H4. destruct H4 as (R & CA & CD & CG & CT & CF & CR & CC).
  rewrite Sa in CA. rewrite Sd in CD, CR, CC.
  assert (Em4 : sw_empty w4 = false).
  { unfold sw_empty in *. rewrite CA, CD. rewrite Sa, Sd in Em. destruct a; [|reflexivity]. destruct d; [discriminate|]. destruct R; reflexivity. }
  rewrite Em4 in H. apply bind_val in H. destruct H as (b & H5 & H).
  pose proof (grow_trans _ _ _ G2 CG) as G4.
  destruct b; cbn [negb] in H.
  2:{ injection H as <- <-. left. split; [reflexivity|]. eexists. split; [exact G4|reflexivity]. }
  pose proof (grow_prepare e allow (w_rm w4) (w_start w4) (w_stop w4)) as GP.
  destruct (rm_prepare e allow (w_rm w4) (w_start w4) (w_stop w4)) as [r5 ok]. cbn [fst] in GP.
  pose proof (grow_trans _ _ _ G4 GP) as G5.
  destruct ok; cbn [negb] in H.
  2:{ injection H as <- <-. left. split; [reflexivity|]. eexists. split; [exact G5|reflexivity]. }
  injection H as <- <-. right. right. split; [reflexivity|].
  unfold check_availability in H5. destruct (future_available (cm_ctrls m) (w_deact w4)) as [fut|] eqn:Fu; [|discriminate].
  pose proof (future_spec _ _ _ _ Fu) as FS. apply avail_loop_spec in H5. destruct H5 as [V1 V2].
  rewrite CA, CD in *.
  assert (NR : forall n, In n a -> ~ In n d -> ~ In n (d ++ R)).
  { intros n Ha Nd C. apply in_app_iff in C. destruct C as [C|C]; [contradiction|].
    destruct (SO n Ha) as (c & Fc & [[L _]|[_ L]] & _); [|rewrite P2 in L; contradiction].
    destruct (CR n C) as (_ & _ & c' & Hc' & N' & L'). subst n. rewrite (NoDup_find _ _ ND Hc') in Fc. congruence. }
  eexists. exists R. split; [|constructor]. 2: { exists r5. split; [exact G5|reflexivity]. } 
  all: cbn [p_act p_deact p_strict p_done p_asap set_pend set_rm cm_rm cm_ctrls].
  - reflexivity.
  - reflexivity.
  - reflexivity.
  - reflexivity.
  - reflexivity.
  - intros n Hn. destruct (CR n Hn) as (A & _ & B). auto.
  - intros n Hn. apply in_app_iff in Hn. destruct Hn as [Hn|Hn]; [destruct (Ka n Hn) as [c Hc]|destruct (Kd n Hn) as [c Hc]];
      exists c; apply find_loaded; exact Hc.
  - intros c Hc Hd. rewrite Sd in A3. destruct (A3 _ Hd) as (c' & F & L & _).
    unfold find_ctrl in F. rewrite (NoDup_find _ _ ND Hc) in F. congruence.
  - intros c Hc Ha. destruct (SO _ Ha) as (c' & F & K & _). rewrite (NoDup_find _ _ ND Hc) in F. injection F as <-.
    rewrite P2 in K. destruct K as [[L _]|K]; [left; exact L|right; exact K].
  - intros c k f Hc Ha L Wk Hf Ow. destruct (SO _ Ha) as (c' & F & K & _). rewrite (NoDup_find _ _ ND Hc) in F. injection F as <-.
    destruct K as [(_ & r & Gr & Gt & K)|[L' _]]; [|congruence]. rewrite P3 in Gr.
    assert (GZ : grow r r5) by (eapply grow_trans; [exact Gt|]; eapply grow_trans; [exact CG|exact GP]).
    assert (Ik : In k (cmd_names r c ++ state_names r c)).
    { apply in_app_iff. destruct Wk as [Wk|Wk]; [left; eapply cmd_mono|right; eapply state_mono]; eassumption. }
    assert (CT' : chained_to (cm_ctrls m) k = Val (Some f)).
    { unfold chained_to. unfold owned_by in Ow. rewrite Ow. f_equal. apply NoDup_find; assumption. }
    destruct (K k Ik f CT') as (Ch & O). rewrite P1, P2 in O. split; [exact Ch|]. destruct O as [[La O]|O]; [left|right; exact O].
    split; [exact La|]. destruct (in_dec string_dec (c_name f) d) as [D|D]; [right|left; exact D].
    destruct O as [O|[[Hk O]|[Hk O]]]; [contradiction| |].
    + right. assert (c_state c = IAll) as E by (destruct (c_state c); try discriminate; reflexivity). split; [exact E|].
      eapply state_mono; [exact GZ|exact Hk].
    + left. assert (c_cmd c = IAll) as E by (destruct (c_cmd c); try discriminate; reflexivity). split; [exact E|].
      eapply cmd_mono; [exact GZ|exact Hk].
  - intros n Hn. rewrite Sd in A3. destruct (A3 n Hn) as (c & F & L & Pr). exists c. split; [exact F|]. split; [exact L|].
    intros Ch u p Hu Hp. rewrite <- Sa, <- Sd. exact (preceding_spec m w2 c n F Pr Ch u p Hu Hp).
  - intros c1 c2 k H1 H2 Ne A1 A2 D1 D2 W1 W2.
    apply (V2 (c_name c1) (c_name c2) c1 c2 k); try assumption.
    + apply in_app_iff; auto.
    + apply in_app_iff; auto.
    + apply NR; assumption.
    + apply NR; assumption.
    + apply NoDup_find; assumption.
    + apply NoDup_find; assumption.
    + eapply cmd_mono; [exact G4|exact W1].
    + eapply cmd_mono; [exact G4|exact W2].
  - intros c k Hc Ha Nd W Cl. destruct (V1 (c_name c)) as (c' & F & K & _); [apply in_app_iff; auto|apply NR; assumption|].
    rewrite (NoDup_find _ _ ND Hc) in F. injection F as <-.
    destruct (K k) as (_ & K2 & _); [eapply cmd_mono; [exact G4|exact W]|]. rewrite (g_cl _ _ G4) in K2. specialize (K2 Cl).
    destruct (FS k K2) as [[]|(n & x & Hn & Fx & Gx)]. destruct (find_loaded m n x Fx) as [Ix <-].
    exists x. auto.
  - intros c k Hc Ha Nd. destruct (V1 (c_name c)) as (c' & F & K & K'); [apply in_app_iff; auto|apply NR; assumption|].
    rewrite (NoDup_find _ _ ND Hc) in F. injection F as <-. split; intros W.
    + apply (g_avc _ _ GP). apply K. eapply cmd_mono; [exact G4|exact W].
    + apply (g_avs _ _ GP). apply K'. eapply state_mono; [exact G4|exact W].
  - intros c f Hc Ha Hf. destruct (SO _ Ha) as (c' & F & _ & K). rewrite (NoDup_find _ _ ND Hc) in F. injection F as <-.
    destruct (K f Hf) as (x & Fx & Lx). destruct (find_loaded m f x Fx) as [Ix Nx]. exists x. auto.
Qed.
