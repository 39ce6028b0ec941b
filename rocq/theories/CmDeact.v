(** CmDeact.v -- effect of deactivate_controllers; updates recorded in the trace. *)
From Coq Require Import Lia.
From Verif Require Import Base Events HwModel RmModel RmProofs RmInv ChainModel CmModel CmPrim ChainSpec CmTopo CmInv CmSpec CmReach CmSwitch CmOutcome CmLoad CmIntact UpdateSpec.

Lemma deactivate_one_off e m n : deactivates e n -> state_in (deactivate_one e m n) n <> Some Active.
Proof.
  intros D. unfold deactivate_one. destruct (find_ctrl m n) as [c|] eqn:F; [|unfold state_in; rewrite F; discriminate].
  destruct (is_lc Active c) eqn:L; [|unfold state_in; rewrite F; cbn [option_map]; intros [= C]; unfold is_lc in L; rewrite C in L; discriminate].
  unfold is_lc in L. apply lc_eqb_eq in L.
  destruct (deactivate_node e false any_kind m n c F L) as (l & m1 & _ & F1 & _ & Hl & E). cbv zeta. rewrite E.
  set (m2 := upd _ n (set_stop l)).
  assert (S2 : state_in m2 n <> Some Active).
  { unfold state_in, m2. rewrite (find_after_stop _ n c) by exact F1. cbn [option_map]. intros [= C]. cbn in C.
    destruct (Hl C) as (t & X). exact (D t X). }
  destruct (c_chainable c); [|exact S2].
  assert (S3 : state_in (set_chained e m2 n false) n <> Some Active) by (rewrite state_chained; exact S2).
  destruct (make_exps_unavailable _ n) as [r3|]; [|exact S3]. destruct (make_refs_unavailable r3 n); exact S3.
Qed.
Lemma deactivate_off e n : deactivates e n -> forall ns m, In n ns \/ state_in m n <> Some Active ->
  state_in (deactivate_controllers e m ns) n <> Some Active.
Proof.
  intros D. unfold deactivate_controllers. induction ns as [|x ns IH]; intros m H; cbn [fold_left].
  { destruct H as [[]|H]. exact H. }
  apply IH. destruct (string_dec x n) as [->|Ne]; [right; apply deactivate_one_off; exact D|].
  destruct H as [[H|H]|H]; [congruence|left; exact H|]. right.
  rewrite (sf_deactivate_one e [x] m x (or_introl eq_refl) n); [exact H|]. intros [C|[]]. congruence.
Qed.

(** ---------------------------------------------------------------- update events *)
Definition is_upd (ev : event) : bool := match ev with EvUpdate _ _ => true | _ => false end.
Definition tframe (t t' : trace) : Prop := exists x, t' = x ++ t /\ forallb (fun ev => negb (is_upd ev)) x = true.
Lemma tf_refl t : tframe t t. Proof. exists []. auto. Qed.
Lemma tf_trans a b c : tframe a b -> tframe b c -> tframe a c.
Proof. intros (x & -> & X) (y & -> & Y). exists (y ++ x). rewrite app_assoc, forallb_app, X, Y. auto. Qed.
Lemma tf_cons t ev : is_upd ev = false -> tframe t (ev :: t).
Proof. intros H. exists [ev]. cbn. rewrite H. auto. Qed.
Definition mtf (m m' : cm) : Prop := tframe (rm_trace (cm_rm m)) (rm_trace (cm_rm m')).
Lemma mtf_refl m : mtf m m. Proof. apply tf_refl. Qed.
Lemma mtf_trans a b c : mtf a b -> mtf b c -> mtf a c. Proof. apply tf_trans. Qed.
Lemma mtf_emit m ev : is_upd ev = false -> mtf m (emit m ev). Proof. apply tf_cons. Qed.
Lemma mtf_same m m' : rm_trace (cm_rm m') = rm_trace (cm_rm m) -> mtf m m'.
Proof. intros H. unfold mtf. rewrite H. apply tf_refl. Qed.
Lemma mtf_release m n : mtf m (release_itfs m n).
Proof. unfold release_itfs. destruct (find_ctrl m n); [|apply mtf_refl]. apply mtf_same. cbn. apply release_keeps_trace. Qed.
Lemma mtf_error e m n : mtf m (node_error e m n).
Proof.
  unfold node_error. eapply mtf_trans; [apply (mtf_emit m (EvCtrlErr n (e_ctrl_error e (rm_trace (cm_rm m)) n))); reflexivity|].
  eapply mtf_trans; [apply mtf_release|]. apply mtf_same. reflexivity.
Qed.
Lemma mtf_transition e m n cb from s f : mtf m (node_transition e m n cb from s f).
Proof.
  unfold node_transition. destruct (find_ctrl m n); [|apply mtf_refl]. destruct (from _); [|apply mtf_refl]. unfold ctrl_call.
  set (r := e_ctrl e _ n cb). assert (X : mtf m (emit m (EvCtrlCb n cb r))) by (apply mtf_emit; reflexivity).
  destruct r; (eapply mtf_trans; [exact X|]); try (apply mtf_same; reflexivity); apply mtf_error.
Qed.
Lemma mtf_chained e m n b : mtf m (set_chained e m n b).
Proof.
  unfold set_chained. destruct (find_ctrl m n); [|apply mtf_refl]. destruct (_ && _); [|apply mtf_refl]. cbv zeta.
  set (ok := e_set_chained e _ n b). assert (X : mtf m (emit m (EvChained n b ok))) by (apply mtf_emit; reflexivity).
  destruct ok; exact X.
Qed.
Lemma av_trace r n r' : make_exps_unavailable r n = Some r' \/ make_refs_unavailable r n = Some r' \/ make_exps_available r n = Some r' \/
  make_refs_available r n = Some r' -> rm_trace r' = rm_trace r.
Proof.
  unfold make_exps_unavailable, make_refs_unavailable, make_exps_available, make_refs_available.
  intros [H|[H|[H|H]]]; (destruct (aget _ _); [|discriminate]); injection H as <-; reflexivity.
Qed.
Lemma mtf_deactivate_one e m n : mtf m (deactivate_one e m n).
Proof.
  unfold deactivate_one. destruct (find_ctrl m n) as [c|]; [|apply mtf_refl]. destruct (is_lc Active c); [|apply mtf_refl]. cbv zeta.
  assert (S1 : mtf m (release_itfs (node_deactivate e m n) n)) by (eapply mtf_trans; [apply mtf_transition|apply mtf_release]).
  destruct (c_chainable c); [|exact S1]. eapply mtf_trans; [exact S1|]. eapply mtf_trans; [apply (mtf_chained e _ n false)|].
  set (m2 := set_chained e _ n false). destruct (make_exps_unavailable (cm_rm m2) n) as [r3|] eqn:E3; [|apply mtf_refl].
  pose proof (av_trace _ _ _ (or_introl E3)) as T3.
  destruct (make_refs_unavailable r3 n) as [r4|] eqn:E4; apply mtf_same; cbn [set_rm cm_rm]; [|exact T3].
  rewrite (av_trace _ _ _ (or_intror (or_introl E4))). exact T3.
Qed.
Lemma mtf_deactivate e ns : forall m, mtf m (deactivate_controllers e m ns).
Proof.
  unfold deactivate_controllers. induction ns as [|x ns IH]; intros m; [apply mtf_refl|]. cbn [fold_left].
  eapply mtf_trans; [apply mtf_deactivate_one|apply IH].
Qed.
Lemma mtf_exports m n m' : exports_available m n = Val m' \/ exports_unavailable m n = Val m' -> mtf m m'.
Proof.
  unfold exports_available, exports_unavailable.
  intros [H|H]; apply bind_val in H; destruct H as (r1 & H1 & H); apply bind_val in H; destruct H as (r2 & H2 & H);
    apply of_option_val in H1, H2; injection H as <-; apply mtf_same; cbn [set_rm cm_rm];
    rewrite (av_trace r1 n r2) by auto; apply (av_trace _ n); auto.
Qed.
Lemma mtf_activate_one e st n st' : activate_one e st n = Val st' -> mtf (fst (fst st)) (fst (fst st')).
Proof.
  destruct st as [[m ok] failed]. cbn [fst]. unfold activate_one.
  destruct (find_ctrl m n) as [c|] eqn:F; [|intros [= <-]; apply mtf_refl].
  intros H. apply bind_val in H. destruct H as ([r1 loans] & Hc & H). apply claim_all_keeps_trace in Hc.
  destruct loans as [cl|]; [|injection H as <-; apply mtf_same; exact Hc].
  destruct (forallb _ _); [|injection H as <-; apply mtf_same; cbn; rewrite release_keeps_trace; exact Hc].
  set (m1 := upd (set_rm m _) n _) in H.
  assert (S1 : mtf m m1) by (apply mtf_same; cbn; rewrite release_keeps_trace; exact Hc).
  assert (S2 : mtf m (node_activate e m1 n)) by (eapply mtf_trans; [exact S1|apply mtf_transition]).
  set (m2 := node_activate e m1 n) in *. destruct (find_ctrl m2 n) as [c2|]; [|injection H as <-; exact S2].
  destruct (is_lc Active c2).
  - destruct (c_chainable c); [|injection H as <-; exact S2]. apply bind_val in H. destruct H as (m3 & H3 & H). injection H as <-.
    eapply mtf_trans; [exact S2|eapply mtf_exports; left; exact H3].
  - assert (S3 : mtf m (release_itfs m2 n)) by (eapply mtf_trans; [exact S2|apply mtf_release]).
    destruct (c_chainable c); [|injection H as <-; exact S3]. apply bind_val in H. destruct H as (m3 & H3 & H). injection H as <-.
    eapply mtf_trans; [exact S3|eapply mtf_exports; right; exact H3].
Qed.
Lemma tf_mode e op allow start stop hs : forall r b, tframe (rm_trace r) (rm_trace (fst (mode_loop e op allow start stop hs r b))).
Proof.
  induction hs as [|h hs IH]; intros r b; cbn [mode_loop]; [apply tf_refl|].
  assert (X : forall s p, tframe (rm_trace r) (rm_trace (fst (if negb (match common_itfs (h_cmd h) start with [] => true | _ => false end) && lc_eqb (h_lc h) Inactive && negb allow
        then (r, false)
        else
          match h_lc h with
          | Inactive | Active =>
              let '(res, t') := mode_call e op (rm_trace r) (h_name h) s p in
              mode_loop e op allow start stop hs (with_trace r t')
                        (match res with Ret ROk => b | _ => false end)
          | _ => mode_loop e op allow start stop hs r false
          end)))).
  { intros s p. destruct (_ && negb allow); [apply tf_refl|].
    destruct (h_lc h); try apply IH;
    (destruct (mode_call _ _ _ _ _ _) as [res t'] eqn:M; eapply tf_trans; [|apply IH]; cbn [with_trace rm_trace];
     unfold mode_call in M; destruct op; injection M as <- <-; apply tf_cons; reflexivity). }
  destruct (common_itfs (h_cmd h) start) as [|a s] eqn:E1; destruct (common_itfs (h_cmd h) stop) as [|d p] eqn:E2;
    [apply IH|apply X|apply X|apply X].
Qed.
Lemma tf_prepare e allow r a d : tframe (rm_trace r) (rm_trace (fst (rm_prepare e allow r a d))).
Proof.
  unfold rm_prepare. destruct (both_empty a d); [apply tf_refl|]. destruct (negb _); [apply tf_refl|]. destruct (negb _); [apply tf_refl|].
  pose proof (tf_mode e MPrepare allow a d (filter is_actuator (rm_hw r)) r true) as X.
  destruct (mode_loop _ _ _ _ _ (filter is_actuator _) _ _) as [r1 b1]. cbn [fst] in X.
  pose proof (tf_mode e MPrepare allow a d (filter is_system (rm_hw r)) r1 true) as Y.
  destruct (mode_loop _ _ _ _ _ (filter is_system _) _ _) as [r2 b2]. cbn [fst] in *. eapply tf_trans; eassumption.
Qed.
Lemma tf_perform e allow r a d : tframe (rm_trace r) (rm_trace (fst (rm_perform e allow r a d))).
Proof.
  unfold rm_perform. destruct (both_empty a d); [apply tf_refl|].
  pose proof (tf_mode e MPerform allow a d (filter is_actuator (rm_hw r)) r true) as X.
  destruct (mode_loop _ _ _ _ _ (filter is_actuator _) _ _) as [r1 b1]. cbn [fst] in X.
  pose proof (tf_mode e MPerform allow a d (filter is_system (rm_hw r)) r1 true) as Y.
  destruct (mode_loop _ _ _ _ _ (filter is_system _) _ _) as [r2 b2]. cbn [fst] in *. eapply tf_trans; eassumption.
Qed.
Lemma mtf_prep_perf e allow m a d : mtf m (prep_perf e allow m a d).
Proof.
  unfold prep_perf. pose proof (tf_prepare e allow (cm_rm m) a d) as X. destruct (rm_prepare e allow (cm_rm m) a d) as [r1 ok]. cbn [fst] in X.
  unfold mtf. cbn [set_rm cm_rm]. destruct ok; [|exact X]. eapply tf_trans; [exact X|apply tf_perform].
Qed.
Lemma rfold_mtf {A B} (f : A -> B -> res A) (p : A -> cm) : (forall a b a', f a b = Val a' -> mtf (p a) (p a')) ->
  forall l a a', rfold f l a = Val a' -> mtf (p a) (p a').
Proof.
  intros H. induction l as [|b l IH]; intros a a' E; cbn [rfold] in E; [injection E as <-; apply mtf_refl|].
  apply bind_val in E. destruct E as (a1 & E1 & E2). eapply mtf_trans; [eapply H; exact E1|apply IH; exact E2].
Qed.
Lemma mtf_activate e allow m ns strict start m' : activate_controllers e allow m ns strict start = Val m' -> mtf m m'.
Proof.
  unfold activate_controllers. intros H. apply bind_val in H. destruct H as (m1 & H1 & H).
  apply (rfold_mtf preactivate (fun m => m)) in H1.
  2:{ intros a b a'. unfold preactivate. destruct (find_ctrl a b) as [c|]; [|intros [= <-]; apply mtf_refl].
      destruct (c_chainable c); [|intros [= <-]; apply mtf_refl]. intros X. eapply mtf_exports. left. exact X. }
  apply bind_val in H. destruct H as ([[m2 ok] failed] & H2 & H).
  apply (rfold_mtf (activate_one e) (fun s => fst (fst s))) in H2; [|intros a b a'; apply mtf_activate_one]. cbn [fst] in H2.
  pose proof (mtf_trans _ _ _ H1 H2) as S. destruct (negb ok && strict).
  - injection H as <-. eapply mtf_trans; [exact S|]. eapply mtf_trans; [apply mtf_deactivate|apply mtf_prep_perf].
  - destruct (negb _); injection H as <-; [eapply mtf_trans; [exact S|apply mtf_prep_perf]|exact S].
Qed.
