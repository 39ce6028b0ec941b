(** RmAvail.v -- availability of hardware interfaces (C05). *)
From Verif Require Import Base Events HwModel RmModel RmSys RmSpec HwProofs RmProofs RmInv.

Definition nd (r : rm) : Prop := NoDup (rm_avs r) /\ NoDup (rm_avc r).

Definition av_same (r r' : rm) : Prop := rm_avs r' = rm_avs r /\ rm_avc r' = rm_avc r.

Record avok (Q : Prop) (n : name) (r r' : rm) : Prop := {
  ao_none : find_hw r n = None -> av_same r r';
  ao_nd : nd r -> nd r';
  ao_other : forall h, find_hw r n = Some h -> nd r -> forall k,
     (~ In k (h_cmd h) -> (In k (rm_avc r') <-> In k (rm_avc r))) /\
     (~ In k (h_state h) -> (In k (rm_avs r') <-> In k (rm_avs r)));
  ao_fwd : forall h h', find_hw r n = Some h -> find_hw r' n = Some h' -> nd r ->
     (configured (h_lc h) -> all_available r h) -> configured (h_lc h') -> all_available r' h';
  ao_bwd : Q -> forall h h', find_hw r n = Some h -> find_hw r' n = Some h' -> nd r ->
     (~ configured (h_lc h) -> none_available r h) -> ~ configured (h_lc h') -> none_available r' h'
}.

Lemma avok_trans (Q : Prop) n a b c : only n a b -> avok Q n a b -> avok Q n b c -> avok Q n a c.
Proof.
  intros O A B. constructor.
  - intros H. destruct (ao_none _ _ _ _ A H) as [A1 A2].
    assert (Hb : find_hw b n = None).
    { destruct (find_hw b n) as [hb|] eqn:E; [|reflexivity].
      destruct (evolve_find_back _ _ _ _ (on_ev _ _ _ O) E) as (h & Hh & _). congruence. }
    destruct (ao_none _ _ _ _ B Hb) as [B1 B2]. split; congruence.
  - intros H. apply B, A. exact H.
  - intros h Hf Hnd k. destruct (evolve_find _ _ _ _ (on_ev _ _ _ O) Hf) as (h1 & Hf1 & S).
    destruct S as (_ & _ & _ & _ & S5 & S6).
    destruct (ao_other _ _ _ _ A h Hf Hnd k) as [A1 A2].
    destruct (ao_other _ _ _ _ B h1 Hf1 (ao_nd _ _ _ _ A Hnd) k) as [B1 B2].
    rewrite S6 in B1. rewrite S5 in B2. split; intros H; [rewrite B1, A1|rewrite B2, A2]; tauto.
  - intros h h' Hf Hf' Hnd Hc. destruct (evolve_find _ _ _ _ (on_ev _ _ _ O) Hf) as (h1 & Hf1 & S).
    apply (ao_fwd _ _ _ _ B h1 h' Hf1 Hf' (ao_nd _ _ _ _ A Hnd)).
    apply (ao_fwd _ _ _ _ A h h1 Hf Hf1 Hnd Hc).
  - intros HQ h h' Hf Hf' Hnd Hc. destruct (evolve_find _ _ _ _ (on_ev _ _ _ O) Hf) as (h1 & Hf1 & S).
    apply (ao_bwd _ _ _ _ B HQ h1 h' Hf1 Hf' (ao_nd _ _ _ _ A Hnd)).
    apply (ao_bwd _ _ _ _ A HQ h h1 Hf Hf1 Hnd Hc).
Qed.

(** same availability, same configured-ness in the relevant direction *)
Lemma avok_same (Q : Prop) n r r' :
  evolve r r' ->
  av_same r r' ->
  (forall h h', find_hw r n = Some h -> find_hw r' n = Some h' -> configured (h_lc h') -> configured (h_lc h)) ->
  (Q -> forall h h', find_hw r n = Some h -> find_hw r' n = Some h' -> configured (h_lc h) -> configured (h_lc h')) ->
  avok Q n r r'.
Proof.
  intros Ev [E1 E2] H1 H2. constructor; unfold nd, all_available, none_available; rewrite ?E1, ?E2; try tauto.
  - intros _. split; assumption.
  - intros h h' Hf Hf' _ Hc Hc'. specialize (H1 h h' Hf Hf' Hc').
    destruct (evolve_find _ _ _ _ Ev Hf) as (h2 & Hf2 & S). rewrite Hf' in Hf2. inversion Hf2; subst h2.
    destruct S as (_ & _ & _ & _ & S5 & S6). rewrite ?E1, ?E2, S5, S6. apply Hc. exact H1.
  - intros HQ h h' Hf Hf' _ Hc Hc'.
    destruct (evolve_find _ _ _ _ Ev Hf) as (h2 & Hf2 & S). rewrite Hf' in Hf2. inversion Hf2; subst h2.
    destruct S as (_ & _ & _ & _ & S5 & S6). rewrite ?E1, ?E2, S5, S6. apply Hc.
    intros C. apply Hc'. eapply H2; eassumption.
Qed.

Lemma avok_refl (Q : Prop) n r : avok Q n r r.
Proof. apply avok_same; [apply evolve_refl | split; reflexivity | |]; intros; congruence. Qed.

(** all keys of h added: component ends configured *)
Lemma avok_add (Q : Prop) n r r' h :
  find_hw r n = Some h -> evolve r r' ->
  rm_avs r' = add_items (rm_avs r) (h_state h) -> rm_avc r' = add_items (rm_avc r) (h_cmd h) ->
  lc_of r' n = Some Inactive -> avok Q n r r'.
Proof.
  intros Hf Ev E1 E2 Hl. constructor.
  - congruence.
  - intros [A B]. unfold nd. rewrite E1, E2. split; apply NoDup_add_items; assumption.
  - intros h0 Hf0 _ k. rewrite Hf in Hf0. inversion Hf0; subst h0. rewrite E1, E2, !In_add_items. tauto.
  - intros h0 h' Hf0 Hf' _ _ _. rewrite Hf in Hf0. inversion Hf0; subst h0.
    destruct (evolve_find _ _ _ _ Ev Hf) as (h2 & Hf2 & S). rewrite Hf' in Hf2. inversion Hf2; subst h2.
    destruct S as (_ & _ & _ & _ & S5 & S6). unfold all_available.
    rewrite E1, E2, S5, S6. split; intros k Hk; apply In_add_items; right; exact Hk.
  - intros _ h0 h' _ Hf' _ _ Hc. exfalso. apply Hc. unfold lc_of in Hl. rewrite Hf' in Hl.
    simpl in Hl. left. congruence.
Qed.

(** all keys of h removed: component ends not configured *)
Lemma avok_remove (Q : Prop) n r r' h :
  find_hw r n = Some h -> evolve r r' ->
  rm_avs r' = remove_items (rm_avs r) (h_state h) -> rm_avc r' = remove_items (rm_avc r) (h_cmd h) ->
  (forall h', find_hw r' n = Some h' -> ~ configured (h_lc h')) -> avok Q n r r'.
Proof.
  intros Hf Ev E1 E2 Hl. constructor.
  - congruence.
  - intros [A B]. unfold nd. rewrite E1, E2. split; apply remove_items_spec; assumption.
  - intros h0 Hf0 [A B] k. rewrite Hf in Hf0. inversion Hf0; subst h0. rewrite E1, E2.
    split; intros H; [rewrite (proj2 (remove_items_spec _ _ B))|rewrite (proj2 (remove_items_spec _ _ A))]; tauto.
  - intros h0 h' _ Hf' _ _ Hc. exfalso. exact (Hl h' Hf' Hc).
  - intros _ h0 h' Hf0 Hf' [A B] _ _. rewrite Hf in Hf0. inversion Hf0; subst h0.
    destruct (evolve_find _ _ _ _ Ev Hf) as (h2 & Hf2 & S). rewrite Hf' in Hf2. inversion Hf2; subst h2.
    destruct S as (_ & _ & _ & _ & S5 & S6). unfold none_available.
    rewrite E1, E2, S5, S6. split; intros k Hk C; apply remove_items_spec in C; tauto.
Qed.

Lemma av_set_group r g v : av_same r (set_group r g v).
Proof. unfold set_group. destruct (String.eqb g ""); split; reflexivity. Qed.

Lemma hw_of_rt e f target r h : rm_avs (fst (run_transition e f target r h)) = rm_avs r /\
  rm_avc (fst (run_transition e f target r h)) = rm_avc r.
Proof. unfold run_transition. destruct (f e h (rm_trace r)) as [[h' t'] b]. split; reflexivity. Qed.

Lemma not_conf l : l <> Inactive -> l <> Active -> ~ configured l.
Proof. unfold configured. tauto. Qed.

Ltac sg_rewrite :=
  repeat match goal with
  | |- context [rm_avs (set_group ?r ?g ?v)] => rewrite (proj1 (av_set_group r g v))
  | |- context [rm_avc (set_group ?r ?g ?v)] => rewrite (proj2 (av_set_group r g v))
  end.

Lemma configure_avok e r h n : names_ok r -> find_hw r n = Some h -> h_lc h = Unconfigured ->
  avok (no_transition_errors e) n r (fst (configure_hardware e r h)).
Proof.
  intros Hn Hf Hl. destruct (configure_hardware_ok e r h n Hn Hf) as [[Ev _ _] Hok].
  unfold configure_hardware in *.
  pose proof (hw_of_rt e hw_configure Inactive r h) as [V1 V2].
  pose proof (run_transition_only e hw_configure Inactive r h n conf_configure Hn Hf) as (R1 & R2 & R3).
  destruct (run_transition e hw_configure Inactive r h) as [r1 ok] eqn:E. simpl in *.
  destruct ok.
  - eapply avok_add; [exact Hf | exact Ev | | | apply Hok; reflexivity]; sg_rewrite; simpl; congruence.
  - apply avok_same; [exact Ev | split; sg_rewrite; assumption | |].
    + intros h0 h' Hf0 Hf' Hc. exfalso. rewrite find_set_group in Hf'. rewrite R2 in Hf'. inversion Hf' as [Hh].
      rewrite <- Hh in Hc. unfold hw_configure, call, then_error, hw_error in Hc, R3. rewrite Hl in Hc, R3.
      destruct (e_hw e (rm_trace r) (h_name h) HConfigure); simpl in *; rewrite ?Hl in *; simpl in *;
        try discriminate; destruct Hc; congruence.
    + intros _ h0 h' Hf0 _ Hc. rewrite Hf in Hf0. inversion Hf0; subst. rewrite Hl in Hc. destruct Hc; discriminate.
Qed.

Lemma cleanup_avok e r h n : names_ok r -> find_hw r n = Some h -> h_lc h = Inactive ->
  avok (no_transition_errors e) n r (fst (cleanup_hardware e r h)).
Proof.
  intros Hn Hf Hl. destruct (cleanup_hardware_ok e r h n Hn Hf) as [[Ev _ _] Hok].
  unfold cleanup_hardware in *.
  pose proof (hw_of_rt e hw_cleanup Unconfigured r h) as [V1 V2].
  pose proof (run_transition_only e hw_cleanup Unconfigured r h n conf_cleanup Hn Hf) as (R1 & R2 & R3).
  destruct (run_transition e hw_cleanup Unconfigured r h) as [r1 ok] eqn:E. simpl in *.
  destruct ok.
  - eapply avok_remove; [exact Hf | exact Ev | | |]; sg_rewrite; simpl; try congruence.
    intros h' Hf'. specialize (Hok eq_refl). unfold lc_of in Hok. rewrite Hf' in Hok. simpl in Hok.
    inversion Hok as [Hk]. rewrite Hk. apply not_conf; discriminate.
  - apply avok_same; [exact Ev | split; sg_rewrite; assumption | |].
    + intros h0 h' Hf0 _ _. rewrite Hf in Hf0. inversion Hf0; subst. rewrite Hl. left; reflexivity.
    + intros Q h0 h' Hf0 Hf' _. rewrite find_set_group in Hf'. rewrite R2 in Hf'. inversion Hf' as [Hh].
      destruct (Q (rm_trace r) (h_name h)) as (_ & _ & Qc & _).
      unfold hw_cleanup, call in *. rewrite Hl in *.
      destruct (e_hw e (rm_trace r) (h_name h) HCleanup); simpl in *; try (destruct Qc; discriminate).
      rewrite Hl. left. reflexivity.
Qed.

Lemma shutdown_avok e r h n : names_ok r -> find_hw r n = Some h ->
  avok (no_transition_errors e) n r (fst (shutdown_hardware e r h)).
Proof.
  intros Hn Hf. destruct (shutdown_hardware_ok e r h n Hn Hf) as [[Ev _ _] Hok].
  unfold shutdown_hardware in *.
  pose proof (hw_of_rt e hw_shutdown Finalized r h) as [V1 V2].
  pose proof (run_transition_only e hw_shutdown Finalized r h n conf_shutdown Hn Hf) as (R1 & R2 & R3).
  destruct (run_transition e hw_shutdown Finalized r h) as [r1 ok] eqn:E. simpl in *.
  destruct ok.
  - eapply avok_remove; [exact Hf | exact Ev | | |]; sg_rewrite; simpl; try congruence.
    intros h' Hf'. specialize (Hok eq_refl). unfold lc_of in Hok. rewrite Hf' in Hok. simpl in Hok.
    inversion Hok as [Hk]. rewrite Hk. apply not_conf; discriminate.
  - apply avok_same; [exact Ev | split; assumption | |].
    + intros h0 h' Hf0 Hf' Hc. rewrite Hf in Hf0. inversion Hf0; subst h0.
      rewrite R2 in Hf'. inversion Hf' as [Hh]. rewrite <- Hh in Hc. clear - Hc.
      unfold hw_shutdown, call, then_error, hw_error in Hc.
      destruct (h_lc h) eqn:El; try (left; reflexivity); try (right; reflexivity); simpl in Hc;
        try (rewrite El in Hc; exact Hc).
      destruct (e_hw e (rm_trace r) (h_name h) HShutdown); simpl in Hc; rewrite ?El in Hc; simpl in Hc;
        destruct Hc; congruence.
    + intros Q h0 h' Hf0 Hf' Hc. rewrite Hf in Hf0. inversion Hf0; subst h0.
      rewrite R2 in Hf'. inversion Hf' as [Hh].
      destruct (Q (rm_trace r) (h_name h)) as (_ & _ & _ & Qc).
      unfold hw_shutdown, call in *.
      destruct (h_lc h) eqn:El; try (simpl; rewrite El; exact Hc);
        (destruct (e_hw e (rm_trace r) (h_name h) HShutdown); simpl in *; try (destruct Qc; discriminate);
         try discriminate; rewrite ?El in *; try assumption).
Qed.

Lemma activate_avok e r h n : names_ok r -> find_hw r n = Some h -> h_lc h = Inactive ->
  avok (no_transition_errors e) n r (fst (activate_hardware e r h)).
Proof.
  intros Hn Hf Hl. destruct (activate_hardware_ok e r h n Hn Hf) as [[Ev _ _] _].
  unfold activate_hardware in *.
  pose proof (hw_of_rt e hw_activate Active r h) as [V1 V2].
  pose proof (run_transition_only e hw_activate Active r h n conf_activate Hn Hf) as (R1 & R2 & R3).
  destruct (run_transition e hw_activate Active r h) as [r1 ok] eqn:E. simpl in *.
  apply avok_same; [exact Ev | split; assumption | |].
  - intros h0 h' Hf0 _ _. rewrite Hf in Hf0. inversion Hf0; subst. rewrite Hl. left; reflexivity.
  - intros Q h0 h' Hf0 Hf' _. rewrite R2 in Hf'. inversion Hf' as [Hh].
    destruct (Q (rm_trace r) (h_name h)) as (Qc & _).
    unfold hw_activate, call in *. rewrite Hl in *.
    destruct (e_hw e (rm_trace r) (h_name h) HActivate); simpl; try congruence;
      [right; reflexivity | left; reflexivity | left; exact Hl].
Qed.

Lemma deactivate_avok e r h n : names_ok r -> find_hw r n = Some h -> h_lc h = Active ->
  avok (no_transition_errors e) n r (fst (deactivate_hardware e r h)).
Proof.
  intros Hn Hf Hl. destruct (deactivate_hardware_ok e r h n Hn Hf) as [[Ev _ _] _].
  unfold deactivate_hardware in *.
  pose proof (hw_of_rt e hw_deactivate Inactive r h) as [V1 V2].
  pose proof (run_transition_only e hw_deactivate Inactive r h n conf_deactivate Hn Hf) as (R1 & R2 & R3).
  destruct (run_transition e hw_deactivate Inactive r h) as [r1 ok] eqn:E. simpl in *.
  apply avok_same; [exact Ev | split; assumption | |].
  - intros h0 h' Hf0 _ _. rewrite Hf in Hf0. inversion Hf0; subst. rewrite Hl. right; reflexivity.
  - intros Q h0 h' Hf0 Hf' _. rewrite R2 in Hf'. inversion Hf' as [Hh].
    destruct (Q (rm_trace r) (h_name h)) as (_ & Qc & _).
    unfold hw_deactivate, call in *. rewrite Hl in *.
    destruct (e_hw e (rm_trace r) (h_name h) HDeactivate); simpl; try congruence;
      [left; reflexivity | right; reflexivity | right; exact Hl].
Qed.

Lemma then_avok (Q : Prop) n r x f mid : names_ok r ->
  hwop_ok n mid r x -> avok Q n r (fst x) ->
  (forall r' h', names_ok r' -> find_hw r' n = Some h' -> h_lc h' = mid -> avok Q n r' (fst (f r' h'))) ->
  avok Q n r (fst (then_hw x n f)).
Proof.
  intros Hn [O Hm] A Hf. destruct x as [r1 ok]. simpl in *. unfold then_hw.
  destruct ok; [|exact A]. destruct (find_hw r1 n) as [h1|] eqn:E; [|exact A].
  eapply avok_trans; [exact O | exact A|]. apply Hf.
  - eapply names_ok_evolve; [apply O|exact Hn].
  - exact E.
  - specialize (Hm eq_refl). unfold lc_of in Hm. rewrite E in Hm. simpl in Hm. congruence.
Qed.

Lemma set_state_avok e r n target : names_ok r ->
  avok (no_transition_errors e) n r (fst (set_component_state e r n target)).
Proof.
  intros Hn. unfold set_component_state. destruct (find_hw r n) as [h|] eqn:Hf; [|apply avok_refl].
  pose proof (find_hw_name _ _ _ Hf) as Hname. unfold set_state_of. rewrite Hname.
  destruct target, (h_lc h) eqn:E; try apply avok_refl.
  - apply cleanup_avok; assumption.
  - eapply then_avok; [exact Hn | apply deactivate_hardware_ok; eassumption
      | apply deactivate_avok; assumption |]. intros. apply cleanup_avok; assumption.
  - apply configure_avok; assumption.
  - apply deactivate_avok; assumption.
  - eapply then_avok; [exact Hn | apply configure_hardware_ok; eassumption
      | apply configure_avok; assumption |]. intros. apply activate_avok; assumption.
  - apply activate_avok; assumption.
  - apply shutdown_avok; assumption.
  - apply shutdown_avok; assumption.
  - eapply then_avok; [exact Hn | apply deactivate_hardware_ok; eassumption
      | apply deactivate_avok; assumption |]. intros. apply shutdown_avok; assumption.
Qed.

(** after component.error() the component is not configured *)
Lemma rm_error_not_conf e r n h' : names_ok r -> find_hw (rm_error e r n) n = Some h' ->
  ~ configured (h_lc h').
Proof.
  intros Hn. unfold rm_error. destruct (find_hw r n) as [h|] eqn:E; [|congruence].
  pose proof (ok_hw_error Unconfigured e h (rm_trace r)) as H.
  unfold hw_error in *. destruct (h_lc h) eqn:El; intros Hf.
  - change (find_hw (put_hw r h) n = Some h') in Hf. erewrite find_put_same in Hf;
      [inversion Hf; subst; rewrite El; apply not_conf; discriminate | exact E | eapply find_hw_name; exact E].
  - change (find_hw (put_hw r h) n = Some h') in Hf. erewrite find_put_same in Hf;
      [inversion Hf; subst; rewrite El; apply not_conf; discriminate | exact E | eapply find_hw_name; exact E].
  - destruct (only_step _ _ _ _ _ Hn E H) as [_ K]. rewrite K in Hf. inversion Hf; subst. simpl.
    destruct (e_hw_error _ _ _); apply not_conf; discriminate.
  - destruct (only_step _ _ _ _ _ Hn E H) as [_ K]. rewrite K in Hf. inversion Hf; subst. simpl.
    destruct (e_hw_error _ _ _); apply not_conf; discriminate.
  - destruct (only_step _ _ _ _ _ Hn E H) as [_ K]. rewrite K in Hf. inversion Hf; subst. simpl.
    destruct (e_hw_error _ _ _); apply not_conf; discriminate.
Qed.

Lemma av_update_group r g v : av_same r (fst (update_group r g v)).
Proof. unfold update_group. destruct (String.eqb g ""); split; reflexivity. Qed.
Lemma find_update_group r g v n : find_hw (fst (update_group r g v)) n = find_hw r n.
Proof. unfold update_group. destruct (String.eqb g ""); reflexivity. Qed.

Lemma update_group_ok r g v : snd (update_group r g v) = ROk -> v = ROk.
Proof.
  unfold update_group. destruct (String.eqb g ""); simpl; [auto|].
  destruct v; simpl; auto; rewrite aget_aset_same; auto.
Qed.

Lemma read_ret_av e r h : av_same r (fst (read_ret e r h)).
Proof.
  unfold read_ret. destruct (h_rated h && _); [apply av_update_group|].
  destruct (hw_read e h (rm_trace r)) as [[h' t'] res]. destruct res; [|split; reflexivity].
  destruct (av_update_group (with_trace (put_hw r h') t') (h_group h) r0). split; assumption.
Qed.
Lemma write_ret_av e r h : av_same r (fst (write_ret e r h)).
Proof.
  unfold write_ret. destruct (h_rated h && _); [apply av_update_group|].
  destruct (hw_write e h (rm_trace r)) as [[h' t'] res]. destruct res; [|split; reflexivity].
  destruct (av_update_group (with_trace (put_hw r h') t') (h_group h) r0). split; assumption.
Qed.

(** a component whose (merged) read result is OK did not move *)
Lemma read_ret_ok_same e r n h : find_hw r n = Some h -> snd (read_ret e r h) = ROk ->
  find_hw (fst (read_ret e r h)) n = Some h.
Proof.
  intros Hf. pose proof (find_hw_name _ _ _ Hf) as Hname. unfold read_ret.
  destruct (h_rated h && _); [intros _; rewrite find_update_group; exact Hf|].
  unfold hw_read. destruct (h_lc h);
    try (intros _; rewrite find_update_group; exact (find_put_same r h h n Hf Hname));
    (destruct (e_read e (rm_trace r) (h_name h)) as [[]|]; simpl;
     [intros _; rewrite find_update_group; exact (find_put_same r h h n Hf Hname)
     | destruct (hw_error e h _) as [h' t'];
       intros H; apply update_group_ok in H; discriminate
     | intros _; rewrite find_update_group; exact (find_put_same r h h n Hf Hname)
     | discriminate]).
Qed.

(** a component whose merged write result is not ERROR did not move in write itself *)
Lemma write_ret_nerr_same e r n h : find_hw r n = Some h -> snd (write_ret e r h) <> RError ->
  find_hw (fst (write_ret e r h)) n = Some h.
Proof.
  intros Hf. pose proof (find_hw_name _ _ _ Hf) as Hname. unfold write_ret.
  destruct (h_rated h && _); [intros _; rewrite find_update_group; exact Hf|].
  unfold hw_write.
  assert (K : forall t x, find_hw (fst (update_group (with_trace (put_hw r h) t) (h_group h) x)) n = Some h).
  { intros. rewrite find_update_group. exact (find_put_same r h h n Hf Hname). }
  assert (K2 : forall r1, snd (update_group r1 (h_group h) RError) = RError).
  { intros. unfold update_group. destruct (String.eqb _ ""); simpl; [reflexivity|].
    rewrite aget_aset_same. reflexivity. }
  destruct (h_kind h), (h_lc h); try (intros _; apply K);
    (destruct (e_write e (rm_trace r) (h_name h)) as [[]|]; simpl;
     [intros _; apply K
     | destruct (hw_error e h _) as [h' t']; intros H; exfalso; apply H; apply K2
     | intros _; apply K
     | intros H; exfalso; apply H; reflexivity]).
Qed.

Lemma same_lc_avok (Q : Prop) n r r' h : find_hw r n = Some h -> find_hw r' n = Some h ->
  evolve r r' -> av_same r r' -> avok Q n r r'.
Proof. intros Hf Hf' Ev Av. apply avok_same; auto; intros; congruence. Qed.

Lemma fail_avok (Q : Prop) e n r r1 h : names_ok r -> find_hw r n = Some h -> evolve r r1 -> av_same r r1 ->
  avok Q n r (remove_hw_itfs (rm_error e r1 n) h).
Proof.
  intros Hn Hf Ev [V1 V2].
  pose proof (names_ok_evolve _ _ Ev Hn) as Hn1.
  destruct (rm_error_only e r1 n Hn1) as [Ev1 _ _].
  assert (Vx : av_same r1 (rm_error e r1 n)).
  { unfold rm_error. destruct (find_hw r1 n) as [h1|]; [|split; reflexivity].
    destruct (hw_error e h1 (rm_trace r1)); split; reflexivity. }
  destruct Vx as [W1 W2].
  eapply avok_remove; [exact Hf | | simpl; congruence | simpl; congruence |].
  - eapply evolve_trans; [exact Ev|]. eapply evolve_trans; [exact Ev1 | apply evolve_with_av].
  - intros h' Hf'. eapply rm_error_not_conf; [exact Hn1 | exact Hf'].
Qed.

Lemma read_one_avok e r st n : names_ok r ->
  avok (no_transition_errors e) n r (fst (read_one e (r, st) n)).
Proof.
  intros Hn. unfold read_one. destruct (find_hw r n) as [h|] eqn:Hf; [|apply avok_refl].
  destruct (e_locked e (rm_trace r) n); [apply avok_refl|].
  pose proof (read_ret_only e r n h Hn Hf) as [Ev _ _].
  pose proof (read_ret_av e r h) as Av.
  pose proof (read_ret_ok_same e r n h Hf) as Hok.
  destruct (read_ret e r h) as [r1 v]. simpl in *.
  destruct v; simpl.
  - eapply same_lc_avok; eauto.
  - apply fail_avok; assumption.
  - apply fail_avok; assumption.
Qed.

Lemma write_one_avok e r st n : names_ok r ->
  avok (no_transition_errors e) n r (fst (write_one e (r, st) n)).
Proof.
  intros Hn. unfold write_one. destruct (find_hw r n) as [h|] eqn:Hf; [|apply avok_refl].
  destruct (e_locked e (rm_trace r) n); [apply avok_refl|].
  pose proof (write_ret_only e r n h Hn Hf) as O. pose proof O as [Ev _ _].
  pose proof (write_ret_av e r h) as Av.
  pose proof (write_ret_nerr_same e r n h Hf) as Hok.
  destruct (write_ret e r h) as [r1 v]. simpl in *.
  destruct v; simpl.
  - eapply same_lc_avok; eauto. apply Hok. discriminate.
  - apply fail_avok; assumption.
  - eapply avok_trans; [exact O | eapply same_lc_avok; eauto; apply Hok; discriminate|].
    apply set_state_avok. eapply names_ok_evolve; eassumption.
Qed.

(** ---------------------------------------------------------------- the invariant *)
Record AvInv (Q : Prop) (r : rm) : Prop := {
  av_nd : nd r;
  av_fwd : forall n h, find_hw r n = Some h -> configured (h_lc h) -> all_available r h;
  av_bwd : Q -> forall n h, find_hw r n = Some h -> ~ configured (h_lc h) -> none_available r h
}.

(** no two components share an interface *)
Definition disj (r : rm) : Prop :=
  forall n1 n2 h1 h2 k, n1 <> n2 -> find_hw r n1 = Some h1 -> find_hw r n2 = Some h2 ->
    ~ (In k (h_cmd h1) /\ In k (h_cmd h2)) /\ ~ (In k (h_state h1) /\ In k (h_state h2)).

Lemma NoDup_flat_map_disj {A} (f : hwc -> list A) l h1 h2 k :
  NoDup (flat_map f l) -> In h1 l -> In h2 l -> h1 <> h2 -> In k (f h1) -> In k (f h2) -> False.
Proof.
  induction l as [|x l IH]; simpl; [tauto|]. intros Hn H1 H2 Hne K1 K2.
  assert (N2 : NoDup (flat_map f l)).
  { clear - Hn. induction (f x) as [|a l0 IH0]; simpl in *; [exact Hn|]. inversion Hn; auto. }
  assert (N1 : forall k, In k (f x) -> ~ In k (flat_map f l)).
  { clear - Hn. induction (f x) as [|a l0 IH0]; simpl in *; [tauto|]. inversion Hn as [|? ? Ha Hb]; subst.
    intros k [<-|Hk] C.
    - apply Ha. apply in_app_iff. right. exact C.
    - exact (IH0 Hb k Hk C). }
  destruct H1 as [->|H1], H2 as [->|H2].
  - congruence.
  - apply (N1 k K1). apply in_flat_map. exists h2. split; assumption.
  - apply (N1 k K2). apply in_flat_map. exists h1. split; assumption.
  - exact (IH N2 H1 H2 Hne K1 K2).
Qed.

Lemma disj_of_wf r : NoDup (hw_cmds r) -> NoDup (hw_states r) -> disj r.
Proof.
  intros N1 N2 n1 n2 h1 h2 k Hne F1 F2.
  assert (Hh : h1 <> h2).
  { intros ->. apply Hne. rewrite <- (find_hw_name _ _ _ F1), <- (find_hw_name _ _ _ F2). reflexivity. }
  split; intros [A B].
  - eapply NoDup_flat_map_disj; [exact N1| eapply find_hw_In; exact F1| eapply find_hw_In; exact F2|exact Hh|exact A|exact B].
  - eapply NoDup_flat_map_disj; [exact N2| eapply find_hw_In; exact F1| eapply find_hw_In; exact F2|exact Hh|exact A|exact B].
Qed.

Definition wfr (r : rm) : Prop := names_ok r /\ NoDup (hw_cmds r) /\ NoDup (hw_states r).

Lemma wfr_evolve r r' : evolve r r' -> wfr r -> wfr r'.
Proof.
  intros Ev (A & B & C). split; [eapply names_ok_evolve; eassumption|].
  rewrite hw_cmds_statics, hw_states_statics, (evolve_statics _ _ Ev),
    <- hw_cmds_statics, <- hw_states_statics. split; assumption.
Qed.

Lemma AvInv_step (Q : Prop) n r r' : wfr r -> only n r r' -> avok Q n r r' -> AvInv Q r -> AvInv Q r'.
Proof.
  intros (Hn & W1 & W2) O A [I1 I2 I3].
  pose proof (disj_of_wf r W1 W2) as D.
  constructor.
  - apply A. exact I1.
  - intros m h' Hf' Hc. destruct (String.eqb_spec m n) as [->|Hne].
    + destruct (evolve_find_back _ _ _ _ (on_ev _ _ _ O) Hf') as (h & Hf & _).
      eapply (ao_fwd _ _ _ _ A); eauto.
    + rewrite (on_other _ _ _ O m Hne) in Hf'. destruct (I2 m h' Hf' Hc) as [J1 J2].
      destruct (find_hw r n) as [hn|] eqn:Hfn.
      * split; intros k Hk; apply (ao_other _ _ _ _ A hn Hfn I1 k); auto.
        -- intros C. destruct (D m n h' hn k Hne Hf' Hfn) as [D1 _]. apply D1. split; assumption.
        -- intros C. destruct (D m n h' hn k Hne Hf' Hfn) as [_ D1]. apply D1. split; assumption.
      * destruct (ao_none _ _ _ _ A Hfn) as [E1 E2]. unfold all_available. rewrite E1, E2.
        split; assumption.
  - intros HQ m h' Hf' Hc. destruct (String.eqb_spec m n) as [->|Hne].
    + destruct (evolve_find_back _ _ _ _ (on_ev _ _ _ O) Hf') as (h & Hf & _).
      eapply (ao_bwd _ _ _ _ A); eauto.
    + rewrite (on_other _ _ _ O m Hne) in Hf'. destruct (I3 HQ m h' Hf' Hc) as [J1 J2].
      destruct (find_hw r n) as [hn|] eqn:Hfn.
      * split; intros k Hk C; apply (ao_other _ _ _ _ A hn Hfn I1 k) in C.
        -- exact (J1 k Hk C).
        -- intros C'. destruct (D m n h' hn k Hne Hf' Hfn) as [D1 _]. apply D1. split; assumption.
        -- exact (J2 k Hk C).
        -- intros C'. destruct (D m n h' hn k Hne Hf' Hfn) as [_ D1]. apply D1. split; assumption.
      * destruct (ao_none _ _ _ _ A Hfn) as [E1 E2]. unfold none_available. rewrite E1, E2.
        split; assumption.
Qed.

Lemma fold_AvInv {B} (Q : Prop) (f : rm * B -> name -> rm * B) l : forall r b,
  (forall r b n, names_ok r -> only n r (fst (f (r, b) n)) /\ avok Q n r (fst (f (r, b) n))) ->
  wfr r -> AvInv Q r -> AvInv Q (fst (fold_left f l (r, b))).
Proof.
  induction l as [|n l IH]; intros r b Hf W A; simpl; [exact A|].
  destruct (Hf r b n (proj1 W)) as [O AO]. destruct (f (r, b) n) as [r1 b1]. simpl in *.
  apply IH; [exact Hf| eapply wfr_evolve; [apply O|exact W] |]. eapply AvInv_step; eassumption.
Qed.

(** operations on controllers' interfaces do not touch hardware interfaces *)
Lemma AvInv_frame (Q : Prop) r r' :
  rm_hw r' = rm_hw r -> nd r' ->
  (forall k, In k (hw_cmds r) -> (In k (rm_avc r') <-> In k (rm_avc r))) ->
  (forall k, In k (hw_states r) -> (In k (rm_avs r') <-> In k (rm_avs r))) ->
  AvInv Q r -> AvInv Q r'.
Proof.
  intros E N H1 H2 [A B C].
  assert (X1 : forall n h k, find_hw r n = Some h -> In k (h_cmd h) -> In k (hw_cmds r)).
  { intros n h k Hf Hk. apply in_flat_map. exists h. split; [eapply find_hw_In; exact Hf|exact Hk]. }
  assert (X2 : forall n h k, find_hw r n = Some h -> In k (h_state h) -> In k (hw_states r)).
  { intros n h k Hf Hk. apply in_flat_map. exists h. split; [eapply find_hw_In; exact Hf|exact Hk]. }
  constructor.
  - exact N.
  - intros n h Hf Hc. rewrite (find_hw_same _ _ n E) in Hf. destruct (B n h Hf Hc) as [B1 B2].
    split; intros k Hk; [apply H1|apply H2]; eauto.
  - intros HQ n h Hf Hc. rewrite (find_hw_same _ _ n E) in Hf. destruct (C HQ n h Hf Hc) as [B1 B2].
    split; intros k Hk K; [apply H1 in K|apply H2 in K]; eauto; [exact (B1 k Hk K)|exact (B2 k Hk K)].
Qed.

Lemma AvInv_same (Q : Prop) r r' : rm_hw r' = rm_hw r -> av_same r r' -> AvInv Q r -> AvInv Q r'.
Proof.
  intros E [E1 E2] A. eapply AvInv_frame; [exact E| | | |exact A].
  - unfold nd. rewrite E1, E2. apply A.
  - intros. rewrite E2. tauto.
  - intros. rewrite E1. tauto.
Qed.

Lemma add_cmd_av ks : forall r, av_same r (fst (add_cmd_itfs ks r)).
Proof.
  induction ks as [|k ks IH]; intros r; simpl; [split; reflexivity|].
  destruct (mem k (rm_ckeys r)); [split; reflexivity|].
  match goal with |- av_same r (fst (add_cmd_itfs ks ?x)) => destruct (IH x) as [A B] end.
  split; [rewrite A|rewrite B]; reflexivity.
Qed.
Lemma add_state_av ks : forall r, av_same r (fst (add_state_itfs ks r)).
Proof.
  induction ks as [|k ks IH]; intros r; simpl; [split; reflexivity|].
  destruct (mem k (rm_skeys r)); [apply IH|].
  destruct (IH (with_skeys r (rm_skeys r ++ [k]))) as [A B].
  destruct (add_state_itfs ks _) as [r1 l]. simpl in *. split; assumption.
Qed.
Lemma cache_av c ks : forall r, av_same r (cache_controller r c ks).
Proof.
  unfold cache_controller. induction ks as [|k ks IH]; intros r; simpl; [split; reflexivity|].
  destruct (IH (cache_one c r k)) as [A B]. unfold cache_one in *.
  destruct (find _ _); split; assumption.
Qed.

Lemma mode_loop_av e op allow start stop hs : forall r ret,
  av_same r (fst (mode_loop e op allow start stop hs r ret)).
Proof.
  induction hs as [|h hs IH]; intros r ret; [split; reflexivity|]. cbn [mode_loop].
  assert (G : forall ret', av_same r (fst (mode_loop e op allow start stop hs r ret'))) by (intros; apply IH).
  assert (G2 : forall t ret', av_same r (fst (mode_loop e op allow start stop hs (with_trace r t) ret'))).
  { intros t ret'. destruct (IH (with_trace r t) ret') as [A B]. split; assumption. }
  destruct (common_itfs (h_cmd h) start), (common_itfs (h_cmd h) stop); try apply G;
    (destruct (_ && _ && _); [split; reflexivity|]; destruct (h_lc h); try apply G;
     destruct (mode_call _ _ _ _ _ _) as [res t']; apply G2).
Qed.

Lemma rm_prepare_av e allow r s p : av_same r (fst (rm_prepare e allow r s p)).
Proof.
  unfold rm_prepare. destruct (both_empty s p); [split; reflexivity|].
  destruct (negb _); [split; reflexivity|]. destruct (negb _); [split; reflexivity|].
  pose proof (mode_loop_av e MPrepare allow s p (filter is_actuator (rm_hw r)) r true) as [A1 A2].
  destruct (mode_loop e MPrepare allow s p (filter is_actuator (rm_hw r)) r true) as [r1 a]. simpl in *.
  pose proof (mode_loop_av e MPrepare allow s p (filter is_system (rm_hw r)) r1 true) as [B1 B2].
  destruct (mode_loop e MPrepare allow s p (filter is_system (rm_hw r)) r1 true) as [r2 b]. simpl in *.
  split; congruence.
Qed.
Lemma rm_perform_av e allow r s p : av_same r (fst (rm_perform e allow r s p)).
Proof.
  unfold rm_perform. destruct (both_empty s p); [split; reflexivity|].
  pose proof (mode_loop_av e MPerform allow s p (filter is_actuator (rm_hw r)) r true) as [A1 A2].
  destruct (mode_loop e MPerform allow s p (filter is_actuator (rm_hw r)) r true) as [r1 a]. simpl in *.
  pose proof (mode_loop_av e MPerform allow s p (filter is_system (rm_hw r)) r1 true) as [B1 B2].
  destruct (mode_loop e MPerform allow s p (filter is_system (rm_hw r)) r1 true) as [r2 b]. simpl in *.
  split; congruence.
Qed.

Lemma rstep_AvInv e allow s o :
  wfr (sy_rm s) -> KInv (sy_rm s) -> AvInv (no_transition_errors e) (sy_rm s) ->
  AvInv (no_transition_errors e) (sy_rm (fst (rstep e allow s o))).
Proof.
  intros W K A0.
  assert (W' : wfr (op_trace s)) by exact W.
  assert (A : AvInv (no_transition_errors e) (op_trace s))
    by (eapply AvInv_same; [..|exact A0]; [reflexivity|split; reflexivity]).
  pose proof (proj1 W') as Hn'.
  assert (Kr : forall c ks k, aget (rm_refs (op_trace s)) c = Some ks -> In k ks -> ~ In k (hw_cmds (op_trace s)))
    by (intros; eapply (ki_refs _ K); eassumption).
  assert (Ke : forall c ks k, aget (rm_exps (op_trace s)) c = Some ks -> In k ks -> ~ In k (hw_states (op_trace s)))
    by (intros; eapply (ki_exps _ K); eassumption).
  unfold rstep. fold (op_trace s). destruct o.
  - destruct (set_component_state_ok e (op_trace s) h target Hn') as [O _].
    pose proof (set_state_avok e (op_trace s) h target Hn') as AO.
    destruct (set_component_state _ _ _ _). simpl in *. eapply AvInv_step; eassumption.
  - unfold shutdown_components.
    pose proof (fold_AvInv (no_transition_errors e) (fun '(r, ok) n =>
     let '(r', b) := set_component_state e r n Finalized in (r', ok && b))
       (map h_name (rm_hw (op_trace s))) (op_trace s) true) as H.
    destruct (fold_left _ _ _). simpl in *. apply H; [|exact W'|exact A].
    intros r0 b0 n Hn0. destruct (set_component_state_ok e r0 n Finalized Hn0) as [O _].
    pose proof (set_state_avok e r0 n Finalized Hn0) as AO.
    destruct (set_component_state e r0 n Finalized). split; assumption.
  - unfold rm_read.
    pose proof (fold_AvInv (no_transition_errors e) (read_one e) (map h_name (rm_hw (op_trace s))) (op_trace s) rw_ok) as H.
    destruct (fold_left _ _ _). simpl in *. apply H; [|exact W'|exact A].
    intros. split; [apply read_one_only|apply read_one_avok]; assumption.
  - unfold rm_write.
    pose proof (fold_AvInv (no_transition_errors e) (write_one e)
      (map h_name (filter (fun h => negb (is_sensor h)) (rm_hw (op_trace s)))) (op_trace s) rw_ok) as H.
    destruct (fold_left _ _ _). simpl in *. apply H; [|exact W'|exact A].
    intros. split; [apply write_one_only|apply write_one_avok]; assumption.
  - unfold claim_cmd. destruct (cmd_available _ _); [|exact A].
    destruct (aget _ _) as [[]|]; try exact A. eapply AvInv_same; [..|exact A]; [reflexivity|split; reflexivity].
  - destruct (mem k (sy_loans s)); [|exact A]. eapply AvInv_same; [..|exact A]; [reflexivity|split; reflexivity].
  - unfold import_refs. pose proof (add_cmd_av ks (op_trace s)) as [V1 V2].
    pose proof (hw_same_add_cmd ks (op_trace s)) as [V3 _].
    destruct (add_cmd_itfs ks (op_trace s)) as [r1 ok]. simpl in *.
    destruct ok; simpl; (eapply AvInv_same; [..|exact A]; [exact V3|split; assumption]).
  - eapply AvInv_same; [..|exact A]; [apply (proj1 (hw_same_remove_refs (op_trace s) c))|]; cbn [fst sy_rm mk].
    unfold remove_refs. destruct (aget _ _); split; reflexivity.
  - unfold make_refs_available. destruct (aget (rm_refs _) c) as [ks|] eqn:E; [|exact A].
    eapply AvInv_frame; [..|exact A]; simpl; [reflexivity| | |].
    + split; simpl; [apply (av_nd _ _ A)|apply NoDup_add_items, (av_nd _ _ A)].
    + intros k Hk. rewrite In_add_items. split; [|tauto]. intros [|C]; [assumption|].
      exfalso. exact (Kr c ks k E C Hk).
    + tauto.
  - unfold make_refs_unavailable. destruct (aget (rm_refs _) c) as [ks|] eqn:E; [|exact A].
    destruct (remove_items_spec ks (rm_avc (op_trace s)) (proj2 (av_nd _ _ A))) as [S1 S2].
    eapply AvInv_frame; [..|exact A]; simpl; [reflexivity| | |].
    + split; simpl; [apply (av_nd _ _ A)|exact S1].
    + intros k Hk. change (rm_avc (sy_rm s)) with (rm_avc (op_trace s)). rewrite S2. split; [tauto|].
      intros C. split; [exact C|]. intros C2. exact (Kr c ks k E C2 Hk).
    + tauto.
  - unfold import_exps. pose proof (add_state_av ks (op_trace s)) as [V1 V2].
    pose proof (hw_same_add_state ks (op_trace s)) as [V3 _].
    destruct (add_state_itfs ks (op_trace s)) as [r1 added]. simpl in *.
    eapply AvInv_same; [..|exact A]; [exact V3|split; assumption].
  - eapply AvInv_same; [..|exact A]; [apply (proj1 (hw_same_remove_exps (op_trace s) c))|]; cbn [fst sy_rm mk].
    unfold remove_exps. destruct (aget _ _); split; reflexivity.
  - unfold make_exps_available. destruct (aget (rm_exps _) c) as [ks|] eqn:E; [|exact A].
    eapply AvInv_frame; [..|exact A]; simpl; [reflexivity| | |].
    + split; simpl; [apply NoDup_add_items, (av_nd _ _ A)|apply (av_nd _ _ A)].
    + tauto.
    + intros k Hk. rewrite In_add_items. split; [|tauto]. intros [|C]; [assumption|].
      exfalso. exact (Ke c ks k E C Hk).
  - unfold make_exps_unavailable. destruct (aget (rm_exps _) c) as [ks|] eqn:E; [|exact A].
    destruct (remove_items_spec ks (rm_avs (op_trace s)) (proj1 (av_nd _ _ A))) as [S1 S2].
    eapply AvInv_frame; [..|exact A]; simpl; [reflexivity| | |].
    + split; simpl; [exact S1|apply (av_nd _ _ A)].
    + tauto.
    + intros k Hk. change (rm_avs (sy_rm s)) with (rm_avs (op_trace s)). rewrite S2. split; [tauto|].
      intros C. split; [exact C|]. intros C2. exact (Ke c ks k E C2 Hk).
  - eapply AvInv_same; [..|exact A]; [apply (proj1 (hw_same_cache c ks (op_trace s)))|apply cache_av].
  - destruct (rm_prepare_evolve e allow (op_trace s) start stop Hn') as [_ H].
    pose proof (rm_prepare_av e allow (op_trace s) start stop) as V.
    destruct (rm_prepare _ _ _ _ _). eapply AvInv_same; [..|exact A]; [exact H|exact V].
  - destruct (rm_perform_evolve e allow (op_trace s) start stop Hn') as [_ H].
    pose proof (rm_perform_av e allow (op_trace s) start stop) as V.
    destruct (rm_perform _ _ _ _ _). eapply AvInv_same; [..|exact A]; [exact H|exact V].
Qed.

Lemma reach_AvInv e allow hs ops : wf_hw hs ->
  AvInv (no_transition_errors e) (sy_rm (rrun e allow (sys_start hs) ops)).
Proof.
  intros Hwf.
  assert (G : forall s, (AInv s /\ wfr (sy_rm s)) /\ AvInv (no_transition_errors e) (sy_rm s) ->
     (AInv (rrun e allow s ops) /\ wfr (sy_rm (rrun e allow s ops))) /\
     AvInv (no_transition_errors e) (sy_rm (rrun e allow s ops))).
  { intros s Hs. apply (rrun_ind e allow (fun s => (AInv s /\ wfr (sy_rm s)) /\
       AvInv (no_transition_errors e) (sy_rm s))); [|exact Hs].
    intros s0 o ((A1 & A2) & A3). split; [split|].
    - apply rstep_AInv. exact A1.
    - destruct A2 as (N & C1 & C2). split; [|].
      + destruct (rstep_AInv e allow s0 o A1) as [[X _] _]. exact X.
      + rewrite hw_cmds_statics, hw_states_statics, rstep_statics by exact N.
        rewrite <- hw_cmds_statics, <- hw_states_statics. split; assumption.
    - apply rstep_AvInv; [exact A2|apply A1|exact A3]. }
  apply G. split; [split|].
  - constructor; [apply start_RInv; exact Hwf | apply start_KInv; exact Hwf].
  - destruct Hwf as [A B C]. repeat split.
    + unfold names_ok. simpl. rewrite map_name_set. exact A.
    + unfold hw_cmds. simpl. rewrite flat_map_set by reflexivity. exact B.
    + unfold hw_states. simpl. rewrite flat_map_set by reflexivity. exact C.
  - constructor.
    + split; constructor.
    + intros n h Hf Hc. rewrite (find_start_lc _ _ _ Hf) in Hc. destruct Hc; discriminate.
    + intros _ n h Hf _. split; intros k _ [].
Qed.
