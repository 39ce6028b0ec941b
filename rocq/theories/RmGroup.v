(** RmGroup.v -- the group state map is the history function [group_state] (C08). *)
From Verif Require Import Base Events HwModel RmModel RmSys RmSpec HwProofs RmProofs RmInv RmAvail RmCycle.

Lemma gs_other ms evs t m : Forall (about m) evs -> ~ In m ms -> group_state ms (evs ++ t) = group_state ms t.
Proof.
  intros H Hm. apply mem_false in Hm. induction H as [|ev evs Hev H IH]; [reflexivity|].
  cbn [app]. destruct ev; cbn [about] in Hev; try contradiction; subst; cbn [group_state]; rewrite ?Hm; simpl.
  - destruct cb; try exact IH. destruct r; exact IH.
  - destruct ok; [exact IH|]. destruct (evs ++ t) as [|[] t0] eqn:E; try exact IH.
    destruct cb; try exact IH. rewrite andb_false_r. destruct r; exact IH.
  - destruct r; exact IH.
  - destruct r; exact IH.
  - exact IH.
  - exact IH.
Qed.

Lemma gs_op ms t : group_state ms (EvOp :: t) = group_state ms t. Proof. reflexivity. Qed.

Record gok (n : name) (r r' : rm) : Prop := {
  gk_none : find_hw r n = None -> rm_groups r' = rm_groups r;
  gk_other : forall h g, find_hw r n = Some h -> g <> ""%string -> g <> h_group h ->
     aget (rm_groups r') g = aget (rm_groups r) g;
  gk_own : forall h ms, find_hw r n = Some h -> h_group h <> ""%string -> In n ms ->
     aget (rm_groups r) (h_group h) = Some (group_state ms (rm_trace r)) ->
     aget (rm_groups r') (h_group h) = Some (group_state ms (rm_trace r'))
}.

Lemma gok_refl n r : gok n r r.
Proof. constructor; auto. Qed.

Lemma gok_trans n a b c : only n a b -> gok n a b -> gok n b c -> gok n a c.
Proof.
  intros O [A1 A2 A3] [B1 B2 B3]. constructor.
  - intros H. rewrite B1, A1; auto. destruct (find_hw b n) eqn:E; [|reflexivity].
    destruct (evolve_find_back _ _ _ _ (on_ev _ _ _ O) E) as (h0 & X & _). congruence.
  - intros h g H G1 G2. destruct (evolve_find _ _ _ _ (on_ev _ _ _ O) H) as (h' & X & S).
    destruct S as (_ & _ & S & _). rewrite (B2 h' g X G1) by congruence. eauto.
  - intros h ms H G M E. destruct (evolve_find _ _ _ _ (on_ev _ _ _ O) H) as (h' & X & S).
    destruct S as (_ & _ & S & _). rewrite <- S. apply B3; auto; try congruence. rewrite S. eauto.
Qed.

Definition GInv (r : rm) : Prop := forall n h, find_hw r n = Some h -> h_group h <> ""%string ->
  aget (rm_groups r) (h_group h) = Some (group_state (members (rm_hw r) (h_group h)) (rm_trace r)).

Lemma members_statics r r' g : Forall2 same_static (rm_hw r) (rm_hw r') -> members (rm_hw r') g = members (rm_hw r) g.
Proof.
  unfold members. induction 1 as [|a b l l' H _ IH]; [reflexivity|]. simpl.
  destruct H as (H1 & _ & H2 & _). rewrite H2. destruct (String.eqb (h_group a) g); simpl; [rewrite H1|]; congruence.
Qed.

Lemma In_members r n h : find_hw r n = Some h -> In n (members (rm_hw r) (h_group h)).
Proof.
  intros H. pose proof (find_hw_name _ _ _ H) as <-. apply in_map. apply filter_In. split.
  - eapply find_hw_In; exact H.
  - apply String.eqb_refl.
Qed.

Lemma In_members_inv r n g : names_ok r -> In n (members (rm_hw r) g) ->
  exists h, find_hw r n = Some h /\ h_group h = g.
Proof.
  intros Hn H. apply in_map_iff in H. destruct H as (h & <- & H). apply filter_In in H. destruct H as [H1 H2].
  apply String.eqb_eq in H2. exists h. split; [|exact H2]. apply In_find; assumption.
Qed.

Lemma GInv_step n r r' : names_ok r -> only n r r' -> gok n r r' -> GInv r -> GInv r'.
Proof.
  intros Hn [E Oth (evs & T & Ab)] G I m h' Hf' Hg.
  rewrite (members_statics r r' _ (ev_static _ _ E)).
  destruct (evolve_find_back _ _ _ _ E Hf') as (h & Hf & S).
  assert (Sg : h_group h' = h_group h) by (destruct S as (_ & _ & S & _); exact S).
  rewrite Sg in *. specialize (I m h Hf Hg).
  destruct (find_hw r n) as [hn|] eqn:En.
  - destruct (string_dec (h_group h) (h_group hn)) as [Eg|Ng].
    + rewrite Eg in *. apply (gk_own _ _ _ G hn); auto. eapply In_members; exact En.
    + rewrite (gk_other _ _ _ G hn _ En Hg Ng), I. f_equal. rewrite T. symmetry. eapply gs_other; [exact Ab|].
      intros C. destruct (In_members_inv _ _ _ Hn C) as (x & X1 & X2). congruence.
  - rewrite (gk_none _ _ _ G En), I. f_equal. rewrite T. symmetry. eapply gs_other; [exact Ab|].
    intros C. destruct (In_members_inv _ _ _ Hn C) as (x & X1 & X2). congruence.
Qed.

(** ------------------------------------------------------------ each operation *)

Lemma gok_from n r r' h : find_hw r n = Some h ->
  (rm_groups r' = rm_groups r \/ exists v, h_group h <> ""%string /\ rm_groups r' = aset (rm_groups r) (h_group h) v) ->
  (forall ms, In n ms -> h_group h <> ""%string ->
     aget (rm_groups r) (h_group h) = Some (group_state ms (rm_trace r)) ->
     aget (rm_groups r') (h_group h) = Some (group_state ms (rm_trace r'))) ->
  gok n r r'.
Proof.
  intros Hf A B. constructor.
  - congruence.
  - intros h0 g H0 G1 G2. assert (h0 = h) by congruence. subst h0.
    destruct A as [->|(v & _ & ->)]; [reflexivity|]. apply aget_aset_other. congruence.
  - intros h0 ms H0. assert (h0 = h) by congruence. subst h0. eauto.
Qed.

Lemma set_group_groups r g v : rm_groups (set_group r g v) = rm_groups r \/
  (g <> ""%string /\ rm_groups (set_group r g v) = aset (rm_groups r) g v).
Proof. unfold set_group. destruct (String.eqb_spec g ""); [left; reflexivity|right; split; [assumption|reflexivity]]. Qed.

Lemma set_group_own r g v : g <> ""%string -> aget (rm_groups (set_group r g v)) g = Some v.
Proof.
  intros H. unfold set_group. apply String.eqb_neq in H. rewrite H. simpl. apply aget_aset_same.
Qed.
Lemma set_group_trace r g v : rm_trace (set_group r g v) = rm_trace r.
Proof. unfold set_group. destruct (String.eqb g ""); reflexivity. Qed.

Ltac memtrue H := apply mem_In in H.

Ltac open_rt Hl Hname :=
  unfold run_transition, hw_configure, hw_cleanup, hw_shutdown, hw_activate, hw_deactivate, call, then_error, hw_error;
  rewrite Hl, ?Hname;
  match goal with |- context [e_hw ?e ?t ?n ?c] => destruct (e_hw e t n c) end;
  cbn -[set_group remove_hw_itfs rm_groups rm_trace group_state h_lc find_hw]; rewrite ?Hl;
  try match goal with |- context [e_hw_error ?e ?t ?n] => destruct (e_hw_error e t n) end;
  cbn -[set_group remove_hw_itfs rm_groups rm_trace group_state find_hw].

Lemma rhi_groups r h : rm_groups (remove_hw_itfs r h) = rm_groups r. Proof. reflexivity. Qed.
Lemma rhi_trace r h : rm_trace (remove_hw_itfs r h) = rm_trace r. Proof. reflexivity. Qed.

Ltac grp_side :=
  match goal with
  | |- context [set_group ?x ?g ?v] => destruct (set_group_groups x g v) as [->|[? ->]];
      [left; reflexivity|right; eexists; split; [assumption|reflexivity]]
  | |- _ => left; reflexivity
  end.

Ltac gs_solve Hm :=
  intros; memtrue Hm; rewrite ?set_group_own, ?set_group_trace by assumption;
  rewrite ?rhi_groups, ?rhi_trace;
  cbn [rm_trace rm_groups with_av with_trace put_hw with_hw group_state]; rewrite ?String.eqb_refl, ?Hm; try reflexivity; try assumption.

Lemma gok_configure e r h n : find_hw r n = Some h -> h_lc h = Unconfigured ->
  gok n r (fst (configure_hardware e r h)).
Proof.
  intros Hf Hl. pose proof (find_hw_name _ _ _ Hf) as Hname. unfold configure_hardware.
  open_rt Hl Hname; (eapply gok_from; [exact Hf|grp_side|intros ms Hm; gs_solve Hm]).
Qed.
Lemma gok_cleanup e r h n : find_hw r n = Some h -> h_lc h = Inactive ->
  gok n r (fst (cleanup_hardware e r h)).
Proof.
  intros Hf Hl. pose proof (find_hw_name _ _ _ Hf) as Hname. unfold cleanup_hardware.
  open_rt Hl Hname; (eapply gok_from; [exact Hf|grp_side|intros ms Hm; gs_solve Hm]).
Qed.
Lemma gok_activate e r h n : find_hw r n = Some h -> h_lc h = Inactive ->
  gok n r (fst (activate_hardware e r h)).
Proof.
  intros Hf Hl. pose proof (find_hw_name _ _ _ Hf) as Hname. unfold activate_hardware.
  open_rt Hl Hname; (eapply gok_from; [exact Hf|grp_side|intros ms Hm; gs_solve Hm]).
Qed.
Lemma gok_deactivate e r h n : find_hw r n = Some h -> h_lc h = Active ->
  gok n r (fst (deactivate_hardware e r h)).
Proof.
  intros Hf Hl. pose proof (find_hw_name _ _ _ Hf) as Hname. unfold deactivate_hardware.
  open_rt Hl Hname; (eapply gok_from; [exact Hf|grp_side|intros ms Hm; gs_solve Hm]).
Qed.
Lemma gok_shutdown e r h n : find_hw r n = Some h ->
  (h_lc h = Unconfigured \/ h_lc h = Inactive \/ h_lc h = Active) ->
  gok n r (fst (shutdown_hardware e r h)).
Proof.
  intros Hf [Hl|[Hl|Hl]]; pose proof (find_hw_name _ _ _ Hf) as Hname; unfold shutdown_hardware;
  open_rt Hl Hname; (eapply gok_from; [exact Hf|grp_side|intros ms Hm; gs_solve Hm]).
Qed.

Lemma then_gok n r x f : names_ok r -> only n r (fst x) -> gok n r (fst x) ->
  (forall r1 h1, names_ok r1 -> find_hw r1 n = Some h1 -> snd x = true -> r1 = fst x -> gok n r1 (fst (f r1 h1))) ->
  gok n r (fst (then_hw x n f)).
Proof.
  intros Hn O G H. destruct x as [r1 ok]. simpl in *. destruct ok; [|exact G].
  destruct (find_hw r1 n) as [h1|] eqn:E; [|exact G].
  eapply gok_trans; [exact O|exact G|]. apply H; auto. eapply names_ok_evolve; [apply O|exact Hn].
Qed.

Lemma gok_set e r n target : names_ok r -> gok n r (fst (set_component_state e r n target)).
Proof.
  intros Hn. unfold set_component_state. destruct (find_hw r n) as [h|] eqn:Hf; [|apply gok_refl].
  pose proof (find_hw_name _ _ _ Hf) as Hname.
  unfold set_state_of. destruct target, (h_lc h) eqn:El; try apply gok_refl; rewrite ?Hname.
  - apply gok_cleanup; assumption.
  - pose proof (deactivate_hardware_ok e r h n Hn Hf) as [O S].
    apply then_gok; auto; [apply gok_deactivate; assumption|].
    intros r1 h1 _ F1 S1 ->. apply gok_cleanup; [exact F1|]. specialize (S S1). unfold lc_of in S.
    rewrite F1 in S. simpl in S. congruence.
  - apply gok_configure; assumption.
  - apply gok_deactivate; assumption.
  - pose proof (configure_hardware_ok e r h n Hn Hf) as [O S].
    apply then_gok; auto; [apply gok_configure; assumption|].
    intros r1 h1 _ F1 S1 ->. apply gok_activate; [exact F1|]. specialize (S S1). unfold lc_of in S.
    rewrite F1 in S. simpl in S. congruence.
  - apply gok_activate; assumption.
  - apply gok_shutdown; auto.
  - apply gok_shutdown; auto.
  - pose proof (deactivate_hardware_ok e r h n Hn Hf) as [O S].
    apply then_gok; auto; [apply gok_deactivate; assumption|].
    intros r1 h1 _ F1 S1 ->. apply gok_shutdown; [exact F1|]. specialize (S S1). unfold lc_of in S.
    rewrite F1 in S. simpl in S. right; left. congruence.
Qed.

(** ------------------------------------------------------------ read / write turns *)

(** no shutdown callback on top of the trace *)
Definition top_ok (t : trace) : Prop :=
  match t with EvHwCb _ HShutdown _ :: _ => False | _ => True end.

Lemma gs_err ms n ok t : top_ok t -> group_state ms (EvHwErr n ok :: t) = group_state ms t.
Proof.
  intros H. cbn [group_state]. destruct ok; [reflexivity|]. destruct t as [|[] t]; try reflexivity.
  destruct cb; try reflexivity. contradiction.
Qed.

Lemma err_events e h t : snd (hw_error e h t) = t \/ exists ok, snd (hw_error e h t) = EvHwErr (h_name h) ok :: t.
Proof. unfold hw_error. destruct (h_lc h); simpl; eauto. Qed.

(** [quiet]: new events keep the history function of every member list, and leave a top_ok trace *)
Definition quiet (t t' : trace) : Prop := top_ok t' /\ forall ms, group_state ms t' = group_state ms t.

Lemma quiet_rm_error e r n : top_ok (rm_trace r) -> quiet (rm_trace r) (rm_trace (rm_error e r n)) /\
  rm_groups (rm_error e r n) = rm_groups r.
Proof.
  intros H. unfold rm_error. destruct (find_hw r n) as [h|]; [|split; [split|]; auto].
  destruct (err_events e h (rm_trace r)) as [E|(ok & E)]; destruct (hw_error e h (rm_trace r)) as [h' t'];
    simpl in E; subst; (split; [split|reflexivity]); simpl; auto.
  intros ms. apply gs_err. exact H.
Qed.

(** what a device result does: [dres t n res t']: t' extends t by the device event of n with result
    res and possibly on_error *)
Definition dres (rd : bool) (n : name) (res : rres) (t t' : trace) : Prop :=
  (res = Ret ROk /\ t' = t) \/
  (t' = (if rd then EvRead n res else EvWrite n res) :: t) \/
  (res = Ret RError /\ exists ok, t' = EvHwErr n ok :: (if rd then EvRead n res else EvWrite n res) :: t).

Lemma hw_read_dres e h t : dres true (h_name h) (snd (hw_read e h t)) t (snd (fst (hw_read e h t))).
Proof.
  unfold hw_read, dres. destruct (h_lc h); simpl; auto;
    (destruct (e_read e t (h_name h)) as [[]|] eqn:E; simpl; auto;
     destruct (err_events e h (EvRead (h_name h) (Ret RError) :: t)) as [X|(ok & X)];
     destruct (hw_error e h _) as [h' t']; simpl in *; subst; auto; right; right; eauto).
Qed.
Lemma hw_write_dres e h t : dres false (h_name h) (snd (hw_write e h t)) t (snd (fst (hw_write e h t))).
Proof.
  unfold hw_write, dres. destruct (h_kind h), (h_lc h); simpl; auto;
    (destruct (e_write e t (h_name h)) as [[]|] eqn:E; simpl; auto;
     destruct (err_events e h (EvWrite (h_name h) (Ret RError) :: t)) as [X|(ok & X)];
     destruct (hw_error e h _) as [h' t']; simpl in *; subst; auto; right; right; eauto).
Qed.

Lemma dres_gs rd n res t t' ms : dres rd n res t t' -> top_ok t -> In n ms ->
  top_ok t' /\
  group_state ms t' = match res with Ret ROk | Throw => group_state ms t | Ret v => v end.
Proof.
  intros D T M. apply mem_In in M. destruct D as [[-> ->]|[->|[-> (ok & ->)]]].
  - auto.
  - split; [destruct rd; exact I|]. destruct rd; cbn [group_state]; destruct res as [[]|]; rewrite ?M; reflexivity.
  - split; [destruct rd; exact I|]. rewrite gs_err by (destruct rd; exact I).
    destruct rd; cbn [group_state]; rewrite M; reflexivity.
Qed.

Lemma update_group_trace r1 g v : rm_trace (fst (update_group r1 g v)) = rm_trace r1.
Proof. unfold update_group. destruct (String.eqb g ""); reflexivity. Qed.

Lemma update_group_gok n r r1 h rd v : find_hw r n = Some h -> top_ok (rm_trace r) ->
  rm_groups r1 = rm_groups r -> dres rd n (Ret v) (rm_trace r) (rm_trace r1) ->
  gok n r (fst (update_group r1 (h_group h) v)) /\ top_ok (rm_trace (fst (update_group r1 (h_group h) v))) .
Proof.
  intros Hf Ht Hg D. rewrite update_group_trace. split.
  - eapply gok_from; [exact Hf| |].
    + destruct (update_group_cases r1 (h_group h) v) as [[G E]|[(G & _ & E)|(G & _ & E & _)]]; rewrite E; simpl;
        rewrite Hg; [left; reflexivity|right; eauto|left; reflexivity].
    + intros ms M G A. rewrite update_group_trace.
      destruct (dres_gs _ _ _ _ _ ms D Ht M) as [_ ->].
      destruct (update_group_cases r1 (h_group h) v) as [[G' E]|[(_ & V & E)|(_ & -> & E & _)]].
      * congruence.
      * rewrite E. simpl. rewrite aget_aset_same. destruct v; congruence.
      * rewrite E. simpl. rewrite Hg. exact A.
  - destruct (dres_gs _ _ _ _ _ [n] D Ht) as [X _]; [left; reflexivity|exact X].
Qed.

Lemma read_ret_gok e r n h : find_hw r n = Some h -> top_ok (rm_trace r) ->
  gok n r (fst (read_ret e r h)) /\ top_ok (rm_trace (fst (read_ret e r h))).
Proof.
  intros Hf Ht. pose proof (find_hw_name _ _ _ Hf) as Hname. unfold read_ret. destruct (h_rated h && _).
  - apply (update_group_gok n r r h true ROk); auto. left. auto.
  - pose proof (hw_read_dres e h (rm_trace r)) as D. rewrite Hname in D.
    destruct (hw_read e h (rm_trace r)) as [[h' t'] res]. simpl in D.
    destruct res as [v|]; [eapply update_group_gok with (rd := true); auto|].
    destruct (dres_gs _ _ _ _ _ [n] D Ht) as [X _]; [left; reflexivity|]. split; [|exact X].
    eapply gok_from; [exact Hf|left; reflexivity|]. intros ms M _ A. simpl.
    destruct (dres_gs _ _ _ _ _ ms D Ht M) as [_ ->]. exact A.
Qed.
Lemma write_ret_gok e r n h : find_hw r n = Some h -> top_ok (rm_trace r) ->
  gok n r (fst (write_ret e r h)) /\ top_ok (rm_trace (fst (write_ret e r h))).
Proof.
  intros Hf Ht. pose proof (find_hw_name _ _ _ Hf) as Hname. unfold write_ret. destruct (h_rated h && _).
  - apply (update_group_gok n r r h true ROk); auto. left. auto.
  - pose proof (hw_write_dres e h (rm_trace r)) as D. rewrite Hname in D.
    destruct (hw_write e h (rm_trace r)) as [[h' t'] res]. simpl in D.
    destruct res as [v|]; [eapply update_group_gok with (rd := false); auto|].
    destruct (dres_gs _ _ _ _ _ [n] D Ht) as [X _]; [left; reflexivity|]. split; [|exact X].
    eapply gok_from; [exact Hf|left; reflexivity|]. intros ms M _ A. simpl.
    destruct (dres_gs _ _ _ _ _ ms D Ht M) as [_ ->]. exact A.
Qed.

Lemma gok_quiet n r r' : rm_groups r' = rm_groups r -> (forall ms, group_state ms (rm_trace r') = group_state ms (rm_trace r)) ->
  gok n r r'.
Proof. intros A B. constructor; intros; rewrite A; auto. rewrite B. assumption. Qed.

(** set_component_state INACTIVE never runs a shutdown *)
Lemma set_inactive_top e r n : top_ok (rm_trace r) -> top_ok (rm_trace (fst (set_component_state e r n Inactive))).
Proof.
  intros Ht. unfold set_component_state. destruct (find_hw r n) as [h|]; [|exact Ht].
  unfold set_state_of, configure_hardware, deactivate_hardware, run_transition.
  destruct (h_lc h) eqn:El; try exact Ht;
    unfold hw_configure, hw_deactivate, call, then_error, hw_error; rewrite El;
    destruct (e_hw e _ _ _); simpl; rewrite ?set_group_trace; try (destruct (lc_eqb _ _)); simpl; auto.
Qed.

Lemma read_one_gok e r st n : names_ok r -> top_ok (rm_trace r) ->
  gok n r (fst (read_one e (r, st) n)) /\ top_ok (rm_trace (fst (read_one e (r, st) n))).
Proof.
  intros Hn Ht. unfold read_one. destruct (find_hw r n) as [h|] eqn:Hf; [|split; [apply gok_refl|exact Ht]].
  destruct (e_locked e (rm_trace r) n); [split; [apply gok_refl|exact Ht]|].
  pose proof (read_ret_only e r n h Hn Hf) as O. destruct (read_ret_gok e r n h Hf Ht) as [G T].
  destruct (read_ret e r h) as [r1 v]. simpl in *.
  destruct (quiet_rm_error e r1 n T) as [[Q1 Q2] Q3].
  destruct v; simpl; (split; [|first [exact T|exact Q1]]); auto;
    (eapply gok_trans; [exact O|exact G|]; apply gok_quiet; [exact Q3|exact Q2]).
Qed.
Lemma write_one_gok e r st n : names_ok r -> top_ok (rm_trace r) ->
  gok n r (fst (write_one e (r, st) n)) /\ top_ok (rm_trace (fst (write_one e (r, st) n))).
Proof.
  intros Hn Ht. unfold write_one. destruct (find_hw r n) as [h|] eqn:Hf; [|split; [apply gok_refl|exact Ht]].
  destruct (e_locked e (rm_trace r) n); [split; [apply gok_refl|exact Ht]|].
  pose proof (write_ret_only e r n h Hn Hf) as O. destruct (write_ret_gok e r n h Hf Ht) as [G T].
  destruct (write_ret e r h) as [r1 v]. simpl in *.
  destruct (quiet_rm_error e r1 n T) as [[Q1 Q2] Q3].
  destruct v; simpl.
  - auto.
  - split; [|exact Q1]. eapply gok_trans; [exact O|exact G|]; apply gok_quiet; [exact Q3|exact Q2].
  - split; [|apply set_inactive_top; exact T]. eapply gok_trans; [exact O|exact G|]. apply gok_set.
    eapply names_ok_evolve; [apply O|exact Hn].
Qed.

(** ------------------------------------------------------------ the invariant over histories *)
Definition GT (r : rm) : Prop := GInv r /\ top_ok (rm_trace r).

Lemma fold_GT (f : rm * rwstatus -> name -> rm * rwstatus) l :
  (forall r st n, names_ok r -> top_ok (rm_trace r) ->
     only n r (fst (f (r, st) n)) /\ gok n r (fst (f (r, st) n)) /\ top_ok (rm_trace (fst (f (r, st) n)))) ->
  forall r st, names_ok r -> GT r -> GT (fst (fold_left f l (r, st))).
Proof.
  intros Hf. induction l as [|n l IH]; intros r st Hn [G T]; [split; assumption|]. simpl.
  destruct (Hf r st n Hn T) as (O & K & T'). destruct (f (r, st) n) as [r1 st1]. simpl in *.
  apply IH; [eapply names_ok_evolve; [apply O|exact Hn]|]. split; [|exact T']. eapply GInv_step; eassumption.
Qed.

Lemma read_one_all e r st n : names_ok r -> top_ok (rm_trace r) ->
  only n r (fst (read_one e (r, st) n)) /\ gok n r (fst (read_one e (r, st) n)) /\ top_ok (rm_trace (fst (read_one e (r, st) n))).
Proof. intros A B. split; [apply read_one_only; exact A|apply read_one_gok; assumption]. Qed.
Lemma write_one_all e r st n : names_ok r -> top_ok (rm_trace r) ->
  only n r (fst (write_one e (r, st) n)) /\ gok n r (fst (write_one e (r, st) n)) /\ top_ok (rm_trace (fst (write_one e (r, st) n))).
Proof. intros A B. split; [apply write_one_only; exact A|apply write_one_gok; assumption]. Qed.

Lemma GInv_same r r' : rm_hw r' = rm_hw r -> rm_groups r' = rm_groups r ->
  (forall ms, group_state ms (rm_trace r') = group_state ms (rm_trace r)) -> GInv r -> GInv r'.
Proof.
  intros A B C G n h Hf Hg. rewrite A, B, C. apply (G n); [|exact Hg]. rewrite <- Hf. symmetry. apply find_hw_same. exact A.
Qed.

Lemma shutdown_GInv e l : forall r b, names_ok r -> GInv r ->
  GInv (fst (fold_left (fun '(r, ok) n => let '(r', b) := set_component_state e r n Finalized in (r', ok && b)) l (r, b))).
Proof.
  induction l as [|n l IH]; intros r b Hn G; [exact G|]. simpl.
  pose proof (gok_set e r n Finalized Hn) as K. destruct (set_component_state_ok e r n Finalized Hn) as [O _].
  destruct (set_component_state e r n Finalized) as [r1 b1]. simpl in *. apply IH.
  - eapply names_ok_evolve; [apply O|exact Hn].
  - eapply GInv_step; eassumption.
Qed.

Lemma mode_loop_groups e op allow start stop hs : forall r ret,
  rm_groups (fst (mode_loop e op allow start stop hs r ret)) = rm_groups r /\
  forall ms, group_state ms (rm_trace (fst (mode_loop e op allow start stop hs r ret))) = group_state ms (rm_trace r).
Proof.
  induction hs as [|h hs IH]; intros r ret; simpl; [auto|].
  assert (K : forall x ret', rm_groups (fst (mode_loop e op allow start stop hs (with_trace r x) ret')) = rm_groups r /\
     forall ms, group_state ms (rm_trace (fst (mode_loop e op allow start stop hs (with_trace r x) ret'))) = group_state ms x)
    by (intros x ret'; exact (IH (with_trace r x) ret')).
  assert (F : forall cond s p, 
    rm_groups (fst (if cond : bool then (r, false) else match h_lc h with
          | Inactive | Active => let '(res, t') := mode_call e op (rm_trace r) (h_name h) s p in
              mode_loop e op allow start stop hs (with_trace r t') (match res with Ret ROk => ret | _ => false end)
          | _ => mode_loop e op allow start stop hs r false end)) = rm_groups r /\
    forall ms, group_state ms (rm_trace (fst (if cond then (r, false) else match h_lc h with
          | Inactive | Active => let '(res, t') := mode_call e op (rm_trace r) (h_name h) s p in
              mode_loop e op allow start stop hs (with_trace r t') (match res with Ret ROk => ret | _ => false end)
          | _ => mode_loop e op allow start stop hs r false end))) = group_state ms (rm_trace r)).
  { intros cond s p. destruct cond; [auto|]. destruct (h_lc h); try apply IH.
    - destruct op; simpl; match goal with |- context [with_trace r ?x] => destruct (K x (match hd EvOp x with EvPrepare _ _ _ y | EvPerform _ _ _ y => match y with Ret ROk => ret | _ => false end | _ => false end)) as [K1 K2] end; simpl in K1, K2; auto.
    - destruct op; simpl; match goal with |- context [with_trace r ?x] => destruct (K x (match hd EvOp x with EvPrepare _ _ _ y | EvPerform _ _ _ y => match y with Ret ROk => ret | _ => false end | _ => false end)) as [K1 K2] end; simpl in K1, K2; auto. }
  destruct (common_itfs (h_cmd h) start), (common_itfs (h_cmd h) stop); try apply F; apply IH.
Qed.

Lemma mode_both_groups e op allow start stop r hs1 hs2 :
  let x := mode_loop e op allow start stop hs1 r true in
  let y := mode_loop e op allow start stop hs2 (fst x) true in
  rm_groups (fst y) = rm_groups r /\ forall ms, group_state ms (rm_trace (fst y)) = group_state ms (rm_trace r).
Proof.
  intros x y. destruct (mode_loop_groups e op allow start stop hs1 r true) as [A B].
  destruct (mode_loop_groups e op allow start stop hs2 (fst x) true) as [C D]. fold x in A, B. fold y in C, D.
  split; [congruence|]. intros ms. rewrite D, B. reflexivity.
Qed.

Lemma add_cmd_groups ks : forall r, rm_groups (fst (add_cmd_itfs ks r)) = rm_groups r.
Proof. induction ks; intros r; simpl; [reflexivity|]. destruct (mem a (rm_ckeys r)); [reflexivity|]. rewrite IHks. reflexivity. Qed.
Lemma add_state_groups ks : forall r, rm_groups (fst (add_state_itfs ks r)) = rm_groups r.
Proof.
  induction ks; intros r; simpl; [reflexivity|]. destruct (mem a (rm_skeys r)); [apply IHks|].
  specialize (IHks (with_skeys r (rm_skeys r ++ [a]))). destruct (add_state_itfs ks _). exact IHks.
Qed.
Lemma cache_groups c ks : forall r, rm_groups (cache_controller r c ks) = rm_groups r.
Proof.
  induction ks; intros r; simpl; [reflexivity|]. unfold cache_controller in *. rewrite IHks.
  unfold cache_one. destruct (find _ _); reflexivity.
Qed.

Lemma rstep_GInv e allow s o : names_ok (sy_rm s) -> GInv (sy_rm s) -> GInv (sy_rm (fst (rstep e allow s o))).
Proof.
  intros Hn G. unfold rstep. fold (op_trace s).
  assert (Hn' : names_ok (op_trace s)) by exact Hn.
  assert (G' : GInv (op_trace s)) by (eapply GInv_same; [..|exact G]; reflexivity).
  assert (T' : top_ok (rm_trace (op_trace s))) by exact I.
  destruct o.
  - pose proof (gok_set e (op_trace s) h target Hn') as K. destruct (set_component_state_ok e (op_trace s) h target Hn') as [O _].
    destruct (set_component_state _ _ _ _). eapply GInv_step; eassumption.
  - pose proof (shutdown_GInv e (map h_name (rm_hw (op_trace s))) (op_trace s) true Hn' G') as K.
    fold (shutdown_components e (op_trace s)) in K. destruct (shutdown_components _ _). exact K.
  - destruct (fold_GT (read_one e) (map h_name (rm_hw (op_trace s))) (read_one_all e) (op_trace s) rw_ok Hn' (conj G' T')) as [K _].
    fold (rm_read e (op_trace s)) in K. destruct (rm_read _ _). exact K.
  - destruct (fold_GT (write_one e) (map h_name (filter (fun h => negb (is_sensor h)) (rm_hw (op_trace s)))) (write_one_all e) (op_trace s) rw_ok Hn' (conj G' T')) as [K _].
    fold (rm_write e (op_trace s)) in K. destruct (rm_write _ _). exact K.
  - unfold claim_cmd. destruct (cmd_available _ _); [|exact G']. destruct (aget _ _) as [[]|]; exact G'.
  - destruct (mem k (sy_loans s)); exact G'.
  - unfold import_refs. pose proof (add_cmd_groups ks (op_trace s)) as A. pose proof (hw_same_add_cmd ks (op_trace s)) as [B C].
    destruct (add_cmd_itfs ks (op_trace s)) as [r1 ok]. simpl in *.
    destruct ok; (eapply GInv_same; [..|exact G']); simpl; auto; intros ms; rewrite C; reflexivity.
  - unfold remove_refs. destruct (aget _ _); exact G'.
  - unfold make_refs_available. destruct (aget _ _); exact G'.
  - unfold make_refs_unavailable. destruct (aget _ _); exact G'.
  - simpl. unfold import_exps. pose proof (add_state_groups ks (op_trace s)) as A. pose proof (hw_same_add_state ks (op_trace s)) as [B C].
    destruct (add_state_itfs ks (op_trace s)) as [r1 added]. simpl in *.
    (eapply GInv_same; [..|exact G']); simpl; auto; intros ms; rewrite C; reflexivity.
  - unfold remove_exps. destruct (aget _ _); exact G'.
  - unfold make_exps_available. destruct (aget _ _); exact G'.
  - unfold make_exps_unavailable. destruct (aget _ _); exact G'.
  - simpl. destruct (hw_same_cache c ks (op_trace s)) as [B C].
    eapply GInv_same; [exact B|apply cache_groups|intros; rewrite C; reflexivity|exact G'].
  - remember (op_trace s) as R eqn:ER. clear ER.
    destruct (rm_prepare_evolve e allow R start stop Hn') as [_ H]. unfold rm_prepare in *.
    destruct (both_empty start stop); [exact G'|]. destruct (negb (forallb (cmd_exists _) _ && _)); [exact G'|].
    destruct (negb _); [exact G'|].
    pose proof (mode_both_groups e MPrepare allow start stop R (filter is_actuator (rm_hw R))
       (filter is_system (rm_hw R))) as M. cbv zeta in M.
    destruct (mode_loop e MPrepare allow start stop (filter is_actuator (rm_hw R)) R true) as [r1 a]. cbn [fst] in M, H.
    destruct (mode_loop e MPrepare allow start stop (filter is_system (rm_hw R)) r1 true) as [r2 b]. cbn [fst] in M, H.
    eapply GInv_same; [exact H|apply M|apply M|exact G'].
  - remember (op_trace s) as R eqn:ER. clear ER.
    destruct (rm_perform_evolve e allow R start stop Hn') as [_ H]. unfold rm_perform in *.
    destruct (both_empty start stop); [exact G'|].
    pose proof (mode_both_groups e MPerform allow start stop R (filter is_actuator (rm_hw R))
       (filter is_system (rm_hw R))) as M. cbv zeta in M.
    destruct (mode_loop e MPerform allow start stop (filter is_actuator (rm_hw R)) R true) as [r1 a]. cbn [fst] in M, H.
    destruct (mode_loop e MPerform allow start stop (filter is_system (rm_hw R)) r1 true) as [r2 b]. cbn [fst] in M, H.
    eapply GInv_same; [exact H|apply M|apply M|exact G'].
Qed.

Lemma start_GInv hs : GInv (rm_start hs).
Proof.
  intros n h Hf _. simpl. assert (Hi := find_hw_In _ _ _ Hf). simpl in Hi. apply in_map_iff in Hi.
  destruct Hi as (h0 & <- & Hi). simpl. clear Hf. induction hs as [|x hs IH]; [contradiction|]. simpl.
  destruct (String.eqb_spec (h_group h0) (h_group x)) as [E|E]; [reflexivity|].
  apply IH. destruct Hi as [->|Hi]; [congruence|exact Hi].
Qed.

Lemma reach_GInv e allow hs ops : wf_hw hs -> GInv (sy_rm (rrun e allow (sys_start hs) ops)).
Proof.
  intros H. assert (K : RInv (rrun e allow (sys_start hs) ops) /\ GInv (sy_rm (rrun e allow (sys_start hs) ops))); [|apply K].
  apply (rrun_ind e allow (fun s => RInv s /\ GInv (sy_rm s))).
  - intros s o [A B]. split; [apply rstep_RInv; exact A|apply rstep_GInv; [apply A|exact B]].
  - split; [apply start_RInv; exact H|apply start_GInv].
Qed.
