(** RmProofs.v -- framework lemmas about the resource manager model: frames, static data,
    conformance of all components to the life-cycle automaton (C01, C02), set_component_state (C04). *)
From Verif Require Import Base Events HwModel RmModel RmSys RmSpec HwProofs.

(** ---------------------------------------------------------------- find / put *)

Lemma find_hw_name r n h : find_hw r n = Some h -> h_name h = n.
Proof. intro H. apply find_some in H. destruct H as [_ H]. apply String.eqb_eq in H. exact H. Qed.

Lemma find_hw_In r n h : find_hw r n = Some h -> In h (rm_hw r).
Proof. intro H. apply find_some in H. tauto. Qed.

Lemma find_put_list l h n :
  find (fun x => String.eqb (h_name x) n) (put_hw_list l h) =
  if String.eqb (h_name h) n
  then match find (fun x => String.eqb (h_name x) n) l with Some _ => Some h | None => None end
  else find (fun x => String.eqb (h_name x) n) l.
Proof.
  induction l as [|x l IH]; simpl.
  - destruct (String.eqb _ _); reflexivity.
  - destruct (String.eqb_spec (h_name x) (h_name h)) as [E|E].
    + destruct (String.eqb_spec (h_name h) n) as [E1|E1].
      * rewrite E, E1, String.eqb_refl. reflexivity.
      * rewrite E. apply String.eqb_neq in E1. rewrite E1. exact IH.
    + destruct (String.eqb_spec (h_name x) n) as [E1|E1].
      * destruct (String.eqb_spec (h_name h) n) as [E2|E2]; [congruence|]. reflexivity.
      * exact IH.
Qed.

Lemma find_put r h n :
  find_hw (put_hw r h) n =
  if String.eqb (h_name h) n then match find_hw r n with Some _ => Some h | None => None end
  else find_hw r n.
Proof. apply find_put_list. Qed.

Lemma find_put_same r h h0 n :
  find_hw r n = Some h0 -> h_name h = n -> find_hw (put_hw r h) n = Some h.
Proof. intros H E. rewrite find_put, H, E, String.eqb_refl. reflexivity. Qed.

Lemma find_put_other r h n : h_name h <> n -> find_hw (put_hw r h) n = find_hw r n.
Proof. intros E. rewrite find_put. apply String.eqb_neq in E. rewrite E. reflexivity. Qed.

Lemma In_find l h : NoDup (map h_name l) -> In h l ->
  find (fun x => String.eqb (h_name x) (h_name h)) l = Some h.
Proof.
  induction l as [|x l IH]; simpl; [tauto|]. intros Hn Hi. inversion Hn as [|? ? Hx Hl]; subst.
  destruct Hi as [->|Hi].
  - rewrite String.eqb_refl. reflexivity.
  - destruct (String.eqb_spec (h_name x) (h_name h)) as [E|E].
    + exfalso. apply Hx. rewrite E. apply in_map. exact Hi.
    + apply IH; assumption.
Qed.

(** ---------------------------------------------------------------- evolution by hardware ops *)

Definition Lives (r : rm) : Prop :=
  forall n h, find_hw r n = Some h ->
    lives n (h_kind h) Unconfigured (rm_trace r) = Some (AIn (h_lc h)).

Definition evs_hw (t t' : trace) : Prop :=
  exists evs, t' = evs ++ t /\ Forall (fun ev => exists n, about n ev) evs.

Record evolve (r r' : rm) : Prop := {
  ev_static : Forall2 same_static (rm_hw r) (rm_hw r');
  ev_trace : evs_hw (rm_trace r) (rm_trace r');
  ev_lives : Lives r -> Lives r';
  ev_skeys : rm_skeys r' = rm_skeys r;
  ev_ckeys : rm_ckeys r' = rm_ckeys r;
  ev_claimed : rm_claimed r' = rm_claimed r;
  ev_refs : rm_refs r' = rm_refs r;
  ev_exps : rm_exps r' = rm_exps r;
  ev_used : rm_used r' = rm_used r
}.

Lemma Forall2_same_static_refl l : Forall2 same_static l l.
Proof. induction l; constructor; [apply same_static_refl | assumption]. Qed.

Lemma evs_hw_refl t : evs_hw t t.
Proof. exists []. split; [reflexivity | constructor]. Qed.

Lemma evs_hw_trans a b c : evs_hw a b -> evs_hw b c -> evs_hw a c.
Proof.
  intros (e1 & -> & H1) (e2 & -> & H2). exists (e2 ++ e1). split; [apply app_assoc|].
  apply Forall_app. split; assumption.
Qed.

Lemma evolve_refl r : evolve r r.
Proof. constructor; auto using Forall2_same_static_refl, evs_hw_refl. Qed.

Lemma Forall2_static_trans l1 l2 l3 :
  Forall2 same_static l1 l2 -> Forall2 same_static l2 l3 -> Forall2 same_static l1 l3.
Proof.
  intros H; revert l3. induction H as [|a b l1 l2 Hab H IH]; intros l3 H3; inversion H3; subst.
  - constructor.
  - constructor; [eapply same_static_trans; eassumption | apply IH; assumption].
Qed.

Lemma evolve_trans a b c : evolve a b -> evolve b c -> evolve a c.
Proof.
  intros [A1 A2 A3 A4 A5 A6 A7 A8 A9] [B1 B2 B3 B4 B5 B6 B7 B8 B9]. constructor; try congruence; auto.
  - eapply Forall2_static_trans; eassumption.
  - eapply evs_hw_trans; eassumption.
Qed.

Lemma evolve_with_av r s c : evolve r (with_av r s c).
Proof. constructor; simpl; auto using Forall2_same_static_refl, evs_hw_refl. Qed.

Lemma evolve_with_groups r g : evolve r (with_groups r g).
Proof. constructor; simpl; auto using Forall2_same_static_refl, evs_hw_refl. Qed.

Lemma evolve_set_group r g v : evolve r (set_group r g v).
Proof. unfold set_group. destruct (String.eqb g ""); [apply evolve_refl | apply evolve_with_groups]. Qed.

Lemma put_static l h h' n :
  find (fun x => String.eqb (h_name x) n) l = Some h -> NoDup (map h_name l) ->
  same_static h h' -> Forall2 same_static l (put_hw_list l h').
Proof.
  intros Hf Hn (S1 & S2 & S3 & S4 & S5 & S6).
  pose proof (find_some _ _ Hf) as [Hin He]. apply String.eqb_eq in He.
  revert Hn Hin. clear Hf. induction l as [|x l IH]; simpl; intros Hn Hin; [constructor|].
  inversion Hn as [|? ? Hx Hl]; subst. destruct Hin as [->|Hin].
  - constructor.
    + rewrite S1, String.eqb_refl. repeat split; congruence.
    + clear IH Hn Hl. induction l as [|y l IH]; simpl in *; constructor.
      * destruct (String.eqb_spec (h_name y) (h_name h')) as [E|E]; [|apply same_static_refl].
        exfalso. apply Hx. left. congruence.
      * apply IH. intro C. apply Hx. right. exact C.
  - constructor; [|apply IH; assumption].
    destruct (String.eqb_spec (h_name x) (h_name h')) as [E|E]; [|apply same_static_refl].
    exfalso. apply Hx. rewrite E, S1. apply in_map. exact Hin.
Qed.

(** the primitive: one component makes a conforming step *)
Lemma evolve_step r n h h' t' :
  NoDup (map h_name (rm_hw r)) ->
  find_hw r n = Some h ->
  ok_hw Unconfigured h (rm_trace r) h' t' ->
  evolve r (with_trace (put_hw r h') t').
Proof.
  intros Hn Hf (Hs & (evs & -> & Hevs) & Hl).
  pose proof (find_hw_name _ _ _ Hf) as Hname.
  constructor; simpl; auto.
  - eapply put_static; eassumption.
  - exists evs. split; [reflexivity|]. eapply Forall_impl; [|exact Hevs]. intros a Ha. eauto.
  - intros HL m hm Hfm. change (find_hw (put_hw r h') m = Some hm) in Hfm. simpl.
    destruct Hs as (S1 & S2 & _).
    rewrite find_put in Hfm. destruct (String.eqb_spec (h_name h') m) as [E|E].
    + destruct (find_hw r m); [|discriminate]. inversion Hfm; subst hm.
      specialize (HL n h Hf). subst m. rewrite S2, S1. apply Hl. rewrite Hname. exact HL.
    + specialize (HL m hm Hfm).
      rewrite (lives_ext_other m (h_kind hm) Unconfigured (h_name h) evs); auto. congruence.
Qed.

Lemma evolve_names r r' : evolve r r' -> map h_name (rm_hw r') = map h_name (rm_hw r).
Proof.
  intros [H _ _ _ _ _ _ _ _]. induction H as [|a b l1 l2 [E _] H IH]; simpl; congruence.
Qed.

Lemma evolve_find r r' n h : evolve r r' -> find_hw r n = Some h ->
  exists h', find_hw r' n = Some h' /\ same_static h h'.
Proof.
  intros [H _ _ _ _ _ _ _ _]. unfold find_hw. induction H as [|a b l1 l2 S H IH]; simpl; [discriminate|].
  destruct S as (E & S). rewrite E. destruct (String.eqb (h_name a) n).
  - intros X; inversion X; subst. exists b. split; [reflexivity|]. split; assumption.
  - exact IH.
Qed.

Lemma evolve_find_back r r' n h' : evolve r r' -> find_hw r' n = Some h' ->
  exists h, find_hw r n = Some h /\ same_static h h'.
Proof.
  intros [H _ _ _ _ _ _ _ _]. unfold find_hw. induction H as [|a b l1 l2 S H IH]; simpl; [discriminate|].
  pose proof S as (E & _). rewrite E. destruct (String.eqb (h_name a) n).
  - intros X; inversion X; subst. exists a. split; [reflexivity|]. exact S.
  - exact IH.
Qed.

(** a hardware step that changes only component n *)
Record only (n : name) (r r' : rm) : Prop := {
  on_ev : evolve r r';
  on_other : forall m, m <> n -> find_hw r' m = find_hw r m;
  on_trace : exists evs, rm_trace r' = evs ++ rm_trace r /\ Forall (about n) evs
}.

Lemma only_refl n r : only n r r.
Proof. constructor; [apply evolve_refl | auto | exists []; split; [reflexivity|constructor]]. Qed.

Lemma only_trans n a b c : only n a b -> only n b c -> only n a c.
Proof.
  intros [A1 A2 (ea & A3 & A4)] [B1 B2 (eb & B3 & B4)]. constructor.
  - eapply evolve_trans; eassumption.
  - intros m Hm. rewrite B2, A2; auto.
  - exists (eb ++ ea). rewrite B3, A3. split; [apply app_assoc|]. apply Forall_app. split; assumption.
Qed.

Lemma only_with_av n r s c : only n r (with_av r s c).
Proof. constructor; [apply evolve_with_av | auto | exists []; split; [reflexivity|constructor]]. Qed.
Lemma only_with_groups n r g : only n r (with_groups r g).
Proof. constructor; [apply evolve_with_groups | auto | exists []; split; [reflexivity|constructor]]. Qed.
Lemma only_set_group n r g v : only n r (set_group r g v).
Proof. unfold set_group. destruct (String.eqb g ""); [apply only_refl | apply only_with_groups]. Qed.

Definition names_ok (r : rm) : Prop := NoDup (map h_name (rm_hw r)).

Lemma only_step r n h h' t' :
  names_ok r -> find_hw r n = Some h -> ok_hw Unconfigured h (rm_trace r) h' t' ->
  only n r (with_trace (put_hw r h') t') /\
  find_hw (with_trace (put_hw r h') t') n = Some h'.
Proof.
  intros Hn Hf Hok. pose proof (find_hw_name _ _ _ Hf) as Hname.
  pose proof Hok as ((S1 & _) & (evs & Et & Hevs) & _). split.
  - constructor.
    + eapply evolve_step; eassumption.
    + intros m Hm. change (find_hw (put_hw r h') m = find_hw r m). apply find_put_other. congruence.
    + exists evs. split; [exact Et|]. rewrite <- Hname. exact Hevs.
  - change (find_hw (put_hw r h') n = Some h'). eapply find_put_same; [exact Hf|congruence].
Qed.

Lemma names_ok_evolve r r' : evolve r r' -> names_ok r -> names_ok r'.
Proof. unfold names_ok. intros H. rewrite (evolve_names _ _ H). auto. Qed.

(** ---------------------------------------------------------------- transitions *)

Definition conforming (f : env -> hwc -> trace -> hres) : Prop :=
  forall e h t, ok_hw Unconfigured h t (fst (fst (f e h t))) (snd (fst (f e h t))).

Lemma run_transition_only e f target r h n :
  conforming f -> names_ok r -> find_hw r n = Some h ->
  only n r (fst (run_transition e f target r h)) /\
  find_hw (fst (run_transition e f target r h)) n = Some (fst (fst (f e h (rm_trace r)))) /\
  snd (run_transition e f target r h)
    = negb (snd (f e h (rm_trace r))) && lc_eqb (h_lc (fst (fst (f e h (rm_trace r))))) target.
Proof.
  intros Hc Hn Hf. unfold run_transition. specialize (Hc e h (rm_trace r)).
  destruct (f e h (rm_trace r)) as [[h' t'] thr]. simpl in *.
  destruct (only_step r n h h' t' Hn Hf Hc) as [H1 H2]. auto.
Qed.

Lemma conf_configure : conforming hw_configure.
Proof. intros e h t. apply ok_hw_configure. Qed.
Lemma conf_cleanup : conforming hw_cleanup.
Proof. intros e h t. apply ok_hw_cleanup. Qed.
Lemma conf_shutdown : conforming hw_shutdown.
Proof. intros e h t. apply ok_hw_shutdown. Qed.
Lemma conf_activate : conforming hw_activate.
Proof. intros e h t. apply ok_hw_activate. Qed.
Lemma conf_deactivate : conforming hw_deactivate.
Proof. intros e h t. apply ok_hw_deactivate. Qed.

(** What every *_hardware function guarantees: only component n moves; success means target. *)
Definition hwop_ok (n : name) (target : lc) (r : rm) (x : rm * bool) : Prop :=
  only n r (fst x) /\ (snd x = true -> lc_of (fst x) n = Some target).

Ltac use_rt f conf Hn Hf :=
  match goal with
  | |- context [run_transition ?e f ?tg ?r ?h] =>
      let H := fresh "RT" in
      pose proof (run_transition_only e f tg r h _ conf Hn Hf) as H;
      destruct (run_transition e f tg r h) as [r1 ok] eqn:?; simpl in H
  end.

Lemma find_set_group r g v n : find_hw (set_group r g v) n = find_hw r n.
Proof. unfold set_group. destruct (String.eqb g ""); reflexivity. Qed.

Lemma lc_from_rt (r1 : rm) n (h' : hwc) target (b : bool) :
  find_hw r1 n = Some h' -> b && lc_eqb (h_lc h') target = true -> lc_of r1 n = Some target.
Proof.
  intros H1 H2. unfold lc_of. rewrite H1. simpl. apply andb_prop in H2. destruct H2 as [_ H2].
  apply lc_eqb_eq in H2. congruence.
Qed.

Lemma configure_hardware_ok e r h n : names_ok r -> find_hw r n = Some h ->
  hwop_ok n Inactive r (configure_hardware e r h).
Proof.
  intros Hn Hf. unfold configure_hardware. use_rt hw_configure conf_configure Hn Hf.
  destruct RT as (R1 & R2 & R3). split; simpl.
  - eapply only_trans; [exact R1|]. eapply only_trans; [|apply only_set_group].
    destruct ok; [apply only_with_av|apply only_refl].
  - intros ->. unfold lc_of. rewrite find_set_group. change (lc_of r1 n = Some Inactive).
    eapply lc_from_rt; [exact R2|]. symmetry. exact R3.
Qed.

Lemma cleanup_hardware_ok e r h n : names_ok r -> find_hw r n = Some h ->
  hwop_ok n Unconfigured r (cleanup_hardware e r h).
Proof.
  intros Hn Hf. unfold cleanup_hardware. use_rt hw_cleanup conf_cleanup Hn Hf.
  destruct RT as (R1 & R2 & R3). split; simpl.
  - eapply only_trans; [exact R1|]. eapply only_trans; [|apply only_set_group].
    destruct ok; [apply only_with_av|apply only_refl].
  - intros ->. unfold lc_of. rewrite find_set_group. change (lc_of r1 n = Some Unconfigured).
    eapply lc_from_rt; [exact R2|]. symmetry. exact R3.
Qed.

Lemma shutdown_hardware_ok e r h n : names_ok r -> find_hw r n = Some h ->
  hwop_ok n Finalized r (shutdown_hardware e r h).
Proof.
  intros Hn Hf. unfold shutdown_hardware. use_rt hw_shutdown conf_shutdown Hn Hf.
  destruct RT as (R1 & R2 & R3). split; simpl.
  - eapply only_trans; [exact R1|]. destruct ok; [|apply only_refl].
    eapply only_trans; [|apply only_set_group]. apply only_with_av.
  - intros ->. unfold lc_of. rewrite find_set_group. change (lc_of r1 n = Some Finalized).
    eapply lc_from_rt; [exact R2|]. symmetry. exact R3.
Qed.

Lemma activate_hardware_ok e r h n : names_ok r -> find_hw r n = Some h ->
  hwop_ok n Active r (activate_hardware e r h).
Proof.
  intros Hn Hf. unfold activate_hardware. use_rt hw_activate conf_activate Hn Hf.
  destruct RT as (R1 & R2 & R3). split; simpl; [exact R1|]. intros ->.
  eapply lc_from_rt; [exact R2|]. symmetry. exact R3.
Qed.

Lemma deactivate_hardware_ok e r h n : names_ok r -> find_hw r n = Some h ->
  hwop_ok n Inactive r (deactivate_hardware e r h).
Proof.
  intros Hn Hf. unfold deactivate_hardware. use_rt hw_deactivate conf_deactivate Hn Hf.
  destruct RT as (R1 & R2 & R3). split; simpl; [exact R1|]. intros ->.
  eapply lc_from_rt; [exact R2|]. symmetry. exact R3.
Qed.

Lemma then_hw_ok n r x f mid target :
  names_ok r ->
  hwop_ok n mid r x ->
  (forall r' h', names_ok r' -> find_hw r' n = Some h' -> hwop_ok n target r' (f r' h')) ->
  hwop_ok n target r (then_hw x n f).
Proof.
  intros Hn [H1 H2] Hfk. destruct x as [r1 ok]. simpl in *. unfold then_hw.
  pose proof (names_ok_evolve _ _ (on_ev _ _ _ H1) Hn) as Hn1.
  destruct ok; [|split; [exact H1|discriminate]].
  destruct (find_hw r1 n) as [h1|] eqn:E; [|split; [exact H1|discriminate]].
  destruct (Hfk r1 h1 Hn1 E) as [K1 K2]. split; [|exact K2]. eapply only_trans; eassumption.
Qed.

Lemma set_state_of_ok e r n h target : names_ok r -> find_hw r n = Some h ->
  hwop_ok n target r (set_state_of e r h target).
Proof.
  intros Hn Hf. pose proof (find_hw_name _ _ _ Hf) as Hname.
  assert (Hself : h_lc h = target -> hwop_ok n target r (r, true)).
  { intros <-. split; [apply only_refl|]. intros _. unfold lc_of. simpl. rewrite Hf. reflexivity. }
  assert (Hfalse : hwop_ok n target r (r, false)).
  { split; [apply only_refl|]. discriminate. }
  unfold set_state_of. rewrite Hname.
  destruct target, (h_lc h) eqn:E; auto.
  - apply cleanup_hardware_ok; assumption.
  - eapply then_hw_ok; [assumption | apply deactivate_hardware_ok; eassumption |].
    intros. apply cleanup_hardware_ok; assumption.
  - apply configure_hardware_ok; assumption.
  - apply deactivate_hardware_ok; assumption.
  - eapply then_hw_ok; [assumption | apply configure_hardware_ok; eassumption |].
    intros. apply activate_hardware_ok; assumption.
  - apply activate_hardware_ok; assumption.
  - apply shutdown_hardware_ok; assumption.
  - apply shutdown_hardware_ok; assumption.
  - eapply then_hw_ok; [assumption | apply deactivate_hardware_ok; eassumption |].
    intros. apply shutdown_hardware_ok; assumption.
Qed.

Lemma set_component_state_ok e r n target : names_ok r ->
  hwop_ok n target r (set_component_state e r n target).
Proof.
  intros Hn. unfold set_component_state. destruct (find_hw r n) as [h|] eqn:E.
  - apply set_state_of_ok; assumption.
  - split; [apply only_refl | discriminate].
Qed.

Lemma rm_error_only e r n : names_ok r -> only n r (rm_error e r n).
Proof.
  intros Hn. unfold rm_error. destruct (find_hw r n) as [h|] eqn:E; [|apply only_refl].
  pose proof (ok_hw_error Unconfigured e h (rm_trace r)) as H.
  destruct (hw_error e h (rm_trace r)) as [h' t'].
  apply (only_step r n h h' t' Hn E H).
Qed.

Lemma update_group_only n r g v : only n r (fst (update_group r g v)).
Proof. unfold update_group. destruct (String.eqb g ""); simpl; [apply only_refl|apply only_with_groups]. Qed.

Lemma read_ret_only e r n h : names_ok r -> find_hw r n = Some h -> only n r (fst (read_ret e r h)).
Proof.
  intros Hn Hf. unfold read_ret.
  destruct (h_rated h && negb (e_due e (rm_trace r) (h_name h))); [apply update_group_only|].
  pose proof (ok_hw_read Unconfigured e h (rm_trace r)) as H.
  destruct (hw_read e h (rm_trace r)) as [[h' t'] res]. simpl in H.
  destruct (only_step r n h h' t' Hn Hf H) as [H1 _].
  destruct res; [eapply only_trans; [exact H1|apply update_group_only] | exact H1].
Qed.

Lemma write_ret_only e r n h : names_ok r -> find_hw r n = Some h -> only n r (fst (write_ret e r h)).
Proof.
  intros Hn Hf. unfold write_ret.
  destruct (h_rated h && negb (e_due e (rm_trace r) (h_name h))); [apply update_group_only|].
  pose proof (ok_hw_write Unconfigured e h (rm_trace r)) as H.
  destruct (hw_write e h (rm_trace r)) as [[h' t'] res]. simpl in H.
  destruct (only_step r n h h' t' Hn Hf H) as [H1 _].
  destruct res; [eapply only_trans; [exact H1|apply update_group_only] | exact H1].
Qed.

Lemma read_one_only e r st n : names_ok r -> only n r (fst (read_one e (r, st) n)).
Proof.
  intros Hn. unfold read_one. destruct (find_hw r n) as [h|] eqn:E; [|apply only_refl].
  destruct (e_locked e (rm_trace r) n); [apply only_refl|].
  pose proof (read_ret_only e r n h Hn E) as H. destruct (read_ret e r h) as [r1 v]. simpl in H.
  pose proof (names_ok_evolve _ _ (on_ev _ _ _ H) Hn) as Hn1.
  destruct v; simpl; [exact H| |]; (eapply only_trans; [exact H|]; eapply only_trans;
    [apply rm_error_only; exact Hn1 | apply only_with_av]).
Qed.

Lemma write_one_only e r st n : names_ok r -> only n r (fst (write_one e (r, st) n)).
Proof.
  intros Hn. unfold write_one. destruct (find_hw r n) as [h|] eqn:E; [|apply only_refl].
  destruct (e_locked e (rm_trace r) n); [apply only_refl|].
  pose proof (write_ret_only e r n h Hn E) as H. destruct (write_ret e r h) as [r1 v]. simpl in H.
  pose proof (names_ok_evolve _ _ (on_ev _ _ _ H) Hn) as Hn1.
  destruct v; simpl; [exact H| |].
  - eapply only_trans; [exact H|]. eapply only_trans; [apply rm_error_only; exact Hn1|apply only_with_av].
  - eapply only_trans; [exact H|]. apply (set_component_state_ok e r1 n Inactive Hn1).
Qed.

Lemma fold_evolve {B} (f : rm * B -> name -> rm * B) l : forall r b,
  (forall r b n, names_ok r -> evolve r (fst (f (r, b) n))) ->
  names_ok r -> evolve r (fst (fold_left f l (r, b))).
Proof.
  induction l as [|n l IH]; intros r b Hf Hn; simpl; [apply evolve_refl|].
  pose proof (Hf r b n Hn) as H1. destruct (f (r, b) n) as [r1 b1] eqn:E. simpl in H1.
  eapply evolve_trans; [exact H1|]. apply IH; [exact Hf|]. eapply names_ok_evolve; eassumption.
Qed.

Lemma rm_read_evolve e r : names_ok r -> evolve r (fst (rm_read e r)).
Proof.
  intros Hn. unfold rm_read. apply fold_evolve; [|exact Hn].
  intros r0 b n H. apply (on_ev n). apply read_one_only. exact H.
Qed.
Lemma rm_write_evolve e r : names_ok r -> evolve r (fst (rm_write e r)).
Proof.
  intros Hn. unfold rm_write. apply fold_evolve; [|exact Hn].
  intros r0 b n H. apply (on_ev n). apply write_one_only. exact H.
Qed.
Lemma shutdown_components_evolve e r : names_ok r -> evolve r (fst (shutdown_components e r)).
Proof.
  intros Hn. unfold shutdown_components. apply fold_evolve; [|exact Hn].
  intros r0 b n H. destruct (set_component_state_ok e r0 n Finalized H) as [K _].
  destruct (set_component_state e r0 n Finalized). simpl in *. apply (on_ev n). exact K.
Qed.

(** mode switch: events only, states unchanged *)
Lemma mode_loop_evolve e op allow start stop hs : forall r ret,
  names_ok r ->
  (forall h, In h hs -> find_hw r (h_name h) = Some h /\ h_kind h <> Sensor) ->
  evolve r (fst (mode_loop e op allow start stop hs r ret)) /\
  rm_hw (fst (mode_loop e op allow start stop hs r ret)) = rm_hw r.
Proof.
  induction hs as [|h hs IH]; intros r ret Hn Hin; [split; [apply evolve_refl|reflexivity]|].
  assert (Hin' : forall h0, In h0 hs -> find_hw r (h_name h0) = Some h0 /\ h_kind h0 <> Sensor)
    by (intros; apply Hin; right; assumption).
  destruct (Hin h (or_introl eq_refl)) as [Hf Hk].
  cbn [mode_loop].
  assert (G : evolve r (fst
     (if negb match common_itfs (h_cmd h) start with [] => true | _ => false end && lc_eqb (h_lc h) Inactive && negb allow
      then (r, false)
      else match h_lc h with
           | Inactive | Active =>
               let '(res, t') := mode_call e op (rm_trace r) (h_name h) (common_itfs (h_cmd h) start) (common_itfs (h_cmd h) stop) in
               mode_loop e op allow start stop hs (with_trace r t') match res with Ret ROk => ret | _ => false end
           | _ => mode_loop e op allow start stop hs r false
           end)) /\
    rm_hw (fst
     (if negb match common_itfs (h_cmd h) start with [] => true | _ => false end && lc_eqb (h_lc h) Inactive && negb allow
      then (r, false)
      else match h_lc h with
           | Inactive | Active =>
               let '(res, t') := mode_call e op (rm_trace r) (h_name h) (common_itfs (h_cmd h) start) (common_itfs (h_cmd h) stop) in
               mode_loop e op allow start stop hs (with_trace r t') match res with Ret ROk => ret | _ => false end
           | _ => mode_loop e op allow start stop hs r false
           end)) = rm_hw r).
  { destruct (negb _ && _ && _); [split; [apply evolve_refl|reflexivity]|].
    assert (K : configured (h_lc h) ->
      evolve r (with_trace r (snd (mode_call e op (rm_trace r) (h_name h) (common_itfs (h_cmd h) start) (common_itfs (h_cmd h) stop))))).
    { intros Hc. destruct op; simpl.
      - constructor; simpl; auto using Forall2_same_static_refl.
        + eexists [_]. split; [reflexivity|]. constructor; [exists (h_name h); reflexivity|constructor].
        + intros HL m hm Hm. cbn [lives rm_trace]. change (find_hw r m = Some hm) in Hm.
          simpl. rewrite (HL m hm Hm). cbn [life].
          destruct (String.eqb_spec (h_name h) m) as [E|E]; [|reflexivity]. simpl.
          rewrite <- E, Hf in Hm. inversion Hm; subst hm.
          destruct (h_kind h); try congruence; destruct Hc as [-> | ->]; reflexivity.
      - constructor; simpl; auto using Forall2_same_static_refl.
        + eexists [_]. split; [reflexivity|]. constructor; [exists (h_name h); reflexivity|constructor].
        + intros HL m hm Hm. cbn [lives rm_trace]. change (find_hw r m = Some hm) in Hm.
          simpl. rewrite (HL m hm Hm). cbn [life].
          destruct (String.eqb_spec (h_name h) m) as [E|E]; [|reflexivity]. simpl.
          rewrite <- E, Hf in Hm. inversion Hm; subst hm.
          destruct (h_kind h); try congruence; destruct Hc as [-> | ->]; reflexivity. }
    destruct (h_lc h) eqn:El; try (apply IH; assumption).
    - specialize (K (or_introl eq_refl)).
      destruct (mode_call _ _ _ _ _ _) as [res t']. simpl in K.
      destruct (IH (with_trace r t') match res with Ret ROk => ret | _ => false end) as [I1 I2];
        [exact Hn | exact Hin'|]. split; [eapply evolve_trans; eassumption | exact I2].
    - specialize (K (or_intror eq_refl)).
      destruct (mode_call _ _ _ _ _ _) as [res t']. simpl in K.
      destruct (IH (with_trace r t') match res with Ret ROk => ret | _ => false end) as [I1 I2];
        [exact Hn | exact Hin'|]. split; [eapply evolve_trans; eassumption | exact I2]. }
  destruct (common_itfs (h_cmd h) start) as [|a s']; destruct (common_itfs (h_cmd h) stop) as [|b p'];
    first [exact G | apply IH; assumption].
Qed.

Lemma filter_In_find r (p : hwc -> bool) : names_ok r -> (forall h, p h = true -> h_kind h <> Sensor) ->
  forall h, In h (filter p (rm_hw r)) -> find_hw r (h_name h) = Some h /\ h_kind h <> Sensor.
Proof.
  intros Hn Hp h H. apply filter_In in H. destruct H as [H1 H2]. split; [|apply Hp; exact H2].
  apply In_find; assumption.
Qed.

Lemma act_not_sensor h : is_actuator h = true -> h_kind h <> Sensor.
Proof. unfold is_actuator. destruct (h_kind h); congruence. Qed.
Lemma sysm_not_sensor h : is_system h = true -> h_kind h <> Sensor.
Proof. unfold is_system. destruct (h_kind h); congruence. Qed.

Lemma mode_both_evolve e op allow start stop r : names_ok r ->
  let x := mode_loop e op allow start stop (filter is_actuator (rm_hw r)) r true in
  let y := mode_loop e op allow start stop (filter is_system (rm_hw r)) (fst x) true in
  evolve r (fst y) /\ rm_hw (fst y) = rm_hw r.
Proof.
  intros Hn x y.
  destruct (mode_loop_evolve e op allow start stop (filter is_actuator (rm_hw r)) r true Hn) as [A1 A2].
  { apply filter_In_find; [exact Hn | apply act_not_sensor]. }
  fold x in A1, A2.
  assert (Hn1 : names_ok (fst x)) by (eapply names_ok_evolve; eassumption).
  destruct (mode_loop_evolve e op allow start stop (filter is_system (rm_hw r)) (fst x) true Hn1) as [B1 B2].
  { rewrite <- A2. apply filter_In_find; [exact Hn1 | apply sysm_not_sensor]. }
  fold y in B1, B2. split; [eapply evolve_trans; eassumption | congruence].
Qed.

Lemma rm_prepare_evolve e allow r s p : names_ok r ->
  evolve r (fst (rm_prepare e allow r s p)) /\ rm_hw (fst (rm_prepare e allow r s p)) = rm_hw r.
Proof.
  intros Hn. unfold rm_prepare.
  destruct (both_empty s p); [split; [apply evolve_refl|reflexivity]|].
  destruct (negb _); [split; [apply evolve_refl|reflexivity]|].
  destruct (negb _); [split; [apply evolve_refl|reflexivity]|].
  pose proof (mode_both_evolve e MPrepare allow s p r Hn) as H. simpl in H.
  destruct (mode_loop e MPrepare allow s p (filter is_actuator (rm_hw r)) r true) as [r1 a].
  simpl in H. destruct (mode_loop e MPrepare allow s p (filter is_system (rm_hw r)) r1 true) as [r2 b].
  exact H.
Qed.
Lemma rm_perform_evolve e allow r s p : names_ok r ->
  evolve r (fst (rm_perform e allow r s p)) /\ rm_hw (fst (rm_perform e allow r s p)) = rm_hw r.
Proof.
  intros Hn. unfold rm_perform.
  destruct (both_empty s p); [split; [apply evolve_refl|reflexivity]|].
  pose proof (mode_both_evolve e MPerform allow s p r Hn) as H. simpl in H.
  destruct (mode_loop e MPerform allow s p (filter is_actuator (rm_hw r)) r true) as [r1 a].
  simpl in H. destruct (mode_loop e MPerform allow s p (filter is_system (rm_hw r)) r1 true) as [r2 b].
  exact H.
Qed.
