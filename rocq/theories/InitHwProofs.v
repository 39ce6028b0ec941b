(** InitHwProofs.v *)
From Coq Require Import Permutation.
From Verif Require Import Base Events HwModel RmModel RmSys RmSpec HwProofs RmProofs RmMain InitHwModel InitHwSpec.
Open Scope string_scope.
Open Scope list_scope.

(** only the components of [ns] were touched *)
Record frame (ns : list name) (r r' : rm) : Prop := {
  fr_names : names_ok r';
  fr_lc : forall m, ~ In m ns -> lc_of r' m = lc_of r m;
  fr_trace : forall ev, In ev (rm_trace r) -> In ev (rm_trace r');
  fr_group : forall m, group_of r' m = group_of r m;
  fr_known : forall m, lc_of r' m = None <-> lc_of r m = None
}.
Lemma frame_refl ns r : names_ok r -> frame ns r r.
Proof. constructor; auto. reflexivity. Qed.
Lemma frame_trans ns a b c : frame ns a b -> frame ns b c -> frame ns a c.
Proof.
  intros [A1 A2 A3 A4 A5] [B1 B2 B3 B4 B5]. constructor; auto.
  - intros m H. rewrite B2, A2; auto.
  - intros. rewrite B4. apply A4.
  - intros m. rewrite B5. apply A5.
Qed.
Lemma frame_weaken ns ns' r r' : (forall n, In n ns -> In n ns') -> frame ns r r' -> frame ns' r r'.
Proof. intros H [A1 A2 A3 A4 A5]. constructor; auto. Qed.

Lemma find_hw_static r r' m : Forall2 same_static (rm_hw r) (rm_hw r') ->
  match find_hw r m, find_hw r' m with
  | Some h, Some h' => same_static h h' | None, None => True | _, _ => False end.
Proof.
  unfold find_hw. intros H. induction H as [|h h' l l' S _ IH]; [exact I|]. cbn.
  pose proof S as S'. unfold same_static in S'. destruct S' as (E & _). rewrite E.
  destruct (String.eqb (h_name h) m); [exact S|exact IH].
Qed.
Lemma static_group h h' : same_static h h' -> h_group h = h_group h'.
Proof. unfold same_static. intuition congruence. Qed.

Lemma set_frame e r n target : names_ok r -> frame [n] r (fst (set_component_state e r n target)).
Proof.
  intros Hn. destruct (set_component_state_ok e r n target Hn) as [[EV O T] _].
  destruct (set_component_state e r n target) as [r1 ok]. cbn [fst] in *.
  pose proof (ev_static _ _ EV) as ST. constructor.
  - eapply names_ok_evolve; eassumption.
  - intros m Hm. unfold lc_of. rewrite O; [reflexivity|]. intros ->. apply Hm. now left.
  - destruct T as (evs & -> & _). intros ev H. apply in_or_app. now right.
  - intros m. unfold group_of. pose proof (find_hw_static r r1 m ST) as F.
    destruct (find_hw r m), (find_hw r1 m); try contradiction; [symmetry; now apply static_group|reflexivity].
  - intros m. unfold lc_of. pose proof (find_hw_static r r1 m ST) as F.
    destruct (find_hw r m), (find_hw r1 m); try contradiction; cbn; split; congruence.
Qed.
Lemma set_true e r n target : names_ok r -> snd (set_component_state e r n target) = true ->
  lc_of (fst (set_component_state e r n target)) n = Some target.
Proof. intros Hn. apply (set_component_state_ok e r n target Hn). Qed.

Lemma lc_put r h t n : find_hw r n <> None -> h_name h = n -> names_ok r -> lc_of (with_trace (put_hw r h) t) n = Some (h_lc h).
Proof.
  intros Hf Hn Hok. unfold lc_of, find_hw in *. cbn. unfold put_hw_list.
  induction (rm_hw r) as [|x l IH]; cbn in *; [congruence|].
  destruct (String.eqb (h_name x) n) eqn:E.
  - apply String.eqb_eq in E. rewrite <- Hn in E |- *. rewrite E, String.eqb_refl. cbn. rewrite String.eqb_refl. reflexivity.
  - rewrite <- Hn in E |- *. rewrite E. cbn. rewrite E. rewrite <- Hn in IH, Hf. apply IH. exact Hf.
Qed.

(** a component going up that fails is not active afterwards, and one of its callbacks did not succeed *)
Definition up_failed (n : name) (t : trace) : Prop := cb_failed n HConfigure t \/ cb_failed n HActivate t.
Lemma find_some r n h : find_hw r n = Some h -> find_hw r n <> None /\ h_name h = n.
Proof. intros H. split; [congruence|]. eapply find_hw_name; exact H. Qed.

Ltac event := eexists; split; [left; reflexivity|discriminate].
Ltac event2 := eexists; split; [right; left; reflexivity|discriminate].
Lemma lc_eqb_refl' l : lc_eqb l l = true. Proof. destruct l; reflexivity. Qed.

Lemma run_up e r h n : names_ok r -> find_hw r n = Some h -> h_lc h = Inactive ->
  snd (run_transition e hw_activate Active r h) = false ->
  lc_of (fst (run_transition e hw_activate Active r h)) n <> Some Active /\
  cb_failed n HActivate (rm_trace (fst (run_transition e hw_activate Active r h))).
Proof.
  intros Hok Hf El. destruct (find_some _ _ _ Hf) as [Hne Hn]. unfold run_transition, hw_activate. rewrite El. unfold call.
  destruct (e_hw e (rm_trace r) (h_name h) HActivate) eqn:Ec; cbn [fst snd].
  - cbn. discriminate.
  - intros _. rewrite lc_put by (auto; now cbn). split; [discriminate|]. rewrite <- Hn. event.
  - unfold then_error, hw_error. rewrite El. cbn [fst snd]. intros _. rewrite lc_put by (auto; now cbn). cbn.
    split; [destruct (e_hw_error _ _ _); discriminate|]. rewrite <- Hn. event2.
  - intros _. rewrite lc_put by auto. split; [congruence|]. rewrite <- Hn. event.
Qed.
Lemma run_conf e r h n : names_ok r -> find_hw r n = Some h -> h_lc h = Unconfigured ->
  snd (run_transition e hw_configure Inactive r h) = false ->
  lc_of (fst (run_transition e hw_configure Inactive r h)) n <> Some Active /\
  cb_failed n HConfigure (rm_trace (fst (run_transition e hw_configure Inactive r h))).
Proof.
  intros Hok Hf El. destruct (find_some _ _ _ Hf) as [Hne Hn]. unfold run_transition, hw_configure. rewrite El. unfold call.
  destruct (e_hw e (rm_trace r) (h_name h) HConfigure) eqn:Ec; cbn [fst snd].
  - cbn. discriminate.
  - intros _. rewrite lc_put by (auto; now cbn). split; [discriminate|]. rewrite <- Hn. event.
  - unfold then_error, hw_error. rewrite El. cbn [fst snd]. intros _. rewrite lc_put by auto.
    split; [congruence|]. rewrite <- Hn. event.
  - intros _. rewrite lc_put by auto. split; [congruence|]. rewrite <- Hn. event.
Qed.
Lemma lc_groups r g v n : lc_of (set_group r g v) n = lc_of r n.
Proof. unfold set_group. destruct (String.eqb g ""); reflexivity. Qed.
Lemma tr_groups r g v : rm_trace (set_group r g v) = rm_trace r.
Proof. unfold set_group. destruct (String.eqb g ""); reflexivity. Qed.
Lemma conf_hw e r h n : names_ok r -> find_hw r n = Some h -> h_lc h = Unconfigured ->
  snd (configure_hardware e r h) = false ->
  lc_of (fst (configure_hardware e r h)) n <> Some Active /\ cb_failed n HConfigure (rm_trace (fst (configure_hardware e r h))).
Proof.
  intros Hok Hf El. pose proof (run_conf e r h n Hok Hf El) as Q. unfold configure_hardware.
  destruct (run_transition e hw_configure Inactive r h) as [r1 ok]. cbn [fst snd] in *. intros ->.
  rewrite lc_groups, tr_groups. auto.
Qed.
Lemma set_inactive_fail e r n : names_ok r -> lc_of r n = Some Unconfigured \/ lc_of r n = Some Inactive ->
  snd (set_component_state e r n Inactive) = false ->
  lc_of (fst (set_component_state e r n Inactive)) n <> Some Active /\
  up_failed n (rm_trace (fst (set_component_state e r n Inactive))).
Proof.
  intros Hok Hl. unfold set_component_state. unfold lc_of in Hl. destruct (find_hw r n) as [h|] eqn:Hf; [|destruct Hl; discriminate].
  cbn in Hl. unfold set_state_of. destruct Hl as [E|E]; injection E as E; rewrite E; [|discriminate].
  intros H. destruct (conf_hw e r h n Hok Hf E H). split; [assumption|left; assumption].
Qed.
Lemma set_active_fail e r n : names_ok r -> lc_of r n = Some Unconfigured \/ lc_of r n = Some Inactive ->
  snd (set_component_state e r n Active) = false ->
  lc_of (fst (set_component_state e r n Active)) n <> Some Active /\
  up_failed n (rm_trace (fst (set_component_state e r n Active))).
Proof.
  intros Hok Hl. unfold set_component_state. unfold lc_of in Hl. destruct (find_hw r n) as [h|] eqn:Hf; [|destruct Hl; discriminate].
  cbn in Hl. unfold set_state_of. destruct Hl as [E|E]; injection E as E; rewrite E.
  - unfold then_hw. pose proof (conf_hw e r h n Hok Hf E) as Q.
    pose proof (set_frame e r n Inactive Hok) as FR. pose proof (set_true e r n Inactive Hok) as TR.
    unfold set_component_state in FR, TR. rewrite Hf in FR, TR. unfold set_state_of in FR, TR. rewrite E in FR, TR.
    destruct (find_some _ _ _ Hf) as [_ Hn].
    destruct (configure_hardware e r h) as [r1 ok]. cbn [fst snd] in *. destruct ok.
    + rewrite Hn. specialize (TR eq_refl). unfold lc_of in TR. destruct (find_hw r1 n) as [h1|] eqn:Hf1; [|discriminate].
      injection TR as TR. intros H. destruct (run_up e r1 h1 n (fr_names _ _ _ FR) Hf1 TR H). split; [assumption|right; assumption].
    + intros _. destruct (Q eq_refl). split; [assumption|left; assumption].
  - intros H. destruct (run_up e r h n Hok Hf E H). split; [assumption|right; assumption].
Qed.
Lemma set_down_fail e r n : names_ok r -> lc_of r n = Some Active ->
  snd (set_component_state e r n Inactive) = false ->
  cb_failed n HDeactivate (rm_trace (fst (set_component_state e r n Inactive))).
Proof.
  intros Hok Hl. unfold set_component_state. unfold lc_of in Hl. destruct (find_hw r n) as [h|] eqn:Hf; [|discriminate].
  cbn in Hl. injection Hl as El. unfold set_state_of. rewrite El. destruct (find_some _ _ _ Hf) as [_ Hn].
  unfold deactivate_hardware, run_transition, hw_deactivate. rewrite El. unfold call.
  destruct (e_hw e (rm_trace r) (h_name h) HDeactivate) eqn:Ec; cbn [fst snd].
  - cbn. discriminate.
  - intros _. rewrite <- Hn. event.
  - unfold then_error, hw_error. rewrite El. cbn [fst snd]. intros _. rewrite <- Hn. event2.
  - intros _. rewrite <- Hn. event.
Qed.

(** --- the loops *)
Lemma in_app_cons {A} (x y : A) l : In x (l ++ [y]) <-> In x l \/ x = y.
Proof. rewrite in_app_iff. cbn. intuition. Qed.

(** try_all without shutdown: members done have the target, the failing one and the rest are described *)
Lemma try_all_ok e target ns : forall r done, names_ok r -> NoDup ns ->
  exists r' d b, try_all e false target ns r done = Done r' (d, b) /\ frame ns r r' /\
  exists pre, d = done ++ pre /\ (forall n, In n pre -> In n ns /\ lc_of r' n = Some target) /\
  if b then exists n post, ns = pre ++ n :: post /\ (forall m, In m post -> lc_of r' m = lc_of r m) /\
       ((target = Inactive \/ target = Active) -> lc_of r n = Some Unconfigured \/ lc_of r n = Some Inactive ->
        lc_of r' n <> Some Active /\ up_failed n (rm_trace r'))
  else pre = ns.
Proof.
  induction ns as [|n ns IH]; intros r done Hn Hd; cbn [try_all].
  - exists r, done, false. split; [reflexivity|]. split; [now apply frame_refl|]. exists []. rewrite app_nil_r.
    split; [reflexivity|]. split; [intros n []|reflexivity].
  - pose proof (set_frame e r n target Hn) as F. pose proof (set_true e r n target Hn) as T.
    pose proof (set_inactive_fail e r n Hn) as FI. pose proof (set_active_fail e r n Hn) as FA.
    inversion Hd as [|? ? Hnin Hd']; subst.
    destruct (set_component_state e r n target) as [r1 ok] eqn:ES. cbn [fst snd] in *. destruct ok.
    + destruct (IH r1 (done ++ [n]) (fr_names _ _ _ F) Hd') as (r' & d & b & E & F' & pre & Ed & Hpre & Hb).
      exists r', d, b. split; [exact E|]. split.
      { eapply frame_trans; [eapply frame_weaken; [|exact F]|eapply frame_weaken; [|exact F']].
        - intros m [<-|[]]. now left.
        - intros m Hm. now right. }
      exists (n :: pre). split; [rewrite Ed, <- app_assoc; reflexivity|]. split.
      * intros m [<-|Hm].
        -- split; [now left|]. rewrite (fr_lc _ _ _ F') by assumption. auto.
        -- destruct (Hpre m Hm). split; [now right|assumption].
      * destruct b.
        -- destruct Hb as (k & post & -> & Hpost & Hk). exists k, post. split; [reflexivity|].
           assert (Hfar : forall m, m = k \/ In m post -> lc_of r1 m = lc_of r m).
           { intros m Hm. apply (fr_lc _ _ _ F). intros [<-|[]]. apply Hnin. apply in_or_app. right. cbn. destruct Hm; auto. }
           split; [intros m Hm; rewrite Hpost by exact Hm; apply Hfar; now right|].
           rewrite <- (Hfar k) by now left. exact Hk.
        -- now subst.
    + exists r1, done, true. split; [reflexivity|]. split.
      { eapply frame_weaken; [|exact F]. intros m [<-|[]]. now left. }
      exists []. rewrite app_nil_r. split; [reflexivity|]. split; [intros m []|].
      exists n, ns. split; [reflexivity|]. split.
      * intros m Hm. apply (fr_lc _ _ _ F). intros [<-|[]]. contradiction.
      * intros Ht Hl. destruct Ht; subst target; rewrite ES in *; cbn [fst snd] in *; auto.
Qed.
Lemma roll_back_ok e ns : forall r, names_ok r -> NoDup ns -> (forall n, In n ns -> lc_of r n = Some Active) ->
  frame ns r (roll_back e ns r) /\
  forall n, In n ns -> lc_of (roll_back e ns r) n = Some Inactive \/ cb_failed n HDeactivate (rm_trace (roll_back e ns r)).
Proof.
  induction ns as [|n ns IH]; intros r Hn Hd Ha; cbn [roll_back].
  - split; [now apply frame_refl|intros n []].
  - pose proof (set_frame e r n Inactive Hn) as F. pose proof (set_true e r n Inactive Hn) as T.
    pose proof (set_down_fail e r n Hn (Ha n (or_introl eq_refl))) as D. inversion Hd as [|? ? Hnin Hd']; subst.
    destruct (set_component_state e r n Inactive) as [r1 ok]. cbn [fst snd] in *.
    destruct (IH r1 (fr_names _ _ _ F) Hd') as [F' Q].
    { intros m Hm. rewrite (fr_lc _ _ _ F); [apply Ha; now right|]. intros [<-|[]]. contradiction. }
    split.
    + eapply frame_trans; [eapply frame_weaken; [|exact F]|eapply frame_weaken; [|exact F']].
      * intros m [<-|[]]. now left.
      * intros m Hm. now right.
    + intros m [<-|Hm]; [|auto]. destruct ok.
      * left. rewrite (fr_lc _ _ _ F') by assumption. auto.
      * right. destruct (D eq_refl) as (c & Hc & Hc'). exists c. split; [apply (fr_trace _ _ _ F'); exact Hc|exact Hc'].
Qed.

Definition settled (r : rm) (ns : list name) : Prop :=
  (forall n, In n ns -> is_active r n) \/
  (exists n, In n ns /\ up_failed n (rm_trace r)) /\
  (forall n, In n ns -> ~ is_active r n \/ cb_failed n HDeactivate (rm_trace r)).
Definition fresh_up (r : rm) (n : name) : Prop := lc_of r n = Some Unconfigured \/ lc_of r n = Some Inactive.

Lemma up_mono n r r' : (forall ev, In ev (rm_trace r) -> In ev (rm_trace r')) -> up_failed n (rm_trace r) -> up_failed n (rm_trace r').
Proof. intros H [(c & ? & ?)|(c & ? & ?)]; [left|right]; exists c; auto. Qed.

Lemma one_group_ok e ms r : names_ok r -> NoDup ms -> (forall n, In n ms -> fresh_up r n) ->
  exists r', one_group e false ms r = Done r' tt /\ frame ms r r' /\ settled r' ms.
Proof.
  intros Hn Hd Hf. unfold one_group.
  destruct (try_all_ok e Inactive ms r [] Hn Hd) as (r1 & d & b & E & F & pre & Ed & Hpre & Hb). rewrite E. cbn in Ed. subst d.
  destruct b.
  - exists r1. split; [reflexivity|]. split; [exact F|]. right.
    destruct Hb as (k & post & -> & Hpost & Hk).
    destruct (Hk (or_introl eq_refl) (Hf k ltac:(apply in_or_app; right; now left))) as [K1 K2]. split.
    + exists k. split; [apply in_or_app; right; now left|exact K2].
    + intros n Hin. left. unfold is_active. apply in_app_or in Hin as [H|[<-|H]].
      * destruct (Hpre n H) as [_ ->]. discriminate.
      * exact K1.
      * rewrite (Hpost n H). destruct (Hf n ltac:(apply in_or_app; right; now right)) as [-> | ->]; discriminate.
  - subst pre.
    destruct (try_all_ok e Active ms r1 [] (fr_names _ _ _ F) Hd) as (r2 & d & b & E2 & F2 & pre & Ed & Hpre2 & Hb). rewrite E2. cbn in Ed. subst d.
    destruct b.
    + destruct Hb as (k & post & Ems & Hpost & Hk).
      assert (Hk' : fresh_up r1 k) by (right; apply Hpre; rewrite Ems; apply in_or_app; right; now left).
      destruct (Hk (or_intror eq_refl) Hk') as [K1 K2].
      assert (Hdp : NoDup pre /\ ~ In k pre /\ (forall m, In m post -> ~ In m pre)).
      { rewrite Ems in Hd. clear -Hd. induction pre as [|x pre IH]; cbn in *.
        - split; [constructor|]. split; auto.
        - inversion Hd; subst. destruct (IH H2) as (A & B & C). rewrite in_app_iff in H1. cbn in H1. split; [constructor; auto|]. split.
          + intros [<-|H]; [apply H1; right; now left|auto].
          + intros m Hm [<-|H]; [apply H1; right; now right|eapply C; eassumption]. }
      destruct Hdp as (Hdp & Hkp & Hpp).
      destruct (roll_back_ok e pre r2 (fr_names _ _ _ F2) Hdp (fun n H => proj2 (Hpre2 n H))) as [F3 Q].
      eexists. split; [reflexivity|]. split.
      { eapply frame_trans; [exact F|]. eapply frame_trans; [exact F2|]. eapply frame_weaken; [|exact F3].
        intros n H. apply Hpre2. exact H. }
      right. split.
      * exists k. split; [rewrite Ems; apply in_or_app; right; now left|]. eapply up_mono; [|exact K2]. apply (fr_trace _ _ _ F3).
      * intros n Hin. rewrite Ems in Hin. unfold is_active. apply in_app_or in Hin as [H|[<-|H]].
        -- destruct (Q n H) as [->|]; [left; discriminate|now right].
        -- left. rewrite (fr_lc _ _ _ F3) by assumption. exact K1.
        -- left. rewrite (fr_lc _ _ _ F3) by (apply Hpp; exact H). rewrite (Hpost n H).
           assert (Hm : In n ms) by (rewrite Ems; apply in_or_app; right; now right).
           destruct (Hpre n Hm) as [_ ->]. discriminate.
    + subst pre. exists r2. split; [reflexivity|]. split; [eapply frame_trans; eassumption|]. left. intros n H. apply Hpre2. exact H.
Qed.

Lemma settled_frame ns ns' r r' : (forall n, In n ns -> ~ In n ns') -> frame ns' r r' -> settled r ns -> settled r' ns.
Proof.
  intros Hd F [H|[(k & Hk & Hu) H]].
  - left. intros n Hn. unfold is_active. rewrite (fr_lc _ _ _ F) by auto. now apply H.
  - right. split; [exists k; split; [exact Hk|eapply up_mono; [apply (fr_trace _ _ _ F)|exact Hu]]|].
    intros n Hn. destruct (H n Hn) as [Ha|(c & Hc & Hc')].
    + left. unfold is_active. rewrite (fr_lc _ _ _ F) by auto. exact Ha.
    + right. exists c. split; [apply (fr_trace _ _ _ F); exact Hc|exact Hc'].
Qed.
Lemma members_in r todo g n : In n (members r todo g) <-> In n todo /\ group_of r n = g.
Proof. unfold members. rewrite filter_In, String.eqb_eq. reflexivity. Qed.

Lemma groups_ok e todo r0 : NoDup todo -> forall gs r, NoDup gs -> names_ok r -> (forall g, In g gs -> forall n, In n (members r0 todo g) -> fresh_up r n) ->
  exists r', groups_loop e false todo gs r0 r = Done r' tt /\ frame (flat_map (members r0 todo) gs) r r' /\
  (forall g, In g gs -> settled r' (members r0 todo g)).
Proof.
  intros Hd. induction gs as [|g gs IH]; intros r Hg Hn Hf; cbn [groups_loop].
  - exists r. split; [reflexivity|]. split; [now apply frame_refl|intros g []].
  - inversion Hg as [|? ? Hnin Hg']; subst.
    destruct (one_group_ok e (members r0 todo g) r Hn (NoDup_filter _ Hd) (Hf g (or_introl eq_refl))) as (r1 & E & F & S). rewrite E.
    assert (Hdis : forall g' n, In g' gs -> In n (members r0 todo g) -> In n (members r0 todo g') -> False).
    { intros g' n Hg1 H1 H2. apply members_in in H1, H2. destruct H1 as [_ <-], H2 as [_ <-]. contradiction. }
    destruct (IH r1 Hg' (fr_names _ _ _ F)) as (r' & E' & F' & S').
    { intros g' Hg1 n H1. unfold fresh_up. rewrite (fr_lc _ _ _ F).
      - apply (Hf g'); [now right|exact H1].
      - intros H2. eapply Hdis; eassumption. }
    exists r'. split; [exact E'|]. split.
    + cbn [flat_map]. eapply frame_trans; [eapply frame_weaken; [|exact F]|eapply frame_weaken; [|exact F']].
      * intros n H. apply in_or_app. now left.
      * intros n H. apply in_or_app. now right.
    + intros g' [<-|H]; [|auto]. eapply settled_frame; [|exact F'|exact S].
      intros n H1 H2. apply in_flat_map in H2 as (g' & H2 & H3). eapply Hdis; eassumption.
Qed.
Lemma ungrouped_ok e ns : forall r, names_ok r -> NoDup ns -> (forall n, In n ns -> fresh_up r n) ->
  exists r', ungrouped_loop e false ns r = Done r' tt /\ frame ns r r' /\
  forall n, In n ns -> is_active r' n \/ (~ is_active r' n /\ up_failed n (rm_trace r')).
Proof.
  induction ns as [|n ns IH]; intros r Hn Hd Hf; cbn [ungrouped_loop].
  - exists r. split; [reflexivity|]. split; [now apply frame_refl|intros n []].
  - pose proof (set_frame e r n Active Hn) as F. pose proof (set_true e r n Active Hn) as T.
    pose proof (set_active_fail e r n Hn (Hf n (or_introl eq_refl))) as FA. inversion Hd as [|? ? Hnin Hd']; subst.
    destruct (set_component_state e r n Active) as [r1 ok]. cbn [fst snd] in *. rewrite andb_false_r.
    destruct (IH r1 (fr_names _ _ _ F) Hd') as (r' & E & F' & Q).
    { intros m Hm. unfold fresh_up. rewrite (fr_lc _ _ _ F); [apply Hf; now right|]. intros [<-|[]]. contradiction. }
    exists r'. split; [exact E|]. split.
    + eapply frame_trans; [eapply frame_weaken; [|exact F]|eapply frame_weaken; [|exact F']].
      * intros m [<-|[]]. now left.
      * intros m Hm. now right.
    + intros m [<-|Hm]; [|auto]. unfold is_active. rewrite (fr_lc _ _ _ F') by assumption. destruct ok.
      * left. auto.
      * right. destruct (FA eq_refl) as [A B]. split; [exact A|]. eapply up_mono; [apply (fr_trace _ _ _ F')|exact B].
Qed.

(** the listed components *)
Lemma set_listed_ok e target ns : (target = Unconfigured \/ target = Inactive) ->
  forall r todo, names_ok r -> NoDup todo -> (forall n, In n todo -> lc_of r n = Some Unconfigured) ->
  exists r' todo', set_listed e false target ns r todo = Done r' todo' /\ frame ns r r' /\ NoDup todo' /\
  (forall n, In n todo' <-> In n todo /\ (n = "" \/ ~ In n ns)) /\
  (forall n, In n todo' -> lc_of r' n = Some Unconfigured) /\
  (forall n, ~ In n todo -> lc_of r' n = lc_of r n) /\
  (forall n, In n todo -> ~ In n todo' -> lc_of r' n = Some target \/ (~ is_active r' n /\ up_failed n (rm_trace r'))).
Proof.
  intros Ht. induction ns as [|n ns IH]; intros r todo Hn Hd Hu; cbn [set_listed].
  - exists r, todo. split; [reflexivity|]. split; [now apply frame_refl|]. split; [exact Hd|].
    split; [intros n; cbn; tauto|]. split; [exact Hu|]. split; [auto|]. intros n H1 H2. contradiction.
  - destruct (String.eqb n "") eqn:En.
    { apply String.eqb_eq in En. subst n. destruct (IH r todo Hn Hd Hu) as (r' & todo' & E & F & A & B & C & D1 & D2).
      exists r', todo'. split; [exact E|]. split; [eapply frame_weaken; [|exact F]; intros m Hm; now right|]. split; [exact A|].
      split; [|split; [exact C|split; [exact D1|exact D2]]].
      intros m. rewrite B. cbn. split.
      - intros [H1 H2]. split; [exact H1|]. destruct H2 as [H2|H2]; [now left|]. destruct (string_dec m "") as [->|Hm]; [now left|].
        right. intros [H3|H3]; [congruence|contradiction].
      - intros [H1 [H2|H2]]; split; auto. }
    apply String.eqb_neq in En. destruct (mem n todo) eqn:Em.
    + assert (Hin : In n todo) by (unfold mem in Em; apply existsb_exists in Em as (x & Hx & Ex); apply String.eqb_eq in Ex; now subst).
      pose proof (set_frame e r n target Hn) as F. pose proof (set_true e r n target Hn) as T.
      assert (SF : snd (set_component_state e r n target) = false ->
          lc_of (fst (set_component_state e r n target)) n <> Some Active /\ up_failed n (rm_trace (fst (set_component_state e r n target)))).
      { destruct Ht as [-> | ->].
        - unfold set_component_state. pose proof (Hu n Hin) as El. unfold lc_of in El. destruct (find_hw r n) as [h|]; [|discriminate].
          cbn in El. injection El as El. unfold set_state_of. rewrite El. discriminate.
        - apply set_inactive_fail; [exact Hn|]. left. auto. }
      destruct (set_component_state e r n target) as [r1 ok]. cbn [fst snd] in *. rewrite andb_false_r.
      set (todo1 := filter (fun m => negb (String.eqb m n)) todo).
      assert (Ht1 : forall m, In m todo1 <-> In m todo /\ m <> n).
      { intros m. unfold todo1. rewrite filter_In, negb_true_iff, String.eqb_neq. reflexivity. }
      destruct (IH r1 todo1 (fr_names _ _ _ F)) as (r' & todo' & E & F' & A & B & C & D1 & D2).
      { apply NoDup_filter. exact Hd. }
      { intros m Hm. apply Ht1 in Hm as [H1 H2]. rewrite (fr_lc _ _ _ F); [auto|]. intros [<-|[]]. congruence. }
      exists r', todo'. split; [exact E|]. split.
      { eapply frame_trans; [eapply frame_weaken; [|exact F]|eapply frame_weaken; [|exact F']].
        - intros m [<-|[]]. now left.
        - intros m Hm. now right. }
      split; [exact A|]. split; [|split; [exact C|split]].
      * intros m. rewrite B, Ht1. cbn. split.
        -- intros [[H1 H2] H3]. split; [exact H1|]. destruct H3 as [H3|H3]; [now left|]. right. intros [H4|H4]; congruence.
        -- intros [H1 [H2|H2]].
           ++ subst m. split; [split; [exact H1|intros E0; apply En; now symmetry]|now left].
           ++ split; [split; [exact H1|intros ->; apply H2; now left]|]. right. intros H3. apply H2. now right.
      * intros m Hm. rewrite D1.
        -- apply (fr_lc _ _ _ F). intros [<-|[]]. contradiction.
        -- rewrite Ht1. tauto.
      * intros m H1 H2. destruct (string_dec m n) as [->|Hm].
        -- assert (E1 : lc_of r' n = lc_of r1 n) by (apply D1; rewrite Ht1; tauto). destruct ok.
           ++ left. rewrite E1. auto.
           ++ right. destruct (SF eq_refl) as [A1 A2]. unfold is_active. rewrite E1. split; [exact A1|].
              eapply up_mono; [apply (fr_trace _ _ _ F')|exact A2].
        -- apply D2; [rewrite Ht1; tauto|exact H2].
    + assert (Hnin : ~ In n todo).
      { intros H. assert (X : mem n todo = true) by (unfold mem; apply existsb_exists; exists n; split; [exact H|apply String.eqb_refl]). congruence. }
      destruct (IH r todo Hn Hd Hu) as (r' & todo' & E & F & A & B & C & D1 & D2).
      exists r', todo'. split; [exact E|]. split; [eapply frame_weaken; [|exact F]; intros m Hm; now right|]. split; [exact A|].
      split; [|split; [exact C|split; [exact D1|exact D2]]].
      intros m. rewrite B. cbn. split.
      * intros [H1 H2]. split; [exact H1|]. destruct H2 as [H2|H2]; [now left|]. right. intros [H3|H3]; [congruence|contradiction].
      * intros [H1 [H2|H2]]; split; auto.
Qed.

(** --- the whole function, from freshly loaded hardware *)
Lemma start_lc hs n : wf_hw hs -> In n (map h_name hs) -> lc_of (rm_start hs) n = Some Unconfigured.
Proof.
  intros W H. unfold lc_of, find_hw. cbn. induction hs as [|h hs IH]; [destruct H|]. cbn.
  destruct (String.eqb (h_name h) n) eqn:E; [reflexivity|]. destruct H as [H|H]; [apply String.eqb_neq in E; contradiction|].
  clear W. revert H. clear. induction hs as [|h hs IH]; intros H; [destruct H|]. cbn.
  destruct (String.eqb (h_name h) n) eqn:E; [reflexivity|]. destruct H as [H|H]; [apply String.eqb_neq in E; contradiction|auto].
Qed.
Lemma start_group hs h : wf_hw hs -> In h hs -> group_of (rm_start hs) (h_name h) = h_group h.
Proof.
  intros [W _ _] H. unfold group_of, find_hw. cbn. induction hs as [|x hs IH]; [destruct H|]. cbn in W. inversion W as [|? ? W1 W2]; subst. cbn.
  destruct (String.eqb (h_name x) (h_name h)) eqn:E.
  - apply String.eqb_eq in E. destruct H as [->|H]; [reflexivity|]. exfalso. apply W1. rewrite E. now apply in_map.
  - destruct H as [->|H]; [rewrite String.eqb_refl in E; discriminate|]. apply IH; assumption.
Qed.
Lemma start_names hs : wf_hw hs -> names_ok (rm_start hs).
Proof. intros [W _ _]. unfold names_ok. cbn. rewrite map_map. exact W. Qed.

Record started (hs : list hwc) (p : iparams) (r : rm) : Prop := {
  st_groups : forall g, g <> "" -> (forall n, to_activate hs p g n -> is_active r n) \/
     (exists n, to_activate hs p g n /\ up_failed n (rm_trace r)) /\
     (forall n, to_activate hs p g n -> ~ is_active r n \/ cb_failed n HDeactivate (rm_trace r));
  st_single : forall n, to_activate hs p "" n -> is_active r n \/ (~ is_active r n /\ up_failed n (rm_trace r));
  st_unconf : forall n, In n (map h_name hs) -> n <> "" -> In n (p_unconf p) -> lc_of r n = Some Unconfigured;
  st_inact : forall n, In n (map h_name hs) -> n <> "" -> ~ In n (p_unconf p) -> In n (p_inact p) ->
     lc_of r n = Some Inactive \/ (~ is_active r n /\ up_failed n (rm_trace r))
}.
Lemma main_started e p hs order gorder : wf_hw hs -> orders hs order gorder -> p_shutdown p = false ->
  exists r, initial_states e p order gorder (rm_start hs) = Done r tt /\ started hs p r.
Proof.
  intros W (P & G1 & G2) Hs. unfold initial_states. rewrite Hs.
  assert (Hd : NoDup order) by (eapply Permutation_NoDup; [symmetry; exact P|exact (wf_names _ W)]).
  assert (Ho : forall n, In n order <-> In n (map h_name hs)) by (intros n; split; intros H; [eapply Permutation_in; [exact P|exact H]|eapply Permutation_in; [symmetry; exact P|exact H]]).
  pose proof (start_names hs W) as N0.
  destruct (set_listed_ok e Unconfigured (p_unconf p) (or_introl eq_refl) (rm_start hs) order N0 Hd)
    as (r1 & todo1 & E1 & F1 & A1 & B1 & C1 & D1 & X1).
  { intros n H. apply start_lc; [exact W|]. now apply Ho. }
  rewrite E1.
  destruct (set_listed_ok e Inactive (p_inact p) (or_intror eq_refl) r1 todo1 (fr_names _ _ _ F1) A1 C1)
    as (r2 & todo & E2 & F2 & A2 & B2 & C2 & D2 & X2). rewrite E2.
  assert (Gr : forall m, group_of r2 m = group_of (rm_start hs) m) by (intros m; rewrite (fr_group _ _ _ F2); apply (fr_group _ _ _ F1)).
  assert (Act : forall g n, to_activate hs p g n <-> In n (members r2 todo g)).
  { intros g n. rewrite members_in, B2, B1, Ho, Gr. unfold to_activate, listed. split.
    - intros (h & H1 & <- & <- & H2). split; [|now apply start_group].
      split; [split; [now apply in_map|]|]; (destruct H2 as [H2|H2]; [now left|right; tauto]).
    - intros [[[H1 H2] H3] <-]. apply in_map_iff in H1 as (h & <- & H1). exists h. split; [exact H1|]. split; [reflexivity|].
      split; [symmetry; now apply start_group|]. destruct (string_dec (h_name h) "") as [E|E]; [now left|right].
      intros [H|H]; [destruct H2|destruct H3]; contradiction. }
  destruct (groups_ok e todo r2 A2 gorder r2 G1 (fr_names _ _ _ F2)) as (r3 & E3 & F3 & S3).
  { intros g Hg n H. apply members_in in H as [H _]. left. auto. }
  rewrite E3.
  assert (Dis : forall n, In n (members r2 todo "") -> ~ In n (flat_map (members r2 todo) gorder)).
  { intros n H1 H2. apply in_flat_map in H2 as (g & H2 & H3). apply members_in in H1 as [_ H1]. apply members_in in H3 as [_ H3].
    apply G2 in H2. destruct H2 as [H2 _]. congruence. }
  destruct (ungrouped_ok e (members r2 todo "") r3 (fr_names _ _ _ F3)) as (r4 & E4 & F4 & S4).
  { apply NoDup_filter. exact A2. }
  { intros n H. unfold fresh_up. rewrite (fr_lc _ _ _ F3) by (apply Dis; exact H). apply members_in in H as [H _]. left. auto. }
  exists r4. split; [exact E4|].
  assert (Keep : forall n, ~ In n todo -> lc_of r4 n = lc_of r2 n).
  { intros n H. rewrite (fr_lc _ _ _ F4) by (rewrite members_in; tauto). apply (fr_lc _ _ _ F3).
    intros H1. apply in_flat_map in H1 as (g & _ & H1). apply members_in in H1. tauto. }
  assert (Tr : forall ev, In ev (rm_trace r2) -> In ev (rm_trace r4)) by (intros ev H; apply (fr_trace _ _ _ F4), (fr_trace _ _ _ F3), H).
  constructor.
  - intros g Hg. destruct (in_dec string_dec g gorder) as [Hin|Hnin].
    + assert (S : settled r4 (members r2 todo g)).
      { eapply settled_frame; [|exact F4|exact (S3 g Hin)]. intros n H1 H2. apply members_in in H1 as [_ H1]. apply members_in in H2 as [_ H2]. congruence. }
      destruct S as [S|[(k & Hk & Hu) S]].
      * left. intros n H. apply S, Act, H.
      * right. split; [exists k; split; [apply Act, Hk|exact Hu]|]. intros n H. apply S, Act, H.
    + left. intros n (h & H1 & H2 & H3 & _). exfalso. apply Hnin, G2. split; [exact Hg|]. exists h. auto.
  - intros n H. apply S4, Act, H.
  - intros n H1 H2 H3. assert (T1 : ~ In n todo1) by (rewrite B1; intros [_ [H|H]]; contradiction).
    assert (T2 : ~ In n todo) by (rewrite B2; tauto).
    rewrite (Keep n T2), (D2 n T1). destruct (X1 n (proj2 (Ho n) H1) T1) as [H|[_ Hu]]; [exact H|].
    (* setting an unconfigured component to unconfigured cannot fail *)
    exfalso. revert Hu. assert (T0 : rm_trace r1 = []).
    { clear -E1 W Ho. assert (Q : forall ns r todo r' t', rm_trace r = [] -> names_ok r -> (forall n, In n todo -> lc_of r n = Some Unconfigured) ->
        set_listed e false Unconfigured ns r todo = Done r' t' -> rm_trace r' = []).
      { induction ns as [|n ns IH]; intros r todo r' t' Hr Hn Hu; cbn [set_listed]; [intros H; injection H as <- <-; exact Hr|].
        destruct (String.eqb n ""); [apply IH; assumption|]. destruct (mem n todo) eqn:Em; [|apply IH; assumption].
        assert (Hin : In n todo) by (unfold mem in Em; apply existsb_exists in Em as (x & Hx & Ex); apply String.eqb_eq in Ex; now subst).
        pose proof (Hu n Hin) as El. unfold set_component_state. unfold lc_of in El. destruct (find_hw r n) as [h|] eqn:Hf; [|discriminate].
        cbn in El. injection El as El. unfold set_state_of. rewrite El. cbn [negb andb]. apply IH; [exact Hr|exact Hn|].
        intros m Hm. apply filter_In in Hm as [Hm _]. auto. }
      eapply Q; [| | |exact E1]; [reflexivity|now apply start_names|]. intros n H. apply start_lc; [exact W|now apply Ho]. }
    rewrite T0. intros [(c & [] & _)|(c & [] & _)].
  - intros n H1 H2 H3 H4. assert (T1 : In n todo1) by (rewrite B1, Ho; auto).
    assert (T2 : ~ In n todo) by (rewrite B2; intros [_ [H|H]]; contradiction). unfold is_active.
    rewrite (Keep n T2). destruct (X2 n T1 T2) as [H|[Ha Hu]]; [now left|right]. split; [exact Ha|]. eapply up_mono; [exact Tr|exact Hu].
Qed.
