(** RmCycle.v -- read and write cycles: failed list (C09), groups (C08), life cycle (C10). *)
From Verif Require Import Base Events HwModel RmModel RmSys RmSpec HwProofs RmProofs RmInv RmAvail.

Definition poisoned (r : rm) (g : name) : Prop := exists v, aget (rm_groups r) g = Some v /\ v <> ROk.

(** every component's group has an entry in the group map *)
Definition groups_ok (r : rm) : Prop :=
  forall n h, find_hw r n = Some h -> h_group h <> ""%string -> aget (rm_groups r) (h_group h) <> None.

(** ---------------------------------------------------------------- generic cycle fold *)
Section Fold.
  Variable f : rm * rwstatus -> name -> rm * rwstatus.
  Hypothesis Hf : forall r st n, names_ok r ->
    only n r (fst (f (r, st) n)) /\
    (snd (f (r, st) n) = st \/
     (rw_failed (snd (f (r, st) n)) = rw_failed st ++ [n] /\ rw_result (snd (f (r, st) n)) <> ROk)).

  Record cframe (l : list name) (r : rm) (st : rwstatus) (r' : rm) (st' : rwstatus) : Prop := {
    cf_ev : evolve r r';
    cf_other : forall m, ~ In m l -> find_hw r' m = find_hw r m;
    cf_tr : exists evs, rm_trace r' = evs ++ rm_trace r /\
                        Forall (fun ev => exists m, In m l /\ about m ev) evs;
    cf_failed : exists fs, rw_failed st' = rw_failed st ++ fs /\ incl fs l /\ (NoDup l -> NoDup fs) /\
                        (fs = [] -> st' = st) /\ (fs <> [] -> rw_result st' <> ROk)
  }.

  Lemma cfold l : forall r st, names_ok r ->
    cframe l r st (fst (fold_left f l (r, st))) (snd (fold_left f l (r, st))).
  Proof.
    induction l as [|n l IH]; intros r st Hn; simpl.
    - constructor.
      + apply evolve_refl.
      + reflexivity.
      + exists []. split; [reflexivity|constructor].
      + exists []. rewrite app_nil_r. repeat split; try (intros x []); auto.
    - destruct (Hf r st n Hn) as [O S]. destruct (f (r, st) n) as [r1 st1]. simpl in *.
      assert (Hn1 : names_ok r1) by (eapply names_ok_evolve; [apply O|exact Hn]).
      destruct (IH r1 st1 Hn1) as [A B (evs & C1 & C2) (fs & D1 & D2 & D3 & D4 & D5)].
      destruct O as [O1 O2 (evs0 & O3 & O4)]. constructor.
      + eapply evolve_trans; eassumption.
      + intros m Hm. rewrite B by (intro X; apply Hm; right; exact X). apply O2.
        intros ->. apply Hm. left. reflexivity.
      + exists (evs ++ evs0). split; [rewrite C1, O3; apply app_assoc|]. apply Forall_app. split.
        * eapply Forall_impl; [|exact C2]. intros ev (m & M1 & M2). exists m. split; [right; exact M1|exact M2].
        * eapply Forall_impl; [|exact O4]. intros ev M. exists n. split; [left; reflexivity|exact M].
      + destruct S as [->|[S1 S2]].
        * exists fs. split; [exact D1|]. split; [intros x Hx; right; apply D2; exact Hx|].
          split; [intros Nd; inversion Nd; auto|]. split; assumption.
        * exists (n :: fs). split; [rewrite D1, S1, <- app_assoc; reflexivity|].
          split; [intros x [<-|Hx]; [left; reflexivity|right; apply D2; exact Hx]|].
          split; [|split; [discriminate|]].
          -- intros Nd. inversion Nd as [|? ? N1 N2]; subst. constructor; [|apply D3; exact N2].
             intros C. apply N1. apply D2. exact C.
          -- intros _. destruct fs as [|x fs]; [rewrite (D4 eq_refl); exact S2|apply D5; discriminate].
  Qed.

  (** isolate the turn of component n *)
  Lemma cfold_at l n r st : names_ok r -> NoDup l -> In n l ->
    exists l1 l2 r1 st1 r2 st2,
      l = l1 ++ n :: l2 /\ ~ In n l1 /\ ~ In n l2 /\
      cframe l1 r st r1 st1 /\
      f (r1, st1) n = (r2, st2) /\ names_ok r1 /\ names_ok r2 /\
      cframe l2 r2 st2 (fst (fold_left f l (r, st))) (snd (fold_left f l (r, st))).
  Proof.
    intros Hn Nd Hi. apply in_split in Hi. destruct Hi as (l1 & l2 & ->).
    pose proof (NoDup_remove_2 _ _ _ Nd) as Hno. rewrite in_app_iff in Hno.
    pose proof (cfold l1 r st Hn) as C1.
    destruct (fold_left f l1 (r, st)) as [r1 st1] eqn:E1. simpl in C1.
    assert (Hn1 : names_ok r1) by (eapply names_ok_evolve; [apply C1|exact Hn]).
    destruct (Hf r1 st1 n Hn1) as [O _].
    destruct (f (r1, st1) n) as [r2 st2] eqn:E2. simpl in O.
    assert (Hn2 : names_ok r2) by (eapply names_ok_evolve; [apply O|exact Hn1]).
    exists l1, l2, r1, st1, r2, st2.
    rewrite fold_left_app, E1. cbn [fold_left]. rewrite E2.
    repeat (split; [tauto||assumption||reflexivity|]). apply cfold. exact Hn2.
  Qed.
End Fold.

Lemma rt_dec (v : rtype) : {v = ROk} + {v <> ROk}.
Proof. destruct v; [left|right|right]; congruence. Qed.

(** ---------------------------------------------------------------- one read *)

Definition merged (r : rm) (h : hwc) : Prop := h_group h <> ""%string /\ poisoned r (h_group h).

(** what update_group does *)
Lemma update_group_cases r g v : 
  (g = ""%string /\ update_group r g v = (r, v)) \/
  (g <> ""%string /\ v <> ROk /\ update_group r g v = (with_groups r (aset (rm_groups r) g v), v)) \/
  (g <> ""%string /\ v = ROk /\ fst (update_group r g v) = with_groups r (rm_groups r) /\
   (forall w, aget (rm_groups r) g = Some w -> snd (update_group r g v) = w) /\
   (aget (rm_groups r) g = None -> snd (update_group r g v) = ROk)).
Proof.
  unfold update_group. destruct (String.eqb_spec g "") as [->|Hg]; [left; auto|].
  right. destruct v; simpl.
  - right. repeat split; auto; [intros w ->|intros ->]; reflexivity.
  - left. rewrite aget_aset_same. repeat split; auto; discriminate.
  - left. rewrite aget_aset_same. repeat split; auto; discriminate.
Qed.

Inductive rw_outcome (isfail : name -> event -> Prop) (isret : name -> rtype -> event -> Prop)
  (r : rm) (h : hwc) (n : name) (r' : rm) (v : rtype) (evs : trace) : Prop :=
| RwOk : v = ROk -> find_hw r' n = Some h -> Forall (fun ev => ~ isfail n ev) evs ->
         rm_groups r' = rm_groups r -> ~ merged r h -> rw_outcome isfail isret r h n r' v evs
| RwOwn w : w <> ROk -> Exists (isret n w) evs -> v = w ->
         Forall (fun ev => isfail n ev -> isret n w ev) evs ->
         (h_group h = ""%string /\ rm_groups r' = rm_groups r \/
          h_group h <> ""%string /\ rm_groups r' = aset (rm_groups r) (h_group h) w) ->
         rw_outcome isfail isret r h n r' v evs
| RwThrow : v = RError -> Exists (isfail n) evs -> (forall w, ~ Exists (isret n w) evs) ->
         rm_groups r' = rm_groups r -> rw_outcome isfail isret r h n r' v evs
| RwGroup : v <> ROk -> merged r h -> aget (rm_groups r) (h_group h) = Some v ->
         find_hw r' n = Some h -> Forall (fun ev => ~ isfail n ev) evs ->
         rm_groups r' = rm_groups r -> rw_outcome isfail isret r h n r' v evs.

Definition read_returned (n : name) (w : rtype) (ev : event) : Prop := ev = EvRead n (Ret w).
Definition write_returned (n : name) (w : rtype) (ev : event) : Prop := ev = EvWrite n (Ret w).

(** merging an OK device result with the group *)
Lemma rw_outcome_ok isfail isret r h n r1 evs :
  rm_groups r1 = rm_groups r -> find_hw r1 n = Some h ->
  Forall (fun ev => ~ isfail n ev) evs ->
  rw_outcome isfail isret r h n (fst (update_group r1 (h_group h) ROk))
             (snd (update_group r1 (h_group h) ROk)) evs.
Proof.
  intros Hg Hf Hevs. destruct (update_group_cases r1 (h_group h) ROk) as [[G E]|[(_ & C & _)|(G & _ & E1 & E2 & E3)]].
  - rewrite E. apply RwOk; auto. intros [C _]. congruence.
  - congruence.
  - destruct (aget (rm_groups r1) (h_group h)) as [w|] eqn:Ew.
    + rewrite (E2 w eq_refl). rewrite Hg in Ew. destruct (rt_dec w) as [->|Hw].
      * apply RwOk; auto.
        -- rewrite find_update_group. exact Hf.
        -- rewrite E1. exact Hg.
        -- intros [_ (v & V1 & V2)]. congruence.
      * apply RwGroup; auto.
        -- split; [exact G|]. exists w. split; assumption.
        -- rewrite find_update_group. exact Hf.
        -- rewrite E1. exact Hg.
    + rewrite (E3 eq_refl). apply RwOk; auto.
      * rewrite find_update_group. exact Hf.
      * rewrite E1. exact Hg.
      * intros [_ (v & V1 & V2)]. rewrite <- Hg in V1. congruence.
Qed.

Lemma rw_outcome_own (isfail : name -> event -> Prop) isret r h n r1 evs w :
  rm_groups r1 = rm_groups r -> w <> ROk -> Exists (isret n w) evs ->
  Forall (fun ev => isfail n ev -> isret n w ev) evs ->
  rw_outcome isfail isret r h n (fst (update_group r1 (h_group h) w))
             (snd (update_group r1 (h_group h) w)) evs.
Proof.
  intros Hg Hw He Hu. destruct (update_group_cases r1 (h_group h) w) as [[G E]|[(G & _ & E)|(_ & C & _)]].
  - rewrite E. eapply RwOwn; eauto.
  - rewrite E. eapply RwOwn; eauto. right. split; [exact G|]. simpl. rewrite Hg. reflexivity.
  - congruence.
Qed.

Lemma err_nonread e h n t : exists evs, snd (hw_error e h t) = evs ++ t /\
  Forall (fun ev => ~ read_failed n ev) evs /\ Forall (fun ev => ~ write_failed n ev) evs.
Proof.
  unfold hw_error. destruct (h_lc h); simpl;
    try (exists []; repeat split; constructor);
    (eexists [_]; repeat split; constructor; try constructor;
     intros (x & Hx & _); discriminate).
Qed.

Lemma read_ret_outcome e r n h : names_ok r -> find_hw r n = Some h ->
  exists evs, rm_trace (fst (read_ret e r h)) = evs ++ rm_trace r /\
    rw_outcome read_failed read_returned r h n (fst (read_ret e r h)) (snd (read_ret e r h)) evs.
Proof.
  intros Hn Hf. pose proof (find_hw_name _ _ _ Hf) as Hname.
  assert (Tr : forall r1 g v, rm_trace (fst (update_group r1 g v)) = rm_trace r1)
    by (intros; unfold update_group; destruct (String.eqb g ""); reflexivity).
  unfold read_ret. destruct (h_rated h && _).
  { exists []. split; [apply Tr|]. apply rw_outcome_ok; auto. }
  assert (Same : find_hw (with_trace (put_hw r h) (rm_trace r)) n = Some h)
    by exact (find_put_same r h h n Hf Hname).
  unfold hw_read. destruct (h_lc h) eqn:El;
    try (exists []; split; [rewrite Tr; reflexivity|]; apply rw_outcome_ok; auto; fail).
  1,2: rewrite Hname; destruct (e_read e (rm_trace r) n) as [[]|] eqn:Er; simpl.
  - exists [EvRead n (Ret ROk)]. split; [rewrite Tr; reflexivity|].
    apply rw_outcome_ok; [reflexivity| exact (find_put_same r h h n Hf Hname)|].
    constructor; [|constructor]. intros (x & X1 & X2). inversion X1; subst; congruence.
  - destruct (err_nonread e h n (EvRead n (Ret RError) :: rm_trace r)) as (evs & E1 & E2 & _).
    destruct (hw_error e h _) as [h' t']. simpl in E1. subst t'.
    exists (evs ++ [EvRead n (Ret RError)]). split; [rewrite Tr; simpl; rewrite <- app_assoc; reflexivity|].
    eapply rw_outcome_own with (w := RError); [reflexivity|discriminate| |].
    { apply Exists_app. right. constructor. reflexivity. }
    apply Forall_app. split; [eapply Forall_impl; [|exact E2]; intros ev X Y; elim (X Y)|].
    constructor; [intros _; reflexivity|constructor].
  - exists [EvRead n (Ret RDeactivate)]. split; [rewrite Tr; reflexivity|].
    eapply rw_outcome_own with (w := RDeactivate); [reflexivity|discriminate| |]; [constructor; reflexivity|].
    constructor; [intros _; reflexivity|constructor].
  - exists [EvRead n Throw]. split; [reflexivity|]. apply RwThrow; auto.
    + constructor. exists Throw. split; [reflexivity|discriminate].
    + intros w C. inversion C as [? ? C1|? ? C1]; subst; [discriminate|inversion C1].
  - exists [EvRead n (Ret ROk)]. split; [rewrite Tr; reflexivity|].
    apply rw_outcome_ok; [reflexivity| exact (find_put_same r h h n Hf Hname)|].
    constructor; [|constructor]. intros (x & X1 & X2). inversion X1; subst; congruence.
  - destruct (err_nonread e h n (EvRead n (Ret RError) :: rm_trace r)) as (evs & E1 & E2 & _).
    destruct (hw_error e h _) as [h' t']. simpl in E1. subst t'.
    exists (evs ++ [EvRead n (Ret RError)]). split; [rewrite Tr; simpl; rewrite <- app_assoc; reflexivity|].
    eapply rw_outcome_own with (w := RError); [reflexivity|discriminate| |].
    { apply Exists_app. right. constructor. reflexivity. }
    apply Forall_app. split; [eapply Forall_impl; [|exact E2]; intros ev X Y; elim (X Y)|].
    constructor; [intros _; reflexivity|constructor].
  - exists [EvRead n (Ret RDeactivate)]. split; [rewrite Tr; reflexivity|].
    eapply rw_outcome_own with (w := RDeactivate); [reflexivity|discriminate| |]; [constructor; reflexivity|].
    constructor; [intros _; reflexivity|constructor].
  - exists [EvRead n Throw]. split; [reflexivity|]. apply RwThrow; auto.
    + constructor. exists Throw. split; [reflexivity|discriminate].
    + intros w C. inversion C as [? ? C1|? ? C1]; subst; [discriminate|inversion C1].
Qed.

Lemma write_ret_outcome e r n h : names_ok r -> find_hw r n = Some h ->
  exists evs, rm_trace (fst (write_ret e r h)) = evs ++ rm_trace r /\
    rw_outcome write_failed write_returned r h n (fst (write_ret e r h)) (snd (write_ret e r h)) evs.
Proof.
  intros Hn Hf. pose proof (find_hw_name _ _ _ Hf) as Hname.
  assert (Tr : forall r1 g v, rm_trace (fst (update_group r1 g v)) = rm_trace r1)
    by (intros; unfold update_group; destruct (String.eqb g ""); reflexivity).
  unfold write_ret. destruct (h_rated h && _).
  { exists []. split; [apply Tr|]. apply rw_outcome_ok; auto. }
  assert (Same : find_hw (with_trace (put_hw r h) (rm_trace r)) n = Some h)
    by exact (find_put_same r h h n Hf Hname).
  assert (Act : exists evs,
    rm_trace (fst (let '(h', t', res) :=
       match e_write e (rm_trace r) (h_name h) with
       | Ret RError => let '(h', t') := hw_error e h (EvWrite (h_name h) (e_write e (rm_trace r) (h_name h)) :: rm_trace r) in
                        (h', t', e_write e (rm_trace r) (h_name h))
       | _ => (h, EvWrite (h_name h) (e_write e (rm_trace r) (h_name h)) :: rm_trace r, e_write e (rm_trace r) (h_name h)) end in
       match res with Throw => (with_trace (put_hw r h') t', RError)
                    | Ret v => update_group (with_trace (put_hw r h') t') (h_group h) v end)) = evs ++ rm_trace r /\
    rw_outcome write_failed write_returned r h n (fst (let '(h', t', res) :=
       match e_write e (rm_trace r) (h_name h) with
       | Ret RError => let '(h', t') := hw_error e h (EvWrite (h_name h) (e_write e (rm_trace r) (h_name h)) :: rm_trace r) in
                        (h', t', e_write e (rm_trace r) (h_name h))
       | _ => (h, EvWrite (h_name h) (e_write e (rm_trace r) (h_name h)) :: rm_trace r, e_write e (rm_trace r) (h_name h)) end in
       match res with Throw => (with_trace (put_hw r h') t', RError)
                    | Ret v => update_group (with_trace (put_hw r h') t') (h_group h) v end))
       (snd (let '(h', t', res) :=
       match e_write e (rm_trace r) (h_name h) with
       | Ret RError => let '(h', t') := hw_error e h (EvWrite (h_name h) (e_write e (rm_trace r) (h_name h)) :: rm_trace r) in
                        (h', t', e_write e (rm_trace r) (h_name h))
       | _ => (h, EvWrite (h_name h) (e_write e (rm_trace r) (h_name h)) :: rm_trace r, e_write e (rm_trace r) (h_name h)) end in
       match res with Throw => (with_trace (put_hw r h') t', RError)
                    | Ret v => update_group (with_trace (put_hw r h') t') (h_group h) v end)) evs).
  { rewrite Hname; destruct (e_write e (rm_trace r) n) as [[]|] eqn:Er; simpl.
    - exists [EvWrite n (Ret ROk)]. split; [rewrite Tr; reflexivity|].
      apply rw_outcome_ok; [reflexivity| exact (find_put_same r h h n Hf Hname)|].
      constructor; [|constructor]. intros (x & X1 & X2). inversion X1; subst; congruence.
    - destruct (err_nonread e h n (EvWrite n (Ret RError) :: rm_trace r)) as (evs & E1 & _ & E2).
      destruct (hw_error e h _) as [h' t']. simpl in E1. subst t'.
      exists (evs ++ [EvWrite n (Ret RError)]). split; [rewrite Tr; simpl; rewrite <- app_assoc; reflexivity|].
      eapply rw_outcome_own with (w := RError); [reflexivity|discriminate| |].
      { apply Exists_app. right. constructor. reflexivity. }
      apply Forall_app. split; [eapply Forall_impl; [|exact E2]; intros ev X Y; elim (X Y)|].
      constructor; [intros _; reflexivity|constructor].
    - exists [EvWrite n (Ret RDeactivate)]. split; [rewrite Tr; reflexivity|].
      eapply rw_outcome_own with (w := RDeactivate); [reflexivity|discriminate| |]; [constructor; reflexivity|].
    constructor; [intros _; reflexivity|constructor].
    - exists [EvWrite n Throw]. split; [reflexivity|]. apply RwThrow; auto.
      + constructor. exists Throw. split; [reflexivity|discriminate].
      + intros w C. inversion C as [? ? C1|? ? C1]; subst; [discriminate|inversion C1]. }
  unfold hw_write. destruct (h_kind h), (h_lc h) eqn:El; try exact Act;
    (exists []; split; [rewrite Tr; reflexivity|]; apply rw_outcome_ok; auto).
Qed.
