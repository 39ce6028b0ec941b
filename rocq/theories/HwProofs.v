(** HwProofs.v -- one component: conformance to the life-cycle automaton. *)
From Verif Require Import Base Events HwModel RmModel RmSys RmSpec.

Definition same_static (h h' : hwc) : Prop :=
  h_name h' = h_name h /\ h_kind h' = h_kind h /\ h_group h' = h_group h /\
  h_rated h' = h_rated h /\ h_state h' = h_state h /\ h_cmd h' = h_cmd h.

Lemma same_static_refl h : same_static h h.
Proof. repeat split. Qed.
Lemma same_static_set h l : same_static h (set_lc h l).
Proof. repeat split. Qed.
Lemma same_static_trans a b c : same_static a b -> same_static b c -> same_static a c.
Proof. unfold same_static. intuition congruence. Qed.

Definition about (n : name) (ev : event) : Prop :=
  match ev with
  | EvHwCb h _ _ | EvHwErr h _ | EvRead h _ | EvWrite h _ | EvPrepare h _ _ _
  | EvPerform h _ _ _ => h = n
  | _ => False
  end.

(** [ok_hw]: a step of component h from trace t: static data kept, trace extended by events about
    h only, automaton state follows. *)
Definition ok_hw (start : lc) (h : hwc) (t : trace) (h' : hwc) (t' : trace) : Prop :=
  same_static h h' /\
  (exists evs, t' = evs ++ t /\ Forall (about (h_name h)) evs) /\
  (lives (h_name h) (h_kind h) start t = Some (AIn (h_lc h)) ->
   lives (h_name h) (h_kind h) start t' = Some (AIn (h_lc h'))).

Ltac ok_split := split; [try apply same_static_refl; try apply same_static_set | split].

Ltac ext_nil := exists []; split; [reflexivity | constructor].
Ltac ext_1 := eexists [_]; split; [reflexivity | constructor; [reflexivity | constructor]].
Ltac ext_2 := eexists [_; _]; split; [reflexivity | repeat (constructor; try reflexivity)].

Ltac crush_hw :=
  cbn [lives life]; rewrite ?String.eqb_refl; cbn [negb];
  match goal with |- lives _ _ _ _ = _ -> _ => let H := fresh in intro H; rewrite ?H end;
  try reflexivity; auto.

Lemma ok_hw_error start e h t :
  let '(h', t') := hw_error e h t in ok_hw start h t h' t'.
Proof.
  unfold hw_error. destruct (h_lc h) eqn:E;
    (ok_split; [first [ext_nil | ext_1] | cbn [h_lc set_lc]; rewrite ?E; crush_hw]).
Qed.

Ltac hw_err_case e h t :=
  unfold then_error, hw_error; cbn [h_lc set_lc].

Ltac solve_op :=
  repeat match goal with
  | |- context [match e_hw ?e ?t ?n ?c with _ => _ end] => destruct (e_hw e t n c)
  end;
  unfold then_error, hw_error;
  repeat match goal with H : h_lc _ = _ |- _ => rewrite ?H end;
  (ok_split;
   [first [ext_nil | ext_1 | ext_2]
   | cbn [h_lc set_lc]; repeat match goal with H : h_lc _ = _ |- _ => rewrite ?H end; crush_hw;
     try (match goal with |- context [e_hw_error ?a ?b ?c] => destruct (e_hw_error a b c) end;
          reflexivity)]).

Lemma ok_hw_init start e h t : ok_hw start h t (fst (fst (hw_init e h t))) (snd (fst (hw_init e h t))).
Proof. unfold hw_init, call; destruct (h_lc h) eqn:E; cbn [fst snd]; try solve [solve_op];
       destruct (e_hw e t (h_name h) HInit); cbn [fst snd]; solve_op. Qed.
Lemma ok_hw_configure start e h t :
  ok_hw start h t (fst (fst (hw_configure e h t))) (snd (fst (hw_configure e h t))).
Proof. unfold hw_configure, call, then_error, hw_error; destruct (h_lc h) eqn:E; cbn [fst snd]; try solve [solve_op].
       destruct (e_hw e t (h_name h) HConfigure); cbn [fst snd]; solve_op. Qed.
Lemma ok_hw_cleanup start e h t :
  ok_hw start h t (fst (fst (hw_cleanup e h t))) (snd (fst (hw_cleanup e h t))).
Proof. unfold hw_cleanup, call, then_error, hw_error; destruct (h_lc h) eqn:E; cbn [fst snd]; try solve [solve_op].
       destruct (e_hw e t (h_name h) HCleanup); cbn [fst snd]; solve_op. Qed.
Lemma ok_hw_shutdown start e h t :
  ok_hw start h t (fst (fst (hw_shutdown e h t))) (snd (fst (hw_shutdown e h t))).
Proof. unfold hw_shutdown, call, then_error, hw_error; destruct (h_lc h) eqn:E; cbn [fst snd]; try solve [solve_op];
       destruct (e_hw e t (h_name h) HShutdown); cbn [fst snd]; solve_op. Qed.
Lemma ok_hw_activate start e h t :
  ok_hw start h t (fst (fst (hw_activate e h t))) (snd (fst (hw_activate e h t))).
Proof. unfold hw_activate, call, then_error, hw_error; destruct (h_lc h) eqn:E; cbn [fst snd]; try solve [solve_op].
       destruct (e_hw e t (h_name h) HActivate); cbn [fst snd]; solve_op. Qed.
Lemma ok_hw_deactivate start e h t :
  ok_hw start h t (fst (fst (hw_deactivate e h t))) (snd (fst (hw_deactivate e h t))).
Proof. unfold hw_deactivate, call, then_error, hw_error; destruct (h_lc h) eqn:E; cbn [fst snd]; try solve [solve_op].
       destruct (e_hw e t (h_name h) HDeactivate); cbn [fst snd]; solve_op. Qed.
Lemma ok_hw_read start e h t :
  ok_hw start h t (fst (fst (hw_read e h t))) (snd (fst (hw_read e h t))).
Proof. unfold hw_read, hw_error; destruct (h_lc h) eqn:E; cbn [fst snd]; try solve [solve_op];
       destruct (e_read e t (h_name h)) as [[]|]; cbn [fst snd]; solve_op. Qed.
Lemma ok_hw_write start e h t :
  ok_hw start h t (fst (fst (hw_write e h t))) (snd (fst (hw_write e h t))).
Proof.
  unfold hw_write, hw_error; destruct (h_kind h) eqn:K; destruct (h_lc h) eqn:E; cbn [fst snd];
    try solve [solve_op];
    (destruct (e_write e t (h_name h)) as [[]|]; cbn [fst snd];
     (ok_split; [first [ext_1|ext_2] | cbn [h_lc set_lc]; rewrite ?K, ?E; crush_hw])).
Qed.

Lemma hstep_ok start e h t o : ok_hw start h t (fst (hstep e (h, t) o)) (snd (hstep e (h, t) o)).
Proof.
  destruct o; cbn [hstep].
  - apply ok_hw_init.
  - apply ok_hw_configure.
  - apply ok_hw_cleanup.
  - apply ok_hw_shutdown.
  - apply ok_hw_activate.
  - apply ok_hw_deactivate.
  - pose proof (ok_hw_error start e h t) as H. destruct (hw_error e h t). exact H.
  - apply ok_hw_read.
  - apply ok_hw_write.
Qed.

Lemma hrun_lives e ops : forall h t start,
  lives (h_name h) (h_kind h) start t = Some (AIn (h_lc h)) ->
  lives (h_name h) (h_kind h) start (snd (hrun e (h, t) ops))
    = Some (AIn (h_lc (fst (hrun e (h, t) ops)))).
Proof.
  induction ops as [|o ops IH]; intros h t start H; cbn [hrun fold_left].
  - exact H.
  - pose proof (hstep_ok start e h t o) as [Hs [_ Hl]].
    destruct (hstep e (h, t) o) as [h' t'] eqn:E. cbn [fst snd] in *.
    destruct Hs as (Hn & Hk & _). unfold hrun in IH.
    specialize (IH h' t' start). rewrite Hn, Hk in IH. apply IH. apply Hl. exact H.
Qed.

(** [lives] ignores events about other components. *)
Lemma life_other n k a ev m : about m ev -> m <> n -> life n k a ev = Some a.
Proof.
  intros Ha Hn. destruct ev; simpl in Ha; try tauto; subst;
    (cbn [life]; destruct (String.eqb_spec m n); [congruence|reflexivity]).
Qed.

Lemma lives_ext_other n k start m evs t :
  Forall (about m) evs -> m <> n -> lives n k start (evs ++ t) = lives n k start t.
Proof.
  intros H Hn. induction H as [|ev evs He Hf IH]; simpl; [reflexivity|].
  rewrite IH. destruct (lives n k start t) as [a|]; [|reflexivity].
  eapply life_other; eassumption.
Qed.
