(** SpawnWhy.v -- the spawner gives up only for a reason. *)
From Coq Require Import String List Bool Arith.
From Verif Require Import Base Events HwModel RmModel CmModel CmPrim CmSpec SpawnModel SpawnSpec SpawnProofs SpawnMain.
Import ListNotations.
Open Scope string_scope. Open Scope nat_scope. Open Scope list_scope.

Section W.
Variables (e : env) (allow : bool) (l : line).
Definition grows (w w' : world) : Prop := incl (w_log w) (w_log w') /\ incl (w_script w') (w_script w).
Lemma grows_refl w : grows w w. Proof. split; apply incl_refl. Qed.
Lemma grows_trans a b c : grows a b -> grows b c -> grows a c.
Proof. intros (A & B) (C & D). split; intros x H; [apply C, A, H|apply B, D, H]. Qed.
Definition refused_in (log : list entry) : Prop := exists f m o m' out, In (Mine f m o m') log /\ cstep e allow m o = Val (m', out) /\ (out = CBool false \/ out = CSw SwError).
Definition absent_in (script : list call) : Prop := exists k, In k script /\ k_there k = false.
Definition why (w w' : world) : Prop := refused_in (w_log w') \/ absent_in (w_script w) \/ exists s, In s (l_ctrls l) /\ s_params s = false.
Lemma why_mono w0 w w1 w2 : grows w0 w -> grows w1 w2 -> why w w1 -> why w0 w2.
Proof.
  intros (_ & S) (L & _) [(f & m & o & m' & out & I & R)|[(k & I & T)|P]].
  - left. exists f, m, o, m', out. split; [apply L; exact I|exact R].
  - right. left. exists k. split; [apply S; exact I|exact T].
  - right. right. exact P.
Qed.
Lemma step_grows mine w o w' out : step e allow mine w o = Val (w', out) -> grows w w' /\ cstep e allow (w_cm w) o = Val (w_cm w', out) /\
  (mine = true -> In (Mine (w_fin w) (w_cm w) o (w_cm w')) (w_log w')).
Proof.
  intros H. unfold step in H. apply bind_val in H. destruct H as ((m' & o') & H & K). injection K as <- <-. split; [|split; [exact H|intros ->; left; reflexivity]].
  split; cbn; [intros x Hx; right; exact Hx|apply incl_refl].
Qed.
Lemma others_grow : forall ops w w', others_do e allow ops w = Val w' -> grows w w'.
Proof.
  unfold others_do. induction ops as [|o ops IH]; intros w w' H; cbn [rfold] in H; [injection H as <-; apply grows_refl|].
  apply bind_val in H. destruct H as (w1 & H1 & H). apply bind_val in H1. destruct H1 as ((w2 & out) & H1 & K). injection K as ->.
  eapply grows_trans; [eapply step_grows; exact H1|apply IH; exact H].
Qed.
Definition just_asks (q : query) : Prop := match q with QLoaded _ | QKnown _ => True | _ => False end.
Lemma serve_grow q t w w' b : serve e allow q t w = Val (w', b) -> grows w w' /\ (b = Some false -> just_asks q \/ refused_in (w_log w')).
Proof.
  intros H. destruct q as [n|h|o|a d asap]; cbn [serve] in H.
  - injection H as <- _. split; [apply grows_refl|]. intros _. left. exact I.
  - injection H as <- _. split; [apply grows_refl|]. intros _. left. exact I.
  - apply bind_val in H. destruct H as ((w1 & out) & H1 & H). injection H as <- <-. destruct (step_grows _ _ _ _ _ H1) as (G & C & I). split; [exact G|].
    destruct out as [b| | |]; try discriminate. intros [= ->]. right. do 5 eexists. split; [apply I; reflexivity|]. split; [exact C|auto].
  - apply bind_val in H. destruct H as ((w1 & out) & H1 & H). destruct (step_grows _ _ _ _ _ H1) as (G & C & I).
    destruct out as [b'|sw| |]; try (injection H as <- <-; split; [exact G|discriminate]). destruct sw; try (injection H as <- <-; split; [exact G|]; try discriminate).
    + intros _. right. do 5 eexists. split; [apply I; reflexivity|]. split; [exact C|auto].
    + apply bind_val in H. destruct H as (w2 & H2 & H). apply bind_val in H. destruct H as ((w3 & out3) & H3 & H). injection H as <- <-.
      destruct (step_grows _ _ _ _ _ H3) as (G3 & C3 & I3). split; [eapply grows_trans; [exact G|]; eapply grows_trans; [eapply others_grow; exact H2|exact G3]|].
      destruct out3 as [b| | |]; try discriminate. intros [= ->]. right. do 5 eexists. split; [apply I3; reflexivity|]. split; [exact C3|auto].
Qed.
(** a part of the program: the log only grows, and if it ends with code 1 there is a reason *)
Definition fair {A} (p : prog A) : Prop := forall w w' r, p w = Val (w', r) -> grows w w' /\ (r = inr (Ends Exit1) -> why w w').
Lemma ask_fair deaf q w w' r : ask e allow deaf q w = Val (w', r) ->
  grows w w' /\ (r = inr (Ends Exit1) -> why w w') /\ (r = inl false -> just_asks q \/ refused_in (w_log w')).
Proof.
  intros H. unfold ask in H. destruct (w_script w) as [|k ks] eqn:E; [injection H as <- <-; split; [apply grows_refl|split; discriminate]|].
  set (wk := {| w_cm := w_cm w; w_log := w_log w; w_fin := w_fin w; w_script := ks |}) in *.
  assert (Gk : grows w wk) by (split; cbn; [apply incl_refl|rewrite E; intros x Hx; right; exact Hx]).
  destruct (k_there k) eqn:Et.
  - assert (X : forall n ts w w' r, attempts e allow deaf q n ts w = Val (w', r) -> grows w w' /\ r <> inr (Ends Exit1) /\ (r = inl false -> just_asks q \/ refused_in (w_log w'))).
    { clear. induction n as [|n IH]; intros ts w w' r H; cbn [attempts] in H; [injection H as <- <-; split; [apply grows_refl|split; discriminate]|].
      destruct ts as [|t ts]; [injection H as <- <-; split; [apply grows_refl|split; discriminate]|].
      apply bind_val in H. destruct H as (w1 & H1 & H). apply others_grow in H1.
      assert (SK : forall (sv : bool) w2, (if sv then do (x, _) <- serve e allow q t w1; Val x else Val w1) = Val w2 -> grows w w2).
      { intros sv w2 K. destruct sv; [|injection K as <-; exact H1]. apply bind_val in K. destruct K as ((x & b) & K & K'). injection K' as <-.
        eapply grows_trans; [exact H1|]. exact (proj1 (serve_grow _ _ _ _ _ K)). }
      destruct (if deaf then match t_fate t with Signal _ => Replied | f => f end else t_fate t) as [|sv|sv].
      - apply bind_val in H. destruct H as ((w2 & b) & H2 & H). destruct (serve_grow _ _ _ _ _ H2) as (G2 & F2).
        assert (G : grows w w2) by (eapply grows_trans; eassumption).
        destruct b as [b|]; injection H as <- <-; (split; [exact G|]; split; [discriminate|]); [|discriminate]. intros [= ->]. apply F2. reflexivity.
      - apply bind_val in H. destruct H as (w2 & H2 & H). destruct (IH ts w2 w' r H) as (G & F). split; [eapply grows_trans; [eapply SK; exact H2|exact G]|exact F].
      - apply bind_val in H. destruct H as (w2 & H2 & H). injection H as <- <-. split; [eapply SK; exact H2|split; discriminate]. }
    destruct (X _ _ _ _ _ H) as (G & N & F). split; [eapply grows_trans; eassumption|]. split; [intros ->; contradiction|exact F].
  - injection H as <- <-. split; [exact Gk|]. split; [|discriminate]. intros _. right. left. exists k. split; [rewrite E; left; reflexivity|exact Et].
Qed.
Lemma fair_then {A B} (p : prog A) (f : A -> prog B) : fair p -> (forall a, fair (f a)) -> fair (andthen p f).
Proof.
  intros P F w w' r H. apply andthen_val in H. destruct H as (w1 & r1 & H1 & H). destruct (P w w1 r1 H1) as (G1 & Y1). destruct r1 as [a|s].
  - destruct (F a w1 w' r H) as (G2 & Y2). split; [eapply grows_trans; eassumption|]. intros E. eapply why_mono; [exact G1|apply grows_refl|exact (Y2 E)].
  - destruct H as (-> & ->). split; [exact G1|]. intros [= ->]. apply Y1. reflexivity.
Qed.
Lemma fair_ret {A} (a : A) : fair (ret a). Proof. intros w w' r H. injection H as <- <-. split; [apply grows_refl|discriminate]. Qed.
Lemma fair_fin ns : fair (finished ns).
Proof. intros w w' r H. injection H as <- <-. split; [split; apply incl_refl|discriminate]. Qed.
Lemma fair_need deaf q : ~ just_asks q -> fair (need (ask e allow deaf q)).
Proof.
  intros NQ w w' r H. apply andthen_val in H. destruct H as (w1 & r1 & H1 & H). destruct (ask_fair deaf q w w1 r1 H1) as (G1 & Y1 & F1).
  destruct r1 as [b|s].
  - destruct b; injection H as <- <-; (split; [exact G1|]); [discriminate|]. intros _. destruct (F1 eq_refl) as [E|R]; [contradiction|left; exact R].
  - destruct H as (-> & ->). split; [exact G1|]. intros [= ->]. apply Y1. reflexivity.
Qed.
Lemma fair_turn s : In s (l_ctrls l) -> fair (turn e allow l s).
Proof.
  intros Is. apply fair_then.
  - apply fair_then; [intros w w' r H; destruct (ask_fair _ _ _ _ _ H) as (A & B & _); auto|]. intros [|]; [apply fair_ret|].
    destruct (s_params s) eqn:E; [apply fair_need; intros []|]. intros w w' r H. injection H as <- <-. split; [apply grows_refl|]. intros _. right. right. exists s. auto.
  - intros _. destruct (s_load_only s); [apply fair_fin|]. apply fair_then; [apply fair_need; intros []|]. intros _.
    destruct (s_inactive s); [apply fair_fin|]. destruct (l_group l); [apply fair_ret|]. apply fair_then; [apply fair_need; intros []|]. intros _. apply fair_fin.
Qed.
Lemma fair_turns : forall ss, incl ss (l_ctrls l) -> fair (turns e allow l ss).
Proof.
  induction ss as [|s ss IH]; intros H; [apply fair_ret|]. apply fair_then; [apply fair_turn, H; left; reflexivity|]. intros _. apply IH. intros x Hx. apply H. right. exact Hx.
Qed.
Lemma fair_main : fair (main_part e allow l).
Proof.
  apply fair_then; [apply fair_turns, incl_refl|]. intros _. destruct (l_group l); [|apply fair_ret]. destruct (map s_name (filter in_group (l_ctrls l))); [apply fair_ret|].
  apply fair_then; [apply fair_need; intros []|intros _; apply fair_fin].
Qed.
Lemma fair_unload : forall ns ok w w' r, unload_all e allow ns ok w = Val (w', r) ->
  grows w w' /\ (r = inr (Ends Exit1) -> why w w') /\ (r = inl false -> ok = true -> why w w').
Proof.
  induction ns as [|n ns IH]; intros ok w w' r H; [injection H as <- <-; split; [apply grows_refl|]; split; [discriminate|intros [= ->]; discriminate]|].
  cbn [unload_all] in H. apply andthen_val in H. destruct H as (w1 & r1 & H1 & H). destruct (ask_fair _ _ _ _ _ H1) as (G1 & Y1 & F1). destruct r1 as [b|s].
  - destruct (IH _ _ _ _ H) as (G2 & Y2 & F2). split; [eapply grows_trans; eassumption|]. split.
    + intros E. eapply why_mono; [exact G1|apply grows_refl|exact (Y2 E)].
    + intros E ->. destruct b.
      * eapply why_mono; [exact G1|apply grows_refl|exact (F2 E eq_refl)].
      * destruct (F1 eq_refl) as [[]|R]. eapply why_mono; [apply grows_refl|exact G2|left; exact R].
  - destruct H as (-> & ->). split; [exact G1|]. split; [intros [= ->]; apply Y1; reflexivity|discriminate].
Qed.
Lemma handler_why w w' r : handler e allow l w = Val (w', r) -> grows w w' /\ (snd (ended (w', r)) = Exit1 -> why w w').
Proof.
  intros H. unfold handler in H. set (w0 := {| w_cm := w_cm w; w_log := w_log w; w_fin := []; w_script := w_script w |}) in *.
  assert (G0 : grows w w0) by (split; apply incl_refl).
  destruct (l_unload l); [|injection H as <- <-; split; [exact G0|discriminate]].
  destruct (to_stop l) as [|n0 ns] eqn:Es; [injection H as <- <-; split; [exact G0|discriminate]|]. rewrite <- Es in H.
  apply andthen_val in H. destruct H as (w1 & r1 & H1 & H). assert (F1 : fair (need (ask e allow true (QSwitch [] (to_stop l) (l_asap l))))) by (apply fair_need; intros []).
  destruct (F1 w0 w1 r1 H1) as (G1 & Y1).
  destruct r1 as [[]|st].
  - apply andthen_val in H. destruct H as (w2 & r2 & H2 & H). destruct (fair_unload _ _ _ _ _ H2) as (G2 & Y2 & F2).
    assert (GG : grows w w2) by (eapply grows_trans; [exact G0|eapply grows_trans; [exact G1|exact G2]]).
    assert (G01 : grows w w1) by (eapply grows_trans; [exact G0|exact G1]).
    destruct r2 as [ok|st].
    + injection H as <- <-. split; [exact GG|]. cbn. destruct ok; [discriminate|]. intros _. eapply why_mono; [exact G01|apply grows_refl|exact (F2 eq_refl eq_refl)].
    + destruct H as (-> & ->). split; [exact GG|]. cbn. destruct st as [y|]; [|discriminate]. intros ->. eapply why_mono; [exact G01|apply grows_refl|exact (Y2 eq_refl)].
  - destruct H as (-> & ->). split; [eapply grows_trans; [exact G0|exact G1]|]. cbn. destruct st as [y|]; [|discriminate]. intros ->. eapply why_mono; [exact G0|apply grows_refl|exact (Y1 eq_refl)].
Qed.
Lemma spawner_why killed script m w : spawner e allow l killed script m = Val (w, Exit1) ->
  refused_in (w_log w) \/ absent_in script \/ exists s, In s (l_ctrls l) /\ s_params s = false.
Proof.
  intros H. unfold spawner in H. set (w0 := {| w_cm := m; w_log := []; w_fin := []; w_script := script |}) in *.
  apply bind_val in H. destruct H as ((w1 & r1) & H1 & H). destruct (fair_main w0 w1 r1 H1) as (G1 & Y1).
  assert (HD : forall x0, handler e allow l w1 = Val x0 -> ended x0 = (w, Exit1) -> why w0 w).
  { intros (w2 & r2) Hh E. destruct (handler_why w1 w2 r2 Hh) as (G2 & Y2). assert (w2 = w) by (apply (f_equal fst) in E; exact E). subst w2.
    rewrite E in Y2. eapply why_mono; [exact G1|apply grows_refl|exact (Y2 eq_refl)]. }
  change (why w0 w). destruct r1 as [[]|[y|]].
  - destruct (l_unload l); [destruct killed|]; try discriminate. apply bind_val in H. destruct H as (x0 & Hh & H). apply val_inj in H. eapply HD; eassumption.
  - injection H as <- ->. apply Y1. reflexivity.
  - apply bind_val in H. destruct H as (x0 & Hh & H). apply val_inj in H. eapply HD; eassumption.
Qed.
End W.
