(** SpawnMain.v -- the theorems about the spawner. *)
From Coq Require Import String List Bool Arith Permutation.
From Verif Require Import Base Events HwModel RmModel CmModel CmPrim CmTopo CmSpec CmSwitch CmOutcome CmLoad LifeSpec UpdateSpec CmLife CmCycle ChainMain CmIntact SpawnModel SpawnSpec SpawnProofs.
Import ListNotations.
Open Scope string_scope. Open Scope nat_scope. Open Scope list_scope.

Definition target (l : line) (n : name) : option lc :=
  match find (fun s => String.eqb (s_name s) n) (l_ctrls l) with Some s => asked_for s | None => None end.
Lemma target_of l s : NoDup (names (l_ctrls l)) -> In s (l_ctrls l) -> target l (s_name s) = asked_for s.
Proof.
  unfold target. generalize (l_ctrls l). intros ss. induction ss as [|x ss IH]; cbn [names map find]; intros N; [intros []|intros [->|I]].
  - rewrite String.eqb_refl. reflexivity.
  - apply NoDup_cons_iff in N. destruct N as (Nx & N). destruct (String.eqb_spec (s_name x) (s_name s)) as [E|_].
    + exfalso. apply Nx. rewrite E. apply in_map. exact I.
    + apply IH; assumption.
Qed.
Lemma not_loaded_step e allow hs ops m o m' out n : crun e allow (cm_start hs) ops = Val m -> cstep e allow m o = Val (m', out) ->
  (forall c ok, o = CLoad c ok -> c_name c <> n) -> ~ loaded m n -> ~ loaded m' n.
Proof.
  intros R H C N L. destruct (main_list e allow hs ops m o m' out R H) as (_ & P).
  assert (LM : forall x, loaded x n <-> In n (map c_name (cm_ctrls x))).
  { intros x. unfold loaded. rewrite in_map_iff. split; intros (c & A & B); exists c; auto. }
  apply LM in L. assert (N' : ~ In n (map c_name (cm_ctrls m))) by (intros X; apply N, LM; exact X).
  assert (Same : map c_name (cm_ctrls m') = map c_name (cm_ctrls m) -> False) by (intros E; rewrite E in L; contradiction).
  destruct o; destruct out as [[|]|sw| |]; try (apply Same; exact P).
  - apply (Permutation_in _ P) in L. destruct L as [L|L]; [|contradiction]. exact (C _ _ eq_refl L).
  - apply N'. apply (Permutation_in _ (Permutation_sym P)). right. exact L.
  - apply N'. apply (Permutation_in _ P). exact L.
Qed.

Lemma val_inj {A} (a b : A) : Val a = Val b -> a = b. Proof. intros [=]. assumption. Qed.
Section M.
Variables (e : env) (allow : bool) (hs : list hwc) (l : line).
Notation Inv := (Inv e allow hs (target l)).
Notation Reach := (Reach e allow hs).

Lemma tells_gone n : forall log m m', (exists ops, crun e allow (cm_start hs) ops = Val m) -> tells e allow log m m' ->
  (forall f m1 c ok m2, In (Mine f m1 (CLoad c ok) m2) log -> c_name c <> n) -> not_reloaded log [n] -> ~ loaded m n ->
  ~ loaded m' n /\ exists ops, crun e allow (cm_start hs) ops = Val m'.
Proof.
  induction log as [|x log IH]; intros m m' R Tl M NR N.
  - cbn in Tl. subst m'. auto.
  - assert (Step : forall m1 o m2 out, tells e allow log m m1 -> cstep e allow m1 o = Val (m2, out) -> m2 = m' -> (forall c ok, o = CLoad c ok -> c_name c <> n) ->
       ~ loaded m' n /\ exists ops, crun e allow (cm_start hs) ops = Val m').
    { intros m1 o m2 out Tl1 S -> C. destruct (IH m m1 R Tl1) as (N1 & ops1 & R1); [intros f a c ok b I; eapply M; right; exact I|intros f a c ok b I; eapply NR; right; exact I|exact N|].
      split; [eapply not_loaded_step; eassumption|]. exists (ops1 ++ [o]). eapply crun_snoc; eassumption. }
    destruct x as [f m1 o m2|f m1 o m2]; cbn in Tl; destruct Tl as (Tl & E & out & S); eapply Step; try eassumption.
    + intros c ok ->. eapply M. left. reflexivity.
    + intros c ok ->. intros X. apply (NR f m1 c ok m2 (or_introl eq_refl)). left. auto.
Qed.

(** the handler of the signal *)
Definition asks_stop (o : cop) : Prop := o = CRequest [] (to_stop l) true (l_asap l) \/ (exists n, In n (to_stop l) /\ o = CUnload n) \/ o = CTimeout \/ o = CEvaluate.
Definition stopped (w : world) (n : name) : Prop := exists later f m m' earlier, w_log w = later ++ Mine f m (CUnload n) m' :: earlier /\ loaded m n /\ ~ loaded m' n /\
  (exists ops, crun e allow (cm_start hs) ops = Val m') /\ tells e allow later m' (w_cm w) /\ (forall f m o m', In (Mine f m o m') later -> asks_stop o).
Lemma stopped_more w w' n : gained e allow asks_stop w w' -> stopped w n -> stopped w' n.
Proof.
  intros (new & E & F & Tl) (later & f & m & m' & earlier & El & A & B & R & T & M). exists (new ++ later), f, m, m', earlier. rewrite E, El, app_assoc. split; [reflexivity|].
  split; [exact A|]. split; [exact B|]. split; [exact R|]. split; [eapply tells_app; eassumption|]. intros g a o b I. apply in_app_or in I. destruct I; eauto.
Qed.
Lemma unload_went : forall ns ok w w' r, Inv w -> w_fin w = [] -> incl ns (to_stop l) -> unload_all e allow ns ok w = Val (w', r) ->
  Inv w' /\ gained e allow asks_stop w w' /\ (r = inl true -> ok = true /\ forall n, In n ns -> stopped w' n) /\ r <> inr Interrupted /\ r <> inr (Ends Exit0).
Proof.
  induction ns as [|n ns IH]; intros ok w w' r I F Sub H.
  - injection H as <- <-. split; [exact I|]. split; [apply gained_refl; split; reflexivity|]. split; [|split; discriminate]. intros [= ->]. split; [reflexivity|intros n []].
  - cbn [unload_all] in H. apply andthen_val in H. destruct H as (w1 & r1 & H1 & H).
    assert (Gn : forall k, In k (w_fin w) -> gentle (QDo (CUnload n)) k) by (rewrite F; intros k []).
    destruct (ask_inv e allow hs (target l) true _ w w1 r1 I Gn H1) as (I1 & F1 & _ & G1 & A1 & X1).
    assert (G1' : gained e allow asks_stop w w1). { eapply gained_weak; [|exact G1]. cbn. intros o <-. right. left. exists n. split; [apply Sub; left; reflexivity|reflexivity]. }
    destruct r1 as [b|st].
    + destruct (IH (ok && b)%bool w1 w' r I1) as (I2 & G2 & P2 & Y2); [congruence|intros x Hx; apply Sub; right; exact Hx|exact H|].
      split; [exact I2|]. split; [eapply gained_trans; eassumption|]. split; [|exact Y2]. intros E. destruct (P2 E) as (K & Pn).
      apply andb_true_iff in K. destruct K as (-> & ->). split; [reflexivity|]. intros k [<-|Ik]; [|apply Pn; exact Ik].
      eapply stopped_more; [exact G2|]. destruct (A1 eq_refl) as (f & m & rest & El & Lo & NL). exists [], f, m, (w_cm w1), rest.
      split; [exact El|]. split; [exact Lo|]. split; [exact NL|]. split; [exact (proj1 I1)|]. split; [reflexivity|intros ? ? ? ? []].
    + destruct H as (-> & ->). split; [exact I1|]. split; [exact G1'|]. split; [discriminate|]. split; [intros [= ->]; destruct (X1 eq_refl); discriminate|].
      intros [= ->]. apply (never_ask e allow true _ w w1 Exit0 H1). left. reflexivity.
Qed.
Definition all_ran (w : world) : Prop := exists f m m', In (Mine f m (CRequest [] (to_stop l) true (l_asap l)) m') (w_log w) /\ forall n, In n (to_stop l) -> state_in m n = Some Active.
Lemma all_ran_more P w w' : gained e allow P w w' -> all_ran w -> all_ran w'.
Proof. intros (new & E & _) (f & m & m' & I & A). exists f, m, m'. split; [rewrite E; apply in_or_app; right; exact I|exact A]. Qed.
Lemma handler_went w w' r : Inv w -> handler e allow l w = Val (w', r) -> exists w0, w_log w0 = w_log w /\ w_cm w0 = w_cm w /\
  Inv w' /\ gained e allow asks_stop w0 w' /\ (ended (w', r) = (w', Exit0) -> l_unload l = true -> forall n, In n (to_stop l) -> stopped w' n) /\
  (gained e allow (fun o => forall n, o <> CUnload n) w0 w' \/ all_ran w') /\ snd (ended (w', r)) <> Serving.
Proof.
  intros (R & _) H. unfold handler in H. set (w0 := {| w_cm := w_cm w; w_log := w_log w; w_fin := []; w_script := w_script w |}) in *. exists w0.
  split; [reflexivity|]. split; [reflexivity|]. assert (I0 : Inv w0) by (split; [exact R|intros _ n []]).
  destruct (l_unload l).
  2:{ injection H as <- <-. split; [exact I0|]. split; [apply gained_refl; split; reflexivity|]. split; [intros _ X; discriminate X|].
      split; [left; apply gained_refl; split; reflexivity|cbn; discriminate]. }
  destruct (to_stop l) as [|n0 ns] eqn:Es.
  { injection H as <- <-. split; [exact I0|]. split; [apply gained_refl; split; reflexivity|]. split; [intros _ _ n []|]. split; [left; apply gained_refl; split; reflexivity|cbn; discriminate]. }
  rewrite <- Es in H |- *. apply andthen_val in H. destruct H as (w1 & r1 & H1 & H).
  destruct (need_went e allow hs (target l) true (QSwitch [] (to_stop l) (l_asap l)) w0 w1 r1 I0 (fun _ _ => Logic.I) H1) as ([I1 _ G1 A1 _] & F1).
  assert (G1' : gained e allow asks_stop w0 w1). { eapply gained_weak; [|exact G1]. cbn. unfold asks_stop. intros o [->|[->| ->]]; auto. }
  assert (G1n : gained e allow (fun o => forall n, o <> CUnload n) w0 w1). { eapply gained_weak; [|exact G1]. cbn. intros o [->|[->| ->]]; discriminate. }
  assert (NX : r1 <> inr (Ends Exit0) /\ r1 <> inr (Ends Serving)).
  { pose proof (never_need _ (never_ask e allow true (QSwitch [] (to_stop l) (l_asap l))) w0 w1) as N. split; intros ->; eapply N; [exact H1|left; reflexivity|exact H1|right; reflexivity]. }
  destruct r1 as [[]|st].
  - assert (AR : all_ran w1).
    { specialize (A1 tt eq_refl). cbn in A1. destruct A1 as [A1|A1]; [rewrite Es in A1; discriminate|exact A1]. }
    apply andthen_val in H. destruct H as (w2 & r2 & H2 & H).
    destruct (unload_went (to_stop l) true w1 w2 r2 I1) as (I2 & G2 & P2 & X2 & Y2); [rewrite F1; reflexivity|apply incl_refl|exact H2|].
    assert (Sv : r2 <> inr (Ends Serving)).
    { intros ->. apply (never_unload e allow _ _ _ _ _ H2). right. reflexivity. }
    destruct r2 as [ok|st].
    + injection H as <- <-. split; [exact I2|]. split; [eapply gained_trans; eassumption|]. split; [|split; [right; eapply all_ran_more; eassumption|cbn; destruct ok; discriminate]].
      cbn. destruct ok; [|discriminate]. intros _ _. apply P2. reflexivity.
    + destruct H as (-> & ->). split; [exact I2|]. split; [eapply gained_trans; eassumption|]. split; [|split; [right; eapply all_ran_more; eassumption|]].
      * cbn. destruct st as [y|]; [|discriminate]. intros [= ->]. contradiction.
      * cbn. destruct st as [y|]; [|discriminate]. intros ->. contradiction.
  - destruct H as (-> & ->). split; [exact I1|]. split; [exact G1'|]. split; [|split; [left; exact G1n|]].
    + cbn. destruct st as [y|]; [|discriminate]. intros [= ->]. destruct NX. contradiction.
    + cbn. destruct st as [y|]; [|discriminate]. intros ->. destruct NX. contradiction.
Qed.

(** the whole program *)
Definition own (o : cop) : Prop := (exists s, In s (l_ctrls l) /\ concerns l s o) \/ in_one_go l o \/ asks_stop o.
Lemma start_inv script m : (exists ops, crun e allow (cm_start hs) ops = Val m) -> Inv {| w_cm := m; w_log := []; w_fin := []; w_script := script |}.
Proof. intros R. split; [exact R|intros _ n []]. Qed.
Lemma log_of P w w' : w_log w = [] -> gained e allow P w w' -> tells e allow (w_log w') (w_cm w) (w_cm w') /\ forall f m o m', In (Mine f m o m') (w_log w') -> P o.
Proof. intros E (new & En & M & T). rewrite E, app_nil_r in En. rewrite En. auto. Qed.
Lemma cut_gained P w w0 w' : w_log w0 = w_log w -> w_cm w0 = w_cm w -> gained e allow P w0 w' -> gained e allow P w w'.
Proof. intros A B (new & E & F & T). exists new. rewrite <- A, <- B. auto. Qed.

Lemma spawner_log ops killed script m w x : crun e allow (cm_start hs) ops = Val m -> NoDup (names (l_ctrls l)) -> spawner e allow l killed script m = Val (w, x) ->
  tells e allow (w_log w) m (w_cm w) /\ forall f m1 o m2, In (Mine f m1 o m2) (w_log w) -> own o.
Proof.
  intros R ND H. unfold spawner in H. set (w0 := {| w_cm := m; w_log := []; w_fin := []; w_script := script |}) in *.
  apply bind_val in H. destruct H as ((w1 & r1) & H1 & H).
  destruct (main_went e allow hs (target l) l w0 w1 r1) as (W & _); [apply start_inv; exists ops; exact R|reflexivity|exact ND|intros s Is; apply target_of; assumption|exact H1|].
  assert (G1 : gained e allow own w0 w1). { eapply gained_weak; [|exact (g_gain _ _ _ _ _ _ _ _ _ W)]. intros o [A|A]; [left; exact A|right; left; exact A]. }
  assert (HD : forall x0, handler e allow l w1 = Val x0 -> ended x0 = (w, x) -> gained e allow own w0 w).
  { intros (w2 & r2) Hh E. destruct (handler_went w1 w2 r2 (g_inv _ _ _ _ _ _ _ _ _ W) Hh) as (w1' & A & B & _ & G2 & _). apply (f_equal fst) in E. cbn in E. subst w2.
    eapply gained_trans; [exact G1|]. eapply cut_gained; [exact A|exact B|]. eapply gained_weak; [|exact G2]. intros o Ho. right. right. exact Ho. }
  assert (GG : gained e allow own w0 w).
  { destruct r1 as [[]|[y|]].
    - destruct (l_unload l); [destruct killed|]; try (injection H as <- _; exact G1). apply bind_val in H. destruct H as (x0 & Hh & H). apply val_inj in H. eapply HD; eassumption.
    - injection H as <- _. exact G1.
    - apply bind_val in H. destruct H as (x0 & Hh & H). apply val_inj in H. eapply HD; eassumption. }
  destruct (log_of own w0 w eq_refl GG) as (A & B). split; [exact A|exact B].
Qed.

Lemma spawner_up ops killed script m w x : crun e allow (cm_start hs) ops = Val m -> NoDup (names (l_ctrls l)) -> spawner e allow l killed script m = Val (w, x) ->
  x = Serving \/ (x = Exit0 /\ l_unload l = false /\ no_signal script) -> left_alone (w_log w) -> forall s, In s (l_ctrls l) -> is_up (w_cm w) s.
Proof.
  intros R ND H X LA s Is. unfold spawner in H. set (w0 := {| w_cm := m; w_log := []; w_fin := []; w_script := script |}) in *.
  apply bind_val in H. destruct H as ((w1 & r1) & H1 & H).
  destruct (main_went e allow hs (target l) l w0 w1 r1) as (W & F & _); [apply start_inv; exists ops; exact R|reflexivity|exact ND|intros s' Is'; apply target_of; assumption|exact H1|].
  assert (Fine : w1 = w -> r1 = inl tt -> is_up (w_cm w) s).
  { intros <- E. destruct (g_inv _ _ _ _ _ _ _ _ _ W) as (_ & S). specialize (S LA (s_name s) (F E s Is)). unfold stands in S. rewrite (target_of l s ND Is) in S. exact S. }
  assert (HD : forall x0, handler e allow l w1 = Val x0 -> ended x0 = (w, x) -> x <> Serving).
  { intros (w2 & r2) Hh E. destruct (handler_went w1 w2 r2 (g_inv _ _ _ _ _ _ _ _ _ W) Hh) as (w1' & _ & _ & _ & _ & _ & _ & NS). rewrite E in NS. exact NS. }
  destruct r1 as [[]|[y|]].
  - destruct (l_unload l) eqn:U.
    + destruct killed; [|injection H as <- _; apply Fine; reflexivity]. apply bind_val in H. destruct H as (x0 & Hh & H). apply val_inj in H; rename H into E.
      destruct X as [X|(_ & X & _)]; [|discriminate]. exfalso. exact (HD x0 Hh E X).
    + injection H as <- _. apply Fine; reflexivity.
  - injection H as <- ->. exfalso. destruct (main_ends e allow l w0 w1 x H1) as (A & B). destruct X as [->|(-> & _)]; contradiction.
  - exfalso. apply bind_val in H. destruct H as (x0 & Hh & H). apply val_inj in H; rename H into E. destruct X as [X|(_ & _ & X)]; [exact (HD x0 Hh E X)|].
    exact (g_sig _ _ _ _ _ _ _ _ _ W eq_refl X).
Qed.
Lemma spawner_gone ops killed script m w : crun e allow (cm_start hs) ops = Val m -> NoDup (names (l_ctrls l)) -> l_unload l = true -> spawner e allow l killed script m = Val (w, Exit0) ->
  forall s, In s (l_ctrls l) -> s_inactive s = false -> stopped w (s_name s).
Proof.
  intros R ND U H s Is Na. unfold spawner in H. set (w0 := {| w_cm := m; w_log := []; w_fin := []; w_script := script |}) in *.
  apply bind_val in H. destruct H as ((w1 & r1) & H1 & H).
  destruct (main_went e allow hs (target l) l w0 w1 r1) as (W & F & _); [apply start_inv; exists ops; exact R|reflexivity|exact ND|intros s' Is'; apply target_of; assumption|exact H1|].
  assert (IS : In (s_name s) (to_stop l)). { unfold to_stop. apply in_map, filter_In. rewrite Na. auto. }
  assert (HD : forall x0, handler e allow l w1 = Val x0 -> ended x0 = (w, Exit0) -> stopped w (s_name s)).
  { intros (w2 & r2) Hh E. destruct (handler_went w1 w2 r2 (g_inv _ _ _ _ _ _ _ _ _ W) Hh) as (w1' & _ & _ & _ & _ & P & _).
    assert (w2 = w) by (apply (f_equal fst) in E; exact E). subst w2. apply P; auto. }
  rewrite U in H. destruct r1 as [[]|[y|]].
  - destruct killed; [|discriminate]. apply bind_val in H. destruct H as (x0 & Hh & H). apply val_inj in H. eapply HD; eassumption.
  - injection H as <- ->. exfalso. destruct (main_ends e allow l w0 w1 Exit0 H1) as (A & B). contradiction.
  - apply bind_val in H. destruct H as (x0 & Hh & H). apply val_inj in H. eapply HD; eassumption.
Qed.
Lemma spawner_unloads ops killed script m w x : crun e allow (cm_start hs) ops = Val m -> NoDup (names (l_ctrls l)) -> spawner e allow l killed script m = Val (w, x) ->
  forall f m1 n m2, In (Mine f m1 (CUnload n) m2) (w_log w) -> all_ran w.
Proof.
  intros R ND H f m1 n m2 I. unfold spawner in H. set (w0 := {| w_cm := m; w_log := []; w_fin := []; w_script := script |}) in *.
  apply bind_val in H. destruct H as ((w1 & r1) & H1 & H).
  destruct (main_went e allow hs (target l) l w0 w1 r1) as (W & _); [apply start_inv; exists ops; exact R|reflexivity|exact ND|intros s' Is'; apply target_of; assumption|exact H1|].
  assert (G1 : gained e allow (fun o => forall n, o <> CUnload n) w0 w1).
  { eapply gained_weak; [|exact (g_gain _ _ _ _ _ _ _ _ _ W)].
    intros o [(s & _ & [[(_ & ->)|[(_ & ->)|(_ & _ & _ & ->)]]|[->| ->]])|(_ & ->)]; discriminate. }
  assert (No : gained e allow (fun o => forall n, o <> CUnload n) w0 w -> False).
  { intros G. destruct (log_of _ w0 w eq_refl G) as (_ & B). exact (B _ _ _ _ I n eq_refl). }
  assert (HD : forall x0, handler e allow l w1 = Val x0 -> ended x0 = (w, x) -> all_ran w).
  { intros (w2 & r2) Hh E. destruct (handler_went w1 w2 r2 (g_inv _ _ _ _ _ _ _ _ _ W) Hh) as (w1' & A & B & _ & _ & _ & [G2|AR] & _); apply (f_equal fst) in E; cbn in E; subst w2; [|exact AR].
    exfalso. apply No. eapply gained_trans; [exact G1|]. eapply cut_gained; eassumption. }
  destruct r1 as [[]|[y|]].
  - destruct (l_unload l); [destruct killed|]; try (injection H as <- _; exfalso; apply No; exact G1). apply bind_val in H. destruct H as (x0 & Hh & H). apply val_inj in H. eapply HD; eassumption.
  - injection H as <- _. exfalso. apply No. exact G1.
  - apply bind_val in H. destruct H as (x0 & Hh & H). apply val_inj in H. eapply HD; eassumption.
Qed.
Lemma spawner_stops ops killed script m w x : crun e allow (cm_start hs) ops = Val m -> NoDup (names (l_ctrls l)) -> l_group l = false -> no_signal script -> 
  spawner e allow l killed script m = Val (w, x) -> x <> Exit0 -> x <> Serving -> (l_unload l = true -> killed = false) ->
  exists before s after, l_ctrls l = before ++ s :: after /\
    forall f m1 o m2 s', In (Mine f m1 o m2) (w_log w) -> In s' after -> ~ touches o (s_name s').
Proof.
  intros R ND Gp NS H X0 X1 K. unfold spawner in H. set (w0 := {| w_cm := m; w_log := []; w_fin := []; w_script := script |}) in *.
  apply bind_val in H. destruct H as ((w1 & r1) & H1 & H).
  destruct (main_went e allow hs (target l) l w0 w1 r1) as (W & _ & S); [apply start_inv; exists ops; exact R|reflexivity|exact ND|intros s' Is'; apply target_of; assumption|exact H1|].
  destruct r1 as [[]|[y|]].
  - exfalso. destruct (l_unload l); [rewrite (K eq_refl) in H; injection H as _ <-; apply X1; reflexivity|injection H as _ <-; apply X0; reflexivity].
  - injection H as <- ->. destruct S as [(before & s & after & E & G)|(wm & Ht)]; [discriminate| |].
    + exists before, s, after. split; [exact E|]. destruct (log_of _ w0 w1 eq_refl G) as (_ & B). intros f m1 o m2 s' Im Is'.
      destruct (B _ _ _ _ Im) as (y & Iy & C).
      assert (Ne : s_name y <> s_name s').
      { rewrite E in ND. intros En. replace (before ++ s :: after) with ((before ++ [s]) ++ after) in ND by (rewrite <- app_assoc; reflexivity).
        unfold names in ND. rewrite map_app in ND. apply (in_map s_name) in Iy. apply (in_map s_name) in Is'. rewrite En in Iy.
        clear - ND Iy Is'. revert ND Iy Is'. generalize (map s_name (before ++ [s])) (map s_name after). intros a b. generalize (s_name s'). intros z.
        induction a as [|q a IH]; cbn; [intros _ []|]. intros ND [->|I] J; apply NoDup_cons_iff in ND; destruct ND as (N & ND).
        - apply N, in_or_app. right. exact J.
        - apply IH; assumption. }
      destruct C as [[(_ & ->)|[(_ & ->)|(_ & _ & _ & ->)]]|[->| ->]]; cbn; try (intros []; fail); try exact Ne.
      intros [[Q|[]]|[]]. contradiction.
    + exfalso. unfold main_part in H1. unfold andthen in H1. rewrite Ht, Gp in H1. cbn in H1. discriminate.
  - exfalso. exact (g_sig _ _ _ _ _ _ _ _ _ W eq_refl NS).
Qed.
End M.
