(** ToolsProofs.v -- the theorems about the unspawner and the hardware spawner. *)
From Coq Require Import String List Bool Arith Permutation.
From Verif Require Import Base Events HwModel RmModel RmSpec HwProofs RmProofs CmModel CmPrim CmTopo CmInv CmReach CmSpec CmSwitch CmOutcome CmLoad CmCycle ChainMain RmSys RmInv SpawnModel SpawnSpec SpawnProofs SpawnMain SpawnWhy ToolsModel ToolsSpec.
Import ListNotations.
Open Scope string_scope. Open Scope nat_scope. Open Scope list_scope.

Section T.
Variables (e : env) (allow : bool) (hs : list hwc).
Definition none (n : name) : option lc := None.
Notation Inv := (Inv e allow hs none).
Notation Reach := (Reach e allow hs).
Notation gained := (gained e allow).

Lemma Inv_of w : Reach w -> w_fin w = [] -> Inv w.
Proof. intros R F. split; [exact R|]. rewrite F. intros _ n []. Qed.
Lemma begin_inv script m : (exists ops, crun e allow (cm_start hs) ops = Val m) -> Inv (begin m script).
Proof. intros R. apply Inv_of; [exact R|reflexivity]. Qed.
Lemma patient_val {A} (p : prog A) w w' r : patient p w = Val (w', r) -> r <> inr (Ends Exit1) /\ exists r0, p w = Val (w', r0) /\
  (forall a, r = inl a -> r0 = inl a) /\ (r = inr Interrupted -> r0 = inr Interrupted) /\ (r = inr (Ends Exit0) -> r0 = inr (Ends Exit0)) /\ (forall x, r = inr (Ends x) -> exists y, r0 = inr (Ends y)).
Proof.
  intros H. unfold patient in H. apply bind_val in H. destruct H as ((w1 & r0) & H & K). injection K as -> K.
  destruct r0 as [a|[x|]]; [subst r|destruct x; subst r|subst r]; (split; [discriminate|]; eexists; split; [exact H|]; repeat split; try discriminate; try tauto; intros; eauto; congruence).
Qed.

(** the request that was answered *)
Lemma attempts_answer deaf o b : forall left ts w w', Inv w -> w_fin w = [] -> attempts e allow deaf (QDo o) left ts w = Val (w', inl b) ->
  exists wa, Inv wa /\ w_fin wa = [] /\ step e allow true wa o = Val (w', CBool b).
Proof.
  induction left as [|left IH]; intros ts w w' I F H; cbn [attempts] in H; [discriminate|]. destruct ts as [|t ts]; [discriminate|].
  apply bind_val in H. destruct H as (w1 & H1 & H). destruct (others_inv e allow hs none _ w w1 I H1) as (I1 & F1 & _). rewrite F in F1.
  destruct (if deaf then match t_fate t with Signal _ => Replied | f => f end else t_fate t) as [|sv|sv].
  - apply bind_val in H. destruct H as ((w2 & b2) & H2 & H). destruct b2 as [b2|]; [|discriminate]. injection H as -> ->.
    cbn [serve] in H2. apply bind_val in H2. destruct H2 as ((w3 & out) & H2 & K). injection K as -> K. destruct out; try discriminate. injection K as ->. eauto.
  - apply bind_val in H. destruct H as (w2 & H2 & H). apply (IH ts w2 w'); [| |exact H].
    + destruct sv; [|injection H2 as <-; exact I1]. apply bind_val in H2. destruct H2 as ((x & b2) & H2 & K). injection K as ->.
      refine (proj1 (serve_inv e allow hs none _ _ _ _ _ I1 _ H2)). rewrite F1. intros n [].
    + destruct sv; [|injection H2 as <-; exact F1]. apply bind_val in H2. destruct H2 as ((x & b2) & H2 & K). injection K as ->.
      assert (G : forall n, In n (w_fin w1) -> gentle (QDo o) n) by (rewrite F1; intros n []).
      destruct (serve_inv e allow hs none _ _ _ _ _ I1 G H2) as (_ & E & _). congruence.
  - apply bind_val in H. destruct H as (w2 & _ & H). discriminate.
Qed.
Lemma ask_answer deaf o b w w' : Inv w -> w_fin w = [] -> ask e allow deaf (QDo o) w = Val (w', inl b) ->
  exists wa, Inv wa /\ w_fin wa = [] /\ step e allow true wa o = Val (w', CBool b).
Proof.
  intros I F H. unfold ask in H. destruct (w_script w) as [|k ks]; [discriminate|]. destruct (k_there k); [|destruct deaf; discriminate].
  eapply attempts_answer; [| |exact H]; [exact I|exact F].
Qed.
(** what any request leaves *)
Lemma ask_any deaf q w w' r : Inv w -> w_fin w = [] -> ask e allow deaf q w = Val (w', r) ->
  Inv w' /\ w_fin w' = [] /\ incl (w_script w') (w_script w) /\ gained (made_of q) w w' /\ (r = inr Interrupted -> ~ no_signal (w_script w)) /\ r <> inr (Ends Exit0).
Proof.
  intros I F H. assert (G : forall n, In n (w_fin w) -> gentle q n) by (rewrite F; intros n []).
  destruct (ask_inv e allow hs none deaf q w w' r I G H) as (I1 & F1 & S1 & G1 & _ & X1).
  split; [exact I1|]. split; [congruence|]. split; [exact S1|]. split; [exact G1|]. split.
  - intros E NS. destruct (X1 E) as (_ & k & t & Ik & It & Sg). rewrite (NS k t Ik It) in Sg. discriminate.
  - intros ->. apply (never_ask e allow deaf q w w' Exit0 H). left. reflexivity.
Qed.
Lemma no_signal_incl a b : incl a b -> no_signal b -> no_signal a.
Proof. intros I N k t Ik It. eapply N; [apply I; exact Ik|exact It]. Qed.

(** the unspawner *)
Definition drops (ns : list name) (o : cop) : Prop := exists n, In n ns /\ o = CUnload n.
Definition downed (w : world) (n : name) : Prop := exists later f m1 m2 earlier, w_log w = later ++ Mine f m1 (CUnload n) m2 :: earlier /\
  loaded m1 n /\ state_in m1 n <> Some Active /\ ~ loaded m2 n /\ (exists ops, crun e allow (cm_start hs) ops = Val m2) /\
  tells e allow later m2 (w_cm w) /\ (forall f m c ok m', ~ In (Mine f m (CLoad c ok) m') later).
Lemma downed_more ns w w' n : gained (drops ns) w w' -> downed w n -> downed w' n.
Proof.
  intros (new & E & F & Tl) (later & f & m & m' & earlier & El & A & Ac & B & R & T & M). exists (new ++ later), f, m, m', earlier. rewrite E, El, app_assoc. split; [reflexivity|].
  split; [exact A|]. split; [exact Ac|]. split; [exact B|]. split; [exact R|]. split; [eapply tells_app; eassumption|]. intros g a c ok b I. apply in_app_or in I.
  destruct I as [I|I]; [|exact (M _ _ _ _ _ I)]. destruct (F _ _ _ _ I) as (k & _ & X). discriminate.
Qed.
Lemma unload_answer wa n w' b : Inv wa -> step e allow true wa (CUnload n) = Val (w', CBool b) ->
  (b = true -> downed w' n) /\ exists f m1, In (Mine f m1 (CUnload n) (w_cm w')) (w_log w') /\ cstep e allow m1 (CUnload n) = Val (w_cm w', CBool b).
Proof.
  intros I H. destruct (step_reach e allow hs true wa _ w' _ (proj1 I) H) as (C & R' & _ & _ & L). split.
  - intros ->. destruct (proj1 I) as (ops & R). pose proof (main_list e allow hs ops _ _ _ _ R C) as (ND & P). cbn in P.
    destruct (main_unload e allow hs ops _ _ _ _ R C) as (_ & In1 & NA).
    exists [], (w_fin wa), (w_cm wa), (w_cm w'), (w_log wa). split; [exact L|]. split; [apply in_map_iff in In1; destruct In1 as (c & E & Ic); exists c; auto|]. split; [exact NA|]. split.
    + intros (c & Ic & E). assert (N0 : NoDup (n :: map c_name (cm_ctrls (w_cm w')))) by (eapply Permutation_NoDup; [exact P|]; exact (proj1 (reach_N e allow hs wa (proj1 I)))).
      apply NoDup_cons_iff in N0. apply (proj1 N0). rewrite <- E. apply in_map. exact Ic.
    + split; [exact R'|]. split; [reflexivity|intros ? ? ? ? ? []].
  - exists (w_fin wa), (w_cm wa). rewrite L. split; [left; reflexivity|exact C].
Qed.
Lemma take_down_went : forall ns w w' r, Inv w -> w_fin w = [] -> take_down e allow ns w = Val (w', r) ->
  Inv w' /\ w_fin w' = [] /\ gained (drops ns) w w' /\ (r = inl tt -> forall n, In n ns -> downed w' n) /\ (r = inr Interrupted -> ~ no_signal (w_script w)) /\ r <> inr (Ends Exit0) /\
  (r = inr (Ends Exit1) -> exists f m1 n m2, In n ns /\ In (Mine f m1 (CUnload n) m2) (w_log w') /\ cstep e allow m1 (CUnload n) = Val (m2, CBool false)) /\
  (r <> inl tt -> exists before n after, ns = before ++ n :: after /\ (forall k, In k before -> downed w' k) /\ gained (drops (before ++ [n])) w w').
Proof.
  induction ns as [|n ns IH]; intros w w' r I F H.
  - injection H as <- <-. split; [exact I|]. split; [exact F|]. split; [apply gained_refl; split; reflexivity|]. split; [intros _ n []|]. split; [discriminate|]. split; [discriminate|]. split; [discriminate|]. intros []. reflexivity.
  - cbn [take_down] in H. apply andthen_val in H. destruct H as (w1 & r1 & H1 & H). apply patient_val in H1. destruct H1 as (N1 & r0 & H1 & Ra & Ri & R0 & Re).
    destruct (ask_any false _ w w1 r0 I F H1) as (I1 & F1 & S1 & G1 & X1 & Z1).
    assert (G1' : forall ns', gained (drops (n :: ns')) w w1) by (intros ns'; eapply gained_weak; [|exact G1]; cbn; intros o <-; exists n; split; [left|]; reflexivity).
    destruct r1 as [b|st].
    + specialize (Ra b eq_refl). subst r0. destruct (ask_answer false _ b w w1 I F H1) as (wa & Ia & _ & St). destruct (unload_answer wa n w1 b Ia St) as (Dn & f & m1 & Im & C).
      destruct b.
      * destruct (IH w1 w' r I1 F1 H) as (I2 & F2 & G2 & P2 & X2 & Z2 & Y2 & B2).
        assert (G2' : gained (drops (n :: ns)) w1 w') by (eapply gained_weak; [|exact G2]; intros o (k & Ik & ->); exists k; split; [right; exact Ik|reflexivity]).
        split; [exact I2|]. split; [exact F2|]. split; [eapply gained_trans; [apply G1'|exact G2']|]. split.
        { intros E k [<-|Ik]; [|exact (P2 E k Ik)]. eapply downed_more; [exact G2|apply Dn; reflexivity]. }
        split; [intros E NS; apply (X2 E); eapply no_signal_incl; eassumption|]. split; [exact Z2|]. split.
        { intros E. destruct (Y2 E) as (g & a & k & b & Ik & Y). exists g, a, k, b. split; [right; exact Ik|exact Y]. }
        intros NE. destruct (B2 NE) as (before & k & after & -> & Bd & Bg). exists (n :: before), k, after. split; [reflexivity|]. split.
        { intros x [<-|Hx]; [|exact (Bd x Hx)]. eapply downed_more; [exact G2|apply Dn; reflexivity]. }
        eapply gained_trans; [apply G1'|]. eapply gained_weak; [|exact Bg]. intros o (x & Ix & ->). exists x. split; [right; exact Ix|reflexivity].
      * injection H as <- <-. split; [exact I1|]. split; [exact F1|]. split; [apply G1'|]. split; [discriminate|]. split; [discriminate|]. split; [discriminate|]. split.
        { intros _. exists f, m1, n, (w_cm w1). split; [left; reflexivity|]. auto. }
        intros _. exists [], n, ns. split; [reflexivity|]. split; [intros k []|]. apply G1'.
    + destruct H as (-> & ->). split; [exact I1|]. split; [exact F1|]. split; [apply G1'|]. split; [discriminate|]. split; [intros [= ->]; exact (X1 (Ri eq_refl))|].
      split; [intros [= ->]; exact (Z1 (R0 eq_refl))|]. split; [intros [= ->]; contradiction|]. intros _. exists [], n, ns. split; [reflexivity|]. split; [intros k []|]. apply G1'.
Qed.
Lemma downed_done w n : downed w n -> unloaded_by_it w n.
Proof.
  intros (later & f & m1 & m2 & earlier & E & A & Ac & B & R & T & M). exists later, f, m1, m2, earlier. split; [exact E|]. split; [exact A|]. split; [exact Ac|]. split; [exact B|].
  intros NR. refine (proj1 (tells_gone e allow hs n later m2 (w_cm w) R T _ NR B)). intros g a c ok b I. exfalso. exact (M _ _ _ _ _ I).
Qed.
Definition stops_or_ends (ns : list name) (o : cop) : Prop := o = CRequest [] ns true true \/ o = CTimeout \/ o = CEvaluate.
Lemma unspawner_all ops ns script m w x : crun e allow (cm_start hs) ops = Val m -> unspawner e allow ns script m = Val (w, x) ->
  (tells e allow (w_log w) m (w_cm w) /\ forall f m1 o m2, In (Mine f m1 o m2) (w_log w) -> stops_or_ends ns o \/ drops ns o) /\
  (x = Exit0 -> no_signal script -> forall n, In n ns -> unloaded_by_it w n) /\
  (x = Exit1 -> exists f m1 n m2, In n ns /\ In (Mine f m1 (CUnload n) m2) (w_log w) /\ cstep e allow m1 (CUnload n) = Val (m2, CBool false)) /\
  (ns <> [] -> (exists n, In n ns /\ ~ unloaded_by_it w n) \/ x <> Exit0 -> exists before n after, ns = before ++ n :: after /\ (forall k, In k before -> unloaded_by_it w k) /\
     forall f m1 k m2, In (Mine f m1 (CUnload k) m2) (w_log w) -> In k before \/ k = n).
Proof.
  intros R H. unfold unspawner in H. apply bind_val in H. destruct H as ((w1 & r) & H & K). injection K as -> K.
  pose proof (begin_inv script m (ex_intro _ ops R)) as I0. apply andthen_val in H. destruct H as (wa & ra & Ha & H).
  destruct (ask_any false _ _ wa ra I0 eq_refl Ha) as (Ia & Fa & Sa & Ga & Xa & Za).
  assert (Look : forall P : cop -> Prop, gained P wa w -> tells e allow (w_log w) m (w_cm w) /\ forall f m1 o m2, In (Mine f m1 o m2) (w_log w) -> stops_or_ends ns o \/ P o).
  { intros P G. assert (GG : gained (fun o => stops_or_ends ns o \/ P o) (begin m script) w).
    { eapply gained_trans; [eapply gained_weak; [|exact Ga]; cbn; intros o X; left; exact X|eapply gained_weak; [|exact G]; auto]. }
    destruct GG as (new & E & Q & T). cbn in E. rewrite app_nil_r in E. rewrite E. auto. }
  destruct ra as [b|st].
  - destruct (take_down_went ns wa w r Ia Fa H) as (I1 & F1 & G1 & P1 & X1 & Z1 & Y1 & B1).
    assert (Dec : r = inl tt \/ r <> inl tt) by (destruct r as [[]|]; [left; reflexivity|right; discriminate]).
    split; [exact (Look _ G1)|]. split; [|split].
    + intros E NS n Hn. apply downed_done. apply P1; [|exact Hn]. destruct r as [[]|[y|]]; [reflexivity| |].
      * exfalso. apply Z1. congruence.
      * exfalso. apply (X1 eq_refl). eapply no_signal_incl; [exact Sa|exact NS].
    + intros E. apply Y1. destruct r as [[]|[y|]]; congruence.
    + intros _ Why. destruct Dec as [E|NE].
      * exfalso. destruct Why as [(n & Hn & Nn)|Nx]; [apply Nn, downed_done, P1; assumption|]. subst r. apply Nx. exact (eq_sym K).
      * destruct (B1 NE) as (before & n & after & E & Bd & Bg). exists before, n, after. split; [exact E|]. split; [intros k Hk; apply downed_done, Bd, Hk|].
        intros f m1 k m2 Im. destruct (Look _ Bg) as (_ & L). destruct (L _ _ _ _ Im) as [[X|[X|X]]|(k' & Ik & [= <-])]; try discriminate.
        apply in_app_or in Ik. destruct Ik as [Ik|[<-|[]]]; auto.
  - destruct H as (-> & ->). split; [apply Look, gained_refl; split; reflexivity|]. split; [|split].
    + intros E NS. exfalso. destruct st as [y|]; [apply Za; congruence|exact (Xa eq_refl NS)].
    + intros E. exfalso. destruct st as [y|]; [|congruence]. subst y x. clear - Ha. unfold ask in Ha. destruct (w_script (begin m script)) as [|k ks]; [discriminate|].
      destruct (k_there k); [|discriminate]. revert Ha. generalize {| w_cm := w_cm (begin m script); w_log := w_log (begin m script); w_fin := w_fin (begin m script); w_script := ks |}.
      generalize (k_tries k). generalize 3. induction n as [|n IH]; intros ts v Ha; cbn [attempts] in Ha; [discriminate|]. destruct ts as [|t ts]; [discriminate|].
      apply bind_val in Ha. destruct Ha as (v1 & _ & Ha). destruct (t_fate t) as [|sv|sv]; apply bind_val in Ha.
      * destruct Ha as ((v2 & b) & _ & Ha). destruct b; discriminate.
      * destruct Ha as (v2 & _ & Ha). exact (IH ts v2 Ha).
      * destruct Ha as (v2 & _ & Ha). discriminate.
    + intros Nn Why. destruct ns as [|n ns']; [contradiction|]. exists [], n, ns'. split; [reflexivity|]. split; [intros k []|].
      assert (G0 : gained (fun _ => False) wa wa) by (apply gained_refl; split; reflexivity). intros f m1 k m2 Im.
      destruct (proj2 (Look _ G0) _ _ _ _ Im) as [[X|[X|X]]|[]]; discriminate.
Qed.

(** the hardware spawner *)
Definition sets (target : lc) (ns : list name) (o : cop) : Prop := exists n, In n ns /\ o = CSetHw n target.
Lemma known_answer w w' b n : Inv w -> w_fin w = [] -> ask e allow false (QKnown n) w = Val (w', inl b) -> (b = true <-> hw_known (w_cm w') n).
Proof.
  intros I F H. unfold ask in H. destruct (w_script w) as [|k ks]; [discriminate|]. destruct (k_there k); [|discriminate].
  revert H. generalize {| w_cm := w_cm w; w_log := w_log w; w_fin := w_fin w; w_script := ks |}. generalize (k_tries k). generalize 3.
  induction n0 as [|n0 IH]; intros ts v H; cbn [attempts] in H; [discriminate|]. destruct ts as [|t ts]; [discriminate|].
  apply bind_val in H. destruct H as (v1 & _ & H). destruct (t_fate t) as [|sv|sv]; apply bind_val in H.
  - destruct H as ((v2 & b2) & H2 & H). destruct b2 as [b2|]; [|discriminate]. injection H as -> ->. cbn [serve] in H2. injection H2 as -> H2.
    destruct (cm_pend (w_cm w')); [discriminate|]. injection H2 as <-. unfold hw_known. destruct (find_hw (cm_rm (w_cm w')) n) as [h|]; split; try discriminate; eauto. intros (h & X). discriminate.
  - destruct H as (v2 & _ & H). exact (IH ts v2 H).
  - destruct H as (v2 & _ & H). discriminate.
Qed.
Lemma reach_known w n : wf_hw hs -> Reach w -> (hw_known (w_cm w) n <-> In n (map h_name hs)).
Proof.
  intros W (ops & R). assert (S : CI (w_cm w) /\ statics (cm_rm (w_cm w)) = statics (rm_start hs)).
  { eapply (crun_inv e allow (fun m => CI m /\ statics (cm_rm m) = statics (rm_start hs))); [| | |exact R].
    - intros x [Hx _]. exact (proj1 (ci_n _ Hx)).
    - intros a b [A B] P. split; [eapply prim_CI; eassumption|]. rewrite (prim_statics _ _ _ _ _ (ci_r _ A) P). exact B.
    - split; [apply start_CI; exact W|reflexivity]. }
  assert (M : forall r, map h_name (rm_hw r) = map h_name (statics r)) by (intros r; unfold statics; rewrite map_map; reflexivity).
  assert (E : map h_name (rm_hw (cm_rm (w_cm w))) = map h_name hs).
  { rewrite M, (proj2 S), <- M. cbn. rewrite map_map. reflexivity. }
  rewrite <- E. unfold hw_known, find_hw. split.
  - intros (h & F). apply find_some in F. destruct F as (I & F). apply String.eqb_eq in F. rewrite <- F. apply in_map. exact I.
  - intros I. destruct (find _ _) as [h|] eqn:F; [eauto|]. exfalso. apply in_map_iff in I. destruct I as (h & <- & I).
    pose proof (find_none _ _ F h I) as X. cbn in X. rewrite String.eqb_refl in X. discriminate.
Qed.
Definition answer_of (w : world) (target : lc) (x : name * report) : Prop :=
  match snd x with
  | NotLoaded => True
  | Done => reached_by_it w (fst x) target
  | Elsewhere | Refused => exists f m1 m2 b, In (Mine f m1 (CSetHw (fst x) target) m2) (w_log w) /\ cstep e allow m1 (CSetHw (fst x) target) = Val (m2, CBool b) /\ b = match snd x with Refused => false | _ => true end
  end.
Lemma answer_more P target w w' x : gained P w w' -> answer_of w target x -> answer_of w' target x.
Proof.
  intros (new & E & _). unfold answer_of, reached_by_it. destruct (snd x); [exact (fun y => y)| | |]; intros (f & m1 & m2 & H).
  - exists f, m1, m2. rewrite E. split; [apply in_or_app; right; apply H|apply H].
  - destruct H as (b & I & H). exists f, m1, m2, b. rewrite E. split; [apply in_or_app; right; exact I|exact H].
  - destruct H as (b & I & H). exists f, m1, m2, b. rewrite E. split; [apply in_or_app; right; exact I|exact H].
Qed.
Lemma bring_up_went target : wf_hw hs -> forall ns said w w' said' x, Inv w -> w_fin w = [] -> bring_up e allow target ns said w = Val (w', said', x) ->
  Inv w' /\ gained (sets target ns) w w' /\ (exists new, said' = said ++ new /\ (exists rest, ns = map fst new ++ rest /\ (x = Exit0 -> no_signal (w_script w) -> rest = [])) /\
    forall y, In y new -> answer_of w' target y /\ snd y <> Elsewhere /\ (snd y = NotLoaded <-> ~ In (fst y) (map h_name hs))).
Proof.
  intros W. induction ns as [|n ns IH]; intros said w w' said' x I F H; cbn [bring_up] in H.
  - injection H as <- <- <-. split; [exact I|]. split; [apply gained_refl; split; reflexivity|]. exists []. rewrite app_nil_r. split; [reflexivity|]. split; [|intros y []]. exists []. auto.
  - apply bind_val in H. destruct H as ((w1 & r1) & H1 & H). destruct (ask_any false _ w w1 r1 I F H1) as (I1 & F1 & S1 & G1 & X1 & Z1).
    assert (G1' : forall P, gained P w w1) by (intros P; eapply gained_weak; [|exact G1]; intros o []).
    assert (Stop : forall (y : ending) w2, Inv w2 -> gained (sets target (n :: ns)) w w2 -> (y = Exit0 -> ~ no_signal (w_script w)) -> Val (w2, said, y) = Val (w', said', x) ->
       Inv w' /\ gained (sets target (n :: ns)) w w' /\ (exists new, said' = said ++ new /\ (exists rest, n :: ns = map fst new ++ rest /\ (x = Exit0 -> no_signal (w_script w) -> rest = [])) /\
         forall y, In y new -> answer_of w' target y /\ snd y <> Elsewhere /\ (snd y = NotLoaded <-> ~ In (fst y) (map h_name hs)))).
    { intros y w2 I2 G2 Ny [= <- <- <-]. split; [exact I2|]. split; [exact G2|]. exists []. rewrite app_nil_r. split; [reflexivity|]. split; [|intros z []]. exists (n :: ns). split; [reflexivity|].
      intros E NS. exfalso. exact (Ny E NS). }
    pose proof (reach_known w1 n W (proj1 I1)) as Kn. destruct r1 as [[|]|[y|]].
    + apply bind_val in H. destruct H as ((w2 & r2) & H2 & H). apply patient_val in H2. destruct H2 as (N2 & r0 & H2 & Ra & Ri & R0 & Re).
      destruct (ask_any false _ w1 w2 r0 I1 F1 H2) as (I2 & F2 & S2 & G2 & X2 & Z2).
      assert (G2' : gained (sets target (n :: ns)) w w2).
      { eapply gained_trans; [apply G1'|]. eapply gained_weak; [|exact G2]. cbn. intros o <-. exists n. split; [left|]; reflexivity. }
      destruct r2 as [ok|[y|]].
      * specialize (Ra ok eq_refl). subst r0. destruct (ask_answer false _ ok w1 w2 I1 F1 H2) as (wa & Ia & _ & St).
        destruct (step_reach e allow hs true wa _ w2 _ (proj1 Ia) St) as (C & _ & _ & _ & L).
        assert (Hr : ok = true -> lc_of (cm_rm (w_cm w2)) n = Some target).
        { intros ->. destruct (proj1 Ia) as (ops & R). pose proof (i_names _ (ci_r _ (reach_CI e allow hs ops _ W R))) as NK. unfold cstep in C.
          destruct (set_component_state_ok e (cm_rm (emit (w_cm wa) EvOp)) n target NK) as [_ S]. destruct (set_component_state e (cm_rm (emit (w_cm wa) EvOp)) n target) as [r' b'].
          injection C as <- ->. exact (S eq_refl). }
        set (rep := if ok then _ else Refused) in H. assert (Er : rep = if ok then Done else Refused).
        { unfold rep. destruct ok; [|reflexivity]. rewrite (Hr eq_refl). destruct target; reflexivity. }
        destruct (IH _ w2 w' said' x I2 F2 H) as (I3 & G3 & new & Es & (rest & En & Er0) & An).
        assert (G3' : gained (sets target (n :: ns)) w2 w') by (eapply gained_weak; [|exact G3]; intros o (k & Ik & ->); exists k; split; [right; exact Ik|reflexivity]).
        split; [exact I3|]. split; [eapply gained_trans; eassumption|]. exists ((n, rep) :: new). split; [rewrite Es, <- app_assoc; reflexivity|]. split.
        { exists rest. split; [cbn; rewrite En at 1; reflexivity|]. intros E NS. apply Er0; [exact E|]. eapply no_signal_incl; [|exact NS]. intros k Ik. apply S1, S2, Ik. }
        intros y [<-|Iy]; [|exact (An y Iy)]. rewrite Er. split; [|split; [destruct ok; discriminate|]].
        2:{ pose proof (proj1 Kn (proj1 (known_answer w w1 true n I F H1) eq_refl)) as X. cbn [fst snd]. split; [destruct ok; discriminate|intros Y; contradiction]. }
        eapply answer_more; [exact G3|]. unfold answer_of, reached_by_it. destruct ok; cbn [fst snd].
        { exists (w_fin wa), (w_cm wa), (w_cm w2). rewrite L. split; [left; reflexivity|exact (Hr eq_refl)]. }
        { exists (w_fin wa), (w_cm wa), (w_cm w2), false. rewrite L. split; [left; reflexivity|]. split; [exact C|reflexivity]. }
      * apply (Stop y w2 I2 G2'); [|exact H]. intros -> _. exact (Z2 (R0 eq_refl)).
      * apply (Stop Exit0 w2 I2 G2'); [|exact H]. intros _ NS. apply (X2 (Ri eq_refl)). eapply no_signal_incl; eassumption.
    + destruct (IH _ w1 w' said' x I1 F1 H) as (I3 & G3 & new & Es & (rest & En & Er0) & An).
      assert (G3' : gained (sets target (n :: ns)) w1 w') by (eapply gained_weak; [|exact G3]; intros o (k & Ik & ->); exists k; split; [right; exact Ik|reflexivity]).
      split; [exact I3|]. split; [eapply gained_trans; [apply G1'|exact G3']|]. exists ((n, NotLoaded) :: new). split; [rewrite Es, <- app_assoc; reflexivity|]. split.
      { exists rest. split; [cbn; rewrite En at 1; reflexivity|]. intros E NS. apply Er0; [exact E|]. eapply no_signal_incl; eassumption. }
      intros y [<-|Iy]; [|exact (An y Iy)]. split; [exact Logic.I|]. split; [discriminate|]. cbn [fst snd]. split; [|reflexivity]. intros _ X.
      pose proof (proj2 (known_answer w w1 false n I F H1) (proj2 Kn X)). discriminate.
    + apply (Stop y w1 I1 (G1' _)); [|exact H]. intros -> _. exact (Z1 eq_refl).
    + apply (Stop Exit0 w1 I1 (G1' _)); [|exact H]. intros _ NS. exact (X1 eq_refl NS).
Qed.
End T.
