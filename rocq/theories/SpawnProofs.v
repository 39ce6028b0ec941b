(** SpawnProofs.v -- proofs about the spawner. *)
From Coq Require Import String List Bool Arith.
From Verif Require Import Base Events HwModel RmModel CmModel CmPrim CmTopo CmSpec CmSwitch CmOutcome CmLoad LifeSpec UpdateSpec CmLife CmCycle ChainMain CmIntact SpawnModel SpawnSpec.
Import ListNotations.
Open Scope string_scope. Open Scope nat_scope. Open Scope list_scope.

(** a direct operation of the spawner leaves the state of the controllers it is not about *)
Definition mild (o : cop) (n : name) : Prop :=
  match o with
  | CLoad _ _ | CRequest _ _ _ _ | CTimeout | CEvaluate => True
  | CUnload k | CConfigure k _ => k <> n
  | _ => False
  end.
Lemma phase_other n l : forall t, (forall ev, In ev t -> forall s, phase1 n s ev = Some s) -> phase n (PState l) t = Some (PState l).
Proof.
  induction t as [|ev t IH]; intros H; cbn [phase]; [reflexivity|]. rewrite IH; [|intros x Hx; apply H; right; exact Hx]. apply H. left. reflexivity.
Qed.
Lemma mild_event o n ev : mild o n -> may_call o ev -> forall s, phase1 n s ev = Some s.
Proof.
  assert (Q : forall x, x <> n -> String.eqb x n = false) by (intros x; apply String.eqb_neq).
  intros M C s. destruct o; cbn in M; try contradiction; cbn in C; try contradiction.
  - destruct ev; try contradiction; try reflexivity; cbn [phase1].
    + destruct cb; try contradiction; subst; rewrite (Q _ M); reflexivity.
    + subst; rewrite (Q _ M); reflexivity.
  - destruct ev; try contradiction; try reflexivity; cbn [phase1].
    + destruct cb; try contradiction; subst; rewrite (Q _ M); reflexivity.
    + subst; rewrite (Q _ M); reflexivity.
    + destruct on; try contradiction; subst; rewrite (Q _ M); reflexivity.
  - destruct ev; try contradiction. reflexivity.
Qed.
Lemma mild_keeps e allow m o m' out n l : NI m -> cstep e allow m o = Val (m', out) -> mild o n ->
  state_in m n = Some l -> state_in m' n = Some l.
Proof.
  intros N H M S. destruct (main_step e allow m o m' out N H) as (t & _ & F & [W]).
  unfold state_in in S. destruct (find_ctrl m n) as [c|] eqn:Fc; [|discriminate]. injection S as <-.
  rewrite Forall_forall in F.
  assert (P : phase n (PState (c_lc c)) t = Some (PState (c_lc c))).
  { apply phase_other. intros ev Hev. apply (mild_event o n ev M). apply F. exact Hev. }
  destruct (W n c Fc) as [(c' & Fc' & Ph & _)|(-> & _)].
  - rewrite P in Ph. injection Ph as E. unfold state_in. rewrite Fc'. cbn. congruence.
  - cbn in M. contradiction.
Qed.
Lemma state_loaded m n : loaded m n <-> exists l, state_in m n = Some l.
Proof.
  unfold loaded, state_in, find_ctrl. split.
  - intros (c & I & E). destruct (find_in (cm_ctrls m) n) as [d|] eqn:F; [exists (c_lc d); reflexivity|].
    apply find_in_none in F. exfalso. apply F. rewrite <- E. apply in_map. exact I.
  - intros (l & H). destruct (find_in (cm_ctrls m) n) as [d|] eqn:F; [|discriminate]. exists d. split; [eapply find_in_In; exact F|eapply find_in_name; exact F].
Qed.

Section P.
Variables (e : env) (allow : bool) (hs : list hwc).

Definition Reach (w : world) : Prop := exists ops, crun e allow (cm_start hs) ops = Val (w_cm w).
Lemma step_reach mine w o w' out : Reach w -> step e allow mine w o = Val (w', out) ->
  cstep e allow (w_cm w) o = Val (w_cm w', out) /\ Reach w' /\ w_fin w' = w_fin w /\ w_script w' = w_script w /\
  w_log w' = (if mine then Mine else Others) (w_fin w) (w_cm w) o (w_cm w') :: w_log w.
Proof.
  intros (ops & R) H. unfold step in H. apply bind_val in H. destruct H as ([m' out'] & H & K). injection K as <- <-.
  split; [exact H|]. split; [|split; [reflexivity|split; [reflexivity|destruct mine; reflexivity]]].
  exists (ops ++ [o]). eapply crun_snoc; eassumption.
Qed.
Lemma reach_N w : Reach w -> NI (w_cm w). Proof. intros (ops & R). eapply reach_NI. exact R. Qed.

(** what the log gained *)
Definition gained (P : cop -> Prop) (w w' : world) : Prop :=
  exists new, w_log w' = new ++ w_log w /\ (forall f m o m', In (Mine f m o m') new -> P o) /\ tells e allow new (w_cm w) (w_cm w').
Lemma tells_app : forall b a m m1 m2, tells e allow a m m1 -> tells e allow b m1 m2 -> tells e allow (b ++ a) m m2.
Proof.
  induction b as [|x b IH]; intros a m m1 m2 A B; cbn in B |- *; [subst; exact A|].
  destruct x as [f m3 o m4|f m3 o m4]; destruct B as (B & E & S); (split; [eapply IH; eassumption|auto]).
Qed.
Lemma gained_refl P w w' : w_log w' = w_log w /\ w_cm w' = w_cm w -> gained P w w'.
Proof. intros (E & C). exists []. split; [exact E|]. split; [intros ? ? ? ? []|exact C]. Qed.
Lemma gained_trans P a b c : gained P a b -> gained P b c -> gained P a c.
Proof.
  intros (x & E & F & L) (y & E' & F' & L'). exists (y ++ x). rewrite E', E, app_assoc. split; [reflexivity|]. split; [|eapply tells_app; eassumption].
  intros f m o m' I. apply in_app_or in I. destruct I; eauto.
Qed.
Lemma gained_weak (P Q : cop -> Prop) w w' : (forall o, P o -> Q o) -> gained P w w' -> gained Q w w'.
Proof. intros H (x & E & F & L). exists x. split; [exact E|]. split; [eauto|exact L]. Qed.

(** the controllers the spawner is done with are as asked *)
Variable T : name -> option lc.
Definition stands (m : cm) (n : name) : Prop := match T n with None => loaded m n | Some l => state_in m n = Some l end.
Definition Inv (w : world) : Prop := Reach w /\ (left_alone (w_log w) -> forall n, In n (w_fin w) -> stands (w_cm w) n).
Lemma stands_same m m' n : (forall l, state_in m n = Some l -> state_in m' n = Some l) -> stands m n -> stands m' n.
Proof.
  unfold stands. intros H. destruct (T n) as [l|]; [apply H|]. intros L. apply state_loaded in L. destruct L as (l & L).
  apply state_loaded. exists l. apply H. exact L.
Qed.
Lemma left_tail x log : left_alone (x :: log) -> left_alone log.
Proof. intros H f m o m' I. apply (H f m o m'). right. exact I. Qed.

Lemma step_inv mine w o w' out : Inv w -> (mine = true -> forall n, In n (w_fin w) -> mild o n) -> step e allow mine w o = Val (w', out) ->
  Inv w' /\ w_fin w' = w_fin w /\ w_script w' = w_script w /\ cstep e allow (w_cm w) o = Val (w_cm w', out).
Proof.
  intros (R & S) M H. destruct (step_reach mine w o w' out R H) as (C & R' & F & Sc & L).
  split; [split; [exact R'|]|auto]. rewrite L, F. intros U n I. specialize (S (left_tail _ _ U) n I).
  destruct mine.
  - revert S. apply stands_same. intros l. eapply mild_keeps; [apply reach_N; exact R|exact C|apply M; auto].
  - revert S. apply stands_same. intros l Hl. rewrite <- Hl. eapply U; [left; reflexivity|exact I].
Qed.
Lemma others_inv : forall ops w w', Inv w -> others_do e allow ops w = Val w' ->
  Inv w' /\ w_fin w' = w_fin w /\ w_script w' = w_script w /\ crun e allow (w_cm w) ops = Val (w_cm w') /\ gained (fun _ => False) w w'.
Proof.
  unfold others_do, crun. induction ops as [|o ops IH]; intros w w' I H; cbn [rfold] in H |- *.
  - injection H as <-. split; [exact I|]. split; [reflexivity|]. split; [reflexivity|]. split; [reflexivity|]. apply gained_refl. split; reflexivity.
  - apply bind_val in H. destruct H as (w1 & H1 & H). apply bind_val in H1. destruct H1 as ([w1' out] & H1 & K). injection K as ->.
    destruct (step_inv false w o w1 out I) as (I1 & F1 & S1 & C1); [discriminate|exact H1|].
    destruct (step_reach false w o w1 out (proj1 I) H1) as (_ & _ & _ & _ & L1).
    destruct (IH w1 w' I1 H) as (I2 & F2 & S2 & C2 & G2).
    split; [exact I2|]. split; [congruence|]. split; [congruence|]. split; [rewrite C1; cbn [bind]; exact C2|].
    eapply gained_trans; [|exact G2]. exists [Others (w_fin w) (w_cm w) o (w_cm w1)]. split; [exact L1|]. split; [intros f m q m' [X|[]]; discriminate|].
    cbn. eauto.
Qed.
Lemma step_mine w o w' out : Inv w -> (forall n, In n (w_fin w) -> mild o n) -> step e allow true w o = Val (w', out) ->
  Inv w' /\ w_fin w' = w_fin w /\ w_script w' = w_script w /\ cstep e allow (w_cm w) o = Val (w_cm w', out) /\ gained (eq o) w w' /\
  In (Mine (w_fin w) (w_cm w) o (w_cm w')) (w_log w').
Proof.
  intros I M H. destruct (step_inv true w o w' out I (fun _ => M) H) as (A & B & C & D).
  destruct (step_reach true w o w' out (proj1 I) H) as (_ & _ & _ & _ & L). repeat (split; [assumption|]). split; [|rewrite L; left; reflexivity].
  exists [Mine (w_fin w) (w_cm w) o (w_cm w')]. split; [exact L|]. split; [intros f m q m' [X|[]]; injection X as _ _ -> _; reflexivity|]. cbn. eauto.
Qed.

(** requests *)
Definition made_of (q : query) (o : cop) : Prop :=
  match q with QLoaded _ | QKnown _ => False | QDo x => x = o | QSwitch a d asap => o = CRequest a d true asap \/ o = CTimeout \/ o = CEvaluate end.
Definition gentle (q : query) (n : name) : Prop := match q with QDo o => mild o n | _ => True end.
(** what a positive answer means *)
Definition answered (q : query) (w : world) : Prop :=
  match q with
  | QLoaded n => loaded (w_cm w) n
  | QDo (CLoad c true) => loaded (w_cm w) (c_name c)
  | QDo (CConfigure n _) => state_in (w_cm w) n = Some Inactive
  | QDo (CUnload n) => exists f m rest, w_log w = Mine f m (CUnload n) (w_cm w) :: rest /\ loaded m n /\ ~ loaded (w_cm w) n
  | QSwitch [] d asap => d = [] \/ exists f m m', In (Mine f m (CRequest [] d true asap) m') (w_log w) /\ forall n, In n d -> state_in m n = Some Active
  | QSwitch a _ _ => forall n, In n a -> state_in (w_cm w) n = Some Active
  | _ => True
  end.
Lemma load_failed_plugin m c m' : cstep e allow m (CLoad c false) = Val (m', CBool true) -> False.
Proof.
  unfold cstep, serviced. destruct (cm_pend _); [discriminate|]. unfold to_out, load_controller. destruct (find_ctrl _ _); discriminate.
Qed.
Lemma others_not_ending : forall ops, Forall not_end (filter (fun o => negb (ends_switch o)) ops).
Proof.
  intros ops. apply Forall_forall. intros o I. apply filter_In in I. destruct I as [_ I].
  split; intros ->; discriminate.
Qed.
Lemma req_cases w a d asap m' out : Reach w -> cstep e allow (w_cm w) (CRequest a d true asap) = Val (m', out) ->
  (out = CSw SwNothing -> a = [] /\ d = []) /\
  (out = CSw SwPending -> forall n, In n d -> state_in (w_cm w) n = Some Active).
Proof.
  intros R H. pose proof (reach_N w R) as N. unfold cstep, serviced in H. set (m0 := emit (w_cm w) EvOp) in *.
  destruct (cm_pend m0); [injection H as _ <-; split; discriminate|].
  apply bind_val in H. destruct H as ((m1 & o) & H1 & H). injection H as _ <-.
  assert (N0 : NoDup (map c_name (cm_ctrls m0))) by (exact (proj1 N)).
  destruct (request_strict e allow m0 a d asap m1 o N0 H1) as [(-> & _)|[(-> & A & D & _)|(-> & p & X & _ & F)]].
  - split; discriminate.
  - split; [auto|discriminate].
  - split; [discriminate|]. intros _ n I. pose proof (sf_stop _ _ _ _ _ _ F) as SA. pose proof (sf_known _ _ _ _ _ _ F) as K.
    assert (L : loaded (w_cm w) n).
    { exact (K n (in_or_app _ _ _ (or_intror I))). }
    apply state_loaded in L. destruct L as (l & L). rewrite L. f_equal. unfold state_in in L.
    destruct (find_ctrl (w_cm w) n) as [c|] eqn:Fc; [|discriminate]. injection L as <-. apply SA.
    + eapply find_in_In. exact Fc.
    + rewrite (find_in_name _ _ _ Fc). exact I.
Qed.
Lemma serve_inv q t w w' b : Inv w -> (forall n, In n (w_fin w) -> gentle q n) -> serve e allow q t w = Val (w', b) ->
  Inv w' /\ w_fin w' = w_fin w /\ w_script w' = w_script w /\ gained (made_of q) w w' /\ (b = Some true -> answered q w').
Proof.
  intros I G H. destruct q as [n|h|o|a d asap]; cbn [serve] in H.
  - injection H as <- <-. split; [exact I|]. split; [reflexivity|]. split; [reflexivity|]. split; [apply gained_refl; split; reflexivity|].
    destruct (cm_pend (w_cm w)); [discriminate|]. intros [= E]. cbn [answered]. apply state_loaded. unfold state_in.
    destruct (find_ctrl (w_cm w) n) as [c|]; [exists (c_lc c); reflexivity|discriminate].
  - injection H as <- <-. split; [exact I|]. split; [reflexivity|]. split; [reflexivity|]. split; [apply gained_refl; split; reflexivity|]. intros _. exact Logic.I.
  - apply bind_val in H. destruct H as ((w1 & out) & H1 & H). injection H as <- <-.
    destruct (step_mine w o w1 out I G H1) as (I1 & F1 & S1 & C & Gn & _).
    split; [exact I1|]. split; [exact F1|]. split; [exact S1|]. split; [exact Gn|].
    destruct out as [b'| | |]; try discriminate. intros [= ->]. destruct o; try exact Logic.I; cbn [answered].
    + destruct init_ok; [|exact Logic.I]. destruct (main_load e allow _ _ _ C) as (c' & _ & E & N & _). exists c'. rewrite E. split; [apply in_or_app; right; left; reflexivity|exact N].
    + destruct (proj1 I) as (ops & R). pose proof (main_list e allow hs ops _ _ _ _ R C) as (ND & P). cbn in P.
      destruct (step_reach true w (CUnload n) w1 _ (proj1 I) H1) as (_ & _ & _ & _ & Lg). exists (w_fin w), (w_cm w), (w_log w). split; [exact Lg|].
      split. { pose proof (Permutation.Permutation_in n (Permutation.Permutation_sym P) (or_introl eq_refl)) as X. apply in_map_iff in X. destruct X as (c & E & Ic). exists c. auto. }
      intros (c & Ic & E).
      assert (N0 : NoDup (n :: map c_name (cm_ctrls (w_cm w1)))).
      { eapply Permutation.Permutation_NoDup; [exact P|]. exact (proj1 (reach_N w (proj1 I))). }
      apply NoDup_cons_iff in N0. apply (proj1 N0). rewrite <- E. apply in_map. exact Ic.
    + destruct (proj1 I) as (ops & R). exact (proj1 (main_configure_done e allow hs ops _ _ _ _ R C)).
  - apply bind_val in H. destruct H as ((w1 & out) & H1 & H).
    destruct (step_mine w (CRequest a d true asap) w1 out I (fun _ _ => Logic.I) H1) as (I1 & F1 & S1 & C & Gn & Lg).
    assert (Gn1 : gained (made_of (QSwitch a d asap)) w w1) by (eapply gained_weak; [|exact Gn]; cbn; intros o <-; auto).
    destruct (req_cases w a d asap _ _ (proj1 I) C) as (RN & RP).
    assert (Triv : forall b', Val (w1, b') = Val (w', b) -> b' <> Some true -> 
      Inv w' /\ w_fin w' = w_fin w /\ w_script w' = w_script w /\ gained (made_of (QSwitch a d asap)) w w' /\ (b = Some true -> answered (QSwitch a d asap) w')).
    { intros b' [= <- <-] Nb. repeat (split; [assumption|]). intros E. contradiction. }
    destruct out as [b'|sw| |]; try (apply (Triv _ H); discriminate).
    destruct sw; [apply (Triv _ H); discriminate| |].
    + injection H as <- <-. repeat (split; [assumption|]). intros _. destruct (RN eq_refl) as (-> & ->). cbn. left. reflexivity.
    + apply bind_val in H. destruct H as (w2 & H2 & H). apply bind_val in H. destruct H as ((w3 & out3) & H3 & H). injection H as <- <-.
      destruct (others_inv _ w1 w2 I1 H2) as (I2 & F2 & S2 & C2 & G2).
      set (oe := if t_done t then CEvaluate else CTimeout) in *.
      assert (Me : forall n, mild oe n) by (intros n; unfold oe; destruct (t_done t); exact Logic.I).
      destruct (step_mine w2 oe w3 out3 I2 (fun n _ => Me n) H3) as (I3 & F3 & S3 & C3 & G3 & _).
      assert (G3' : gained (made_of (QSwitch a d asap)) w2 w3) by (eapply gained_weak; [|exact G3]; cbn; intros o <-; unfold oe; destruct (t_done t); auto).
      assert (G2' : gained (made_of (QSwitch a d asap)) w1 w2) by (eapply gained_weak; [|exact G2]; intros o []).
      split; [exact I3|]. split; [congruence|]. split; [congruence|]. split; [eapply gained_trans; [exact Gn1|eapply gained_trans; eassumption]|].
      destruct out3 as [b'| | |]; try discriminate. intros [= ->].
      destruct a as [|a0 a'].
      * right. exists (w_fin w), (w_cm w), (w_cm w1). split; [|exact (RP eq_refl)].
        destruct G2 as (x & E2 & _). destruct G3 as (y & E3 & _). rewrite E3, E2. apply in_or_app. right. apply in_or_app. right. exact Lg.
      * unfold oe in C3. destruct (t_done t).
        -- destruct (proj1 I) as (ops & R).
           destruct (main_answer e allow hs ops _ _ _ _ _ _ _ _ _ R C (others_not_ending _) C2 C3) as (X & _ & Y).
           intros n In1. apply (proj1 (proj1 Y eq_refl)). left. exact In1.
        -- exfalso. unfold cstep in C3. cbn in C3. destruct (cm_pend (w_cm w2)) as [p|]; [|discriminate]. destruct (p_done p); discriminate.
Qed.

(** Programs *)
Definition inv_ok {A} (p : prog A) (pre : world -> Prop) (post : A -> world -> Prop) : Prop := forall w w' r, Inv w -> pre w -> p w = Val (w', r) ->
  Inv w' /\ (forall a, r = inl a -> post a w').
Lemma attempts_inv deaf q : forall left ts w w' r, Inv w -> (forall n, In n (w_fin w) -> gentle q n) -> attempts e allow deaf q left ts w = Val (w', r) ->
  Inv w' /\ w_fin w' = w_fin w /\ w_script w' = w_script w /\ gained (made_of q) w w' /\ (r = inl true -> answered q w') /\
  (r = inr Interrupted -> deaf = false /\ exists t, In t ts /\ signalled (t_fate t) = true).
Proof.
  induction left as [|left IH]; intros ts w w' r I G H; cbn [attempts] in H.
  - injection H as <- <-. (split; [exact I|]). split; [reflexivity|]. split; [reflexivity|]. split; [apply gained_refl; split; reflexivity|]. split; discriminate.
  - destruct ts as [|t ts]; [injection H as <- <-; split; [exact I|]; split; [reflexivity|]; split; [reflexivity|]; split; [apply gained_refl; split; reflexivity|split; discriminate]|].
    apply bind_val in H. destruct H as (w1 & H1 & H). destruct (others_inv _ w w1 I H1) as (I1 & F1 & S1 & _ & G1).
    assert (G1' : gained (made_of q) w w1) by (eapply gained_weak; [|exact G1]; intros o []).
    assert (Gn : forall n, In n (w_fin w1) -> gentle q n) by (rewrite F1; exact G).
    assert (SK : forall (sv : bool) w2, (if sv then do (x, _) <- serve e allow q t w1; Val x else Val w1) = Val w2 ->
       Inv w2 /\ w_fin w2 = w_fin w /\ w_script w2 = w_script w /\ gained (made_of q) w w2).
    { intros sv w2 K. destruct sv.
      - apply bind_val in K. destruct K as ((x & b) & K & K'). injection K' as <-.
        destruct (serve_inv q t w1 x b I1 Gn K) as (I2 & F2 & S2 & G2 & _). split; [exact I2|]. split; [congruence|]. split; [congruence|]. eapply gained_trans; eassumption.
      - injection K as <-. split; [exact I1|]. split; [congruence|]. split; [congruence|]. exact G1'. }
    set (f := if deaf then match t_fate t with Signal _ => Replied | f => f end else t_fate t) in *.
    assert (Ef : forall sv, f = Signal sv -> deaf = false /\ signalled (t_fate t) = true).
    { intros sv. unfold f. destruct deaf; [destruct (t_fate t); discriminate|]. intros ->. auto. }
    destruct f as [|sv|sv].
    + apply bind_val in H. destruct H as ((w2 & b) & H2 & H). destruct (serve_inv q t w1 w2 b I1 Gn H2) as (I2 & F2 & S2 & G2 & A2).
      assert (GG : gained (made_of q) w w2) by (eapply gained_trans; eassumption).
      destruct b as [b|]; injection H as <- <-; (split; [exact I2|]; split; [congruence|]; split; [congruence|]; split; [exact GG|]; split; [|discriminate]).
      * intros [= ->]. apply A2. reflexivity.
      * discriminate.
    + apply bind_val in H. destruct H as (w2 & H2 & H). destruct (SK sv w2 H2) as (I2 & F2 & S2 & G2).
      destruct (IH ts w2 w' r I2) as (I3 & F3 & S3 & G3 & A3 & X3); [rewrite F2; exact G|exact H|].
      split; [exact I3|]. split; [congruence|]. split; [congruence|]. split; [eapply gained_trans; eassumption|]. split; [exact A3|].
      intros E. destruct (X3 E) as (D & t' & It & St). split; [exact D|]. exists t'. split; [right; exact It|exact St].
    + apply bind_val in H. destruct H as (w2 & H2 & H). destruct (SK sv w2 H2) as (I2 & F2 & S2 & G2). injection H as <- <-.
      split; [exact I2|]. split; [exact F2|]. split; [exact S2|]. split; [exact G2|]. split; [discriminate|]. intros _.
      destruct (Ef sv eq_refl) as (D & St). split; [exact D|]. exists t. split; [left; reflexivity|exact St].
Qed.
Lemma ask_inv deaf q w w' r : Inv w -> (forall n, In n (w_fin w) -> gentle q n) -> ask e allow deaf q w = Val (w', r) ->
  Inv w' /\ w_fin w' = w_fin w /\ incl (w_script w') (w_script w) /\ gained (made_of q) w w' /\ (r = inl true -> answered q w') /\
  (r = inr Interrupted -> deaf = false /\ exists k t, In k (w_script w) /\ In t (k_tries k) /\ signalled (t_fate t) = true).
Proof.
  intros I G H. unfold ask in H. destruct (w_script w) as [|k ks] eqn:E.
  - injection H as <- <-. rewrite E. split; [exact I|]. split; [reflexivity|]. split; [apply incl_refl|]. split; [apply gained_refl; split; reflexivity|]. split; discriminate.
  - set (wk := {| w_cm := w_cm w; w_log := w_log w; w_fin := w_fin w; w_script := ks |}) in *.
    assert (Ik : Inv wk) by exact I. destruct (k_there k).
    + destruct (attempts_inv deaf q 3 (k_tries k) wk w' r Ik G H) as (I1 & F1 & S1 & G1 & A1 & X1).
      split; [exact I1|]. split; [exact F1|]. split; [rewrite S1; cbn; intros x Hx; right; exact Hx|]. split; [exact G1|]. split; [exact A1|].
      intros R. destruct (X1 R) as (D & t & It & St). split; [exact D|]. exists k, t. split; [left; reflexivity|auto].
    + injection H as <- <-. split; [exact Ik|]. split; [reflexivity|]. split; [cbn; intros x Hx; right; exact Hx|]. split; [apply gained_refl; split; reflexivity|].
      split; discriminate.
Qed.

(** the verdict on any part of the program: the invariant holds at its end, what it asked for is in [P], if it ran to its end [Q] holds, and only a
    signal interrupts it *)
Record went {A} (P : cop -> Prop) (w w' : world) (r : A + stop) (Q : A -> Prop) : Prop := {
  g_inv : Inv w'; g_incl : incl (w_script w') (w_script w); g_gain : gained P w w';
  g_post : forall a, r = inl a -> Q a;
  g_sig : r = inr Interrupted -> ~ no_signal (w_script w) }.
Lemma went_seq {A B} (P : cop -> Prop) (Q : B -> Prop) w w1 w' (r : B + stop) (a : A) Q1 :
  went P w w1 (inl a : A + stop) Q1 -> went P w1 w' r Q -> went P w w' r Q.
Proof.
  intros [A1 A2 A3 A4 A5] [B1 B2 B3 B4 B5]. split; [exact B1| |eapply gained_trans; eassumption|exact B4|].
  - intros x Hx. apply A2, B2. exact Hx.
  - intros E N. apply (B5 E). intros k t Ik It. apply (N k t); [apply A2; exact Ik|exact It].
Qed.
Lemma went_stop {A B} (P : cop -> Prop) (Q : B -> Prop) w w1 (s : stop) Q1 :
  went P w w1 (inr s : A + stop) Q1 -> went P w w1 (inr s : B + stop) Q.
Proof. intros [A1 A2 A3 A4 A5]. split; [exact A1|exact A2|exact A3|discriminate|]. intros [= ->]. apply A5. reflexivity. Qed.
Lemma went_weak {A} (P P' : cop -> Prop) (Q Q' : A -> Prop) w w' r : (forall o, P o -> P' o) -> (forall a, r = inl a -> Q a -> Q' a) ->
  went P w w' r Q -> went P' w w' r Q'.
Proof. intros H HQ [A1 A2 A3 A4 A5]. split; [exact A1|exact A2|eapply gained_weak; eassumption|intros a E; apply HQ; auto|exact A5]. Qed.
Lemma went_ret {A} (P : cop -> Prop) w (r : A + stop) (Q : A -> Prop) : Inv w -> (forall a, r = inl a -> Q a) -> r <> inr Interrupted -> went P w w r Q.
Proof. intros I HQ N. split; [exact I|apply incl_refl|apply gained_refl; split; reflexivity|exact HQ|intros E; contradiction]. Qed.
Lemma andthen_val {A B} (p : prog A) (f : A -> prog B) w w' r : andthen p f w = Val (w', r) ->
  exists w1 r1, p w = Val (w1, r1) /\ match r1 with inl a => f a w1 = Val (w', r) | inr s => w' = w1 /\ r = inr s end.
Proof.
  unfold andthen. intros H. apply bind_val in H. destruct H as ((w1 & r1) & H1 & H). exists w1, r1. split; [exact H1|].
  destruct r1; [exact H|]. injection H as <- <-. auto.
Qed.
Lemma ask_went deaf q w w' r : Inv w -> (forall n, In n (w_fin w) -> gentle q n) -> ask e allow deaf q w = Val (w', r) ->
  went (made_of q) w w' r (fun b => b = true -> answered q w') /\ w_fin w' = w_fin w.
Proof.
  intros I G H. destruct (ask_inv deaf q w w' r I G H) as (A & B & C & D & E & F). split; [|exact B]. split; [exact A|exact C|exact D| |].
  - intros a -> ->. apply E. reflexivity.
  - intros X N. destruct (F X) as (_ & k & t & Ik & It & S). specialize (N k t Ik It). congruence.
Qed.
Lemma need_went deaf q w w' r : Inv w -> (forall n, In n (w_fin w) -> gentle q n) -> need (ask e allow deaf q) w = Val (w', r) ->
  went (made_of q) w w' r (fun _ => answered q w') /\ w_fin w' = w_fin w.
Proof.
  intros I G H. apply andthen_val in H. destruct H as (w1 & r1 & H1 & H). destruct (ask_went deaf q w w1 r1 I G H1) as (W & F).
  destruct r1 as [b|s].
  - destruct b; injection H as <- <-; (split; [|exact F]); destruct W as [A1 A2 A3 A4 A5]; (split; [exact A1|exact A2|exact A3| |]); try discriminate.
    intros a _. exact (A4 true eq_refl eq_refl).
  - destruct H as (-> & ->). split; [|exact F]. eapply went_stop. exact W.
Qed.
Lemma finished_went (P : cop -> Prop) ns w w' r : Inv w -> (forall n, In n ns -> stands (w_cm w) n) -> finished ns w = Val (w', r) ->
  went P w w' r (fun _ => True) /\ w_fin w' = ns ++ w_fin w /\ w_log w' = w_log w /\ w_cm w' = w_cm w /\ r = inl tt.
Proof.
  intros (R & S) N H. injection H as <- <-. split; [|auto]. split; [|apply incl_refl|apply gained_refl; split; reflexivity|auto|discriminate].
  split; [exact R|]. cbn. intros L n In1. apply in_app_or in In1. destruct In1 as [I1|I1]; [apply N; exact I1|exact (S L n I1)].
Qed.

(** one controller *)
Definition concerns (l : line) (s : spec) (o : cop) : Prop := called_for l s o \/ o = CTimeout \/ o = CEvaluate.
Lemma get_loaded_went l s w w' r : Inv w -> get_loaded e allow s w = Val (w', r) ->
  went (concerns l s) w w' r (fun _ => loaded (w_cm w') (s_name s)) /\ w_fin w' = w_fin w.
Proof.
  intros I H. apply andthen_val in H. destruct H as (w1 & r1 & H1 & H).
  destruct (ask_went false (QLoaded (s_name s)) w w1 r1 I (fun _ _ => Logic.I) H1) as (W1 & F1).
  assert (W1' : went (concerns l s) w w1 r1 (fun b => b = true -> loaded (w_cm w1) (s_name s))).
  { eapply went_weak; [| |exact W1]; [intros o []|intros a _ Q; exact Q]. }
  destruct r1 as [b|st]; [|destruct H as (-> & ->); split; [eapply went_stop; exact W1'|exact F1]].
  destruct b.
  - injection H as <- <-. split; [|exact F1]. destruct W1' as [A1 A2 A3 A4 A5]. split; [exact A1|exact A2|exact A3| |discriminate]. intros a _. exact (A4 true eq_refl eq_refl).
  - destruct (s_params s) eqn:Ep.
    + destruct (need_went false (QDo (CLoad (s_ctrl s) (s_good s))) w1 w' r (g_inv _ _ _ _ _ W1') (fun _ _ => Logic.I) H) as (W2 & F2).
      split; [|congruence]. eapply went_seq; [exact W1'|]. eapply went_weak; [| |exact W2]; [intros o <-; left; left; split; [exact Ep|reflexivity]|].
      intros [] E. intros Q. destruct (s_good s) eqn:Gd; cbn in Q; [exact Q|]. exfalso.
      clear Q W2. revert E H. intros -> H. apply andthen_val in H. destruct H as (w2 & r2 & H2 & H).
      destruct r2 as [b|]; [|destruct H; discriminate]. destruct b; [|discriminate]. injection H as <-.
      clear - H2. unfold ask in H2. destruct (w_script w1) as [|k ks]; [discriminate|]. destruct (k_there k); [|discriminate].
      revert H2. generalize {| w_cm := w_cm w1; w_log := w_log w1; w_fin := w_fin w1; w_script := ks |}. generalize (k_tries k). generalize 3. clear.
      induction n as [|n IH]; intros ts w H; cbn [attempts] in H; [discriminate|]. destruct ts as [|t ts]; [discriminate|].
      apply bind_val in H. destruct H as (wa & _ & H). destruct (t_fate t).
      * apply bind_val in H. destruct H as ((wb & b) & H1 & H). destruct b as [b|]; [|discriminate]. injection H as -> ->.
        cbn [serve] in H1. apply bind_val in H1. destruct H1 as ((wc & out) & H1 & H2). unfold step in H1. apply bind_val in H1. destruct H1 as ((m' & out') & H1 & H3).
        injection H3 as <- <-. destruct out' as [b| | |]; try (injection H2; discriminate). injection H2 as _ ->. eapply load_failed_plugin. exact H1.
      * apply bind_val in H. destruct H as (wb & _ & H). eapply IH. exact H.
      * apply bind_val in H. destruct H as (wb & _ & H). discriminate.
    + injection H as <- <-. split; [|exact F1]. destruct W1' as [A1 A2 A3 A4 A5]. split; [exact A1|exact A2|exact A3|discriminate|discriminate].
Qed.
Definition finishes (l : line) (s : spec) : bool := s_load_only s || s_inactive s || negb (l_group l).
Lemma turn_went l s w w' r : Inv w -> ~ In (s_name s) (w_fin w) -> T (s_name s) = asked_for s -> turn e allow l s w = Val (w', r) ->
  went (concerns l s) w w' r (fun _ => True) /\ (r = inl tt -> w_fin w' = (if finishes l s then [s_name s] else []) ++ w_fin w).
Proof.
  intros I NF ET H. apply andthen_val in H. destruct H as (w1 & r1 & H1 & H).
  destruct (get_loaded_went l s w w1 r1 I H1) as (W1 & F1).
  destruct r1 as [[]|st]; [|destruct H as (-> & ->); split; [eapply went_stop; exact W1|discriminate]].
  pose proof (g_post _ _ _ _ _ W1 tt eq_refl) as L1. pose proof (g_inv _ _ _ _ _ W1) as I1. cbn beta in L1.
  unfold finishes, asked_for in *. destruct (s_load_only s) eqn:Elo.
  - destruct (finished_went (concerns l s) [s_name s] w1 w' r I1) as (W2 & F2 & _); [|exact H|].
    { intros n [<-|[]]. unfold stands. rewrite ET. exact L1. }
    split; [eapply went_seq; eassumption|]. intros _. cbn [orb]. congruence.
  - apply andthen_val in H. destruct H as (w2 & r2 & H2 & H).
    destruct (need_went false (QDo (CConfigure (s_name s) (s_order s))) w1 w2 r2 I1) as (W2 & F2); [|exact H2|].
    { intros n In1. cbn. intros <-. apply NF. rewrite F1 in In1. exact In1. }
    assert (W2' : went (concerns l s) w1 w2 r2 (fun _ => state_in (w_cm w2) (s_name s) = Some Inactive)).
    { eapply went_weak; [| |exact W2]; [intros o <-; left; right; left; split; [exact Elo|reflexivity]|auto]. }
    destruct r2 as [[]|st]; [|destruct H as (-> & ->); split; [eapply went_seq; [exact W1|eapply went_stop; exact W2']|discriminate]].
    pose proof (g_post _ _ _ _ _ W2' tt eq_refl) as L2. pose proof (g_inv _ _ _ _ _ W2') as I2. cbn beta in L2.
    assert (W12 := went_seq _ _ _ _ _ _ _ _ W1 W2').
    destruct (s_inactive s) eqn:Eia; cbn [orb].
    + destruct (finished_went (concerns l s) [s_name s] w2 w' r I2) as (W3 & F3 & _); [|exact H|].
      { intros n [<-|[]]. unfold stands. rewrite ET. exact L2. }
      split; [eapply went_seq; [exact W12|exact W3]|]. intros _. rewrite F3, F2, F1. reflexivity.
    + destruct (l_group l) eqn:Egr; cbn [negb].
      * injection H as <- <-. split; [|intros _; cbn; congruence]. eapply went_weak; [| |exact W12]; auto.
      * apply andthen_val in H. destruct H as (w3 & r3 & H3 & H).
        destruct (need_went false (QSwitch [s_name s] [] (l_asap l)) w2 w3 r3 I2 (fun _ _ => Logic.I) H3) as (W3 & F3).
        assert (W3' : went (concerns l s) w2 w3 r3 (fun _ => state_in (w_cm w3) (s_name s) = Some Active)).
        { eapply went_weak; [| |exact W3].
          - cbn. intros o [->|[->| ->]]; [left; right; right; auto|right; left; reflexivity|right; right; reflexivity].
          - intros [] _ Q. apply Q. left. reflexivity. }
        assert (W13 := went_seq _ _ _ _ _ _ _ _ W12 W3').
        destruct r3 as [[]|st]; [|destruct H as (-> & ->); split; [eapply went_stop; exact W13|discriminate]].
        destruct (finished_went (concerns l s) [s_name s] w3 w' r (g_inv _ _ _ _ _ W13)) as (W4 & F4 & _); [|exact H|].
        { intros n [<-|[]]. unfold stands. rewrite ET. exact (g_post _ _ _ _ _ W13 tt eq_refl). }
        split; [eapply went_seq; [exact W13|exact W4]|]. intros _. rewrite F4, F3, F2, F1. reflexivity.
Qed.
Lemma names_split before s after x : NoDup (names (before ++ s :: after)) -> In x before -> s_name x <> s_name s.
Proof.
  unfold names. rewrite map_app. cbn [map]. intros N Ix E. apply NoDup_remove_2 in N. apply N. apply in_or_app. left. rewrite <- E. apply in_map. exact Ix.
Qed.
Lemma turns_went l : forall ss w w' r, Inv w -> NoDup (names ss) -> (forall s, In s ss -> ~ In (s_name s) (w_fin w)) ->
  (forall s, In s ss -> T (s_name s) = asked_for s) -> turns e allow l ss w = Val (w', r) ->
  went (fun o => exists s, In s ss /\ concerns l s o) w w' r (fun _ => True) /\
  (r = inl tt -> forall n, In n (w_fin w') <-> In n (names (filter (finishes l) ss)) \/ In n (w_fin w)) /\
  (r <> inl tt -> exists before s after, ss = before ++ s :: after /\ gained (fun o => exists x, In x (before ++ [s]) /\ concerns l x o) w w').
Proof.
  induction ss as [|s ss IH]; intros w w' r I ND NF ET H.
  - injection H as <- <-. split; [apply went_ret; [exact I|auto|discriminate]|]. split; [|congruence]. intros _ n. cbn. split; [auto|intros [[]|]; auto].
  - cbn [turns] in H. apply andthen_val in H. destruct H as (w1 & r1 & H1 & H).
    destruct (turn_went l s w w1 r1 I (NF s (or_introl eq_refl)) (ET s (or_introl eq_refl)) H1) as (W1 & F1).
    assert (W1' : went (fun o => exists x, In x (s :: ss) /\ concerns l x o) w w1 r1 (fun _ => True)).
    { eapply went_weak; [| |exact W1]; [|auto]. intros o C. exists s. split; [left; reflexivity|exact C]. }
    destruct r1 as [[]|st].
    + specialize (F1 eq_refl). cbn in ND. apply NoDup_cons_iff in ND. destruct ND as (Ns & ND).
      destruct (IH w1 w' r (g_inv _ _ _ _ _ W1) ND) as (W2 & F2 & X2); [| |exact H|].
      * intros x Ix. rewrite F1. intros C. apply in_app_or in C. destruct C as [C|C]; [|exact (NF x (or_intror Ix) C)].
        destruct (finishes l s); [|destruct C]. destruct C as [C|[]]. apply Ns. rewrite C. apply in_map. exact Ix.
      * intros x Ix. apply ET. right. exact Ix.
      * split; [eapply went_seq; [exact W1'|]; eapply went_weak; [| |exact W2]; [|auto]; intros o (x & Ix & C); exists x; split; [right; exact Ix|exact C]|]. split.
        -- intros E n. rewrite (F2 E n), F1. cbn [filter]. destruct (finishes l s); cbn; [|tauto]. tauto.
        -- intros E. destruct (X2 E) as (before & x & after & -> & Gx). exists (s :: before), x, after. split; [reflexivity|].
           eapply gained_trans; [eapply gained_weak; [|exact (g_gain _ _ _ _ _ W1)]; intros o C; exists s; split; [left; reflexivity|exact C]|].
           eapply gained_weak; [|exact Gx]. intros o (y & Iy & C). exists y. split; [right; exact Iy|exact C].
    + destruct H as (-> & ->). split; [eapply went_stop; exact W1'|]. split; [discriminate|]. intros _.
      exists [], s, ss. split; [reflexivity|]. eapply gained_weak; [|exact (g_gain _ _ _ _ _ W1)]. intros o C. exists s. split; [left; reflexivity|exact C].
Qed.
Lemma finishes_or_group l s : finishes l s = negb (l_group l && in_group s).
Proof. unfold finishes, in_group. destruct (s_load_only s), (s_inactive s), (l_group l); reflexivity. Qed.
(** bringing all of them up *)
Lemma main_went l w w' r : Inv w -> w_fin w = [] -> NoDup (names (l_ctrls l)) -> (forall s, In s (l_ctrls l) -> T (s_name s) = asked_for s) ->
  main_part e allow l w = Val (w', r) ->
  went (fun o => (exists s, In s (l_ctrls l) /\ concerns l s o) \/ in_one_go l o) w w' r (fun _ => True) /\
  (r = inl tt -> forall s, In s (l_ctrls l) -> In (s_name s) (w_fin w')) /\
  (r <> inl tt -> (exists before s after, l_ctrls l = before ++ s :: after /\ gained (fun o => exists x, In x (before ++ [s]) /\ concerns l x o) w w') \/
     exists wm, turns e allow l (l_ctrls l) w = Val (wm, inl tt)).
Proof.
  intros I F0 ND ET H. apply andthen_val in H. destruct H as (w1 & r1 & H1 & H).
  destruct (turns_went l (l_ctrls l) w w1 r1 I ND) as (W1 & F1 & X1); [intros s _; rewrite F0; intros []|exact ET|exact H1|].
  assert (W1' : went (fun o => (exists s, In s (l_ctrls l) /\ concerns l s o) \/ in_one_go l o) w w1 r1 (fun _ => True)).
  { eapply went_weak; [| |exact W1]; auto. }
  destruct r1 as [[]|st].
  2:{ destruct H as (-> & ->). split; [eapply went_stop; exact W1'|]. split; [discriminate|]. intros _. left. apply X1. discriminate. }
  specialize (F1 eq_refl).
  assert (Base : forall s, In s (l_ctrls l) -> (l_group l && in_group s)%bool = false -> In (s_name s) (w_fin w1)).
  { intros s Is E. apply F1. left. apply in_map, filter_In. split; [exact Is|]. rewrite finishes_or_group, E. reflexivity. }
  destruct (l_group l) eqn:Gp.
  2:{ injection H as <- <-. split; [exact W1'|]. split; [|congruence]. intros _ s Is. apply Base; auto. }
  destruct (map s_name (filter in_group (l_ctrls l))) as [|n0 ns] eqn:Eg.
  - injection H as <- <-. split; [exact W1'|]. split; [|congruence]. intros _ s Is. apply Base; [exact Is|]. cbn.
    destruct (in_group s) eqn:Gs; [|reflexivity]. exfalso. assert (X : In (s_name s) []); [|destruct X]. rewrite <- Eg. apply in_map, filter_In. auto.
  - rewrite <- Eg in H. set (g := map s_name (filter in_group (l_ctrls l))) in *.
    apply andthen_val in H. destruct H as (w2 & r2 & H2 & H).
    destruct (need_went false (QSwitch g [] (l_asap l)) w1 w2 r2 (g_inv _ _ _ _ _ W1') (fun _ _ => Logic.I) H2) as (W2 & F2).
    assert (Done : exists s, In s (l_ctrls l)).
    { destruct (l_ctrls l) as [|s0 ?]; [discriminate|]. exists s0. left. reflexivity. }
    assert (W2' : went (fun o => (exists s, In s (l_ctrls l) /\ concerns l s o) \/ in_one_go l o) w1 w2 r2 (fun _ => forall n, In n g -> state_in (w_cm w2) n = Some Active)).
    { eapply went_weak; [| |exact W2].
      - cbn. intros o [->|Ho].
        + right. split; [exact Gp|]. reflexivity.
        + left. destruct Done as (s0 & Is0). exists s0. split; [exact Is0|]. destruct Ho as [-> | ->]; unfold concerns; auto.
      - intros [] _ Q. cbn in Q. rewrite Eg in Q |- *. exact Q. }
    assert (W12 := went_seq _ _ _ _ _ _ _ _ W1' W2').
    destruct r2 as [[]|st].
    + destruct (finished_went (fun o => (exists s, In s (l_ctrls l) /\ concerns l s o) \/ in_one_go l o) g w2 w' r (g_inv _ _ _ _ _ W12)) as (W3 & F3 & _ & _ & ->); [|exact H|].
      { intros n In1. unfold stands. assert (Q := g_post _ _ _ _ _ W12 tt eq_refl n In1). unfold g in In1. apply in_map_iff in In1. destruct In1 as (s & <- & Is). apply filter_In in Is.
        destruct Is as (Is & Gs). rewrite (ET s Is). unfold asked_for. unfold in_group in Gs. apply andb_true_iff in Gs. destruct Gs as [G1 G2]. apply negb_true_iff in G1, G2. rewrite G1, G2. exact Q. }
      split; [eapply went_seq; [exact W12|exact W3]|]. split; [|congruence]. intros _ s Is. rewrite F3. apply in_or_app.
      destruct (in_group s) eqn:Gs; [left; apply in_map, filter_In; auto|right; rewrite F2; apply Base; [exact Is|cbn; exact Gs]].
    + destruct H as (-> & ->). split; [eapply went_stop; exact W12|]. split; [discriminate|]. intros _. right. exists w1. exact H1.
Qed.
End P.

(** no part of the main part ends the program with exit code 0, or by serving *)
Definition bad_end (x : ending) : Prop := x = Exit0 \/ x = Serving.
Definition never {A} (p : prog A) : Prop := forall w w' x, p w = Val (w', inr (Ends x)) -> ~ bad_end x.
Section N.
Variables (e : env) (allow : bool).
Lemma never_ask deaf q : never (ask e allow deaf q).
Proof.
  intros w w' x H. unfold ask in H. destruct (w_script w) as [|k ks]; [injection H as _ <-; intros [|]; discriminate|].
  destruct (k_there k); [|injection H as _ H; destruct q, deaf; subst x; intros [|]; discriminate].
  revert H. generalize {| w_cm := w_cm w; w_log := w_log w; w_fin := w_fin w; w_script := ks |}. generalize (k_tries k). generalize 3. clear w.
  induction n as [|n IH]; intros ts w H; cbn [attempts] in H; [injection H as _ <-; intros [|]; discriminate|].
  destruct ts as [|t ts]; [injection H as _ <-; intros [|]; discriminate|].
  apply bind_val in H. destruct H as (wa & _ & H).
  destruct (if deaf then match t_fate t with Signal _ => Replied | f => f end else t_fate t).
  - apply bind_val in H. destruct H as ((wb & b) & _ & H). destruct b; [discriminate|]. injection H as _ <-. intros [|]; discriminate.
  - apply bind_val in H. destruct H as (wb & _ & H). eapply IH. exact H.
  - apply bind_val in H. destruct H as (wb & _ & H). discriminate.
Qed.
Lemma never_then {A B} (p : prog A) (f : A -> prog B) : never p -> (forall a, never (f a)) -> never (andthen p f).
Proof.
  intros P F w w' x H. apply andthen_val in H. destruct H as (w1 & r1 & H1 & H). destruct r1 as [a|s]; [eapply F; exact H|].
  destruct H as (-> & [= <-]). eapply P. exact H1.
Qed.
Lemma never_ret {A} (a : A) : never (ret a). Proof. intros w w' x H. discriminate. Qed.
Lemma never_quit1 {A} : never (@quit A (Ends Exit1)). Proof. intros w w' x H. injection H as _ <-. intros [|]; discriminate. Qed.
Lemma never_fin ns : never (finished ns). Proof. intros w w' x H. discriminate. Qed.
Lemma never_need p : never p -> never (need p).
Proof. intros P. apply never_then; [exact P|]. intros [|]; [apply never_ret|apply never_quit1]. Qed.
Lemma never_turn l s : never (turn e allow l s).
Proof.
  apply never_then.
  - apply never_then; [apply never_ask|]. intros [|]; [apply never_ret|]. destruct (s_params s); [apply never_need, never_ask|apply never_quit1].
  - intros _. destruct (s_load_only s); [apply never_fin|]. apply never_then; [apply never_need, never_ask|]. intros _.
    destruct (s_inactive s); [apply never_fin|]. destruct (l_group l); [apply never_ret|]. apply never_then; [apply never_need, never_ask|]. intros _. apply never_fin.
Qed.
Lemma never_turns l : forall ss, never (turns e allow l ss).
Proof. induction ss as [|s ss IH]; [apply never_ret|]. apply never_then; [apply never_turn|intros _; exact IH]. Qed.
Lemma main_ends l w w' x : main_part e allow l w = Val (w', inr (Ends x)) -> x <> Exit0 /\ x <> Serving.
Proof.
  assert (N : never (main_part e allow l)).
  { apply never_then; [apply never_turns|]. intros _. destruct (l_group l); [|apply never_ret]. destruct (map s_name (filter in_group (l_ctrls l))); [apply never_ret|].
    apply never_then; [apply never_need, never_ask|intros _; apply never_fin]. }
  intros H. specialize (N w w' x H). unfold bad_end in N. split; intros E; apply N; auto.
Qed.
Lemma never_unload : forall ns ok, never (unload_all e allow ns ok).
Proof. induction ns as [|n ns IH]; intros ok; [apply never_ret|]. apply never_then; [apply never_ask|intros b; apply IH]. Qed.
End N.
