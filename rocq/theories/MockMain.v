(** MockMain.v -- main results about the mock system (C49, C50). *)
From Coq Require Import List Bool String Ascii Arith ZArith SpecFloat Lia.
Import ListNotations.
From Verif Require Import Base LimitsModel MockModel MockSpec MockProofs.
Open Scope string_scope.
Open Scope list_scope.
Open Scope nat_scope.

Lemma weak_some cur k st st' : aget st k <> None -> weak cur k st st' -> aget st' k <> None.
Proof. intros H [E|[_ E]]; congruence. Qed.
Lemma each_strong_in {A} (f : alist F -> A -> alist F * mout) cur k l :
  (forall x st st', In x l -> f st x = (st', GOk) -> weak cur k st st') ->
  (exists x, In x l /\ forall st st', aget st k <> None -> f st x = (st', GOk) -> strong cur k st st') ->
  forall st st', aget st k <> None -> each f st l = (st', GOk) -> strong cur k st st'.
Proof.
  induction l as [|x l IH]; intros HW (y&IY&HY) st st' NN H; [destruct IY|]. cbn in H.
  destruct (f st x) as [st1 o] eqn:E. destruct o; try discriminate.
  assert (WR : weak cur k st1 st').
  { eapply each_rel; [intros s; left; reflexivity|intros; eapply weak_trans; eassumption| |exact H].
    intros z s s' Iz. apply HW. right. exact Iz. }
  assert (W1 : weak cur k st st1) by (eapply HW; [left; reflexivity|exact E]).
  destruct IY as [->|IY].
  - eapply strong_then; [exact (HY _ _ NN E)|exact WR].
  - eapply then_strong; [apply weak_idle; exact W1|].
    eapply IH; [| |exact (weak_some _ _ _ _ NN W1)|exact H].
    + intros z s s' Iz. apply HW. right. exact Iz.
    + exists y. split; assumption.
Qed.
Lemma parts_grow c dt cmd modes st s1 s2 s3 :
  each (loop1 c cmd) (joints_pass c dt cmd modes st) (g_jst c) = (s1, GOk) ->
  each (mimic1 c) s1 (g_mimic c) = (s2, GOk) ->
  (if g_msens c then each (mirror1 cmd) s2 (g_sst c) else (s2, GOk)) = (s3, GOk) -> grows st s1 /\ grows s1 s2 /\ grows s2 s3.
Proof.
  intros A B C. repeat split.
  - eapply grows_trans; [apply (joints_grows c dt cmd modes)|]. eapply each_grows; [|exact A]. intros; eapply loop1_grows; eassumption.
  - eapply each_grows; [|exact B]. intros; eapply mimic1_grows; eassumption.
  - destruct (g_msens c); [|injection C as <-; apply grows_refl]. eapply each_grows; [|exact C].
    intros x s s'. apply mirror_grows.
Qed.
Lemma keeps_idle cur k a b : keeps k a b -> idle cur k a b.
Proof. intros H N. exact H. Qed.
Lemma loops_keep c cmd k st st' : (forall x, In x (g_jst c) -> full x <> k \/ skipped c (snd x) = true) ->
  each (loop1 c cmd) st (g_jst c) = (st', GOk) -> keeps k st st'.
Proof. intros H. apply each_keeps. intros x s s' I0. apply loop1_keeps. exact (H x I0). Qed.

Lemma main_looped c g0 ops g pi v :
  sane c g0 -> g_dyn c = false -> g_disabled c = false -> looped c pi ->
  mrun c g0 ops = Some g ->
  last_finite (commands_read (full pi) (getf (m_cmd g0) (full pi)) [] ops) = Some v ->
  aget (m_st g) (full pi) = Some v.
Proof.
  intros SA D DI LO R LF. set (k := full pi) in *.
  assert (IX : In k (exported_commands c) /\ no_slash (snd pi) /\ ~ mimics c (fst pi)).
  { unfold exported_commands. destruct LO as [(A&B&_&_&C)|[(A&B&C)|(A&B&C)]]; (split; [|split; [|exact C]]).
    - exact B.
    - apply (sane_slash c g0 SA). rewrite !in_app_iff. tauto.
    - rewrite B. rewrite !in_app_iff. right. left. apply in_map. exact A.
    - apply (sane_slash c g0 SA). rewrite !in_app_iff. tauto.
    - destruct B as [B|B].
      + rewrite B. rewrite !in_app_iff. destruct (mem k (map full (g_gcmd c))) eqn:M.
        * left. apply existsb_exists in M. destruct M as (y&IY&EY). apply String.eqb_eq in EY. subst y.
          rewrite map_app. apply in_or_app. right. exact IY.
        * right. right. apply filter_In. split; [apply in_map; exact A|rewrite M; reflexivity].
      + apply in_or_app. left. apply in_map. apply in_or_app. right. exact B.
    - apply (sane_slash c g0 SA). rewrite !in_app_iff. tauto. }
  destruct IX as (IX&NS&NM).
  pose proof (sane_keys c g0 SA) as K. destruct (cmd_some c g0 k K IX) as [cur HC].
  rewrite (getf_some _ _ _ HC) in LF.
  assert (SL : forall x, In x (g_jst c ++ g_jcmd c ++ g_sst c ++ g_gst c ++ g_gcmd c) -> full x = k -> x = pi).
  { intros x I0 E. apply full_inj'; [exact (sane_slash c g0 SA x I0)|exact NS|exact E]. }
  assert (ND := sane_nodup c g0 SA). unfold exported_states in ND. rewrite map_app in ND.
  eapply (key_history c k (fun v => v)); [|exact K|exact HC| |exact R|exact LF]; [|discriminate].
  clear g0 ops g v R LF K HC cur SA. intros dt cmd modes st st' cur HSt HCm HC HR.
  destruct (read_parts _ _ _ _ _ _ DI HR) as (s1&s2&s3&A&B&C&E).
  destruct (parts_grow _ _ _ _ _ _ _ _ A B C) as (G1&G2&G3).
  assert (KM : keeps k s1 s2).
  { destruct pi as [p i]. exact (mimics_keep c _ _ p i NS NM B). }
  assert (JI : idle cur k st (joints_pass c dt cmd modes st)).
  { rewrite <- (getf_some _ _ _ HC). apply joints_idle. exact D. }
  change (strong cur k st st').
  destruct LO as [(IJ&_&NP&NC&_)|[(IJ&MS&_)|(IJ&MG&_)]].
  - assert (S1 : strong cur k (joints_pass c dt cmd modes st) s1).
    { eapply each_strong; [| |exact A].
      - intros x s s' I0 H. destruct (String.string_dec (full x) k) as [X|X].
        + assert (x = pi) by (apply SL; [rewrite !in_app_iff; tauto|exact X]). subst x. apply strong_weak. eapply loop1_strong; [| |exact HC|exact H].
          * rewrite (skipped_nodyn c _ D). apply String.eqb_neq. exact NP.
          * congruence.
        + apply keeps_weak. eapply loop1_keeps; [left; exact X|exact H].
      - exists pi. split; [exact IJ|]. intros s s' H. eapply loop1_strong; [| |exact HC|exact H].
        * rewrite (skipped_nodyn c _ D). apply String.eqb_neq. exact NP.
        * congruence. }
    eapply strong_then; [|eapply tail_weak; [exact HC|exact E]].
    eapply strong_then; [|eapply sens_weak; [exact HC|exact C]].
    eapply strong_then; [|apply keeps_weak; exact KM].
    eapply then_strong; [exact JI|exact S1].
  - assert (K1 : keeps k (joints_pass c dt cmd modes st) s1).
    { eapply loops_keep; [|exact A]. intros x I0. left. intros X. eapply nodup_split; [exact ND| |].
      - apply in_map. exact I0.
      - rewrite X. unfold k. apply in_map. apply in_or_app. left. exact IJ. }
    eapply strong_then; [|eapply tail_weak; [exact HC|exact E]].
    eapply then_strong; [eapply idle_trans; [exact JI|apply keeps_idle; eapply keeps_trans; [exact K1|exact KM]]|].
    rewrite MS in C. eapply each_strong; [| |exact C].
    + intros x s s' _ H. eapply mirror_weak; [exact HC|exact H].
    + exists pi. split; [exact IJ|]. intros s s' H. eapply mirror_same; [exact HC|exact H].
  - assert (K1 : keeps k (joints_pass c dt cmd modes st) s1).
    { eapply loops_keep; [|exact A]. intros x I0. left. intros X. eapply nodup_split; [exact ND| |].
      - apply in_map. exact I0.
      - rewrite X. unfold k. apply in_map. apply in_or_app. right. exact IJ. }
    assert (I3 : idle cur k st s3).
    { eapply idle_trans; [exact JI|]. eapply idle_trans; [apply keeps_idle; eapply keeps_trans; [exact K1|exact KM]|].
      apply weak_idle. eapply sens_weak; [exact HC|exact C]. }
    eapply then_strong; [exact I3|].
    assert (N3 : aget s3 k <> None).
    { apply G3, G2, G1, HSt. unfold exported_states. apply in_map. rewrite !in_app_iff. tauto. }
    destruct (g_mgpio c) eqn:MG2.
    + eapply each_strong; [| |exact E].
      * intros x s s' _ H. eapply mirror_weak; [exact HC|exact H].
      * exists pi. split; [exact IJ|]. intros s s' H. eapply mirror_same; [exact HC|exact H].
    + destruct MG as [MG|MG]; [discriminate|]. eapply each_strong_in; [| |exact N3|exact E].
      * intros x s s' _ H. eapply gpio_weak; [exact HC|exact H].
      * exists pi. split; [exact MG|]. intros s s' NN H. unfold gpio1 in H.
        apply has_iff in NN. fold k in H. rewrite NN in H. eapply mirror_same; [exact HC|exact H].
Qed.

(** the custom interface follows the position command with the offset *)
Lemma main_custom c dt cmd modes st st' p v :
  NoDup (exported_states c) -> (forall x, In x (g_jst c ++ g_jcmd c ++ g_sst c ++ g_gst c ++ g_gcmd c) -> no_slash (snd x)) ->
  g_disabled c = false ->
  In (p, g_custom c) (g_jst c) -> skipped c (g_custom c) = false -> ~ mimics c p -> ~ In (p, g_custom c) (g_gcmd c) ->
  aget cmd (full (p, HW_POS)) = Some v -> isfinite (fadd v (g_off c)) = true ->
  read_st c dt cmd modes st = (st', GOk) -> aget st' (full (p, g_custom c)) = Some (fadd v (g_off c)).
Proof.
  intros ND NS DI IJ SK NM NG CP FI HR. set (k := full (p, g_custom c)). set (w := fadd v (g_off c)) in *.
  destruct (read_parts _ _ _ _ _ _ DI HR) as (s1&s2&s3&A&B&C&E).
  assert (NK : no_slash (g_custom c)) by (apply (NS (p, g_custom c)); rewrite !in_app_iff; tauto).
  assert (SL : forall x, In x (g_jst c ++ g_jcmd c ++ g_sst c ++ g_gst c ++ g_gcmd c) -> full x = k -> x = (p, g_custom c)).
  { intros x I0 X. apply full_inj'; [exact (NS x I0)|exact NK|exact X]. }
  assert (KT : keeps k s1 st').
  { eapply keeps_trans; [exact (mimics_keep c _ _ p _ NK NM B)|].
    eapply tail_keeps; [exact ND|apply in_map; exact IJ| |exact C|exact E].
    intros x I0 X. apply NG. rewrite <- (SL x); [exact I0| |exact X]. rewrite !in_app_iff. tauto. }
  rewrite KT.
  assert (L1 : forall s s', loop1 c cmd s (p, g_custom c) = (s', GOk) -> aget s' k = Some w).
  { intros s s' H. unfold loop1 in H. cbn [snd fst] in H. rewrite SK in H. fold k in H.
    destruct (if has cmd k then mirror cmd s k else (s, GOk)) as [s0 o]. destruct o; try discriminate.
    rewrite String.eqb_refl, CP in H. fold w in H. rewrite FI in H. injection H as <-. apply aget_aset_same. }
  revert A. generalize (joints_pass c dt cmd modes st). 
  assert (G : forall l s, (forall x, In x l -> In x (g_jst c)) -> (aget s k = Some w \/ In (p, g_custom c) l) ->
    forall s', each (loop1 c cmd) s l = (s', GOk) -> aget s' k = Some w).
  { induction l as [|x l IH]; intros s SUB HI s' H; cbn in H.
    - injection H as <-. destruct HI as [HI|[]]; exact HI.
    - destruct (loop1 c cmd s x) as [s0 o] eqn:E0. destruct o; try discriminate.
      eapply IH; [intros y Iy; apply SUB; right; exact Iy| |exact H].
      destruct (String.string_dec (full x) k) as [X|X].
      + left. assert (x = (p, g_custom c)) by (apply SL; [rewrite !in_app_iff; left; apply SUB; left; reflexivity|exact X]). subst x.
        exact (L1 _ _ E0).
      + destruct HI as [HI|[HI|HI]]; [left|exfalso; apply X; rewrite HI; reflexivity|right; exact HI].
        rewrite (loop1_keeps c cmd s s0 x k (or_introl X) E0). exact HI. }
  intros s0 A. eapply (G (g_jst c) s0); [auto|right; exact IJ|exact A].
Qed.

(** *** mimic joints *)
Lemma mimic1_sets c st st' a b mult off ja jb i : In i [HW_POS; HW_VEL; HW_ACC] ->
  nth_error (g_joints c) a = Some ja -> nth_error (g_joints c) b = Some jb -> ja <> jb ->
  mimic1 c st (a, b, mult, off) = (st', GOk) -> aget st (full (ja, i)) <> None ->
  exists v, aget st (full (jb, i)) = Some v /\ aget st' (full (jb, i)) = Some v /\
    aget st' (full (ja, i)) = Some (mimic_value i mult off v).
Proof.
  intros Ii EA EB N. unfold mimic1. rewrite EA, EB. cbn zeta.
  assert (NE : forall i1 i2, no_slash i1 -> no_slash i2 -> full (jb, i1) <> full (ja, i2)).
  { intros i1 i2 A B X. destruct (full_inj _ _ _ _ A B X). congruence. }
  assert (NI : forall x i1 i2, no_slash i1 -> no_slash i2 -> i1 <> i2 -> full (x, i1) <> full (x, i2)).
  { intros x i1 i2 A B D X. destruct (full_inj _ _ _ _ A B X). congruence. }
  assert (G : forall (i0 : name) (f : F -> F) s s', no_slash i0 ->
    (if has s (full (ja, i0)) then
       match aget s (full (jb, i0)) with Some v => (aset s (full (ja, i0)) (f v), GOk) | None => (s, GThrow) end
     else (s, GOk)) = (s', GOk) ->
    (forall i' : name, no_slash i' -> i' <> i0 -> aget s' (full (ja, i')) = aget s (full (ja, i'))) /\
    (forall i' : name, no_slash i' -> aget s' (full (jb, i')) = aget s (full (jb, i'))) /\
    (aget s (full (ja, i0)) <> None -> exists v, aget s (full (jb, i0)) = Some v /\ aget s' (full (ja, i0)) = Some (f v))).
  { intros i0 f s s' Hi0 H. destruct (has s (full (ja, i0))) eqn:HH.
    - destruct (aget s (full (jb, i0))) as [v|] eqn:EV; [|discriminate]. injection H as <-. split; [|split].
      + intros i' Hi' D. apply aget_aset_other. exact (NI ja i' i0 Hi' Hi0 D).
      + intros i' Hi'. apply aget_aset_other. exact (NE i' i0 Hi' Hi0).
      + intros _. exists v. split; [reflexivity|apply aget_aset_same].
    - injection H as <-. split; [reflexivity|]. split; [reflexivity|]. intros X. apply has_iff in X. congruence. }
  destruct (if has st (full (ja, HW_POS)) then _ else _) as [s1 o1] eqn:E1. destruct o1; try (intros H; discriminate H).
  destruct (if has s1 (full (ja, HW_VEL)) then _ else _) as [s2 o2] eqn:E2. destruct o2; try (intros H; discriminate H).
  intros E3 NN.
  destruct (G _ _ _ _ ns_pos E1) as (P1&P2&P3). destruct (G _ _ _ _ ns_vel E2) as (V1&V2&V3). destruct (G _ _ _ _ ns_acc E3) as (A1&A2&A3).
  assert (DPV : HW_POS <> HW_VEL) by discriminate. assert (DPA : HW_POS <> HW_ACC) by discriminate. assert (DVA : HW_VEL <> HW_ACC) by discriminate.
  destruct Ii as [<-|[<-|[<-|[]]]].
  - destruct (P3 NN) as (v&X&Y). exists v. split; [exact X|]. split.
    + rewrite A2, V2, P2 by exact ns_pos. exact X.
    + rewrite A1, V1 by (exact ns_pos || assumption). exact Y.
  - rewrite <- (P1 _ ns_vel (not_eq_sym DPV)) in NN. destruct (V3 NN) as (v&X&Y). exists v. rewrite (P2 _ ns_vel) in X. split; [exact X|]. split.
    + rewrite A2, V2, P2 by exact ns_vel. exact X.
    + rewrite A1 by (exact ns_vel || assumption). exact Y.
  - rewrite <- (P1 _ ns_acc (not_eq_sym DPA)), <- (V1 _ ns_acc (not_eq_sym DVA)) in NN. destruct (A3 NN) as (v&X&Y). exists v.
    rewrite (V2 _ ns_acc), (P2 _ ns_acc) in X. split; [exact X|]. split.
    + rewrite A2, V2, P2 by exact ns_acc. exact X.
    + exact Y.
Qed.
Lemma mimic1_other c st st' m ja i : no_slash i -> (forall a b x y, m = (a, b, x, y) -> nth_error (g_joints c) a <> Some ja) ->
  mimic1 c st m = (st', GOk) -> keeps (full (ja, i)) st st'.
Proof.
  intros Hi NM H. destruct m as [[[a b] mult] off].
  eapply (mimic1_keeps (MCfg (g_joints c) (g_jst c) (g_jcmd c) (g_sst c) (g_gst c) (g_gcmd c) (g_msens c) (g_mgpio c)
     (g_disabled c) (g_dyn c) (g_off c) (g_custom c) [(a, b, mult, off)])); [exact Hi|left; reflexivity| |exact H].
  intros (a'&b'&x&y&[E|[]]&EN). injection E as <- <- <- <-. cbn in EN. exact (NM _ _ _ _ eq_refl EN).
Qed.
Lemma main_mimic c dt cmd modes st st' a b mult off ja jb i :
  NoDup (exported_states c) -> (forall x, In x (g_jst c ++ g_jcmd c ++ g_sst c ++ g_gst c ++ g_gcmd c) -> no_slash (snd x)) ->
  g_disabled c = false -> In i [HW_POS; HW_VEL; HW_ACC] ->
  In (a, b, mult, off) (g_mimic c) -> mimic_once c ->
  nth_error (g_joints c) a = Some ja -> nth_error (g_joints c) b = Some jb -> ~ mimics c jb ->
  In (ja, i) (g_jst c) -> In (jb, i) (g_jst c) -> ~ In (ja, i) (g_gcmd c) -> ~ In (jb, i) (g_gcmd c) ->
  aget st (full (ja, i)) <> None ->
  read_st c dt cmd modes st = (st', GOk) ->
  exists v, aget st' (full (jb, i)) = Some v /\ aget st' (full (ja, i)) = Some (mimic_value i mult off v).
Proof.
  intros ND NS DI Ii IM MO EA EB NB IJA IJB NGA NGB NN HR.
  destruct (read_parts _ _ _ _ _ _ DI HR) as (s1&s2&s3&A&B&C&E).
  destruct (parts_grow _ _ _ _ _ _ _ _ A B C) as (G1&_&_).
  assert (Hi : no_slash i) by (apply (NS (ja, i)); rewrite !in_app_iff; tauto).
  assert (NE : ja <> jb) by (intros ->; apply NB; exists a, b, mult, off; split; assumption).
  assert (KT : forall x, In (x, i) (g_jst c) -> ~ In (x, i) (g_gcmd c) -> keeps (full (x, i)) s2 st').
  { intros x IX NG. eapply tail_keeps; [exact ND|apply in_map; exact IX| |exact C|exact E].
    intros y I0 X. apply NG. rewrite <- (full_inj' y (x, i)); [exact I0| |exact Hi|exact X]. apply NS. rewrite !in_app_iff. tauto. }
  rewrite (KT ja IJA NGA), (KT jb IJB NGB).
  apply G1 in NN. clear A C E G1 HR KT.
  assert (KB : forall l s s', (forall m, In m l -> In m (g_mimic c)) -> each (mimic1 c) s l = (s', GOk) -> keeps (full (jb, i)) s s').
  { intros l s s' SUB. apply each_keeps. intros m u u' Im. apply mimic1_keeps; [exact Hi|exact (SUB m Im)|exact NB]. }
  unfold mimic_once in MO. revert s1 s2 NN B IM MO.
  assert (G : forall l, (forall m, In m l -> In m (g_mimic c)) -> forall s1 s2, aget s1 (full (ja, i)) <> None ->
    each (mimic1 c) s1 l = (s2, GOk) -> In (a, b, mult, off) l ->
    NoDup (map (fun m => nth_error (g_joints c) (fst (fst (fst m)))) l) ->
    exists v, aget s2 (full (jb, i)) = Some v /\ aget s2 (full (ja, i)) = Some (mimic_value i mult off v)).
  { induction l as [|m l IH]; intros SUB s1 s2 NN B IM MO; [destruct IM|]. cbn in B.
    destruct (mimic1 c s1 m) as [s0 o] eqn:E0. destruct o; try discriminate. cbn [map] in MO. inversion MO as [|? ? NI MO']; subst.
    destruct IM as [->|IM].
    - destruct (mimic1_sets c s1 s0 a b mult off ja jb i Ii EA EB NE E0 NN) as (v&_&X&Y). exists v. split.
      + rewrite (KB l s0 s2); [exact X|intros; apply SUB; right; assumption|exact B].
      + rewrite <- Y. eapply (each_keeps (mimic1 c)); [|exact B]. intros m s s' Im. apply mimic1_other; [exact Hi|].
        intros a' b' x y -> EA'. apply NI. cbn [fst]. rewrite EA, <- EA'. apply (in_map (fun m => nth_error (g_joints c) (fst (fst (fst m))))) in Im. exact Im.
    - apply (IH (fun y Iy => SUB y (or_intror Iy)) s0 s2); [|exact B|exact IM|exact MO'].
      intros X. apply NN. rewrite <- X. symmetry. eapply mimic1_other; [exact Hi| |exact E0].
      intros a' b' x y -> EA'. apply NI. cbn [fst]. rewrite EA', <- EA.
      apply (in_map (fun m => nth_error (g_joints c) (fst (fst (fst m))))) in IM. exact IM. }
  intros s1 s2 NN B IM MO. eapply G; try eassumption. auto.
Qed.

(** *** dynamics mode: the interface of the selected mode is looped back *)
Lemma put_keeps k k' st v : k <> k' -> keeps k st (put st k' v).
Proof. intros N. unfold put. destruct (_ && _); [apply aget_aset_other; congruence|reflexivity]. Qed.
Lemma put_sets k st v : isfinite v = true -> aget st k <> None -> aget (put st k v) k = Some v.
Proof. intros FV NN. unfold put. apply has_iff in NN. rewrite FV, NN. apply aget_aset_same. Qed.
Lemma dyn_other c dt cmd st j mode p i : no_slash i -> j <> p -> keeps (full (p, i)) st (dyn_joint c dt cmd st (j, mode)).
Proof.
  intros Hi N. assert (NF : forall i', no_slash i' -> full (p, i) <> full (j, i')).
  { intros i' H E. destruct (full_inj _ _ _ _ Hi H E). congruence. }
  unfold dyn_joint. destruct (dyn_values _ _ _ _ _) as [[a b] d].
  eapply keeps_trans; [|apply put_keeps, NF, ns_acc]. eapply keeps_trans; [|apply put_keeps, NF, ns_vel]. apply put_keeps, NF, ns_pos.
Qed.
Lemma dyn_same c dt cmd st p m i x : In (m, i) mode_names -> aget st (full (p, i)) <> None ->
  aget cmd (full (p, i)) = Some x -> isfinite x = true -> isfinite (mode_value c i x) = true ->
  aget (dyn_joint c dt cmd st (p, m)) (full (p, i)) = Some (mode_value c i x).
Proof.
  intros IM NN HC FX FV. unfold mode_value in *.
  assert (NI : forall i1 i2, no_slash i1 -> no_slash i2 -> i1 <> i2 -> full (p, i1) <> full (p, i2)).
  { intros i1 i2 A B D X. destruct (full_inj _ _ _ _ A B X). congruence. }
  assert (D1 : full (p, HW_POS) <> full (p, HW_VEL)) by (apply NI; [exact ns_pos|exact ns_vel|discriminate]).
  assert (D2 : full (p, HW_POS) <> full (p, HW_ACC)) by (apply NI; [exact ns_pos|exact ns_acc|discriminate]).
  assert (D3 : full (p, HW_VEL) <> full (p, HW_ACC)) by (apply NI; [exact ns_vel|exact ns_acc|discriminate]).
  apply getf_some in HC.
  destruct IM as [E|[E|[E|[]]]]; injection E as <- <-; unfold dyn_joint, dyn_values; rewrite HC, FX.
  - change (String.eqb HW_POS HW_POS) with true in *. cbv iota in *.
    rewrite (put_keeps _ _ _ _ D2), (put_keeps _ _ _ _ D1). exact (put_sets _ _ _ FV NN).
  - change (String.eqb HW_VEL HW_POS) with false in *. cbv iota in *.
    rewrite (put_keeps _ _ _ _ D3). apply put_sets; [exact FV|]. rewrite (put_keeps _ _ _ _ (not_eq_sym D1)). exact NN.
  - change (String.eqb HW_ACC HW_POS) with false in *. cbv iota in *.
    apply put_sets; [exact FV|]. rewrite (put_keeps _ _ _ _ (not_eq_sym D3)), (put_keeps _ _ _ _ (not_eq_sym D2)). exact NN.
Qed.
Lemma skipped_dyn c i m : g_dyn c = true -> In (m, i) mode_names -> skipped c i = true.
Proof. unfold skipped. intros -> [E|[E|[E|[]]]]; injection E as <- <-; reflexivity. Qed.
Lemma main_dyn c dt cmd modes st st' n p m i x :
  NoDup (exported_states c) -> (forall x, In x (g_jst c ++ g_jcmd c ++ g_sst c ++ g_gst c ++ g_gcmd c) -> no_slash (snd x)) ->
  g_dyn c = true -> g_disabled c = false -> NoDup (g_joints c) -> nth_error (g_joints c) n = Some p -> nth_error modes n = Some m ->
  In (m, i) mode_names -> In (p, i) (g_jst c) -> ~ mimics c p -> ~ In (p, i) (g_gcmd c) ->
  aget st (full (p, i)) <> None -> aget cmd (full (p, i)) = Some x -> isfinite x = true -> isfinite (mode_value c i x) = true ->
  read_st c dt cmd modes st = (st', GOk) -> aget st' (full (p, i)) = Some (mode_value c i x).
Proof.
  intros ND NS D DI NJ EJ EM IM IJ NM NG NN HC FX FV HR.
  destruct (read_parts _ _ _ _ _ _ DI HR) as (s1&s2&s3&A&B&C&E).
  assert (Hi : no_slash i) by (apply (NS (p, i)); rewrite !in_app_iff; tauto).
  assert (SL : forall x, In x (g_jst c ++ g_jcmd c ++ g_sst c ++ g_gst c ++ g_gcmd c) -> full x = full (p, i) -> x = (p, i)).
  { intros y I0 X. apply full_inj'; [exact (NS y I0)|exact Hi|exact X]. }
  assert (K : keeps (full (p, i)) (joints_pass c dt cmd modes st) st').
  { eapply keeps_trans; [eapply loops_keep; [|exact A]|].
    - intros y I0. destruct (String.string_dec (full y) (full (p, i))) as [X|X]; [right|left; exact X].
      rewrite (SL y (in_or_app _ _ _ (or_introl I0)) X). exact (skipped_dyn c i m D IM).
    - eapply keeps_trans; [exact (mimics_keep c _ _ p _ Hi NM B)|].
      eapply tail_keeps; [exact ND|apply in_map; exact IJ| |exact C|exact E].
      intros y I0 X. apply NG. rewrite <- (SL y); [exact I0| |exact X]. rewrite !in_app_iff. tauto. }
  rewrite K. unfold joints_pass. rewrite D. clear A B C E K HR s1 s2 s3 SL IJ NG NM DI D ND NS.
  revert n modes st EJ EM NN. induction (g_joints c) as [|j js IH]; intros n modes st EJ EM NN; [destruct n; discriminate|].
  inversion NJ as [|? ? NI NJ']; subst. destruct modes as [|m0 modes]; [destruct n; discriminate|]. cbn [combine fold_left].
  destruct n as [|n].
  - injection EJ as ->. injection EM as ->. rewrite <- (dyn_same c dt cmd st p m i x IM NN HC FX FV).
    assert (Q : forall l s, (forall y, In y l -> fst y <> p) -> keeps (full (p, i)) s (fold_left (dyn_joint c dt cmd) l s)).
    { intros l s H. apply (fold_rel _ (keeps (full (p, i)))); [reflexivity|intros; eapply keeps_trans; eassumption|].
      intros [j0 m0] s' Iy. apply dyn_other; [exact Hi|exact (H _ Iy)]. }
    apply Q. intros [j0 m0] Iy X. cbn in X. subst j0. apply NI. exact (in_combine_l _ _ _ _ Iy).
  - cbn in EJ, EM. apply (IH NJ' n modes); [exact EJ|exact EM|].
    assert (N : j <> p) by (intros ->; apply NI; exact (nth_error_In _ _ EJ)).
    intros Z0. apply NN. rewrite <- Z0. symmetry. exact (dyn_other c dt cmd st j m0 p i Hi N).
Qed.

(** *** dynamics mode: all three interfaces of a joint, one read *)
Lemma put_at k st v : aget (put st k v) k = if isfinite v && has st k then Some v else aget st k.
Proof. unfold put. destruct (isfinite v && has st k); [apply aget_aset_same|reflexivity]. Qed.
Lemma put_has k k' st v : has (put st k' v) k = has st k.
Proof.
  unfold put. destruct (isfinite v && has st k') eqn:E; [|reflexivity]. unfold has. destruct (String.string_dec k k') as [->|N].
  - rewrite aget_aset_same. apply andb_true_iff in E. destruct E as [_ E]. unfold has in E. symmetry. exact E.
  - rewrite aget_aset_other by congruence. reflexivity.
Qed.
Lemma dyn_at c dt cmd st p m : let k i := full (p, i) in
  forall p' v' a', dyn_values c dt m (getf st (k HW_POS), getf st (k HW_VEL), getf st (k HW_ACC)) (getf cmd (k HW_POS), getf cmd (k HW_VEL), getf cmd (k HW_ACC)) = (p', v', a') ->
  let s' := dyn_joint c dt cmd st (p, m) in
  aget s' (k HW_POS) = (if isfinite p' && has st (k HW_POS) then Some p' else aget st (k HW_POS)) /\
  aget s' (k HW_VEL) = (if isfinite v' && has st (k HW_VEL) then Some v' else aget st (k HW_VEL)) /\
  aget s' (k HW_ACC) = (if isfinite a' && has st (k HW_ACC) then Some a' else aget st (k HW_ACC)).
Proof.
  intros k p' v' a' E s'. 
  assert (NI : forall i1 i2, no_slash i1 -> no_slash i2 -> i1 <> i2 -> full (p, i1) <> full (p, i2)).
  { intros i1 i2 A B D X. destruct (full_inj _ _ _ _ A B X). congruence. }
  assert (D1 : k HW_POS <> k HW_VEL) by (apply NI; [exact ns_pos|exact ns_vel|discriminate]).
  assert (D2 : k HW_POS <> k HW_ACC) by (apply NI; [exact ns_pos|exact ns_acc|discriminate]).
  assert (D3 : k HW_VEL <> k HW_ACC) by (apply NI; [exact ns_vel|exact ns_acc|discriminate]).
  unfold s', dyn_joint. fold (k HW_POS) (k HW_VEL) (k HW_ACC). rewrite E. split; [|split].
  - rewrite (put_keeps _ _ _ _ D2), (put_keeps _ _ _ _ D1). apply put_at.
  - rewrite (put_keeps _ _ _ _ D3), put_at, put_has. rewrite (put_keeps _ _ _ _ (not_eq_sym D1)). reflexivity.
  - rewrite put_at, !put_has. rewrite (put_keeps _ _ _ _ (not_eq_sym D3)), (put_keeps _ _ _ _ (not_eq_sym D2)). reflexivity.
Qed.
Lemma dyn_cong c dt cmd s1 s2 p m i : In i [HW_POS; HW_VEL; HW_ACC] -> (forall i, In i [HW_POS; HW_VEL; HW_ACC] -> aget s1 (full (p, i)) = aget s2 (full (p, i))) ->
  aget (dyn_joint c dt cmd s1 (p, m)) (full (p, i)) = aget (dyn_joint c dt cmd s2 (p, m)) (full (p, i)).
Proof.
  intros I A. pose proof (A HW_POS (or_introl eq_refl)) as A1. pose proof (A HW_VEL (or_intror (or_introl eq_refl))) as A2. pose proof (A HW_ACC (or_intror (or_intror (or_introl eq_refl)))) as A3.
  destruct (dyn_values c dt m (getf s1 (full (p, HW_POS)), getf s1 (full (p, HW_VEL)), getf s1 (full (p, HW_ACC))) (getf cmd (full (p, HW_POS)), getf cmd (full (p, HW_VEL)), getf cmd (full (p, HW_ACC)))) as [[p' v'] a'] eqn:E.
  destruct (dyn_at c dt cmd s1 p m p' v' a' E) as (B1 & B2 & B3).
  assert (E2 := E). unfold getf at 1 2 3 in E2. rewrite A1, A2, A3 in E2. fold (getf s2 (full (p, HW_POS))) (getf s2 (full (p, HW_VEL))) (getf s2 (full (p, HW_ACC))) in E2.
  destruct (dyn_at c dt cmd s2 p m p' v' a' E2) as (C1 & C2 & C3). unfold has in *.
  destruct I as [<-|[<-|[<-|[]]]]; [rewrite B1, C1, A1|rewrite B2, C2, A2|rewrite B3, C3, A3]; reflexivity.
Qed.
Lemma dyn_pass c dt cmd modes st n p m i : In i [HW_POS; HW_VEL; HW_ACC] -> g_dyn c = true -> NoDup (g_joints c) ->
  nth_error (g_joints c) n = Some p -> nth_error modes n = Some m ->
  aget (joints_pass c dt cmd modes st) (full (p, i)) = aget (dyn_joint c dt cmd st (p, m)) (full (p, i)).
Proof.
  intros I D NJ EJ EM. unfold joints_pass. rewrite D.
  assert (NS3 : forall i, In i [HW_POS; HW_VEL; HW_ACC] -> no_slash i) by (intros i0 [<-|[<-|[<-|[]]]]; [exact ns_pos|exact ns_vel|exact ns_acc]).
  revert n modes st EJ EM. induction (g_joints c) as [|j js IH]; intros n modes st EJ EM; [destruct n; discriminate|].
  inversion NJ as [|? ? NI NJ']; subst. destruct modes as [|m0 modes]; [destruct n; discriminate|]. cbn [combine fold_left].
  destruct n as [|n].
  - injection EJ as ->. injection EM as ->.
    assert (Q : forall l s, (forall y, In y l -> fst y <> p) -> keeps (full (p, i)) s (fold_left (dyn_joint c dt cmd) l s)).
    { intros l s H. apply (fold_rel _ (keeps (full (p, i)))); [reflexivity|intros; eapply keeps_trans; eassumption|].
      intros [j0 m0] s' Iy. apply dyn_other; [apply NS3; exact I|exact (H _ Iy)]. }
    apply Q. intros [j0 m0] Iy X. cbn in X. subst j0. apply NI. exact (in_combine_l _ _ _ _ Iy).
  - cbn in EJ, EM. rewrite (IH NJ' n modes (dyn_joint c dt cmd st (j, m0)) EJ EM). apply dyn_cong; [exact I|].
    assert (N : j <> p) by (intros ->; apply NI; exact (nth_error_In _ _ EJ)).
    intros i0 I0. exact (dyn_other c dt cmd st j m0 p i0 (NS3 i0 I0) N).
Qed.
Lemma read_dyn c dt cmd modes st st' n p m i :
  NoDup (exported_states c) -> (forall x, In x (g_jst c ++ g_jcmd c ++ g_sst c ++ g_gst c ++ g_gcmd c) -> no_slash (snd x)) ->
  g_dyn c = true -> g_disabled c = false -> NoDup (g_joints c) -> nth_error (g_joints c) n = Some p -> nth_error modes n = Some m ->
  In i [HW_POS; HW_VEL; HW_ACC] -> In (p, i) (g_jst c) -> ~ mimics c p -> ~ In (p, i) (g_gcmd c) ->
  read_st c dt cmd modes st = (st', GOk) -> aget st' (full (p, i)) = aget (dyn_joint c dt cmd st (p, m)) (full (p, i)).
Proof.
  intros ND NS D DI NJ EJ EM IM IJ NM NG HR.
  destruct (read_parts _ _ _ _ _ _ DI HR) as (s1&s2&s3&A&B&C&E).
  assert (Hi : no_slash i) by (apply (NS (p, i)); rewrite !in_app_iff; tauto).
  assert (SL : forall x, In x (g_jst c ++ g_jcmd c ++ g_sst c ++ g_gst c ++ g_gcmd c) -> full x = full (p, i) -> x = (p, i)).
  { intros y I0 X. apply full_inj'; [exact (NS y I0)|exact Hi|exact X]. }
  assert (K : keeps (full (p, i)) (joints_pass c dt cmd modes st) st').
  { eapply keeps_trans; [eapply loops_keep; [|exact A]|].
    - intros y I0. destruct (String.string_dec (full y) (full (p, i))) as [X|X]; [right|left; exact X].
      rewrite (SL y (in_or_app _ _ _ (or_introl I0)) X). unfold skipped. rewrite D. apply mem_In. exact IM.
    - eapply keeps_trans; [exact (mimics_keep c _ _ p _ Hi NM B)|].
      eapply tail_keeps; [exact ND|apply in_map; exact IJ| |exact C|exact E].
      intros y I0 X. apply NG. rewrite <- (SL y); [exact I0| |exact X]. rewrite !in_app_iff. tauto. }
  rewrite K. apply (dyn_pass c dt cmd modes st n p m i); assumption.
Qed.
Lemma main_moves c dt cmd modes st st' n p m x s s' :
  NoDup (exported_states c) -> (forall x, In x (g_jst c ++ g_jcmd c ++ g_sst c ++ g_gst c ++ g_gcmd c) -> no_slash (snd x)) ->
  g_dyn c = true -> g_disabled c = false -> NoDup (g_joints c) -> nth_error (g_joints c) n = Some p -> nth_error modes n = Some m -> ~ mimics c p ->
  (forall i, In i [HW_POS; HW_VEL; HW_ACC] -> In (p, i) (g_jst c) /\ ~ In (p, i) (g_gcmd c)) ->
  joint_state st p s -> commanded cmd p m x -> isfinite x = true -> moves c dt m x s s' -> finite3 s -> finite3 s' ->
  read_st c dt cmd modes st = (st', GOk) -> joint_state st' p s'.
Proof.
  intros ND NS D DI NJ EJ EM NM HI HS HC FX HM F3 F3' HR.
  assert (RD : forall i, In i [HW_POS; HW_VEL; HW_ACC] -> aget st' (full (p, i)) = aget (dyn_joint c dt cmd st (p, m)) (full (p, i))).
  { intros i I. destruct (HI i I). eapply read_dyn; eassumption. }
  destruct s as [[sp sv] sa], s' as [[sp' sv'] sa']. destruct HS as (H1 & H2 & H3). destruct F3 as (F1 & F2 & F4), F3' as (F1' & F2' & F4').
  assert (DV : dyn_values c dt m (getf st (full (p, HW_POS)), getf st (full (p, HW_VEL)), getf st (full (p, HW_ACC))) (getf cmd (full (p, HW_POS)), getf cmd (full (p, HW_VEL)), getf cmd (full (p, HW_ACC))) = (sp', sv', sa')).
  { rewrite (getf_some _ _ _ H1), (getf_some _ _ _ H2), (getf_some _ _ _ H3). unfold moves in HM. unfold commanded in HC.
    assert (NNv : isnan sv = false) by (destruct sv; try discriminate; reflexivity). assert (NNx : isnan x = false) by (destruct x; try discriminate; reflexivity).
    destruct m as [|[|[|m]]]; [| | |contradiction]; apply getf_some in HC; rewrite HC; unfold dyn_values; rewrite FX; destruct HM as (-> & -> & ->).
    - rewrite F2. reflexivity.
    - rewrite F2, FX. reflexivity.
    - rewrite NNv, NNx, F2'. reflexivity. }
  destruct (dyn_at c dt cmd st p m _ _ _ DV) as (B1 & B2 & B3). unfold has in *. rewrite H1 in B1. rewrite H2 in B2. rewrite H3 in B3. rewrite F1' in B1. rewrite F2' in B2. rewrite F4' in B3. cbn [is_some andb] in *.
  unfold joint_state. rewrite !RD by (simpl; tauto). auto.
Qed.
