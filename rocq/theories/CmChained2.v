(** CmChained2.v -- validation of a switch request, continued: the lists handed over to the real-time loop. *)
From Verif Require Import Base Events HwModel RmModel RmSys RmSpec RmProofs RmInv CmModel CmPrim CmInv CmSpec CmSwitch FollowSpec CmFollow UpdateSpec BestSpec CmBystander ChainedSpec CmChained.
Open Scope list_scope.

Lemma remove1_other x y (ls : list name) : x <> y -> (In x (remove1 y ls) <-> In x ls).
Proof.
  intros N. induction ls as [|z ls IH]; cbn [remove1]; [tauto|]. destruct (String.eqb y z) eqn:E.
  - apply String.eqb_eq in E. subst z. cbn. intuition congruence.
  - cbn. rewrite IH. tauto.
Qed.
Record c1res (c : ctrl) (w w' : sw) : Prop := {
  r_to : w_to w' = w_to w; r_from : w_from w' = w_from w;
  r_oa : forall x, x <> c_name c -> (In x (w_act w') <-> In x (w_act w));
  r_od : forall x, x <> c_name c -> (In x (w_deact w') <-> In x (w_deact w));
  r_na : c_lc c <> Active -> incl (w_act w') (w_act w);
  r_re : c_lc c = Active -> In (c_name c) (w_to w) \/ In (c_name c) (w_from w) -> In (c_name c) (w_deact w');
  r_no : ~ In (c_name c) (w_to w) -> ~ In (c_name c) (w_from w) -> incl (w_deact w') (w_deact w) }.
Lemma conflict_one_res strict w c w' : conflict_one strict w c = inl w' -> c1res c w w'.
Proof.
  intros H. unfold conflict_one in H. cbv zeta in H. set (n := c_name c) in *.
  destruct ((mem n (w_to w) || mem n (w_from w)) && is_lc Active c && negb (mem n (w_deact w)))%bool eqn:R.
  - apply andb_prop in R. destruct R as [R Rd]. apply andb_prop in R. destruct R as [Rt Ra].
    assert (La : c_lc c = Active) by (apply active_dec; exact Ra).
    assert (Md : mem n (w_deact (sw_lists w (w_act w ++ [n]) (w_deact w ++ [n]))) = true) by (apply mem_In; cbn; apply in_or_app; right; left; reflexivity).
    rewrite Md, Ra in H. cbn [negb andb] in H. rewrite ?andb_false_r in H. cbn [negb andb] in H.
    rewrite ?andb_true_r in H. 
    assert (E : w_to w' = w_to w /\ w_from w' = w_from w /\ w_act w' = w_act w ++ [n] /\ w_deact w' = w_deact w ++ [n]).
    { match type of H with inl (if ?b then _ else _) = _ => destruct b end; injection H as <-; repeat split; reflexivity. }
    destruct E as (E1 & E2 & E3 & E4). unfold n in *. clear n. constructor; auto.
    + intros x N. rewrite E3, in_app_iff. cbn. intuition congruence.
    + intros x N. rewrite E4, in_app_iff. cbn. intuition congruence.
    + intros N. contradiction.
    + intros _ _. rewrite E4. apply in_or_app. right. left. reflexivity.
    + intros N1 N2. exfalso. apply orb_prop in Rt. destruct Rt as [Rt|Rt]; apply mem_In in Rt; contradiction.
  - clear - R H. set (ra := mem n (w_act w)) in *. set (rd := mem n (w_deact w)) in *.
    assert (E : exists ba bd, w_to w' = w_to w /\ w_from w' = w_from w /\ w_deact w' = (if bd : bool then remove1 n (w_deact w) else w_deact w) /\
        (w_act w' = w_act w \/ w_act w' = remove1 n (w_act w) \/ w_act w' = remove1 n (remove1 n (w_act w))) /\ bd = (negb (is_lc Active c) && rd)%bool /\ ba = true).
    { exists true, (negb (is_lc Active c) && rd)%bool.
      destruct (negb (is_lc Active c) && rd)%bool; (destruct strict; [cbn [andb] in H; try discriminate H|cbn [andb] in H; rewrite ?andb_false_r in H]);
      repeat match type of H with (if ?b then inr _ else _) = _ => destruct b eqn:?; [discriminate H|] end;
      repeat match type of H with context [if ?b then sw_lists _ _ _ else _] => destruct b end;
      match type of H with inl (if ?b then _ else _) = _ => destruct b end; injection H as <-; cbn; repeat split; auto. }
    destruct E as (ba & bd & E1 & E2 & E3 & E4 & E5 & _). constructor; auto.
    + intros x N. destruct E4 as [-> | [-> | ->]]; rewrite ?remove1_other by auto; tauto.
    + intros x N. rewrite E3. destruct bd; rewrite ?remove1_other by auto; tauto.
    + intros _ x Hx. destruct E4 as [E4 | [E4 | E4]]; rewrite E4 in Hx; [exact Hx|eapply In_remove1; exact Hx|]. apply In_remove1 in Hx. eapply In_remove1. exact Hx.
    + intros La I. apply active_dec in La. rewrite La in E5, R. cbn in E5. subst bd. rewrite E3.
      assert (X : (mem n (w_to w) || mem n (w_from w))%bool = true) by (apply orb_true_iff; destruct I as [I|I]; [left|right]; apply mem_In; exact I).
      rewrite X in R. cbn in R. fold n. apply mem_In. fold rd. destruct rd; [reflexivity|discriminate R].
    + intros _ _ x Hx. rewrite E3 in Hx. destruct bd; [eapply In_remove1; exact Hx|exact Hx].
Qed.
Lemma conflict_res strict : forall cs w w', NoDup (map c_name cs) -> conflict_loop strict cs w = inl w' ->
  w_to w' = w_to w /\ w_from w' = w_from w /\
  (forall x, ~ In x (map c_name cs) -> (In x (w_act w') <-> In x (w_act w)) /\ (In x (w_deact w') <-> In x (w_deact w))) /\
  (forall c, In c cs -> c_lc c <> Active -> In (c_name c) (w_act w') -> In (c_name c) (w_act w)) /\
  (forall c, In c cs -> c_lc c = Active -> In (c_name c) (w_to w) \/ In (c_name c) (w_from w) -> In (c_name c) (w_deact w')) /\
  (forall x, ~ In x (w_to w) -> ~ In x (w_from w) -> In x (w_deact w') -> In x (w_deact w)).
Proof.
  induction cs as [|c cs IH]; intros w w' ND H; cbn [conflict_loop] in H.
  { injection H as <-. repeat split; auto; try tauto; intros ? []. }
  destruct (conflict_one strict w c) as [w1|w1] eqn:E; [|discriminate]. apply conflict_one_res in E. destruct E as [T F OA OD NA RE NO].
  cbn [map] in ND. inversion ND as [|? ? Nc ND']; subst. destruct (IH w1 w' ND' H) as (T2 & F2 & O2 & A2 & R2 & D2).
  assert (Ne : forall x, In x cs -> c_name x <> c_name c) by (intros x Ix E; apply Nc; rewrite <- E; apply in_map; exact Ix).
  split; [congruence|]. split; [congruence|]. split; [|split; [|split]].
  - intros x Nx. cbn [map] in Nx. destruct (O2 x) as [P Q]; [intros I; apply Nx; right; exact I|]. assert (N : x <> c_name c) by (intros ->; apply Nx; left; reflexivity).
    rewrite P, Q. split; [apply OA|apply OD]; exact N.
  - intros x [->|Ix] L I.
    + apply (NA L). apply (proj1 (O2 _ Nc)). exact I.
    + apply (OA _ (Ne x Ix)). apply A2; assumption.
  - intros x [->|Ix] L I.
    + apply (proj2 (O2 _ Nc)). apply RE; assumption.
    + apply R2; [exact Ix|exact L|]. rewrite T, F. exact I.
  - intros x N1 N2 I. assert (I1 : In x (w_deact w1)) by (apply D2; rewrite ?T, ?F; assumption).
    destruct (string_dec x (c_name c)) as [->|N]; [apply NO; assumption|]. apply (OD _ N). exact I1.
Qed.

Section R.
Variables (e : env) (allow : bool) (m : cm) (n : name).
Let l := cm_ctrls m.
Hypothesis ND : NoDup (map c_name l).
Lemma deact_keep mm strict : forall rest kept w w', w_deact w = kept ++ rest -> deact_loop mm strict kept rest w = Some w' ->
  w_to w' = w_to w /\ w_from w' = w_from w /\ w_act w' = w_act w /\ w_rm w' = w_rm w /\ incl (w_deact w') (w_deact w) /\ (strict = true -> w_deact w' = w_deact w).
Proof.
  induction rest as [|x rest IH]; intros kept w w' Ed H; cbn [deact_loop] in H; [injection H as <-; repeat split; auto using incl_refl|]. cbv zeta in H.
  destruct (match find_ctrl mm x with Some c => is_lc Active c && check_preceding mm w c | None => false end)%bool.
  - apply IH in H; [exact H|]. rewrite Ed, <- app_assoc. reflexivity.
  - destruct strict; [discriminate|]. apply IH in H; [|reflexivity]. cbn in H. destruct H as (A & B & C & D & E & _). repeat split; auto; [|discriminate].
    intros y Hy. apply E in Hy. rewrite Ed. apply in_app_iff in Hy. apply in_app_iff. destruct Hy; [left|right; right]; assumption.
Qed.
Lemma list_all strict : forall ns got ok r, list_controllers l strict ns got ok = Some r -> incl r (got ++ ns).
Proof. intros ns got ok r H x Hx. apply in_app_iff. eapply list_sub; eassumption. Qed.

(** what a pending request says about [n] *)
Lemma request_chained a d strict asap m1 p f k : switch_request e allow m a d strict asap = Val (m1, SwPending) ->
  In p l -> c_lc p = Inactive -> by_name p -> wants_cmd m p k -> In f l -> c_name f = n -> owned_by k n ->
  exists q, cm_pend m1 = Some q /\ p_done q = false /\ cm_ctrls m1 = l /\
    (In n (p_from q) -> stopped_user m d n) /\
    (In (c_name p) (p_act q) -> c_chainable f = true /\ (c_chained f = false -> In n (p_to q) /\ (c_lc f = Active -> In n (p_deact q))) /\
       (c_chained f = true -> ~ In n (p_from q) -> c_lc f = Active -> ~ In n (p_deact q))).
Proof.
  intros H Ip Lp Bp Wk If Nf Ow. unfold switch_request in H. fold l in H.
  destruct (list_controllers l strict d [] true) as [d'|] eqn:Ed; [|discriminate]. destruct (list_controllers l strict a [] true) as [a'|] eqn:Ea; [|discriminate].
  apply list_all in Ed. apply list_all in Ea. cbn [app] in Ed, Ea.
  apply bind_val in H. destruct H as (w1 & H1 & H). set (w0 := {| w_rm := cm_rm m |}) in H1.
  assert (O0 : cw m n a' d' w0) by (constructor; cbn; auto using incl_refl, ev_start; intros []).
  pose proof (cw_propagate m n a' d' l w0 w1 (incl_refl l) H1 O0) as O1. destruct (propagate_same l l _ _ H1) as [[S1 S2 S3 S4] _]. cbn in S1, S2.
  apply bind_val in H. destruct H as (x & H2 & H). destruct x as [w2|w2]; [|discriminate].
  destruct (good_act m n a' d' ND p f k Ip Lp Bp Wk If Nf Ow strict a' [] w1 w2) as (O2 & D2 & G2); [apply incl_refl|auto|intros []|exact O1|exact H2|].
  destruct (deact_loop m strict [] (w_deact w2) w2) as [w3|] eqn:E3; [|discriminate]. destruct (deact_keep m strict (w_deact w2) [] w2 w3 eq_refl E3) as (T3 & F3 & A3 & _ & D3 & _).
  destruct (sw_empty w3); [discriminate|]. destruct (conflict_loop strict l w3) as [w4|w4] eqn:E4; [|discriminate].
  destruct (conflict_res strict l w3 w4 ND E4) as (T4 & F4 & _ & A4 & R4 & D4). destruct (sw_empty w4); [discriminate|].
  apply bind_val in H. destruct H as (b & _ & H). destruct b; cbn [negb] in H; [|discriminate].
  destruct (rm_prepare e allow (w_rm w4) (w_start w4) (w_stop w4)) as [r5 ok]. destruct ok; cbn [negb] in H; [|discriminate].
  injection H as <-. eexists. split; [reflexivity|]. split; [reflexivity|]. split; [reflexivity|]. cbn.
  assert (FR : In n (w_from w4) -> In n (w_from w2)) by (rewrite F4, F3; auto).
  split.
  - intros I. destruct (cw_from _ _ _ _ _ O2 (FR I)) as (c & k' & Ic & La & Id & X). exists c, k'. split; [exact Ic|]. split; [exact La|]. split; [apply Ed; exact Id|exact X].
  - intros I. assert (Gp : good n f w2). { apply G2. rewrite <- A3. apply A4; [exact Ip|rewrite Lp; discriminate|exact I]. }
    destruct Gp as [Gc Gt Gs]. split; [exact Gc|]. split.
    + intros U. pose proof (Gt U) as T. rewrite T4, T3. split; [exact T|]. intros La. rewrite <- Nf. apply R4; [exact If|exact La|]. left. rewrite Nf, T3. exact T.
    + intros U NF La D. apply (Gs La). apply D3. apply D4; [| |exact D]; [|rewrite F4 in NF; exact NF].
      rewrite T3. intros T. destruct (cw_to _ _ _ _ _ O2 T) as [X _]. specialize (X f If Nf). congruence.
Qed.
(** nobody is moved to chained mode without a commander *)
Lemma request_to a d strict asap m1 : switch_request e allow m a d strict asap = Val (m1, SwPending) ->
  exists q, cm_pend m1 = Some q /\ p_done q = false /\ cm_ctrls m1 = l /\ (In n (p_to q) -> unchained m n /\ commander m n a).
Proof.
  intros H. unfold switch_request in H. fold l in H.
  destruct (list_controllers l strict d [] true) as [d'|] eqn:Ed; [|discriminate]. destruct (list_controllers l strict a [] true) as [a'|] eqn:Ea; [|discriminate].
  apply list_all in Ed. apply list_all in Ea. cbn [app] in Ed, Ea.
  apply bind_val in H. destruct H as (w1 & H1 & H). set (w0 := {| w_rm := cm_rm m |}) in H1.
  assert (O0 : cw m n a' d' w0) by (constructor; cbn; auto using incl_refl, ev_start; intros []).
  pose proof (cw_propagate m n a' d' l w0 w1 (incl_refl l) H1 O0) as O1.
  apply bind_val in H. destruct H as (x & H2 & H). destruct x as [w2|w2]; [|discriminate].
  assert (O2 : cw m n a' d' w2).
  { clear - ND O1 H2. assert (G : forall rest kept w, incl rest a' -> incl kept a' -> cw m n a' d' w -> act_loop l strict kept rest w = Val (inl w2) -> cw m n a' d' w2).
    { induction rest as [|y rest IH]; intros kept w Hi Hk O H; cbn [act_loop] in H; [injection H as <-; exact O|].
      apply bind_val in H. destruct H as ([w1' ok] & H1 & H). destruct (cw_check m n a' d' ND _ _ _ _ (Hi _ (or_introl eq_refl)) H1 O) as [O1' _].
      assert (Hi' : incl rest a') by (intros z Hz; apply Hi; right; exact Hz). destruct ok; [|destruct strict; [discriminate|]].
      - eapply IH; [exact Hi'| |exact O1'|exact H]. intros z Hz. apply in_app_iff in Hz. destruct Hz as [Hz|[<-|[]]]; [auto|]. apply Hi. left. reflexivity.
      - eapply IH; [exact Hi'|exact Hk| |exact H]. destruct O1' as [V A D F T]. constructor; cbn; try assumption. intros z Hz. apply in_app_iff in Hz. destruct Hz; auto. }
    eapply G; [apply incl_refl| |exact O1|exact H2]. intros ? []. }
  destruct (deact_loop m strict [] (w_deact w2) w2) as [w3|] eqn:E3; [|discriminate]. destruct (deact_keep m strict (w_deact w2) [] w2 w3 eq_refl E3) as (T3 & _).
  destruct (sw_empty w3); [discriminate|]. destruct (conflict_loop strict l w3) as [w4|w4] eqn:E4; [|discriminate].
  destruct (conflict_res strict l w3 w4 ND E4) as (T4 & _). destruct (sw_empty w4); [discriminate|].
  apply bind_val in H. destruct H as (b & _ & H). destruct b; cbn [negb] in H; [|discriminate].
  destruct (rm_prepare e allow (w_rm w4) (w_start w4) (w_stop w4)) as [r5 ok]. destruct ok; cbn [negb] in H; [|discriminate].
  injection H as <-. eexists. split; [reflexivity|]. split; [reflexivity|]. split; [reflexivity|]. cbn. intros I. rewrite T4, T3 in I.
  destruct (cw_to _ _ _ _ _ O2 I) as [U (c & k & Ic & Rc & X)]. split; [exact U|]. exists c, k. split; [exact Ic|]. split; [|exact X]. destruct Rc; [left; apply Ea|right]; assumption.
Qed.
End R.
