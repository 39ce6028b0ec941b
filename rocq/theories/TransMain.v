(** TransMain.v -- power and parameter assignment of transmissions (C38, C39). *)
From Coq Require Import Reals List Bool String Ascii Arith Lia Lra Field.
From Verif Require Import TransModel TransSpec TransProofs.
Import ListNotations.
Open Scope list_scope.

Lemma matching_filter n i hs : matching n i hs =
  storage (filter (fun h => String.eqb (h_prefix h) n && String.eqb (h_itf h) i) hs).
Proof.
  unfold matching, storage. induction hs as [|h hs IH]; [reflexivity|]. cbn [flat_map filter]. destruct (_ && _); cbn [flat_map]; rewrite IH; reflexivity.
Qed.
Lemma only_matching hs n k p : only hs n k p -> matching n (itf_name k) hs = [p].
Proof. intros H. rewrite matching_filter, H. reflexivity. Qed.
Lemma only_in hs n k p : only hs n k p -> In {| h_prefix := n; h_itf := itf_name k; h_ptr := Some p |} hs.
Proof. intros H. assert (X : In {| h_prefix := n; h_itf := itf_name k; h_ptr := Some p |} (filter (fun h => String.eqb (h_prefix h) n && String.eqb (h_itf h) (itf_name k)) hs)) by (rewrite H; left; reflexivity). apply filter_In in X. tauto. Qed.
Lemma two_names hs a b n0 n1 k p : get_names hs = [a; b] -> str_lt a b = true -> n0 <> n1 -> pair_of hs n0 n1 k p ->
  ordered_handles hs [a; b] (itf_name k) = (if str_lt n0 n1 then [fst p; snd p] else [snd p; fst p]).
Proof.
  intros E L N [H0 H1].
  assert (I0 : In n0 [a; b]) by (rewrite <- E; apply names_in; eexists; split; [apply (only_in _ _ _ _ H0)|reflexivity]).
  assert (I1 : In n1 [a; b]) by (rewrite <- E; apply names_in; eexists; split; [apply (only_in _ _ _ _ H1)|reflexivity]).
  apply only_matching in H0, H1. unfold ordered_handles. cbn [flat_map]. rewrite app_nil_r.
  destruct I0 as [<-|[<-|[]]], I1 as [<-|[<-|[]]]; try congruence; rewrite H0, H1.
  - rewrite L. reflexivity.
  - rewrite (str_lt_asym _ _ L). reflexivity.
Qed.

Section Two.
Variable kd : kind.
Variables (js : list (jinfo Reals)) (acts : list (ainfo Reals)) (t : trans Reals) (jh ah : list handle) (c : configured Reals).
Hypothesis L : load Reals kd js acts = Some t.
Hypothesis K2 : kd <> KSimple.
Hypothesis H : configure Reals t jh ah = Some c.
Hypothesis Sep : separate jh ah.
Let Wd := configure_wired _ _ _ _ H.

Lemma load_two : exists j0 j1 js' a0 a1 acts', js = j0 :: j1 :: js' /\ acts = a0 :: a1 :: acts' /\
  t = (match kd with KDifferential => Differential | _ => FourBar end) (ai_red _ a0) (ai_red _ a1) (ji_red _ j0) (ji_red _ j1) (ji_off _ j0) (ji_off _ j1).
Proof.
  unfold load in L. destruct kd; [congruence| |].
  - destruct acts as [|a0 [|a1 acts']]; try discriminate. destruct js as [|j0 [|j1 js']]; try discriminate.
    unfold make_differential, make_two in L. destruct (_ || _); [discriminate|]. injection L as <-. exists j0, j1, js', a0, a1, acts'. auto.
  - destruct acts as [|a0 [|a1 acts']]; try discriminate. destruct js as [|j0 [|j1 js']]; try discriminate.
    unfold make_four_bar, make_two in L. destruct (_ || _); [discriminate|]. injection L as <-. exists j0, j1, js', a0, a1, acts'. auto.
Qed.
Lemma handled_itfs k : handled kd k -> In k (itfs _ t).
Proof.
  destruct load_two as (j0 & j1 & js' & a0 & a1 & acts' & _ & _ & ->). intros Q. destruct kd; [congruence| |]; cbn [itfs].
  - destruct k; cbn; tauto.
  - cbn in Q. destruct Q as [->|[->| ->]]; cbn; tauto.
Qed.
Lemma joints_of k n0 n1 x : n0 <> n1 -> pair_of jh n0 n1 k x -> c_joint _ c k = if str_lt n0 n1 then [fst x; snd x] else [snd x; fst x].
Proof.
  intros N P. pose proof (wr_js _ _ _ _ Wd) as W. destruct load_two as (j0 & j1 & js' & a0 & a1 & acts' & _ & _ & ->).
  assert (E : exists a b, get_names jh = [a; b] /\ str_lt a b = true /\ forall k, c_joint Reals c k = ordered_handles jh [a; b] (itf_name k)) by (destruct kd; [congruence|exact W|exact W]).
  destruct E as (a & b & E & Lt & W'). rewrite W'. apply two_names; assumption.
Qed.
Lemma acts_of k n0 n1 x : n0 <> n1 -> pair_of ah n0 n1 k x -> c_act _ c k = if str_lt n0 n1 then [fst x; snd x] else [snd x; fst x].
Proof.
  intros N P. pose proof (wr_as _ _ _ _ Wd) as W. destruct load_two as (j0 & j1 & js' & a0 & a1 & acts' & _ & _ & ->).
  assert (E : exists a b, get_names ah = [a; b] /\ str_lt a b = true /\ forall k, c_act Reals c k = ordered_handles ah [a; b] (itf_name k)) by (destruct kd; [congruence|exact W|exact W]).
  destruct E as (a & b & E & Lt & W'). rewrite W'. apply two_names; assumption.
Qed.
(** the law, for the joints in the order the transmission uses *)
Lemma law_at k x0 x1 y0 y1 m j0 j1 js' a0 a1 acts' : handled kd k -> c_joint _ c k = [x0; x1] -> c_act _ c k = [y0; y1] ->
  js = j0 :: j1 :: js' -> acts = a0 :: a1 :: acts' ->
  (actuator_to_joint _ c m x0, actuator_to_joint _ c m x1) =
  law kd (ai_red _ a0) (ai_red _ a1) (ji_red _ j0) (ji_red _ j1) (ji_off _ j0) (ji_off _ j1) k (m y0) (m y1).
Proof.
  intros Hk Ej Ea Ejs Eas. pose proof (handled_itfs k Hk) as I1. pose proof (nodup_jc c t jh ah Wd Sep k) as N. rewrite Ej, Ea in N. cbn [app] in N.
  rewrite !(a2j_at c t jh ah Wd Sep k m) by (try exact I1; rewrite Ej; cbn; auto). rewrite Ej, Ea.
  destruct load_two as (j0' & j1' & ? & a0' & a1' & ? & Q1 & Q2 & Q3). rewrite Q3. rewrite Ejs in Q1. rewrite Eas in Q2. injection Q1 as <- <- <-. injection Q2 as <- <- <-.
  clear Q3 Wd L I1 Ej Ea. inversion N as [|? ? N1 N']; subst; clear N. inversion N' as [|? ? N2 N'']; subst; clear N'. inversion N'' as [|? ? N3 _]; subst; clear N''.
  destruct kd; [congruence| |]; destruct k; try (exfalso; cbn in Hk; intuition discriminate); cbn [a2j1 law differential_law four_bar_law]; f_equal;
    stores; cbn; try reflexivity; ring.
Qed.

Lemma power_sorted e xv0 xv1 xe0 xe1 yv0 yv1 ye0 ye1 m : effort_like e -> handled kd e ->
  c_joint _ c Vel = [xv0; xv1] -> c_joint _ c e = [xe0; xe1] -> c_act _ c Vel = [yv0; yv1] -> c_act _ c e = [ye0; ye1] ->
  let m' := actuator_to_joint _ c m in
  (m' xv0 * m' xe0 + m' xv1 * m' xe1 = m yv0 * m ye0 + m yv1 * m ye1)%R.
Proof.
  intros Ee He E1 E2 E3 E4 m'. destruct load_two as (j0 & j1 & js' & a0 & a1 & acts' & Q1 & Q2 & Q3).
  pose proof (load_sound _ _ _ _ L) as S. rewrite Q3 in S.
  assert (S' : sound (Differential (ai_red _ a0) (ai_red _ a1) (ji_red _ j0) (ji_red _ j1) (ji_off _ j0) (ji_off _ j1))) by (destruct kd; exact S).
  destruct S' as (S1 & S2 & S3 & S4).
  pose proof (law_at Vel xv0 xv1 yv0 yv1 m _ _ _ _ _ _ ltac:(destruct kd; cbn; auto) E1 E3 Q1 Q2) as V.
  pose proof (law_at e xe0 xe1 ye0 ye1 m _ _ _ _ _ _ He E2 E4 Q1 Q2) as W. fold m' in V, W.
  destruct kd; [congruence| |]; cbn [law differential_law four_bar_law] in V, W; apply pair_equal_spec in V; destruct V as [V1 V2]; rewrite V1, V2;
    destruct Ee as [->|[->| ->]]; cbn [differential_law four_bar_law] in W; try (exfalso; cbn in He; intuition discriminate); apply pair_equal_spec in W; destruct W as [W1 W2]; rewrite W1, W2; cbn in *; field; auto.
Qed.
Lemma main_power e j0 j1 a0 a1 xv xe yv ye m : effort_like e -> handled kd e -> j0 <> j1 -> a0 <> a1 ->
  pair_of jh j0 j1 Vel xv -> pair_of jh j0 j1 e xe -> pair_of ah a0 a1 Vel yv -> pair_of ah a0 a1 e ye ->
  let m1 := actuator_to_joint _ c m in let m2 := joint_to_actuator _ c m in
  (m1 (fst xv) * m1 (fst xe) + m1 (snd xv) * m1 (snd xe) = m (fst yv) * m (fst ye) + m (snd yv) * m (snd ye))%R /\
  (m2 (fst yv) * m2 (fst ye) + m2 (snd yv) * m2 (snd ye) = m (fst xv) * m (fst xe) + m (snd xv) * m (snd xe))%R.
Proof.
  intros Ee He Nj Na P1 P2 P3 P4.
  assert (A : forall m, let m1 := actuator_to_joint _ c m in (m1 (fst xv) * m1 (fst xe) + m1 (snd xv) * m1 (snd xe) = m (fst yv) * m (fst ye) + m (snd yv) * m (snd ye))%R).
  { clear m. intros m m1. pose proof (joints_of _ _ _ _ Nj P1) as Q1. pose proof (joints_of _ _ _ _ Nj P2) as Q2.
    pose proof (acts_of _ _ _ _ Na P3) as Q3. pose proof (acts_of _ _ _ _ Na P4) as Q4.
    destruct (str_lt j0 j1), (str_lt a0 a1); pose proof (power_sorted e _ _ _ _ _ _ _ _ m Ee He Q1 Q2 Q3 Q4) as Z; cbv zeta in Z; fold m1 in Z; lra. }
  intros m1 m2. split; [exact (A m)|]. rewrite <- (A m2). unfold m2.
  assert (B : forall k n p, k <> Abs -> only jh n k p -> actuator_to_joint _ c (joint_to_actuator _ c m) p = m p).
  { intros k n p Nk O. apply (main_joints kd js acts t jh ah c L H Sep m _ p (only_in _ _ _ _ O)); [reflexivity|]. cbn. intros Q. apply Nk. apply itf_inj. exact Q. }
  assert (NA : e <> Abs) by (destruct Ee as [->|[->| ->]]; discriminate).
  destruct P1 as [P1 P1'], P2 as [P2 P2']. rewrite (B Vel _ _ ltac:(discriminate) P1), (B Vel _ _ ltac:(discriminate) P1'), (B _ _ _ NA P2), (B _ _ _ NA P2'). reflexivity.
Qed.
Lemma main_declared k x y m j0 j1 js' a0 a1 acts' : handled kd k -> js = j0 :: j1 :: js' -> acts = a0 :: a1 :: acts' ->
  str_lt (ji_name _ j0) (ji_name _ j1) = true -> str_lt (ai_name _ a0) (ai_name _ a1) = true ->
  pair_of jh (ji_name _ j0) (ji_name _ j1) k x -> pair_of ah (ai_name _ a0) (ai_name _ a1) k y ->
  (actuator_to_joint _ c m (fst x), actuator_to_joint _ c m (snd x)) =
  law kd (ai_red _ a0) (ai_red _ a1) (ji_red _ j0) (ji_red _ j1) (ji_off _ j0) (ji_off _ j1) k (m (fst y)) (m (snd y)).
Proof.
  intros Hk E1 E2 L1 L2 P1 P2. apply joints_of in P1; [|intros Q; rewrite Q, str_lt_irrefl in L1; discriminate].
  apply acts_of in P2; [|intros Q; rewrite Q, str_lt_irrefl in L2; discriminate]. rewrite L1 in P1. rewrite L2 in P2. exact (law_at k _ _ _ _ m _ _ _ _ _ _ Hk P1 P2 E1 E2).
Qed.
(** declared in the opposite order: first declared parameters go to the second declared joint *)
Lemma main_swapped k x y m j0 j1 js' a0 a1 acts' : handled kd k -> js = j0 :: j1 :: js' -> acts = a0 :: a1 :: acts' ->
  str_lt (ji_name _ j1) (ji_name _ j0) = true -> str_lt (ai_name _ a0) (ai_name _ a1) = true ->
  pair_of jh (ji_name _ j0) (ji_name _ j1) k x -> pair_of ah (ai_name _ a0) (ai_name _ a1) k y ->
  (actuator_to_joint _ c m (snd x), actuator_to_joint _ c m (fst x)) =
  law kd (ai_red _ a0) (ai_red _ a1) (ji_red _ j0) (ji_red _ j1) (ji_off _ j0) (ji_off _ j1) k (m (fst y)) (m (snd y)).
Proof.
  intros Hk E1 E2 L1 L2 P1 P2. apply joints_of in P1; [|intros Q; rewrite Q, str_lt_irrefl in L1; discriminate].
  apply acts_of in P2; [|intros Q; rewrite Q, str_lt_irrefl in L2; discriminate]. rewrite (str_lt_asym _ _ L1) in P1. rewrite L2 in P2. exact (law_at k _ _ _ _ m _ _ _ _ _ _ Hk P1 P2 E1 E2).
Qed.
End Two.

(** the simple transmission *)
Lemma identical_all hs h : names_identical hs = true -> In h hs -> forall h', In h' hs -> h_prefix h' = h_prefix h.
Proof.
  destruct hs as [|x r]; [intros _ []|]. cbn [names_identical]. rewrite forallb_forall. intros F.
  assert (A : forall z, In z (x :: r) -> h_prefix z = h_prefix x) by (intros z [<-|Z]; [reflexivity|apply String.eqb_eq; apply F; exact Z]).
  intros I1 h' I2. rewrite (A h I1), (A h' I2). reflexivity.
Qed.
Lemma only_by hs n k p : names_identical hs = true -> only hs n k p -> by_interface hs (itf_name k) = [p].
Proof.
  intros Hn O. pose proof (only_in _ _ _ _ O) as I0. pose proof (identical_all hs _ Hn I0) as A. cbn [h_prefix] in A. unfold only in O. unfold by_interface.
  assert (E : find (fun h => String.eqb (h_itf h) (itf_name k)) hs = hd_error (filter (fun h => String.eqb (h_prefix h) n && String.eqb (h_itf h) (itf_name k)) hs)).
  { clear O I0 Hn. induction hs as [|h hs IH]; [reflexivity|]. cbn [find filter]. rewrite (A h (or_introl eq_refl)), String.eqb_refl. cbn [andb].
    destruct (String.eqb (h_itf h) (itf_name k)); [reflexivity|]. apply IH. intros h' Q. apply A. right. exact Q. }
  rewrite E, O. reflexivity.
Qed.
Lemma configure_identical red off jh ah c : configure Reals (Simple red off) jh ah = Some c -> names_identical jh = true /\ names_identical ah = true.
Proof.
  unfold configure. destruct (negb (nonempty jh)); [discriminate|]. destruct (negb (nonempty ah)); [discriminate|].
  destruct (names_identical jh); [|discriminate]. destruct (names_identical ah); [|discriminate]. auto.
Qed.
Lemma simple_at red off jh ah c k j a x y m : configure Reals (Simple red off) jh ah = Some c -> separate jh ah ->
  only jh j k x -> only ah a k y ->
  actuator_to_joint _ c m x = (match k with Eff | Tor | For => m y * red | Vel => m y / red | Pos | Abs => m y / red + off end)%R /\
  joint_to_actuator _ c m y = (match k with Eff | Tor | For => m x / red | Vel => m x * red | Pos => (m x - off) * red | Abs => m y end)%R.
Proof.
  intros H Sep O1 O2. pose proof (configure_wired _ _ _ _ H) as Wd. destruct (configure_identical _ _ _ _ _ H) as [N1 N2].
  pose proof (wr_js _ _ _ _ Wd k) as E1. pose proof (wr_as _ _ _ _ Wd k) as E2. rewrite (only_by _ _ _ _ N1 O1) in E1. rewrite (only_by _ _ _ _ N2 O2) in E2.
  assert (K : In k (itfs _ (Simple red off))) by (destruct k; cbn; tauto).
  rewrite (a2j_at c _ jh ah Wd Sep k m x K) by (rewrite E1; left; reflexivity). rewrite (j2a_at c _ jh ah Wd Sep k m y K) by (rewrite E2; left; reflexivity).
  rewrite E1, E2. destruct k; cbn [a2j1 j2a1]; stores; cbn; auto.
Qed.
Lemma main_simple k js acts t jh ah c e j a xv xe yv ye m : k = KSimple -> load Reals k js acts = Some t -> configure Reals t jh ah = Some c -> separate jh ah ->
  effort_like e -> only jh j Vel xv -> only jh j e xe -> only ah a Vel yv -> only ah a e ye ->
  let m1 := actuator_to_joint _ c m in let m2 := joint_to_actuator _ c m in
  (m1 xv * m1 xe = m yv * m ye)%R /\ (m2 yv * m2 ye = m xv * m xe)%R.
Proof.
  intros -> L H Sep Ee O1 O2 O3 O4 m1 m2. pose proof (load_sound _ _ _ _ L) as S. unfold load in L. destruct js as [|j0 js]; [discriminate|].
  unfold make_simple in L. destruct (is_zero _ _); [discriminate|]. injection L as <-. cbn [sound] in S.
  destruct (simple_at _ _ _ _ _ _ _ _ _ _ m H Sep O1 O3) as [A1 A2]. destruct (simple_at _ _ _ _ _ _ _ _ _ _ m H Sep O2 O4) as [B1 B2].
  unfold m1, m2. rewrite A1, A2, B1, B2. destruct Ee as [->|[->| ->]]; split; field; exact S.
Qed.
