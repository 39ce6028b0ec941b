From Coq Require Import QArith Qabs Qminmax List Bool Lqa Lia Setoid.
From Verif Require Import SatModel SatSpec SatProofs SatMain SatMain2.
Import ListNotations.
Open Scope Q_scope.

(** T4: position commands *)
Theorem pos_limit lims cur d dt out ans i :
  on_enforce lims cur d dt = (out, ans) -> 0 < dt -> (i < njoints lims)%nat -> sound (lim lims i) ->
  full lims (t_p cur) -> full lims (t_p d) -> ~ full lims (t_v d) ->
  q_ha (lim lims i) = false -> q_hd (lim lims i) = false ->
  within (lim lims i) (pos cur i) -> within (lim lims i) (pos cur i + now lims cur i * dt / 2) ->
  within (lim lims i) (pos out i).
Proof.
  intros E D L S F P V HA HD W1 W2 HP. rewrite (out_pos _ _ _ _ _ _ E) by auto.
  set (l := lim lims i) in *. set (p := pos cur i) in *. set (v := now lims cur i) in *. specialize (W1 HP). specialize (W2 HP).
  unfold fin. destruct (brakes lims cur d dt).
  - unfold brake. rewrite (given_p lims d P), (not_given_v lims d V). cbn [set_p j_p set_a j_a]. unfold brake_acc. fold l. rewrite HD, HA. fold p v.
    pose proof (qdiv_mul (- v) dt D) as K. setoid_replace (p + v * dt + (1 # 2) * (- v / dt) * dt * dt) with (p + v * dt / 2); [exact W2|].
    setoid_replace ((1 # 2) * (- v / dt) * dt * dt) with ((1 # 2) * ((- v / dt) * dt) * dt) by ring. rewrite K. field.
  - unfold one, joint_step. rewrite ahead_p. rewrite step_acc_eq. fold l. rewrite HA, HD. cbn [orb].
    fold p v. set (g := given_in (List.length lims) d). assert (GP : g_pos g = true) by apply (given_p lims d P).
    assert (GV : g_vel g = false) by apply (not_given_v lims d V).
    set (s0 := start_joint g d i). assert (V0 : j_v s0 = 0) by (unfold s0; cbn; unfold g in GV; cbn in GV; rewrite GV; reflexivity).
    assert (G1 : exists c, q_minp l <= c <= q_maxp l /\ j_p (step_position g l p dt s0) == c /\
       (j_v (step_position g l p dt s0) = (j_p (step_position g l p dt s0) - p) / dt \/
        (is_tiny (j_p (step_position g l p dt s0) - p) = true /\ j_v (step_position g l p dt s0) = 0))).
    { unfold step_position. rewrite GP, HP. cbv zeta. set (c := qclamp (j_p s0) (q_minp l) (q_maxp l)).
      assert (C : q_minp l <= c <= q_maxp l).
      { unfold c. destruct S as (S & _). specialize (S HP). destruct (qclamp_cases (j_p s0) _ _ S) as [[X Y]|[[X Y]|(X & Y & Y')]]; [rewrite Y|rewrite Y|rewrite Y']; split; lra. }
      exists c. destruct (negb (Qeq_bool c (j_p s0))) eqn:Q.
      - cbn [set_p enforced j_p j_v]. rewrite V0. change (is_tiny 0) with true. rewrite andb_true_r.
        destruct (is_tiny (c - p)) eqn:T; cbn; repeat split; try apply C; try reflexivity; auto.
      - apply negb_false_iff, Qeq_bool_iff in Q. rewrite V0. change (is_tiny 0) with true. rewrite andb_true_r.
        destruct (is_tiny (j_p s0 - p)) eqn:T; cbn; repeat split; try apply C; try (symmetry; exact Q); auto. }
    destruct G1 as (c & C & EC & VC). set (s1 := step_position g l p dt s0) in *.
    unfold step_velocity. destruct (q_hv l) eqn:HV; [|rewrite EC; exact C]. cbv zeta.
    assert (X : j_v (if is_tiny (j_v s1) then set_v s1 ((j_p s1 - p) / dt) else s1) = (j_p s1 - p) / dt).
    { destruct VC as [VC|[T VC]]; rewrite VC.
      - destruct (is_tiny _); [reflexivity|exact VC].
      - reflexivity. }
    rewrite X. set (x := (j_p s1 - p) / dt) in *. pose proof (qdiv_mul (j_p s1 - p) dt D) as K. fold x in K.
    destruct (qlt (q_maxv l) (Qabs x)) eqn:LT.
    + rewrite GP. cbn [set_p set_a set_v enforced j_p j_v]. apply qlt_t in LT. assert (M : 0 <= q_maxv l) by (apply S, HV).
      destruct (qcs_cases (q_maxv l) x M) as [[Y Y2]|[Y Y2]]; rewrite Y2; destruct (qabs_cases x) as [[Z Z2]|[Z Z2]]; try lra; rewrite Z2 in LT; split; nra.
    + destruct (is_tiny (j_v s1)); cbn; rewrite EC; exact C.
Qed.

Lemma full_dec lims xs : full lims xs \/ ~ full lims xs.
Proof. unfold full. destruct (Nat.eq_dec (List.length xs) (List.length lims)); auto. Qed.

Lemma rate_ok_eq l dt v w w' : w == w' -> rate_ok l dt v w -> rate_ok l dt v w'.
Proof. intros E (A & B & C). unfold rate_ok. repeat split; intros; rewrite <- E; [apply A|apply B|apply C]; auto; rewrite E; auto. Qed.

(** the state before the plan-ahead step, for a command that respects the other limits *)
Lemma before_ahead lims cur d dt i :
  0 < dt -> (i < njoints lims)%nat -> sound (lim lims i) -> full lims (t_v d) -> ~ full lims (t_a d) ->
  (full lims (t_p d) -> within (lim lims i) (pos d i)) ->
  (noticeable (vel d i) \/ (vel d i == 0 /\ full lims (t_p d) /\ pos d i == pos cur i)) ->
  speed_ok (lim lims i) (vel d i) -> rate_ok (lim lims i) dt (now lims cur i) (vel d i) ->
  let g := given_in (List.length lims) d in
  let s := step_acceleration g (lim lims i) (pos cur i) (now lims cur i) dt (step_velocity g (lim lims i) (pos cur i) (now lims cur i) dt (step_position g (lim lims i) (pos cur i) dt (start_joint g d i))) in
  j_v s == vel d i /\ j_enf s = false.
Proof.
  intros D L S V A W N SP R g s.
  set (s0 := start_joint g d i) in *.
  assert (V0 : j_v s0 = vel d i) by (unfold s0, g; cbn; unfold has; rewrite V, Nat.eqb_refl; reflexivity).
  assert (P0 : g_pos g = true -> full lims (t_p d) /\ j_p s0 = pos d i).
  { intro G. unfold g in G. cbn in G. unfold has in G. apply Nat.eqb_eq in G. split; [exact G|]. unfold s0, g. cbn. unfold has. rewrite G, Nat.eqb_refl. reflexivity. }
  assert (N0 : noticeable (j_v s0) \/ (j_v s0 == 0 /\ g_pos g = true /\ j_p s0 == pos cur i)).
  { rewrite V0. destruct N as [N|(N & F & Q)]; [auto|]. right. pose proof (given_p lims d F) as G. destruct (P0 G) as (_ & ->). auto. }
  assert (E1 : step_position g (lim lims i) (pos cur i) dt s0 = s0).
  { apply pos_calm; auto. intro G. destruct (P0 G) as (F & ->). auto. }
  pose proof (vel_calm g (lim lims i) (pos cur i) (now lims cur i) dt s0 D N0) as E2. rewrite V0 in E2. specialize (E2 SP). cbv zeta in E2.
  unfold s. rewrite E1. set (s2 := step_velocity _ _ _ _ _ s0) in *. destruct E2 as (E2 & _ & A2 & F2).
  destruct (acc_calm g (lim lims i) (pos cur i) (now lims cur i) dt s2 D) as (E3 & _ & F3).
  - rewrite A2. apply start_a, A.
  - apply (rate_ok_eq _ _ _ (vel d i)); [symmetry; exact E2|exact R].
  - split; [rewrite E3; exact E2|]. rewrite F3, F2. reflexivity.
Qed.

Lemma harmless_joint lims cur d dt i :
  0 < dt -> (i < njoints lims)%nat -> sound (lim lims i) -> full lims (t_v d) -> ~ full lims (t_a d) -> harmless lims cur d dt i ->
  j_enf (one lims cur d dt i) = false /\ j_v (one lims cur d dt i) == vel d i.
Proof.
  intros D L S V A (W & N & SP & R & RM & WV).
  destruct (before_ahead lims cur d dt i D L S V A W N SP R) as (E & F).
  unfold one, joint_step. set (g := given_in (List.length lims) d) in *. set (s := step_acceleration _ _ _ _ _ _) in *.
  set (l := lim lims i) in *. set (p := pos cur i) in *.
  rewrite ahead_eq. destruct (q_hp l) eqn:H; [|auto].
  assert (T : tosafe g l p dt s = s).
  { unfold tosafe. destruct (g_vel g && negb (g_pos g))%bool eqn:G; [|reflexivity]. cbv zeta. apply andb_true_iff in G. destruct G as [_ G].
    apply negb_true_iff in G. assert (NF : ~ full lims (t_p d)) by (intro X; apply given_p in X; unfold g in G; congruence).
    specialize (WV NF H). rewrite <- E in WV. destruct S as (S & _). specialize (S H).
    destruct (qclamp_cases (p + j_v s * dt) _ _ S) as [[? ?]|[[? ?]|(? & ? & C)]]; try (exfalso; lra).
    rewrite C. rewrite (proj2 (Qeq_bool_iff _ _) (Qeq_refl _)). reflexivity. }
  rewrite T. specialize (RM H). 
  assert (U : unsafe l p dt s = false).
  { destruct (unsafe l p dt s) eqn:U; [|reflexivity]. exfalso.
    assert (WP : within l p).
    { intros _. destruct S as (_ & _ & SA & SD). unfold stopping in RM. destruct (q_hd l); [specialize (SD eq_refl); destruct RM; split; nra|].
      destruct (q_ha l); [specialize (SA eq_refl); destruct RM; split; nra|]. pose proof (Qabs_nonneg (vel d i)). destruct RM; split; nra. }
    apply (unsafe_iff l p dt s (stop_rate l dt s) S D (Qeq_refl _) (fun _ => WP) H) in U.
    unfold stop_rate in U. unfold stopping in RM. destruct S as (_ & _ & SA & SD).
    destruct (WP H) as [WP1 WP2].
    destruct (q_hd l); [specialize (SD eq_refl); rewrite E in U; destruct RM; destruct U as [[? ?]|[? ?]]; nra|].
    destruct (q_ha l); [specialize (SA eq_refl); rewrite E in U; destruct RM; destruct U as [[? ?]|[? ?]]; nra|].
    rewrite abs_div_pos in U by exact D. pose proof (qdiv_mul (Qabs (j_v s)) dt D) as K. set (x := Qabs (j_v s) / dt) in *.
    rewrite <- E in RM. destruct RM as [M1 M2].
    destruct (qabs_cases (j_v s)) as [[Y Y2]|[Y Y2]]; rewrite Y2 in K, M1, M2; destruct U as [[? U]|[? U]]; try lra.
    - assert (j_v s == - (x * dt)) by lra. assert (0 < x) by nra. rewrite H1 in U. assert (2 * x * (p - q_minp l) >= 2 * x * (x * dt * dt)) by nra. nra.
    - assert (j_v s == (x * dt)) by lra. assert (0 < x) by nra. rewrite H1 in U. assert (x * (q_maxp l - p) >= x * (x * dt * dt)) by nra. nra. }
  rewrite U. auto.
Qed.

(** T7 *)
Theorem harmless_passes lims cur d dt :
  0 < dt -> full lims (t_p cur) -> full lims (t_v d) -> ~ full lims (t_a d) ->
  (forall i, (i < njoints lims)%nat -> sound (lim lims i) /\ harmless lims cur d dt i) ->
  exists out, on_enforce lims cur d dt = (out, false) /\ t_p out = t_p d /\ forall i, (i < njoints lims)%nat -> vel out i == vel d i.
Proof.
  intros D F V A H. destruct (on_enforce lims cur d dt) as [out ans] eqn:E. exists out.
  pose proof (out_ans _ _ _ _ _ _ E D F (or_intror V)) as AN.
  assert (Z : ans = false).
  { rewrite AN. destruct (existsb _ _) eqn:X; [|reflexivity]. apply in_one in X. destruct X as (i & L & X). destruct (H i L) as (S & HL).
    destruct (harmless_joint lims cur d dt i D L S V A HL) as (Y & _). congruence. }
  rewrite Z in *. split; [reflexivity|].
  destruct (quiet_unchanged _ _ _ _ _ E D F (or_intror V)) as (P & _). split; [exact P|].
  intros i L. rewrite (out_vel _ _ _ _ _ _ E) by auto. unfold fin. rewrite no_ans_no_brake by (symmetry; exact AN).
  destruct (H i L) as (S & HL). apply (harmless_joint lims cur d dt i D L S V A HL).
Qed.

(** T9 *)
Theorem near_limit_brakes lims cur d dt out ans k r :
  on_enforce lims cur d dt = (out, ans) -> 0 < dt -> (forall i, (i < njoints lims)%nat -> sound (lim lims i)) ->
  full lims (t_p cur) -> full lims (t_p d) -> full lims (t_v d) -> ~ full lims (t_a d) ->
  (k < njoints lims)%nat -> q_hp (lim lims k) = true -> within (lim lims k) (pos cur k) -> within (lim lims k) (pos d k) ->
  noticeable (vel d k) -> speed_ok (lim lims k) (vel d k) -> rate_ok (lim lims k) dt (now lims cur k) (vel d k) ->
  stopping (lim lims k) = Some r ->
  (0 < vel d k /\ r * (q_maxp (lim lims k) - pos cur k) < vel d k * vel d k) \/
  (vel d k < 0 /\ 2 * r * (pos cur k - q_minp (lim lims k)) < vel d k * vel d k) ->
  ans = true /\ forall i, (i < njoints lims)%nat -> braked (lim lims i) dt (now lims cur i) (vel out i).
Proof.
  intros E D S F P V A L HP WC WD N SP R ST X.
  assert (B : j_brake (one lims cur d dt k) = true).
  { destruct (before_ahead lims cur d dt k D L (S k L) V A (fun _ => WD) (or_introl N) SP R) as (EV & _).
    unfold one, joint_step. set (g := given_in (List.length lims) d) in *. set (s := step_acceleration _ _ _ _ _ _) in *.
    rewrite ahead_eq, HP. assert (T : tosafe g (lim lims k) (pos cur k) dt s = s).
    { unfold tosafe. unfold g. rewrite (given_p lims d P), andb_false_r. reflexivity. }
    rewrite T. assert (U : unsafe (lim lims k) (pos cur k) dt s = true); [|rewrite U; reflexivity].
    apply (unsafe_iff _ _ _ _ r (S k L) D); auto.
    - unfold stopping in ST. unfold stop_rate. destruct (q_hd _); [injection ST as <-; reflexivity|]. destruct (q_ha _); [injection ST as <-; reflexivity|discriminate].
    - rewrite EV. destruct X; auto. }
  assert (BB : brakes lims cur d dt = true) by (unfold brakes; apply in_one; exists k; auto).
  split.
  - rewrite (out_ans _ _ _ _ _ _ E) by auto. apply in_one. exists k. split; [exact L|]. apply brake_enf; [reflexivity|exact B].
  - intros i LI. rewrite (out_vel _ _ _ _ _ _ E) by auto. unfold fin. rewrite BB, brake_v by (apply given_v, V). apply brake_braked; auto.
Qed.
