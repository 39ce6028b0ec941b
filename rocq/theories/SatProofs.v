From Coq Require Import QArith Qabs Qminmax List Bool Lqa Lia Setoid.
From Verif Require Import SatModel SatSpec.
Import ListNotations.
Open Scope Q_scope.

Lemma qlt_t a b : qlt a b = true <-> a < b.
Proof.
  unfold qlt. destruct (Qle_bool b a) eqn:E; cbn; split; intro H; try discriminate.
  - apply Qle_bool_iff in E. exfalso. lra.
  - destruct (Qlt_le_dec a b) as [X|X]; [exact X|]. apply Qle_bool_iff in X. congruence.
  - reflexivity.
Qed.
Lemma qlt_f a b : qlt a b = false <-> b <= a.
Proof.
  unfold qlt. destruct (Qle_bool b a) eqn:E; cbn; split; intro H; try discriminate; auto.
  - apply Qle_bool_iff. exact E.
  - apply Qle_bool_iff in H. congruence.
Qed.
Lemma qcs m x : 0 <= m -> Qabs (qcopysign m x) == m.
Proof.
  intro H. unfold qcopysign. destruct (qlt x 0).
  - rewrite Qabs_opp. rewrite Qabs_Qabs || rewrite (Qabs_pos (Qabs m)) by apply Qabs_nonneg. apply Qabs_pos, H.
  - rewrite (Qabs_pos (Qabs m)) by apply Qabs_nonneg. apply Qabs_pos, H.
Qed.
Lemma qcs_cases m x : 0 <= m -> (x < 0 /\ qcopysign m x == - m) \/ (0 <= x /\ qcopysign m x == m).
Proof.
  intro H. unfold qcopysign. destruct (qlt x 0) eqn:E.
  - left. split; [apply qlt_t, E|]. rewrite Qabs_pos by exact H. reflexivity.
  - right. split; [apply qlt_f, E|]. apply Qabs_pos, H.
Qed.
Lemma qabs_cases x : (x < 0 /\ Qabs x == - x) \/ (0 <= x /\ Qabs x == x).
Proof.
  destruct (Qlt_le_dec x 0) as [H|H].
  - left. split; [exact H|]. apply Qabs_neg. lra.
  - right. split; [exact H|]. apply Qabs_pos, H.
Qed.
Lemma qclamp_cases v lo hi : lo <= hi ->
  (v < lo /\ qclamp v lo hi = lo) \/ (hi < v /\ qclamp v lo hi = hi) \/ (lo <= v /\ v <= hi /\ qclamp v lo hi = v).
Proof.
  intro H. unfold qclamp. destruct (qlt v lo) eqn:A.
  - left. split; [apply qlt_t, A|reflexivity].
  - apply qlt_f in A. right. destruct (qlt hi v) eqn:B.
    + left. split; [apply qlt_t, B|reflexivity].
    + right. apply qlt_f in B. auto.
Qed.
Lemma tiny_pos : 0 < tiny. Proof. reflexivity. Qed.
Lemma is_tiny_t x : is_tiny x = true <-> Qabs x <= tiny.
Proof. unfold is_tiny. apply Qle_bool_iff. Qed.
Lemma is_tiny_f x : is_tiny x = false <-> tiny < Qabs x.
Proof.
  unfold is_tiny. destruct (Qle_bool (Qabs x) tiny) eqn:E; split; intro H; try discriminate; auto.
  - apply Qle_bool_iff in E. exfalso. lra.
  - destruct (Qlt_le_dec tiny (Qabs x)) as [X|X]; [exact X|]. apply Qle_bool_iff in X. congruence.
Qed.
Lemma qdiv_mul x dt : 0 < dt -> x / dt * dt == x.
Proof. intro H. field. lra. Qed.
Lemma qmul_div x dt : 0 < dt -> x * dt / dt == x.
Proof. intro H. field. lra. Qed.

Ltac qmin a b := destruct (Q.min_spec a b) as [[? ?]|[? ?]].
Ltac qsimp := repeat match goal with
  | H : qlt _ _ = true |- _ => apply qlt_t in H
  | H : qlt _ _ = false |- _ => apply qlt_f in H
  | H : is_tiny _ = true |- _ => apply is_tiny_t in H
  | H : is_tiny _ = false |- _ => apply is_tiny_f in H
  | H : Qeq_bool _ _ = true |- _ => apply Qeq_bool_iff in H
  | H : negb _ = true |- _ => apply negb_true_iff in H
  | H : negb _ = false |- _ => apply negb_false_iff in H
  | H : (_ && _)%bool = true |- _ => apply andb_true_iff in H; destruct H
  | H : (_ || _)%bool = false |- _ => apply orb_false_iff in H; destruct H
  end.

(** x lies between 0 and y *)
Definition btw (a x b : Q) : Prop := (a <= x /\ x <= b) \/ (b <= x /\ x <= a).
Lemma btw_refl a b : btw a b b. Proof. unfold btw. destruct (Qlt_le_dec a b); [left|right]; lra. Qed.
Lemma btw_eq a x y b : x == y -> btw a x b -> btw a y b. Proof. unfold btw. intros E [H|H]; [left|right]; lra. Qed.
Lemma btw_abs a x b m : Qabs a <= m -> Qabs b <= m -> btw a x b -> Qabs x <= m.
Proof.
  intros A B H. apply Qabs_Qle_condition in A. apply Qabs_Qle_condition in B. apply Qabs_Qle_condition.
  unfold btw in H. lra.
Qed.

Section J.
Variables (g : given) (l : qlim) (p v dt : Q).
Hypothesis dtp : 0 < dt.
Hypothesis snd0 : sound l.

(** after the velocity step *)
Lemma vel_bound s : q_hv l = true -> Qabs (j_v (step_velocity g l p v dt s)) <= q_maxv l.
Proof.
  intro H. destruct snd0 as (_ & S & _). specialize (S H). unfold step_velocity. rewrite H.
  set (s' := if is_tiny (j_v s) then _ else s). destruct (qlt (q_maxv l) (Qabs (j_v s'))) eqn:E; qsimp.
  - destruct (g_pos g); cbn; rewrite qcs by exact S; lra.
  - exact E.
Qed.
(** the acceleration known after it is zero or the change of velocity *)
Definition acc_ok (s : js) : Prop := j_a s == 0 \/ j_a s * dt == j_v s - v.
Lemma acc_pos s : j_a (step_position g l p dt s) = j_a s.
Proof.
  unfold step_position. destruct (g_pos g); [|reflexivity]. destruct (q_hp l).
  - destruct (negb (Qeq_bool (qclamp (j_p s) (q_minp l) (q_maxp l)) (j_p s))); match goal with |- context[if ?b then set_v _ _ else _] => destruct b end; reflexivity.
  - match goal with |- context[if ?b then set_v _ _ else _] => destruct b end; reflexivity.
Qed.
Lemma acc_vel s : j_a s == 0 -> acc_ok (step_velocity g l p v dt s).
Proof.
  intro H. unfold step_velocity, acc_ok. destruct (q_hv l); [|left; exact H].
  destruct (is_tiny (j_v s)); match goal with |- context[if qlt ?a ?b then _ else _] => destruct (qlt a b) end;
   try (left; exact H); right; destruct (g_pos g); cbn; apply qdiv_mul, dtp.
Qed.
(** the acceleration step: the new velocity lies between the measured and the wanted one, and changes as permitted *)
Notation vdiff_ok := (rate_ok l dt v).


Definition a0 (s : js) : Q := if is_tiny (j_a s) then (j_v s - v) / dt else j_a s.
Definition slowing (a : Q) : bool := (qlt a 0 && qlt 0 v) || (qlt 0 a && qlt v 0).
Definition which (a : Q) : option Q :=
  if slowing a && q_hd l then Some (q_maxd l) else if q_ha l then Some (q_maxa l) else None.

Lemma step_acc_eq s :
  step_acceleration g l p v dt s =
    if q_ha l || q_hd l then
      let s1 := if is_tiny (j_a s) then set_a s ((j_v s - v) / dt) else s in
      match which (a0 s) with
      | Some m => if qlt m (Qabs (a0 s))
                  then let s2 := set_v (enforced (set_a s1 (qcopysign m (a0 s)))) (v + qcopysign m (a0 s) * dt) in
                       if g_pos g then set_p s2 (p + v * dt + (1 # 2) * qcopysign m (a0 s) * dt * dt) else s2
                  else s1
      | None => s1
      end
    else s.
Proof.
  unfold step_acceleration. destruct (q_ha l || q_hd l); [|reflexivity]. cbv zeta.
  set (s1 := if is_tiny (j_a s) then _ else s).
  assert (E : j_a s1 = a0 s) by (unfold s1, a0; destruct (is_tiny (j_a s)); reflexivity).
  rewrite E. change ((qlt (a0 s) 0 && qlt 0 v || qlt 0 (a0 s) && qlt v 0))%bool with (slowing (a0 s)).
  unfold which.
  destruct (slowing (a0 s) && q_hd l)%bool; cbn [negb].
  - rewrite andb_false_r. unfold apply_limit. rewrite E. destruct (qlt (q_maxd l) (Qabs (a0 s))); [|reflexivity]. cbn. destruct (g_pos g); reflexivity.
  - rewrite andb_true_r. destruct (q_ha l); [|reflexivity]. unfold apply_limit. rewrite E.
    destruct (qlt (q_maxa l) (Qabs (a0 s))); [|reflexivity]. cbn. destruct (g_pos g); reflexivity.
Qed.

Lemma which_pos a m : which a = Some m -> 0 < m.
Proof.
  destruct snd0 as (_ & _ & A & D). unfold which. destruct (slowing a && q_hd l)%bool eqn:E.
  - qsimp. intro X. injection X as <-. auto.
  - destruct (q_ha l); intro X; [injection X as <-; auto|discriminate].
Qed.

(** with an acceleration that is the change of velocity, the step moves the wanted velocity towards the measured one *)
Lemma a0_dt s : acc_ok s -> a0 s * dt == j_v s - v.
Proof.
  intro H. unfold a0. destruct (is_tiny (j_a s)) eqn:E; [apply qdiv_mul, dtp|]. destruct H as [H|H]; [|exact H].
  qsimp. rewrite H in E. discriminate.
Qed.
Lemma acc_btw s : acc_ok s -> btw v (j_v (step_acceleration g l p v dt s)) (j_v s).
Proof.
  intro H. pose proof (a0_dt s H) as X. rewrite step_acc_eq.
  destruct (q_ha l || q_hd l)%bool; [|apply btw_refl]. cbv zeta.
  set (s1 := if is_tiny (j_a s) then _ else s). assert (E : j_v s1 = j_v s) by (unfold s1; destruct (is_tiny (j_a s)); reflexivity).
  destruct (which (a0 s)) as [m|] eqn:W; [|rewrite E; apply btw_refl].
  apply which_pos in W. destruct (qlt m (Qabs (a0 s))) eqn:C; [|rewrite E; apply btw_refl]. apply qlt_t in C.
  assert (Z : btw v (v + qcopysign m (a0 s) * dt) (j_v s)).
  { unfold btw. destruct (qcs_cases m (a0 s)) as [[Y Y2]|[Y Y2]]; [lra| |]; destruct (qabs_cases (a0 s)) as [[Y' R]|[Y' R]]; try lra; rewrite R in C; rewrite Y2.
    - right. assert (a0 s * dt <= - m * dt) by (apply Qmult_le_compat_r; lra). assert (m * dt >= 0) by (apply Qmult_le_0_compat; lra). lra.
    - left. assert (m * dt <= a0 s * dt) by (apply Qmult_le_compat_r; lra). assert (m * dt >= 0) by (apply Qmult_le_0_compat; lra). lra. }
  destruct (g_pos g); exact Z.
Qed.

Lemma sign_same x a : 0 < dt -> a * dt == x -> (a < 0 <-> x < 0) /\ (0 < a <-> 0 < x).
Proof.
  intros D E. repeat split; intro H; nra.
Qed.
Lemma slow_iff a x : a * dt == x -> slowing a = true <-> x * v < 0.
Proof.
  intro E. destruct (sign_same x a dtp E) as [N P]. unfold slowing. rewrite orb_true_iff, !andb_true_iff, !qlt_t.
  rewrite N, P. split; [intros [[]|[]]; nra|]. intro H. destruct (Qlt_le_dec x 0) as [X|X]; [left|right].
  - split; [exact X|]. destruct (Qlt_le_dec 0 v) as [V|V]; [exact V|]. exfalso. nra.
  - assert (0 < x) by (destruct (Qlt_le_dec 0 x) as [V|V]; [exact V|]; assert (x == 0) by lra; rewrite H0 in H; lra).
    split; [assumption|]. destruct (Qlt_le_dec v 0) as [V|V]; [exact V|]. exfalso. nra.
Qed.
Lemma abs_scale x a : a * dt == x -> Qabs x == Qabs a * dt.
Proof. intro E. rewrite <- E, Qabs_Qmult. rewrite (Qabs_pos dt) by lra. reflexivity. Qed.

Lemma vdiff_of a w : a * dt == w - v ->
  (forall m, which a = Some m -> Qabs a <= m) -> vdiff_ok w.
Proof.
  intros E M. pose proof (slow_iff a (w - v) E) as S. pose proof (abs_scale (w - v) a E) as B.
  unfold which in M. repeat split; intros.
  - rewrite B. apply Qmult_le_compat_r; [|lra]. destruct (slowing a) eqn:SL; [pose proof (proj1 S eq_refl); lra|]. cbn in M. rewrite H in M. apply M. reflexivity.
  - rewrite B. apply Qmult_le_compat_r; [|lra]. apply S in H0. rewrite H0, H in M. cbn in M. apply M. reflexivity.
  - rewrite B. apply Qmult_le_compat_r; [|lra]. rewrite H0, andb_false_r, H in M. apply M. reflexivity.
Qed.
Lemma acc_diff s : acc_ok s -> vdiff_ok (j_v (step_acceleration g l p v dt s)).
Proof.
  intro H. pose proof (a0_dt s H) as X. rewrite step_acc_eq.
  destruct (q_ha l || q_hd l)%bool eqn:L.
  2:{ apply orb_false_iff in L. destruct L as [L1 L2]. repeat split; congruence. }
  cbv zeta. set (s1 := if is_tiny (j_a s) then _ else s). assert (E : j_v s1 = j_v s) by (unfold s1; destruct (is_tiny (j_a s)); reflexivity).
  destruct (which (a0 s)) as [m|] eqn:W.
  2:{ rewrite E. apply (vdiff_of _ _ X). intros m Y. congruence. }
  destruct (qlt m (Qabs (a0 s))) eqn:C.
  2:{ rewrite E. apply qlt_f in C. apply (vdiff_of _ _ X). intros m' Y. congruence. }
  pose proof (which_pos _ _ W) as MP.
  assert (Z : vdiff_ok (v + qcopysign m (a0 s) * dt)).
  { apply (vdiff_of (qcopysign m (a0 s))); [ring|]. intros m' W'. rewrite qcs by lra.
    apply qlt_t in C.
    assert (SS : slowing (qcopysign m (a0 s)) = slowing (a0 s)).
    { unfold slowing. f_equal; f_equal; apply eq_true_iff_eq; rewrite !qlt_t;
      (destruct (qcs_cases m (a0 s)) as [[Y Y2]|[Y Y2]]; [lra| |]; destruct (qabs_cases (a0 s)) as [[Y' R]|[Y' R]]; split; intro; lra). }
    unfold which in *. rewrite SS in W'. assert (m' = m) by congruence. subst. lra. }
  destruct (g_pos g); exact Z.
Qed.

(** braking *)
Lemma brake_cases : (0 <= v -> brake_acc l v dt * dt == - Qmin v (match stopping l with Some r => r * dt | None => v end)) /\
  (v <= 0 -> brake_acc l v dt * dt == Qmin (- v) (match stopping l with Some r => r * dt | None => - v end)).
Proof.
  assert (K : - v / dt * dt == - v) by (apply qdiv_mul, dtp).
  assert (G : forall r, 0 < r -> let b := qcopysign (Qmin (Qabs (- v / dt)) r) (- v / dt) in
     (0 <= v -> b * dt == - Qmin v (r * dt)) /\ (v <= 0 -> b * dt == Qmin (- v) (r * dt))).
  { intros r R b. set (a := - v / dt) in *.
    pose proof (abs_scale (- v) a K) as B. rewrite Qabs_opp in B.
    assert (MN : Qmin (Qabs a) r * dt == Qmin (Qabs v) (r * dt)).
    { qmin (Qabs a) r; rewrite H0; qmin (Qabs v) (r * dt); rewrite H2; try nra. }
    assert (M0 : 0 <= Qmin (Qabs a) r) by (apply Q.min_glb; [apply Qabs_nonneg|lra]).
    destruct (sign_same (- v) a dtp K) as [N P].
    split; intro V; unfold b; destruct (qcs_cases _ a M0) as [[Y ->]|[Y ->]].
    - setoid_replace (- Qmin (Qabs a) r * dt) with (- (Qmin (Qabs a) r * dt)) by ring. rewrite MN, (Qabs_pos v V). reflexivity.
    - assert (v == 0) by nra. rewrite MN. rewrite (Qabs_pos v V), H. qmin 0 (r * dt); rewrite H1; nra.
    - assert (v == 0) by nra. setoid_replace (- Qmin (Qabs a) r * dt) with (- (Qmin (Qabs a) r * dt)) by ring. rewrite MN, (Qabs_neg v V), H.
      qmin (- 0) (r * dt); rewrite H1; nra.
    - rewrite MN, (Qabs_neg v V). reflexivity. }
  destruct snd0 as (_ & _ & A & D). unfold brake_acc, stopping.
  destruct (q_hd l); [apply G; auto|]. destruct (q_ha l); [apply G; auto|].
  split; intro V; [rewrite Q.min_id; rewrite K; reflexivity|rewrite Q.min_id; exact K].
Qed.
Lemma brake_braked : braked l dt v (v + brake_acc l v dt * dt).
Proof.
  destruct brake_cases as [P N]. unfold braked. destruct (stopping l) as [r|].
  - split; intro V; [rewrite (P V)|rewrite (N V)]; ring.
  - destruct (Qlt_le_dec v 0); [rewrite N by lra|rewrite P by lra]; rewrite Q.min_id; ring.
Qed.
Lemma braked_btw w : braked l dt v w -> btw v w 0.
Proof.
  unfold braked, btw, stopping. destruct snd0 as (_ & _ & A & D).
  assert (G : forall r, 0 < r -> (0 <= v -> w == v - Qmin v (r * dt)) /\ (v <= 0 -> w == v + Qmin (- v) (r * dt)) -> v <= w <= 0 \/ 0 <= w <= v).
  { intros r R [P N]. assert (0 < r * dt) by nra. destruct (Qlt_le_dec v 0) as [X|X].
    - left. specialize (N ltac:(lra)). qmin (- v) (r * dt); rewrite H1 in N; lra.
    - right. specialize (P X). qmin v (r * dt); rewrite H1 in P; lra. }
  destruct (q_hd l); [apply G; auto|]. destruct (q_ha l); [apply G; auto|].
  intro H. destruct (Qlt_le_dec v 0); [left|right]; lra.
Qed.
Lemma braked_diff w : braked l dt v w -> vdiff_ok w.
Proof.
  intro H. pose proof (braked_btw w H) as B. unfold rate_ok, braked, stopping, btw in *. destruct snd0 as (_ & _ & A & D).
  assert (G : forall r, 0 < r -> (0 <= v -> w == v - Qmin v (r * dt)) /\ (v <= 0 -> w == v + Qmin (- v) (r * dt)) -> Qabs (w - v) <= r * dt).
  { intros r R [P N]. assert (0 < r * dt) by nra. apply Qabs_Qle_condition. destruct (Qlt_le_dec v 0) as [X|X].
    - specialize (N ltac:(lra)). qmin (- v) (r * dt); rewrite H2 in N; lra.
    - specialize (P X). qmin v (r * dt); rewrite H2 in P; lra. }
  assert (Z : 0 <= (w - v) * v -> w == v) by (intro; nra).
  destruct (q_hd l) eqn:HD.
  - repeat split; intros; try discriminate.
    + apply Z in H1. rewrite H1. setoid_replace (v - v) with 0 by ring. change (Qabs 0) with 0. specialize (A H0). nra.
    + apply G; auto.
  - repeat split; intros; try discriminate.
    + rewrite H0 in H. apply G; auto.
    + rewrite H0 in H. apply G; auto.
Qed.
End J.
