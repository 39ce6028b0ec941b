From Coq Require Import QArith Qabs Qminmax List Bool Lqa Lia Setoid.
From Verif Require Import SatModel SatSpec SatProofs SatMain.
Import ListNotations.
Open Scope Q_scope.

Lemma pos_brake g l p dt s : j_brake (step_position g l p dt s) = j_brake s.
Proof.
  unfold step_position. cbv zeta. destruct (g_pos g); [|reflexivity].
  repeat match goal with |- context[if ?b then _ else _] => destruct b end; reflexivity.
Qed.
Lemma vel_brake g l p v dt s : j_brake (step_velocity g l p v dt s) = j_brake s.
Proof.
  unfold step_velocity. cbv zeta. destruct (q_hv l); [|reflexivity].
  repeat match goal with |- context[if ?b then _ else _] => destruct b end; reflexivity.
Qed.
Lemma acc_brake g l p v dt s : j_brake (step_acceleration g l p v dt s) = j_brake s.
Proof.
  rewrite step_acc_eq. cbv zeta. destruct (_ || _)%bool; [|reflexivity].
  destruct (which l v (a0 v dt s)); repeat match goal with |- context[if ?b then _ else _] => destruct b end; reflexivity.
Qed.
Lemma brake_enf g l p v dt s : j_brake s = false -> j_brake (joint_step g l p v dt s) = true -> j_enf (joint_step g l p v dt s) = true.
Proof.
  intros H. unfold joint_step. set (x := step_acceleration _ _ _ _ _ _).
  assert (Z : j_brake x = false) by (unfold x; rewrite acc_brake, vel_brake, pos_brake; exact H).
  rewrite ahead_eq. 
  assert (Z' : j_brake (tosafe g l p dt x) = false) by
        (unfold tosafe; destruct (_ && _)%bool; [|exact Z]; cbv zeta; destruct (negb _); exact Z).
  destruct (q_hp l); [|congruence]. destruct (unsafe _ _ _ _); [reflexivity|congruence].
Qed.
Lemma start_enf g d i : j_enf (start_joint g d i) = false. Proof. reflexivity. Qed.
Lemma no_ans_no_brake lims cur d dt : existsb j_enf (map (one lims cur d dt) (seq 0 (List.length lims))) = false -> brakes lims cur d dt = false.
Proof.
  intro H. destruct (brakes lims cur d dt) eqn:B; [|reflexivity]. exfalso. apply in_one in B. destruct B as (i & L & B).
  assert (X : existsb j_enf (map (one lims cur d dt) (seq 0 (List.length lims))) = true); [|congruence].
  apply in_one. exists i. split; [exact L|]. apply brake_enf; [reflexivity|exact B].
Qed.

(** a step that enforces nothing *)
Lemma pos_quiet g l p dt s : j_enf (step_position g l p dt s) = false ->
  j_enf s = false /\ j_p (step_position g l p dt s) = j_p s /\ j_a (step_position g l p dt s) = j_a s /\
  (noticeable (j_v s) -> j_v (step_position g l p dt s) = j_v s).
Proof.
  unfold step_position. cbv zeta. destruct (g_pos g); [|auto]. 
  set (s1 := if q_hp l then _ else s). intro H.
  assert (X : s1 = s).
  { unfold s1 in *. destruct (q_hp l); [|reflexivity]. destruct (negb _); [|reflexivity]. destruct (_ && _)%bool in H; cbn in H; discriminate. }
  rewrite X in *. destruct (negb (is_tiny (j_p s - p)) && is_tiny (j_v s))%bool eqn:T; cbn in *; repeat split; auto.
  intro N. qsimp. unfold noticeable in N. unfold tiny in *. exfalso. lra.
Qed.
Lemma vel_quiet g l p v dt s : j_enf (step_velocity g l p v dt s) = false ->
  j_enf s = false /\ j_p (step_velocity g l p v dt s) = j_p s /\ j_a (step_velocity g l p v dt s) = j_a s /\
  (noticeable (j_v s) -> j_v (step_velocity g l p v dt s) = j_v s).
Proof.
  unfold step_velocity. cbv zeta. destruct (q_hv l); [|auto]. destruct (is_tiny (j_v s)) eqn:T.
  - destruct (qlt _ _); [destruct (g_pos g); cbn; discriminate|]. cbn. intro H. repeat split; auto. intro N. qsimp. unfold noticeable, tiny in *. exfalso. lra.
  - destruct (qlt _ _); [destruct (g_pos g); cbn; discriminate|]. auto.
Qed.
Lemma acc_quiet g l p v dt s : j_enf (step_acceleration g l p v dt s) = false ->
  j_enf s = false /\ j_p (step_acceleration g l p v dt s) = j_p s /\ j_v (step_acceleration g l p v dt s) = j_v s /\
  (noticeable (j_a s) \/ (q_ha l = false /\ q_hd l = false) -> j_a (step_acceleration g l p v dt s) = j_a s).
Proof.
  rewrite step_acc_eq. cbv zeta. destruct (q_ha l || q_hd l)%bool eqn:B; [|auto].
  assert (K : noticeable (j_a s) \/ (q_ha l = false /\ q_hd l = false) -> is_tiny (j_a s) = false).
  { intros [N|[N M]]; [|rewrite N, M in B; discriminate]. apply is_tiny_f. exact N. }
  assert (Q : forall s1, s1 = (if is_tiny (j_a s) then set_a s ((j_v s - v) / dt) else s) -> j_enf s1 = false ->
     j_enf s = false /\ j_p s1 = j_p s /\ j_v s1 = j_v s /\ (noticeable (j_a s) \/ (q_ha l = false /\ q_hd l = false) -> j_a s1 = j_a s)).
  { intros s1 -> H. destruct (is_tiny (j_a s)); cbn in *; repeat split; auto. intro X. apply K in X. discriminate. }
  destruct (which l v (a0 v dt s)) as [m|]; [|intro; apply Q; auto].
  destruct (qlt m (Qabs (a0 v dt s))); [destruct (g_pos g); cbn; discriminate|]. intro; apply Q; auto.
Qed.
Lemma ahead_quiet g l p dt s : j_enf (step_ahead g l p dt s) = false -> step_ahead g l p dt s = s.
Proof.
  rewrite ahead_eq. destruct (q_hp l); [|reflexivity]. destruct (unsafe _ _ _ _); [discriminate|].
  unfold tosafe. destruct (_ && _)%bool; [|reflexivity]. cbv zeta. destruct (negb _); [discriminate|reflexivity].
Qed.
Lemma joint_quiet g l p v dt s : j_enf (joint_step g l p v dt s) = false ->
  j_p (joint_step g l p v dt s) = j_p s /\
  (noticeable (j_v s) -> j_v (joint_step g l p v dt s) = j_v s) /\
  (noticeable (j_a s) \/ (q_ha l = false /\ q_hd l = false) -> j_a (joint_step g l p v dt s) = j_a s).
Proof.
  unfold joint_step. intro H. pose proof (ahead_quiet _ _ _ _ _ H) as A. rewrite A in *.
  apply acc_quiet in H. destruct H as (H & P3 & V3 & A3). pose proof H as H'. apply vel_quiet in H. destruct H as (H & P2 & A2 & V2).
  apply pos_quiet in H. destruct H as (_ & P1 & A1 & V1). repeat split.
  - congruence.
  - intro N. specialize (V1 N). rewrite V3, V2; congruence.
  - intro N. rewrite A3; [congruence|]. rewrite A2, A1. exact N.
Qed.

(** T6 *)
Theorem quiet_unchanged lims cur d dt out :
  on_enforce lims cur d dt = (out, false) -> 0 < dt -> full lims (t_p cur) -> full lims (t_p d) \/ full lims (t_v d) ->
  t_p out = t_p d /\
  (forall i, (i < njoints lims)%nat -> full lims (t_v d) -> noticeable (vel d i) -> vel out i = vel d i) /\
  (forall i, (i < njoints lims)%nat -> full lims (t_a d) -> noticeable (acc d i) \/ (q_ha (lim lims i) = false /\ q_hd (lim lims i) = false) -> acc out i = acc d i).
Proof.
  intros E D F G. pose proof (out_ans _ _ _ _ _ _ E D F G) as A. symmetry in A.
  pose proof (no_ans_no_brake _ _ _ _ A) as B.
  assert (Q : forall i, (i < njoints lims)%nat -> j_enf (one lims cur d dt i) = false).
  { intros i L. destruct (j_enf (one lims cur d dt i)) eqn:X; [|reflexivity].
    assert (Y : existsb j_enf (map (one lims cur d dt) (seq 0 (List.length lims))) = true) by (apply in_one; exists i; auto). congruence. }
  assert (FI : forall i, fin lims cur d dt i = one lims cur d dt i) by (intro; unfold fin; rewrite B; reflexivity).
  repeat split.
  - destruct (out_len _ _ _ _ _ _ E D F G) as (LP & _).
    destruct (Nat.eq_dec (List.length (t_p d)) (List.length lims)) as [X|X].
    + apply (nth_ext _ _ 0 0 LP). intros i L. rewrite LP, X in L.
      change (pos out i = pos d i). rewrite (out_pos _ _ _ _ _ _ E) by auto. rewrite FI.
      destruct (joint_quiet _ _ _ _ _ _ (Q i L)) as (P & _). unfold one. rewrite P. cbn. unfold has, pos. rewrite X, Nat.eqb_refl. reflexivity.
    + rewrite enforce_eq in E by auto. cbv zeta in E. injection E as <- _. cbn. unfold has. apply Nat.eqb_neq in X. rewrite X. reflexivity.
  - intros i L V N. rewrite (out_vel _ _ _ _ _ _ E) by auto. rewrite FI.
    destruct (joint_quiet _ _ _ _ _ _ (Q i L)) as (_ & P & _).
    assert (Z : j_v (start_joint (given_in (List.length lims) d) d i) = vel d i) by (cbn; unfold has; rewrite V, Nat.eqb_refl; reflexivity).
    unfold one. rewrite P; [exact Z|]. rewrite Z. exact N.
  - intros i L V N. rewrite (out_acc _ _ _ _ _ _ E) by auto. rewrite FI.
    destruct (joint_quiet _ _ _ _ _ _ (Q i L)) as (_ & _ & P).
    assert (Z : j_a (start_joint (given_in (List.length lims) d) d i) = acc d i) by (cbn; unfold has; rewrite V, Nat.eqb_refl; reflexivity).
    unfold one. rewrite P; [exact Z|]. rewrite Z. exact N.
Qed.

(** a command that respects the limits: velocity w, and position q if given *)
Lemma pos_calm l p dt s (g : given) :
  (g_pos g = true -> within l (j_p s)) -> sound l -> noticeable (j_v s) \/ (j_v s == 0 /\ g_pos g = true /\ j_p s == p) ->
  step_position g l p dt s = s.
Proof.
  intros W S N. unfold step_position. destruct (g_pos g) eqn:G; [|reflexivity]. cbv zeta.
  set (s1 := if q_hp l then _ else s).
  assert (X : s1 = s).
  { unfold s1. destruct (q_hp l) eqn:H; [|reflexivity]. destruct (W eq_refl H) as [A B].
    destruct S as (S & _). specialize (S H). destruct (qclamp_cases (j_p s) _ _ S) as [[? ?]|[[? ?]|(? & ? & C)]]; try (exfalso; lra).
    rewrite C. rewrite (proj2 (Qeq_bool_iff _ _) (Qeq_refl _)). reflexivity. }
  rewrite X. destruct N as [N|(N & _ & Q)].
  - assert (is_tiny (j_v s) = false) as -> by (apply is_tiny_f, N). rewrite andb_false_r. reflexivity.
  - assert (is_tiny (j_p s - p) = true) as ->; [|reflexivity]. apply is_tiny_t. rewrite Q. setoid_replace (p - p) with 0 by ring. cbv. discriminate.
Qed.
Lemma vel_calm g l p v dt s : 0 < dt -> noticeable (j_v s) \/ (j_v s == 0 /\ g_pos g = true /\ j_p s == p) -> speed_ok l (j_v s) ->
  let s' := step_velocity g l p v dt s in j_v s' == j_v s /\ j_p s' = j_p s /\ j_a s' = j_a s /\ j_enf s' = j_enf s.
Proof.
  intros D N S. unfold step_velocity. cbv zeta. destruct (q_hv l) eqn:H; [|repeat split; reflexivity].
  specialize (S H). destruct N as [N|(N & _ & Q)].
  - assert (is_tiny (j_v s) = false) as -> by (apply is_tiny_f, N).
    assert (qlt (q_maxv l) (Qabs (j_v s)) = false) as -> by (apply qlt_f, S). repeat split; reflexivity.
  - destruct (is_tiny (j_v s)).
    + cbn [set_v j_v]. assert (Z : (j_p s - p) / dt == 0) by (rewrite Q; field; lra).
      assert (qlt (q_maxv l) (Qabs ((j_p s - p) / dt)) = false) as ->.
      { apply qlt_f. rewrite Z. rewrite N in S. exact S. }
      cbn. repeat split; try reflexivity. rewrite Z, N. reflexivity.
    + assert (qlt (q_maxv l) (Qabs (j_v s)) = false) as -> by (apply qlt_f, S). repeat split; reflexivity.
Qed.
Lemma acc_calm g l p v dt s : 0 < dt -> j_a s == 0 -> rate_ok l dt v (j_v s) ->
  let s' := step_acceleration g l p v dt s in j_v s' = j_v s /\ j_p s' = j_p s /\ j_enf s' = j_enf s.
Proof.
  intros D A (R1 & R2 & R3). cbv zeta. rewrite step_acc_eq. destruct (_ || _)%bool; [|repeat split; reflexivity]. cbv zeta.
  set (s1 := if is_tiny _ then _ else _).
  assert (Q : j_v s1 = j_v s /\ j_p s1 = j_p s /\ j_enf s1 = j_enf s) by (unfold s1; destruct (is_tiny (j_a s)); repeat split; reflexivity).
  destruct (which l v (a0 v dt s)) as [m|] eqn:W; [|exact Q].
  assert (X : a0 v dt s * dt == j_v s - v) by (apply a0_dt; [exact D|left; exact A]).
  assert (qlt m (Qabs (a0 v dt s)) = false) as ->; [|exact Q].
  apply qlt_f. pose proof (abs_scale dt D _ _ X) as B. pose proof (slow_iff v dt D _ _ X) as SL.
  assert (Qabs (j_v s - v) <= m * dt) as C.
  { unfold which in W. destruct (slowing v (a0 v dt s)) eqn:Y.
    - pose proof (proj1 SL eq_refl) as NG. cbn in W. destruct (q_hd l) eqn:HD; [injection W as <-; auto|].
      destruct (q_ha l) eqn:HA; [injection W as <-; auto|discriminate].
    - cbn in W. destruct (q_ha l) eqn:HA; [injection W as <-|discriminate]. apply R1; auto.
      destruct (Qlt_le_dec ((j_v s - v) * v) 0) as [NG|NG]; [|exact NG]. apply SL in NG. discriminate. }
  rewrite B in C. destruct (Qlt_le_dec m (Qabs (a0 v dt s))); [|assumption]. exfalso. nra.
Qed.
Lemma abs_div_pos a b : 0 < b -> Qabs (a / b) == Qabs a / b.
Proof. intro H. unfold Qdiv. rewrite Qabs_Qmult. rewrite (Qabs_pos (/ b)); [reflexivity|]. apply Qlt_le_weak, Qinv_lt_0_compat, H. Qed.
Lemma le_div a b c : 0 < b -> (a / b <= c <-> a <= b * c).
Proof.
  intro H. pose proof (qdiv_mul a b H) as K. set (x := a / b) in *. split; intro Y; nra.
Qed.
Lemma sq_opp w : Qabs (- w * w) == w * w.
Proof. setoid_replace (- w * w) with (- (w * w)) by ring. rewrite Qabs_opp. apply Qabs_pos. nra. Qed.
(** the two distances compared with the room *)
Lemma dist1 r w : 0 < r -> Qabs (- w * w / (2 * r)) * (2 * r) == w * w.
Proof. intro R. rewrite abs_div_pos by lra. rewrite qdiv_mul by lra. apply sq_opp. Qed.
Lemma dist2 r w : 0 < r -> w * Qabs (w / r) * r == w * Qabs w.
Proof. intro R. rewrite abs_div_pos by exact R. pose proof (qdiv_mul (Qabs w) r R) as K. set (x := Qabs w / r) in *. rewrite <- K. ring. Qed.

Lemma stop_pos l dt s : sound l -> 0 < dt -> ~ j_v s == 0 -> 0 < stop_rate l dt s.
Proof.
  intros (_ & _ & A & D) T N. unfold stop_rate. destruct (q_hd l); [auto|]. destruct (q_ha l); [auto|].
  rewrite abs_div_pos by exact T. pose proof (qdiv_mul (Qabs (j_v s)) dt T) as K. set (x := Qabs (j_v s) / dt) in *.
  assert (0 < Qabs (j_v s)) by (destruct (qabs_cases (j_v s)) as [[Y ->]|[Y ->]]; [lra|]; destruct (Qlt_le_dec 0 (j_v s)); [assumption|exfalso; apply N; lra]).
  destruct (Qlt_le_dec 0 x); [assumption|]. exfalso. nra.
Qed.
(** when the plan-ahead check raises the alarm *)
Lemma unsafe_iff l p dt s r : sound l -> 0 < dt -> (r == stop_rate l dt s) -> (q_hp l = true -> within l p) -> q_hp l = true ->
  unsafe l p dt s = true <->
   (j_v s < 0 /\ 2 * r * (p - q_minp l) < j_v s * j_v s) \/ (0 < j_v s /\ r * (q_maxp l - p) < j_v s * j_v s).
Proof.
  intros S D R W H. set (w := j_v s) in *.
  destruct (Qeq_dec w 0) as [Z|Z].
  { unfold unsafe, toward. fold w. assert (qlt w 0 = false) as -> by (apply qlt_f; lra). assert (qlt 0 w = false) as -> by (apply qlt_f; lra).
    cbn. split; [discriminate|]. intros [[? _]|[? _]]; lra. }
  pose proof (stop_pos l dt s S D Z) as P. rewrite <- R in P.
  destruct (W H H) as [W1 W2].
  pose proof (dist1 (stop_rate l dt s) w ltac:(lra)) as K1. pose proof (dist2 (stop_rate l dt s) w ltac:(lra)) as K2.
  rewrite <- R in K1, K2.
  unfold unsafe. cbv zeta. fold w. unfold toward. rewrite !orb_true_iff, !andb_true_iff, !qlt_t.
  rewrite <- R.
  set (d1 := Qabs (- w * w / (2 * r))) in *. set (d2 := w * Qabs (w / r)) in *.
  destruct (qabs_cases w) as [[Y Y2]|[Y Y2]]; rewrite Y2 in K2.
  - split; intro X.
    + left. split; [exact Y|]. destruct X as [[[_ X]|[X _]]|[[_ X]|[X _]]]; try lra; [nra|]. exfalso. nra.
    + left. left. split; [exact Y|]. destruct X as [[_ X]|[X _]]; [|lra]. destruct (Qlt_le_dec (p - q_minp l) d1); [assumption|]. exfalso. nra.
  - assert (0 < w) by (destruct (Qlt_le_dec 0 w); [assumption|exfalso; apply Z; lra]).
    split; intro X.
    + right. split; [assumption|]. destruct X as [[[X _]|[_ X]]|[[X _]|[_ X]]]; try lra; nra.
    + right. right. split; [assumption|]. destruct X as [[X _]|[_ X]]; [lra|]. destruct (Qlt_le_dec (q_maxp l - p) d2); [assumption|]. exfalso. nra.
Qed.
