From Coq Require Import QArith Qabs Qminmax List Bool Lqa Lia Setoid.
From Verif Require Import SatModel SatSpec SatProofs.
Import ListNotations.
Open Scope Q_scope.

(** what on_enforce computes for joint i *)
Definition one (lims : list qlim) (cur d : point) (dt : Q) (i : nat) : js :=
  joint_step (given_in (List.length lims) d) (lim lims i) (pos cur i) (now lims cur i) dt (start_joint (given_in (List.length lims) d) d i).
Definition brakes (lims : list qlim) (cur d : point) (dt : Q) : bool := existsb j_brake (map (one lims cur d dt) (seq 0 (List.length lims))).
Definition fin (lims : list qlim) (cur d : point) (dt : Q) (i : nat) : js :=
  if brakes lims cur d dt then brake (given_in (List.length lims) d) (lim lims i) (pos cur i) (now lims cur i) dt (one lims cur d dt i)
  else one lims cur d dt i.

Lemma enforce_eq lims cur d dt : 0 < dt -> full lims (t_p cur) -> full lims (t_p d) \/ full lims (t_v d) ->
  on_enforce lims cur d dt =
   (let g := given_in (List.length lims) d in let js2 := map (fin lims cur d dt) (seq 0 (List.length lims)) in
    {| t_p := if g_pos g then map j_p js2 else t_p d; t_v := if g_vel g then map j_v js2 else t_v d;
       t_a := if g_acc g then map j_a js2 else t_a d |},
    existsb j_enf (map (one lims cur d dt) (seq 0 (List.length lims)))).
Proof.
  intros D P G. unfold on_enforce.
  destruct (Qle_bool dt 0) eqn:Z; [apply Qle_bool_iff in Z; exfalso; lra|].
  assert (X : (has (List.length lims) (t_p cur) && (g_pos (given_in (List.length lims) d) || g_vel (given_in (List.length lims) d)))%bool = true).
  { unfold has, given_in, full in *. cbn. rewrite P, Nat.eqb_refl. cbn. destruct G as [G|G]; unfold has; rewrite G, Nat.eqb_refl; [reflexivity|apply orb_true_r]. }
  rewrite X. cbn [negb]. cbv zeta.
  unfold fin, brakes. unfold one, now, lim, pos, entry, has.
  match goal with |- context[existsb j_brake ?m] => destruct (existsb j_brake m) end; reflexivity.
Qed.

Lemma refused lims cur d dt : dt <= 0 \/ ~ full lims (t_p cur) \/ (~ full lims (t_p d) /\ ~ full lims (t_v d)) ->
  on_enforce lims cur d dt = (d, false).
Proof.
  intro H. unfold on_enforce. destruct (Qle_bool dt 0) eqn:Z; [reflexivity|].
  destruct H as [H|H]; [apply Qle_bool_iff in H; congruence|].
  unfold has, given_in, full in *. cbn. unfold has.
  destruct H as [H|[H1 H2]].
  - apply Nat.eqb_neq in H. rewrite H. reflexivity.
  - apply Nat.eqb_neq in H1, H2. rewrite H1, H2. cbn. rewrite andb_false_r. reflexivity.
Qed.

Lemma nth_map_seq {A} (f : nat -> A) n i d : (i < n)%nat -> nth i (map f (seq 0 n)) d = f i.
Proof.
  intro H. rewrite (nth_indep _ d (f i)) by (rewrite map_length, seq_length; exact H).
  rewrite (map_nth f (seq 0 n) i i). rewrite seq_nth by exact H. reflexivity.
Qed.
Lemma in_one lims cur d dt (f : js -> bool) : existsb f (map (one lims cur d dt) (seq 0 (List.length lims))) = true <->
  exists i, (i < List.length lims)%nat /\ f (one lims cur d dt i) = true.
Proof.
  rewrite existsb_exists. split.
  - intros (x & I & F). apply in_map_iff in I. destruct I as (i & <- & I). apply in_seq in I. exists i. split; [lia|exact F].
  - intros (i & L & F). exists (one lims cur d dt i). split; [|exact F]. apply in_map. apply in_seq. lia.
Qed.

Section Out.
Variables (lims : list qlim) (cur d out : point) (dt : Q) (ans : bool).
Hypothesis E : on_enforce lims cur d dt = (out, ans).
Hypothesis dtp : 0 < dt.
Hypothesis fp : full lims (t_p cur).
Hypothesis fd : full lims (t_p d) \/ full lims (t_v d).

Lemma out_ans : ans = existsb j_enf (map (one lims cur d dt) (seq 0 (List.length lims))).
Proof. rewrite enforce_eq in E by assumption. cbv zeta in E. congruence. Qed.
Lemma out_vel i : full lims (t_v d) -> (i < List.length lims)%nat -> vel out i = j_v (fin lims cur d dt i).
Proof.
  intros F L. rewrite enforce_eq in E by assumption. cbv zeta in E. injection E as <- _. unfold vel. cbn.
  unfold has. rewrite F, Nat.eqb_refl, map_map. apply (nth_map_seq (fun i => j_v (fin lims cur d dt i))). exact L.
Qed.
Lemma out_pos i : full lims (t_p d) -> (i < List.length lims)%nat -> pos out i = j_p (fin lims cur d dt i).
Proof.
  intros F L. rewrite enforce_eq in E by assumption. cbv zeta in E. injection E as <- _. unfold pos. cbn.
  unfold has. rewrite F, Nat.eqb_refl, map_map. apply (nth_map_seq (fun i => j_p (fin lims cur d dt i))). exact L.
Qed.
Lemma out_acc i : full lims (t_a d) -> (i < List.length lims)%nat -> acc out i = j_a (fin lims cur d dt i).
Proof.
  intros F L. rewrite enforce_eq in E by assumption. cbv zeta in E. injection E as <- _. unfold acc. cbn.
  unfold has. rewrite F, Nat.eqb_refl, map_map. apply (nth_map_seq (fun i => j_a (fin lims cur d dt i))). exact L.
Qed.
Lemma out_len : List.length (t_p out) = List.length (t_p d) /\ List.length (t_v out) = List.length (t_v d) /\ List.length (t_a out) = List.length (t_a d).
Proof.
  rewrite enforce_eq in E by assumption. cbv zeta in E. injection E as <- _. cbn. unfold has.
  repeat split; match goal with |- context[Nat.eqb ?a ?b] => destruct (Nat.eqb a b) eqn:X end; auto;
   apply Nat.eqb_eq in X; rewrite !map_length, seq_length; auto.
Qed.
End Out.

(** the steps, velocity *)
Lemma enf_mono_a g l p v dt s : j_enf s = true -> j_enf (step_acceleration g l p v dt s) = true.
Proof.
  intro H. rewrite step_acc_eq. destruct (q_ha l || q_hd l)%bool; [|exact H]. cbv zeta.
  set (s1 := if is_tiny _ then _ else _). assert (j_enf s1 = true) by (unfold s1; destruct (is_tiny (j_a s)); exact H).
  destruct (which l v (a0 v dt s)) as [m|]; [|exact H0]. destruct (qlt m (Qabs (a0 v dt s))); [|exact H0]. destruct (g_pos g); reflexivity.
Qed.
Definition tosafe (g : given) (l : qlim) (p dt : Q) (s : js) : js :=
  if g_vel g && negb (g_pos g) then
    let e := p + j_v s * dt in let c := qclamp e (q_minp l) (q_maxp l) in
    if negb (Qeq_bool c e) then enforced (set_v s ((c - p) / dt)) else s
  else s.
Definition unsafe (l : qlim) (p dt : Q) (s : js) : bool :=
  let rate := stop_rate l dt s in
  toward (j_v s) (p - q_minp l) (q_maxp l - p) (Qabs ((- j_v s * j_v s) / (2 * rate))) ||
  toward (j_v s) (p - q_minp l) (q_maxp l - p) (j_v s * Qabs (j_v s / rate)).
Lemma ahead_eq g l p dt s : step_ahead g l p dt s =
  if q_hp l then if unsafe l p dt (tosafe g l p dt s) then braking (tosafe g l p dt s) else tosafe g l p dt s else s.
Proof.
  unfold step_ahead. destruct (q_hp l); [|reflexivity]. cbv zeta. fold (tosafe g l p dt s) . unfold unsafe.
  change (if (g_vel g && negb (g_pos g))%bool
      then if negb (Qeq_bool (qclamp (p + j_v s * dt) (q_minp l) (q_maxp l)) (p + j_v s * dt)) then enforced (set_v s ((qclamp (p + j_v s * dt) (q_minp l) (q_maxp l) - p) / dt)) else s else s) with (tosafe g l p dt s).
  set (x := tosafe g l p dt s).
  destruct (toward (j_v x) (p - q_minp l) (q_maxp l - p) (Qabs (- j_v x * j_v x / (2 * stop_rate l dt x)))); [reflexivity|].
  cbn [orb]. destruct (toward _ _ _ _); reflexivity.
Qed.
Lemma ahead_v g l p dt s : j_v (step_ahead g l p dt s) = if q_hp l then j_v (tosafe g l p dt s) else j_v s.
Proof. rewrite ahead_eq. destruct (q_hp l); [|reflexivity]. destruct (unsafe _ _ _ _); reflexivity. Qed.
Lemma ahead_p g l p dt s : j_p (step_ahead g l p dt s) = j_p s.
Proof.
  rewrite ahead_eq. destruct (q_hp l); [|reflexivity].
  assert (j_p (tosafe g l p dt s) = j_p s) by (unfold tosafe; destruct (g_vel g && negb (g_pos g))%bool; [|reflexivity]; cbv zeta; destruct (negb _); reflexivity).
  destruct (unsafe _ _ _ _); exact H.
Qed.
Lemma ahead_a g l p dt s : j_a (step_ahead g l p dt s) = j_a s.
Proof.
  rewrite ahead_eq. destruct (q_hp l); [|reflexivity].
  assert (j_a (tosafe g l p dt s) = j_a s) by (unfold tosafe; destruct (g_vel g && negb (g_pos g))%bool; [|reflexivity]; cbv zeta; destruct (negb _); reflexivity).
  destruct (unsafe _ _ _ _); exact H.
Qed.
Lemma ahead_same g l p dt s : g_pos g = true -> j_v (step_ahead g l p dt s) = j_v s.
Proof. intro H. rewrite ahead_v. unfold tosafe. rewrite H, andb_false_r. destruct (q_hp l); reflexivity. Qed.
Lemma ahead_btw g l p dt s : 0 < dt -> sound l -> within l p -> btw 0 (j_v (step_ahead g l p dt s)) (j_v s).
Proof.
  intros D (S & _) W. rewrite ahead_v. destruct (q_hp l) eqn:H; [|apply btw_refl]. specialize (W H). specialize (S eq_refl).
  unfold tosafe. destruct (g_vel g && negb (g_pos g))%bool; [|apply btw_refl]. cbv zeta.
  destruct (negb _); [|apply btw_refl]. cbn.
  set (e := p + j_v s * dt). set (c := qclamp e (q_minp l) (q_maxp l)).
  pose proof (qdiv_mul (c - p) dt D) as K. set (u := (c - p) / dt) in *. unfold btw.
  destruct (qclamp_cases e (q_minp l) (q_maxp l) S) as [[A B]|[[A B]|(A & B & C)]]; [change (c = q_minp l) in B|change (c = q_maxp l) in B|change (c = e) in C].
  - right. rewrite B in K. unfold e in A. split; nra.
  - left. rewrite B in K. unfold e in A. split; nra.
  - rewrite C in K. unfold e in K. destruct (Qlt_le_dec (j_v s) 0); [right|left]; split; nra.
Qed.
Lemma brake_v g l p v dt s : g_vel g = true -> j_v (brake g l p v dt s) = v + brake_acc l v dt * dt.
Proof. intro H. unfold brake. rewrite H. destruct (g_pos g); reflexivity. Qed.

Lemma given_v lims d : full lims (t_v d) -> g_vel (given_in (List.length lims) d) = true.
Proof. intro H. cbn. unfold has. rewrite H. apply Nat.eqb_refl. Qed.
Lemma given_p lims d : full lims (t_p d) -> g_pos (given_in (List.length lims) d) = true.
Proof. intro H. cbn. unfold has. rewrite H. apply Nat.eqb_refl. Qed.
Lemma not_given_p lims d : ~ full lims (t_p d) -> g_pos (given_in (List.length lims) d) = false.
Proof. intro H. cbn. unfold has. apply Nat.eqb_neq. exact H. Qed.
Lemma not_given_v lims d : ~ full lims (t_v d) -> g_vel (given_in (List.length lims) d) = false.
Proof. intro H. cbn. unfold has. apply Nat.eqb_neq. exact H. Qed.
Lemma start_a lims d i : ~ full lims (t_a d) -> j_a (start_joint (given_in (List.length lims) d) d i) == 0.
Proof. intro H. cbn. unfold has. apply Nat.eqb_neq in H. rewrite H. reflexivity. Qed.

Lemma now_abs0 : Qabs 0 == 0. Proof. reflexivity. Qed.

(** T2 *)
Theorem vel_limit lims cur d dt out ans i :
  on_enforce lims cur d dt = (out, ans) -> 0 < dt -> (i < njoints lims)%nat -> sound (lim lims i) ->
  full lims (t_p cur) -> full lims (t_v d) -> ~ full lims (t_a d) ->
  q_hv (lim lims i) = true -> Qabs (now lims cur i) <= q_maxv (lim lims i) ->
  (full lims (t_p d) \/ within (lim lims i) (pos cur i)) ->
  Qabs (vel out i) <= q_maxv (lim lims i).
Proof.
  intros E D L S F V A H N W. rewrite (out_vel _ _ _ _ _ _ E) by auto.
  assert (M : 0 <= q_maxv (lim lims i)) by (apply S, H).
  unfold fin. destruct (brakes lims cur d dt).
  - rewrite brake_v by (apply given_v, V).
    pose proof (brake_braked (lim lims i) (now lims cur i) dt D S) as B. apply braked_btw in B; auto.
    apply (btw_abs _ _ _ _ N) in B; [exact B|]. rewrite now_abs0. exact M.
  - unfold one, joint_step. set (g := given_in _ d). set (s0 := start_joint g d i). set (l := lim lims i) in *.
    set (s1 := step_position g l (pos cur i) dt s0). set (s2 := step_velocity g l (pos cur i) (now lims cur i) dt s1).
    assert (A2 : acc_ok (now lims cur i) dt s2).
    { apply acc_vel; auto. unfold s1. rewrite acc_pos. apply start_a, A. }
    pose proof (vel_bound g l (pos cur i) (now lims cur i) dt S s1 H) as B2. fold s2 in B2.
    pose proof (acc_btw g l (pos cur i) (now lims cur i) dt D S s2 A2) as B3.
    pose proof (btw_abs _ _ _ _ N B2 B3) as B4.
    destruct W as [W|W].
    + rewrite ahead_same by (apply given_p, W). exact B4.
    + pose proof (ahead_btw g l (pos cur i) dt (step_acceleration g l (pos cur i) (now lims cur i) dt s2) D S W) as B5.
      refine (btw_abs _ _ _ _ _ B4 B5). rewrite now_abs0. exact M.
Qed.

(** T3 *)
Theorem rate_limit lims cur d dt out ans i :
  on_enforce lims cur d dt = (out, ans) -> 0 < dt -> (i < njoints lims)%nat -> sound (lim lims i) ->
  full lims (t_p cur) -> full lims (t_v d) -> ~ full lims (t_a d) ->
  (full lims (t_p d) \/ q_hp (lim lims i) = false) ->
  rate_ok (lim lims i) dt (now lims cur i) (vel out i).
Proof.
  intros E D L S F V A W. rewrite (out_vel _ _ _ _ _ _ E) by auto.
  unfold fin. destruct (brakes lims cur d dt).
  - rewrite brake_v by (apply given_v, V). apply braked_diff; auto. apply brake_braked; auto.
  - unfold one, joint_step. set (g := given_in _ d). set (s0 := start_joint g d i). set (l := lim lims i) in *.
    set (s1 := step_position g l (pos cur i) dt s0). set (s2 := step_velocity g l (pos cur i) (now lims cur i) dt s1).
    assert (A2 : acc_ok (now lims cur i) dt s2).
    { apply acc_vel; auto. unfold s1. rewrite acc_pos. apply start_a, A. }
    pose proof (acc_diff g l (pos cur i) (now lims cur i) dt D S s2 A2) as B.
    destruct W as [W|W].
    + rewrite ahead_same by (apply given_p, W). exact B.
    + rewrite ahead_v, W. exact B.
Qed.

(** T5: velocity commands *)
Theorem vel_next lims cur d dt out ans :
  on_enforce lims cur d dt = (out, ans) -> 0 < dt -> (forall i, (i < njoints lims)%nat -> sound (lim lims i)) ->
  full lims (t_p cur) -> full lims (t_v d) -> ~ full lims (t_p d) ->
  (forall i, (i < njoints lims)%nat -> within (lim lims i) (pos cur i + vel out i * dt)) \/
  (ans = true /\ forall i, (i < njoints lims)%nat -> braked (lim lims i) dt (now lims cur i) (vel out i)).
Proof.
  intros E D S F V P. destruct (brakes lims cur d dt) eqn:B.
  - right. split.
    + rewrite (out_ans _ _ _ _ _ _ E) by auto. apply in_one. unfold brakes in B. apply in_one in B.
      destruct B as (i & L & B). exists i. split; [exact L|]. revert B. unfold one, joint_step. rewrite ahead_eq.
      set (s := step_acceleration _ _ _ _ _ _).
      assert (Z : j_brake s = false).
      { unfold s. rewrite step_acc_eq. unfold step_velocity, step_position. rewrite (not_given_p lims d P).
        repeat match goal with |- context[if ?b then _ else _] => destruct b end; try reflexivity; cbv zeta;
        destruct (which _ _ _); repeat match goal with |- context[if ?b then _ else _] => destruct b end; reflexivity. }
      assert (Z' : j_brake (tosafe (given_in (List.length lims) d) (lim lims i) (pos cur i) dt s) = false) by
        (unfold tosafe; destruct (_ && _)%bool; [|exact Z]; cbv zeta; destruct (negb _); exact Z).
      destruct (q_hp (lim lims i)); [|congruence]. destruct (unsafe _ _ _ _); [reflexivity|]. congruence.
    + intros i L. rewrite (out_vel _ _ _ _ _ _ E) by auto. unfold fin. rewrite B, brake_v by (apply given_v, V).
      apply brake_braked; auto.
  - left. intros i L. rewrite (out_vel _ _ _ _ _ _ E) by auto. unfold fin. rewrite B.
    unfold one, joint_step. set (g := given_in _ d). set (s := step_acceleration _ _ _ _ _ _).
    intro H. rewrite ahead_v, H. unfold tosafe. rewrite (given_v lims d V), (not_given_p lims d P) || (unfold g; rewrite (given_v lims d V), (not_given_p lims d P)).
    cbn [andb negb]. cbv zeta. destruct (S i L) as (S1 & _). specialize (S1 H).
    set (e := pos cur i + j_v s * dt). set (c := qclamp e _ _).
    assert (C : q_minp (lim lims i) <= c <= q_maxp (lim lims i)).
    { unfold c. destruct (qclamp_cases e _ _ S1) as [[X Y]|[[X Y]|(X & Y & Y')]]; [rewrite Y|rewrite Y|rewrite Y']; split; lra. }
    destruct (negb (Qeq_bool c e)) eqn:Q; cbn.
    + pose proof (qdiv_mul (c - pos cur i) dt D) as K. rewrite K. lra.
    + apply negb_false_iff, Qeq_bool_iff in Q. fold e. rewrite <- Q. exact C.
Qed.
