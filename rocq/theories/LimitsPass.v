(** LimitsPass.v -- proofs about PassSpec.v. *)
From Coq Require Import ZArith Bool List Lia SpecFloat.
From Verif Require Import LimitsModel FloatOrder FloatReal LimitsSpec LimitsProofs LimitsMain LimitsHist PassSpec.
Open Scope Z_scope.

Lemma clamp_id v lo hi : fle lo v = true -> fle v hi = true -> fclamp v lo hi = Some v /\ is_limited v lo hi = false.
Proof.
  intros A B. pose proof (fle_trans _ _ _ A B) as C. unfold fclamp, is_limited.
  rewrite (fle_not_lt _ _ C), (fle_not_lt _ _ A), (fle_not_lt _ _ B). auto.
Qed.
Lemma limit1_id des bs : (forall v lo hi, commands des v -> bs v = (lo, hi) -> fle lo v = true /\ fle v hi = true) -> limit1 des bs = Some (des, false).
Proof.
  intros H. unfold limit1. destruct des as [v|]; [|reflexivity]. destruct (isnan v) eqn:N; [reflexivity|].
  destruct (bs v) as [lo hi] eqn:B. destruct (H v lo hi (conj eq_refl N) B) as [A C]. destruct (clamp_id v lo hi A C) as [-> ->]. reflexivity.
Qed.
Lemma limit1_id' des bs : (forall v lo hi, commands des v -> bs v = (lo, hi) -> flt v lo = false /\ flt hi v = false /\ flt hi lo = false) -> limit1 des bs = Some (des, false).
Proof.
  intros H. unfold limit1. destruct des as [v|]; [|reflexivity]. destruct (isnan v) eqn:N; [reflexivity|].
  destruct (bs v) as [lo hi] eqn:B. destruct (H v lo hi (conj eq_refl N) B) as (A & C & D). unfold fclamp, is_limited. rewrite A, C, D. reflexivity.
Qed.
Lemma fill_compared (prev act des : option F) (x : F) : commands des x -> forall known : bool, (if known then prev else fill1 prev act des) = compared_with known prev act des.
Proof. intros [-> N] known. destruct known; [reflexivity|]. unfold fill1, compared_with. rewrite N. destruct act; reflexivity. Qed.
Lemma fill_pos_c prev act des x : commands (d_pos des) x -> d_pos (fill prev act des) = compared_with (has_data prev) (d_pos prev) (d_pos act) (d_pos des).
Proof. intros H. unfold fill. rewrite <- (fill_compared _ (d_pos act) _ _ H (has_data prev)). destruct (has_data prev); reflexivity. Qed.
Lemma fill_vel_c prev act des x : commands (d_vel des) x -> d_vel (fill prev act des) = compared_with (has_data prev) (d_vel prev) (d_vel act) (d_vel des).
Proof. intros H. unfold fill. rewrite <- (fill_compared _ (d_vel act) _ _ H (has_data prev)). destruct (has_data prev); reflexivity. Qed.
Lemma delta_max l va dt : pos_delta l va dt = max_step l va dt.
Proof. unfold pos_delta, max_step. destruct (l_ha l); [reflexivity|]. unfold fmin. rewrite flt_irrefl. reflexivity. Qed.
Lemma fmin_nn_glb a b c : fle c a = true -> fle c b = true -> fle c (fmin a b) = true. Proof. apply fmin_glb. Qed.
(** bounds that contain the value: in order, so not swapped *)
Lemma swap_keeps b v lo hi : fle (fst b) v = true -> fle v (snd b) = true -> swap b = (lo, hi) -> fle lo v = true /\ fle v hi = true.
Proof. intros A B. rewrite (swap_le b) by exact (fle_trans _ _ _ A B). destruct b. intros [= <- <-]. auto. Qed.
Lemma fmin_below a b v : fle a v = true -> isnan b = false -> fle (fmin a b) v = true.
Proof. intros A N. eapply fle_trans; [apply fmin_l; [apply (fle_nn _ _ A)|exact N]|exact A]. Qed.
Lemma fmax_above a b v : fle v a = true -> isnan b = false -> fle v (fmax a b) = true.
Proof. intros A N. eapply fle_trans; [exact A|]. apply fmax_l; [apply (fle_nn _ _ A)|exact N]. Qed.

Lemma nan_eq (x : F) : isnan x = true -> x = nan. Proof. destruct x; try discriminate. reflexivity. Qed.
Lemma flt_nan_l (x : F) : flt nan x = false. Proof. reflexivity. Qed.
Lemma flt_nan_r (x : F) : flt x nan = false. Proof. destruct x as [[]|[]| |[] m e]; reflexivity. Qed.
Lemma nan_keeps v : commands v nan -> False. Proof. intros [_ H]. discriminate. Qed.
Lemma pass_pos l prev act des dt : respects l prev act des dt ->
  limit1 (d_pos des) (fun _ => position_limits l (d_vel act) (d_pos act) (d_pos (fill prev act des)) dt) = Some (d_pos des, false).
Proof.
  intros R. apply limit1_id'. intros p lo hi C B. destruct (re_pos _ _ _ _ _ R p C) as (W & _ & W3).
  rewrite (fill_pos_c _ _ _ _ C) in B. unfold position_limits in B. unfold pos_ref in B. rewrite delta_max in B.
  match type of B with context [match ?o with Some _ => ?o | None => ?q end] => replace (match o with Some _ => o | None => q end)
     with (match o with None => q | r => r end) in B by (destruct o; reflexivity) end.
  destruct W as [[W1 W2]|(_ & N1 & N2)].
  - assert (K : fle lo p = true /\ fle p hi = true); [|destruct K as [K1 K2]; rewrite (fle_not_lt _ _ K1), (fle_not_lt _ _ K2), (fle_not_lt _ _ (fle_trans _ _ _ K1 K2)); auto].
    destruct (l_hv l); [|eapply swap_keeps; [| |exact B]; assumption].
    specialize (W3 eq_refl). destruct (match compared_with _ _ _ _ with None => d_pos act | r => r end) as [r|] eqn:RF in *;
      [|eapply swap_keeps; [| |exact B]; assumption].
    destruct (W3 r eq_refl) as [V1 V2]. eapply swap_keeps; [| |exact B]; cbn [fst snd].
    + apply fmax_lub; [apply fmin_below; [exact V1|apply (fle_nn _ _ W2)]|exact W1].
    + apply fmin_glb; [|exact W2]. apply fmax_above; [exact V2|].
      apply fmax_nn; [apply fmin_nn; [apply (fle_nn _ _ V1)|apply (fle_nn _ _ W2)]|apply (fle_nn _ _ W1)].
  - rewrite (nan_eq _ N1), (nan_eq _ N2) in B.
    destruct (l_hv l); [|cbn [swap] in B; rewrite flt_nan_l in B; injection B as <- <-; rewrite ?flt_nan_l, ?flt_nan_r; auto].
    specialize (W3 eq_refl). destruct (match compared_with _ _ _ _ with None => d_pos act | r => r end) as [r|] eqn:RF in *;
      [|cbn [swap] in B; rewrite flt_nan_l in B; injection B as <- <-; rewrite ?flt_nan_l, ?flt_nan_r; auto].
    destruct (W3 r eq_refl) as [V1 V2]. cbv zeta in B.
    set (x := fsub r _) in *. set (y := fadd r _) in *. pose proof (fle_trans _ _ _ V1 V2) as V3.
    replace (fmin x nan) with x in B by (unfold fmin; rewrite flt_nan_l; reflexivity).
    replace (fmax x nan) with x in B by (unfold fmax; rewrite flt_nan_r; reflexivity).
    replace (fmax y x) with y in B by (unfold fmax; rewrite (fle_not_lt _ _ V3); reflexivity).
    replace (fmin y nan) with y in B by (unfold fmin; rewrite flt_nan_l; reflexivity).
    destruct (swap_keeps (x, y) p lo hi V1 V2 B) as [K1 K2]. rewrite (fle_not_lt _ _ K1), (fle_not_lt _ _ K2), (fle_not_lt _ _ (fle_trans _ _ _ K1 K2)). auto.
Qed.
Lemma pass_vel l prev act des dt : respects l prev act des dt ->
  limit1 (d_vel des) (fun v => velocity_limits l v (d_pos act) (d_vel (fill prev act des)) dt) = Some (d_vel des, false).
Proof.
  intros R. apply limit1_id. intros v lo hi C B. unfold velocity_limits in B.
  destruct (l_hv l) eqn:Hv.
  2:{ injection B as <- <-. destruct C as [_ N]. destruct v as [[]|[]| |[] m e]; try discriminate; split; reflexivity. }
  destruct (re_vel _ _ _ _ _ R v C Hv) as ([W1 W2] & WP & WA). rewrite (fill_vel_c _ _ _ _ C) in B.
  set (bb := match d_pos act with Some p => if l_hp l then vel_by_pos l v p dt else (fopp (l_maxv l), l_maxv l) | None => (fopp (l_maxv l), l_maxv l) end) in B.
  assert (K : fle (fst bb) v = true /\ fle v (snd bb) = true).
  { unfold bb. destruct (d_pos act) as [x|] eqn:E; [|auto]. destruct (l_hp l); [|auto]. destruct (WP eq_refl x eq_refl) as ([I1 I2] & [J1 J2]).
    unfold vel_by_pos. rewrite (fle_not_lt _ _ I1), (fle_not_lt _ _ I2). cbn [orb fst snd]. split; [apply fmax_lub|apply fmin_glb]; assumption. }
  destruct K as [K1 K2]. cbv zeta in B. destruct (compared_with _ _ _ _) as [w|] eqn:CW; [|exact (swap_keeps _ _ _ _ K1 K2 B)].
  destruct (l_ha l); [|exact (swap_keeps _ _ _ _ K1 K2 B)]. destruct (WA eq_refl w eq_refl) as [A1 A2].
  eapply swap_keeps; [| |exact B]; cbn [fst snd]; [apply fmax_lub; assumption | apply fmin_glb; assumption].
Qed.
Lemma pass_eff l prev act des dt : respects l prev act des dt ->
  limit1 (d_eff des) (fun _ => effort_limits l (d_pos act) (d_vel act)) = Some (d_eff des, false).
Proof.
  intros R. apply limit1_id. intros e lo hi C B. unfold effort_limits in B.
  destruct (l_he l) eqn:He.
  2:{ injection B as <- <-. destruct C as [_ N]. destruct e as [[]|[]| |[] m x]; try discriminate; split; reflexivity. }
  destruct (re_eff _ _ _ _ _ R e C He) as ([W1 W2] & WP & WV).
  match type of B with swap ?x = _ => assert (E : x = (fopp (l_maxe l), l_maxe l)) end.
  { assert (L : forall a b, flt a b = true -> fle b a = false).
    { intros a b H. destruct (fle b a) eqn:Q; [|reflexivity]. apply fle_not_lt in Q. congruence. }
    assert (E1 : forall x y (z : F * F), d_pos act = x -> d_vel act = y -> 
       match x, y with Some p, Some v => if l_hp l then if fle p (l_minp l) && fle v fzero then (fzero, snd z)
                    else if fle (l_maxp l) p && fle fzero v then (fst z, fzero) else z else z | _, _ => z end = z).
    { intros x y z Ex Ey. destruct x as [p|]; [|reflexivity]. destruct y as [v|]; [|reflexivity]. destruct (l_hp l) eqn:Hp; [|reflexivity].
      destruct (WP eq_refl p Ex) as [I1 I2]. rewrite (L _ _ I1), (L _ _ I2). reflexivity. }
    cbn zeta. rewrite (E1 _ _ _ eq_refl eq_refl). destruct (d_vel act) as [v|] eqn:Ev; [|reflexivity]. destruct (l_hv l) eqn:Hv; [|reflexivity].
    destruct (WV eq_refl v eq_refl) as [V1 V2]. rewrite (fle_not_lt _ _ V1), (fle_not_lt _ _ V2). reflexivity. }
  rewrite E in B. eapply swap_keeps; [| |exact B]; assumption.
Qed.
Lemma slow_b a va : match va with Some v => (flt a fzero && flt fzero v) || (flt fzero a && flt v fzero) | None => false end = true <-> slowing_down a va.
Proof.
  unfold slowing_down. destruct va as [v|]; [|split; [discriminate|intros (v & E & _); discriminate]].
  rewrite orb_true_iff, !andb_true_iff. split; [intros H; exists v; auto|intros (w & E & H); injection E as <-; exact H].
Qed.
Lemma pass_acc l prev act des dt : respects l prev act des dt ->
  limit1 (d_acc des) (fun a => acceleration_limits l a (d_vel act)) = Some (d_acc des, false).
Proof.
  intros R. apply limit1_id. intros a lo hi C B. destruct (re_acc _ _ _ _ _ R a C) as [W1 W2]. unfold acceleration_limits in B. cbv zeta in B.
  pose proof (slow_b a (d_vel act)) as SB. set (sl := match d_vel act with Some v => _ | None => false end) in *.
  destruct (l_hd l) eqn:Hd; cbn [andb] in B; [destruct sl eqn:Es|].
  - destruct (W1 eq_refl (proj1 SB eq_refl)) as [V1 V2]. eapply swap_keeps; [| |exact B]; assumption.
  - destruct (l_ha l); [|injection B as <- <-; destruct C as [_ N]; destruct a as [[]|[]| |[] m x]; try discriminate; split; reflexivity].
    destruct W2 as [V1 V2]; [reflexivity|intros [_ K]; apply SB in K; discriminate|]. eapply swap_keeps; [| |exact B]; assumption.
  - destruct (l_ha l); [|injection B as <- <-; destruct C as [_ N]; destruct a as [[]|[]| |[] m x]; try discriminate; split; reflexivity].
    destruct W2 as [V1 V2]; [reflexivity|intros [K _]; discriminate|]. eapply swap_keeps; [| |exact B]; assumption.
Qed.
Lemma d_throw : double throw_tol. Proof. vm_compute. reflexivity. Qed.
Lemma main_pass l prev act des dt : double (l_minp l) -> double (l_maxp l) -> (l_hp l = true -> pos_limits_ok l) -> dt_ok dt -> respects l prev act des dt ->
  exists prev', enforce l prev act des dt = Done prev' des false.
Proof.
  intros D1 D2 HP OKd R. unfold enforce. 
  replace (fle dt fzero) with false by (symmetry; destruct (fle dt fzero) eqn:Q; [|reflexivity]; apply fle_not_lt in Q; destruct OKd as [_ P]; congruence).
  assert (T : commands_position des && out_of_bounds l (d_pos act) = false).
  { unfold commands_position. destruct (d_pos des) as [p|] eqn:E; [|reflexivity]. destruct (isnan p) eqn:N; [reflexivity|]. cbn [negb andb].
    destruct (re_pos _ _ _ _ _ R p (conj E N)) as (_ & I & _). unfold out_of_bounds. destruct (d_pos act) as [x|] eqn:EA; [|reflexivity].
    destruct (l_hp l) eqn:Hp; [|reflexivity]. destruct (I eq_refl x eq_refl) as [I1 I2]. cbn [andb].
    destruct (HP eq_refl) as (F1 & F2 & _).
    assert (TT : fle fzero throw_tol = true) by (vm_compute; reflexivity).
    rewrite (fle_not_lt x (fadd (l_maxp l) throw_tol)), (fle_not_lt (fsub (l_minp l) throw_tol) x); [reflexivity| |].
    - eapply fle_trans; [apply sub_le_self; auto using d_throw|exact I1].
    - eapply fle_trans; [exact I2|apply self_le_add; auto using d_throw]. }
  cbv zeta. rewrite T, (pass_pos _ _ _ _ _ R), (pass_vel _ _ _ _ _ R), (pass_eff _ _ _ _ _ R), (pass_acc _ _ _ _ _ R).
  rewrite (limit1_id (d_jerk des)).
  2:{ intros v lo hi C [= <- <-]. exact (re_jerk _ _ _ _ _ R v C). }
  unfold finish. cbn [orb]. eexists. destruct des. reflexivity.
Qed.
(** what was let through is remembered *)
Lemma remember_all prev p v e a j prev' cmd b : finish prev p v e a j = Done prev' cmd b ->
  (forall x, commands (d_pos cmd) x -> d_pos prev' = Some x) /\ (forall x, commands (d_vel cmd) x -> d_vel prev' = Some x) /\
  (forall x, commands (d_eff cmd) x -> d_eff prev' = Some x) /\ (forall x, commands (d_acc cmd) x -> d_acc prev' = Some x) /\
  (forall x, commands (d_jerk cmd) x -> d_jerk prev' = Some x).
Proof.
  intros H. apply finish_done in H. destruct H as (bp & bv & be & ba & bj & _ & _ & _ & _ & _ & -> & _). cbn [remember d_pos d_vel d_eff d_acc d_jerk].
  repeat apply conj; intros x [-> N]; cbn [remember1]; rewrite N; reflexivity.
Qed.
Lemma main_remembers l prev act des dt prev' cmd b : flt fzero dt = true -> enforce l prev act des dt = Done prev' cmd b ->
  (forall x, commands (d_pos cmd) x -> d_pos prev' = Some x) /\ (forall x, commands (d_vel cmd) x -> d_vel prev' = Some x) /\
  (forall x, commands (d_eff cmd) x -> d_eff prev' = Some x) /\ (forall x, commands (d_acc cmd) x -> d_acc prev' = Some x) /\
  (forall x, commands (d_jerk cmd) x -> d_jerk prev' = Some x).
Proof.
  intros P H. unfold enforce in H. replace (fle dt fzero) with false in H by (symmetry; destruct (fle dt fzero) eqn:Q; [|reflexivity]; apply fle_not_lt in Q; congruence).
  destruct (_ && _); [discriminate|]. exact (remember_all _ _ _ _ _ _ _ _ _ H).
Qed.
Lemma main_remembers_soft l s prev act des dt prev' cmd b : flt fzero dt = true -> enforce_soft l s prev act des dt = Done prev' cmd b ->
  (forall x, commands (d_pos cmd) x -> d_pos prev' = Some x) /\ (forall x, commands (d_vel cmd) x -> d_vel prev' = Some x) /\
  (forall x, commands (d_eff cmd) x -> d_eff prev' = Some x) /\ (forall x, commands (d_acc cmd) x -> d_acc prev' = Some x) /\
  (forall x, commands (d_jerk cmd) x -> d_jerk prev' = Some x).
Proof.
  intros P H. unfold enforce_soft in H. replace (fle dt fzero) with false in H by (symmetry; destruct (fle dt fzero) eqn:Q; [|reflexivity]; apply fle_not_lt in Q; congruence).
  cbv zeta in H. destruct (soft_vel _ _ _ _); [|discriminate]. destruct (_ && _); [discriminate|]. exact (remember_all _ _ _ _ _ _ _ _ _ H).
Qed.
